(** * Non-vacuity of C40 - C42 *)
From Verif Require Import Spec SpecTrav Hierarchy Elements Factory History Search SpecSearch ExBase Ex1 Props7.

Definition go (k : skind) (start : loc) (d : string) (s : st) := search_execute k 50 start s (new_searcher d).
Definition res7 (r : res (list unit) * st * searcher) : res (list unit) * list loc * list loc := (r.1.1, sr_result r.2, fr_query r.1.2).
(** The subtree of the root of [s1] *)
Example s1_order : subtree_order (heap s1) 0 [0; 1; 2; 5; 3; 7; 6; 8; 4; 9; 10].
Proof. exists 5. split; vm_compute; reflexivity. Qed.
(** C40: element 4 is found; not found: nothing is left *)
Example c40_found : res7 (go SubElement 0 "root/a/b/c" s1) = (Ok [], [4], [9]).
Proof. vm_compute. reflexivity. Qed.
Example c40_none : res7 (go SubElement 0 "zz" s1) = (Ok [], [], []).
Proof. vm_compute. reflexivity. Qed.
(** two elements with the same qualified name: the first one *)
Example c40_same_names : res7 (go SubElement 0 "root/a" s1) = (Ok [], [1], [2; 5]) /\ qname_of (heap s1) 2 = "root/a".
Proof. vm_compute. split; reflexivity. Qed.
(** C41: a second tree; after a search in the first, a search in the second returns an element of the first *)
Definition s7 : st := run (ops1 ++ [OGenNode fac "other" None]) s0.
Lemma s7_reach : reach s7.
Proof. apply run_reach; [apply reach_init|]. vm_compute. reflexivity. Qed.
Example c41_leak : let s' := (go SubElement 0 "root/a" s7).1.2 in
  res7 (go SubElement 11 (qname_of (heap s7) 5) s') = (Ok [], [5], [11]) /\
  res7 (go SubElement 11 (qname_of (heap s7) 5) s7) = (Ok [], [], []).
Proof. vm_compute. split; reflexivity. Qed.
(** C41: the element found is moved (and thereby renamed) or removed; the same query still returns it *)
Example c41_cache : let r := go SubElement 0 "root/a/b" s1 in
  let s' := run [ORemove 1 "b" None; OAdd 2 3] s1 in
  sr_result r.2 = [3] /\ sr_result (search_execute SubElement 50 4 s' r.2).2 = [3] /\ qname_of (heap s') 3 = "root/a/b" /\
  let s'' := run [ORemove 1 "b" None; OGenNode fac "x" (Some 2); OAdd 11 3] s1 in
  sr_result (search_execute SubElement 50 4 s'' r.2).2 = [3] /\ qname_of (heap s'') 3 = "root/a/x/b".
Proof. vm_compute. repeat split. Qed.
(** C42: from a leaf to a cousin *)
Example c42_cousin : fst (fst (go WholeTree 10 "root/e" s1)) = Ok [] /\ sr_result (go WholeTree 10 "root/e" s1).2 = [5].
Proof. vm_compute. split; reflexivity. Qed.
(** C42: equal uuids: an element with the uuid of the root is never reached *)
Definition dup7 : st := run [ONew KNode "r" "u" "r" (Some 0) None; ONew KNode "a" "a" "a" (Some 0) (Some 0); ONew KNode "x" "u" "x" (Some 0) (Some 1)] s0.
Lemma dup7_reach : reach dup7.
Proof. apply run_reach; [apply reach_init|]. vm_compute. reflexivity. Qed.
Theorem C42_equal_uuids_refuted : exists s start d z, reach s /\ exists_in (heap s) start /\ same_tree (heap s) start z /\ exists_in (heap s) z /\
  qname_of (heap s) z = d /\ exists s' x', search_execute WholeTree 50 start s (new_searcher d) = (Ok [], s', x') /\ sr_result x' = [].
Proof.
  exists dup7, 0, "r/a/x", 2. split; [apply dup7_reach|]. split; [apply existsb_in_ok; vm_compute; reflexivity|].
  split; [exists 0; split; [by left|right; apply ancb_true; vm_compute; reflexivity]|]. split; [apply existsb_in_ok; vm_compute; reflexivity|].
  split; [vm_compute; reflexivity|]. eexists _, _. split; vm_compute; reflexivity.
Qed.
Print Assumptions C42_equal_uuids_refuted.
(** The hypothesis of C42's completeness *)
Lemma distinct_all h l : NoDup (map (uuid_of h) (seq 0 (length h))) -> distinct_uuids h l.
Proof.
  intros Hnd a b _ _ [oa Ha] [ob Hb] E. apply lookup_lt_Some in Ha, Hb.
  eapply (NoDup_lookup _ a b); [exact Hnd| |].
  - rewrite list_lookup_fmap, lookup_seq_lt by done. reflexivity.
  - rewrite list_lookup_fmap, lookup_seq_lt by done. cbn. by rewrite E.
Qed.
Fixpoint nodupb (l : list string) : bool := match l with [] => true | x :: l' => forallb (fun y => negb (String.eqb x y)) l' && nodupb l' end.
Lemma nodupb_ok l : nodupb l = true -> NoDup l.
Proof.
  induction l as [|x l IH]; intros H; [constructor|]. cbn in H. apply andb_true_iff in H as [H1 H2]. constructor; [|by apply IH].
  intros Hin. pose proof (proj1 (forallb_forall _ _) H1 x ltac:(by apply elem_of_list_In)) as X. cbv beta in X. by rewrite String.eqb_refl in X.
Qed.
Example c42_hyp : distinct_uuids (heap s1) 10 /\ same_tree (heap s1) 10 5 /\ qname_of (heap s1) 5 = "root/e".
Proof.
  split; [apply distinct_all, nodupb_ok; vm_compute; reflexivity|]. split; [|vm_compute; reflexivity].
  exists 0. split; right; apply ancb_true; vm_compute; reflexivity.
Qed.
