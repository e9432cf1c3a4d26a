(** * Non-vacuity of C89: nested messages, and three that are refused *)
From Verif Require Import Spec Hierarchy Elements Factory History Traverse Homomorphism HTraverse Encode SpecEnc ExBase Ex1 Props27 SpecDecode.
Local Open Scope nat_scope.

(** a node in a node, an edge in the inner node with a relation to the edge itself and to
    the root, values in the edge and in the root; two nodes with the same uuid *)
Definition m27 : message :=
  mkMsg [mkMN "a" "root" 0 None "x"; mkMN "b" "inner" 1 (Some "a") "x"; mkMN "c" "leaf" 2 (Some "b") "x"; mkMN "c" "leaf" 7 (Some "a") "x"]
        [mkME "e" "edge" 0 "b" "x"]
        [mkMR "r1" "r" "x" 0 "e" "e"; mkMR "r2" "r" "x" 1 "a" "e"; mkMR "r3" "r" "x" 1 "b" "c"]
        [mkMV "v1" "v" 0 "e" "x" [PNum 1%Qc]; mkMV "v2" "w" 1 "a" "x" []] [] [] [].
Definition out27 := create_graph m27 s1 (new_icon 0 0).
Lemma ok_pick (x : res (option loc * hom) * st * icon) : match x with (Ok _, _, _) => true | _ => false end = true ->
  exists r y s' g', x = (Ok (r, y), s', g').
Proof. destruct x as [[[[r y]|e] s'] g']; [by eauto|done]. Qed.
Lemma out27_ok : exists r y s' g', create_graph m27 s1 (new_icon 0 0) = (Ok (r, y), s', g').
Proof. apply ok_pick. vm_compute. reflexivity. Qed.
Example ex_acceptable : acceptable (items m27).
Proof. apply (proj1 (C89_accepted m27 s1 (new_icon 0 0) s1_reach)). destruct out27_ok as (r & y & s' & g' & E). rewrite E. exact (ex_intro _ (r, y) eq_refl). Qed.
Definition n27 := Eval vm_compute in length (heap s1).
(** what the theorem says about it, at concrete places: the later of the two namesakes
    "c" is meant by the last relation *)
Example ex_built : exists r y s' g', create_graph m27 s1 (new_icon 0 0) = (Ok (r, y), s', g') /\ r = Some n27 /\
  parent_of (heap s') (n27 + 2) = Some (n27 + 1) /\ parent_of (heap s') (n27 + 3) = Some n27 /\ parent_of (heap s') (n27 + 7) = Some (n27 + 3) /\
  ep_of (heap s') (n27 + 5) = Some (n27 + 4) /\ hom_node y "c" = Ok 7 /\ hom_dim y 2 = Ok "c".
Proof.
  destruct out27_ok as (r & y & s' & g' & E). exists r, y, s', g'. split; [exact E|].
  destruct (C89_built _ _ _ _ _ _ _ s1_reach E) as (_ & B & HR & _). pose proof (C89_tables _ _ _ _ _ _ _ E) as T0.
  change (length (heap s1)) with n27 in HR. assert (En : length (heap s1) = n27) by (vm_compute; reflexivity).
  assert (P : forall i t p, items m27 !! i = Some t -> parent_of (heap s') (n27 + i) = Some p <-> exists u j, it_parent t = Some u /\ latest (items m27) i u j /\ p = n27 + j).
  { rewrite <- En. exact (bu_parent _ _ _ B). }
  assert (Q : forall i t p, items m27 !! i = Some t -> ep_of (heap s') (n27 + i) = Some p <-> exists u j, it_end t = Some u /\ latest (items m27) i u j /\ p = n27 + j).
  { rewrite <- En. exact (bu_end _ _ _ B). }
  split; [|split; [|split; [|split; [|split; [|split]]]]].
  - destruct r as [l|].
    + destruct HR as (i & n & -> & Hi & Hn & _). destruct i as [|[|[|[|i]]]]; cbn in Hi; try (injection Hi as <-); try discriminate Hn; try discriminate Hi.
      exact (f_equal Some (Nat.add_0_r n27)).
    + destruct (HR (mkMN "a" "root" 0 None "x")); [left|reflexivity].
  - apply (proj2 (P 2 (mkItem KNode "c" "leaf" (Some "b") None []) (n27 + 1) eq_refl)). exists "b", 1. split; [reflexivity|]. split; [|reflexivity].
    split; [lia|]. split; [exists (mkItem KNode "b" "inner" (Some "a") None []); split; [reflexivity|split; [left|]; reflexivity]|]. intros k t H1 H2. lia.
  - replace (Some n27) with (Some (n27 + 0)) by (f_equal; lia). apply (proj2 (P 3 (mkItem KNode "c" "leaf" (Some "a") None []) (n27 + 0) eq_refl)). exists "a", 0. split; [reflexivity|]. split; [|reflexivity].
    split; [lia|]. split; [exists (mkItem KNode "a" "root" None None []); split; [reflexivity|split; [left|]; reflexivity]|].
    intros k t H1 H2 H3 _. assert (k = 1 \/ k = 2) as [->| ->] by lia; injection H3 as <-; discriminate.
  - apply (proj2 (P 7 (mkItem KRel "r3" "r" (Some "c") (Some "b") []) (n27 + 3) eq_refl)). exists "c", 3. split; [reflexivity|]. split; [|reflexivity].
    split; [lia|]. split; [exists (mkItem KNode "c" "leaf" (Some "a") None []); split; [reflexivity|split; [left|]; reflexivity]|].
    intros k t H1 H2 H3 H4. assert (k = 4 \/ k = 5 \/ k = 6) as [->|[->| ->]] by lia; injection H3 as <-; discriminate.
  - apply (proj2 (Q 5 (mkItem KRel "r1" "r" (Some "e") (Some "e") []) (n27 + 4) eq_refl)). exists "e", 4. split; [reflexivity|]. split; [|reflexivity].
    split; [lia|]. split; [exists (mkItem KEdge "e" "edge" (Some "b") None []); split; [reflexivity|split; [right|]; reflexivity]|]. intros k t H1 H2. lia.
  - apply (proj2 (ta_node _ _ T0 "c" 7)). exists (mkMN "c" "leaf" 7 (Some "a") "x"). split; [|reflexivity]. exists 3. split; [reflexivity|]. split; [reflexivity|].
    intros k a H1 H2. apply lookup_lt_Some in H2. cbn in H2. lia.
  - apply (proj2 (ta_dim _ _ T0 2 "c")). exists (mkMN "c" "leaf" 2 (Some "b") "x"). split; [|reflexivity]. exists 2. split; [reflexivity|]. split; [reflexivity|].
    intros k a H1 H2. pose proof H2 as H3. apply lookup_lt_Some in H3. cbn in H3. assert (k = 3) as -> by lia. injection H2 as <-. discriminate.
Qed.

Definition nodes27 (ns : list msg_node) : message := mkMsg ns [] [] [] [] [] [].
(** a node before its parent *)
Example ex_early : ~ acceptable (items (nodes27 [mkMN "b" "inner" 1 (Some "a") "x"; mkMN "a" "root" 0 None "x"])).
Proof. intros A. destruct (ac_parent _ A 0 (mkItem KNode "b" "inner" (Some "a") None []) "a" eq_refl eq_refl) as (j & Hj & _). lia. Qed.
Example ex_early_refused : ~ is_ok (fst (fst (create_graph (nodes27 [mkMN "b" "inner" 1 (Some "a") "x"; mkMN "a" "root" 0 None "x"]) s1 (new_icon 0 0)))).
Proof. intros H. exact (ex_early (proj1 (C89_accepted _ s1 (new_icon 0 0) s1_reach) H)). Qed.
Lemma exn_pick (x : res (option loc * hom) * st * icon) e : match x with (Exn e', _, _) => bool_decide (e' = e) | _ => false end = true ->
  exists s' g', x = (Exn e, s', g').
Proof. destruct x as [[[r|e'] s'] g']; [done|]. intros ->%bool_decide_eq_true. by eauto. Qed.
(** its own parent; twins *)
Example ex_self : exists s' g', create_graph (nodes27 [mkMN "a" "root" 0 (Some "a") "x"]) s1 (new_icon 0 0) = (Exn ErrorRecursiveHierarchy, s', g').
Proof. apply exn_pick. vm_compute. reflexivity. Qed.
Example ex_twins : exists s' g', create_graph (nodes27 [mkMN "a" "root" 0 None "x"; mkMN "b" "p" 0 (Some "a") "x"; mkMN "b" "q" 0 (Some "a") "x"]) s1 (new_icon 0 0) = (Exn ErrorDuplicateElement, s', g').
Proof. apply exn_pick. vm_compute. reflexivity. Qed.
Example ex_twins_error : exists e s' g', create_graph (nodes27 [mkMN "a" "root" 0 None "x"; mkMN "b" "p" 0 (Some "a") "x"; mkMN "b" "q" 0 (Some "a") "x"]) s1 (new_icon 0 0) = (Exn e, s', g') /\ g' = new_icon 0 0.
Proof. destruct ex_twins as (s' & g' & E). exists ErrorDuplicateElement, s', g'. split; [exact E|]. exact (proj2 (C89_errors _ _ _ _ _ _ s1_reach E)). Qed.
