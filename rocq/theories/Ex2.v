(** * Non-vacuity of C10 - C20 *)
From Verif Require Import Spec Hierarchy Elements Factory History ExBase Ex1 PMono.

Ltac crunch := vm_compute; repeat split; try reflexivity.

(** C10: 4 is below 1, adding 1 to 4 *)
Example c10_hyp : ancestor (heap s1) 1 4 /\ exists_in (heap s1) 4 /\ removable (heap s1) 1 /\
  (forall x, x ∈ children (heap s1) 4 -> uuid_of (heap s1) x <> uuid_of (heap s1) 1).
Proof.
  split; [apply ancb_true; vm_compute; reflexivity|]. split; [apply existsb_in_ok; vm_compute; reflexivity|].
  split; [apply removableb_ok; vm_compute; reflexivity|]. intros x Hx.
  assert (E : children (heap s1) 4 = [10]) by (vm_compute; reflexivity). rewrite E in Hx.
  apply elem_of_list_singleton in Hx as ->. vm_compute. discriminate.
Qed.
Example c10_run : fst (add_element 4 1 s1) = Exn RecursionError.
Proof. vm_compute. reflexivity. Qed.
(** C11 *)
Example c11_hyp : 1 ∈ children (heap s1) 0 /\ kind_of (heap s1) 0 = Some KNode /\ name_of (heap s1) 1 = "a".
Proof.
  assert (E : children (heap s1) 0 = [1; 2; 5]) by (vm_compute; reflexivity). rewrite E.
  split; [left|]. split; vm_compute; reflexivity.
Qed.
Example c11_run : fst (remove_all 0 "zz" (Some (uuid_of (heap s1) 1)) s1) = Exn KeyError.
Proof. vm_compute. reflexivity. Qed.
(** C12: two elements called "a", one drawn *)
Example c12_hyp : filter (fun c => name_of (heap s1) c = "a") (children (heap s1) 0) = [1; 2].
Proof. vm_compute. reflexivity. Qed.
Example c12_run : fst (gen_take 1 (GNew 0 "a" None) s1) = Ok [1] /\
  fst (get_element_by_id_name 0 "a" (snd (gen_take 1 (GNew 0 "a" None) s1))) = Ok [] /\
  children (heap (snd (gen_take 1 (GNew 0 "a" None) s1))) 0 = [2; 5].
Proof. vm_compute. repeat split. Qed.
(** C13 *)
Example c13_hyp : history MLeaf s0 s1.
Proof.
  assert (H : forall os s s', history MLeaf s s' -> runb os s' = true ->
    forallb (fun o => match o with OGenNode _ _ _ | OConnectNodes _ _ _ _ _ _ | OCreateValue _ _ _ _ => true | _ => false end) os = true ->
    history MLeaf s (run os s')).
  { induction os as [|o os IH]; intros s s' Hh H1 H2; [done|]. cbn [run runb forallb] in *.
    apply andb_true_iff in H1 as [H1 H1']. apply andb_true_iff in H2 as [H2 H2'].
    apply IH; [|done|done]. apply hist_step; [done|by apply allowedb_ok|by destruct o]. }
  apply (H ops1 s0 s0); [apply hist_nil|vm_compute; reflexivity|vm_compute; reflexivity].
Qed.
Example c13_move : fst (add_element 2 3 s1) = Ok tt /\ fst (add_element 0 3 s1) = Ok tt /\
  attr_of o_depth (heap (snd (add_element 0 3 s1))) 4 = Some 3 /\ climb (heap (snd (add_element 0 3 s1))) 9 4 = Some [4; 3; 0].
Proof. vm_compute. repeat split. Qed.
(** C14 *)
Example c14_run : fst (get_element_by_id_name 0 "a/b/c" s1) = Exn KeyError (* the second a has no b *) /\
  fst (get_element_by_id_name 1 "b/c" s1) = Ok [4] /\ fst (get_element_by_id_name 1 "b/zz" s1) = Ok [] /\
  follow (heap s1) ["b"; "c"] 1 = [4].
Proof. vm_compute. repeat split. Qed.
(** C15: 5 is an edge with the relations 6 and 8 *)
Example c15_hyp : kind_of (heap s1) 5 = Some KEdge /\ children (heap s1) 5 = [6; 8] /\
  filter (matches (heap s1) "" (Some (uuid_of (heap s1) 8))) (children (heap s1) 5) = [8].
Proof. vm_compute. repeat split. Qed.
Example c15_run : fst (remove_all 5 "" (Some (uuid_of (heap s1) 8)) s1) = Exn TypeError /\ fst (add_element 4 8 s1) = Exn TypeError.
Proof. vm_compute. repeat split. Qed.
(** C16 *)
Example c16_hyp : fst (connect 2 6 s1) = Ok tt.
Proof. vm_compute. reflexivity. Qed.
(** C17: the edge 5 and the node 4 (called c) *)
Definition o5 := nth 5 (heap s1) (blank KNode "" "" "").
Definition o4 := nth 4 (heap s1) (blank KNode "" "" "").
Example c17_hyp : heap s1 !! 5 = Some o5 /\ heap s1 !! 4 = Some o4 /\
  o_kind o5 = KEdge /\ o_ready o5 = true /\ o_clock o5 = Some 0 /\ is_hyperelement (o_kind o4) = true /\ o_ready o4 = true.
Proof. vm_compute. repeat split. Qed.
Example c17_hyp_uuids : forallb (fun x => negb (uuid_of (heap s1) x =? sha s1 (o_name o5 +:+ "/" +:+ o_name o4))%string) (children (heap s1) 5) = true /\
  forallb (fun x => negb (uuid_of (heap s1) x =? sha s1 (o_name o4 +:+ "/" +:+ "rel" +:+ join "." [o_name o5; o_name o4; str_of_Z (clk s1 0 (tick s1))]))%string) (children (heap s1) 4) = true.
Proof. vm_compute. repeat split. Qed.
Example c17_run : fst (unary_connect 5 4 WNone OUTWARDS None s1) = Ok 11 /\
  fst (induced_subset 5 (snd (unary_connect 5 4 WNone OUTWARDS None s1))) = Ok [Some 1; Some 3; Some 4].
Proof. vm_compute. repeat split. Qed.
(** C18: the node 2 has the name of the node 1, which is connected already *)
Example c18_hyp : exists oe on, heap s1 !! 5 = Some oe /\ heap s1 !! 2 = Some on /\
  6 ∈ children (heap s1) 5 /\ uuid_of (heap s1) 6 = sha s1 (o_name oe +:+ "/" +:+ o_name on) /\ children (heap s1) 2 = [].
Proof.
  eexists _, _. split; [vm_compute; reflexivity|]. split; [vm_compute; reflexivity|].
  assert (E5 : children (heap s1) 5 = [6; 8]) by (vm_compute; reflexivity). rewrite E5.
  split; [left|]. split; vm_compute; reflexivity.
Qed.
Example c18_run : fst (unary_connect 5 2 WNone INWARDS None s1) = Exn ErrorDuplicateElement /\
  children (heap (snd (unary_connect 5 2 WNone INWARDS None s1))) 2 = [12].
Proof. vm_compute. repeat split. Qed.
(** C19 *)
Example c19_run : let s := snd (unary_connect 5 4 WNone BIDIRECTIONAL None s1) in
  fst (incoming_relations 5 s) = Ok [6; 8; 11] /\ fst (outgoing_relations 5 s) = Ok [11].
Proof. vm_compute. repeat split. Qed.
(** C20: the clock of s1 is monotone; moving 3 makes its time stamp larger *)
Lemma mono_clk_run os s : clk (run os s) = clk s.
Proof. revert s. induction os as [|o os IH]; intros s; [done|]. cbn [run]. rewrite IH. apply (m_clk _ _ (pres_exec o s)). Qed.
Example c20_hyp : (forall c c' n m, n <= m -> (clk s1 c n <= clk s1 c' m)%Z).
Proof.
  assert (E : clk s1 = clk s0).
  { exact (mono_clk_run ops1 s0). }
  rewrite E. intros. unfold s0, init_st, clk. lia.
Qed.
Example c20_run : attr_of o_time (heap s1) 3 = Some 14%Z /\ attr_of o_time (heap s2) 3 = Some 29%Z.
Proof. vm_compute. repeat split. Qed.
