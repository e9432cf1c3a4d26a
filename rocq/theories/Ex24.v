(** * Non-vacuity of C85 *)
From Coq Require Import QArith.
From Verif Require Import Spec SpecTrav Hierarchy Elements Factory History Traverse Homomorphism SpecHom HTraverse Tensor SpecTensor SpecHTrav Encode SpecEnc SpecCoo ExBase Ex1 Ex6 Ex14 Props24.
Local Open Scope nat_scope.

Definition flatb (h : list obj) (c : loc) : bool := forallb (fun p => match out_rels h p with [] => true | _ => false end) (neighbours h c).
Lemma flatb_ok h c : flatb h c = true -> flat h c.
Proof. intros H p Hp. apply elem_of_list_In in Hp. pose proof (proj1 (forallb_forall _ _) H p Hp) as X. cbv beta in X. by destruct (out_rels h p). Qed.

Lemma context_tens lim c s g r s1 g1 : update_context lim c s g = (r, s1, g1) -> co_tens (ic_coo g1) = co_tens (ic_coo g).
Proof. unfold update_context, coo_reset. destruct (hom_execute lim coo_conf c s hom0) as [[r' s'] x']. intros H. injection H as _ _ <-. reflexivity. Qed.
(** Three nodes, weights 2+3, 7 and 1-1 *)
Lemma w_inner : inner_graph (heap s_w) 0.
Proof. apply (C85_closed s_w 0 s_w_reach). apply s_w_hyp. Qed.
Lemma w_flat : flat (heap s_w) 0.
Proof. apply flatb_ok. vm_compute. reflexivity. Qed.
Definition icon_w := new_icon 0 0.
Lemma w_context : exists r s1 g1, update_context 100 0 s_w icon_w = (Ok r, s1, g1).
Proof.
  assert (H : match update_context 100 0 s_w icon_w with (Ok _, _, _) => true | _ => false end = true) by (vm_compute; reflexivity).
  destruct (update_context 100 0 s_w icon_w) as [[[r|e] s1] g1]; [|discriminate H]. by exists r, s1, g1.
Qed.
Lemma w_work : htrav_work (heap s_w) 0 2 < 100.
Proof. apply Nat.ltb_lt. vm_compute. reflexivity. Qed.
(** Eight entries: both ways between each of the nodes of weight 5 and 7 and the others *)
Example w_sparse : map (fun n => (n.1.1.2, n.1.2, this n.2)) (sparse (heap s_w) 0) =
  [(1, 2, 5%Q); (1, 3, 5%Q); (2, 1, 5%Q); (3, 1, 5%Q); (2, 1, 7%Q); (2, 3, 7%Q); (1, 2, 7%Q); (3, 2, 7%Q)].
Proof. vm_compute. reflexivity. Qed.
Example w_entries : exists x g1 g2 ts, update_coo 100 s_w g1 = (Ok tt, s_w, g2) /\ co_tens (ic_coo g2) = ts /\ Forall2 (by_index (heap s_w) x) (sparse (heap s_w) 0) ts /\ length ts = 8.
Proof.
  destruct w_context as (r & s1 & g1 & E).
  pose proof (context_tens _ _ _ _ _ _ _ E) as Hnil. change (co_tens (ic_coo icon_w)) with (@nil msg_entry3) in Hnil.
  destruct (C85_contents s_w 0 100 100 icon_w r s1 g1 s_w_reach w_inner w_flat eq_refl E w_work) as (x & g2 & ts & _ & _ & U & (A & _) & F).
  exists x, g1, g2, ts. split; [exact U|]. rewrite Hnil in A. split; [exact A|]. split; [exact F|]. apply Forall2_length in F. rewrite <- F. vm_compute. reflexivity.
Qed.
(** Run: with indices, without, three times *)
Definition coo_run (n : nat) : list (mid * mid * mid * Q) :=
  let '(_, s1, g1) := update_context 100 0 s_w icon_w in map (fun t => (t.1, this t.2)) (co_tens (ic_coo (after_coo n 100 s1 g1))).
Example w_run : coo_run 1 = map (fun t => (MIndex 0, MIndex t.1.1, MIndex t.1.2, t.2))
  [(1, 2, 5%Q); (1, 3, 5%Q); (2, 1, 5%Q); (3, 1, 5%Q); (2, 1, 7%Q); (2, 3, 7%Q); (1, 2, 7%Q); (3, 2, 7%Q)].
Proof. vm_compute. reflexivity. Qed.
Example w_three : length (coo_run 3) = 24.
Proof. vm_compute. reflexivity. Qed.
Example w_thrice : exists r s1 g1 ts, update_context 100 0 s_w icon_w = (Ok r, s1, g1) /\ length ts = 8 /\ appended g1 (after_coo 3 100 s_w g1) (ts ++ ts ++ ts ++ []).
Proof.
  destruct w_context as (r & s1 & g1 & E). destruct (C85_replacement_refuted s_w 0 100 100 icon_w r s1 g1 3 s_w_reach w_inner w_flat eq_refl E w_work) as (x & ts & _ & F & A).
  exists r, s1, g1, ts. split; [exact E|]. split; [|exact A]. apply Forall2_length in F. rewrite <- F. vm_compute. reflexivity.
Qed.
Example w_uuids : exists g', update_coo 100 s_w icon_w = (Ok tt, s_w, g') /\ length (co_tens (ic_coo g')) = 8.
Proof.
  destruct (C85_without_context s_w 0 100 icon_w s_w_reach w_inner w_flat eq_refl eq_refl w_work) as (g' & U & (A & _)). exists g'. split; [exact U|]. rewrite A.
  change (co_tens (ic_coo icon_w)) with (@nil msg_entry3). cbn [app]. rewrite map_length. vm_compute. reflexivity.
Qed.
(** The dense tensors: C85_dense applies to s_w *)
Example w_dense : forall x T, computes 100 0 s_w x T -> te_W T 0 0 2 = entry_of (sparse (heap s_w) 0) 7 1 3 /\ this (entry_of (sparse (heap s_w) 0) 7 1 3) = 5%Q.
Proof.
  intros x T HC. destruct s_w_hyp as [G Hl]. split; [|vm_compute; reflexivity].
  apply (proj1 (C85_dense s_w 0 100 x T s_w_reach G Hl HC)); vm_compute; reflexivity.
Qed.

(** Nested: node 1 of s14 has an edge of its own *)
Lemma n_inner : inner_graph (heap s14) 0.
Proof. apply (C85_closed s14 0 s14_reach). apply closedb_ok. vm_compute. reflexivity. Qed.
Lemma n_context : exists r s1 g1, update_context 100 0 s14 icon_w = (Ok r, s1, g1).
Proof.
  assert (H : match update_context 100 0 s14 icon_w with (Ok _, _, _) => true | _ => false end = true) by (vm_compute; reflexivity).
  destruct (update_context 100 0 s14 icon_w) as [[[r|e] s1] g1]; [|discriminate H]. by exists r, s1, g1.
Qed.
Definition apartb (h : list obj) (c : loc) : bool :=
  forallb (fun p => forallb (fun e' => bool_decide (parent_of h e' <> Some c) && bool_decide (p <> c) && match h !! p with Some o => negb (k_edge (o_kind o)) | None => true end &&
    bool_decide (parent_of h e' = Some p) &&
    forallb (fun y => bool_decide (uuid_of h y <> uuid_of h e' \/ y = e')) (seq 0 (length h))) (edges_of h p)) (neighbours h c).
Lemma apartb_ok h c : apartb h c = true -> forall p e y, p ∈ neighbours h c -> e ∈ edges_of h p -> through (is_kind k_edge) h c y -> uuid_of h y <> uuid_of h e.
Proof.
  intros H p e y Hp He Ht Hu. apply elem_of_list_In in Hp. pose proof (proj1 (forallb_forall _ _) H p Hp) as X. cbv beta in X.
  apply elem_of_list_In in He. pose proof (proj1 (forallb_forall _ _) X e He) as Y. cbv beta in Y. repeat (apply andb_true_iff in Y as [Y ?Z]).
  assert (Hy : exists o, h !! y = Some o) by (inversion Ht as [? _ Ha|? ? _ _ Ha]; subst; unfold accepts in Ha; destruct (h !! y) as [o|]; [by exists o|done|by exists o|done]).
  destruct Hy as [o Ho]. apply lookup_lt_Some in Ho. pose proof (proj1 (forallb_forall _ _) Z y) as W. cbv beta in W. rewrite in_seq in W. specialize (W ltac:(lia)).
  apply bool_decide_eq_true in W as [W|W]; [done|]. subst y. apply bool_decide_eq_true in Y. apply bool_decide_eq_true in Z0.
  inversion Ht as [? Hpe _|? q Hq Hpe _]; subst; [done|]. rewrite Z0 in Hpe. injection Hpe as <-.
  assert (Ha : accepts (is_kind k_edge) h p = true) by (by inversion Hq). unfold accepts, is_kind in Ha. destruct (h !! p) as [op|]; [|done]. rewrite Ha in Z1. done.
Qed.
Example n_nested : exists r s1 g1 q, update_context 100 0 s14 icon_w = (Ok r, s1, g1) /\ update_coo 100 s14 g1 = (Exn KeyError, set_fr_hyper q s14, g1).
Proof.
  destruct n_context as (r & s1 & g1 & E). assert (En : neighbours (heap s14) 0 = [1; 2]) by (vm_compute; reflexivity).
  assert (Ee : exists e, edges_of (heap s14) 1 = [e] /\ rels_of (heap s14) e <> []). { eexists. split; [vm_compute; reflexivity|]. vm_compute. discriminate. }
  destruct Ee as (e & Ee & Er).
  destruct (C85_nested_refuted s14 0 100 100 icon_w r s1 g1 1 e s14_reach n_inner eq_refl E) as (q & U).
  - rewrite En. left.
  - rewrite Ee. left.
  - exact Er.
  - apply apartb_ok. vm_compute. reflexivity.
  - apply Nat.ltb_lt. vm_compute. reflexivity.
  - exists r, s1, g1, q. split; [exact E|exact U].
Qed.
