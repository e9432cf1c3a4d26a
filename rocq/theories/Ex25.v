(** * Non-vacuity of C86, C87 *)
From Coq Require Import QArith.
From Verif Require Import Spec SpecTrav Hierarchy Elements Factory History Traverse Homomorphism SpecHom HTraverse Tensor SpecTensor SpecHTrav Encode SpecEnc SpecCoo SpecDepth ExBase Ex1 Ex6 Ex14 Props24 Ex24 Props25.
Local Open Scope nat_scope.

(** The graph of Ex14 with a further edge in node 1, and a second graph below node 19 *)
Definition ops25 : list op := ops14 ++
  [ OConnectNodes fac 1 "g" [2; 3] OUTWARDS None; OGenNode fac "q" None; OGenNode fac "u" (Some 19); OGenNode fac "v" (Some 19); OGenNode fac "w" (Some 19);
    OConnectNodes fac 19 "k" [20; 21; 22] INWARDS None ].
Definition s25 : st := run ops25 s0.
Lemma s25_reach : reach s25.
Proof. apply run_reach; [apply reach_init|]. vm_compute. reflexivity. Qed.
Lemma closed0 : closed_graph (heap s25) 0.
Proof. apply closedb_ok. vm_compute. reflexivity. Qed.
Lemma closed19 : closed_graph (heap s25) 19.
Proof. apply closedb_ok. vm_compute. reflexivity. Qed.
Lemma flat19 : flat (heap s25) 19.
Proof. apply flatb_ok. vm_compute. reflexivity. Qed.
Definition distinctb (h : list obj) (ps cs : list loc) : bool :=
  forallb (fun p => forallb (fun e => forallb (fun c => forallb (fun y => bool_decide (uuid_of h y <> uuid_of h e)) (edges_of h c)) cs) (edges_of h p)) ps.
Lemma distinctb_ok h ps cs : distinctb h ps cs = true -> forall p e c y, p ∈ ps -> e ∈ edges_of h p -> c ∈ cs -> y ∈ edges_of h c -> uuid_of h y <> uuid_of h e.
Proof.
  intros H p e c y Hp He Hc Hy. apply elem_of_list_In in Hp, He, Hc, Hy. pose proof (proj1 (forallb_forall _ _) H p Hp) as H1. cbv beta in H1.
  pose proof (proj1 (forallb_forall _ _) H1 e He) as H2. cbv beta in H2. pose proof (proj1 (forallb_forall _ _) H2 c Hc) as H3. cbv beta in H3.
  pose proof (proj1 (forallb_forall _ _) H3 y Hy) as H4. cbv beta in H4. exact (bool_decide_eq_true_1 _ H4).
Qed.
Lemma in_two (y a b : loc) : y = a \/ y = b -> y ∈ [a; b].
Proof. intros [->| ->]; set_solver. Qed.
Lemma distinct : forall p' e' y, p' ∈ neighbours (heap s25) 0 -> e' ∈ edges_of (heap s25) p' -> y ∈ edges_of (heap s25) 0 \/ y ∈ edges_of (heap s25) 19 -> uuid_of (heap s25) y <> uuid_of (heap s25) e'.
Proof.
  intros p' e' y Hp He Hy. assert (D : distinctb (heap s25) (neighbours (heap s25) 0) [0; 19] = true) by (vm_compute; reflexivity).
  destruct Hy as [Hy|Hy]; [apply (distinctb_ok _ _ _ D p' e' 0 y Hp He)|apply (distinctb_ok _ _ _ D p' e' 19 y Hp He)]; try exact Hy; apply in_two; [left|right]; exact eq_refl.
Qed.
(** The graph below 19: the depth does not matter *)
Example e25_flat : transform 100 (Some 7) 19 s25 = transform 100 (Some 1) 19 s25 /\ transform 100 None 19 s25 = transform 100 (Some 1) 19 s25.
Proof. split; apply (C86_flat s25 19 100 _ s25_reach closed19 flat19); apply Nat.ltb_lt; vm_compute; reflexivity. Qed.
(** The graph below 0: depth 1 works, depth 2 fails and leaves three relations *)
Example e25_depth1 : match transform 100 (Some 1) 0 s25 with (Ok _, _, _) => true | _ => false end = true.
Proof. vm_compute. reflexivity. Qed.
Lemma edge9 : 1 ∈ neighbours (heap s25) 0 /\ 9 ∈ edges_of (heap s25) 1 /\ rels_of (heap s25) 9 <> [].
Proof.
  assert (E1 : neighbours (heap s25) 0 = [1; 2]) by (vm_compute; reflexivity). assert (E2 : edges_of (heap s25) 1 = [9; 14]) by (vm_compute; reflexivity).
  assert (E3 : rels_of (heap s25) 9 = [10; 12]) by (vm_compute; reflexivity). rewrite E1, E2, E3. split; [left|]. split; [left|discriminate].
Qed.
Example e25_deeper : exists x, transform 100 (Some 2) 0 s25 = (Exn KeyError, set_fr_hyper [(12, 1); (15, 1); (17, 1)] s25, Some (x, synchronize x)).
Proof.
  destruct edge9 as (H1 & H2 & H3). destruct (C86_deeper_refuted s25 0 100 (Some 2) 1 9 s25_reach closed0) as (x & E).
  - intros d H. injection H as <-. exact (le_n 2).
  - exact H1.
  - exact H2.
  - exact H3.
  - intros p' e' y Hp He Hy. apply (distinct p' e' y Hp He). left. exact Hy.
  - apply Nat.ltb_lt; vm_compute; reflexivity.
  - apply Nat.ltb_lt; vm_compute; reflexivity.
  - exists x. rewrite E. assert (Eq : flat_map (out_rels (heap s25)) (neighbours (heap s25) 0) = [10; 12; 15; 17]) by (vm_compute; reflexivity). rewrite Eq. exact eq_refl.
Qed.
(** Then three computations on the graph below 19 fail, the fourth succeeds *)
Example e25_after : let s1 := snd (fst (transform 100 (Some 2) 0 s25)) in
  (forall n, n < 3 -> fst (fst (transform 100 (Some 1) 19 (after_transforms n 100 (Some 1) 19 s1))) = Exn KeyError) /\
  exists tasks x T T', transform 100 (Some 1) 19 s25 = (Ok tasks, s25, Some (x, T)) /\
    transform 100 (Some 1) 19 (after_transforms 3 100 (Some 1) 19 s1) = (Ok tasks, s25, Some (x, T')) /\ same_arrays T T'.
Proof.
  intros s1. assert (Eq : length (flat_map (out_rels (heap s25)) (neighbours (heap s25) 0)) = 4) by (vm_compute; reflexivity).
  assert (A : forall n, _) by (intros n; destruct edge9 as (H1 & H2 & H3);
    exact (C87_after_failure s25 0 19 100 (Some 2) 1 9 n s25_reach closed0 closed19 ltac:(intros d H; injection H as <-; exact (le_n 2)) H1 H2 H3 distinct
      ltac:(apply Nat.ltb_lt; vm_compute; reflexivity) ltac:(apply Nat.ltb_lt; vm_compute; reflexivity) ltac:(apply Nat.ltb_lt; vm_compute; reflexivity))).
  cbv zeta in A. rewrite Eq in A. fold s1 in A. split.
  - intros n Hn. destruct (A n) as (_ & A1 & _). exact (A1 Hn).
  - destruct (A 3) as (_ & _ & A2). exact (A2 eq_refl).
Qed.
(** The hypotheses on the queue alone *)
Lemma foreignb_ok h c r e : existsb (Nat.eqb r) (rels_of h e) = true -> forallb (fun y => bool_decide (uuid_of h y <> uuid_of h e)) (edges_of h c) = true -> foreign h c r.
Proof.
  intros H1 H2. exists e. split.
  - apply existsb_exists in H1 as (y & Hy & E). apply Nat.eqb_eq in E as ->. apply elem_of_list_In. exact Hy.
  - intros y Hy. apply elem_of_list_In in Hy. pose proof (proj1 (forallb_forall _ _) H2 y Hy) as X. cbv beta in X. exact (bool_decide_eq_true_1 _ X).
Qed.
Lemma queue : forall i : loc * nat, i ∈ [(12, 1); (5, 0)] -> foreign (heap s25) 19 i.1.
Proof.
  intros i Hi. apply elem_of_cons in Hi as [->|Hi]; [apply (foreignb_ok _ _ _ 9); vm_compute; reflexivity|].
  apply elem_of_cons in Hi as [->|Hi]; [apply (foreignb_ok _ _ _ 4); vm_compute; reflexivity|]. destruct (not_elem_of_nil _ Hi).
Qed.
Example e25_queue : exists x, transform 100 (Some 1) 19 (after_transforms 1 100 (Some 1) 19 (set_fr_hyper [(12, 1); (5, 0)] s25)) =
  (Exn KeyError, set_fr_hyper [(19, 0); (19, 0)] s25, Some (x, synchronize x)).
Proof. exact (C87_independence_refuted s25 19 100 (Some 1) [(12, 1); (5, 0)] 1 s25_reach closed19 ltac:(apply Nat.ltb_lt; vm_compute; reflexivity) queue ltac:(apply Nat.ltb_lt; vm_compute; reflexivity)). Qed.
Example e25_recovers : exists tasks x T T', transform 100 (Some 1) 19 s25 = (Ok tasks, s25, Some (x, T)) /\
  transform 100 (Some 1) 19 (after_transforms 2 100 (Some 1) 19 (set_fr_hyper [(12, 1); (5, 0)] s25)) = (Ok tasks, s25, Some (x, T')) /\ same_arrays T T'.
Proof. exact (C87_recovers s25 19 100 [(12, 1); (5, 0)] s25_reach closed19 queue ltac:(apply Nat.ltb_lt; vm_compute; reflexivity)). Qed.
