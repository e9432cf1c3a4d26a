(** * Non-vacuity of C92 *)
From stdpp Require Import relations.
From Verif Require Import Spec SpecTrav Hierarchy Elements Factory History Traverse Homomorphism HTraverse Tensor SpecTensor Encode SpecEnc ExBase Ex1 Ex6 Ex10 Ex28 Props6 Props10 Props28 SpecRelay SpecRecv Props29.
Local Open Scope nat_scope.

(** for any graph with two connected nodes: two programs in between, then any state *)
Lemma received s c lim s0 k e i a j b lim0 : reach s -> sendable (heap s) c -> closed_graph (heap s) c -> (exists m, sends lim s c m) -> reach s0 ->
  edges_of (heap s) c !! k = Some e -> nodes_of (heap s) c !! i = Some a -> nodes_of (heap s) c !! j = Some b -> connects (heap s) e a b ->
  work (heap s) c < lim0 ->
  exists m m' s1 root x T x0 T0, sends lim s c m /\ relayed_n 2 m m' /\ receives m' s0 s1 root /\ computes (S (work (heap s1) root)) root s1 x T /\
    te_W T k i j = 1%Qc /\ computes lim0 c s x0 T0 /\
    (te_W T0 k i j <> 1%Qc -> te_W T k i j <> te_W T0 k i j) /\
    (unweighted (heap s) c -> undirected (heap s) c -> same_arrays T0 T).
Proof.
  intros R G C (m & Sd) R0 He Ha Hb Hc Hl. destruct (C90_possible s c lim m R G Sd 2) as (m' & H).
  assert (N : nodes_of (heap s) c <> []) by (intros E; rewrite E in Ha; destruct i; discriminate Ha).
  destruct (C92_possible s c lim m 2 m' s0 R G C Sd H R0 N) as (s1 & root & Rc & K). destruct (K (S (work (heap s1) root)) ltac:(lia)) as (x & T & HT).
  destruct (C32_succeeds s c lim0 R C Hl) as (tasks & x0 & [T0|] & E & Hn); [|by destruct (proj1 Hn eq_refl)].
  assert (HC0 : computes lim0 c s x0 T0) by (exists tasks, s; exact E).
  pose proof (C92_entries s c lim m 2 m' s0 s1 root _ x T R G C Sd H Rc (Nat.lt_succ_diag_r _) HT) as P.
  assert (W1 : te_W T k i j = 1%Qc) by (destruct (pa_W _ _ _ P _ _ _ _ _ _ He Ha Hb) as [[_ W1]|[X _]]; [exact W1|contradiction]).
  exists m, m', s1, root, x, T, x0, T0. split; [exact Sd|]. split; [exact H|]. split; [exact Rc|]. split; [exact HT|]. split; [exact W1|]. split; [exact HC0|]. split.
  - intros X Y. apply X. apply (C92_differs s c lim m 2 m' s0 s1 root _ x T lim0 x0 T0 k e i a j b R G C Sd H Rc (Nat.lt_succ_diag_r _) HT Hl HC0 He Ha Hb); [exact Y|exact Hc].
  - intros U V. exact (C92_same s c lim m 2 m' s0 s1 root _ x T lim0 x0 T0 R G C Sd H Rc (Nat.lt_succ_diag_r _) HT U V Hl HC0).
Qed.
(** the graph of C32's example with weights 5 and 7 *)
Lemma s_w_sendable : sendable (heap s_w) 0.
Proof. apply sendableb_ok. vm_compute. reflexivity. Qed.
Lemma s_w_edge : edges_of (heap s_w) 0 !! 0 = Some 7.
Proof. vm_compute. reflexivity. Qed.
Lemma s_w_n1 : nodes_of (heap s_w) 0 !! 0 = Some 1.
Proof. vm_compute. reflexivity. Qed.
Lemma s_w_n2 : nodes_of (heap s_w) 0 !! 1 = Some 2.
Proof. vm_compute. reflexivity. Qed.
Lemma connectsb_ok h e a b : bool_decide (a <> b) && bool_decide (a ∈ endpoints h e) && bool_decide (b ∈ endpoints h e) = true -> connects h e a b.
Proof. intros H. apply andb_true_iff in H as [H H3]. apply andb_true_iff in H as [H1 H2]. apply bool_decide_eq_true in H1, H2, H3. split; [exact H1|]. split; [exact H2|exact H3]. Qed.
Lemma s_w_entry : (match transform 100 (Some 1) 0 s_w with (Ok _, _, Some (_, Some T)) => bool_decide (te_W T 0 0 1 = 1%Qc) | _ => false end) = false.
Proof. vm_compute. reflexivity. Qed.
Lemma not_one lim s c k i j x T : (match transform lim (Some 1) c s with (Ok _, _, Some (_, Some T)) => bool_decide (te_W T k i j = 1%Qc) | _ => false end) = false ->
  computes lim c s x T -> te_W T k i j <> 1%Qc.
Proof. intros H (tasks & s' & E). rewrite E in H. by apply bool_decide_eq_false in H. Qed.
(** the sender computes 7, the receiver (next to the graph of Ex1) 1 *)
Example weights_lost : exists m m' s2 root x T x0 T0, sends 100 s_w 0 m /\ relayed_n 2 m m' /\ receives m' s1 s2 root /\
  computes (S (work (heap s2) root)) root s2 x T /\ computes 100 0 s_w x0 T0 /\ te_W T 0 0 1 = 1%Qc /\ te_W T0 0 0 1 <> 1%Qc.
Proof.
  destruct s_w_hyp as [C L].
  destruct (received s_w 0 100 s1 0 7 0 1 1 2 100 s_w_reach s_w_sendable C (sends_pick 100 s_w 0 ltac:(vm_compute; reflexivity)) s1_reach s_w_edge s_w_n1 s_w_n2
    ltac:(apply connectsb_ok; vm_compute; reflexivity) L) as (m & m' & s2 & root & x & T & x0 & T0 & H1 & H2 & H3 & H4 & H5 & H6 & _).
  exists m, m', s2, root, x, T, x0, T0. split; [exact H1|]. split; [exact H2|]. split; [exact H3|]. split; [exact H4|]. split; [exact H6|]. split; [exact H5|].
  exact (not_one 100 s_w 0 0 0 1 x0 T0 s_w_entry H6).
Qed.
(** an undirected edge without weights: the same arrays *)
Lemma s28_hyp : closed_graph (heap s28) 0 /\ unweighted (heap s28) 0 /\ undirected (heap s28) 0 /\ work (heap s28) 0 < 100.
Proof. split; [apply closedb_ok; vm_compute; reflexivity|]. split; [apply unwb_ok; vm_compute; reflexivity|]. split; [apply undb_ok; vm_compute; reflexivity|]. apply Nat.ltb_lt. vm_compute. reflexivity. Qed.
Lemma s28_edge : edges_of (heap s28) 0 !! 0 = Some 4.
Proof. vm_compute. reflexivity. Qed.
Lemma s28_n1 : nodes_of (heap s28) 0 !! 0 = Some 1.
Proof. vm_compute. reflexivity. Qed.
Lemma s28_n2 : nodes_of (heap s28) 0 !! 1 = Some 2.
Proof. vm_compute. reflexivity. Qed.
Example nothing_lost : exists m m' s2 root x T x0 T0, sends 100 s28 0 m /\ relayed_n 2 m m' /\ receives m' s1 s2 root /\
  computes (S (work (heap s2) root)) root s2 x T /\ computes 100 0 s28 x0 T0 /\ te_W T 0 0 1 = 1%Qc /\ same_arrays T0 T.
Proof.
  destruct s28_hyp as (C & U & V & L).
  destruct (received s28 0 100 s1 0 4 0 1 1 2 100 s28_reach s28_sendable C (sends_pick 100 s28 0 ltac:(vm_compute; reflexivity)) s1_reach s28_edge s28_n1 s28_n2
    ltac:(apply connectsb_ok; vm_compute; reflexivity) L) as (m & m' & s2 & root & x & T & x0 & T0 & H1 & H2 & H3 & H4 & H5 & H6 & _ & H7).
  exists m, m', s2, root, x, T, x0, T0. split; [exact H1|]. split; [exact H2|]. split; [exact H3|]. split; [exact H4|]. split; [exact H6|]. split; [exact H5|]. exact (H7 U V).
Qed.
