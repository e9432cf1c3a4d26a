(** * Proofs of C92: what a receiver computes *)
From stdpp Require Import relations.
From Verif Require Import Spec Hierarchy Elements Factory History PDict PPath PExec PBfs PWF PAdd PMono PStep PRemove PReach PPrim PHist QFac SpecFac QFac2 SpecTrav QTrav Traverse Homomorphism SpecHom QHom HTraverse Tensor SpecTensor QTensor QTensor2 QTensor3 QEnc Encode SpecEnc QEnc2 QEnc3 QEnc4 QEnc5 QEnc6 SpecDecode QDec2 SpecRelay QRelay SpecRecv.
Local Open Scope nat_scope.

Section copies.
  Context (h : list obj) (c : loc) (h0 h' : list obj) (root : loc).
  Context (W : WF0 h) (W' : WF0 h') (G : sendable h c) (C : closed_graph h c) (D : decoded h c h0 h' root).

  Lemma root_uuid y : y ∈ nodes_of h' root ++ edges_of h' root -> uuid_of h' y <> uuid_of h' root.
  Proof. exact (sd_uuid _ _ (decoded_sendable _ _ _ _ _ G D) y). Qed.
  Lemma node_child g r y : y ∈ nodes_of g r -> y ∈ children g r.
  Proof. intros H. by apply QEnc3.fkids_el in H as [H _]. Qed.
  Lemma edge_child g r y : y ∈ edges_of g r -> y ∈ children g r.
  Proof. intros H. by apply QEnc3.fkids_el in H as [H _]. Qed.
  (** An endpoint with the uuid of a direct sub-node is that sub-node. *)
  Lemma end_is p a' : a' ∈ nodes_of h' root -> p ∈ root :: nodes_of h' root ++ edges_of h' root -> uuid_of h' p = uuid_of h' a' -> p = a'.
  Proof.
    intros Ha Hp E. apply elem_of_cons in Hp as [->|Hp].
    - exfalso. apply (root_uuid a'); [apply elem_of_app; by left|]. by rewrite E.
    - apply (same_uuid_child h' root p a' W'); [|by apply node_child|done].
      apply elem_of_app in Hp as [Hp|Hp]; [by apply node_child|by apply edge_child].
  Qed.
  Context (i : nat) (a a' : loc) (Ha : nodes_of h c !! i = Some a) (Ha' : nodes_of h' root !! i = Some a').
  Lemma node_copy : uuid_of h' a' = uuid_of h a.
  Proof. pose proof (Forall2_lookup_lr _ _ _ _ _ _ (de_nodes _ _ _ _ _ D) Ha Ha') as ((_ & H & _) & _). exact H. Qed.
  Lemma copy_endpoint k e e' : edges_of h c !! k = Some e -> edges_of h' root !! k = Some e' -> a ∈ endpoints h e <-> a' ∈ endpoints h' e'.
  Proof.
    intros He He'. pose proof (Forall2_lookup_lr _ _ _ _ _ _ (de_edges _ _ _ _ _ D) He He') as (_ & _ & F).
    pose proof (elem_of_list_lookup_2 _ _ _ He) as Hie. pose proof (elem_of_list_lookup_2 _ _ _ Ha) as Hia. pose proof (elem_of_list_lookup_2 _ _ _ Ha') as Hia'.
    unfold endpoints. rewrite !elem_of_list_omap. split; intros (r & Hr & Ep).
    - destruct (forall2_left _ _ _ _ F Hr) as (r' & Hr' & _ & Eu & _ & p & Ep' & Hp). exists r'. split; [done|].
      rewrite (end_is p a' Hia' Hp) in Ep'; [done|]. unfold ep_uuid_of in Eu. rewrite Ep, Ep' in Eu. cbn in Eu. injection Eu as ->. by rewrite node_copy.
    - destruct (forall2_right _ _ _ _ F Hr) as (r0 & Hr0 & _ & Eu & _). exists r0. split; [done|].
      destruct (cg_ep _ _ C e r0 Hie Hr0) as (p & Ep0 & Hp). rewrite Ep0. f_equal.
      apply (same_uuid_child h c p a W); [by apply node_child|by apply node_child|].
      unfold ep_uuid_of in Eu. rewrite Ep, Ep0 in Eu. cbn in Eu. injection Eu as Eu. by rewrite <- Eu, node_copy.
  Qed.
End copies.

Section recv.
  Context (h : list obj) (c : loc) (h0 h' : list obj) (root : loc).
  Context (W : WF0 h) (W' : WF0 h') (G : sendable h c) (C : closed_graph h c) (D : decoded h c h0 h' root).
  Context (B : forall r, kind_of h' r = Some KRel -> ~ exists_in h0 r -> dir_of h' r = Some BIDIRECTIONAL /\ weight_of h' r = WNone).

  Lemma nodes_len : length (nodes_of h' root) = length (nodes_of h c).
  Proof. symmetry. exact (Forall2_length _ _ _ (de_nodes _ _ _ _ _ D)). Qed.
  Lemma edges_len : length (edges_of h' root) = length (edges_of h c).
  Proof. symmetry. exact (Forall2_length _ _ _ (de_edges _ _ _ _ _ D)). Qed.
  Lemma nodes_nodup g r : WF0 g -> NoDup (nodes_of g r).
  Proof. intros Wg. eapply NoDup_fmap_1. exact (nodup_kids g k_node r Wg). Qed.

  Lemma recv_connects k e e' i a a' j b b' : edges_of h c !! k = Some e -> edges_of h' root !! k = Some e' ->
    nodes_of h c !! i = Some a -> nodes_of h' root !! i = Some a' -> nodes_of h c !! j = Some b -> nodes_of h' root !! j = Some b' ->
    connects h e a b <-> connects h' e' a' b'.
  Proof.
    intros He He' Ha Ha' Hb Hb'. unfold connects.
    rewrite (copy_endpoint h c h0 h' root W W' G C D i a a' Ha Ha' k e e' He He'), (copy_endpoint h c h0 h' root W W' G C D j b b' Hb Hb' k e e' He He').
    assert (E : a = b <-> a' = b'); [|naive_solver].
    pose proof (nodes_nodup h c W) as N. pose proof (nodes_nodup h' root W') as N'. split; intros ->.
    - assert (i = j) as -> by exact (NoDup_lookup _ _ _ _ N Ha Hb). congruence.
    - assert (i = j) as -> by exact (NoDup_lookup _ _ _ _ N' Ha' Hb'). congruence.
  Qed.
  (** The endpoints of the copy are direct sub-nodes. *)
  Lemma recv_end e' r' : e' ∈ edges_of h' root -> r' ∈ rels_of h' e' -> exists p, ep_of h' r' = Some p /\ p ∈ nodes_of h' root.
  Proof.
    intros He' Hr'. destruct (forall2_right _ _ _ _ (de_edges _ _ _ _ _ D) He') as (e & He & _ & _ & F).
    destruct (forall2_right _ _ _ _ F Hr') as (r & Hr & _ & Eu & _ & p & Ep & Hp). exists p. split; [done|].
    destruct (cg_ep _ _ C e r He Hr) as (q & Eq & Hq). unfold ep_uuid_of in Eu. rewrite Ep, Eq in Eu. cbn in Eu. injection Eu as Eu.
    destruct (forall2_left _ _ _ _ (de_nodes _ _ _ _ _ D) Hq) as (q' & Hq' & (_ & Eq' & _) & _).
    by rewrite (end_is h c h0 h' root W' G D p q' Hq' Hp ltac:(congruence)).
  Qed.
  Lemma recv_new e' r' : WF0 h0 -> e' ∈ edges_of h' root -> r' ∈ rels_of h' e' -> ~ exists_in h0 r' /\ kind_of h' r' = Some KRel.
  Proof.
    intros W0 He' Hr'. destruct (de_root _ _ _ _ _ D) as (Hn & _). apply QEnc3.fkids_el in He' as [He' _].
    apply QEnc3.fkids_el in Hr' as [Hr' (o & Ho & Hk)].
    split; [|unfold kind_of; rewrite Ho; cbn; by destruct (o_kind o)].
    apply (new_below h0 h' root r' (de_old _ _ _ _ _ D) W0 Hn). right.
    destruct (wf0_child h' W' _ _ He') as [_ Pe]. destruct (wf0_child h' W' _ _ Hr') as [_ Pr]. apply (anc_up h' root e' r'); [done|by apply anc_parent].
  Qed.
  Lemma recv_closed : WF0 h0 -> closed_graph h' root /\ unweighted h' root /\ undirected h' root.
  Proof.
    intros W0. split; [constructor|split].
    - exact (sd_node _ _ (decoded_sendable _ _ _ _ _ G D)).
    - exact recv_end.
    - intros e r He Hr. destruct (recv_new e r W0 He Hr) as [H1 H2]. unfold weight_ok. by rewrite (proj2 (B r H2 H1)).
    - intros e r He Hr. destruct (recv_new e r W0 He Hr) as [H1 H2]. exact (proj2 (B r H2 H1)).
    - intros e r He Hr. destruct (recv_new e r W0 He Hr) as [H1 H2]. exact (proj1 (B r H2 H1)).
  Qed.
  Lemma recv_adjacency T : plain_adjacency h' root T -> plain_adjacency h c T.
  Proof.
    intros P. pose proof nodes_len as Ln. pose proof edges_len as Le.
    assert (N : forall i a, nodes_of h c !! i = Some a -> exists a', nodes_of h' root !! i = Some a').
    { intros i a Ha. apply lookup_lt_Some in Ha. apply lookup_lt_is_Some_2. by rewrite Ln. }
    assert (K : forall k e, edges_of h c !! k = Some e -> exists e', edges_of h' root !! k = Some e').
    { intros i a Ha. apply lookup_lt_Some in Ha. apply lookup_lt_is_Some_2. by rewrite Le. }
    constructor.
    - rewrite (pa_E _ _ _ P). exact Le.
    - rewrite (pa_n _ _ _ P). exact Ln.
    - intros k e i a j b He Ha Hb. destruct (K _ _ He) as [e' He']. destruct (N _ _ Ha) as [a' Ha']. destruct (N _ _ Hb) as [b' Hb'].
      unfold zero_one. rewrite (recv_connects k e e' i a a' j b b') by done. exact (pa_W _ _ _ P k e' i a' j b' He' Ha' Hb').
    - intros k e i a He Ha. destruct (K _ _ He) as [e' He']. destruct (N _ _ Ha) as [a' Ha'].
      destruct (pa_I _ _ _ P k e' i a' He' Ha') as [H1 H2]. split; [|done].
      assert (X : (exists b, connects h e a b) <-> (exists b', connects h' e' a' b')).
      { split.
        - intros (b & Hb). pose proof Hb as (_ & _ & Hbe). unfold endpoints in Hbe. apply elem_of_list_omap in Hbe as (r & Hr & Er).
          destruct (cg_ep _ _ C e r (elem_of_list_lookup_2 _ _ _ He) Hr) as (p & Ep & Hp). assert (p = b) as -> by congruence.
          apply elem_of_list_lookup in Hp as [j Hj]. destruct (N _ _ Hj) as [b' Hb']. exists b'. by apply (recv_connects k e e' i a a' j b b').
        - intros (b' & Hb). pose proof Hb as (_ & _ & Hbe). unfold endpoints in Hbe. apply elem_of_list_omap in Hbe as (r & Hr & Er).
          destruct (recv_end e' r (elem_of_list_lookup_2 _ _ _ He') Hr) as (p & Ep & Hp). assert (p = b') as -> by congruence.
          apply elem_of_list_lookup in Hp as [j Hj]. destruct (lookup_lt_is_Some_2 (nodes_of h c) j) as [b Hbj]; [rewrite <- Ln; by apply lookup_lt_Some in Hj|].
          exists b. by apply (recv_connects k e e' i a a' j b b'). }
      unfold zero_one in *. by rewrite X.
  Qed.
End recv.

(** Undirected graphs without weights have the plain adjacency. *)
Lemma describes_plain h c T : WF0 h -> closed_graph h c -> unweighted h c -> undirected h c -> describes h c T -> plain_adjacency h c T.
Proof.
  intros W C U V D. pose proof D as (DE & DN & DW & DI). constructor; [done|done| |].
  - intros k e i a j b He Ha Hb. rewrite (DW _ _ _ _ _ _ He Ha Hb), (und_W h c U V) by (by eapply elem_of_list_lookup_2).
    unfold zero_one, connects. destruct (decide _) as [J|J]; [by left|by right].
  - intros k e i a He Ha. destruct (DI _ _ _ _ He Ha) as [-> ->]. pose proof (elem_of_list_lookup_2 _ _ _ He) as Hin.
    rewrite (und_Io h c C U V), (und_Ii h c C U V) by done. split; [|done].
    assert (X : (exists b, connects h e a b) <-> a ∈ endpoints h e /\ 2 <= arity h e).
    { split.
      - intros (b & Hab & H1 & H2). split; [done|]. apply (arity_2 h e a H1). apply others_ne. by exists b.
      - intros [H1 H2]. apply (arity_2 h e a H1) in H2. apply others_ne in H2 as (b & Hb & Hne). exists b. by repeat split. }
    unfold zero_one. rewrite X. destruct (decide _) as [J|J]; [by left|by right].
Qed.
Lemma zero_one_eq P x y : zero_one P x -> zero_one P y -> x = y.
Proof. unfold zero_one. intros [[? ->]|[? ->]] [[? ->]|[? ->]]; done. Qed.
Lemma plain_same h c T T' : plain_adjacency h c T -> plain_adjacency h c T' -> same_arrays T T'.
Proof.
  intros P P'. unfold same_arrays. rewrite (pa_E _ _ _ P), (pa_E _ _ _ P'), (pa_n _ _ _ P), (pa_n _ _ _ P'). split; [done|]. split; [done|]. split.
  - intros k i j Hk Hi Hj. apply lookup_lt_is_Some in Hk as [e He], Hi as [a Ha], Hj as [b Hb].
    eapply zero_one_eq; [exact (pa_W _ _ _ P' _ _ _ _ _ _ He Ha Hb)|exact (pa_W _ _ _ P _ _ _ _ _ _ He Ha Hb)].
  - intros k i Hk Hi. apply lookup_lt_is_Some in Hk as [e He], Hi as [a Ha].
    destruct (pa_I _ _ _ P _ _ _ _ He Ha) as [H1 H2], (pa_I _ _ _ P' _ _ _ _ He Ha) as [H3 H4]. rewrite H2, H4.
    assert (E : te_Io T' k i = te_Io T k i) by (by eapply zero_one_eq). by rewrite E.
Qed.

(** What the receiver has. *)
Lemma receive_graph s c lim m s0 s1 root : reach s -> sendable (heap s) c -> closed_graph (heap s) c -> sends lim s c m -> receives m s0 s1 root ->
  reach s1 /\ decoded (heap s) c (heap s0) (heap s1) root /\
  sendable (heap s1) root /\ closed_graph (heap s1) root /\ unweighted (heap s1) root /\ undirected (heap s1) root /\
  (forall T, plain_adjacency (heap s1) root T -> plain_adjacency (heap s) c T).
Proof.
  intros R G C (ck & r & s' & g & g' & U & F) (R0 & g0 & x & g1 & E).
  destruct (q_C44 s c lim (new_icon ck c) r s' g R G eq_refl eq_refl U) as (x1 & m1 & g2 & -> & _ & F1 & K). rewrite F in F1. injection F1 as <- _.
  destruct (K s0 g0 R0) as (root' & x' & s3 & g3 & E' & R3 & _ & _ & D & _). rewrite E in E'. injection E' as <- <- <- <-.
  pose proof (reach_wf _ R) as W. pose proof (reach_wf _ R0) as W0. pose proof (reach_wf _ R3) as W3.
  assert (B : forall l, kind_of (heap s1) l = Some KRel -> ~ exists_in (heap s0) l -> dir_of (heap s1) l = Some BIDIRECTIONAL /\ weight_of (heap s1) l = WNone).
  { intros l Hk Hl. by apply (q_C45 _ _ _ _ _ _ E). }
  assert (Q : closed_graph (heap s1) root /\ unweighted (heap s1) root /\ undirected (heap s1) root) by (eapply recv_closed; solve [eauto]).
  destruct Q as (H1 & H2 & H3).
  split; [done|]. split; [done|]. split; [by eapply decoded_sendable|]. split; [done|]. split; [done|]. split; [done|].
  intros T P. eapply recv_adjacency; solve [eauto].
Qed.
Lemma q_C92_graph s c lim m s0 s1 root : reach s -> sendable (heap s) c -> closed_graph (heap s) c -> sends lim s c m -> receives m s0 s1 root ->
  reach s1 /\ closed_graph (heap s1) root /\ unweighted (heap s1) root /\ undirected (heap s1) root.
Proof. intros R G C S Rc. by destruct (receive_graph _ _ _ _ _ _ _ R G C S Rc) as (H1 & _ & _ & H2 & H3 & H4 & _). Qed.

Lemma relayed_closed n m m' : relayed_n n m m' -> forall s c lim, reach s -> sendable (heap s) c -> closed_graph (heap s) c -> sends lim s c m ->
  exists s' c' lim', reach s' /\ sendable (heap s') c' /\ closed_graph (heap s') c' /\ sends lim' s' c' m' /\
    (forall T, plain_adjacency (heap s') c' T -> plain_adjacency (heap s) c T) /\ length (nodes_of (heap s') c') = length (nodes_of (heap s) c).
Proof.
  induction 1 as [m|n m m1 m2 H IH H2]; intros s c lim R G C S.
  - by exists s, c, lim.
  - destruct (IH s c lim R G C S) as (s' & c' & lim' & R' & G' & C' & S' & A & L).
    destruct H2 as (s0 & g & root & x & s1 & g1 & lim1 & R0 & E & S1).
    destruct (receive_graph s' c' lim' m1 s0 s1 root R' G' C' S') as (R1 & D1 & G1 & C1 & _ & _ & A1); [split; [done|by exists g, x, g1]|].
    exists s1, root, lim1. split; [done|]. split; [done|]. split; [done|]. split; [done|]. split; [auto|].
    rewrite <- L. symmetry. exact (Forall2_length _ _ _ (de_nodes _ _ _ _ _ D1)).
Qed.
Lemma q_C92_entries s c lim m n m' s0 s1 root lim' x T : reach s -> sendable (heap s) c -> closed_graph (heap s) c -> sends lim s c m ->
  relayed_n n m m' -> receives m' s0 s1 root -> work (heap s1) root < lim' -> computes lim' root s1 x T -> plain_adjacency (heap s) c T.
Proof.
  intros R G C S H Rc Hl HC. destruct (relayed_closed _ _ _ H _ _ _ R G C S) as (s' & c' & lim1 & R' & G' & C' & S' & A & _).
  destruct (receive_graph _ _ _ _ _ _ _ R' G' C' S' Rc) as (R1 & _ & G1 & C1 & U1 & V1 & A1). apply A, A1.
  destruct (q_computes s1 root lim' x T R1 C1 Hl HC) as (D & _). exact (describes_plain _ _ _ (reach_wf _ R1) C1 U1 V1 D).
Qed.
Lemma q_C92_same s c lim m n m' s0 s1 root lim' x T lim0 x0 T0 : reach s -> sendable (heap s) c -> closed_graph (heap s) c -> sends lim s c m ->
  relayed_n n m m' -> receives m' s0 s1 root -> work (heap s1) root < lim' -> computes lim' root s1 x T ->
  unweighted (heap s) c -> undirected (heap s) c -> work (heap s) c < lim0 -> computes lim0 c s x0 T0 -> same_arrays T0 T.
Proof.
  intros R G C S H Rc Hl HC U V Hl0 HC0. destruct (q_computes s c lim0 x0 T0 R C Hl0 HC0) as (D0 & _).
  eapply plain_same; [|by eapply q_C92_entries]. exact (describes_plain _ _ _ (reach_wf _ R) C U V D0).
Qed.
Lemma q_C92_differs s c lim m n m' s0 s1 root lim' x T lim0 x0 T0 k e i a j b : reach s -> sendable (heap s) c -> closed_graph (heap s) c -> sends lim s c m ->
  relayed_n n m m' -> receives m' s0 s1 root -> work (heap s1) root < lim' -> computes lim' root s1 x T ->
  work (heap s) c < lim0 -> computes lim0 c s x0 T0 ->
  edges_of (heap s) c !! k = Some e -> nodes_of (heap s) c !! i = Some a -> nodes_of (heap s) c !! j = Some b ->
  te_W T k i j = te_W T0 k i j <-> (connects (heap s) e a b -> te_W T0 k i j = 1%Qc).
Proof.
  intros R G C S H Rc Hl HC Hl0 HC0 He Ha Hb. destruct (q_computes s c lim0 x0 T0 R C Hl0 HC0) as ((_ & _ & DW & _) & _).
  assert (P : plain_adjacency (heap s) c T) by (by eapply q_C92_entries). pose proof (pa_W _ _ _ P _ _ _ _ _ _ He Ha Hb) as Z.
  rewrite (DW _ _ _ _ _ _ He Ha Hb). destruct Z as [[J ->]|[J ->]].
  - split; [intros <-; done|]. intros X. symmetry. by apply X.
  - split; [by intros|]. intros _. unfold entry_W. rewrite decide_False; [done|exact J].
Qed.

Lemma q_C92_possible s c lim m n m' s0 : reach s -> sendable (heap s) c -> closed_graph (heap s) c -> sends lim s c m -> relayed_n n m m' -> reach s0 ->
  nodes_of (heap s) c <> [] ->
  exists s1 root, receives m' s0 s1 root /\ forall lim', work (heap s1) root < lim' -> exists x T, computes lim' root s1 x T.
Proof.
  intros R G C S H R0 N. destruct (relayed_closed _ _ _ H _ _ _ R G C S) as (s' & c' & lim1 & R' & G' & C' & S' & _ & L).
  pose proof S' as (ck & r & s2 & g & g' & U & F).
  destruct (q_C44 s' c' lim1 (new_icon ck c') r s2 g R' G' eq_refl eq_refl U) as (x1 & m1 & g2 & -> & _ & F1 & K). rewrite F in F1. injection F1 as <- _.
  destruct (K s0 (new_icon 0 0) R0) as (root & x' & s3 & g3 & E & R3 & _ & _ & D & _). exists s3, root.
  assert (Rc : receives m' s0 s3 root) by (split; [done|by exists (new_icon 0 0), x', g3]). split; [done|]. intros lim' Hl.
  destruct (receive_graph _ _ _ _ _ _ _ R' G' C' S' Rc) as (R1 & _ & G1 & C1 & _). apply q_total; [done|done|done|]. left. intros E0. apply N.
  pose proof (Forall2_length _ _ _ (de_nodes _ _ _ _ _ D)) as L1. rewrite E0 in L1. destruct (nodes_of (heap s) c); [done|]. rewrite L in L1. discriminate L1.
Qed.
