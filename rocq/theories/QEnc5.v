(** * Proofs of C44-C48: messages *)
From stdpp Require Import relations.
From Verif Require Import Spec Hierarchy Elements Factory History PDict PPath PExec PBfs PWF PAdd PMono PStep PRemove PReach PPrim PHist QHier QHier2 QHier3 QHier4 QHier5 QHier6 QFac SpecFac QFac2 SpecTrav QTrav QTrav2 QTrav3 QHom QTensor QEnc Encode SpecEnc QEnc2 QEnc3 QEnc4.

(** ** C44 *)
Lemma context_update lim c s g r s1 g1 : update_context lim c s g = (Ok r, s1, g1) ->
  exists x, hom_execute lim coo_conf c s hom0 = (Ok r, s1, x) /\ g1 = ic_set_coo (co_set_hom (Some x) (ic_coo g)) g.
Proof.
  unfold update_context, coo_reset. destruct (hom_execute lim coo_conf c s hom0) as [[r' s'] x] eqn:E. intros [= -> -> <-]. by exists x.
Qed.
Lemma context_updatable s c g : reach s -> exists_in (heap s) c -> exists n, forall lim, n < lim -> exists r g1, update_context lim c s g = (Ok r, s, g1).
Proof.
  intros R Hc. destruct (q_C30 s coo_conf c R Hc) as (ns & es & vs & _ & _ & _ & H). exists (length ns + length es + length vs). intros lim Hl.
  destruct (H lim hom0 ltac:(lia) ltac:(lia) ltac:(lia)) as (r & x & E & _). exists r. eexists. unfold update_context, coo_reset. by rewrite E.
Qed.
Lemma pairs_of {A} (f : A -> uid) (index : uid -> res nat) (l : list A) : NoDup (map f l) -> (forall a, a ∈ l -> is_ok (index (f a))) ->
  (forall u w i, index u = Ok i -> index w = Ok i -> u = w) ->
  let ps := map (fun a => (f a, ix (index (f a)))) l in
  NoDup (map fst ps) /\ NoDup (map snd ps) /\
  (forall index' at_' cnt', pairs_hold ps index' at_' cnt' -> (forall u, index' u = Exn KeyError \/ is_ok (index' u)) -> sent_indices (map f l) index index' at_' cnt').
Proof.
  intros Hnd Hok Hinj ps.
  assert (E1 : map fst ps = map f l) by (unfold ps; by rewrite map_map).
  assert (Hin : forall u i, (u, i) ∈ ps <-> u ∈ map f l /\ index u = Ok i).
  { intros u i. unfold ps. split.
    - intros H. apply elem_of_list_fmap in H as (a & [= -> ->] & Ha). split; [by apply elem_of_list_fmap_1|]. by destruct (Hok a Ha) as [j ->].
    - intros [H Hi]. apply elem_of_list_fmap in H as (a & -> & Ha). apply elem_of_list_fmap. exists a. by rewrite Hi. }
  split; [by rewrite E1|]. split.
  - assert (Hps : NoDup ps) by (eapply NoDup_fmap_1 with (f := fst); change (NoDup (map fst ps)); by rewrite E1).
    revert Hps Hin. clear -Hinj. generalize (map f l). intros us Hps Hin. assert (Hi : forall p q, p ∈ ps -> q ∈ ps -> p.2 = q.2 -> p = q).
    { intros [u i] [w j] Hp Hq. cbn. intros ->. apply Hin in Hp as [_ Hp]. apply Hin in Hq as [_ Hq]. by rewrite (Hinj u w j). }
    clear Hin. induction ps as [|p ps IH]; [constructor|]. cbn [map]. apply NoDup_cons in Hps as [Hp Hps]. apply NoDup_cons. split.
    + intros H. apply elem_of_list_fmap in H as (q & Hq & Hin). apply Hp. rewrite (Hi p q); [done|left|by right|done].
    + apply IH; [done|]. intros. apply Hi; by (right || done).
  - intros index' at_' cnt' (H1 & H2 & H3) H4. split; [by rewrite H1; unfold ps; rewrite !map_length|]. split; [|split].
    + intros u Hu. assert (Hok' : is_ok (index u)) by (apply elem_of_list_fmap in Hu as (a & -> & Ha); by apply Hok). split; [done|]. destruct Hok' as [i Hi]. rewrite Hi.
      apply H2. by apply Hin.
    + intros u i. by rewrite H2, H3.
    + intros u Hu. destruct (H4 u) as [H|[i H]]; [done|]. apply H2 in H. apply Hin in H as [H _]. done.
Qed.

Lemma q_C44 s c lim g r s1 g1 : reach s -> sendable (heap s) c -> co_context (ic_coo g) = c -> co_rels (ic_coo g) = [] ->
  update_context lim c s g = (Ok r, s1, g1) ->
  exists x m g2, s1 = s /\ co_hom (ic_coo g1) = Some x /\ full_msg s1 g1 = (Ok m, g2) /\
  forall s2 g', reach s2 -> exists root x' s3 g3,
    create_graph m s2 g' = (Ok (Some root, x'), s3, g3) /\ reach s3 /\ ic_context g3 = Some root /\ ic_hom g3 = Some x' /\
    decoded (heap s) c (heap s2) (heap s3) root /\ decoded_indices (heap s) c x x'.
Proof.
  intros R G Hc Hr U. apply context_update in U as (x & U & ->).
  destruct (hom_sent s c lim hom0 r s1 x R G U) as (-> & Hn & He & Hv & Jn & Je & Jv). pose proof (reach_wf s R) as W.
  set (g1 := ic_set_coo _ g). assert (Hc1 : co_context (ic_coo g1) = c) by done. assert (Hx1 : co_hom (ic_coo g1) = Some x) by done.
  exists x, (sent_msg s c x [] (ic_coo g1)). eexists. split; [done|]. split; [done|]. split.
  { rewrite (full_msg_ok s c x W G Hn He Hv g1 Hc1 Hx1). change (co_rels (ic_coo g1)) with (co_rels (ic_coo g)). rewrite Hr. reflexivity. }
  intros s2 g' R2.
  destruct (skeleton s c x W G s2 g' R2) as (sR & sN & sE & els1 & els & D1 & D2 & RE & (t0 & HR) & G1 & D0 & WR & DN & DE).
  destruct (rels_decoded s c x W G s2 g' R2 sR sE els t0 RE HR G1 D0 DN DE) as (sL & D3 & RL & GL).
  destruct (values_decoded s c x W s2 g' R2 sR sE els t0 HR G1 D0 DE sL RL GL) as (s3 & D4 & R3 & GV).
  pose proof (grows_app _ _ _ _ _ GL GV) as GLV.
  set (m := sent_msg s c x [] (ic_coo g1)).
  exists (length (heap s2)), (decoded_hom m), s3. eexists. split.
  { unfold create_graph, m, sent_msg. cbn [m_nodes m_edges m_rels m_values app].
    match goal with |- context [decode_rels (?r) _] => change r with (mRs s c) end.
    rewrite (bind_ok _ _ _ _ _ D1). cbn [fst snd]. rewrite (bind_ok _ _ _ _ _ D2), (bind_ok _ _ _ _ _ D3), (bind_ok _ _ _ _ _ D4). reflexivity. }
  split; [done|]. split; [done|]. split; [done|]. split.
  { eapply result; done. }
  assert (U1 : NoDup (map (uuid_of (heap s)) (c :: nodes_of (heap s) c))).
  { cbn [map]. apply NoDup_cons. split; [|by apply kids_uuids]. intros Hin. apply elem_of_list_fmap in Hin as (y & Hy & Hin). apply (sd_uuid _ _ G y); [apply elem_of_app; by left|done]. }
  pose proof (kids_uuids s W k_edge c) as U2. pose proof (kids_uuids s W k_value c) as U3.
  destruct (pairs_of (uuid_of (heap s)) (hom_node x) (c :: nodes_of (heap s) c) U1 Hn Jn) as (A1 & A2 & A3).
  destruct (pairs_of (uuid_of (heap s)) (hom_edge x) (edges_of (heap s) c) U2 He Je) as (B1 & B2 & B3).
  destruct (pairs_of (uuid_of (heap s)) (hom_val x) (values_of (heap s) c) U3 Hv Jv) as (C1 & C2 & C3).
  destruct (q_C31_pairs _ _ _ hom0 A1 A2 B1 B2 C1 C2) as (I1 & I2 & I3).
  assert (Eh : decoded_hom m = reset_from_bijection (map (fun a => (uuid_of (heap s) a, ix (hom_node x (uuid_of (heap s) a)))) (c :: nodes_of (heap s) c))
    (map (fun a => (uuid_of (heap s) a, ix (hom_edge x (uuid_of (heap s) a)))) (edges_of (heap s) c))
    (map (fun a => (uuid_of (heap s) a, ix (hom_val x (uuid_of (heap s) a)))) (values_of (heap s) c)) hom0).
  { unfold decoded_hom, m, sent_msg. cbn [m_nodes m_edges m_values map]. rewrite !map_map. reflexivity. }
  rewrite Eh. unfold decoded_indices.
  assert (K : forall t u, index_of t u = Exn KeyError \/ is_ok (index_of t u)) by (intros t u; unfold index_of; destruct (dget u (tb_fwd t)) as [i|]; [right; by exists i|by left]).
  split; [|split]; [apply A3|apply B3|apply C3]; try done; intros u; apply K.
Qed.

Lemma map_flat {A B C} (g : B -> C) (f : A -> list B) (l : list A) : map g (flat_map f l) = flat_map (fun a => map g (f a)) l.
Proof. induction l as [|a l IH]; [done|]. cbn. by rewrite map_app, IH. Qed.
Lemma flat_map_eq {A B} (f g : A -> list B) (l : list A) : (forall a, a ∈ l -> f a = g a) -> flat_map f l = flat_map g l.
Proof. induction l as [|a l IH]; intros H; [done|]. cbn. rewrite (H a) by left. rewrite IH by (intros; apply H; by right). done. Qed.
Lemma map_eq' {A B} (f g : A -> B) (l : list A) : (forall a, a ∈ l -> f a = g a) -> map f l = map g l.
Proof. induction l as [|a l IH]; intros H; [done|]. cbn. rewrite (H a) by left. rewrite IH by (intros; apply H; by right). done. Qed.
Lemma q_C44_tells s c lim g r s1 g1 m g2 : reach s -> sendable (heap s) c -> co_context (ic_coo g) = c -> co_rels (ic_coo g) = [] ->
  update_context lim c s g = (Ok r, s1, g1) -> full_msg s1 g1 = (Ok m, g2) -> tells (heap s) c m.
Proof.
  intros R G Hc Hr U F. apply context_update in U as (x & U & ->).
  destruct (hom_sent s c lim hom0 r s1 x R G U) as (-> & Hn & He & Hv & Jn & Je & Jv). pose proof (reach_wf s R) as W.
  set (gg := ic_set_coo _ g) in F. assert (Hc1 : co_context (ic_coo gg) = c) by done. assert (Hx1 : co_hom (ic_coo gg) = Some x) by done.
  rewrite (full_msg_ok s c x W G Hn He Hv gg Hc1 Hx1) in F. change (co_rels (ic_coo gg)) with (co_rels (ic_coo g)) in F. rewrite Hr in F. injection F as <- _.
  unfold sent_msg. constructor; cbn [m_nodes m_edges m_rels m_values app].
  - cbn [map]. rewrite map_map. reflexivity.
  - rewrite map_map. reflexivity.
  - unfold mRs. rewrite map_flat. apply flat_map_eq. intros e _. rewrite map_map. reflexivity.
  - unfold mRs. rewrite map_flat. apply flat_map_eq. intros e Hee. rewrite map_map. apply map_eq'. intros l Hl. cbn.
    destruct (sd_ep _ _ G e l Hee Hl) as (p & y & H1 & _). unfold ep_uuid_of. by rewrite H1.
  - unfold mRs. rewrite map_flat. apply flat_map_eq. intros e Hee. rewrite map_map. apply map_eq'. intros l Hl. cbn.
    apply fkids_el in Hl as (_ & o & Ho & _). unfold dir_of. rewrite Ho. cbn. by destruct (o_dir o).
  - rewrite map_map. reflexivity.
Qed.
