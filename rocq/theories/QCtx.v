(** * Proofs of C91: an icon that was updated for another node *)
From stdpp Require Import relations.
From Verif Require Import Spec Hierarchy Elements Factory History PDict PPath PExec PBfs PWF PAdd PMono PStep PRemove PReach PPrim PHist QHier QHier2 QHier3 QHier4 QHier5 QHier6 QFac SpecFac QFac2 SpecTrav QTrav QTrav2 QTrav3 QHom QTensor QEnc Encode SpecEnc QEnc2 QEnc3 QEnc4 QEnc5 QEnc6 QConv3 SpecHom QRelay SpecCtx.

Lemma res_map_fail {A B} (f : A -> res B) (g : A -> B) (ok : A -> Prop) l : (forall a, a ∈ l -> (ok a /\ f a = Ok (g a)) \/ (~ ok a /\ f a = Exn KeyError)) ->
  ((forall a, a ∈ l -> ok a) /\ res_map f l = Ok (map g l)) \/ ((exists a, a ∈ l /\ ~ ok a) /\ res_map f l = Exn KeyError).
Proof.
  induction l as [|a l IH]; intros H.
  - left. split; [|done]. intros a Ha. inversion Ha.
  - cbn [res_map map]. destruct (H a) as [[Ho ->]|[Ho ->]]; [by left| |].
    + destruct IH as [[Hall ->]|[(b & Hb & Hn) ->]]; [intros; apply H; by right| |].
      * left. split; [|done]. intros b Hb. apply elem_of_cons in Hb as [->|Hb]; auto.
      * right. split; [|done]. exists b. split; [by right|done].
    + right. split; [|done]. exists a. split; [by left|done].
Qed.

Section lists.
  Variables (s : st) (c : loc) (x : hom).
  Let h := heap s.
  Hypothesis (W : WF0 h) (G : sendable h c).
  Lemma look_node u : is_ok (hom_node x u) \/ hom_node x u = Exn KeyError.
  Proof. unfold hom_node, index_of. destruct (dget _ _); [left; by eexists|by right]. Qed.
  Lemma look_edge u : is_ok (hom_edge x u) \/ hom_edge x u = Exn KeyError.
  Proof. unfold hom_edge, index_of. destruct (dget _ _); [left; by eexists|by right]. Qed.
  Lemma look_val u : is_ok (hom_val x u) \/ hom_val x u = Exn KeyError.
  Proof. unfold hom_val, index_of. destruct (dget _ _); [left; by eexists|by right]. Qed.
  Definition okn (y : loc) : Prop := is_ok (hom_node x (uuid_of h y)).
  Definition oke (y : loc) : Prop := is_ok (hom_edge x (uuid_of h y)).
  Definition okv (y : loc) : Prop := is_ok (hom_val x (uuid_of h y)).
  Lemma not_ok {A} e : ~ is_ok (@Exn A e). Proof. by intros [a ?]. Qed.
  Lemma attrs l o : heap s !! l = Some o -> uuid_of h l = o_uuid o /\ name_of h l = o_name o /\ qn_of h l = o_qname o /\ vals_of h l = o_vals o.
  Proof. intros Ho. unfold uuid_of, name_of, qn_of, vals_of, h. by rewrite Ho. Qed.
  Lemma node_one l o : heap s !! l = Some o -> (o_parent o = None \/ o_parent o = Some c) ->
    (okn l /\ node_tuple s (Some x) l = Ok (mN s x (uuid_of h <$> o_parent o) l)) \/ (~ okn l /\ node_tuple s (Some x) l = Exn KeyError).
  Proof.
    intros Ho Hp. destruct (ctx_obj s c G) as (oc & Hoc & _). destruct (attrs l o Ho) as (E1 & E2 & E3 & _).
    unfold okn, node_tuple, mN. fold h. rewrite E1, E2, E3. unfold h. rewrite Ho. cbn [with_hom].
    destruct (look_node (o_uuid o)) as [[i Hi]|Hi]; rewrite Hi.
    - left. split; [by exists i|]. destruct Hp as [-> | ->]; [done|]. rewrite Hoc. unfold uuid_of. cbn. by rewrite Hoc.
    - right. split; [apply not_ok|done].
  Qed.
  Lemma edge_one l o : heap s !! l = Some o -> o_parent o = Some c ->
    (oke l /\ edge_tuple s (Some x) l = Ok (mE s c x l)) \/ (~ oke l /\ edge_tuple s (Some x) l = Exn KeyError).
  Proof.
    intros Ho Hp. destruct (attrs l o Ho) as (E1 & E2 & E3 & _). pose proof (kid_parent s c G l o Ho Hp) as Ek.
    unfold oke, edge_tuple, mE. fold h in Ek. fold h. rewrite E1, E2, E3. rewrite (Ho : h !! l = Some o). cbn [with_hom]. rewrite Ek.
    destruct (look_edge (o_uuid o)) as [[i Hi]|Hi]; rewrite Hi; [left|right]; (split; [|done]); [by exists i|apply not_ok].
  Qed.
  Lemma value_one l o : heap s !! l = Some o -> o_parent o = Some c ->
    (okv l /\ value_tuple s (Some x) l = Ok (mV s c x l)) \/ (~ okv l /\ value_tuple s (Some x) l = Exn KeyError).
  Proof.
    intros Ho Hp. destruct (attrs l o Ho) as (E1 & E2 & E3 & E4). pose proof (kid_parent s c G l o Ho Hp) as Ek.
    unfold okv, value_tuple, mV. fold h in Ek. fold h. rewrite E1, E2, E3, E4. rewrite (Ho : h !! l = Some o). cbn [with_hom]. rewrite Ek.
    destruct (look_val (o_uuid o)) as [[i Hi]|Hi]; rewrite Hi; [left|right]; (split; [|done]); [by exists i|apply not_ok].
  Qed.
  Definition all_ok : Prop := (forall y, y ∈ c :: nodes_of h c -> okn y) /\ (forall y, y ∈ edges_of h c -> oke y) /\ (forall y, y ∈ values_of h c -> okv y).
  Lemma full_cases g : co_context (ic_coo g) = c -> co_hom (ic_coo g) = Some x ->
    (all_ok /\ exists g2, full_msg s g = (Ok (sent_msg s c x (co_rels (ic_coo g)) (ic_coo g)), g2)) \/
    (~ all_ok /\ exists g2, full_msg s g = (Exn KeyError, g2)).
  Proof.
    intros Hc Hx. destruct (ctx_obj s c G) as (oc & Hoc & Hk & Hp). fold h in Hoc.
    assert (N : ((forall y, y ∈ c :: nodes_of h c -> okn y) /\ is_ok (node_index_list s (ic_coo g))) \/ ((exists y, y ∈ c :: nodes_of h c /\ ~ okn y) /\ node_index_list s (ic_coo g) = Exn KeyError)).
    { unfold node_index_list. rewrite Hc, Hx. destruct (node_one c oc Hoc (or_introl Hp)) as [[H0 ->]|[H0 ->]]; cbn [res_bind].
      - unfold sub_nodes. rewrite (sub_get s k_node c oc Hoc). cbn [res_bind]. change (fkids (is_kind k_node) (heap s) c) with (nodes_of h c).
        destruct (res_map_fail (node_tuple s (Some x)) (mN s x (Some (uuid_of h c))) okn (nodes_of h c)) as [[H1 ->]|[(y & Hy & Hn) ->]]; cbn [res_bind].
        + intros a Ha. destruct (kid_obj s c W _ a Ha) as (o & Ho & _ & Hpo). destruct (node_one a o Ho (or_intror Hpo)) as [H|H]; [left|by right]. rewrite Hpo in H. done.
        + left. split; [|by eexists]. intros y Hy. apply elem_of_cons in Hy as [->|Hy]; auto.
        + right. split; [|done]. exists y. split; [by right|done].
      - right. split; [|done]. exists c. split; [left|done]. }
    destruct N as [[N [ns EN]]|[(y & Hy & Hn) EN]].
    2:{ right. split; [intros (A & _); apply Hn, A, Hy|]. unfold full_msg. rewrite EN. by eexists. }
    assert (E : ((forall y, y ∈ edges_of h c -> oke y) /\ is_ok (edge_index_list s (ic_coo g))) \/ ((exists y, y ∈ edges_of h c /\ ~ oke y) /\ edge_index_list s (ic_coo g) = Exn KeyError)).
    { unfold edge_index_list. rewrite Hc, Hx. unfold sub_edges. rewrite (sub_get s k_edge c oc Hoc). cbn [res_bind]. change (fkids (is_kind k_edge) (heap s) c) with (edges_of h c).
      destruct (res_map_fail (edge_tuple s (Some x)) (mE s c x) oke (edges_of h c)) as [[H1 ->]|[(y & Hy & Hn) ->]]; [|left; split; [done|by eexists]|right; split; [by exists y|done]].
      intros a Ha. destruct (kid_obj s c W _ a Ha) as (o & Ho & _ & Hpo). exact (edge_one a o Ho Hpo). }
    destruct E as [[E [es EE]]|[(y & Hy & Hn) EE]].
    2:{ right. split; [intros (_ & A & _); apply Hn, A, Hy|]. unfold full_msg. rewrite EN, EE. by eexists. }
    assert (V : forall k, co_context k = c -> co_hom k = Some x -> ((forall y, y ∈ values_of h c -> okv y) /\ is_ok (msg_value_nodes s k)) \/ ((exists y, y ∈ values_of h c /\ ~ okv y) /\ msg_value_nodes s k = Exn KeyError)).
    { intros k Hc' Hx'. unfold msg_value_nodes. rewrite Hc', Hx'. unfold sub_values. rewrite (sub_get s k_value c oc Hoc). cbn [res_bind]. change (fkids (is_kind k_value) (heap s) c) with (values_of h c).
      destruct (res_map_fail (value_tuple s (Some x)) (mV s c x) okv (values_of h c)) as [[H1 ->]|[(y & Hy & Hn) ->]]; [|left; split; [done|by eexists]|right; split; [by exists y|done]].
      intros a Ha. destruct (kid_obj s c W _ a Ha) as (o & Ho & _ & Hpo). exact (value_one a o Ho Hpo). }
    destruct (V (co_set_rels (co_rels (ic_coo g) ++ mRs s c) (ic_coo g)) Hc Hx) as [[V1 _]|[(y & Hy & Hn) EV]].
    - left. split; [done|]. eexists. apply (full_msg_ok s c x W G N E V1 g Hc Hx).
    - right. split; [intros (_ & _ & A); apply Hn, A, Hy|]. unfold full_msg. rewrite EN, EE, (rel_list s c W G _ Hc), EV. by eexists.
  Qed.
End lists.

Lemma indexes_ok us index at_ cnt : indexes us index at_ cnt -> forall u, is_ok (index u) <-> u ∈ us.
Proof.
  intros (_ & _ & A & B) u. split.
  - intros [i Hi]. apply A in Hi as [Hi _]. by eapply elem_of_list_lookup_2.
  - intros Hu. assert (Hx : exists i, us !! i = Some u /\ forall j, us !! j = Some u -> j <= i).
    { clear A B. induction us as [|w us IH] using rev_ind; [inversion Hu|]. destruct (decide (w = u)) as [->|Hw].
      - exists (length us). split; [by rewrite lookup_app_r, Nat.sub_diag|]. intros j Hj. apply lookup_lt_Some in Hj. rewrite app_length in Hj. cbn in Hj. lia.
      - apply elem_of_app in Hu as [Hu|Hu%elem_of_list_singleton]; [|by subst]. destruct (IH Hu) as (i & Hi & Hj). exists i.
        split; [by apply lookup_app_l_Some|]. intros j Hj'. apply lookup_app_Some in Hj' as [Hj'|[_ Hj']]; [by apply Hj|].
        apply list_lookup_singleton_Some in Hj' as [_ Hj']. congruence. }
    destruct Hx as (i & Hi & Hj). exists i. by apply A.
Qed.
Lemma order_met k h a ls u : WF0 h -> exists_in h a -> bfs_order (hom_trav k coo_conf) h a ls -> u ∈ map (uuid_of h) ls <-> met k h a u.
Proof.
  intros W Ha O.
  assert (Acc : forall z, accepts (is_kind k) h z = true -> k <$> kind_of h z = Some true).
  { intros z. unfold accepts, is_kind, kind_of. destruct (h !! z) as [o|]; [|done]. cbn. by intros ->. }
  assert (Mem : forall z, z ∈ ls <-> (z = a \/ through (is_kind k) h a z) /\ k <$> kind_of h z = Some true).
  { destruct O as (n & Hn & ->). cbn [hom_trav coo_conf hc_depth t_max t_filter] in *. intros z. rewrite elem_of_app, root_part_kind. split.
    - intros [H|H].
      + case_bool_decide; [|inversion H]. apply elem_of_list_singleton in H as ->. split; [by left|done].
      + apply (order_through h W) in H; [|done]. split; [by right|]. apply Acc. by destruct H.
    - intros [[->|H] Hk].
      + left. rewrite bool_decide_eq_true_2 by done. left.
      + right. by apply (order_through h W). }
  rewrite elem_of_list_fmap. split.
  - intros (z & -> & Hz). apply Mem in Hz as [H1 H2]. by exists z.
  - intros (z & H1 & H2 & <-). exists z. split; [done|]. by apply Mem.
Qed.

Lemma tells_sent s c x k : sendable (heap s) c -> tells (heap s) c (sent_msg s c x [] k).
Proof.
  intros G. unfold sent_msg. constructor; cbn [m_nodes m_edges m_rels m_values app].
  - cbn [map]. rewrite map_map. reflexivity.
  - rewrite map_map. reflexivity.
  - unfold mRs. rewrite map_flat. apply flat_map_eq. intros e _. rewrite map_map. reflexivity.
  - unfold mRs. rewrite map_flat. apply flat_map_eq. intros e Hee. rewrite map_map. apply map_eq'. intros l Hl. cbn.
    destruct (sd_ep _ _ G e l Hee Hl) as (p & y & H1 & _). unfold ep_uuid_of. by rewrite H1.
  - unfold mRs. rewrite map_flat. apply flat_map_eq. intros e Hee. rewrite map_map. apply map_eq'. intros l Hl. cbn.
    apply fkids_el in Hl as (_ & o & Ho & _). unfold dir_of. rewrite Ho. cbn. by destruct (o_dir o).
  - rewrite map_map. reflexivity.
Qed.

(** ** C91 *)
Lemma q_C91 s a c lim g r s1 g1 : reach s -> sendable (heap s) c -> exists_in (heap s) a -> co_context (ic_coo g) = c -> update_context lim a s g = (Ok r, s1, g1) ->
  s1 = s /\ (is_ok (fst (full_msg s1 g1)) <-> known (heap s) a c) /\
  (forall m g2, full_msg s1 g1 = (Ok m, g2) -> co_rels (ic_coo g) = [] -> tells (heap s) c m) /\
  (forall e g2, full_msg s1 g1 = (Exn e, g2) -> e = KeyError).
Proof.
  intros R G Ha Hc U. apply context_update in U as (x & U & ->). pose proof (reach_wf s R) as W.
  destruct (hom_shape s coo_conf a lim hom0 r s1 x R Ha U) as (-> & ns & es & vs & O1 & O2 & O3 & I1 & I2 & I3). split; [done|].
  assert (K : all_ok s c x <-> known (heap s) a c).
  { unfold all_ok, okn, oke, okv. split.
    - intros (A1 & A2 & A3). constructor; intros y Hy.
      + apply (order_met _ _ _ _ _ W Ha O1), (indexes_ok _ _ _ _ I1). by apply A1.
      + apply (order_met _ _ _ _ _ W Ha O2), (indexes_ok _ _ _ _ I2). by apply A2.
      + apply (order_met _ _ _ _ _ W Ha O3), (indexes_ok _ _ _ _ I3). by apply A3.
    - intros [A1 A2 A3]. split; [|split]; intros y Hy.
      + apply (indexes_ok _ _ _ _ I1), (order_met _ _ _ _ _ W Ha O1). by apply A1.
      + apply (indexes_ok _ _ _ _ I2), (order_met _ _ _ _ _ W Ha O2). by apply A2.
      + apply (indexes_ok _ _ _ _ I3), (order_met _ _ _ _ _ W Ha O3). by apply A3. }
  match goal with |- context [full_msg s ?y] => set (gg := y) end.
  destruct (full_cases s c x W G gg Hc eq_refl) as [[A (g2 & E)]|[A (g2 & E)]]; rewrite E.
  - split; [|split].
    + split; [intros _; by apply K|]. intros _. by eexists.
    + intros m g3 [= <- _] Hr. change (co_rels (ic_coo gg)) with (co_rels (ic_coo g)). rewrite Hr. by apply tells_sent.
    + intros e g3 [=].
  - split; [|split].
    + split; [by intros [? [=]]|]. intros H. exfalso. by apply A, K.
    + intros m g3 [=].
    + by intros e g3 [= <- _].
Qed.
Lemma q_C91_elsewhere s a c lim g r s1 g1 : reach s -> sendable (heap s) c -> exists_in (heap s) a -> co_context (ic_coo g) = c -> update_context lim a s g = (Ok r, s1, g1) ->
  (forall z, within (heap s) a z -> kind_of (heap s) z = Some KNode -> uuid_of (heap s) z <> uuid_of (heap s) c) ->
  exists g2, full_msg s1 g1 = (Exn KeyError, g2).
Proof.
  intros R G Ha Hc U H. destruct (q_C91 s a c lim g r s1 g1 R G Ha Hc U) as (_ & A & _ & B). destruct (full_msg s1 g1) as [[m|e] g2] eqn:E.
  - exfalso. destruct (proj1 A) as [K _ _]; [by exists m|]. destruct (K c ltac:(left)) as (z & Hz & Hk & Hu). refine (H z _ _ Hu).
    + destruct Hz as [->|Hz]; [by left|right; by eapply through_ancestor].
    + destruct (kind_of (heap s) z) as [[]|]; cbn in Hk; congruence.
  - exists g2. by rewrite (B e g2 eq_refl).
Qed.
