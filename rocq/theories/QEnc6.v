(** * Proofs of C45-C48 *)
From stdpp Require Import relations.
From Verif Require Import Spec Hierarchy Elements Factory History PDict PPath PExec PBfs PWF PAdd PMono PStep PRemove PReach PPrim PHist QHier QHier2 QHier3 QHier4 QHier5 QHier6 QFac SpecFac QFac2 SpecTrav QTrav QTrav2 QTrav3 QHom QTensor QEnc Encode SpecEnc QEnc2 QEnc3 QEnc4 QEnc5.

(** ** Operations that create nothing *)
Definition lenp {A} (m : M A) : Prop := forall s, length (heap (snd (m s))) = length (heap s).
Lemma lenp_ret {A} (a : A) : lenp (ret a). Proof. by intros s. Qed.
Lemma lenp_raise {A} e : lenp (@raise A e). Proof. by intros s. Qed.
Lemma lenp_bind {A B} (m : M A) (k : A -> M B) : lenp m -> (forall a, lenp (k a)) -> lenp (bind m k).
Proof. intros Hm Hk s. unfold bind. specialize (Hm s). destruct (m s) as [[a|e] s1]; simpl in *; [|done]. by rewrite Hk. Qed.
Lemma lenp_get : lenp get_st. Proof. by intros s. Qed.
Lemma lenp_deref l : lenp (deref l). Proof. intros s. unfold deref. by destruct (heap s !! l). Qed.
Lemma lenp_of_opt {A} e (x : option A) : lenp (of_opt e x). Proof. by destruct x. Qed.
Lemma lenp_now c : lenp (now c). Proof. by intros s. Qed.
Lemma lenp_upd l f : lenp (upd l f).
Proof. intros s. unfold upd. destruct (heap s !! l); [|done]. cbn. by rewrite alter_length. Qed.
Global Hint Resolve lenp_ret lenp_raise lenp_get lenp_deref lenp_of_opt lenp_now lenp_upd : lenp.
Ltac lenp := repeat first
  [ progress (eauto with lenp)
  | apply lenp_bind; [|intros ?]
  | match goal with |- lenp (match ?x with _ => _ end) => destruct x | |- lenp (let '_ := ?x in _) => destruct x end ].
Lemma lenp_update_timestamp l : lenp (update_timestamp l). Proof. unfold update_timestamp. lenp. Qed.
Lemma lenp_refresh l : lenp (refresh_qname l). Proof. unfold refresh_qname. lenp. Qed.
Global Hint Resolve lenp_update_timestamp lenp_refresh : lenp.
Lemma lenp_update l : lenp (update l). Proof. unfold update. lenp. Qed.
Global Hint Resolve lenp_update : lenp.
Lemma lenp_update_loop fuel q : lenp (update_loop fuel q).
Proof. revert q. induction fuel as [|fuel IH]; intros [|x q]; simpl; lenp. Qed.
Global Hint Resolve lenp_update_loop : lenp.
Lemma lenp_update_subtree l : lenp (update_subtree l). Proof. unfold update_subtree. lenp. Qed.
Lemma lenp_remove_one p v : lenp (remove_one p v). Proof. unfold remove_one. pose proof lenp_update_subtree. lenp. Qed.
Global Hint Resolve lenp_update_subtree lenp_remove_one : lenp.
Lemma lenp_remove_uuid p nm u : lenp (remove_uuid p nm u). Proof. unfold remove_uuid. lenp. Qed.
Global Hint Resolve lenp_remove_uuid : lenp.
Lemma lenp_base_next g : lenp (base_next g). Proof. destruct g as [p nm u|p [|v vs]|]; simpl; lenp. Qed.
Global Hint Resolve lenp_base_next : lenp.
Lemma lenp_rel_next p : lenp (rel_next p). Proof. unfold rel_next. lenp. Qed.
Lemma lenp_edge_next p nm u : lenp (edge_next p nm u). Proof. unfold edge_next. lenp. Qed.
Global Hint Resolve lenp_rel_next lenp_edge_next : lenp.
Lemma lenp_gen_next g : lenp (gen_next g). Proof. destruct g; unfold gen_next; lenp. Qed.
Global Hint Resolve lenp_gen_next : lenp.
Lemma lenp_gen_loop body p vs : (forall x, lenp (body x)) -> lenp (gen_loop body p vs).
Proof. intros Hb. induction vs as [|v vs IH]; simpl; lenp. Qed.
Lemma lenp_for_gen body g : (forall x, lenp (body x)) -> lenp (for_gen body g).
Proof. intros Hb. unfold for_gen. pose proof (fun p vs => lenp_gen_loop body p vs Hb). lenp. Qed.
Lemma lenp_for_gen_update g : lenp (for_gen update g). Proof. apply lenp_for_gen. lenp. Qed.
Global Hint Resolve lenp_for_gen_update : lenp.
Lemma lenp_add_base p c : lenp (add_base p c). Proof. unfold add_base. lenp. Qed.
Global Hint Resolve lenp_add_base : lenp.

(** ** C45: relations made by the decoder *)
Definition plain_from (n : nat) (s : st) : Prop := n <= length (heap s) /\
  forall l o, n <= l -> heap s !! l = Some o -> o_kind o = KRel -> o_dir o = BIDIRECTIONAL /\ o_weight o = WNone.
Definition plainp {A} (m : M A) : Prop := forall n s, plain_from n s -> plain_from n (snd (m s)).
Lemma plainp_ret {A} (a : A) : plainp (ret a). Proof. by intros n s. Qed.
Lemma plainp_of_opt {A} e (x : option A) : plainp (of_opt e x). Proof. intros n s. by destruct x. Qed.
Lemma plainp_bind {A B} (m : M A) (k : A -> M B) : plainp m -> (forall a, plainp (k a)) -> plainp (bind m k).
Proof. intros Hm Hk n s H. unfold bind. specialize (Hm n s H). destruct (m s) as [[a|e] s1]; simpl in *; [|done]. by apply Hk. Qed.
Lemma plainp_keep {A} (m : M A) : pres m -> lenp m -> plainp m.
Proof.
  intros Hp Hl n s [H0 H]. split; [by rewrite Hl|]. intros l o' Hn Ho' Hk.
  assert (Hlt : l < length (heap s)) by (rewrite <- (Hl s); by eapply lookup_lt_Some). apply lookup_lt_is_Some in Hlt as [o Ho].
  destruct (m_obj _ _ (Hp s) l o Ho) as (o2 & Ho2 & M). assert (o2 = o') as -> by congruence.
  rewrite (om_dir _ _ _ _ M), (om_weight _ _ _ _ M). apply (H l o Hn Ho). by rewrite <- (om_kind _ _ _ _ M).
Qed.
Lemma plainp_alloc o : (o_kind o = KRel -> o_dir o = BIDIRECTIONAL /\ o_weight o = WNone) -> plainp (alloc o).
Proof.
  intros Ho n s [H0 H]. rewrite alloc_state. cbn [snd heap set_heap]. split; [cbn; rewrite app_length; lia|]. intros l o' Hn Hl. cbn in Hl.
  apply lookup_app_Some in Hl as [Hl|[_ Hl]]; [by apply (H l)|]. apply list_lookup_singleton_Some in Hl as [_ <-]. done.
Qed.
Lemma plainp_deref l : plainp (deref l). Proof. apply plainp_keep; [apply pres_deref|lenp]. Qed.
Lemma plainp_raise {A} e : plainp (@raise A e). Proof. by intros n s. Qed.
Lemma plainp_hash u : plainp (hash u). Proof. by intros n s. Qed.
Lemma plainp_upd l f : good f -> plainp (upd l f). Proof. intros. apply plainp_keep; [by apply pres_upd|lenp]. Qed.
Lemma plainp_base p c : plainp (add_base p c). Proof. apply plainp_keep; [apply pres_add_base|lenp]. Qed.
Lemma plainp_connect x el : plainp (connect x el).
Proof.
  unfold connect. apply plainp_bind; [apply plainp_deref|]. intros ox. apply plainp_bind; [apply plainp_deref|]. intros oe. destruct (_ && _); [|apply plainp_raise].
  apply plainp_bind; [apply plainp_hash|]. intros u. apply plainp_bind; [by apply plainp_alloc|]. intros pt. apply plainp_bind; [apply plainp_upd; good|]. intros []. apply plainp_base.
Qed.
Lemma plainp_add p c : plainp (add_element p c).
Proof.
  unfold add_element. apply plainp_bind; [apply plainp_deref|]. intros op. destruct (o_kind op); try apply plainp_base.
  - apply plainp_bind; [apply plainp_base|]. intros []. apply plainp_bind; [apply plainp_deref|]. intros oc. destruct (o_kind oc); try apply plainp_ret.
    apply plainp_bind; [apply plainp_deref|]. intros op'. destruct (o_ready op'); [apply plainp_upd; good|apply plainp_raise].
  - apply plainp_bind; [apply plainp_base|]. intros []. apply plainp_bind; [apply plainp_deref|]. intros oc. destruct (is_hyperelement _); [apply plainp_connect|apply plainp_ret].
Qed.
Lemma plainp_conceptual k nm u prog c p : plainp (new_conceptual k nm u prog (Some c) p).
Proof.
  unfold new_conceptual. apply plainp_bind; [apply plainp_keep; [apply pres_now|lenp]|]. intros t. apply plainp_bind.
  - apply plainp_alloc. intros _. done.
  - intros l. apply plainp_bind; [destruct p; [apply plainp_add|apply plainp_ret]|]. intros []. apply plainp_bind; [apply plainp_upd; good|]. intros []. apply plainp_ret.
Qed.
Lemma plainp_nodes c ns els rt : plainp (decode_nodes c ns els rt).
Proof.
  revert els rt. induction ns as [|n ns IH]; intros els rt; [apply plainp_ret|]. cbn [decode_nodes]. apply plainp_bind; [apply plainp_conceptual|]. intros l. cbv zeta.
  destruct (mn_parent n); [|apply IH]. apply plainp_bind; [apply plainp_of_opt|]. intros p. apply plainp_bind; [apply plainp_add|]. intros []. apply IH.
Qed.
Lemma plainp_edges c es els : plainp (decode_edges c es els).
Proof.
  revert els. induction es as [|n es IH]; intros els; [apply plainp_ret|]. cbn [decode_edges]. apply plainp_bind; [apply plainp_of_opt|]. intros p.
  apply plainp_bind; [apply plainp_conceptual|]. intros l. apply IH.
Qed.
Lemma plainp_rels rs els : plainp (decode_rels rs els).
Proof.
  induction rs as [|r rs IH]; [apply plainp_ret|]. cbn [decode_rels]. apply plainp_bind; [apply plainp_of_opt|]. intros ep. apply plainp_bind; [apply plainp_of_opt|]. intros p.
  apply plainp_bind; [|intros l; apply plainp_bind; [apply plainp_add|intros []; apply IH]]. unfold new_rel. by apply plainp_alloc.
Qed.
Lemma plainp_values vs els : plainp (decode_values vs els).
Proof.
  induction vs as [|r vs IH]; [apply plainp_ret|]. cbn [decode_values].
  apply plainp_bind; [|intros l; apply plainp_bind; [apply plainp_of_opt|intros p; apply plainp_bind; [apply plainp_add|intros []; apply IH]]]. unfold new_value. by apply plainp_alloc.
Qed.
Lemma q_C45 m s g res s' g' : create_graph m s g = (res, s', g') -> forall l, ~ exists_in (heap s) l -> kind_of (heap s') l = Some KRel ->
  dir_of (heap s') l = Some BIDIRECTIONAL /\ weight_of (heap s') l = WNone.
Proof.
  intros E l Hl Hk.
  assert (P : plain_from (length (heap s)) s').
  { unfold create_graph in E.
    match type of E with match ?m s with _ => _ end = _ => assert (Hm : plainp m); [|specialize (Hm (length (heap s)) s); destruct (m s) as [[?|?] ?]] end.
    - apply plainp_bind; [apply plainp_nodes|]. intros a. apply plainp_bind; [apply plainp_edges|]. intros b. apply plainp_bind; [apply plainp_rels|]. intros []. apply plainp_bind; [apply plainp_values|].
      intros []. apply plainp_ret.
    - injection E as <- <- <-. apply Hm. split; [done|]. intros k o Hn Ho. apply lookup_lt_Some in Ho. lia.
    - injection E as <- <- <-. apply Hm. split; [done|]. intros k o Hn Ho. apply lookup_lt_Some in Ho. lia. }
  rewrite exists_in_lt in Hl. destruct P as [_ P]. unfold kind_of, dir_of, weight_of in *. destruct (heap s' !! l) as [o|] eqn:Eo; [|done].
  injection Hk as Hk. destruct (P l o ltac:(lia) Eo Hk) as [P1 P2]. cbn. by rewrite P1, P2.
Qed.

(** ** C46 *)
Lemma q_C46 s c p g m g2 : co_context (ic_coo g) = c -> parent_of (heap s) c = Some p -> full_msg s g = (Ok m, g2) ->
  forall s2 g', exists s3, create_graph m s2 g' =
    (Exn (if decide (uuid_of (heap s) p = uuid_of (heap s) c) then ErrorRecursiveHierarchy else KeyError), s3, g').
Proof.
  intros Hc Hp Hm s2 g'. assert (Hn : exists n rest, m_nodes m = n :: rest /\ mn_parent n = Some (uuid_of (heap s) p) /\ mn_uuid n = uuid_of (heap s) c).
  { unfold full_msg in Hm. destruct (node_index_list s (ic_coo g)) as [ns|] eqn:En; [|done].
    assert (Hms : m_nodes m = ns).
    { repeat match type of Hm with context [match ?x with _ => _ end] => destruct x; try done end. by injection Hm as <- <-. }
    unfold node_index_list in En. rewrite Hc in En. destruct (node_tuple s (co_hom (ic_coo g)) c) as [n|] eqn:Et; [|done]. cbn [res_bind] in En.
    destruct (fst (sub_nodes c s)); [|done]. cbn [res_bind] in En. destruct (res_map _ _) as [rest|]; [|done]. injection En as <-. exists n, rest. split; [done|].
    unfold node_tuple in Et. unfold parent_of in Hp. destruct (heap s !! c) as [oc|] eqn:Eo; [|done]. cbn in Hp. destruct (with_hom _ _); [|done]. rewrite Hp in Et.
    destruct (heap s !! p) as [op|] eqn:Ep; [|done]. injection Et as <-. cbn. unfold uuid_of. by rewrite Ep, Eo. }
  destruct Hn as (n & rest & Hn & Hnp & Hnu).
  destruct (new_root_eq KNode (mn_name n) (mn_uuid n) (mn_qname n) (ic_clock g') s2) as (t & s1 & E1 & H1).
  set (els := dset (mn_uuid n) (length (heap s2)) []).
  assert (D : exists s3, decode_nodes (ic_clock g') (m_nodes m) [] None s2 =
    (Exn (if decide (uuid_of (heap s) p = uuid_of (heap s) c) then ErrorRecursiveHierarchy else KeyError), s3)).
  { rewrite Hn. cbn [decode_nodes]. unfold new_node. rewrite (bind_ok _ _ _ _ _ E1). cbv zeta. rewrite Hnp, dget_dset, Hnu. case_decide as Hd.
    - cbn [of_opt]. rewrite (bind_ok (ret _) _ s1 (length (heap s2)) s1) by done.
      assert (Ho : heap s1 !! length (heap s2) = Some (s_time t (con_obj KNode (mn_uuid n) (mn_name n) (mn_qname n) (ic_clock g')))) by (rewrite H1; by rewrite lookup_app_r, Nat.sub_diag by lia).
      assert (Ea : add_element (length (heap s2)) (length (heap s2)) s1 = (Exn ErrorRecursiveHierarchy, s1)).
      { unfold add_element. rewrite (bind_ok _ _ _ _ _ (deref_ok _ _ _ Ho)). cbn [o_kind s_time con_obj s_clock blank]. unfold add_base. by rewrite decide_True by done. }
      rewrite (bind_exn _ _ _ _ _ Ea). by eexists.
    - cbn [dget of_opt]. rewrite (bind_exn (raise KeyError) _ s1 KeyError s1) by done. by eexists. }
  destruct D as [s3 D]. exists s3. unfold create_graph. rewrite (bind_exn _ _ _ _ _ D). reflexivity.
Qed.

(** ** C47 *)
Lemma after_msgs_state s c x : WF0 (heap s) -> sendable (heap s) c ->
  (forall y, y ∈ c :: nodes_of (heap s) c -> is_ok (hom_node x (uuid_of (heap s) y))) ->
  (forall y, y ∈ edges_of (heap s) c -> is_ok (hom_edge x (uuid_of (heap s) y))) ->
  (forall y, y ∈ values_of (heap s) c -> is_ok (hom_val x (uuid_of (heap s) y))) ->
  forall n g, co_context (ic_coo g) = c -> co_hom (ic_coo g) = Some x ->
  let g' := after_msgs n s g in
  co_context (ic_coo g') = c /\ co_hom (ic_coo g') = Some x /\ co_rels (ic_coo g') = co_rels (ic_coo g) ++ concat (repeat (mRs s c) n) /\
  co_tens (ic_coo g') = co_tens (ic_coo g) /\ co_out (ic_coo g') = co_out (ic_coo g) /\ co_in (ic_coo g') = co_in (ic_coo g).
Proof.
  intros W G Hn He Hv. induction n as [|n IH]; intros g Hc Hx; cbn [after_msgs].
  - cbn [repeat concat]. by rewrite app_nil_r.
  - rewrite (full_msg_ok s c x W G Hn He Hv g Hc Hx). cbn [snd].
    match goal with |- context [after_msgs n s ?a] => destruct (IH a) as (A1 & A2 & A3 & A4 & A5 & A6); [done|done|] end.
    split; [done|]. split; [done|]. rewrite A3. cbn [ic_coo ic_set_coo co_rels co_set_rels]. split; [|by rewrite A4, A5, A6].
    cbn [repeat concat]. by rewrite <- app_assoc.
Qed.
Lemma q_C47 s c lim g r s1 g1 m1 g2 : reach s -> sendable (heap s) c -> co_context (ic_coo g) = c -> co_rels (ic_coo g) = [] ->
  update_context lim c s g = (Ok r, s1, g1) -> full_msg s g1 = (Ok m1, g2) ->
  (exists e, e ∈ edges_of (heap s) c /\ rels_of (heap s) e <> []) ->
  m_rels m1 <> [] /\
  forall n, exists m g3, full_msg s (after_msgs n s g1) = (Ok m, g3) /\
    m = mkMsg (m_nodes m1) (m_edges m1) (concat (repeat (m_rels m1) (S n))) (m_values m1) (m_tens m1) (m_out m1) (m_in m1) /\
    (0 < n -> m <> m1 /\ forall s2 g', reach s2 -> exists s3, create_graph m s2 g' = (Exn ErrorDuplicateElement, s3, g')).
Proof.
  intros R G Hc Hr U F1 (e & He' & Hne). apply context_update in U as (x & U & ->).
  destruct (hom_sent s c lim hom0 r s1 x R G U) as (-> & Hn & He & Hv & Jn & Je & Jv). pose proof (reach_wf s R) as W.
  set (g1 := ic_set_coo _ g) in *. assert (Hc1 : co_context (ic_coo g1) = c) by done. assert (Hx1 : co_hom (ic_coo g1) = Some x) by done.
  rewrite (full_msg_ok s c x W G Hn He Hv g1 Hc1 Hx1) in F1.
  assert (Hrs : co_rels (ic_coo g1) = []) by done. rewrite Hrs in F1. assert (m1 = sent_msg s c x [] (ic_coo g1)) as -> by congruence. clear F1. unfold sent_msg. cbn [m_nodes m_edges m_rels m_values m_tens m_out m_in app].
  match goal with |- ?a <> [] /\ _ => change a with (mRs s c) end.
  assert (Hmr : mRs s c <> []).
  { unfold mRs. destruct (rels_of (heap s) e) as [|r0 rs] eqn:Er; [done|]. intros H0.
    assert (Hin : mR s e r0 ∈ flat_map (fun e => map (mR s e) (rels_of (heap s) e)) (edges_of (heap s) c)).
    { apply elem_of_flat_map. exists e. split; [done|]. rewrite Er. cbn [map]. left. }
    rewrite H0 in Hin. inversion Hin. }
  split; [done|]. intros n.
  destruct (after_msgs_state s c x W G Hn He Hv n g1 Hc1 Hx1) as (A1 & A2 & A3 & A4 & A5 & A6). rewrite Hrs in A3. cbn [app] in A3.
  eexists _, _. split; [apply (full_msg_ok s c x W G Hn He Hv _ A1 A2)|]. rewrite A3. unfold sent_msg. rewrite A4, A5, A6.
  assert (Er : concat (repeat (mRs s c) n) ++ mRs s c = concat (repeat (mRs s c) (S n))).
  { clear. induction n as [|n IH]; [cbn; by rewrite app_nil_r|]. cbn [repeat concat] in *. by rewrite <- app_assoc, IH. }
  rewrite Er. split; [done|]. intros Hpos. split.
  { intros H. apply (f_equal m_rels) in H. cbn [m_rels] in H. apply (f_equal length) in H. destruct n as [|n]; [lia|].
    cbn [repeat concat] in H. rewrite !app_length in H. destruct (mRs s c); [done|]. cbn in H. lia. }
  intros s2 g' R2.
  destruct (skeleton s c x W G s2 g' R2) as (sR & sN & sE & els1 & els & D1 & D2 & RE & (t0 & HR) & G1 & D0 & WR & DN & DE).
  destruct (rels_decoded s c x W G s2 g' R2 sR sE els t0 RE HR G1 D0 DN DE) as (sL & D3 & RL & GL).
  pose proof (all_found s c x G s2 g' sR sE els t0 HR G1 D0 DN DE) as HF.
  destruct n as [|n]; [lia|]. cbn [repeat concat].
  destruct (mRs s c) as [|r0 rs] eqn:Emr; [done|]. apply Forall_cons in HF as [(p & ep & P1 & P2 & P3 & P4) _].
  set (tail := rs ++ concat (repeat (r0 :: rs) n)).
  assert (Hk : exists y, y ∈ children (heap sL) (rel_ad els r0).1 /\ uuid_of (heap sL) y = mr_uuid r0).
  { pose proof (grows_placed _ _ _ (rel_ad els r0).1 GL) as Hp. cbn [map] in Hp. rewrite filter_cons, decide_True in Hp by done.
    destruct (forall2_left _ _ _ (rel_ad els r0) Hp ltac:(left)) as (y & Hy & Hm). exists y. split; [|by rewrite (made_uuid _ _ _ Hm)].
    rewrite (grows_children _ _ _ (rel_ad els r0).1 GL). apply elem_of_app. by right. }
  destruct Hk as (y & Hy & Hu).
  destruct (decode_rels_dup els r0 tail sL y RL) as (s3 & D5); [|done|done|].
  { exists p, ep. split; [done|]. split; [by eapply target_keep|]. split; [done|]. by eapply grows_exists. }
  exists s3. unfold create_graph. cbn [m_nodes m_edges m_rels m_values].
  rewrite (bind_ok _ _ _ _ _ D1). cbn [fst snd]. rewrite (bind_ok _ _ _ _ _ D2).
  assert (D6 : decode_rels ((r0 :: rs) ++ (r0 :: rs) ++ concat (repeat (r0 :: rs) n)) els sE = (Exn ErrorDuplicateElement, s3)).
  { rewrite (decode_rels_app _ _ _ _ _ D3). exact D5. }
  rewrite (bind_exn _ _ _ _ _ D6). reflexivity.
Qed.

(** ** C48 *)
Lemma getitem_child s rt v : WF0 (heap s) -> v ∈ children (heap s) rt -> node_getitem rt (uuid_of (heap s) v) s = (Ok v, s).
Proof.
  intros W Hv. unfold children in Hv. destruct (heap s !! rt) as [o|] eqn:Eo; [|inversion Hv]. apply elem_of_list_fmap in Hv as ([u v'] & -> & Hin). cbn [snd].
  destruct (wf_sub _ W rt o u v' Eo Hin) as (ov & Hov & Hu & _). unfold node_getitem. rewrite (bind_ok _ _ _ _ _ (deref_ok _ _ _ Eo)).
  unfold uuid_of. rewrite Hov. cbn. rewrite Hu. rewrite (dget_in_nodup u v' (o_subs o) (wf_nd _ W rt o Eo) Hin). done.
Qed.
Lemma set_vals_kids h v vals rt k : fkids (is_kind k) (alter (s_vals vals) v h) rt = fkids (is_kind k) h rt.
Proof.
  assert (Hg : forall {A} (f : obj -> A) l, (forall o, f (s_vals vals o) = f o) -> f <$> alter (s_vals vals) v h !! l = f <$> h !! l).
  { intros A f l Hf. destruct (decide (v = l)) as [->|Hn]; [|by rewrite list_lookup_alter_ne]. rewrite list_lookup_alter. destruct (h !! l); [|done]. cbn. by rewrite Hf. }
  unfold fkids. assert (Ec : children (alter (s_vals vals) v h) rt = children h rt).
  { pose proof (Hg _ o_subs rt (fun _ => eq_refl)) as H. unfold children. destruct (alter (s_vals vals) v h !! rt), (h !! rt); try done. cbn in H. by injection H as ->. }
  rewrite Ec. apply list_filter_iff. intros l. unfold accepts, is_kind.
  pose proof (Hg _ o_kind l (fun _ => eq_refl)) as H. destruct (alter (s_vals vals) v h !! l), (h !! l); try done. cbn in H. injection H as ->. done.
Qed.
Lemma set_vals_uuid h v vals l : uuid_of (alter (s_vals vals) v h) l = uuid_of h l.
Proof. unfold uuid_of. destruct (decide (v = l)) as [->|Hn]; [|by rewrite list_lookup_alter_ne]. rewrite list_lookup_alter. by destruct (h !! l). Qed.
Lemma updates_ok g rt x : ic_context g = Some rt -> ic_hom g = Some x -> forall us P s, reach s -> NoDup P ->
  Forall2 (fun iv v' => hom_ival x iv.1 = Ok (uuid_of (heap s) v') /\ v' ∈ values_of (heap s) rt) us P ->
  exists s', apply_updates g us s = (Ok tt, s') /\ reach s' /\ values_of (heap s') rt = values_of (heap s) rt /\
    (forall l, l ∉ P -> heap s' !! l = heap s !! l) /\
    Forall2 (fun iv v' => exists o, heap s !! v' = Some o /\ heap s' !! v' = Some (s_vals iv.2 o)) us P.
Proof.
  intros Hc Hx. induction us as [|[i vals] us IH]; intros P s R Hnd F.
  - inversion F; subst. exists s. split; [done|]. split; [done|]. split; [done|]. split; [done|constructor].
  - inversion F as [|? v ? P' [H1 H2] F']; subst. cbn [fst] in H1. apply NoDup_cons in Hnd as [Hv Hnd]. pose proof (reach_wf s R) as W.
    pose proof H2 as H2'. apply fkids_el in H2' as (Hch & o & Ho & Hk). set (s1 := set_heap (alter (s_vals vals) v (heap s)) s).
    assert (E1 : update_values v vals s = (Ok tt, s1)). { unfold update_values. rewrite (bind_ok _ _ _ _ _ (deref_ok _ _ _ Ho)). by apply (upd_ok _ _ _ o). }
    assert (R1 : reach s1). { pose proof (reach_step s (OSetValues v vals) R ltac:(by exists o)) as R1. cbn [exec] in R1. by rewrite E1 in R1. }
    destruct (IH P' s1 R1 Hnd) as (s' & E' & R' & V' & K1 & K2).
    { eapply Forall2_impl; [exact F'|]. intros [j w] v' [A1 A2]. cbn [fst heap set_heap s1] in *. unfold values_of. rewrite set_vals_uuid, set_vals_kids. done. }
    exists s'. split; [|split; [done|split; [|split]]].
    + cbn [apply_updates]. rewrite Hx, Hc. cbn [of_opt]. rewrite (bind_ok (ret x) _ s x s) by done. rewrite H1.
      rewrite (bind_ok (ret _) _ s (uuid_of (heap s) v) s) by done. rewrite (bind_ok (ret rt) _ s rt s) by done.
      rewrite (bind_ok _ _ _ _ _ (getitem_child s rt v W Hch)), (bind_ok _ _ _ _ _ (deref_ok _ _ _ Ho)), Hk, (bind_ok _ _ _ _ _ E1). exact E'.
    + rewrite V'. unfold values_of, s1. cbn [heap set_heap]. apply set_vals_kids.
    + intros l Hl. apply not_elem_of_cons in Hl as [Hlv Hl]. rewrite K1 by done. unfold s1. cbn [heap set_heap]. by rewrite list_lookup_alter_ne.
    + constructor.
      * exists o. split; [done|]. cbn [snd]. rewrite K1 by done. unfold s1. cbn [heap set_heap]. by rewrite list_lookup_alter, Ho.
      * eapply Forall2_impl_in; [exact K2|]. intros [j w] v' _ Hv' (o' & A1 & A2). exists o'. split; [|done]. unfold s1 in A1. cbn [heap set_heap] in A1.
        rewrite list_lookup_alter_ne in A1; [done|]. intros ->. done.
Qed.
Lemma q_C48 h c x x' sA gA g3 root s4 : decoded_indices h c x x' ->
  reach sA -> exists_in (heap sA) c -> co_context (ic_coo gA) = c -> co_hom (ic_coo gA) = Some x ->
  map (uuid_of (heap sA)) (values_of (heap sA) c) = map (uuid_of h) (values_of h c) ->
  (forall v, v ∈ values_of (heap sA) c -> forallb encodable (vals_of (heap sA) v) = true) ->
  reach s4 -> ic_context g3 = Some root -> ic_hom g3 = Some x' ->
  map (uuid_of (heap s4)) (values_of (heap s4) root) = map (uuid_of h) (values_of h c) ->
  exists us s5, msg_value_update sA gA = Ok us /\ apply_updates g3 us s4 = (Ok tt, s5) /\ reach s5 /\
    values_of (heap s5) root = values_of (heap s4) root /\
    Forall2 (fun v v' => uuid_of (heap s5) v' = uuid_of (heap sA) v /\ vals_of (heap s5) v' = vals_of (heap sA) v) (values_of (heap sA) c) (values_of (heap s5) root) /\
    (forall l, l ∉ values_of (heap s4) root -> heap s5 !! l = heap s4 !! l) /\
    (forall l, l ∈ values_of (heap s4) root -> exists o vs, heap s4 !! l = Some o /\ heap s5 !! l = Some (s_vals vs o)).
Proof.
  intros (_ & _ & DI) RA HcA Hc Hx HuA Henc R4 Hrt Hx' Hu4. destruct DI as (_ & D2 & D3 & _).
  set (VA := values_of (heap sA) c) in *. set (P := values_of (heap s4) root) in *.
  set (us := map (fun v => (ix (hom_val x (uuid_of (heap sA) v)), vals_of (heap sA) v)) VA).
  assert (Hmem : forall v, v ∈ VA -> exists i, hom_val x (uuid_of (heap sA) v) = Ok i /\ hom_ival x' i = Ok (uuid_of (heap sA) v)).
  { intros v Hv. destruct (D2 (uuid_of (heap sA) v)) as [[i Hi] He]. { rewrite <- HuA. by apply elem_of_list_fmap_1. } exists i. split; [done|]. apply D3. by rewrite He. }
  assert (Hus : msg_value_update sA gA = Ok us).
  { unfold msg_value_update, msg_value_node_update. rewrite Hc, Hx. destruct HcA as [oc Hoc]. unfold sub_values. rewrite (sub_get sA _ c oc Hoc). cbn [res_bind].
    fold (values_of (heap sA) c). fold VA. rewrite (res_map_ok _ (fun v => (ix (hom_val x (uuid_of (heap sA) v)), vals_of (heap sA) v))).
    2:{ intros v Hv. destruct (Hmem v Hv) as (i & Hi & _). apply fkids_el in Hv as (_ & o & Ho & _). unfold value_update. rewrite Ho. cbn [with_hom].
        unfold uuid_of, vals_of in *. rewrite Ho in *. cbn in *. by rewrite Hi. }
    cbn [res_bind]. fold us. assert (Ef : forallb (fun u => forallb encodable (snd u)) us = true); [|by rewrite Ef].
    apply forallb_forall. intros u Hu. apply in_map_iff in Hu as (v & <- & Hv). apply elem_of_list_In in Hv. by apply Henc. }
  assert (HP : Forall2 (fun v v' => uuid_of (heap s4) v' = uuid_of (heap sA) v) VA P).
  { rewrite <- HuA in Hu4. clear -Hu4. revert Hu4. generalize P. generalize VA. intros A. induction A as [|v A IH]; intros [|p B] H; try done; constructor; cbn [map] in H; [congruence|]. apply IH. congruence. }
  assert (HN : NoDup P) by (apply NoDup_filter; apply (wf0_forest (heap s4) (reach_wf s4 R4))).
  destruct (updates_ok g3 root x' Hrt Hx' us P s4 R4 HN) as (s5 & E5 & R5 & V5 & K1 & K2).
  { unfold us. apply (proj2 (Forall2_fmap_l _ _ _ _)). eapply Forall2_impl_in; [exact HP|]. intros v v' Hv Hv' Huv. cbn [fst]. split; [|done].
    destruct (Hmem v Hv) as (i & Hi & Hi'). rewrite Hi. cbn [ix]. by rewrite Huv. }
  exists us, s5. split; [done|]. split; [done|]. split; [done|]. fold P. rewrite V5. fold P. split; [done|]. split; [|split; [done|]].
  - unfold us in K2. apply (proj1 (Forall2_fmap_l _ _ _ _)) in K2. clear -K2 HP. revert K2 HP. generalize VA, P. intros A B F. induction F as [|v v' A B (o & H1 & H2) F IH]; intros G; [constructor|].
    inversion G; subst. constructor; [|by apply IH]. cbn [snd] in H2. unfold vals_of, uuid_of in *. rewrite H1 in *. rewrite H2. done.
  - intros l Hl. destruct (forall2_right _ _ _ _ K2 Hl) as ([i vs] & _ & o & H1 & H2). by exists o, vs.
Qed.

(** ** C45: the expectation *)
Lemma q_C45_refuted h c m s g res s' g' root e r d : reach s -> reach s' -> create_graph m s g = (res, s', g') -> decoded h c (heap s) (heap s') root ->
  e ∈ edges_of h c -> r ∈ rels_of h e -> dir_of h r = Some d -> d <> BIDIRECTIONAL ->
  exists e' r', e' ∈ edges_of (heap s') root /\ copy_of h (heap s') e e' /\ r' ∈ rels_of (heap s') e' /\ copy_of h (heap s') r r' /\
    dir_of (heap s') r' = Some BIDIRECTIONAL /\ dir_of (heap s') r' <> dir_of h r.
Proof.
  intros R R' E D He Hr Hd Hn. pose proof (reach_wf s R) as W. pose proof (reach_wf s' R') as W'.
  destruct (forall2_left _ _ _ e (de_edges _ _ _ _ _ D) He) as (e' & He' & Hce & _ & F).
  destruct (forall2_left _ _ _ r F Hr) as (r' & Hr' & Hcr & _). exists e', r'. split; [done|]. split; [done|]. split; [done|]. split; [done|].
  assert (Up : forall p y, y ∈ children (heap s') p -> exists_in (heap s) y -> exists_in (heap s) p).
  { intros p y Hy Ho. destruct (wf0_child _ W' p y Hy) as [_ Hp]. unfold parent_of in Hp. rewrite (de_old _ _ _ _ _ D y Ho) in Hp.
    eapply wf0_parent_exists; [exact W|exact Hp]. }
  assert (Hnew : ~ exists_in (heap s) r').
  { intros Ho. destruct (de_root _ _ _ _ _ D) as (Hro & _). apply Hro. pose proof Hr' as Hr2. pose proof He' as He2. apply fkids_el in Hr2 as [Hr2 _]. apply fkids_el in He2 as [He2 _].
    eapply Up; [exact He2|]. by eapply Up. }
  assert (Hk : kind_of (heap s') r' = Some KRel). { apply fkids_el in Hr' as (_ & o & Ho & Hk). unfold kind_of. rewrite Ho. cbn. by destruct (o_kind o). }
  destruct (q_C45 _ _ _ _ _ _ E r' Hnew Hk) as [H1 _]. split; [done|]. rewrite H1, Hd. congruence.
Qed.
