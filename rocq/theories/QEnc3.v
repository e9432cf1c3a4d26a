(** * Encoding: the message *)
From stdpp Require Import relations.
From Verif Require Import Spec Hierarchy Elements Factory History PDict PPath PExec PBfs PWF PAdd PMono PStep PRemove PReach PPrim PHist QHier QHier2 QHier3 QHier4 QHier5 QHier6 QFac SpecFac QFac2 SpecTrav QTrav QTrav2 QTrav3 QHom QTensor QEnc Encode SpecEnc QEnc2.

(** ** The homomorphism does not depend on the limit *)
Lemma traverse_more {X B} b lim lim' t (v : visitor X B) s q tasks x r q' x' : lim <= lim' ->
  traverse b lim t v s q tasks x = (Ok r, q', x') -> traverse b lim' t v s q tasks x = (Ok r, q', x').
Proof.
  revert lim' q tasks x. induction lim as [|lim IH]; intros lim' q tasks x Hl; [done|]. destruct lim' as [|lim']; [lia|].
  cbn [traverse]. destruct q as [|[l d] rest]; [done|]. destruct (fill_fringe t s l d); [|done].
  destruct (v s l x) as [[?|?] ?]; [|done]. apply IH. lia.
Qed.
Lemma bfs_more {X B} lim lim' t (v : visitor X B) st0 s x r s' x' : lim <= lim' ->
  execute_bfs lim t v st0 s x = (Ok r, s', x') -> execute_bfs lim' t v st0 s x = (Ok r, s', x').
Proof.
  intros Hl. unfold execute_bfs. destruct (visit_root t v s st0 x) as [[?|?] ?]; [|done]. destruct (fill_fringe t s st0 0); [|done].
  match goal with |- context [traverse false lim t v s ?q ?k ?x] => destruct (traverse false lim t v s q k x) as [[[?|?] ?] ?] eqn:E end; [|done].
  by rewrite (traverse_more _ _ _ _ _ _ _ _ _ _ _ _ Hl E).
Qed.
Lemma hom_more lim lim' cf st0 s x r s' x' : lim <= lim' ->
  hom_execute lim cf st0 s x = (Ok r, s', x') -> hom_execute lim' cf st0 s x = (Ok r, s', x').
Proof.
  intros Hl. unfold hom_execute.
  repeat match goal with |- context [execute_bfs lim ?t ?v ?c ?s ?x] =>
    let E := fresh in destruct (execute_bfs lim t v c s x) as [[[?|?] ?] ?] eqn:E; [|done]; rewrite (bfs_more _ _ _ _ _ _ _ _ _ _ Hl E) end.
  done.
Qed.
Lemma hom_shape s cf st0 lim x0 r s' x : reach s -> exists_in (heap s) st0 -> hom_execute lim cf st0 s x0 = (Ok r, s', x) ->
  s' = s /\ exists ns es vs,
    bfs_order (hom_trav k_node cf) (heap s) st0 ns /\ bfs_order (hom_trav k_edge cf) (heap s) st0 es /\ bfs_order (hom_trav k_value cf) (heap s) st0 vs /\
    all_indexes x (map (uuid_of (heap s)) ns) (map (uuid_of (heap s)) es) (map (uuid_of (heap s)) vs).
Proof.
  intros R Hs E. split. { destruct (reach_fr s R) as [Hf _]. by eapply hom_execute_ok. }
  destruct (q_C30 s cf st0 R Hs) as (ns & es & vs & H1 & H2 & H3 & H). exists ns, es, vs. split; [done|]. split; [done|]. split; [done|].
  set (n := S (lim + length ns + length es + length vs)). destruct (H n x0 ltac:(unfold n; lia) ltac:(unfold n; lia) ltac:(unfold n; lia)) as (r' & x' & E' & HA).
  apply (hom_more lim n _ _ _ _ _ _ _ ltac:(unfold n; lia)) in E. rewrite E' in E. assert (x' = x) as -> by congruence. exact HA.
Qed.
Lemma order_kids k (h : list obj) st0 ls y : bfs_order (hom_trav k coo_conf) h st0 ls -> y ∈ fkids (is_kind k) h st0 -> y ∈ ls.
Proof.
  intros (n & Hn & ->) Hy. cbn [hom_trav coo_conf t_max hc_depth t_filter] in *. apply elem_of_app. right. apply elem_of_level_order.
  exists 0. split; [|done]. destruct n; [|lia]. cbn [level] in Hn. rewrite Hn in Hy. inversion Hy.
Qed.
Lemma order_root (h : list obj) st0 ls : bfs_order (hom_trav k_node coo_conf) h st0 ls -> kind_of h st0 = Some KNode -> st0 ∈ ls.
Proof.
  intros (n & Hn & ->) Hk. apply elem_of_app. left. unfold root_part. cbn [hom_trav coo_conf t_filter t_ignore hc_ignore negb].
  unfold accepts, is_kind. unfold kind_of in Hk. destruct (h !! st0) as [o|]; [|done]. injection Hk as Hk. rewrite Hk. left.
Qed.

(** ** What the lists contain *)
Lemma sub_get s k l o : heap s !! l = Some o -> fst (get_subelements l (is_kind k) s) = Ok (fkids (is_kind k) (heap s) l).
Proof. intros H. rewrite fkids_get. by rewrite H. Qed.
Lemma res_map_ok {A B} (f : A -> res B) g l : (forall a, a ∈ l -> f a = Ok (g a)) -> res_map f l = Ok (map g l).
Proof.
  induction l as [|a l IH]; intros H; [done|]. cbn [res_map map]. rewrite (H a) by left. rewrite IH; [done|]. intros. apply H. by right.
Qed.
Lemma fkids_el k (h : list obj) a c : c ∈ fkids (is_kind k) h a -> c ∈ children h a /\ exists o, h !! c = Some o /\ k (o_kind o) = true.
Proof.
  intros H. apply elem_of_list_filter in H as [H1 H2]. split; [done|]. unfold accepts, is_kind in H1. destruct (h !! c) as [o|]; [|done]. by exists o.
Qed.

Definition ix (r : res nat) : nat := match r with Ok i => i | Exn _ => 0 end.
Definition qn_of (h : list obj) (l : loc) : string := default "" (o_qname <$> h !! l).
Section lists.
  Variables (s : st) (c : loc) (x : hom).
  Let h := heap s.
  Hypothesis (W : WF0 h) (G : sendable h c).
  Hypothesis (Hn : forall y, y ∈ c :: nodes_of h c -> is_ok (hom_node x (uuid_of h y))).
  Hypothesis (He : forall y, y ∈ edges_of h c -> is_ok (hom_edge x (uuid_of h y))).
  Hypothesis (Hv : forall y, y ∈ values_of h c -> is_ok (hom_val x (uuid_of h y))).
  Definition mN (p : option uid) (l : loc) : msg_node := mkMN (uuid_of h l) (name_of h l) (ix (hom_node x (uuid_of h l))) p (qn_of h l).
  Definition mE (l : loc) : msg_edge := mkME (uuid_of h l) (name_of h l) (ix (hom_edge x (uuid_of h l))) (uuid_of h c) (qn_of h l).
  Definition mV (l : loc) : msg_value := mkMV (uuid_of h l) (name_of h l) (ix (hom_val x (uuid_of h l))) (uuid_of h c) (qn_of h l) (vals_of h l).
  Definition mR (e l : loc) : msg_rel := mkMR (uuid_of h l) (name_of h l) (qn_of h l)
    (direction_value (default BIDIRECTIONAL (dir_of h l))) (default "" (ep_uuid_of h l)) (uuid_of h e).

  Lemma ctx_obj : exists oc, h !! c = Some oc /\ o_kind oc = KNode /\ o_parent oc = None.
  Proof.
    destruct G as [G1 G2 _ _ _]. unfold kind_of, parent_of in *. destruct (h !! c) as [oc|]; [|done]. exists oc. by injection G1.
  Qed.
  Lemma kid_obj k l : l ∈ fkids (is_kind k) h c -> exists o, h !! l = Some o /\ k (o_kind o) = true /\ o_parent o = Some c.
  Proof.
    intros H. apply fkids_el in H as (H1 & o & H2 & H3). exists o. split; [done|]. split; [done|].
    destruct (wf0_child h W c l H1) as [_ H4]. by rewrite (parent_of_lookup _ _ _ H2) in H4.
  Qed.
  Lemma node_list g : co_context g = c -> co_hom g = Some x -> node_index_list s g = Ok (mN None c :: map (mN (Some (uuid_of h c))) (nodes_of h c)).
  Proof.
    intros Hc Hx. destruct ctx_obj as (oc & Hoc & Hk & Hp). unfold node_index_list. rewrite Hc, Hx.
    assert (E0 : node_tuple s (Some x) c = Ok (mN None c)).
    { unfold node_tuple, mN, uuid_of, name_of, qn_of. fold h. rewrite Hoc. cbn [with_hom]. destruct (Hn c ltac:(left)) as [i Hi].
      unfold uuid_of in Hi. rewrite Hoc in Hi. cbn [fmap option_fmap option_map default from_option id] in *. rewrite Hi, Hp. done. }
    rewrite E0. cbn [res_bind]. unfold sub_nodes. rewrite (sub_get s _ c oc Hoc). cbn [res_bind].
    rewrite (res_map_ok _ (mN (Some (uuid_of h c)))); [done|]. intros l Hl. destruct (kid_obj _ l Hl) as (o & Ho & Hko & Hpo).
    unfold node_tuple, mN, uuid_of, name_of, qn_of. fold h. rewrite Ho. cbn [with_hom]. destruct (Hn l ltac:(right; done)) as [i Hi].
    unfold uuid_of in Hi. rewrite Ho in Hi. cbn [fmap option_fmap option_map default from_option id] in *. rewrite Hi, Hpo, Hoc. done.
  Qed.
  Lemma kid_parent l o : heap s !! l = Some o -> o_parent o = Some c -> parent_uid s o = Ok (uuid_of h c).
  Proof. intros Ho Hp. unfold parent_uid. rewrite Hp. destruct ctx_obj as (oc & Hoc & _). fold h. rewrite Hoc. unfold uuid_of. by rewrite Hoc. Qed.
  Lemma edge_list g : co_context g = c -> co_hom g = Some x -> edge_index_list s g = Ok (map mE (edges_of h c)).
  Proof.
    intros Hc Hx. destruct ctx_obj as (oc & Hoc & Hk & Hp). unfold edge_index_list. rewrite Hc, Hx. unfold sub_edges. rewrite (sub_get s _ c oc Hoc). cbn [res_bind].
    apply res_map_ok. intros l Hl. destruct (kid_obj _ l Hl) as (o & Ho & Hko & Hpo).
    unfold edge_tuple. fold h. rewrite Ho, (kid_parent l o Ho Hpo). cbn [with_hom]. destruct (He l Hl) as [i Hi].
    unfold mE, uuid_of, name_of, qn_of in *. rewrite Ho in *. cbn [fmap option_fmap option_map default from_option id] in *. by rewrite Hi.
  Qed.
  Lemma value_list g : co_context g = c -> co_hom g = Some x -> msg_value_nodes s g = Ok (map mV (values_of h c)).
  Proof.
    intros Hc Hx. destruct ctx_obj as (oc & Hoc & Hk & Hp). unfold msg_value_nodes. rewrite Hc, Hx. unfold sub_values. rewrite (sub_get s _ c oc Hoc). cbn [res_bind].
    apply res_map_ok. intros l Hl. destruct (kid_obj _ l Hl) as (o & Ho & Hko & Hpo).
    unfold value_tuple. fold h. rewrite Ho, (kid_parent l o Ho Hpo). cbn [with_hom]. destruct (Hv l Hl) as [i Hi].
    unfold mV, uuid_of, name_of, qn_of, vals_of in *. rewrite Ho in *. cbn [fmap option_fmap option_map default from_option id] in *. by rewrite Hi.
  Qed.
  Lemma rel_tuple_ok e r : e ∈ edges_of h c -> r ∈ rels_of h e -> rel_tuple s r = Ok (mR e r).
  Proof.
    intros Hee Hr. destruct (sd_ep _ _ G e r Hee Hr) as (p & y & H1 & H2 & H3).
    apply fkids_el in Hr as (Hrc & o & Ho & _). destruct (wf0_child h W e r Hrc) as [_ H4]. rewrite (parent_of_lookup _ _ _ Ho) in H4.
    apply fkids_el in Hee as (_ & oe & Hoe & _). unfold ep_of in H1. rewrite Ho in H1. cbn in H1.
    destruct (wf_ep _ W r o p Ho H1) as [op Hop].
    unfold rel_tuple, parent_uid, mR, uuid_of, name_of, qn_of, dir_of, ep_uuid_of, ep_of. fold h. rewrite Ho. cbn [mbind option_bind]. rewrite H1, Hop, H4, Hoe.
    cbn. unfold uuid_of. by rewrite Hop.
  Qed.
  Lemma append_rels_ok e rs acc : e ∈ edges_of h c -> (forall r, r ∈ rs -> r ∈ rels_of h e) -> append_rels s rs acc = (Ok tt, acc ++ map (mR e) rs).
  Proof.
    intros Hee. revert acc. induction rs as [|r rs IH]; intros acc Hr; [by rewrite app_nil_r|]. cbn [append_rels map].
    rewrite (rel_tuple_ok e r) by (try done; apply Hr; left). rewrite IH by (intros; apply Hr; by right). by rewrite <- app_assoc.
  Qed.
  Definition mRs : list msg_rel := flat_map (fun e => map (mR e) (rels_of h e)) (edges_of h c).
  Lemma append_edges_ok es acc : (forall e, e ∈ es -> e ∈ edges_of h c) ->
    append_edges s es acc = (Ok tt, acc ++ flat_map (fun e => map (mR e) (rels_of h e)) es).
  Proof.
    revert acc. induction es as [|e es IH]; intros acc Hes; [by rewrite app_nil_r|]. cbn [append_edges flat_map].
    assert (Hee : e ∈ edges_of h c) by (apply Hes; left). pose proof Hee as Hee'. apply fkids_el in Hee' as (_ & oe & Hoe & _).
    unfold sub_relations. rewrite (sub_get s _ e oe Hoe). rewrite (append_rels_ok e) by done. rewrite IH by (intros; apply Hes; by right). by rewrite <- app_assoc.
  Qed.
  Lemma rel_list g : co_context g = c -> msg_relation_index_list s g = (Ok (co_rels g ++ mRs), co_set_rels (co_rels g ++ mRs) g).
  Proof.
    intros Hc. destruct ctx_obj as (oc & Hoc & Hk & Hp). unfold msg_relation_index_list. rewrite Hc. unfold sub_edges. rewrite (sub_get s _ c oc Hoc).
    fold (edges_of h c). rewrite append_edges_ok by done. done.
  Qed.
  Definition sent_msg (rels : list msg_rel) (k : coo) : message :=
    mkMsg (mN None c :: map (mN (Some (uuid_of h c))) (nodes_of h c)) (map mE (edges_of h c)) (rels ++ mRs) (map mV (values_of h c)) (co_tens k) (co_out k) (co_in k).
  Lemma full_msg_ok g : co_context (ic_coo g) = c -> co_hom (ic_coo g) = Some x ->
    full_msg s g = (Ok (sent_msg (co_rels (ic_coo g)) (ic_coo g)), ic_set_coo (co_set_rels (co_rels (ic_coo g) ++ mRs) (ic_coo g)) g).
  Proof.
    intros Hc Hx. unfold full_msg. rewrite node_list, edge_list by done. rewrite rel_list by done. rewrite value_list by done.
    assert (E : forallb (fun v => forallb encodable (mv_vals v)) (map mV (values_of h c)) = true).
    { apply forallb_forall. intros v Hv'. apply in_map_iff in Hv' as (l & <- & Hl). apply elem_of_list_In in Hl. apply (sd_vals _ _ G l Hl). }
    rewrite E. done.
  Qed.
End lists.

(** The homomorphism of the context knows everything that is sent. *)
Lemma hom_sent s c lim x0 r s' x : reach s -> sendable (heap s) c -> hom_execute lim coo_conf c s x0 = (Ok r, s', x) -> s' = s /\
  (forall y, y ∈ c :: nodes_of (heap s) c -> is_ok (hom_node x (uuid_of (heap s) y))) /\
  (forall y, y ∈ edges_of (heap s) c -> is_ok (hom_edge x (uuid_of (heap s) y))) /\
  (forall y, y ∈ values_of (heap s) c -> is_ok (hom_val x (uuid_of (heap s) y))) /\
  (forall u w i, hom_node x u = Ok i -> hom_node x w = Ok i -> u = w) /\
  (forall u w i, hom_edge x u = Ok i -> hom_edge x w = Ok i -> u = w) /\
  (forall u w i, hom_val x u = Ok i -> hom_val x w = Ok i -> u = w).
Proof.
  intros R G E. assert (Hc : exists_in (heap s) c). { pose proof (sd_node _ _ G) as H. unfold kind_of in H. destruct (heap s !! c) eqn:Ec; [by eexists|done]. }
  destruct (hom_shape s coo_conf c lim x0 r s' x R Hc E) as (-> & ns & es & vs & H1 & H2 & H3 & I1 & I2 & I3). split; [done|].
  assert (K : forall us index at_ cnt, indexes us index at_ cnt -> forall u, u ∈ us -> is_ok (index u)).
  { intros us index at_ cnt (_ & _ & A & _) u Hu. assert (Hx : exists i, us !! i = Some u /\ forall j, us !! j = Some u -> j <= i).
    { clear A. induction us as [|w us IH] using rev_ind; [inversion Hu|]. destruct (decide (w = u)) as [->|Hw].
      - exists (length us). split; [by rewrite lookup_app_r, Nat.sub_diag|]. intros j Hj. apply lookup_lt_Some in Hj. rewrite app_length in Hj. cbn in Hj. lia.
      - apply elem_of_app in Hu as [Hu|Hu%elem_of_list_singleton]; [|by subst]. destruct (IH Hu) as (i & Hi & Hj). exists i.
        split; [by apply lookup_app_l_Some|]. intros j Hj'. apply lookup_app_Some in Hj' as [Hj'|[_ Hj']]; [by apply Hj|].
        apply list_lookup_singleton_Some in Hj' as [_ Hj']. congruence. }
    destruct Hx as (i & Hi & Hj). exists i. by apply A. }
  assert (J : forall us index at_ cnt, indexes us index at_ cnt -> forall u w i, index u = Ok i -> index w = Ok i -> u = w).
  { intros us index at_ cnt (_ & _ & A & _) u w i Hu Hw. apply A in Hu as [Hu _]. apply A in Hw as [Hw _]. congruence. }
  split; [|split; [|split; [|split; [by eapply J|split; by eapply J]]]].
  - intros y Hy. eapply K; [exact I1|]. apply elem_of_list_fmap_1. apply elem_of_cons in Hy as [->|Hy]; [by eapply order_root; [|apply G]|by eapply order_kids].
  - intros y Hy. eapply K; [exact I2|]. apply elem_of_list_fmap_1. by eapply order_kids.
  - intros y Hy. eapply K; [exact I3|]. apply elem_of_list_fmap_1. by eapply order_kids.
Qed.
