(** * Conversion: the connections *)
From stdpp Require Import relations.
From Verif Require Import Spec Hierarchy Elements Factory History PDict PPath PExec PMono PWF PReach QFac Traverse SpecTrav SpecTensor QueryEngine SpecQuery Factorization SpecFact QFact QFact2 QFact4 CogniLang SpecPhys SpecPhys2 SpecKin QPhys QPhys2 QKin Convert SpecSdf QSdf QSdf2 QCog QCog3 QCog8 QNew QStamp QConv2 QConv3 SpecConv QConv4 QConv5 QConv6 QConv7 QConv8 QConv9 QConv10 QConv11 QConv12 SpecCogni.

Definition conn_is (fl : string -> option Qc) (rad : Qc) (h : list obj) (k : connection) (jj : loc * loc) : Prop :=
  let '(x, r0, r1) := k in rel_is fl rad h x r0 jj.1 /\ rel_is fl rad h x r1 jj.2 /\ exists ed, parent_of h jj.2 = Some ed /\ labelled h ed (LEdge (jt_name x.2)).

Lemma block_exported fl rad lim s k jj b : reach s -> conn_is fl rad (heap s) k jj -> block_of lim rad s jj b -> exported_connection fl rad (heap s) k b.
Proof.
  destruct k as [[[[env path] j] r0] r1], jj as [j0 j1]. intros R (H0 & H1 & ed & Hp & Led) (n & En & B). cbn [fst snd] in *.
  pose proof (rel_is_inv _ _ _ _ _ _ H0) as (d0 & w0 & y0 & dl0 & ts0 & _ & _ & K0 & _ & E0 & F0 & _).
  pose proof (rel_is_inv _ _ _ _ _ _ H1) as (d1 & w1 & y1 & dl1 & ts1 & _ & _ & K1 & _ & E1 & F1 & Kd & V & ax & us & Ets & _). cbn [fst snd] in *.
  rewrite (pendpoint_of _ _ _ E1 (or_introl K1)) in En. injection En as <-.
  assert (Ed : subs_of (heap s) (k_sem_is SKinematicJoint) j1 = [dl1]).
  { subst ts1. rewrite subs_kids by done. rewrite Kd. cbn. apply view_labelled, labelled_kind in V. unfold kind_of in V. destruct (heap s !! dl1) as [o|]; [|done]. cbn in V. injection V as ->. cbn. by rewrite bool_decide_true. }
  exists y0, y1. split; [done|]. split; [done|]. destruct B as [(G & x & -> & Ex)|(G & links & l & x & nested & Hc & Hl & Ex & ->)].
  - left. split; [unfold is_kinematic_graph in G; rewrite subs_parts in G; by apply negb_false_iff, bool_decide_eq_true in G|]. exists x. split; [done|].
    unfold joint_base_element in Ex. rewrite Ed in Ex. cbn [head r_opt rbind] in Ex. rewrite (pendpoint_of _ _ _ E1 (or_introl K1)) in Ex. cbn [rbind] in Ex.
    apply (joint_element_inv fl rad _ (env, path, j) r1 j0 j1 y0) in Ex; [|done..]. subst ts1. apply view_labelled in V. cbn [rt] in V. rewrite (labelled_name _ _ _ _ _ V), pname_of in Ex. exact Ex.
  - right. split. { intros X. apply is_graph_false in X. congruence. } destruct (canonical_link lim s y1 links l R (graph_exists _ _ G) Hc Hl) as [Kl Hrtc]. exists l, x, nested. split; [done|]. split; [done|]. split; [done|].
    unfold connect_element in Ex. cbv zeta in Ex. rewrite Ed in Ex. cbn [head r_opt rbind] in Ex. apply (joint_element_inv fl rad _ (env, path, j) r1 j0 j1 y0) in Ex; [|done..].
    assert (EN : edge_name (heap s) j1 = jt_name j). { unfold edge_name. rewrite pparent_of, Hp. destruct Led as (o & Ho & _ & Hn). unfold pname. by rewrite Ho. } rewrite EN, pname_of in Ex. exact Ex.
Qed.

(** ** The connections of the description and the pairs of relations *)
Lemma Forall2_flat_map {A B C D} (P : A -> B -> Prop) (Q : C -> D -> Prop) (f : A -> list C) (g : B -> list D) l k :
  Forall2 P l k -> (forall a b, P a b -> Forall2 Q (f a) (g b)) -> Forall2 Q (flat_map f l) (flat_map g k).
Proof. intros F H. induction F as [|a b l k Hab _ IH]; [constructor|]. cbn [flat_map]. apply Forall2_app; [by apply H|done]. Qed.
Lemma Forall2_in_l {A B} (P : A -> B -> Prop) (Q : B -> Prop) l k : Forall2 P l k -> (forall b, b ∈ k -> Q b) -> Forall2 (fun a b => P a b /\ Q b) l k.
Proof. induction 1 as [|a b l k Hab _ IH]; intros H; constructor; [split; [done|apply H; left]|]. apply IH. intros b' Hb'. apply H. by right. Qed.
Section conns.
  Context (fl : string -> option Qc) (rad : Qc) (h : list obj) (W : WF0 h).
  Lemma rel_filter (f : crel -> bool) (P : loc -> Prop) `{Dec : !forall l, Decision (P l)} x rs ls : (forall r l, rel_is fl rad h x r l -> f r = true <-> P l) ->
    Forall2 (rel_is fl rad h x) rs ls -> Forall2 (rel_is fl rad h x) (List.filter f rs) (filter P ls).
  Proof.
    intros H F. induction F as [|r l rs ls Hrl _ IH]; [constructor|]. cbn [List.filter]. destruct (f r) eqn:E.
    - rewrite filter_cons_True by (by apply (H r l)). by constructor.
    - rewrite filter_cons_False; [done|]. intros X. apply (H r l Hrl) in X. congruence.
  Qed.
  Lemma incoming_is x r l : rel_is fl rad h x r l -> incoming r = true <-> inward h l.
  Proof.
    intros H. apply rel_is_inv in H as (d & w & y & dl & ts & Ed & El & _). unfold incoming, inward. rewrite El, orb_true_iff, !bool_decide_eq_true. unfold relation_direction in Ed.
    repeat case_match; simplify_eq; split; intros X; destruct X; try congruence; auto.
  Qed.
  Lemma outgoing_is x r l : rel_is fl rad h x r l -> outgoing r = true <-> purely_out h l.
  Proof.
    intros H. apply rel_is_inv in H as (d & w & y & dl & ts & Ed & El & _). unfold outgoing, purely_out. rewrite El, bool_decide_eq_true. unfold relation_direction in Ed.
    repeat case_match; simplify_eq; split; intros X; try congruence.
  Qed.
  Lemma connections_are x e : stands_for h (joint_entry fl rad) x e ->
    Forall2 (conn_is fl rad h) (joint_connections x) (all_pairs (filter (inward h) (kids h e)) (filter (purely_out h) (kids h e))).
  Proof.
    intros H. apply joint_rels_are in H as [L F]. unfold joint_connections, all_pairs. eapply Forall2_flat_map; [apply (rel_filter incoming (inward h) x _ _ (incoming_is x) F)|]. intros r0 l0 H0.
    assert (FO := rel_filter outgoing (purely_out h) x _ _ (outgoing_is x) F).
    apply (Forall2_in_l _ (fun l => parent_of h l = Some e)) in FO; [|intros l Hl; apply elem_of_list_filter in Hl as [_ Hl]; by apply kid_parent].
    apply Forall2_fmap. eapply Forall2_impl; [exact FO|]. intros r1 l1 [H1 Hp]. split; [done|]. split; [done|]. by exists e.
  Qed.
End conns.
Lemma connections_exported fl rad lim e n0 c s1 root els N E ic ic' : reach s1 -> deep n0 (heap s1) -> n0 <= root -> kind_of (heap s1) root = Some KNode -> stamped n0 c s1 -> handed fl rad e (heap s1) root els N E ->
  joints_run lim rad s1 (rel_pairs (heap s1) false (joint_rels (heap s1) els)) "" ic (Ok tt) ic' ->
  exists ks blocks, ks ≡ₚ connections e /\ Forall2 (exported_connection fl rad (heap s1)) ks blocks /\ ic' = put (concat blocks) ic.
Proof.
  intros R D Hr K St Hh J. apply joints_blocks in J as (blocks & FB & ->); [|done].
  assert (FC : Forall2 (conn_is fl rad (heap s1)) (connections e) (edge_pairs (heap s1) E)).
  { unfold connections, edge_pairs. eapply Forall2_flat_map; [apply Hh|]. intros x ed Hx. apply connections_are; [by apply reach_wf|done]. }
  destruct (Forall2_perm _ _ _ _ (pairs_perm fl rad e n0 c s1 root els N E (reach_wf _ R) D Hr K St Hh) FB) as (bs & PB & FB').
  assert (FX : Forall2 (exported_connection fl rad (heap s1)) (connections e) bs).
  { clear -R FC FB'. revert bs FB'. induction FC as [|k jj ks jjs Hk _ IH]; intros bs F; inversion F; subst; constructor; [by eapply block_exported|by apply IH]. }
  apply Forall2_flip in FX. destruct (Forall2_perm _ _ _ _ (symmetry PB) FX) as (ks & PK & FK). apply Forall2_flip in FK. exists ks, blocks. split; [by symmetry|]. done.
Qed.
Lemma balanced_or h sel : balanced h sel \/ ~ balanced h sel.
Proof.
  set (L := selected h KRel sel). destruct (decide (Forall (fun r => inward h r -> Exists (fun r' => purely_out h r' /\ puuid h r' = puuid h r) L) L)) as [H|H]; [left|right].
  - intros r Hr Hi. rewrite Forall_forall in H. specialize (H r Hr Hi). apply Exists_exists in H as (r' & ? & ? & ?). by exists r'.
  - intros B. apply H, Forall_forall. intros r Hr Hi. destruct (B r Hr Hi) as (r' & ? & ? & ?). apply Exists_exists. by exists r'.
Qed.
(** Incoming relations need an outgoing one. *)
Lemma joint_pairs_inv fl rad e n0 c s1 root els N E ps : reach s1 -> deep n0 (heap s1) -> n0 <= root -> kind_of (heap s1) root = Some KNode -> stamped n0 c s1 -> handed fl rad e (heap s1) root els N E ->
  joint_pairs s1 els = Ok ps -> ps = rel_pairs (heap s1) false (joint_rels (heap s1) els) /\ forall j, j ∈ top_joints e -> (exists r, r ∈ jt_rels j.2 /\ incoming r = true) -> exists r, r ∈ jt_rels j.2 /\ outgoing r = true.
Proof.
  intros R D Hr K St Hh HP. pose proof (reach_wf _ R) as W.
  set (sel := omap (parent_of (heap s1)) (of_sem (heap s1) SKinematicLink els) ++ omap (parent_of (heap s1)) (of_sem (heap s1) SKinematicJoint els)).
  assert (Hsel : selected (heap s1) KRel sel = joint_rels (heap s1) els) by done.
  assert (HC' : rels_complete (heap s1) sel).
  { intros r Hx Hk. apply (complete fl rad e s1 root els N E W Hh r); [|done]. unfold joint_rels, selected. by apply elem_of_list_filter. }
  destruct (r_C39 false sel s1 R HC') as (P & Q & _). rewrite Hsel in P.
  assert (EP : joint_pairs s1 els = fact_relations false sel s1). { unfold joint_pairs. by rewrite !of_class_sem, !omap_parent. }
  assert (DB : balanced (heap s1) sel). { destruct (balanced_or (heap s1) sel) as [?|X]; [done|]. rewrite EP, (Q X) in HP. done. }
  split; [rewrite EP, (P DB) in HP; by injection HP as ->|]. intros j Hj (r & Hin & Hi).
  apply elem_of_list_lookup in Hj as [i Hj]. destruct (Forall2_lookup_l _ _ _ _ _ (hd_joints _ _ _ _ _ _ _ _ Hh) Hj) as (x & Hx & Hs). apply elem_of_list_lookup_2 in Hx. apply joint_rels_are in Hs as [_ F].
  apply elem_of_list_lookup in Hin as [k Hk]. destruct (Forall2_lookup_l _ _ _ _ _ F Hk) as (l & Hl & Hrl). apply elem_of_list_lookup_2 in Hl.
  destruct (DB l) as (l' & Hl' & Ho & Eu). { rewrite Hsel. apply (joint_rels_in fl rad e s1 root els N E W Hh). by exists x. } { by apply (incoming_is fl rad (heap s1) j r). }
  rewrite Hsel in Hl'. apply (joint_rels_in fl rad e s1 root els N E W Hh) in Hl' as (x' & Hx' & Hl').
  assert (x' = x) as ->. { eapply (same_edge fl rad e n0 c s1 root els N E W D Hr K St Hh x' x l' l); done. }
  apply elem_of_list_lookup in Hl' as [k' Hk']. destruct (Forall2_lookup_r _ _ _ _ _ F Hk') as (r' & Hr' & Hrel). exists r'. split; [by eapply elem_of_list_lookup_2|]. by apply (outgoing_is fl rad (heap s1) j r' l').
Qed.
Lemma converted_joints fl rad lim c e s files s' : clean s -> (forall a b, sha s a = sha s b -> a = b) -> (forall k k', clk s c k = clk s c k' -> k = k') -> convert_run fl rad lim c e s (Ok files) s' ->
  (exists links ks blocks lx, files = [(en_name e +:+ ".sdf", FSdf [(en_name e, lx ++ concat blocks)]); (en_name e +:+ ".load.sh", FText (load_script (en_name e)))] /\
    lx ≡ₚ links /\ Forall2 (exported_link fl rad) (top_links e) links /\ ks ≡ₚ connections e /\ Forall2 (exported_connection fl rad (heap s')) ks blocks) /\
  forall j, j ∈ top_joints e -> (exists r, r ∈ jt_rels j.2 /\ incoming r = true) -> exists r, r ∈ jt_rels j.2 /\ outgoing r = true.
Proof.
  intros C HS HK Hc. inversion Hc as [| | |d s1 root els s2 qs ic El Hr Hq He]; subst. destruct (engine_hands _ _ _ _ _ _ _ _ _ _ _ _ _ C El Hr Hq) as (-> & C1 & N & E & H). pose proof (clean_wf _ C1) as W.
  pose proof (load_stamped _ _ _ _ _ _ _ _ HS HK El) as St. destruct (load_deep _ _ _ _ _ _ _ _ _ C El Hr) as (D & Nr & _).
  destruct (load_meaning fl rad _ c e s d s1 C El) as (root' & t & Hr' & M & _ & _ & V & _). rewrite Hr in Hr'. injection Hr' as <-.
  destruct (meaning_shaped fl rad e t M) as (ts & -> & _). apply view_labelled in V. pose proof (node_name _ _ _ V) as Hn. assert (Kroot : kind_of (heap s1) root = Some KNode). { destruct V as (o & Ho & Hk & _). unfold kind_of. rewrite Ho. cbn. by rewrite Hk. }
  pose proof H as Hh. destruct (hd_els _ _ _ _ _ _ _ _ H) as (P0 & P1 & z & Eels & PP0 & PP1 & Hz & Kz). destruct (hd_kinds _ _ _ _ _ _ _ _ H) as [K0 K1].
  assert (K0' : forall x, x ∈ P0 -> kind_of (heap s1) x = Some (KSem SKinematicLink)) by (intros x Hx; apply K0; by rewrite <- PP0). assert (K1' : forall x, x ∈ P1 -> kind_of (heap s1) x = Some (KSem SKinematicJoint)) by (intros x Hx; apply K1; by rewrite <- PP1).
  assert (Kz' : forall x, x ∈ [z] -> kind_of (heap s1) x = Some (KSem SCognitiveEntity)) by (intros x Hx; apply elem_of_list_singleton in Hx; by subst).
  assert (EC : of_sem (heap s1) SCognitiveEntity els = [z]). { rewrite Eels, !of_sem_app, (of_sem_none _ SCognitiveEntity SKinematicLink P0), (of_sem_none _ SCognitiveEntity SKinematicJoint P1), (of_sem_all _ SCognitiveEntity [z]); done. }
  assert (EL : of_sem (heap s1) SKinematicLink els = P0). { rewrite Eels, !of_sem_app, (of_sem_all _ SKinematicLink P0), (of_sem_none _ SKinematicLink SKinematicJoint P1), (of_sem_none _ SKinematicLink SCognitiveEntity [z]); try done. by rewrite !app_nil_r. }
  inversion He as [| |? ? ? ic1 ps ? En Ep Ej|]; subst ic1 || idtac. all: try congruence. subst. apply nodes_run in En as (xs & -> & Hxs). specialize (Hxs eq_refl). rewrite EL in Hxs. rewrite EC in Ej.
  destruct (joint_pairs_inv _ _ _ _ _ _ _ _ _ _ _ (proj1 C1) D Nr Kroot St Hh Ep) as [-> Hbal]. split; [|exact Hbal].
  destruct (connections_exported _ _ _ _ _ _ _ _ _ _ _ _ _ (proj1 C1) D Nr Kroot St Hh Ej) as (ks & blocks & PK & FK & ->).
  destruct (Forall2_perm _ _ _ _ PP0 Hxs) as (links & PL & FL). exists links, ks, blocks, xs. split; [|split; [done|]; split; [by eapply links_exported|done]].
  unfold written. rewrite Hn, put_put. cbn [map fold_left]. by rewrite Hz.
Qed.
Lemma unbalanced fl rad lim c e s r s' : clean s -> (forall a b, sha s a = sha s b -> a = b) -> (forall k k', clk s c k = clk s c k' -> k = k') -> convert_run fl rad lim c e s r s' ->
  (exists j, j ∈ top_joints e /\ (exists x, x ∈ jt_rels j.2 /\ incoming x = true) /\ forall x, x ∈ jt_rels j.2 -> outgoing x = false) -> exists ex, r = Exn ex.
Proof.
  intros C HS HK H (j & Hj & Hi & Ho). destruct r as [files|ex]; [|by exists ex]. exfalso. destruct (converted_joints _ _ _ _ _ _ _ _ C HS HK H) as [_ B]. destruct (B j Hj Hi) as (x & Hx & Hox). rewrite (Ho x Hx) in Hox. done.
Qed.
