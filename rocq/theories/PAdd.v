(** * add_element and remove_element on well-formed hierarchies *)
From Verif Require Import Spec Hierarchy Elements Factory History PDict PPath PExec PBfs PWF.

(** Changes that do not read or write qualified names and time stamps. *)
Record struct_fun (f : obj -> obj) : Prop := {
  sf_comm : forall q t o, f (s_qname q (s_time t o)) = s_qname q (s_time t (f o));
  sf_qname : forall o, o_qname (f o) = o_qname o;
  sf_time : forall o, o_time (f o) = o_time o;
  sf_kind : forall o, o_kind (f o) = o_kind o
}.
Ltac sfun := by split; intros; reflexivity.

(** Like [touch], but the new qualified names and time stamps of [S] are arbitrary. *)
Record touchw (S : list loc) (s s' : st) : Prop := {
  w_clk : clk s' = clk s;
  w_sha : sha s' = sha s;
  w_f1 : fr_hier s' = fr_hier s;
  w_f2 : fr_hyper s' = fr_hyper s;
  w_f3 : fr_query s' = fr_query s;
  w_tick : tick s <= tick s';
  w_len : length (heap s') = length (heap s);
  w_obj : forall l o, heap s !! l = Some o ->
    exists q t, heap s' !! l = Some (s_qname q (s_time t o)) /\
      (l ∉ S -> q = o_qname o /\ t = o_time o) /\
      (is_conceptual (o_kind o) = false -> t = o_time o)
}.

Lemma touch_touchw S s s' : touch S s s' -> touchw S s s'.
Proof.
  intros H. split; try apply H. intros l o Hl. destruct (t_obj _ _ _ H l o Hl) as (q & t & H1 & H2 & H3).
  exists q, t. split; [done|]. split; [done|]. intros Hk.
  destruct (decide (l ∈ S)) as [Hin|Hn]; [|by apply H2]. destruct (H3 Hin) as [_ Ht]. unfold time_ok in Ht. by rewrite Hk in Ht.
Qed.
Lemma touchw_refl s : touchw [] s s.
Proof. apply touch_touchw, touch_refl. Qed.
Lemma touchw_heq S s s' : touchw S s s' -> heq (heap s) (heap s').
Proof.
  intros H. unfold heq. apply list_eq. intros i. rewrite !list_lookup_fmap.
  destruct (heap s !! i) as [o|] eqn:E.
  - destruct (w_obj _ _ _ H i o E) as (q & t & -> & _). done.
  - apply lookup_ge_None in E. rewrite <- (w_len _ _ _ H) in E. apply lookup_ge_None in E. by rewrite E.
Qed.
Lemma touchw_touch S1 S2 s s1 s2 : touchw S1 s s1 -> touch S2 s1 s2 -> (forall l, exists_in (heap s) l -> l ∈ S1 -> l ∈ S2) ->
  touch S2 s s2.
Proof.
  intros H1 H2 Hsub. pose proof (touchw_heq _ _ _ H1) as Hq. split.
  - rewrite (t_clk _ _ _ H2). apply H1.
  - rewrite (t_sha _ _ _ H2). apply H1.
  - rewrite (t_f1 _ _ _ H2). apply H1.
  - rewrite (t_f2 _ _ _ H2). apply H1.
  - rewrite (t_f3 _ _ _ H2). apply H1.
  - etrans; [apply H1|apply H2].
  - rewrite (t_len _ _ _ H2). apply H1.
  - intros l o Hl. destruct (w_obj _ _ _ H1 l o Hl) as (q1 & t1 & Hl1 & Hn1 & Hy1).
    destruct (t_obj _ _ _ H2 l _ Hl1) as (q2 & t2 & Hl2 & Hn2 & Hy2).
    exists q2, t2. split; [exact Hl2|]. split.
    + intros Hnin. destruct Hn2 as [-> ->]; [tauto|]. simpl. apply Hn1. intros Hin. apply Hnin.
      apply Hsub; [by exists o|done].
    + intros Hin. destruct (Hy2 Hin) as [Hf Ht]. split; [by eapply heq_full_name; [symmetry|]|].
      unfold time_ok in *. simpl in *. destruct (is_conceptual (o_kind o)) eqn:Ek.
      * destruct Ht as (c & n & Hc & Hn & ->). exists c, n. split; [done|].
        pose proof (w_tick _ _ _ H1). rewrite (w_clk _ _ _ H1). split; [lia|done].
      * subst t2. by apply Hy1.
Qed.
Lemma touchw_trans S1 S2 s s1 s2 : touchw S1 s s1 -> touchw S2 s1 s2 -> touchw (S1 ++ S2) s s2.
Proof.
  intros H1 H2. split.
  - rewrite (w_clk _ _ _ H2). apply H1.
  - rewrite (w_sha _ _ _ H2). apply H1.
  - rewrite (w_f1 _ _ _ H2). apply H1.
  - rewrite (w_f2 _ _ _ H2). apply H1.
  - rewrite (w_f3 _ _ _ H2). apply H1.
  - etrans; [apply H1|apply H2].
  - rewrite (w_len _ _ _ H2). apply H1.
  - intros l o Hl. destruct (w_obj _ _ _ H1 l o Hl) as (q1 & t1 & Hl1 & Hn1 & Hy1).
    destruct (w_obj _ _ _ H2 l _ Hl1) as (q2 & t2 & Hl2 & Hn2 & Hy2).
    exists q2, t2. split; [exact Hl2|]. rewrite elem_of_app. split.
    + intros Hnin. destruct Hn2 as [-> ->]; [tauto|]. simpl. apply Hn1. tauto.
    + intros Hk. rewrite Hy2 by done. simpl. by apply Hy1.
Qed.

Lemma lookup_alter_inv {A} (f : A -> A) (h : list A) l i o :
  alter f l h !! i = Some o -> exists o0, h !! i = Some o0 /\ o = if decide (l = i) then f o0 else o0.
Proof.
  destruct (decide (l = i)) as [->|Hne].
  - rewrite list_lookup_alter. destruct (h !! i) as [o0|]; simpl; [|done]. intros [= <-]. by exists o0.
  - rewrite list_lookup_alter_ne by done. intros H. by exists o.
Qed.
Lemma lookup_alter_fwd {A} (f : A -> A) (h : list A) l i o :
  h !! i = Some o -> alter f l h !! i = Some (if decide (l = i) then f o else o).
Proof.
  intros H. destruct (decide (l = i)) as [->|Hne]; [by rewrite list_lookup_alter, H|].
  by rewrite list_lookup_alter_ne.
Qed.

Lemma touchw_upd S s s' l f : struct_fun f -> touchw S s s' ->
  touchw S (set_heap (alter f l (heap s)) s) (set_heap (alter f l (heap s')) s').
Proof.
  intros Hf H. split; try apply H.
  - simpl. rewrite !alter_length. apply H.
  - simpl. intros i o Hi. apply lookup_alter_inv in Hi as (o0 & Hi & ->).
    destruct (w_obj _ _ _ H i o0 Hi) as (q & t & H1 & H2 & H3). exists q, t.
    rewrite (lookup_alter_fwd _ _ _ _ _ H1). destruct (decide (l = i)) as [->|].
    + rewrite (sf_comm _ Hf), (sf_qname _ Hf), (sf_time _ Hf), (sf_kind _ Hf). done.
    + done.
Qed.
(** The same for [touch], if the change does not affect names. *)
Lemma touch_upd S s s' l f : struct_fun f ->
  (forall o, o_parent (f o) = o_parent o) -> (forall o, o_name (f o) = o_name o) ->
  (forall o, o_clock (f o) = o_clock o) ->
  touch S s s' ->
  touch S (set_heap (alter f l (heap s)) s) (set_heap (alter f l (heap s')) s').
Proof.
  intros Hf Hpar Hnm Hck H. split; try apply H.
  - simpl. rewrite !alter_length. apply H.
  - simpl. intros i o Hi. apply lookup_alter_inv in Hi as (o0 & Hi & ->).
    destruct (t_obj _ _ _ H i o0 Hi) as (q & t & H1 & H2 & H3). exists q, t.
    assert (Hfull : full_name (heap s) i q -> full_name (alter f l (heap s)) i q).
    { intros (ls & Hp & ->). exists ls. split.
      - apply path_ext with (heap s); [done|]. intros x Hx.
        destruct (path_in_exists _ _ _ _ Hp Hx) as [ox Hox]. unfold exists_in, parent_of.
        rewrite (lookup_alter_fwd _ _ _ _ _ Hox), Hox. split; [eauto|]. simpl.
        destruct (decide _); [apply Hpar|done].
      - f_equal. f_equal. apply map_ext_in. intros x Hx. apply elem_of_list_In in Hx.
        destruct (path_in_exists _ _ _ _ Hp Hx) as [ox Hox]. unfold name_of.
        rewrite (lookup_alter_fwd _ _ _ _ _ Hox), Hox. simpl. destruct (decide _); [by rewrite Hnm|done]. }
    rewrite (lookup_alter_fwd _ _ _ _ _ H1). destruct (decide (l = i)) as [->|].
    + rewrite (sf_comm _ Hf), (sf_qname _ Hf), (sf_time _ Hf). split; [done|]. split; [done|].
      intros Hin. destruct (H3 Hin) as [Hn Ht]. split; [by apply Hfull|].
      unfold time_ok in *. rewrite (sf_kind _ Hf), Hck, (sf_time _ Hf). exact Ht.
    + split; [done|]. split; [done|]. intros Hin. destruct (H3 Hin) as [Hn Ht]. split; [by apply Hfull|exact Ht].
Qed.

Lemma forest_ext h h' :
  (forall l, children h' l = children h l) -> (forall l, parent_of h' l = parent_of h l) ->
  (forall l, exists_in h' l <-> exists_in h l) -> (forall l, clocked h l -> clocked h' l) ->
  forest_ok h -> forest_ok h'.
Proof.
  intros Hch Hpar Hex Hck F. split.
  - intros p c. rewrite Hch, Hpar, Hex. apply F.
  - intros p c. rewrite Hch, Hpar, Hex. apply F.
  - intros p. rewrite Hch. apply F.
  - intros l Hl. apply Hex in Hl. destruct (fo_acy _ F l Hl) as [ls H]. exists ls.
    apply path_ext with h; [done|]. intros x Hx. split; [apply Hex; by eapply path_in_exists|apply Hpar].
  - intros l. apply Hck, F.
Qed.
Lemma forest_heq h h' : heq h h' -> forest_ok h -> forest_ok h'.
Proof.
  intros H. apply forest_ext; intros l.
  - by apply heq_children.
  - by apply heq_parent.
  - by apply heq_exists.
  - by apply heq_clocked.
Qed.

(** ** Removal by uuid *)
Lemma remove_uuid_ok s p c op oc d x nm :
  heap s !! p = Some op -> heap s !! c = Some oc -> c <> p ->
  dget (o_uuid oc) (o_subs op) = Some c ->
  dget (o_name oc) (o_index op) = Some d -> dget (o_uuid oc) d = Some x ->
  default (o_name oc) nm = o_name oc ->
  clocked (heap s) c ->
  exists s', remove_uuid p nm (o_uuid oc) s = (Ok c, s') /\
    touch [c] (set_heap (detach_h p c oc (heap s)) s) s'.
Proof.
  intros Hp Hc Hne Hsub Hidx Hd Hnm Hck. unfold remove_uuid.
  rewrite (bind_ok _ _ _ _ _ (deref_ok _ _ _ Hp)). rewrite Hsub. cbn [of_opt].
  rewrite (bind_ok (ret c) _ s c s) by done.
  rewrite (bind_ok _ _ _ _ _ (upd_ok _ _ _ _ Hp)).
  set (s1 := set_heap _ s).
  assert (Hp1 : heap s1 !! p = Some (s_subs (ddel (o_uuid oc) (o_subs op)) op)).
  { unfold s1. simpl. by rewrite list_lookup_alter, Hp. }
  assert (Hc1 : heap s1 !! c = Some oc).
  { unfold s1. simpl. by rewrite list_lookup_alter_ne. }
  rewrite (bind_ok _ _ _ _ _ (deref_ok _ _ _ Hc1)). rewrite Hnm.
  rewrite (bind_ok _ _ _ _ _ (deref_ok _ _ _ Hp1)). cbn [o_index s_subs]. rewrite Hidx. cbn [of_opt].
  rewrite (bind_ok (ret d) _ s1 d s1) by done. rewrite Hd. cbn [of_opt].
  rewrite (bind_ok (ret x) _ s1 x s1) by done.
  rewrite (bind_ok _ _ _ _ _ (upd_ok _ _ _ _ Hp1)).
  set (s2 := set_heap _ s1).
  assert (Hc2 : heap s2 !! c = Some oc).
  { unfold s2. simpl. by rewrite list_lookup_alter_ne. }
  rewrite (bind_ok _ _ _ _ _ (upd_ok _ _ _ _ Hc2)).
  set (s3 := set_heap _ s2).
  assert (Hc3 : heap s3 !! c = Some (s_parent None oc)).
  { unfold s3. simpl. rewrite list_lookup_alter. change (alter _ p _) with (heap s2). by rewrite Hc2. }
  destruct (update_ok s3 c [c]) as (s4 & E4 & T4).
  { apply path_root; [eexists; done|]. by rewrite (parent_of_lookup _ _ _ Hc3). }
  { intros o Ho Hk. rewrite Hc3 in Ho. injection Ho as <-. exact (Hck oc Hc Hk). }
  rewrite (bind_ok _ _ _ _ _ E4).
  assert (Hp4 : exists op4, heap s4 !! p = Some op4).
  { apply (heq_exists (heap s3) (heap s4)); [by eapply touch_heq|]. unfold exists_in, s3. simpl.
    rewrite list_lookup_alter_ne by done. rewrite !list_lookup_alter, Hp. eauto. }
  destruct Hp4 as [op4 Hp4].
  rewrite (bind_ok _ _ _ _ _ (upd_ok _ _ _ _ Hp4)).
  eexists. split; [reflexivity|].
  pose proof (touch_upd _ _ _ p (fun o => s_cnt (o_cnt o - 1)%Z o) ltac:(sfun) (fun _ => eq_refl) (fun _ => eq_refl)
    (fun _ => eq_refl) T4) as T5.
  replace (set_heap (detach_h p c oc (heap s)) s)
    with (set_heap (alter (fun o => s_cnt (o_cnt o - 1)%Z o) p (heap s3)) s3); [exact T5|].
  unfold s3, s2, s1. rewrite !set_heap_set_heap, !set_heap_heap. f_equal.
  rewrite (alter_comm _ _ _ p c) by done. unfold detach_h. f_equal.
  rewrite !alter_alter. apply alter_ext_at. intros o Ho. assert (o = op) as -> by congruence.
  unfold det_p. by rewrite Hidx.
Qed.

(** A container whose removal works: neither edge nor relation. *)
Definition plain (o : obj) : Prop := o_kind o <> KEdge /\ o_kind o <> KRel.
Lemma gen_next_plain s p op nm u : heap s !! p = Some op -> plain op ->
  gen_next (GNew p nm u) s = base_next (GNew p nm u) s.
Proof.
  intros Hp [H1 H2]. cbn [gen_next]. rewrite (bind_ok _ _ _ _ _ (deref_ok _ _ _ Hp)).
  by destruct (o_kind op).
Qed.

Lemma path_after_update h h' c ls : heq h h' -> path h c ls -> path h' c ls.
Proof. apply heq_path. Qed.

(** [for e in p.remove_element(uuid=u): e.update()] *)
Lemma for_gen_update_ok s p c op oc d x :
  heap s !! p = Some op -> heap s !! c = Some oc -> c <> p -> plain op ->
  dget (o_uuid oc) (o_subs op) = Some c ->
  dget (o_name oc) (o_index op) = Some d -> dget (o_uuid oc) d = Some x ->
  clocked (heap s) c ->
  exists s', for_gen update (GNew p "" (Some (o_uuid oc))) s = (Ok tt, s') /\
    touch [c] (set_heap (detach_h p c oc (heap s)) s) s'.
Proof.
  intros Hp Hc Hne Hpl Hsub Hidx Hd Hck.
  destruct (remove_uuid_ok s p c op oc d x None) as (s1 & E1 & T1); try done.
  unfold for_gen. assert (E2 : gen_next (GNew p "" (Some (o_uuid oc))) s = (Ok (Some c, GEnd), s1)).
  { rewrite (gen_next_plain _ _ _ _ _ Hp Hpl). cbn [base_next]. rewrite decide_True by done.
    by rewrite (bind_ok _ _ _ _ _ E1). }
  rewrite (bind_ok _ _ _ _ _ E2). cbn [fst snd].
  set (s0 := set_heap (detach_h p c oc (heap s)) s) in *.
  assert (Hc0 : heap s0 !! c = Some (s_parent None oc)).
  { unfold s0, detach_h. simpl. rewrite list_lookup_alter, list_lookup_alter_ne by done. by rewrite Hc. }
  destruct (update_ok s1 c [c]) as (s2 & E3 & T2).
  { eapply heq_path; [by eapply touch_heq|]. apply path_root; [eexists; done|]. by rewrite (parent_of_lookup _ _ _ Hc0). }
  { eapply heq_clocked; [by eapply touch_heq|]. intros o Ho Hk. rewrite Hc0 in Ho. injection Ho as <-.
    exact (Hck oc Hc Hk). }
  exists s2. rewrite (bind_ok _ _ _ _ _ E3). split; [done|].
  eapply touch_equiv; [|by eapply touch_trans]. set_solver.
Qed.

(** ** Adding *)
Lemma dset_default_new n u c (idx : dict string (dict uid loc)) :
  dget u (default [] (dget n idx)) = None ->
  dset n (dset u c (default [] (dget n idx))) idx
  = dset n (default [] (dget n idx) ++ [(u, c)]) idx.
Proof. intros H. by rewrite (dset_new u c). Qed.

(** The heap after c has left its old container. *)
Definition left_h (c : loc) (oc : obj) (h : list obj) : list obj :=
  match o_parent oc with Some q => detach_h q c oc h | None => h end.

Lemma left_wf h c oc : WF0 h -> h !! c = Some oc -> removable h c -> WF0 (left_h c oc h).
Proof.
  intros W Hc Hrem. unfold left_h. destruct (o_parent oc) as [q|] eqn:Hq; [|done].
  destruct (wf_par _ W c oc q Hc Hq) as (oq & Hoq & _).
  apply detach_wf0 with oq; try done. destruct (Hrem q) as [H _]; [by rewrite (parent_of_lookup _ _ _ Hc)|].
  unfold kind_of in H. rewrite Hoq in H. simpl in H. congruence.
Qed.
Lemma left_at_c h c oc : WF0 h -> h !! c = Some oc -> left_h c oc h !! c = Some (s_parent None oc).
Proof.
  intros W Hc. unfold left_h. destruct (o_parent oc) as [q|] eqn:Hq.
  - destruct (wf_par _ W c oc q Hc Hq) as (oq & Hoq & _). by apply (detach_at_c h W q c oc Hc Hq).
  - rewrite Hc. f_equal. destruct oc. simpl in *. by subst.
Qed.
Lemma left_at_p h c oc p op : h !! p = Some op -> p <> c -> o_parent oc <> Some p -> left_h c oc h !! p = Some op.
Proof.
  intros Hp Hne Hpar. unfold left_h. destruct (o_parent oc) as [q|] eqn:Hq; [|done].
  unfold detach_h. rewrite !list_lookup_alter_ne by congruence. done.
Qed.
Lemma left_parent_ne h c oc x : WF0 h -> h !! c = Some oc -> x <> c -> parent_of (left_h c oc h) x = parent_of h x.
Proof.
  intros W Hc Hx. unfold left_h. destruct (o_parent oc) as [q|] eqn:Hq; [|done].
  destruct (wf_par _ W c oc q Hc Hq) as (oq & Hoq & _).
  by apply (detach_parent_ne h W q c oq oc Hoq Hc Hq).
Qed.
Lemma left_ancestor h c oc l x : WF0 h -> h !! c = Some oc -> ancestor (left_h c oc h) l x -> ancestor h l x.
Proof.
  intros W Hc Ha. pose proof (left_at_c h c oc W Hc) as Hlc.
  induction Ha as [a y Hp|a z y Hp Ha IH].
  - destruct (decide (y = c)) as [->|Hyc]; [by rewrite (parent_of_lookup _ _ _ Hlc) in Hp|].
    apply anc_parent. by rewrite (left_parent_ne h c oc) in Hp.
  - destruct (decide (y = c)) as [->|Hyc]; [by rewrite (parent_of_lookup _ _ _ Hlc) in Hp|].
    eapply anc_up; [|done]. by rewrite (left_parent_ne h c oc) in Hp.
Qed.

(** add_element of the base class, up to the refresh of the subtree. *)
Lemma add_base_upto s p c op oc :
  WF0 (heap s) -> c <> p -> heap s !! p = Some op -> heap s !! c = Some oc ->
  dget (o_uuid oc) (o_subs op) = None -> removable (heap s) c ->
  exists s8, add_base p c s = update_subtree c s8 /\
    touchw [c] (set_heap (attach_h p c op oc false (left_h c oc (heap s))) s) s8.
Proof.
  intros W Hne Hp Hc Hnew Hrem.
  assert (Hparne : o_parent oc <> Some p).
  { intros E. destruct (wf0_lookup _ W c oc p op Hc E Hp) as [H _]. congruence. }
  assert (Hdn : dget (o_uuid oc) (default [] (dget (o_name oc) (o_index op))) = None).
  { rewrite (wf_index _ W p op _ Hp). apply dget_None. intros Hin.
    apply elem_of_list_fmap in Hin as [x [Hx1 Hx2]]. apply elem_of_list_filter in Hx2 as [_ Hx2].
    apply dget_None in Hnew. apply Hnew. apply elem_of_list_fmap. by exists x. }
  unfold add_base. rewrite decide_False by done.
  rewrite (bind_ok _ _ _ _ _ (deref_ok _ _ _ Hc)).
  rewrite (bind_ok _ _ _ _ _ (deref_ok _ _ _ Hp)). rewrite Hnew.
  rewrite (bind_ok _ _ _ _ _ (upd_ok _ _ _ _ Hp)).
  set (s1 := set_heap _ s).
  rewrite decide_False by done.
  assert (Hp1 : heap s1 !! p = Some (s_subs (dset (o_uuid oc) c (o_subs op)) op)).
  { unfold s1. simpl. by rewrite list_lookup_alter, Hp. }
  rewrite (bind_ok _ _ _ _ _ (upd_ok _ _ _ _ Hp1)).
  set (s2 := set_heap _ s1).
  assert (Hp2 : exists op2, heap s2 !! p = Some op2 /\ o_hist op2 = o_hist op /\ o_depth op2 = o_depth op).
  { unfold s2. simpl. rewrite list_lookup_alter. change (alter _ p (heap s)) with (heap s1).
    rewrite Hp1. simpl. eauto. }
  destruct Hp2 as (op2 & Hp2 & Hh2 & Hd2).
  rewrite (bind_ok _ _ _ _ _ (deref_ok _ _ _ Hp2)).
  assert (Hc2 : heap s2 !! c = Some oc).
  { unfold s2, s1. simpl. by rewrite !list_lookup_alter_ne by done. }
  rewrite (bind_ok _ _ _ _ _ (upd_ok _ _ _ _ Hc2)).
  set (s3 := set_heap _ s2).
  assert (Hc3 : heap s3 !! c = Some (s_cid (o_hist op) oc)).
  { unfold s3. simpl. rewrite list_lookup_alter. change (alter _ p (alter _ p (heap s))) with (heap s2).
    by rewrite Hc2, Hh2. }
  (* the old container *)
  assert (E4 : exists s4,
    (match o_parent oc with
     | Some q => for_gen update (GNew q "" (Some (o_uuid oc)))
     | None => ret tt
     end) s3 = (Ok tt, s4) /\
    touchw [c] (set_heap (left_h c oc (heap s3)) s3) s4).
  { unfold left_h. destruct (o_parent oc) as [q|] eqn:Hq.
    - destruct (wf_par _ W c oc q Hc Hq) as (oq & Hoq & _).
      assert (Hqp : q <> p) by congruence.
      assert (Hqc : c <> q) by (intros ->; by apply (wf0_not_self _ W q oc)).
      destruct (wf0_lookup _ W c oc q oq Hc Hq Hoq) as (Hs & d & Hi & Hd).
      destruct (for_gen_update_ok s3 q c oq (s_cid (o_hist op) oc) d c) as (s4 & E & T); try done.
      + unfold s3, s2, s1. simpl. by rewrite !list_lookup_alter_ne by done.
      + destruct (Hrem q) as [H1 H2]; [by rewrite (parent_of_lookup _ _ _ Hc)|].
        unfold kind_of in H1, H2. rewrite Hoq in H1, H2. simpl in *. split; congruence.
      + intros o Ho Hk. rewrite Hc3 in Ho. injection Ho as <-. exact (wf_clk _ W c oc Hc Hk).
      + exists s4. split; [exact E|]. by apply touch_touchw.
    - exists s3. split; [done|]. rewrite set_heap_id.
      destruct (touchw_refl s3) as [H1 H2 H3 H4 H5 H6 H7 H8]. split; try done. intros l o Hl.
      destruct (H8 l o Hl) as (q & t & Hx & Hy & Hz). exists q, t. split; [done|]. split; [|done].
      intros _. apply Hy. set_solver. }
  destruct E4 as (s4 & E4 & T4). rewrite (bind_ok _ _ _ _ _ E4).
  set (s3' := set_heap (left_h c oc (heap s3)) s3) in *.
  assert (Hheap3' : heap s3' = alter (s_cid (o_hist op)) c
    (alter (fun o => s_index (dset (o_name oc) (default [] (dget (o_name oc) (o_index o)) ++ [(o_uuid oc, c)]) (o_index o))
             (s_subs (o_subs o ++ [(o_uuid oc, c)]) o)) p (left_h c oc (heap s)))).
  { unfold s3'. rewrite set_heap_heap. unfold s3, s2, s1. rewrite !set_heap_heap. rewrite Hh2.
    rewrite alter_alter.
    rewrite (alter_ext_at (fun o => s_index _ _)
      (fun o => s_index (dset (o_name oc) (default [] (dget (o_name oc) (o_index o)) ++ [(o_uuid oc, c)]) (o_index o))
             (s_subs (o_subs o ++ [(o_uuid oc, c)]) o)) (heap s) p).
    2:{ intros o Ho. assert (o = op) as -> by congruence. simpl.
        rewrite dset_default_new by done. by rewrite (dset_new _ _ _ Hnew). }
    unfold left_h. destruct (o_parent oc) as [q|] eqn:Hq; [|done].
    assert (Hqp : q <> p) by congruence.
    assert (Hqc : q <> c) by (intros ->; by apply (wf0_not_self _ W c oc)).
    unfold detach_h.
    rewrite (alter_comm (det_p oc) _ _ q c) by done. rewrite alter_alter.
    rewrite (alter_comm (det_p oc) _ _ q p) by done.
    rewrite (alter_comm _ (s_parent None) _ p c) by done. rewrite alter_alter.
    apply alter_ext_at. done. }
  assert (Hp3' : exists op3, heap s3' !! p = Some op3 /\ o_depth op3 = o_depth op).
  { rewrite Hheap3'. rewrite list_lookup_alter_ne by done. rewrite list_lookup_alter.
    rewrite (left_at_p _ _ _ _ op) by done. simpl. eauto. }
  destruct Hp3' as (op3 & Hp3' & Hd3).
  assert (Hc3' : exists oc3, heap s3' !! c = Some oc3).
  { rewrite Hheap3'. rewrite list_lookup_alter, list_lookup_alter_ne by done.
    rewrite (left_at_c _ _ _ W Hc). simpl. eauto. }
  destruct Hc3' as (oc3 & Hc3').
  destruct (w_obj _ _ _ T4 c oc3 Hc3') as (qc & tc & Hc4 & _).
  destruct (w_obj _ _ _ T4 p op3 Hp3') as (qp & tp & Hp4 & _).
  rewrite (bind_ok _ _ _ _ _ (upd_ok _ _ _ _ Hc4)).
  pose proof (touchw_upd _ _ _ c (s_parent (Some p)) ltac:(sfun) T4) as T5.
  set (s5 := set_heap (alter (s_parent (Some p)) c (heap s4)) s4) in *.
  assert (Hp5 : heap s5 !! p = Some (s_qname qp (s_time tp op3))).
  { unfold s5. simpl. by rewrite list_lookup_alter_ne. }
  rewrite (bind_ok _ _ _ _ _ (deref_ok _ _ _ Hp5)).
  assert (Hc5 : exists o, heap s5 !! c = Some o).
  { unfold s5. simpl. rewrite list_lookup_alter, Hc4. simpl. eauto. }
  destruct Hc5 as (oc5 & Hc5).
  rewrite (bind_ok _ _ _ _ _ (upd_ok _ _ _ _ Hc5)).
  change (o_depth (s_qname qp (s_time tp op3))) with (o_depth op3). rewrite Hd3.
  pose proof (touchw_upd _ _ _ c (s_depth (o_depth op + 1)) ltac:(sfun) T5) as T6.
  set (s6 := set_heap (alter (s_depth (o_depth op + 1)) c (heap s5)) s5) in *.
  assert (Hp6 : heap s6 !! p = Some (s_qname qp (s_time tp op3))).
  { unfold s6. simpl. change (alter _ c (heap s4)) with (heap s5). by rewrite list_lookup_alter_ne. }
  rewrite (bind_ok _ _ _ _ _ (upd_ok _ _ _ _ Hp6)).
  pose proof (touchw_upd _ _ _ p (fun o => s_cnt (o_cnt o + 1)%Z o) ltac:(sfun) T6) as T7.
  set (s7 := set_heap (alter (fun o => s_cnt (o_cnt o + 1)%Z o) p (heap s6)) s6) in *.
  assert (Hp7 : exists o, heap s7 !! p = Some o).
  { unfold s7. rewrite set_heap_heap, list_lookup_alter, Hp6. simpl. eauto. }
  destruct Hp7 as (op7 & Hp7).
  rewrite (bind_ok _ _ _ _ _ (upd_ok _ _ _ _ Hp7)).
  pose proof (touchw_upd _ _ _ p (fun o => s_hist (o_hist o + 1) o) ltac:(sfun) T7) as T8.
  set (s8 := set_heap (alter (fun o => s_hist (o_hist o + 1) o) p (heap s7)) s7) in *.
  set (hA := attach_h p c op oc false (left_h c oc (heap s))).
  match type of T8 with touchw _ ?x _ => assert (Ex : x = set_heap hA s) end.
  { match goal with |- ?x = _ => change x with
      (set_heap (alter (fun o => s_hist (o_hist o + 1) o) p (alter (fun o => s_cnt (o_cnt o + 1)%Z o) p
        (alter (s_depth (o_depth op + 1)) c (alter (s_parent (Some p)) c (heap s3'))))) s) end.
    f_equal. rewrite Hheap3'. unfold hA, attach_h.
    rewrite !alter_alter. rewrite (alter_comm _ _ _ p c) by done. rewrite !alter_alter.
    rewrite (alter_ext_at _ (att_p c oc false) (left_h c oc (heap s)) p) by done.
    apply alter_ext_at. done. }
  rewrite Ex in T8. exists s8. split; [reflexivity|exact T8].
Qed.

(** add_element of the base class: success. *)
Lemma add_base_ok s p c op oc :
  WF0 (heap s) -> c <> p -> heap s !! p = Some op -> heap s !! c = Some oc ->
  dget (o_uuid oc) (o_subs op) = None -> ~ ancestor (heap s) c p -> removable (heap s) c ->
  exists T s', add_base p c s = (Ok tt, s') /\
    touch T (set_heap (attach_h p c op oc false (left_h c oc (heap s))) s) s' /\
    (forall x, exists_in (heap s) x ->
       x ∈ T <-> within (attach_h p c op oc false (left_h c oc (heap s))) c x).
Proof.
  intros W Hne Hp Hc Hnew Hanc Hrem.
  assert (Hparne : o_parent oc <> Some p).
  { intros E. destruct (wf0_lookup _ W c oc p op Hc E Hp) as [H _]. congruence. }
  destruct (add_base_upto s p c op oc W Hne Hp Hc Hnew Hrem) as (s8 & E8 & T8).
  set (hA := attach_h p c op oc false (left_h c oc (heap s))) in *.
  assert (WA : forest_ok hA).
  { pose proof (left_wf _ _ _ W Hc Hrem) as Wl.
    set (b := bool_decide (o_kind oc = KRel)).
    assert (WAb : WF0 (attach_h p c op (s_parent None oc) b (left_h c oc (heap s)))).
    { apply attach_wf0; try done.
      - by apply left_at_p.
      - by apply left_at_c.
      - intros [E|Ha]; [congruence|]. apply Hanc. by eapply left_ancestor. }
    change (attach_h p c op (s_parent None oc) b) with (attach_h p c op oc b) in WAb.
    apply wf0_forest in WAb. revert WAb. apply forest_ext.
    - intros l. unfold children, hA, attach_h. destruct (decide (c = l)) as [->|].
      + rewrite !list_lookup_alter, !list_lookup_alter_ne by done. done.
      + rewrite !(list_lookup_alter_ne (att_c p op)) by done. destruct (decide (p = l)) as [->|].
        * rewrite !list_lookup_alter. by destruct (left_h c oc (heap s) !! l).
        * by rewrite !list_lookup_alter_ne by done.
    - intros l. unfold parent_of, hA, attach_h. destruct (decide (c = l)) as [->|].
      + rewrite !list_lookup_alter, !list_lookup_alter_ne by done. done.
      + rewrite !(list_lookup_alter_ne (att_c p op)) by done. destruct (decide (p = l)) as [->|].
        * rewrite !list_lookup_alter. by destruct (left_h c oc (heap s) !! l).
        * by rewrite !list_lookup_alter_ne by done.
    - intros l. rewrite !exists_in_lt. unfold hA, attach_h. by rewrite !alter_length.
    - intros l. unfold clocked, hA, attach_h. destruct (decide (c = l)) as [->|].
      + rewrite !list_lookup_alter, !list_lookup_alter_ne by done. done.
      + rewrite !(list_lookup_alter_ne (att_c p op)) by done. destruct (decide (p = l)) as [->|].
        * rewrite !list_lookup_alter. destruct (left_h c oc (heap s) !! l); simpl; [|done]. intros H o1 [= <-] Hk.
          by apply (H _ eq_refl).
        * by rewrite !list_lookup_alter_ne by done. }
  pose proof (touchw_heq _ _ _ T8) as Hq8. rewrite set_heap_heap in Hq8.
  assert (Hex : forall x, exists_in hA x <-> exists_in (heap s) x).
  { intros x. rewrite !exists_in_lt. unfold hA, attach_h, left_h.
    destruct (o_parent oc); unfold detach_h; by rewrite !alter_length. }
  destruct (update_subtree_ok s8 c) as (T & s9 & E9 & T9 & HT).
  { by eapply forest_heq. }
  { apply (heq_exists hA (heap s8)); [done|]. apply Hex. by exists oc. }
  exists T, s9. split; [by rewrite E8|].
  assert (HT' : forall x, exists_in (heap s) x -> x ∈ T <-> within hA c x).
  { intros x Hx. rewrite HT.
    - symmetry. by apply heq_within.
    - apply (heq_exists hA (heap s8)); [done|]. by apply Hex. }
  split; [|done].
  eapply touchw_touch; [exact T8|exact T9|]. simpl. intros l Hl Hin.
  apply elem_of_list_singleton in Hin as ->. apply HT'; [by exists oc|]. by left.
Qed.
