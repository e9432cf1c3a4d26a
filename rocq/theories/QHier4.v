(** * C15 - C20: edges, ports, relations, time stamps *)
From Coq Require Import Sorting.Sorted.
From stdpp Require Import relations sorting.
From Verif Require Import Spec Hierarchy Elements Factory History PDict PPath PExec PBfs PWF PAdd PMono PStep PRemove PReach PPrim PHist QHier QHier2 QHier3.

(** ** C14: what is known stays known *)
Lemma history_mono g s s' : history g s s' -> mono s s'.
Proof.
  induction 1 as [|s1 o H IH Ha Ho]; [apply mono_refl|]. eapply mono_trans; [exact IH|]. apply pres_exec.
Qed.
Lemma q_C14_known_forever s s' p n : history MAny s s' -> known (heap s) p n -> known (heap s') p n.
Proof.
  intros H Hk. pose proof (history_mono _ _ _ H) as Hm. unfold known in *. destruct (heap s !! p) as [o|] eqn:E; [|done].
  destruct (m_obj _ _ Hm p o E) as (o' & -> & M). by apply (om_index _ _ _ _ M).
Qed.

(** ** C15 *)
Lemma idx_nil_parent p n h l : parent_of (idx_nil p n h) l = parent_of h l.
Proof.
  unfold idx_nil, parent_of. destruct (decide (p = l)) as [->|]; [|by rewrite list_lookup_alter_ne].
  rewrite list_lookup_alter. by destruct (h !! l).
Qed.
Lemma idx_nil_children p n h l : children (idx_nil p n h) l = children h l.
Proof.
  unfold idx_nil, children. destruct (decide (p = l)) as [->|]; [|by rewrite list_lookup_alter_ne].
  rewrite list_lookup_alter. by destruct (h !! l).
Qed.
Lemma idx_nil_attr {A} (f : obj -> A) p n h l : (forall i o, f (s_index i o) = f o) ->
  f <$> idx_nil p n h !! l = f <$> h !! l.
Proof.
  intros Hf. unfold idx_nil. destruct (decide (p = l)) as [->|]; [|by rewrite list_lookup_alter_ne].
  rewrite list_lookup_alter. destruct (h !! l); simpl; [by rewrite Hf|done].
Qed.

(** The first element yielded by HierarchicalElement.remove_element. *)
Lemma base_first s p op nm u c rest : WF0 (heap s) -> heap s !! p = Some op ->
  filter (matches (heap s) nm u) (children (heap s) p) = c :: rest -> ~ (nm = "" /\ u = None) ->
  exists oc g s1 h1, heap s !! c = Some oc /\ o_parent oc = Some p /\ c <> p /\
    base_next (GNew p nm u) s = (Ok (Some c, g), s1) /\ heq h1 (heap s1) /\
    (h1 = detach_h p c oc (heap s) \/ h1 = idx_nil p nm (detach_h p c oc (heap s))).
Proof.
  intros W Hp Hvs Hargs.
  assert (Hc : matches (heap s) nm u c /\ c ∈ children (heap s) p).
  { apply (elem_of_list_filter (matches (heap s) nm u)). rewrite Hvs. left. }
  destruct Hc as [Hm Hcc]. destruct (wf0_child _ W p c Hcc) as [[oc Hoc] Hpar].
  rewrite (parent_of_lookup _ _ _ Hoc) in Hpar.
  assert (Hne : c <> p) by (intros ->; by apply (wf0_not_self _ W p oc)).
  destruct (wf0_lookup _ W c oc p op Hoc Hpar Hp) as (Hs & d & Hi & Hd). exists oc.
  destruct u as [u|].
  - assert (u = o_uuid oc) as ->.
    { destruct Hm as [_ Hu]. unfold uuid_of in Hu. rewrite Hoc in Hu. done. }
    assert (Hn : nm = "" \/ nm = o_name oc).
    { destruct Hm as [[->|H] _]; [by left|right]. unfold name_of in H. by rewrite Hoc in H. }
    destruct (remove_uuid_ok s p c op oc d c (if decide (nm = "") then None else Some nm)) as (s1 & E1 & T1); try done.
    { case_decide; [done|]. simpl. destruct Hn; done. }
    { exact (wf_clk _ W c). }
    exists GEnd, s1, (detach_h p c oc (heap s)). repeat (split; [done|]). split.
    { cbn [base_next]. case_decide; by rewrite (bind_ok _ _ _ _ _ E1). }
    split; [exact (touch_heq _ _ _ T1)|by left].
  - assert (Hn : nm <> "") by (intros ->; by apply Hargs).
    assert (Hnm : o_name oc = nm).
    { destruct Hm as [[?|H] _]; [done|]. unfold name_of in H. by rewrite Hoc in H. }
    assert (Hvals : dvals d = c :: rest).
    { pose proof (dvals_filter_name _ p op nm W Hp) as Hx. subst nm. rewrite Hi in Hx. cbn [default id] in Hx.
      rewrite Hx, <- Hvs. apply filter_ext_in. intros x Hx2. unfold matches. naive_solver. }
    set (s0 := set_heap (idx_nil p nm (heap s)) s).
    destruct (remove_one_ok p nm [] s s0 (heap s) c op oc) as (s1 & E1 & T1 & _); try done.
    { apply touchw_refl. }
    exists (GLoop p rest), s1, (idx_nil p nm (detach_h p c oc (heap s))). repeat (split; [done|]). split.
    { cbn [base_next]. rewrite decide_False by done. rewrite (bind_ok _ _ _ _ _ (deref_ok _ _ _ Hp)).
      subst nm. rewrite Hi. cbn [of_opt]. rewrite (bind_ok (ret d) _ s d s) by done.
      rewrite (bind_ok _ _ _ _ _ (upd_ok _ _ _ _ Hp)). fold (idx_nil p (o_name oc) (heap s)). fold s0. rewrite Hvals.
      by rewrite (bind_ok _ _ _ _ _ E1). }
    split; [exact (touchw_heq _ _ _ T1)|by right].
Qed.

Lemma q_C15_never s e oe nm u l s' : heap s !! e = Some oe -> o_kind oe = KEdge ->
  remove_all e nm u s = (Ok l, s') -> l = [].
Proof.
  intros He Hk. unfold remove_all, gen_next. unfold bind at 1. unfold bind at 1. rewrite (deref_ok _ _ _ He), Hk.
  unfold edge_next. unfold bind at 1. destruct (base_next (GNew e nm u) s) as [[[[v|] g]|ex] s1]; cbn; [|by intros [= <- _]|done].
  unfold bind at 1. destruct (deref e s1) as [[op|ex] s2]; [|done]. destruct (o_ready op); [|done].
  unfold bind at 1. destruct (deref v s2) as [[ov|ex] s3]; [|done].
  unfold bind at 1. destruct (of_opt KeyError _ s3) as [[x|ex] s4]; [|done].
  unfold bind at 1. destruct (upd e _ s4) as [[x'|ex] s5]; done.
Qed.

Definition edge_error (oe oc : obj) : exn :=
  if o_ready oe then match o_kind oc with KRel => TypeError | _ => KeyError end else AttributeError.

Lemma rels_get h e oe c oc : WF0 h -> h !! e = Some oe -> o_kind oe = KEdge -> o_ready oe = true ->
  h !! c = Some oc -> o_parent oc = Some e ->
  dget (o_cid oc) (o_rels oe) = match o_kind oc with KRel => Some c | _ => None end.
Proof.
  intros W He Hk Hr Hc Hpar. rewrite (wf_rels _ W e oe He Hk Hr).
  pose proof (wf_cid _ W e oe He) as Hs. destruct (wf_par _ W c oc e Hc Hpar) as (oe' & He' & Hin). assert (oe' = oe) as -> by congruence.
  assert (Hcv : c ∈ dvals (o_subs oe)) by (apply elem_of_list_fmap; by exists (o_uuid oc, c)).
  assert (Hcid : cid_of h c = o_cid oc) by (unfold cid_of; by rewrite Hc).
  assert (Hinj : forall x y, x ∈ dvals (o_subs oe) -> y ∈ dvals (o_subs oe) -> cid_of h x = cid_of h y -> x = y).
  { clear -Hs. revert Hs. generalize (dvals (o_subs oe)) as l. induction l as [|a l IH]; intros Hs x y Hx Hy Hxy; [inversion Hx|].
    simpl in Hs. apply StronglySorted_inv in Hs as [Hs1 Hs2]. rewrite Forall_app in Hs2. destruct Hs2 as [Hs2 _].
    assert (Hlt : forall z, z ∈ l -> cid_of h a < cid_of h z).
    { intros z Hz. rewrite Forall_forall in Hs2. apply Hs2. apply elem_of_list_fmap. by exists z. }
    apply elem_of_cons in Hx as [->|Hx]; apply elem_of_cons in Hy as [->|Hy]; try done.
    - specialize (Hlt y Hy). lia. - specialize (Hlt x Hx). lia. - by apply IH. }
  revert Hcv Hinj. generalize (dvals (o_subs oe)) as l. intros l Hcv Hinj.
  assert (Hrel : is_rel h c <-> o_kind oc = KRel).
  { unfold is_rel, kind_of. rewrite Hc. simpl. split; congruence. }
  assert (Hgen : (o_kind oc = KRel -> dget (o_cid oc) (map (fun c => (cid_of h c, c)) (filter (is_rel h) l)) = Some c) /\
                 (o_kind oc <> KRel -> dget (o_cid oc) (map (fun c => (cid_of h c, c)) (filter (is_rel h) l)) = None)).
  { split.
    - intros Hkc. apply Hrel in Hkc. clear -Hcv Hinj Hkc Hcid. revert Hcv Hinj. induction l as [|a l IH]; intros Hcv Hinj; [inversion Hcv|].
      rewrite filter_cons. destruct (decide (is_rel h a)) as [Ha|Ha].
      + cbn [map dget]. case_decide as E.
        * f_equal. symmetry. apply Hinj; [done|left|congruence].
        * apply IH; [|intros; apply Hinj; try (by right); done].
          apply elem_of_cons in Hcv as [->|?]; [congruence|done].
      + apply IH; [|intros; apply Hinj; try (by right); done]. apply elem_of_cons in Hcv as [->|?]; [done|done].
    - intros Hkc. apply dget_None. unfold dkeys. rewrite map_map. intros Hx. apply elem_of_list_fmap in Hx as (x & Hx1 & Hx2).
      simpl in Hx1. apply elem_of_list_filter in Hx2 as [Hx2 Hx3]. assert (x = c) as -> by (apply Hinj; congruence). tauto. }
  destruct Hgen as [H1 H2]. destruct (o_kind oc); try (by apply H2); by apply H1.
Qed.

Lemma detach_rels p c oc h l : o_rels <$> detach_h p c oc h !! l = o_rels <$> h !! l.
Proof.
  unfold detach_h. destruct (decide (c = l)) as [->|].
  - rewrite list_lookup_alter. destruct (decide (p = l)) as [->|].
    + rewrite list_lookup_alter. by destruct (h !! l).
    + rewrite list_lookup_alter_ne by done. by destruct (h !! l).
  - rewrite list_lookup_alter_ne by done. destruct (decide (p = l)) as [->|].
    + rewrite list_lookup_alter. by destruct (h !! l).
    + by rewrite list_lookup_alter_ne.
Qed.

Lemma detach_attr {A} (f : obj -> A) p c oc h l : (forall o, f (s_parent None o) = f o) -> (forall o, f (det_p oc o) = f o) ->
  f <$> detach_h p c oc h !! l = f <$> h !! l.
Proof.
  intros H1 H2. unfold detach_h. destruct (decide (c = l)) as [->|].
  - rewrite list_lookup_alter. destruct (decide (p = l)) as [->|].
    + rewrite list_lookup_alter. destruct (h !! l); simpl; [by rewrite H1, H2|done].
    + rewrite list_lookup_alter_ne by done. destruct (h !! l); simpl; [by rewrite H1|done].
  - rewrite list_lookup_alter_ne by done. destruct (decide (p = l)) as [->|].
    + rewrite list_lookup_alter. destruct (h !! l); simpl; [by rewrite H2|done].
    + by rewrite list_lookup_alter_ne.
Qed.

(** The generator of an edge raises after the first match was detached. *)
Lemma edge_next_raises s e oe nm u c oc g s1 h1 h : heap s !! e = Some oe -> heap s !! c = Some oc ->
  WF0 h -> o_kind oe = KEdge -> c <> e ->
  dget (o_cid oc) (o_rels oe) = match o_kind oc with KRel => Some c | _ => None end ->
  base_next (GNew e nm u) s = (Ok (Some c, g), s1) -> heq h1 (heap s1) ->
  (h1 = detach_h e c oc (heap s) \/ h1 = idx_nil e nm (detach_h e c oc (heap s))) ->
  exists s', gen_next (GNew e nm u) s = (Exn (edge_error oe oc), s') /\
    (forall l, parent_of (heap s') l = parent_of h1 l) /\ (forall l, children (heap s') l = children h1 l).
Proof.
  intros He Hc _ Hk Hne Hget E1 Hq Hh1.
  assert (Ha : forall {A} (f : obj -> A) l, (forall o, f (bare o) = f o) -> (forall o, f (s_parent None o) = f o) -> (forall o, f (det_p oc o) = f o) ->
    (forall i o, f (s_index i o) = f o) -> f <$> heap s1 !! l = f <$> heap s !! l).
  { intros A f l F1 F2 F3 F4. rewrite (heq_attr f h1 (heap s1) l F1 Hq). destruct Hh1 as [-> | ->].
    - by apply detach_attr. - rewrite idx_nil_attr by done. by apply detach_attr. }
  assert (He1 : exists oe1, heap s1 !! e = Some oe1 /\ o_ready oe1 = o_ready oe /\ o_rels oe1 = o_rels oe).
  { pose proof (Ha _ o_ready e (fun _ => eq_refl) (fun _ => eq_refl) (fun _ => eq_refl) (fun _ _ => eq_refl)) as A1.
    pose proof (Ha _ o_rels e (fun _ => eq_refl) (fun _ => eq_refl) (fun _ => eq_refl) (fun _ _ => eq_refl)) as A2.
    rewrite He in A1, A2. destruct (heap s1 !! e) as [oe1|]; [|done]. exists oe1. split; [done|]. simpl in *. split; congruence. }
  destruct He1 as (oe1 & He1 & Hr1 & Hrl1).
  assert (Hc1 : exists oc1, heap s1 !! c = Some oc1 /\ o_cid oc1 = o_cid oc).
  { pose proof (Ha _ o_cid c (fun _ => eq_refl) (fun _ => eq_refl) (fun _ => eq_refl) (fun _ _ => eq_refl)) as A1.
    rewrite Hc in A1. destruct (heap s1 !! c) as [oc1|]; [|done]. exists oc1. split; [done|]. simpl in *. congruence. }
  destruct Hc1 as (oc1 & Hc1 & Hcid1).
  unfold gen_next. unfold bind at 1. rewrite (deref_ok _ _ _ He), Hk. unfold edge_next.
  rewrite (bind_ok _ _ _ _ _ E1). cbn [fst snd]. rewrite (bind_ok _ _ _ _ _ (deref_ok _ _ _ He1)). rewrite Hr1. unfold edge_error.
  destruct (o_ready oe).
  2:{ exists s1. split; [done|]. split; intros l; [by rewrite (heq_parent _ _ l Hq)|by rewrite (heq_children _ _ l Hq)]. }
  rewrite (bind_ok _ _ _ _ _ (deref_ok _ _ _ Hc1)). rewrite Hrl1, Hcid1, Hget.
  destruct (o_kind oc); cbn [of_opt]; try (exists s1; split; [done|]; split; intros l; [by rewrite (heq_parent _ _ l Hq)|by rewrite (heq_children _ _ l Hq)]).
  rewrite (bind_ok (ret c) _ s1 c s1) by done. rewrite (bind_ok _ _ _ _ _ (upd_ok _ _ _ _ He1)).
  eexists. split; [reflexivity|]. cbn [heap set_heap]. split; intros l.
  - rewrite <- (heq_parent _ _ l Hq). unfold parent_of. destruct (decide (e = l)) as [->|].
    + rewrite list_lookup_alter. by destruct (heap s1 !! l). + by rewrite list_lookup_alter_ne.
  - rewrite <- (heq_children _ _ l Hq). unfold children. destruct (decide (e = l)) as [->|].
    + rewrite list_lookup_alter. by destruct (heap s1 !! l). + by rewrite list_lookup_alter_ne.
Qed.

Lemma q_C15 s e oe nm u c rest : reach s -> heap s !! e = Some oe -> o_kind oe = KEdge ->
  filter (matches (heap s) nm u) (children (heap s) e) = c :: rest -> ~ (nm = "" /\ u = None) ->
  exists oc ex s', heap s !! c = Some oc /\ remove_all e nm u s = (Exn ex, s') /\
    ex = (if o_ready oe then match o_kind oc with KRel => TypeError | _ => KeyError end else AttributeError) /\
    parent_of (heap s') c = None /\
    children (heap s') e = filter (fun x => x <> c) (children (heap s) e) /\
    (forall l, l <> c -> parent_of (heap s') l = parent_of (heap s) l) /\
    (forall l, l <> e -> children (heap s') l = children (heap s) l).
Proof.
  intros R He Hk Hvs Hargs. pose proof (reach_wf s R) as W.
  destruct (base_first s e oe nm u c rest W He Hvs Hargs) as (oc & g & s1 & h1 & Hc & Hpar & Hne & E1 & Hq & Hh1).
  assert (Hx : o_ready oe = false \/ dget (o_cid oc) (o_rels oe) = match o_kind oc with KRel => Some c | _ => None end).
  { destruct (o_ready oe) eqn:Er; [right|by left]. by apply (rels_get (heap s) e). }
  assert (E : exists s', gen_next (GNew e nm u) s = (Exn (edge_error oe oc), s') /\
    (forall l, parent_of (heap s') l = parent_of h1 l) /\ (forall l, children (heap s') l = children h1 l)).
  { destruct Hx as [Hr|Hget]; [|by eapply edge_next_raises].
    exists s1. split.
    - unfold gen_next. unfold bind at 1. rewrite (deref_ok _ _ _ He), Hk. unfold edge_next. rewrite (bind_ok _ _ _ _ _ E1). cbn [fst snd].
      assert (He1 : exists oe1, heap s1 !! e = Some oe1 /\ o_ready oe1 = o_ready oe).
      { pose proof (heq_attr o_ready h1 (heap s1) e (fun _ => eq_refl) Hq) as A1.
        assert (A2 : o_ready <$> h1 !! e = o_ready <$> heap s !! e).
        { destruct Hh1 as [-> | ->]; [|rewrite idx_nil_attr by done]; by apply detach_attr. }
        rewrite A2, He in A1. destruct (heap s1 !! e) as [o|]; [|done]. exists o. split; [done|]. simpl in A1. congruence. }
      destruct He1 as (oe1 & He1 & Hr1). rewrite (bind_ok _ _ _ _ _ (deref_ok _ _ _ He1)). rewrite Hr1, Hr. unfold edge_error. by rewrite Hr.
    - split; intros l; [by rewrite (heq_parent _ _ l Hq)|by rewrite (heq_children _ _ l Hq)]. }
  destruct E as (s' & E & Hp' & Hc'). exists oc, (edge_error oe oc), s'. split; [done|]. split.
  { unfold remove_all. by rewrite (bind_exn _ _ _ _ _ E). }
  split; [done|].
  assert (Hp1 : forall l, parent_of h1 l = parent_of (detach_h e c oc (heap s)) l).
  { intros l. destruct Hh1 as [-> | ->]; [done|apply idx_nil_parent]. }
  assert (Hc1 : forall l, children h1 l = children (detach_h e c oc (heap s)) l).
  { intros l. destruct Hh1 as [-> | ->]; [done|apply idx_nil_children]. }
  split. { rewrite Hp', Hp1. unfold parent_of, detach_h. rewrite list_lookup_alter, list_lookup_alter_ne by done. by rewrite Hc. }
  split. { rewrite Hc', Hc1. unfold children at 1, detach_h. rewrite list_lookup_alter_ne by done. rewrite list_lookup_alter, He. simpl.
    by apply (ddel_filter (heap s) e oe c oc). }
  split.
  - intros l Hl. rewrite Hp', Hp1. unfold parent_of, detach_h. rewrite list_lookup_alter_ne by done.
    destruct (decide (e = l)) as [->|]; [|by rewrite list_lookup_alter_ne]. rewrite list_lookup_alter. by destruct (heap s !! l).
  - intros l Hl. rewrite Hc', Hc1. unfold children, detach_h.
    destruct (decide (c = l)) as [->|].
    + rewrite list_lookup_alter, list_lookup_alter_ne by done. by destruct (heap s !! l).
    + by rewrite !list_lookup_alter_ne.
Qed.

(** Moving out of an edge. *)
Lemma q_C15_move s p c e op oc oe : reach s -> heap s !! p = Some op -> heap s !! c = Some oc -> heap s !! e = Some oe ->
  parent_of (heap s) c = Some e -> o_kind oe = KEdge -> c <> p -> p <> e ->
  (forall x, x ∈ children (heap s) p -> uuid_of (heap s) x <> o_uuid oc) ->
  exists ex s', add_element p c s = (Exn ex, s') /\
    (ex = KeyError \/ ex = TypeError \/ (ex = AttributeError /\ o_ready oe = false)) /\
    children (heap s') p = children (heap s) p ++ [c] /\
    parent_of (heap s') c = None /\
    children (heap s') e = filter (fun x => x <> c) (children (heap s) e).
Proof.
  intros R Hp Hc He Hpar Hk Hne Hpe Hu. pose proof (reach_wf s R) as W. rewrite (parent_of_lookup _ _ _ Hc) in Hpar.
  assert (Hnew : dget (o_uuid oc) (o_subs op) = None).
  { apply dget_None. intros Hin. apply elem_of_list_fmap in Hin as [[u x] [Heq Hin]]. simpl in Heq. subst u.
    destruct (wf_sub _ W p op _ x Hp Hin) as (ox & Hx & Hux & _). apply (Hu x).
    - unfold children. rewrite Hp. apply elem_of_list_fmap. by exists (o_uuid oc, x).
    - unfold uuid_of. rewrite Hx. done. }
  assert (Hce : c <> e) by (intros ->; by apply (wf0_not_self _ W e oc)).
  destruct (wf0_lookup _ W c oc e oe Hc Hpar He) as (Hs & d & Hi & Hd).
  set (f1 := fun o => s_subs (dset (o_uuid oc) c (o_subs o)) o).
  set (f2 := fun o => s_index (dset (o_name oc) (dset (o_uuid oc) c (default [] (dget (o_name oc) (o_index o)))) (o_index o)) o).
  set (s1 := set_heap (alter f1 p (heap s)) s).
  set (s2 := set_heap (alter f2 p (heap s1)) s1).
  set (oc3 := s_cid (o_hist op) oc).
  set (s3 := set_heap (alter (s_cid (o_hist op)) c (heap s2)) s2).
  assert (Hp1 : heap s1 !! p = Some (f1 op)) by (unfold s1; simpl; by rewrite list_lookup_alter, Hp).
  assert (Hp2 : heap s2 !! p = Some (f2 (f1 op))) by (unfold s2; cbn [heap set_heap]; by rewrite list_lookup_alter, Hp1).
  assert (Hc2 : heap s2 !! c = Some oc) by (unfold s2, s1; simpl; by rewrite !list_lookup_alter_ne by done).
  assert (Hc3 : heap s3 !! c = Some oc3) by (unfold s3; cbn [heap set_heap]; by rewrite list_lookup_alter, Hc2).
  assert (He3 : heap s3 !! e = Some oe) by (unfold s3, s2, s1; simpl; by rewrite !list_lookup_alter_ne by done).
  assert (Hp3 : heap s3 !! p = Some (f2 (f1 op))) by (unfold s3; cbn [heap set_heap]; by rewrite list_lookup_alter_ne).
  destruct (remove_uuid_ok s3 e c oe oc3 d c None He3 Hc3 Hce) as (s4 & E4 & T4); try done.
  { intros o Ho Hko. rewrite Hc3 in Ho. injection Ho as <-. exact (wf_clk _ W c oc Hc Hko). }
  pose proof (touch_heq _ _ _ T4) as Hq. cbn [heap set_heap] in Hq.
  assert (Eb : base_next (GNew e "" (Some (o_uuid oc))) s3 = (Ok (Some c, GEnd), s4)).
  { cbn [base_next]. rewrite decide_True by done. by rewrite (bind_ok _ _ _ _ _ E4). }
  assert (He4 : exists oe4, heap s4 !! e = Some oe4 /\ o_ready oe4 = o_ready oe).
  { pose proof (heq_attr o_ready _ _ e (fun _ => eq_refl) Hq) as A1.
    rewrite (detach_attr o_ready e c oc3 (heap s3) e (fun _ => eq_refl) (fun _ => eq_refl)), He3 in A1.
    destruct (heap s4 !! e) as [o|]; [|done]. exists o. split; [done|]. simpl in A1. congruence. }
  destruct He4 as (oe4 & He4 & Hr4).
  assert (Hc4 : exists oc4, heap s4 !! c = Some oc4).
  { pose proof (heq_attr o_ready _ _ c (fun _ => eq_refl) Hq) as A1.
    rewrite (detach_attr o_ready e c oc3 (heap s3) c (fun _ => eq_refl) (fun _ => eq_refl)), Hc3 in A1.
    destruct (heap s4 !! c) as [o|]; [|done]. by exists o. }
  destruct Hc4 as (oc4 & Hc4).
  assert (G : exists ex s5, gen_next (GNew e "" (Some (o_uuid oc))) s3 = (Exn ex, s5) /\
     (ex = KeyError \/ ex = TypeError \/ (ex = AttributeError /\ o_ready oe = false)) /\
     (forall l, parent_of (heap s5) l = parent_of (heap s4) l) /\ (forall l, children (heap s5) l = children (heap s4) l)).
  { unfold gen_next. unfold bind at 1. rewrite (deref_ok _ _ _ He3), Hk. unfold edge_next.
    rewrite (bind_ok _ _ _ _ _ Eb). cbn [fst snd]. rewrite (bind_ok _ _ _ _ _ (deref_ok _ _ _ He4)). rewrite Hr4.
    destruct (o_ready oe) eqn:Er.
    2:{ exists AttributeError, s4. split; [done|]. split; [|done]. right; right; done. }
    rewrite (bind_ok _ _ _ _ _ (deref_ok _ _ _ Hc4)).
    destruct (dget (o_cid oc4) (o_rels oe4)) as [r|]; cbn [of_opt].
    2:{ exists KeyError, s4. split; [done|]. split; [|done]. by left. }
    rewrite (bind_ok (ret r) _ s4 r s4) by done. rewrite (bind_ok _ _ _ _ _ (upd_ok _ _ _ _ He4)).
    eexists TypeError, _. split; [reflexivity|]. split; [right; by left|]. cbn [heap set_heap]. split; intros l.
    - unfold parent_of. destruct (decide (e = l)) as [->|].
      + rewrite list_lookup_alter. by destruct (heap s4 !! l). + by rewrite list_lookup_alter_ne.
    - unfold children. destruct (decide (e = l)) as [->|].
      + rewrite list_lookup_alter. by destruct (heap s4 !! l). + by rewrite list_lookup_alter_ne. }
  destruct G as (ex & s5 & G & Hex & Hp5 & Hc5).
  assert (Eb2 : add_base p c s = (Exn ex, s5)).
  { unfold add_base. rewrite decide_False by done.
    rewrite (bind_ok _ _ _ _ _ (deref_ok _ _ _ Hc)). rewrite (bind_ok _ _ _ _ _ (deref_ok _ _ _ Hp)). rewrite Hnew.
    rewrite (bind_ok _ _ _ _ _ (upd_ok _ _ _ _ Hp)). fold f1. fold s1.
    rewrite decide_False by congruence.
    rewrite (bind_ok _ _ _ _ _ (upd_ok _ _ _ _ Hp1)). fold f2. fold s2.
    rewrite (bind_ok _ _ _ _ _ (deref_ok _ _ _ Hp2)). change (o_hist (f2 (f1 op))) with (o_hist op).
    rewrite (bind_ok _ _ _ _ _ (upd_ok _ _ _ _ Hc2)). fold s3. rewrite Hpar.
    assert (F : for_gen update (GNew e "" (Some (o_uuid oc))) s3 = (Exn ex, s5)).
    { unfold for_gen. by rewrite (bind_exn _ _ _ _ _ G). }
    by rewrite (bind_exn _ _ _ _ _ F). }
  exists ex, s5. split.
  { unfold add_element. rewrite (bind_ok _ _ _ _ _ (deref_ok _ _ _ Hp)). destruct (o_kind op); try exact Eb2; by rewrite (bind_exn _ _ _ _ _ Eb2). }
  split; [done|]. rewrite Hp5, !Hc5, (heq_parent _ _ c Hq), !(heq_children _ _ _ Hq). split; [|split].
  - unfold children at 1, detach_h. rewrite !list_lookup_alter_ne by done. rewrite Hp3. unfold f2, f1. simpl.
    rewrite (dset_new _ _ _ Hnew). unfold children. rewrite Hp, map_app. done.
  - unfold parent_of, detach_h. rewrite list_lookup_alter, list_lookup_alter_ne by done. by rewrite Hc3.
  - unfold children at 1, detach_h. rewrite list_lookup_alter_ne by done. rewrite list_lookup_alter, He3. simpl.
    by apply (ddel_filter (heap s) e oe c oc).
Qed.

(** ** C16 *)
Lemma q_C16_structure s x r : let s' := snd (disconnect x r s) in
  forall l, children (heap s') l = children (heap s) l /\ parent_of (heap s') l = parent_of (heap s) l.
Proof.
  destruct (heap s !! x) as [ox|] eqn:Ex.
  2:{ assert (E : disconnect x r s = (Exn BadRef, s)); [|by rewrite E].
      unfold disconnect, deref. unfold bind at 1. by rewrite Ex. }
  destruct (heap s !! r) as [oe|] eqn:Er.
  2:{ assert (E : disconnect x r s = (Exn BadRef, s)); [|by rewrite E].
      unfold disconnect. rewrite (bind_ok _ _ _ _ _ (deref_ok _ _ _ Ex)). unfold deref, bind. by rewrite Er. }
  unfold disconnect. rewrite (bind_ok _ _ _ _ _ (deref_ok _ _ _ Ex)), (bind_ok _ _ _ _ _ (deref_ok _ _ _ Er)).
  destruct (is_hyperelement (o_kind ox) && o_ready ox); [|done]. destruct (dget (o_uuid oe) (o_ports ox)) as [v|]; [|done].
  cbn [of_opt]. rewrite (bind_ok (ret v) _ s v s) by done. rewrite (upd_ok _ _ _ _ Ex).
  cbn. intros l. unfold children, parent_of.
  destruct (decide (x = l)) as [->|]; [|by rewrite !list_lookup_alter_ne by done].
  rewrite !list_lookup_alter. destruct (heap s !! l); done.
Qed.

Lemma q_C16 s x r ox s1 : reach s -> heap s !! x = Some ox -> exists_in (heap s) r ->
  connect x r s = (Ok tt, s1) ->
  exists pt s2 s3, children (heap s1) x = children (heap s) x ++ [pt] /\ kind_of (heap s1) pt = Some KPort /\
    attr_of o_endpoint (heap s1) pt = Some (Some r) /\
    disconnect x r s1 = (Ok tt, s2) /\
    (forall l, children (heap s2) l = children (heap s1) l) /\
    connect x r s2 = (Exn ErrorDuplicateElement, s3).
Proof.
  intros R Hx [oe Hr] E. pose proof (reach_wf s R) as W.
  destruct (connect_cases s x r ox oe W Hx Hr) as [[_ E']|(Hg & [[_ E']|(Hn & T & s' & E' & TT & HT)])]; [congruence|congruence|].
  rewrite E in E'. injection E' as <-.
  set (u := sha s (elem_id_text (o_name ox) (o_name oe))) in *. set (pn := port_name (o_name ox) (o_name oe)) in *.
  set (h1 := pre_port x oe (port_obj u pn r) (heap s)) in *.
  set (ox1 := s_ports (dset (o_uuid oe) (length (heap s)) (o_ports ox)) ox) in *. set (pt := length (heap s)) in *.
  assert (Hxl : x < length (heap s)) by (by apply lookup_lt_Some in Hx).
  assert (Hx1 : h1 !! x = Some ox1).
  { unfold h1, pre_port. simpl. rewrite list_lookup_alter, lookup_app_l by done. by rewrite Hx. }
  assert (Hpt : h1 !! pt = Some (port_obj u pn r)) by (apply pre_port_at; by exists ox).
  assert (W1 : WF0 h1). { apply pre_port_wf; [done|by exists oe]. }
  pose proof (touch_heq _ _ _ TT) as Hq. cbn [heap set_heap] in Hq.
  assert (Hne : pt <> x) by (unfold pt; lia).
  assert (Hax : added x pt ox1 (port_obj u pn r) false h1 !! x = Some (att_p pt (port_obj u pn r) false ox1)) by (by apply added_at_p).
  destruct (heq_lookup _ _ x _ Hq Hax) as (ox2 & Hx2 & Hb2).
  assert (Hac : added x pt ox1 (port_obj u pn r) false h1 !! pt = Some (att_c x ox1 (s_parent None (port_obj u pn r)))) by (by apply added_at_c).
  destruct (heq_lookup _ _ pt _ Hq Hac) as (opt & Hopt & Hbp).
  pose proof (pres_connect x r s) as Hm. rewrite E in Hm. cbn [snd] in Hm.
  destruct (m_obj _ _ Hm r oe Hr) as (oe2 & Hr2 & Mr).
  pose proof (om_uuid _ _ _ _ Mr) as Hue. pose proof (om_name _ _ _ _ Mr) as Hne2.
  assert (Fk : o_kind ox2 = o_kind ox) by (change (o_kind ox2) with (o_kind (bare ox2)); by rewrite Hb2).
  assert (Fr : o_ready ox2 = o_ready ox) by (change (o_ready ox2) with (o_ready (bare ox2)); by rewrite Hb2).
  assert (Fn : o_name ox2 = o_name ox) by (change (o_name ox2) with (o_name (bare ox2)); by rewrite Hb2).
  assert (Fp : o_ports ox2 = dset (o_uuid oe) pt (o_ports ox)) by (change (o_ports ox2) with (o_ports (bare ox2)); by rewrite Hb2).
  assert (Fs : o_subs ox2 = o_subs ox ++ [(u, pt)]) by (change (o_subs ox2) with (o_subs (bare ox2)); by rewrite Hb2).
  exists pt.
  set (s2 := set_heap (alter (fun o => s_ports (ddel (o_uuid oe2) (o_ports o)) o) x (heap s1)) s1).
  assert (Ed : disconnect x r s1 = (Ok tt, s2)).
  { unfold disconnect. rewrite (bind_ok _ _ _ _ _ (deref_ok _ _ _ Hx2)). rewrite (bind_ok _ _ _ _ _ (deref_ok _ _ _ Hr2)).
    rewrite Fk, Fr, Hg, Fp, Hue, dget_dset, decide_True by done. cbn [of_opt].
    rewrite (bind_ok (ret pt) _ s1 pt s1) by done. rewrite (upd_ok _ _ _ _ Hx2). unfold s2. by rewrite Hue. }
  assert (Hx3 : heap s2 !! x = Some (s_ports (ddel (o_uuid oe2) (o_ports ox2)) ox2)).
  { unfold s2. cbn [heap set_heap]. by rewrite list_lookup_alter, Hx2. }
  assert (Hr3 : exists oe3, heap s2 !! r = Some oe3 /\ o_name oe3 = o_name oe).
  { unfold s2. cbn [heap set_heap]. destruct (decide (x = r)) as [->|].
    - rewrite list_lookup_alter, Hr2. eexists. split; [done|]. done.
    - rewrite list_lookup_alter_ne by done. by exists oe2. }
  destruct Hr3 as (oe3 & Hr3 & Hn3).
  assert (Hgx : is_hyperelement (o_kind ox2) && o_ready ox2 = true) by by rewrite Fk, Fr.
  unfold connect at 1.
  assert (Ec : exists s3, connect x r s2 = (Exn ErrorDuplicateElement, s3)).
  { unfold connect. rewrite (bind_ok _ _ _ _ _ (deref_ok _ _ _ Hx3)). rewrite (bind_ok _ _ _ _ _ (deref_ok _ _ _ Hr3)).
    cbn [o_kind o_ready o_name s_ports]. rewrite Hgx. unfold hash. unfold bind at 1. rewrite Fn, Hn3.
    assert (Hsha : sha s2 = sha s) by (unfold s2; cbn [sha set_heap]; exact (m_sha _ _ Hm)). rewrite Hsha. fold u.
    rewrite (bind_ok _ _ _ _ _ (alloc_state _ _)). set (s3 := set_heap _ s2).
    assert (Hl3 : x < length (heap s2)) by (unfold s2; cbn [heap set_heap]; rewrite alter_length; by apply lookup_lt_Some in Hx2).
    assert (Hx4 : heap s3 !! x = heap s2 !! x) by (unfold s3; cbn [heap set_heap]; by rewrite lookup_app_l).
    rewrite Hx3 in Hx4. rewrite (bind_ok _ _ _ _ _ (upd_ok _ _ _ _ Hx4)). set (s4 := set_heap _ s3).
    assert (Hx5 : exists ox5, heap s4 !! x = Some ox5 /\ o_subs ox5 = o_subs ox2).
    { unfold s4. cbn [heap set_heap]. rewrite list_lookup_alter, Hx4. eexists. split; [done|]. done. }
    destruct Hx5 as (ox5 & Hx5 & Hs5).
    assert (Hp5 : exists op5, heap s4 !! length (heap s2) = Some op5 /\ o_uuid op5 = u).
    { unfold s4, s3. cbn [heap set_heap]. rewrite list_lookup_alter_ne by lia. rewrite lookup_app_r, Nat.sub_diag by lia. eexists. split; [done|]. done. }
    destruct Hp5 as (op5 & Hp5 & Hu5).
    exists s4. unfold add_base. rewrite decide_False by lia.
    rewrite (bind_ok _ _ _ _ _ (deref_ok _ _ _ Hp5)). rewrite (bind_ok _ _ _ _ _ (deref_ok _ _ _ Hx5)). rewrite Hu5, Hs5, Fs.
    assert (Hi : is_Some (dget u (o_subs ox ++ [(u, pt)]))).
    { apply dget_is_Some. unfold dkeys. rewrite map_app. apply elem_of_app. right. left. }
    destruct Hi as [y ->]. done. }
  destruct Ec as (s3 & Ec). exists s2, s3.
  split. { rewrite (heq_children _ _ x Hq). rewrite added_children_p by done. f_equal. unfold children. rewrite Hx1, Hx. done. }
  split. { unfold kind_of. rewrite Hopt. simpl. change (o_kind opt) with (o_kind (bare opt)). by rewrite Hbp. }
  split. { unfold attr_of. rewrite Hopt. simpl. change (o_endpoint opt) with (o_endpoint (bare opt)). by rewrite Hbp. }
  split; [done|]. split; [|done].
  intros l. pose proof (q_C16_structure s1 x r) as Hst. rewrite Ed in Hst. cbn [snd] in Hst. apply Hst.
Qed.
