(** * Every operation is a sequence of elementary changes

    Used for the properties about whole histories that are not invariants of
    one state: context ids, qualified names, depths. *)
From stdpp Require Import relations.
From Verif Require Import Spec Hierarchy Elements Factory History PDict PPath PExec PBfs PWF PAdd PMono PStep PRemove PReach.

(** The attributes that matter here. *)
Definition mcore (o : obj) : obj :=
  mkObj (o_kind o) (o_uuid o) (o_name o) "" (o_qname o) (o_parent o) (o_depth o) (o_cid o) 0%Z
        (o_hist o) (o_subs o) [] None 0%Z true [] [] None BIDIRECTIONAL WNone None [] 0 [].

Inductive prim (g : mode) : st -> st -> Prop :=
| pr_misc s s' : mcore <$> heap s = mcore <$> heap s' -> prim g s s'
| pr_alloc s s' o : heap s' = heap s ++ [o] -> o_parent o = None -> o_subs o = [] -> o_hist o = 0 ->
    o_depth o = 0 -> o_qname o = o_name o -> o_cid o = 0 -> prim g s s'
| pr_add s s' p c op oc b T : WF0 (heap s) -> add_ok (heap s) p c -> c <> p ->
    heap s !! p = Some op -> heap s !! c = Some oc -> dget (o_uuid oc) (o_subs op) = None ->
    (g = MLeaf -> o_parent oc = None /\ o_subs oc = []) ->
    touch T (set_heap (added p c op oc b (heap s)) s) s' ->
    (forall x, exists_in (heap s) x -> x ∈ T <-> within (added p c op oc b (heap s)) c x) -> prim g s s'
| pr_remove s s' p c oc : g = MAny -> heap s !! c = Some oc -> o_parent oc = Some p -> c <> p ->
    kind_of (heap s) p <> Some KEdge ->
    mcore <$> heap s' = mcore <$> alter (s_qname (o_name oc)) c (detach_h p c oc (heap s)) -> prim g s s'
| pr_update s s' l : touch [l] s s' -> prim g s s'.

Notation prims g := (rtc (prim g)).

Lemma mcore_alter f l (h : list obj) : (forall o, mcore (f o) = mcore o) -> mcore <$> h = mcore <$> alter f l h.
Proof.
  intros Hf. apply list_eq. intros i. rewrite !list_lookup_fmap. destruct (decide (l = i)) as [->|].
  - rewrite list_lookup_alter. destruct (h !! i); simpl; [by rewrite Hf|done].
  - by rewrite list_lookup_alter_ne.
Qed.
Lemma mcore_alter_cong f g l (h h' : list obj) : (forall o o', mcore o = mcore o' -> mcore (f o) = mcore (g o')) ->
  mcore <$> h = mcore <$> h' -> mcore <$> alter f l h = mcore <$> alter g l h'.
Proof.
  intros Hf H. apply list_eq. intros i. rewrite !list_lookup_fmap.
  assert (Hi : mcore <$> h !! i = mcore <$> h' !! i) by (rewrite <- !list_lookup_fmap; by rewrite H).
  destruct (decide (l = i)) as [->|].
  - rewrite !list_lookup_alter. destruct (h !! i), (h' !! i); simpl in *; try done. f_equal. apply Hf. congruence.
  - by rewrite !list_lookup_alter_ne.
Qed.

Lemma prims_upd g s l f : (forall o, mcore (f o) = mcore o) -> prims g s (snd (upd l f s)).
Proof.
  intros Hf. unfold upd. destruct (heap s !! l); [|apply rtc_refl]. simpl. apply rtc_once, pr_misc. simpl.
  by apply mcore_alter.
Qed.
Lemma prims_same g s s' : heap s = heap s' -> prims g s s'.
Proof. intros H. apply rtc_once, pr_misc. by rewrite H. Qed.

(** ** connect *)
Lemma connect_prims g s x r : WF0 (heap s) -> exists_in (heap s) x -> exists_in (heap s) r ->
  prims g s (snd (connect x r s)).
Proof.
  intros W [ox Hx] [oe Hr]. pose proof (connect_cases s x r ox oe W Hx Hr) as Hc. cbv zeta in Hc.
  set (u := sha s (elem_id_text (o_name ox) (o_name oe))) in *.
  set (pn := port_name (o_name ox) (o_name oe)) in *.
  set (h1 := pre_port x oe (port_obj u pn r) (heap s)) in *.
  set (ox1 := s_ports (dset (o_uuid oe) (length (heap s)) (o_ports ox)) ox) in *.
  assert (P1 : prims g s (set_heap h1 s)).
  { eapply rtc_l with (set_heap (heap s ++ [port_obj u pn r]) s).
    - by eapply pr_alloc.
    - apply rtc_once, pr_misc. simpl. unfold h1, pre_port. by apply mcore_alter. }
  destruct Hc as [[_ ->]|(Hg & [[_ ->]|(Hn & T & s' & -> & TT & HT)])]; simpl.
  - apply rtc_refl.
  - done.
  - eapply rtc_transitive; [exact P1|]. apply rtc_once.
    assert (Hxl : x < length (heap s)) by (by apply lookup_lt_Some in Hx).
    assert (Hpt : h1 !! length (heap s) = Some (port_obj u pn r)) by (apply pre_port_at; by eexists).
    assert (W1 : WF0 h1) by (apply pre_port_wf; [done|by eexists]).
    assert (Hx1 : h1 !! x = Some ox1).
    { unfold h1, pre_port. rewrite list_lookup_alter, lookup_app_l by done. by rewrite Hx. }
    assert (Hok : add_ok h1 x (length (heap s))).
    { split; [by eexists|]. split; [by eexists|]. split.
      - apply leaf_not_ancestor; [done|]. unfold children. by rewrite Hpt.
      - intros q Hq. unfold parent_of in Hq. rewrite Hpt in Hq. done. }
    eapply (pr_add g (set_heap h1 s) s' x (length (heap s)) ox1 (port_obj u pn r) false T); try done.
    + intros E. rewrite E in Hxl. lia.
    + simpl. intros y Hy. rewrite (HT y Hy). split; [intros ->; by left|].
      intros [->|Ha]; [done|]. exfalso. revert Ha. apply leaf_not_ancestor.
      * apply added_wf; try done. intros E. rewrite E in Hxl. lia.
      * unfold children. rewrite added_at_c; try done. intros E. rewrite E in Hxl. lia.
Qed.

(** ** add_element *)
Lemma add_base_prims g s p c : WF0 (heap s) -> add_ok (heap s) p c ->
  (g = MLeaf -> parent_of (heap s) c = None /\ children (heap s) c = []) ->
  prims g s (snd (add_base p c s)).
Proof.
  intros W Hok Hg. destruct (add_base_cases s p c W Hok) as [[-> ->]|(op & oc & Hne & Hp & Hc & [[_ ->]|(Hn & T & s' & -> & TT & HT)])];
    simpl; try apply rtc_refl.
  apply rtc_once. eapply pr_add; try done. intros E. destruct (Hg E) as [H1 H2].
  rewrite (parent_of_lookup _ _ _ Hc) in H1. unfold children in H2. rewrite Hc in H2.
  split; [done|]. by destruct (o_subs oc).
Qed.
Lemma add_element_prims g s p c : WF0 (heap s) -> add_ok (heap s) p c ->
  (g = MLeaf -> parent_of (heap s) c = None /\ children (heap s) c = []) ->
  prims g s (snd (add_element p c s)).
Proof.
  intros W Hok Hg. pose proof Hok as ([op Hp] & [oc Hc] & _).
  pose proof (add_base_prims g s p c W Hok Hg) as Pb.
  unfold add_element. rewrite (bind_ok _ _ _ _ _ (deref_ok _ _ _ Hp)).
  destruct (o_kind op) eqn:Ek; try exact Pb.
  - unfold bind at 1. destruct (add_base p c s) as [[[]|e] s1]; simpl in Pb; [|exact Pb].
    unfold bind at 1, deref at 1. destruct (heap s1 !! c) as [oc1|]; [|exact Pb].
    destruct (o_kind oc1); try exact Pb. unfold bind at 1, deref at 1. destruct (heap s1 !! p) as [op1|]; [|exact Pb].
    destruct (o_ready op1); [|exact Pb]. eapply rtc_transitive; [exact Pb|]. by apply prims_upd.
  - assert (W1 : forall s1, add_base p c s = (Ok tt, s1) -> WF0 (heap s1)).
    { intros s1 E. destruct (add_base_cases s p c W Hok) as [[-> E']|(op' & oc' & Hne & Hp' & Hc' & [[_ E']|(Hn & T & s' & E' & TT & HT)])];
        rewrite E' in E; try done. injection E as <-. eapply WF_heq; [by eapply touch_heq|]. simpl.
      apply added_wf; try done. congruence. }
    pose proof (pres_add_base p c s) as Hm.
    unfold bind at 1. destruct (add_base p c s) as [[[]|e] s1]; simpl in Pb, Hm; [|exact Pb].
    unfold bind at 1, deref at 1. destruct (heap s1 !! c) as [oc1|] eqn:Ec1; [|exact Pb].
    destruct (is_hyperelement (o_kind oc1)); [|exact Pb].
    eapply rtc_transitive; [exact Pb|]. apply connect_prims; [by apply W1|by eexists|].
    eapply mono_exists; [exact Hm|]. by eexists.
Qed.

(** ** Removal *)
Lemma touch_mcore T s s' : touch T s s' ->
  exists f : loc -> string, forall l, heap s' !! l = None /\ heap s !! l = None \/
    exists o o', heap s !! l = Some o /\ heap s' !! l = Some o' /\ mcore o' = mcore (s_qname (f l) o).
Proof.
  intros H. exists (fun l => default "" (o_qname <$> heap s' !! l)). intros l.
  destruct (heap s !! l) as [o|] eqn:E.
  - right. destruct (t_obj _ _ _ H l o E) as (q & t & H1 & _). exists o. eexists. split; [done|]. rewrite H1. done.
  - left. split; [|done]. apply lookup_ge_None in E. rewrite <- (t_len _ _ _ H) in E. by apply lookup_ge_None.
Qed.

(** A detachment followed by the update of the detached element. *)
Lemma detach_touch_prim s s' p c oc : heap s !! c = Some oc -> o_parent oc = Some p -> c <> p ->
  kind_of (heap s) p <> Some KEdge ->
  touch [c] (set_heap (detach_h p c oc (heap s)) s) s' -> prim MAny s s'.
Proof.
  intros Hc Hpar Hne Hke T. eapply pr_remove; try done.
  set (h0 := detach_h p c oc (heap s)) in *.
  assert (Hc0 : h0 !! c = Some (s_parent None oc)).
  { unfold h0, detach_h. rewrite list_lookup_alter, list_lookup_alter_ne by done. by rewrite Hc. }
  apply list_eq. intros i. rewrite !list_lookup_fmap. destruct (decide (c = i)) as [<-|Hi].
  - rewrite list_lookup_alter, Hc0. simpl.
    destruct (t_obj _ _ _ T c _ Hc0) as (q & t & H1 & _ & H3). rewrite H1. simpl.
    destruct H3 as [H3 _]; [set_solver|].
    assert (Hf : full_name h0 c (o_name oc)).
    { exists [c]. split.
      - apply path_root; [by eexists|]. by rewrite (parent_of_lookup _ _ _ Hc0).
      - assert (Hn : name_of h0 c = o_name oc) by (unfold name_of; by rewrite Hc0). cbn [map rev app join]. by rewrite Hn. }
    simpl in H3. by rewrite (full_name_det _ _ _ _ H3 Hf).
  - rewrite list_lookup_alter_ne by done. destruct (h0 !! i) as [o|] eqn:E.
    + destruct (t_obj _ _ _ T i o E) as (q & t & H1 & H2 & _). rewrite H1. simpl.
      destruct H2 as [-> ->]; [set_solver|]. done.
    + assert (E' : heap s' !! i = None); [|by rewrite E'].
      apply lookup_ge_None in E. apply lookup_ge_None. rewrite (t_len _ _ _ T). simpl. exact E.
Qed.

Lemma remove_one_prims s p v hv op ov S0 s0 nm : WF0 hv -> hv !! p = Some op -> o_kind op <> KEdge -> hv !! v = Some ov -> o_parent ov = Some p ->
    o_name ov = nm -> touchw S0 (set_heap (idx_nil p nm hv) s0) s ->
    forall s', remove_one p v s = (Ok v, s') ->
      touchw (S0 ++ [v]) (set_heap (idx_nil p nm (detach_h p v ov hv)) s0) s' ->
      attr_of o_qname (heap s') v = Some nm ->
      (forall l, l <> v -> attr_of o_qname (heap s') l = attr_of o_qname (heap s) l) -> prim MAny s s'.
Proof.
  intros W Hp Hkp Hv Hpar Hnm T0 s' E T1 Hq1 Hq2.
  assert (Hne : v <> p) by (intros ->; by apply (wf0_not_self hv W p ov)).
  assert (Hv0 : idx_nil p nm hv !! v = Some ov) by (unfold idx_nil; by rewrite list_lookup_alter_ne).
  destruct (w_obj _ _ _ T0 v ov Hv0) as (qv & tv & Hvs & _).
  eapply (pr_remove _ s s' p v _ eq_refl Hvs); [done|done| |].
  { assert (H0 : idx_nil p nm hv !! p = Some (s_index (dset nm [] (o_index op)) op)) by (unfold idx_nil; by rewrite list_lookup_alter, Hp).
    destruct (w_obj _ _ _ T0 p _ H0) as (q0 & t0 & H2 & _). unfold kind_of. rewrite H2. simpl. congruence. }
  apply list_eq. intros i. rewrite !list_lookup_fmap.
  assert (Hsame : exists P, P) by (exists True; done). clear Hsame.
  destruct (decide (v = i)) as [<-|Hi].
  - rewrite list_lookup_alter. unfold detach_h. rewrite list_lookup_alter, list_lookup_alter_ne by done. rewrite Hvs. simpl.
    assert (H1 : idx_nil p nm (detach_h p v ov hv) !! v = Some (s_parent None ov)).
    { unfold idx_nil, detach_h. rewrite list_lookup_alter_ne by done. rewrite list_lookup_alter, list_lookup_alter_ne by done.
      by rewrite Hv. }
    destruct (w_obj _ _ _ T1 v _ H1) as (q & t & H2 & _). unfold attr_of in Hq1. rewrite H2 in Hq1 |- *. simpl in *.
    injection Hq1 as ->. by rewrite Hnm.
  - rewrite list_lookup_alter_ne by done. unfold detach_h. rewrite list_lookup_alter_ne by done.
    specialize (Hq2 i (not_eq_sym Hi)). unfold attr_of in Hq2.
    destruct (decide (p = i)) as [<-|Hpi].
    + rewrite list_lookup_alter.
      assert (H0 : idx_nil p nm hv !! p = Some (s_index (dset nm [] (o_index op)) op)) by (unfold idx_nil; by rewrite list_lookup_alter, Hp).
      destruct (w_obj _ _ _ T0 p _ H0) as (q0 & t0 & H2 & _).
      assert (H1 : exists ix, idx_nil p nm (detach_h p v ov hv) !! p = Some (s_index ix (det_p ov op))).
      { unfold idx_nil, detach_h. rewrite list_lookup_alter. rewrite list_lookup_alter_ne, list_lookup_alter, Hp by done. simpl. eauto. }
      destruct H1 as [ix H1]. destruct (w_obj _ _ _ T1 p _ H1) as (q1 & t1 & H3 & _).
      rewrite H2, H3 in *. simpl in *. injection Hq2 as ->. done.
    + rewrite list_lookup_alter_ne by done.
      destruct (hv !! i) as [o|] eqn:Eo.
      * assert (H0 : idx_nil p nm hv !! i = Some o) by (unfold idx_nil; by rewrite list_lookup_alter_ne).
        destruct (w_obj _ _ _ T0 i _ H0) as (q0 & t0 & H2 & _).
        assert (H1 : idx_nil p nm (detach_h p v ov hv) !! i = Some o).
        { unfold idx_nil, detach_h. by rewrite !list_lookup_alter_ne by done. }
        destruct (w_obj _ _ _ T1 i _ H1) as (q1 & t1 & H3 & _).
        rewrite H2, H3 in *. simpl in *. injection Hq2 as ->. done.
      * apply lookup_ge_None in Eo.
        assert (H2 : heap s !! i = None).
        { apply lookup_ge_None. rewrite (w_len _ _ _ T0). simpl. unfold idx_nil. by rewrite alter_length. }
        assert (H3 : heap s' !! i = None).
        { apply lookup_ge_None. rewrite (w_len _ _ _ T1). simpl. unfold idx_nil, detach_h. by rewrite !alter_length. }
        by rewrite H2, H3.
Qed.

Lemma gen_list_loop_prims p nm vs : forall S0 s0 s hv, WF0 hv -> NoDup vs ->
    (exists op, hv !! p = Some op /\ o_kind op <> KEdge) ->
    (forall v, v ∈ vs -> v ∈ children hv p /\ name_of hv v = nm) ->
    touchw S0 (set_heap (idx_nil p nm hv) s0) s ->
    prims MAny s (snd (gen_list_loop p vs s)).
Proof.
  induction vs as [|v vs IH]; intros S0 s0 s hv W Hnd Hex Hch T0; [apply rtc_refl|].
  destruct Hex as (op & Hp & Hk).
  apply NoDup_cons in Hnd as [Hv Hnd]. destruct (Hch v ltac:(left)) as [Hvc Hvn].
  destruct (wf0_child hv W p v Hvc) as [[ov Hov] Hpar]. rewrite (parent_of_lookup _ _ _ Hov) in Hpar.
  unfold name_of in Hvn. rewrite Hov in Hvn. simpl in Hvn.
  destruct (remove_one_ok p nm S0 s0 s hv v op ov W Hp Hov Hpar Hvn T0) as (s1 & E1 & T1 & Hq1 & Hq1').
  pose proof (remove_one_prims s p v hv op ov S0 s0 nm W Hp Hk Hov Hpar Hvn T0 s1 E1 T1 Hq1 Hq1') as P1.
  cbn [gen_list_loop]. rewrite (bind_ok _ _ _ _ _ E1).
  destruct (detach_all_wf p [v] hv W) as [W1 Hc1].
  { apply NoDup_singleton. } { by exists op. } { intros x ->%elem_of_list_singleton. done. }
  simpl in W1, Hc1. rewrite Hov in W1, Hc1.
  eapply rtc_l; [exact P1|].
  assert (P2 : prims MAny s1 (snd (gen_list_loop p vs s1))).
  { apply (IH (S0 ++ [v]) s0 s1 (detach_h p v ov hv)); try done.
    - exists (det_p ov op). split; [by apply detach_at_p|done].
    - intros x Hx. destruct (Hch x ltac:(by right)) as [H1 H2]. split.
      + rewrite Hc1. apply elem_of_list_filter. split; [|done]. intros ->%elem_of_list_singleton. done.
      + by rewrite (detach_name hv W p v op ov Hp Hov Hpar). }
  unfold bind. destruct (gen_list_loop p vs s1) as [[l|e] s2]; exact P2.
Qed.

Lemma remove_all_prims s p nm u : WF0 (heap s) -> allowed (heap s) (ORemove p nm u) ->
  prims MAny s (snd (remove_all p nm u s)).
Proof.
  intros W ([op Hp] & Hk1 & Hk2 & Hname).
  assert (Hpl : plain op) by (unfold kind_of in *; rewrite Hp in *; simpl in *; split; congruence).
  destruct u as [u|].
  - destruct (dget u (o_subs op)) as [c|] eqn:Hg.
    + pose proof (dget_Some_in _ _ _ Hg) as Hin. destruct (wf_sub _ W p op u c Hp Hin) as (oc & Hc & <- & Hpar).
      destruct (remove_uuid_all s p c op oc nm) as (s' & -> & T); try done.
      { destruct (decide (nm = "")) as [->|Hn]; [by left|right].
        rewrite <- (Hname (o_uuid oc) Hn eq_refl c).
        - unfold name_of. by rewrite Hc.
        - unfold children. rewrite Hp. apply elem_of_list_fmap. by exists (o_uuid oc, c).
        - unfold uuid_of. by rewrite Hc. }
      simpl. apply rtc_once. eapply (detach_touch_prim s s' p c oc Hc Hpar); [|exact Hk1|exact T]. intros ->. by apply (wf0_not_self _ W p oc).
    + assert (E : remove_all p nm (Some u) s = (Exn KeyError, s)); [|rewrite E; apply rtc_refl].
      unfold remove_all. assert (E2 : gen_next (GNew p nm (Some u)) s = (Exn KeyError, s)).
      { rewrite (gen_next_plain _ _ _ _ _ Hp Hpl). cbn [base_next].
        assert (E3 : forall n, remove_uuid p n u s = (Exn KeyError, s)).
        { intros n. unfold remove_uuid. rewrite (bind_ok _ _ _ _ _ (deref_ok _ _ _ Hp)). rewrite Hg. reflexivity. }
        destruct (decide (nm = "")); rewrite (bind_exn _ _ _ _ _ (E3 _)); reflexivity. }
      by rewrite (bind_exn _ _ _ _ _ E2).
  - destruct (decide (nm = "")) as [->|Hn].
    { assert (E : remove_all p "" None s = (Exn ErrorInvalidQuery, s)); [|rewrite E; apply rtc_refl].
      unfold remove_all. assert (E2 : gen_next (GNew p "" None) s = (Exn ErrorInvalidQuery, s)).
      { rewrite (gen_next_plain _ _ _ _ _ Hp Hpl). done. }
      by rewrite (bind_exn _ _ _ _ _ E2). }
    destruct (dget nm (o_index op)) as [d|] eqn:Hd.
    + rewrite (remove_all_unfold s p nm op d) by done.
      pose proof (dvals_filter_name _ p op nm W Hp) as Hf. rewrite Hd in Hf. simpl in Hf. rewrite Hf.
      eapply rtc_l.
      { apply (pr_misc _ s (set_heap (idx_nil p nm (heap s)) s)). simpl. unfold idx_nil. by apply mcore_alter. }
      apply (gen_list_loop_prims p nm _ [] s _ (heap s)); try done.
      * apply NoDup_filter. by apply wf0_children_nd.
      * exists op. split; [done|apply Hpl].
      * intros v Hv. apply elem_of_list_filter in Hv. tauto.
      * apply touchw_refl.
    + assert (E : remove_all p nm None s = (Exn KeyError, s)); [|rewrite E; apply rtc_refl].
      unfold remove_all. assert (E2 : gen_next (GNew p nm None) s = (Exn KeyError, s)).
      { rewrite (gen_next_plain _ _ _ _ _ Hp Hpl). cbn [base_next]. rewrite decide_False by done.
        rewrite (bind_ok _ _ _ _ _ (deref_ok _ _ _ Hp)). by rewrite Hd. }
      by rewrite (bind_exn _ _ _ _ _ E2).
Qed.

Lemma deregister_prims s x : WF0 (heap s) -> exists_in (heap s) x -> removable (heap s) x ->
  prims MAny s (snd (deregister x s)).
Proof.
  intros W [ox Hx] Hrem. unfold deregister. rewrite (bind_ok _ _ _ _ _ (deref_ok _ _ _ Hx)).
  destruct (is_hyperelement (o_kind ox)); [|apply rtc_refl]. destruct (o_parent ox) as [q|] eqn:Hq; [|apply rtc_refl].
  destruct (wf_par _ W x ox q Hx Hq) as (oq & Hoq & _).
  destruct (wf0_lookup _ W x ox q oq Hx Hq Hoq) as (Hs & d & Hi & Hd).
  destruct (Hrem q) as [H1 H2]; [by rewrite (parent_of_lookup _ _ _ Hx)|].
  unfold kind_of in H1, H2. rewrite Hoq in H1, H2. simpl in H1, H2.
  assert (Hne : x <> q) by (intros ->; by apply (wf0_not_self _ W q ox)).
  destruct (for_gen_update_ok s q x oq ox d x) as (s' & -> & T); try done.
  { split; congruence. }
  { exact (wf_clk _ W x). }
  simpl. apply rtc_once. refine (detach_touch_prim s s' q x ox Hx Hq Hne _ T). unfold kind_of. by rewrite Hoq.
Qed.

(** ** Constructors *)
Lemma new_conceptual_prims g s k nm u prog c parent : WF0 (heap s) ->
  is_conceptual k = true -> ex_opt (heap s) parent -> prims g s (snd (new_conceptual k nm u prog c parent s)).
Proof.
  intros W Hk Hpar. unfold new_conceptual. destruct c as [c|]; [|apply rtc_refl].
  rewrite (bind_ok (now c) _ s (clk s c (tick s)) (set_tick (S (tick s)) s)) by done.
  set (ol := s_ready _ _). set (s1 := set_tick (S (tick s)) s).
  set (s2 := set_heap (heap s1 ++ [ol]) s1).
  rewrite (bind_ok (alloc ol) _ s1 (length (heap s)) s2) by done.
  assert (P2 : prims g s s2).
  { eapply rtc_l; [apply (pr_misc g s s1); done|]. apply rtc_once. by eapply pr_alloc. }
  assert (Hl : heap s2 !! length (heap s) = Some ol).
  { unfold s2. simpl. by rewrite lookup_app_r, Nat.sub_diag by lia. }
  assert (W2 : WF0 (heap s2)) by (unfold s2; simpl; apply alloc_wf0; try done; intros E; simpl in E; subst; done).
  eapply rtc_transitive; [exact P2|].
  assert (Hfin : forall s3, prims g s3 (snd (bind (upd (length (heap s)) (s_ready true)) (fun _ => ret (length (heap s))) s3))).
  { intros s3. pose proof (prims_upd g s3 (length (heap s)) (s_ready true) (fun _ => eq_refl)) as P.
    unfold bind. destruct (upd (length (heap s)) (s_ready true) s3) as [[a|e] s4]; exact P. }
  destruct parent as [p|]; [|apply Hfin].
  assert (Hlt : p < length (heap s)) by (by apply exists_in_lt).
  assert (Hok : add_ok (heap s2) p (length (heap s))).
  { split; [apply exists_in_lt; unfold s2; simpl; rewrite app_length; lia|]. split; [by eexists|]. split.
    - apply leaf_not_ancestor; [done|]. unfold children. by rewrite Hl.
    - intros q Hq. unfold parent_of in Hq. rewrite Hl in Hq. done. }
  assert (P3 : prims g s2 (snd (add_element p (length (heap s)) s2))).
  { apply add_element_prims; [done|done|]. intros _. unfold parent_of, children. by rewrite Hl. }
  unfold bind at 1. destruct (add_element p (length (heap s)) s2) as [[a|e] s3]; [|exact P3].
  eapply rtc_transitive; [exact P3|apply Hfin].
Qed.

Definition leaf_sem (g : mode) (sem : option loc) : Prop := g = MLeaf -> sem = None.

Lemma unary_connect_prims g s e n w d sem : WF0 (heap s) -> allowed (heap s) (OUnary e n w d sem) -> leaf_sem g sem ->
  prims g s (snd (unary_connect e n w d sem s)).
Proof.
  intros W (He & Hn & Hsem) Hleaf. pose proof He as [oe Hoe]. pose proof Hn as [on Hon].
  unfold unary_connect. rewrite (bind_ok _ _ _ _ _ (deref_ok _ _ _ Hoe)). rewrite (bind_ok _ _ _ _ _ (deref_ok _ _ _ Hon)).
  case_decide as Hk; [|apply rtc_refl]. destruct (o_clock oe) as [c|]; [|apply rtc_refl]. cbn [of_opt].
  rewrite (bind_ok (ret c) _ s c s) by done.
  rewrite (bind_ok (now c) _ s (clk s c (tick s)) (set_tick (S (tick s)) s)) by done.
  set (s1 := set_tick (S (tick s)) s). destruct (o_ready oe); [|by apply prims_same].
  set (nm := rel_name _ _ _). rewrite (bind_ok (hash _) _ s1 (sha s1 (elem_id_text (o_name oe) (o_name on))) s1) by done.
  unfold new_rel. rewrite (bind_ok _ _ _ _ _ (alloc_state _ _)).
  set (orel := s_sem _ _). set (s2 := set_heap (heap s1 ++ [orel]) s1).
  set (r := length (heap s1)).
  assert (W2 : WF0 (heap s2)).
  { unfold s2. simpl. apply alloc_wf0; try done. simpl. intros x [= <-]. done. }
  assert (P2 : prims g s s2).
  { eapply rtc_l; [apply (pr_misc g s s1); done|]. apply rtc_once. by eapply pr_alloc. }
  eapply rtc_transitive; [exact P2|].
  assert (Hmono2 : mono s s2).
  { eapply mono_trans; [apply (pres_now c s)|]. exact (pres_alloc orel eq_refl s1). }
  assert (Hr2 : heap s2 !! r = Some orel).
  { unfold s2, r. simpl. by rewrite lookup_app_r, Nat.sub_diag by lia. }
  assert (Hex2 : forall l, exists_in (heap s) l -> exists_in (heap s2) l) by (intros l; by apply mono_exists).
  pose proof (connect_wf s2 n r W2 (Hex2 _ Hn) ltac:(by eexists)) as W3.
  pose proof (connect_prims g s2 n r W2 (Hex2 _ Hn) ltac:(by eexists)) as P3.
  pose proof (pres_connect n r s2) as Hmono3.
  assert (Hpar3 : forall l, exists_in (heap s2) l -> parent_of (heap (snd (connect n r s2))) l = parent_of (heap s2) l).
  { intros l Hl. apply connect_parent; [done|by apply Hex2|by eexists|done]. }
  destruct (connect n r s2) as [[[]|ex] s3] eqn:E3; [|rewrite (bind_exn _ _ _ _ _ E3); exact P3].
  rewrite (bind_ok _ _ _ _ _ E3). cbn [snd] in W3, Hmono3, Hpar3, P3.
  eapply rtc_transitive; [exact P3|].
  assert (Hmono : mono s s3) by (by eapply mono_trans).
  assert (Hpar : forall l, exists_in (heap s) l -> parent_of (heap s3) l = parent_of (heap s) l).
  { intros l Hl. rewrite Hpar3 by (by apply Hex2). unfold s2. simpl. by apply app_parent. }
  assert (Hr3 : parent_of (heap s3) r = None).
  { rewrite Hpar3 by (by eexists). by rewrite (parent_of_lookup _ _ _ Hr2). }
  assert (Hrne : ~ exists_in (heap s) r).
  { rewrite exists_in_lt. unfold r. simpl. lia. }
  assert (Hexr : exists_in (heap s3) r) by (eapply mono_exists; [exact Hmono3|by eexists]).
  assert (Hfin : forall s4, WF0 (heap s4) -> mono s3 s4 -> parent_of (heap s4) r = None ->
    (g = MLeaf -> children (heap s4) r = []) ->
    (forall l, exists_in (heap s) l -> Some l <> sem -> parent_of (heap s4) l = parent_of (heap s) l) ->
    prims g s4 (snd (bind (add_element e r) (fun _ => ret r) s4))).
  { intros s4 W4 Hm4 Hr4 Hch4 Hp4.
    assert (Hok : add_ok (heap s4) e r).
    { split; [eapply mono_exists; [exact Hm4|]; by eapply mono_exists|].
      split; [by eapply mono_exists|]. split.
      - intros Ha. destruct (fresh_ancestor (heap s) (heap s4) r sem e W Hrne He Hp4 Ha) as (v & -> & Hw).
        destruct Hsem as (_ & _ & Hnw). done.
      - intros q Hq. congruence. }
    pose proof (add_element_prims g s4 e r W4 Hok) as P5. unfold bind.
    destruct (add_element e r s4) as [[[]|ex] s5]; apply P5; auto. }
  destruct sem as [sv|].
  - destruct Hsem as (Hsv & Hrem & Hnw). assert (Hgl : g <> MLeaf) by (intros Hgl; by specialize (Hleaf Hgl)).
    assert (Hok : add_ok (heap s3) r sv).
    { split; [done|]. split; [by eapply mono_exists|]. split.
      - intros Ha. inversion Ha; congruence.
      - eapply removable_keep; [exact W|exact Hmono| |exact Hrem]. by apply Hpar. }
    pose proof (add_element_wf s3 r sv W3 Hok) as W4.
    pose proof (add_element_prims g s3 r sv W3 Hok ltac:(done)) as P4.
    pose proof (pres_add_element r sv s3) as Hm4.
    assert (Hp4 : forall l, exists_in (heap s3) l -> l <> sv -> parent_of (heap (snd (add_element r sv s3))) l = parent_of (heap s3) l).
    { intros l Hl Hne. by apply add_element_parent. }
    destruct (add_element r sv s3) as [[[]|ex] s4] eqn:E4; [|rewrite (bind_exn _ _ _ _ _ E4); exact P4].
    rewrite (bind_ok _ _ _ _ _ E4). cbn [snd] in W4, Hm4, Hp4, P4. eapply rtc_transitive; [exact P4|].
    apply Hfin; try done.
    + rewrite Hp4; [done|done|]. intros ->. done.
    + intros l Hl Hne. rewrite Hp4; [by apply Hpar|by eapply mono_exists|congruence].
  - rewrite (bind_ok (ret tt) _ s3 tt s3) by done. apply Hfin; try done.
    + apply mono_refl.
    + (* the fresh relation has no children *)
      intros _. destruct (children (heap s3) r) as [|y ys] eqn:Ech; [done|]. exfalso.
      destruct (wf0_child _ W3 r y) as [Hey Hpy]; [rewrite Ech; left|].
      destruct (decide (exists_in (heap s2) y)) as [Hy|Hy].
      * rewrite Hpar3 in Hpy by done. assert (Hch : y ∈ children (heap s2) r) by (by apply wf0_parent).
        unfold children in Hch. rewrite Hr2 in Hch. simpl in Hch. inversion Hch.
      * (* y is the new port *)
        destruct (Hex2 n Hn) as [on2 Hon2].
        destruct (connect_cases s2 n r on2 orel W2 Hon2 Hr2) as [[_ E]|(_ & [[_ E]|(_ & T & s' & E & TT & _)])];
          rewrite E in E3; try done. injection E3 as <-.
        rewrite (heq_parent _ _ _ (touch_heq _ _ _ TT)) in Hpy. simpl in Hpy.
        set (h1 := pre_port _ _ _ _) in *.
        assert (W1 : WF0 h1) by (apply pre_port_wf; [done|by eexists]).
        assert (Hpt : h1 !! length (heap s2) = Some (port_obj (sha s2 (elem_id_text (o_name on2) (o_name orel))) (port_name (o_name on2) (o_name orel)) r)).
        { apply pre_port_at. by eexists. }
        destruct (decide (y = length (heap s2))) as [->|Hney].
        -- unfold parent_of in Hpy. rewrite (added_at_c h1 n (length (heap s2))) in Hpy; [|done| |done].
           ++ simpl in Hpy. injection Hpy as Hpy. apply Hrne. rewrite <- Hpy. done.
           ++ intros E'. apply lookup_lt_Some in Hon2. lia.
        -- rewrite added_parent_ne in Hpy; [|done|done|done]. unfold h1 in Hpy. rewrite pre_port_parent in Hpy by done.
           apply Hy. apply parent_exists. exists r; exact Hpy.
    + intros l Hl _. by apply Hpar.
Qed.

(** ** Factories *)
Definition keepsP {A} (g : mode) (Pre : list obj -> Prop) (m : M A) : Prop :=
  forall s, WF0 (heap s) -> Pre (heap s) -> prims g s (snd (m s)).
Lemma keepsP_bind {A B} g Pre (m : M A) (k : A -> M B) : stable Pre -> pres m -> keeps Pre m -> keepsP g Pre m ->
  (forall a, keepsP g Pre (k a)) -> keepsP g Pre (bind m k).
Proof.
  intros Hst Hp Hm Hmp Hk s W HP. specialize (Hm s W HP). specialize (Hmp s W HP). specialize (Hp s). unfold bind.
  destruct (m s) as [[a|e] s1]; simpl in *; [|done]. eapply rtc_transitive; [exact Hmp|].
  apply Hk; [done|exact (Hst s s1 Hp HP)].
Qed.
Lemma keepsP_bind_post {A B} g Pre (Post : A -> list obj -> Prop) (m : M A) (k : A -> M B) : keeps Pre m -> keepsP g Pre m ->
  (forall s a s1, WF0 (heap s) -> Pre (heap s) -> m s = (Ok a, s1) -> Post a (heap s1)) ->
  (forall a, keepsP g (Post a) (k a)) -> keepsP g Pre (bind m k).
Proof.
  intros Hm Hmp Hpost Hk s W HP. pose proof (Hm s W HP) as Hw. pose proof (Hmp s W HP) as Hwp. unfold bind.
  destruct (m s) as [[a|e] s1] eqn:E; simpl in *; [|done]. eapply rtc_transitive; [exact Hwp|].
  apply Hk; [done|exact (Hpost s a s1 W HP E)].
Qed.
Lemma keepsP_weaken {A} g (P Q : list obj -> Prop) (m : M A) : (forall h, Q h -> P h) -> keepsP g P m -> keepsP g Q m.
Proof. intros H Hm s W HQ. apply Hm; auto. Qed.
Lemma keepsP_heap {A} g P (m : M A) : (forall s, heap (snd (m s)) = heap s) -> keepsP g P m.
Proof. intros H s W _. apply prims_same. by rewrite H. Qed.

Ltac hp := first [by apply keepsP_heap | by apply keeps_heap | apply keepsP_heap, heap_stamped | apply keeps_heap, heap_stamped
  | apply keepsP_heap, heap_clock_of | apply keeps_heap, heap_clock_of].

Lemma generate_node_prims g f nm parent : keepsP g (fun h => ex_opt h parent) (generate_node f nm parent).
Proof.
  unfold generate_node.
  assert (Hh : forall s, heap (snd ((match parent with
            | Some p => let! op := deref p in generate_uid f (join "/" [o_qname op; nm])
            | None => generate_uid f nm
            end) s)) = heap s).
  { intros s. destruct parent as [p|]; [|done]. unfold bind, deref. by destruct (heap s !! p). }
  apply keepsP_bind; [apply stable_opt|pres|by apply keeps_heap|by apply keepsP_heap|].
  intros u. apply keepsP_bind; [apply stable_opt|pres|hp|hp|]. intros q s W HP. by apply new_conceptual_prims.
Qed.
Lemma generate_list_prims g f nms parent : keepsP g (fun h => ex_opt h parent) (generate_list_nodes f nms parent).
Proof.
  induction nms as [|nm nms IH]; [by apply keepsP_heap|].
  unfold generate_list_nodes in *. cbn [map_m].
  apply keepsP_bind; [apply stable_opt|pres|apply generate_node_wf|apply generate_node_prims|]. intros y.
  apply keepsP_bind; [apply stable_opt|apply pres_map_m; intros; pres|apply (generate_list_wf f nms parent)|exact IH|].
  intros ys. by apply keepsP_heap.
Qed.
Lemma create_hyperedge_prims g f p nm : keepsP g (fun h => exists_in h p) (create_hyperedge f p nm).
Proof.
  unfold create_hyperedge. apply keepsP_bind; [apply stable_exists|pres|hp|hp|]. intros u.
  apply keepsP_bind; [apply stable_exists|pres|hp|hp|]. intros q.
  apply keepsP_bind; [apply stable_exists|pres|hp|hp|]. intros c s W HP.
  by apply new_conceptual_prims.
Qed.
Lemma connect_each_prims g he d nv : keepsP g (fun h => exists_in h he /\ Forall (exists_in h) (map fst nv)) (connect_each he d nv).
Proof.
  induction nv as [|[n v] nv IH]; simpl; [by apply keepsP_heap|].
  apply keepsP_bind.
  - apply stable_and; [apply stable_exists|apply stable_all].
  - pres.
  - intros s W [H1 H2]. apply Forall_cons in H2 as [H2 H3]. apply unary_connect_wf; [done|]. done.
  - intros s W [H1 H2]. apply Forall_cons in H2 as [H2 H3]. apply unary_connect_prims; [done|done|]. by intros _.
  - intros r. eapply keepsP_weaken; [|exact IH]. intros h [H1 H2]. apply Forall_cons in H2 as [H2 H3]. done.
Qed.
Lemma connect_nodes_prims g f p nm ns d vs :
  keepsP g (fun h => exists_in h p /\ Forall (exists_in h) ns) (connect_nodes f p nm ns d vs).
Proof.
  unfold connect_nodes. eapply keepsP_bind_post with (Post := fun he h => exists_in h he /\ Forall (exists_in h) ns).
  - eapply keeps_weaken; [|apply create_hyperedge_wf]. naive_solver.
  - eapply keepsP_weaken; [|apply create_hyperedge_prims]. naive_solver.
  - intros s a s1 W [H1 H2] E. split; [by eapply create_hyperedge_exists|].
    eapply (stable_all ns s s1); [|done]. pose proof (pres_create_hyperedge f p nm s) as Hm. by rewrite E in Hm.
  - intros he.
    eapply keepsP_bind_post with (Post := fun nv h => exists_in h he /\ Forall (exists_in h) (map fst nv)).
    + apply keeps_heap. intros s. destruct vs; [|done]. by case_decide.
    + apply keepsP_heap. intros s. destruct vs; [|done]. by case_decide.
    + intros s nv s1 W [H1 H2] E. destruct vs as [vs|].
      * case_decide; [|done]. injection E as <- <-. split; [done|]. by apply Forall_zip.
      * injection E as <- <-. split; [done|]. by rewrite zip_none_fst.
    + intros nv. apply keepsP_bind; [apply stable_and; [apply stable_exists|apply stable_all]|pres|apply connect_each_wf|apply connect_each_prims|].
      intros _. by apply keepsP_heap.
Qed.
Lemma connect_2factor_prims g f p nm ins outs d vs :
  keepsP g (fun h => exists_in h p /\ Forall (exists_in h) ins /\ Forall (exists_in h) outs)
        (connect_2factor_edges f p nm ins outs d vs).
Proof.
  unfold connect_2factor_edges.
  eapply keepsP_bind_post with (Post := fun he h => exists_in h he /\ Forall (exists_in h) ins /\ Forall (exists_in h) outs).
  - eapply keeps_weaken; [|apply create_hyperedge_wf]. naive_solver.
  - eapply keepsP_weaken; [|apply create_hyperedge_prims]. naive_solver.
  - intros s a s1 W (H1 & H2 & H3) E. split; [by eapply create_hyperedge_exists|].
    pose proof (pres_create_hyperedge f p nm s) as Hm. rewrite E in Hm.
    split; [by eapply (stable_all ins s s1)|by eapply (stable_all outs s s1)].
  - intros he.
    eapply keepsP_bind_post with (Post := fun nv h => exists_in h he /\ Forall (exists_in h) (map fst nv.1) /\
      Forall (exists_in h) (map fst nv.2)).
    + apply keeps_heap. intros s. destruct vs; [|done]. by case_decide.
    + apply keepsP_heap. intros s. destruct vs; [|done]. by case_decide.
    + intros s nv s1 W (H1 & H2 & H3) E. destruct vs as [vs|].
      * case_decide; [|done]. injection E as <- <-. split; [done|]. by split; apply Forall_zip.
      * injection E as <- <-. split; [done|]. by split; simpl; rewrite zip_none_fst.
    + intros nv.
      assert (Hst : stable (fun h => exists_in h he /\ Forall (exists_in h) (map fst nv.1) /\
        Forall (exists_in h) (map fst nv.2))).
      { apply stable_and; [apply stable_exists|apply stable_and; apply stable_all]. }
      apply keepsP_bind; [exact Hst|pres|eapply keeps_weaken; [|apply connect_each_wf]; naive_solver
        |eapply keepsP_weaken; [|apply connect_each_prims]; naive_solver|]. intros _.
      apply keepsP_bind; [exact Hst|pres|eapply keeps_weaken; [|apply connect_each_wf]; naive_solver
        |eapply keepsP_weaken; [|apply connect_each_prims]; naive_solver|]. intros _.
      by apply keepsP_heap.
Qed.

Lemma add_fresh_prims g s o p : WF0 (heap s ++ [o]) -> exists_in (heap s) p -> o_parent o = None -> o_subs o = [] ->
  o_hist o = 0 -> o_depth o = 0 -> o_qname o = o_name o -> o_cid o = 0 ->
  prims g s (snd (add_element p (length (heap s)) (set_heap (heap s ++ [o]) s))).
Proof.
  intros W1 Hp H1 H2 H3 H4 H5 H6. eapply rtc_l; [by eapply (pr_alloc g s (set_heap (heap s ++ [o]) s))|].
  apply add_element_prims; [done|by apply add_fresh_ok|]. intros _. unfold parent_of, children. simpl.
  rewrite lookup_app_r, Nat.sub_diag by lia. simpl. by rewrite H1, H2.
Qed.
Lemma create_value_prims g f p nm vs : keepsP g (fun h => ex_opt h p) (create_value f p nm vs).
Proof.
  unfold create_value. apply keepsP_bind; [apply stable_opt|pres|hp|hp|]. intros u. destruct p as [p|].
  - apply keepsP_bind; [apply stable_opt|pres|hp|hp|]. intros q s W Hp.
    unfold new_value. rewrite (bind_ok _ _ _ _ _ (alloc_state _ _)). set (o := s_dim _ _).
    assert (W1 : WF0 (heap s ++ [o])) by (apply alloc_wf0; done).
    pose proof (add_fresh_prims g s o p W1 Hp eq_refl eq_refl eq_refl eq_refl eq_refl eq_refl) as P.
    unfold bind. destruct (add_element p (length (heap s)) _) as [[[]|e] s2]; exact P.
  - apply keepsP_bind; [apply stable_opt|pres|hp|hp|]. intros q s W _. simpl.
    apply rtc_once. by eapply pr_alloc.
Qed.
Lemma semantic_prims g f raw nm p attr vs : keepsP g (fun h => exists_in h p) (generate_semantic_element f raw nm p attr vs).
Proof.
  unfold generate_semantic_element. destruct attr as [|at0 attr]; [by apply keepsP_heap|]. generalize (at0 :: attr) as att. intros att.
  apply keepsP_bind; [apply stable_exists|pres|hp|hp|]. intros u.
  destruct (type_class (norm_type raw)) as [c|]; [|by apply keepsP_heap].
  apply keepsP_bind; [apply stable_exists|pres|hp|hp|]. intros q s W Hp.
  unfold new_sem. rewrite (bind_ok _ _ _ _ _ (alloc_state _ _)). set (o := s_attr _ _).
  assert (W1 : WF0 (heap s ++ [o])) by (apply alloc_wf0; done).
  pose proof (add_fresh_prims g s o p W1 Hp eq_refl eq_refl eq_refl eq_refl eq_refl eq_refl) as P.
  destruct (add_element p (length (heap s)) _) as [[[]|e] s2] eqn:E.
  - rewrite (bind_ok _ _ _ _ _ E). destruct vs as [v|]; [|exact P].
    eapply rtc_transitive; [exact P|]. unfold add_named_attribute, bind.
    match goal with |- context [upd ?l ?f ?s] => pose proof (prims_upd g s l f (fun _ => eq_refl)) as Q; destruct (upd l f s) as [[a|e] s3] end; exact Q.
  - rewrite (bind_exn _ _ _ _ _ E). exact P.
Qed.

Lemma exec_prims g o s : WF0 (heap s) -> allowed (heap s) o -> obeys g (heap s) o -> prims g s (snd (exec o s)).
Proof.
  intros W Ha Hg. destruct o; cbn [exec]; cbn [allowed] in Ha; rewrite ?snd_void.
  - destruct Ha as [H1 H2]. by apply new_conceptual_prims.
  - apply rtc_once. by eapply pr_alloc.
  - apply rtc_once. by eapply pr_alloc.
  - apply rtc_once. by eapply pr_alloc.
  - apply rtc_once. by eapply pr_alloc.
  - apply add_element_prims; [done|done|]. intros ->. exact Hg.
  - destruct g; [|done|done]. by apply remove_all_prims.
  - unfold register. destruct Ha as (H1 & [ox Hx] & H2). rewrite (bind_ok _ _ _ _ _ (deref_ok _ _ _ Hx)).
    destruct (is_hyperelement (o_kind ox)); [|apply rtc_refl]. apply add_element_prims; [done| |intros ->; exact Hg].
    split; [done|]. split; [by eexists|done].
  - destruct g; [|done|done]. destruct Ha. by apply deregister_prims.
  - destruct Ha. by apply connect_prims.
  - destruct Ha as [[ox Hx] [orr Hr]]. unfold disconnect. rewrite (bind_ok _ _ _ _ _ (deref_ok _ _ _ Hx)).
    rewrite (bind_ok _ _ _ _ _ (deref_ok _ _ _ Hr)). destruct (_ && _); [|apply rtc_refl].
    destruct (dget _ _); [|apply rtc_refl]. by apply prims_upd.
  - apply unary_connect_prims; [done|done|]. intros ->. exact Hg.
  - destruct (wf_acy _ W x Ha) as [ls Hp]. destruct (update_ok s x ls Hp (wf_clk _ W x)) as (s' & -> & T).
    simpl. apply rtc_once. by eapply pr_update.
  - by apply prims_upd.
  - unfold update_value, bind, deref. destruct (heap s !! v); [|apply rtc_refl]. destruct (list_put _ _ _); [|apply rtc_refl].
    by apply prims_upd.
  - unfold update_values, bind, deref. destruct (heap s !! v); [|apply rtc_refl]. by apply prims_upd.
  - by apply prims_upd.
  - by apply prims_upd.
  - by apply generate_node_prims.
  - by apply generate_list_prims.
  - by apply create_hyperedge_prims.
  - by apply connect_nodes_prims.
  - by apply connect_2factor_prims.
  - by apply create_value_prims.
  - by apply semantic_prims.
Qed.
