(** * Loading: the relations of joints *)
From stdpp Require Import relations.
From Verif Require Import Spec Hierarchy Elements Factory History PDict PPath PExec PBfs PWF PAdd PMono PStep PRemove PReach PPrim PHist QHier QHier2 QHier3 QHier4 QHier5 QHier6 QFac SpecFac QFac2 CogniLang SpecCogni QCog QCog2 QCog3 QCog4 QCog5.

Lemma follow_name h : WF0 h -> forall names p x q, names <> [] -> full_name h p q -> x ∈ follow h names p -> full_name h x (q +:+ "/" +:+ join "/" names).
Proof.
  intros W. induction names as [|n names IH]; intros p x q Hne Hp Hx; [done|]. cbn [follow] in Hx. apply elem_of_flat_map in Hx as (c & Hc & Hx).
  apply elem_of_list_filter in Hc as [Hcn Hc]. destruct (wf0_child _ W p c Hc) as [He Hpar]. pose proof (child_name _ _ _ _ Hp He Hpar) as Fc. rewrite Hcn in Fc.
  destruct names as [|m names].
  - cbn [follow] in Hx. apply elem_of_list_singleton in Hx as ->. exact Fc.
  - specialize (IH c x _ ltac:(done) Fc Hx). change (join "/" (n :: m :: names)) with (n +:+ "/" +:+ join "/" (m :: names)). by rewrite !app_assoc_s in IH.
Qed.
Definition hyper (h : list obj) (x : loc) : Prop := exists o, h !! x = Some o /\ is_hyperelement (o_kind o) = true.
Lemma reference_ok s d env path p ref ep s' : linv s d env -> opened s d path p -> lookup_reference p ref d s = (Ok ep, s') ->
  s' = s /\ exists_in (heap s) ep /\ (hyper (heap s) ep -> full_name (heap s) ep (endpoint_name path ref)).
Proof.
  intros I O E. pose proof (linv_wf _ _ _ I) as W. unfold lookup_reference in E. unfold endpoint_name. case_decide as Hw.
  - apply of_opt_inv in E as [Hx ->]. split; [done|]. split; [by eapply li_cex|]. intros (o & Ho & Hk). by eapply li_cache.
  - apply bind_inv in E as (l & s1 & E1 & E). apply of_opt_inv in E as [Hh ->].
    destruct (q_C14 s p ref (proj1 (li_clean _ _ _ I)) (opened_exists _ _ _ _ O)) as (r & E2 & Hr & _). rewrite E2 in E1. injection E1 as -> <-. split; [done|].
    assert (Hin : ep ∈ follow (heap s) (split_on slash ref) p) by (rewrite <- Hr; destruct l; [done|]; injection Hh as ->; left).
    assert (F : full_name (heap s) ep (join "/" path +:+ "/" +:+ ref)).
    { assert (Hj : join "/" (split_on slash ref) = ref) by apply (join_split slash). rewrite <- Hj. eapply follow_name; [done|apply split_on_cons_ne|by eapply opened_name|done]. }
    split; [destruct F as (ls & Hp & _); by destruct Hp|]. intros _. rewrite join_snoc by apply O. exact F.
Qed.

Fixpoint sems_only (t : tree) : bool := match t with T (LSem _ _ _) ts => forallb sems_only ts | _ => false end.
Lemma labelled_sem h h' x c nm a : kept h h' -> kids h' x = kids h x -> labelled h x (LSem c nm a) -> labelled h' x (LSem c nm a).
Proof.
  intros K Hk (o & Ho & H1 & H2 & H3). specialize (K x o Ho). destruct (h' !! x) as [o'|] eqn:E; [|done]. cbn [fmap option_fmap option_map] in K. apply (inj Some) in K.
  exists o'. split; [done|]. change (o_kind o') with (o_kind (ident_part o')). change (o_name o') with (o_name (ident_part o')). change (o_attr o') with (o_attr (ident_part o')). rewrite K.
  split; [exact H1|]. split; [exact H2|]. eapply Forall2_impl; [exact H3|]. intros [k v] [k' [v'|t q]] [X1 X2]; simpl in *; [done|]. split; [done|]. simpl. by rewrite Hk.
Qed.
Lemma sems_frame n h h' : kept h h' -> (forall l, n <= l -> exists_in h l -> kids h' l = kids h l) -> forall t x, sems_only t = true -> viewn n h x t -> viewn n h' x t.
Proof.
  intros K Hk. induction t as [lb ts IH] using tree_rect'. intros x Ht V. inversion V as [? ? ? Hn Hl F]; subst.
  destruct lb as [| | |c nm a|]; try done. cbn [sems_only] in Ht.
  assert (Hx : kids h' x = kids h x). { apply Hk; [done|]. destruct Hl as (o & Ho & _). by eexists. }
  constructor; [done|by eapply labelled_sem|]. rewrite Hx. clear V Hl Hx. revert F Ht. generalize (kids h x). revert IH. clear.
  induction ts as [|t ts IHts]; intros IH l F Ht; inversion F; subst; constructor; inversion IH; subst; cbn [forallb] in Ht; apply andb_true_iff in Ht as [? ?]; auto.
Qed.
Lemma labelled_plain h h' x c nm a : kept h h' -> labelled h x (LSem c nm (plain a)) -> labelled h' x (LSem c nm (plain a)).
Proof.
  intros K (o & Ho & H1 & H2 & H3). specialize (K x o Ho). destruct (h' !! x) as [o'|] eqn:E; [|done]. cbn [fmap option_fmap option_map] in K. apply (inj Some) in K.
  exists o'. split; [done|]. change (o_kind o') with (o_kind (ident_part o')). change (o_name o') with (o_name (ident_part o')). change (o_attr o') with (o_attr (ident_part o')). rewrite K.
  split; [exact H1|]. split; [exact H2|]. change (o_attr (ident_part o)) with (o_attr o). revert H3. generalize (o_attr o) as l. clear.
  induction a as [|[b w] a IH]; intros l F; inversion F as [|? ? ? ? Hx F']; subst; constructor; [done|by apply IH].
Qed.
Definition sems_new (h0 h : list obj) : Prop := forall l o, length h0 <= l -> h !! l = Some o -> exists c, o_kind o = KSem c.
(** A hyperelement is an old element, with its old name. *)
Lemma old_hyper h0 h a x q : WF0 h0 -> named h0 -> grows h0 h a -> sems_new h0 h -> hyper h x -> full_name h x q -> exists_in h0 x /\ full_name h0 x q.
Proof.
  intros W N G Sn (o & Ho & Hk) F.
  assert (He : exists_in h0 x). { apply exists_in_lt. destruct (decide (x < length h0)) as [|Hx]; [done|]. destruct (Sn x o ltac:(lia) Ho) as [c Hc]. by rewrite Hc in Hk. }
  split; [done|]. destruct He as [o0 Ho0]. pose proof (N x o0 Ho0) as F0. pose proof (grows_name _ _ _ _ _ W G F0) as F1. by rewrite (full_name_det _ _ _ _ F F1).
Qed.
Lemma hyper_back h h' x : kept h h' -> exists_in h x -> hyper h' x -> hyper h x.
Proof.
  intros K [o Ho] (o' & Ho' & Hk). exists o. split; [done|]. pose proof (kept_kind _ _ x K ltac:(by eexists)) as E. unfold kind_of in E. rewrite Ho, Ho' in E.
  cbn [fmap option_fmap option_map] in E. apply (inj Some) in E. by rewrite <- E.
Qed.

Section joints.
  Context (fl : string -> option Qc) (rad : Qc) (env ENV : list (string * string)) (Hpre : env `prefix_of` ENV).
  Context (path : list string) (p : loc) (edge : string).

  Record rel_ok (h0 h : list obj) (r : crel) (x : loc * direction * weight * option loc) (sv : loc) : Prop := {
    ro_sv : snd x = Some sv;
    ro_tree : exists t, relation_tree fl rad ENV path edge r = Some (T (LRel (snd (fst (fst x))) (snd (fst x)) (endpoint_name path (jr_ref r))) [t]) /\
      viewn (length h0) h sv t /\ sems_only t = true;
    ro_kind : kind_of h sv = Some (KSem SKinematicJoint);
    ro_parent : parent_of h sv = Some p;
    ro_ep : exists_in h (fst (fst (fst x)));
    ro_name : hyper h (fst (fst (fst x))) -> exists_in h0 (fst (fst (fst x))) /\ full_name h0 (fst (fst (fst x))) (endpoint_name path (jr_ref r))
  }.
  Lemma rel_ok_grows h0 h h' r x sv ys : p < length h0 -> grows h h' (only p ys) -> rel_ok h0 h r x sv -> rel_ok h0 h' r x sv.
  Proof.
    intros Hp G [R1 (t & R2 & R3 & R4) R5 R6 R7 R8]. assert (He : exists_in h sv). { unfold kind_of in R5. destruct (h !! sv) eqn:E; [by eexists|done]. }
    split.
    - done.
    - exists t. split; [done|]. split; [|done]. eapply sems_frame; [apply G| |done|exact R3]. intros l Hl Hel. rewrite (gs_kids _ _ _ G l Hel), only_ne, app_nil_r; [done|lia].
    - rewrite (kept_kind _ _ _ (gs_kept _ _ _ G)); done.
    - rewrite (gs_unmoved _ _ _ G); done.
    - by eapply grows_exists.
    - intros Hh. apply R8. eapply hyper_back; [apply G|done|done].
  Qed.
  Lemma direction_ok t d : dir_enum_relation t = Ok d -> relation_direction t = Some d.
  Proof. unfold dir_enum_relation, relation_direction. repeat case_decide; by intros [= <-]. Qed.

  Lemma relation_visit h0 a s d r x d' s' : WF0 h0 -> named h0 -> linv s d env -> opened s d path p -> p < length h0 -> grows h0 (heap s) a -> sems_new h0 (heap s) ->
    joint_relation fl rad p edge r d s = (Ok (x, d'), s') ->
    exists sv, rel_ok h0 (heap s') r x sv /\ step path env (only p [sv]) s d s' d' /\ sems_new h0 (heap s') /\ ld_refs d' = ld_refs d.
  Proof.
    intros W0 N0 I O Hp G0 Sn E. pose proof (linv_wf _ _ _ I) as W. pose proof (opened_exists _ _ _ _ O) as Hpe.
    assert (Hpp : p <> ld_params d) by (pose proof (op_later _ _ _ _ O); lia).
    unfold joint_relation in E. apply bind_inv in E as (ep & s1 & E1 & E). apply (reference_ok s d env path) in E1 as (-> & Hee & Hen); [|done|done].
    apply bind_inv in E as (dir & s1 & E1 & E). apply lift_inv in E1 as [Hd ->]. apply direction_ok in Hd.
    apply bind_inv in E as (sv & s1 & E1 & E). set (nm := joint_name edge (jr_ref r)) in *.
    apply (sem_step path env _ d _ _ _ _ _ _ _ _ SKinematicJoint I) in E1 as (oc & B & Hk & Hnm & Ha & S1 & _); [|done|done|done|reflexivity].
    apply bind_inv in E as ([] & s2 & E2 & E).
    (* the axis *)
    assert (X : exists ax oc2, axis_attr fl ENV r = Some ax /\ born_at (heap s) (heap s2) p sv oc2 /\ o_kind oc2 = KSem SKinematicJoint /\ o_name oc2 = nm /\
      o_attr oc2 = ("joint_type", PStr (jr_type r)) :: ax /\ linv s2 d env).
    { unfold axis_attr. pose proof (linv_after _ _ _ _ _ _ _ S1) as I1. destruct (jr_axis r) as [v|].
      - apply bind_inv in E2 as (s0 & s3 & E3 & E2). apply get_inv in E3 as [-> ->]. apply bind_inv in E2 as (q & s3 & E3 & E2). apply lift_inv in E3 as [Hq ->].
        rewrite (vector_ok fl _ _ _ _ (li_params _ _ _ I1) Hpre _ _ Hq). pose proof (attr_clean _ _ _ _ _ (li_clean _ _ _ I1) E2) as C2. apply attr_retag in E2 as [R _].
        eexists _, _. split; [done|]. split; [eapply retag_born; [exact B|exact R]|]. split; [done|]. split; [done|]. split; [simpl; by rewrite Ha|]. by eapply retag_linv.
      - apply ret_inv in E2 as [_ ->]. eexists _, oc. split; [done|]. split; [exact B|]. split; [done|]. split; [done|]. by split. }
    destruct X as (ax & oc2 & Hax & B2 & Hk2 & Hnm2 & Ha2 & I2). clear E2 B S1 s1 oc Hk Hnm Ha.
    assert (S2 : step path env (only p [sv]) s d s2 d) by (split; [done|apply B2|done|done]).
    pose proof (leaf_view (length h0) _ _ _ _ _ _ _ _ (gs_len _ _ _ G0) B2 Hk2 Hnm2 Ha2) as V2.
    assert (Sn2 : sems_new h0 (heap s2)).
    { intros l o Hl Ho. destruct (decide (l < length (heap s))) as [Hlt|Hge].
      - apply exists_in_lt in Hlt. destruct Hlt as [o1 Ho1]. destruct (Sn l o1 Hl Ho1) as [c Hc]. exists c. rewrite <- Hc.
        pose proof (kept_kind _ _ l (gs_kept _ _ _ (bn_grows _ _ _ _ _ B2)) ltac:(by eexists)) as Ek. unfold kind_of in Ek. rewrite Ho, Ho1 in Ek. cbn in Ek. by injection Ek.
      - assert (l = sv) as ->. { apply lookup_lt_Some in Ho. rewrite (bn_len _ _ _ _ _ B2) in Ho. rewrite (bn_new _ _ _ _ _ B2). lia. }
        pose proof (born_get o_kind _ _ _ _ _ B2 (fun _ => eq_refl)) as F. rewrite Ho in F. cbn in F. injection F as ->. by eexists. }
    assert (Kd : kind_of (heap s2) sv = Some (KSem SKinematicJoint)) by (unfold kind_of; rewrite (born_get o_kind _ _ _ _ _ B2 (fun _ => eq_refl)); by rewrite Hk2).
    assert (He2 : exists_in (heap s2) ep) by (eapply grows_exists; [apply B2|done]).
    assert (Hold : hyper (heap s2) ep -> exists_in h0 ep /\ full_name h0 ep (endpoint_name path (jr_ref r))).
    { intros Hh. apply (hyper_back (heap s)) in Hh; [|apply B2|done]. eapply old_hyper; [done|done|exact G0|done|done|by apply Hen]. }
    exists sv. destruct (jr_rigid r) as [rg|] eqn:Hrg.
    - apply bind_inv in E as ([[[tr t] q] d1] & s3 & E3 & E). apply ret_inv in E as [E ->]. injection E as -> ->.
      pose proof (born_below path _ _ _ _ _ W B2 (opened_name _ _ _ _ _ I O)) as F.
      assert (Hsp : sv <> ld_params d) by (intros ->; apply (born_not _ _ _ _ _ B2), I).
      apply (rigid_visit fl rad env ENV Hpre path s2 d sv rg tr t q d1 s3 (o_name oc2) I2) in E3 as (q0 & ty & otr & Hr & -> & Bt & S3 & V3 & Hre); [|by eapply born_exists|done|exact F].
      rewrite (born_name _ _ _ _ _ B2), Hnm2 in V3.
      assert (Kx : kids (heap s3) sv = [tr]).
      { rewrite (gs_kids _ _ _ (bn_grows _ _ _ _ _ Bt)) by (by eapply born_exists). rewrite only_at. by rewrite (bn_kids _ _ _ _ _ B2). }
      pose proof (gs_len _ _ _ G0) as Hl0. pose proof (bn_len _ _ _ _ _ B2) as Hl2.
      split; [split|split; [|split]].
      + done.
      + eexists. unfold relation_tree. cbv zeta. rewrite Hd, Hax, Hrg, Hr. cbn [fst snd]. split; [done|]. split; [|by cbn].
        unfold sem_leaf in V2. inversion V2 as [? ? ? Hn Hla _]; subst. constructor; [done| |].
        * eapply labelled_plain; [apply Bt|]. exact Hla.
        * rewrite Kx. constructor; [|constructor]. eapply viewn_le; [|exact V3]. lia.
      + rewrite (kept_kind _ _ _ (gs_kept _ _ _ (bn_grows _ _ _ _ _ Bt))); [done|by eapply born_exists].
      + rewrite (gs_unmoved _ _ _ (bn_grows _ _ _ _ _ Bt)); [apply B2|by eapply born_exists].
      + cbn. eapply grows_exists; [apply Bt|done].
      + cbn. intros Hh. apply Hold. eapply hyper_back; [apply Bt|done|done].
      + eapply step_new; [exact S2|exact S3|by eapply born_not].
      + intros l o Hl Ho. destruct (decide (l < length (heap s2))) as [Hlt|Hge].
        * apply exists_in_lt in Hlt. destruct Hlt as [o1 Ho1]. destruct (Sn2 l o1 Hl Ho1) as [c Hc]. exists c. rewrite <- Hc.
          pose proof (kept_kind _ _ l (gs_kept _ _ _ (bn_grows _ _ _ _ _ Bt)) ltac:(by eexists)) as Ek. unfold kind_of in Ek. rewrite Ho, Ho1 in Ek. cbn in Ek. by injection Ek.
        * assert (l = tr) as ->. { apply lookup_lt_Some in Ho. rewrite (bn_len _ _ _ _ _ Bt) in Ho. rewrite (bn_new _ _ _ _ _ Bt). lia. }
          unfold rigid_tree, sem_leaf in V3. inversion V3 as [? ? ? Hn Hla _]; subst. destruct Hla as (o1 & Ho1 & Hk1 & _). rewrite Ho in Ho1. injection Ho1 as <-. by eexists.
      + done.
    - apply ret_inv in E as [E ->]. injection E as -> ->. split; [split|split; [|split]]; cbn [fst snd]; try done.
      + eexists. unfold relation_tree. cbv zeta. rewrite Hd, Hax, Hrg. cbn [fst snd]. split; [done|]. split; [|done]. exact V2.
      + apply B2.
  Qed.

  Lemma relations_visit h0 : WF0 h0 -> named h0 -> p < length h0 -> forall rs s d a xs d' s',
    linv s d env -> opened s d path p -> grows h0 (heap s) a -> sems_new h0 (heap s) ->
    joint_relations fl rad p edge rs d s = (Ok (xs, d'), s') ->
    exists svs, Forall2 (fun r y => rel_ok h0 (heap s') r (fst y) (snd y)) rs (zip xs svs) /\ length xs = length svs /\
      step path env (only p svs) s d s' d' /\ sems_new h0 (heap s') /\ ld_refs d' = ld_refs d.
  Proof.
    intros W0 N0 Hp. induction rs as [|r rs IH]; intros s d a xs d' s' I O G Sn E.
    - apply ret_inv in E as [E ->]. injection E as -> ->. exists []. split; [constructor|]. split; [done|]. split; [|done].
      eapply step_ext; [|by apply step_refl]. intros l _. unfold only. by case_decide.
    - cbn [joint_relations] in E. apply bind_inv in E as ([x d1] & s1 & E1 & E). apply bind_inv in E as ([ys d2] & s2 & E2 & E). apply ret_inv in E as [E ->]. injection E as -> ->.
      destruct (relation_visit h0 a s d r x d1 s1 W0 N0 I O Hp G Sn E1) as (sv & R & S1 & Sn1 & Hr1).
      cbn [snd] in E2. destruct (IH s1 d1 (fun l => a l ++ only p [sv] l) ys d2 s2 (linv_after _ _ _ _ _ _ _ S1)) as (svs & F & Hl & S2 & Sn2 & Hr2).
      { by eapply opened_step. } { eapply grows_trans; [exact G|apply S1]. } { done. } { done. }
      exists (sv :: svs). cbn [fst snd zip zip_with]. split; [|split; [by cbn; rewrite Hl|split; [|split; [done|congruence]]]].
      + constructor; [|exact F]. cbn [fst snd]. eapply rel_ok_grows; [done|apply S2|exact R].
      + exact (step_only _ _ _ _ _ _ _ _ _ _ _ S1 S2).
  Qed.
End joints.
