(** * Loading: what is accepted has its references bound *)
From stdpp Require Import relations.
From Verif Require Import Spec Hierarchy Elements Factory History PDict PPath PExec PBfs PWF PAdd PMono PStep PRemove PReach PPrim PHist QHier QHier2 QHier3 QHier4 QHier5 QHier6 QFac SpecFac QFac2 CogniLang QCog QCog2 QCog3 QCog4 QCog5 QCog6 QCog7 QCog8 QConv QGo QGo2 QGo3 QGo4 QGo5 QGo6 SpecBound.

(** The cache holds what the entries say. *)
Definition covers (s : st) (d : loader) (es : entries) : Prop :=
  forall k x, dget k (ld_cache d) = Some x -> exists v, entry es k = Some v /\ match v with Some nm => labelled (heap s) x (LNode nm) | None => ~ hyper (heap s) x end.

Lemma covers_kept s s' d env es : covers s d es -> linv s d env -> kept (heap s) (heap s') -> covers s' d es.
Proof.
  intros Cv I K k x Hx. destruct (Cv k x Hx) as (v & Hv & Hm). exists v. split; [done|]. destruct v as [nm|]; [by eapply labelled_kept|].
  intros Hh. apply Hm. eapply hyper_back; [exact K|by eapply li_cex|done].
Qed.
Lemma covers_retag s s' d es x k v : covers s d es -> retag (heap s) (heap s') x k v -> covers s' d es.
Proof.
  intros Cv R q y Hy. destruct (Cv q y Hy) as (w & Hw & Hm). exists w. split; [done|]. destruct w as [nm|].
  - destruct Hm as (o & Ho & H1 & H2). destruct (retag_obj _ _ _ _ _ _ _ R Ho) as (o' & Ho' & E1 & E2 & _). exists o'. split; [done|]. by rewrite E1, E2.
  - intros (o' & Ho' & Hh). apply Hm. destruct (heap s !! y) as [o|] eqn:Ho.
    + destruct (retag_obj _ _ _ _ _ _ _ R Ho) as (o2 & Ho2 & E1 & _). exists o. split; [done|]. congruence.
    + exfalso. destruct (decide (y = x)) as [->|Hyx]; [rewrite (rt_at _ _ _ _ _ R), Ho in Ho'; done|]. rewrite (rt_other _ _ _ _ _ R) in Ho' by done. congruence.
Qed.
Lemma covers_cache s d es env x d' s' k v : covers s d es -> linv s d env -> full_name (heap s) x k -> cache_element x d s = (Ok d', s') ->
  match v with Some nm => labelled (heap s) x (LNode nm) | None => ~ hyper (heap s) x end -> covers s d' (es ++ [(k, v)]).
Proof.
  intros Cv I F E Hv. apply cache_inv in E as (_ & o & Ho & ->). pose proof (clean_name s x o _ (li_clean _ _ _ I) Ho F) as Hq. rewrite Hq.
  intros q y Hy. cbn [ld_cache set_cache] in Hy. rewrite dget_dset in Hy. rewrite entry_snoc. destruct (decide (q = k)) as [->|Hne].
  - injection Hy as <-. rewrite decide_True by done. exists v. done.
  - rewrite decide_False by done. by apply Cv.
Qed.
Lemma sem_not_hyper h h' p x oc c : born_at h h' p x oc -> o_kind oc = KSem c -> ~ hyper h' x.
Proof.
  intros B Hk (o & Ho & Hh). pose proof (born_get o_kind _ _ _ _ _ B (fun _ => eq_refl)) as F. rewrite Ho in F. cbn in F. injection F as F. rewrite F, Hk in Hh. done.
Qed.

(** Two relations of an edge never lead to elements of the same name. *)
Lemma unary_clash s e n w d sem r s' x : WF0 (heap s) -> WF0 (heap s') -> allowed (heap s) (OUnary e n w d sem) -> unary_connect e n w d sem s = (Ok r, s') ->
  x ∈ children (heap s') e -> exists_in (heap s) x -> uuid_of (heap s) x <> sha s (elem_id_text (name_of (heap s) e) (name_of (heap s) n)).
Proof.
  intros W W' Ha E Hx Hxe Hu. destruct (unary_result s e n w d sem r s' W Ha E) as (Hr & Hru & _ & Hrn).
  pose proof (pres_unary_connect e n w d sem s) as Mn. rewrite E in Mn. cbn [snd] in Mn. destruct Hxe as [ox Hox]. destruct (m_obj _ _ Mn x ox Hox) as (ox' & Hox' & Hm).
  assert (x = r) as ->; [|apply Hrn; by eexists]. apply (same_uuid_child (heap s') e); [done|done|done|]. rewrite Hru. unfold elem_id_text in Hu. rewrite <- Hu.
  unfold uuid_of. rewrite Hox, Hox'. cbn. apply (om_uuid _ _ _ _ Hm).
Qed.

Section links.
  Context (fl : string -> option Qc) (rad : Qc) (env ENV : list (string * string)) (Hpre : env `prefix_of` ENV).

  Lemma rigid_bound path s d es el r sv t q d' s' lb : linv s d env -> covers s d es -> exists_in (heap s) el -> el <> ld_params d -> full_name (heap s) el (join "/" path +:+ "/" +:+ lb) ->
    rigid_element fl rad el r d s = (Ok (sv, t, q, d'), s') ->
    covers s' d' (es ++ [(join "/" path +:+ "/" +:+ (lb +:+ "/" +:+ name_of (heap s) el +:+ "_transformation"), None)]).
  Proof.
    intros I Cv Hel Hp Hn E. unfold rigid_element in E. apply bind_inv in E as (s0 & s1 & E0 & E). apply get_inv in E0 as [-> ->].
    apply bind_inv in E as ([[t0 q0] ty] & s1 & E0 & E). apply lift_inv in E0 as [Ev ->]. apply bind_inv in E as (o & s1 & E0 & E). apply deref_inv in E0 as [Ho ->].
    apply bind_inv in E as (sv0 & s1 & E1 & E). apply bind_inv in E as (d1 & s2 & E2 & E). apply ret_inv in E as [E ->]. injection E as -> -> -> ->.
    apply (sem_step path env _ d _ _ _ _ _ _ _ _ SRigidTransformation I) in E1 as (oc & B & Hk & Hnm & Ha & S1 & V); [|done|done|done|reflexivity].
    pose proof (born_under path _ _ _ _ _ _ (linv_wf _ _ _ I) B Hn) as F. rewrite Hnm in F.
    assert (En : name_of (heap s) el = o_name o) by (unfold name_of; by rewrite Ho). rewrite En.
    pose proof E2 as E2'. apply cache_inv in E2' as [-> _].
    eapply (covers_cache s1 d es env sv0 d1 s1); [eapply covers_kept; [exact Cv|exact I|apply S1]|by eapply linv_after|exact F|exact E2|by eapply sem_not_hyper].
  Qed.

  Lemma reference_bd path lk own ref g gq s d p es d' s' : linv s d env -> covers s d es -> opened s d path p -> labelled (heap s) g (LNode gq) ->
    add_reference ((path ++ [lk]) ++ [own]) g ref d s = (Ok d', s') ->
    let t := inferred_name ((path ++ [lk]) ++ [own]) ref in
    t ∈ dkeys (ld_refs d) \/ (exists nm, entry es t = Some (Some nm) /\ nm <> gq).
  Proof.
    intros I Cv O Hg E t. unfold add_reference in E. apply bind_inv in E as (pg & s1 & E1 & E). apply cached_inv in E1 as [Hpg ->].
    rewrite removelast2, (op_cached _ _ _ _ O) in Hpg. injection Hpg as <-. cbv zeta in E. fold t in E.
    apply bind_inv in E as (x & s1 & E1 & E). apply of_opt_inv in E1 as [Hx ->]. destruct (dget t (ld_refs d)) as [y|] eqn:Hd.
    - left. apply dget_is_Some. by eexists.
    - right. apply bind_inv in E as (og & s1 & E1 & E). apply deref_inv in E1 as [Hog ->].
      assert (Hgn : o_name og = gq) by (destruct Hg as (o & Ho & _ & Hn); congruence). rewrite Hgn in E.
      apply bind_inv in E as (e & s1 & E1 & E). pose proof (opened_exists _ _ _ _ O) as Hp. pose proof (linv_wf _ _ _ I) as W.
      destruct (edge_born _ _ _ _ _ _ (li_clean _ _ _ I) Hp E1) as (C1 & u & prog & c & B). pose proof (clean_wf _ C1) as W1.
      pose proof (born_not _ _ _ _ _ B) as Hne. pose proof (born_exists _ _ _ _ _ B) as Hee.
      apply bind_inv in E as (r1 & s2 & E2 & E). pose proof (li_cex _ _ _ I t x Hx) as Hxe. pose proof (labelled_exists _ _ _ Hg) as Hge.
      assert (Hx1 : exists_in (heap s1) x) by (eapply grows_exists; [apply B|done]).
      destruct (unary_hyper _ _ _ _ _ _ _ _ W1 Hee Hx1 E2) as (ox & Hox & Hxk).
      assert (Hhx : hyper (heap s) x) by (eapply hyper_back; [apply B|done|by exists ox]).
      destruct (Cv t x Hx) as ([nm|] & Hen & Hm); [|done]. exists nm. split; [done|]. intros ->.
      destruct (rel_born _ _ _ _ _ _ _ C1 Hee Hx1 ltac:(by intros ->) E2) as (C2 & -> & G2 & K2 & R2 & P2).
      assert (W2 : WF0 (heap s2)) by (by apply clean_wf).
      apply bind_inv in E as (r2 & s3 & E3 & E). apply ret_inv in E as [-> ->].
      assert (He2 : exists_in (heap s2) e) by (by eapply grows_exists).
      assert (Hg1 : exists_in (heap s1) g) by (eapply grows_exists; [apply B|done]).
      assert (Hg2 : exists_in (heap s2) g) by (eapply grows_exists; [exact G2|done]).
      destruct (rel_born _ _ _ _ _ _ _ C2 He2 Hg2 ltac:(by intros ->) E3) as (C3 & -> & G3 & K3 & R3 & P3).
      destruct (unary_result s1 e x WNone OUTWARDS None _ s2 W1 ltac:(done) E2) as (Hr & Hru & _ & _).
      pose proof (pres_unary_connect e x WNone OUTWARDS None s1) as Mn. rewrite E2 in Mn. cbn [snd] in Mn.
      set (r1 := length (heap s1)) in *. assert (Hr1e : exists_in (heap s2) r1) by (destruct R2 as (o & Ho & _); by eexists).
      eapply (unary_clash s2 e g WNone INWARDS None _ s3 r1 W2 (clean_wf _ C3) ltac:(done) E3).
      + apply (wf0_parent _ (clean_wf _ C3)); [by eapply grows_exists|]. rewrite (gs_unmoved _ _ _ G3) by done. by apply (wf0_child _ W2 e r1).
      + done.
      + rewrite Hru, (m_sha _ _ Mn). unfold elem_id_text. do 2 f_equal.
        * symmetry. apply (kept_name _ _ _ (gs_kept _ _ _ G2)). done.
        * f_equal. rewrite (kept_name _ _ _ (gs_kept _ _ _ G2)) by done. rewrite !(kept_name _ _ _ (gs_kept _ _ _ (bn_grows _ _ _ _ _ B))) by done.
          destruct Hm as (o1 & Ho1 & _ & Hn1). unfold name_of. rewrite Ho1, Hog. cbn. congruence.
  Qed.

  Lemma geometry_bound path lk pt s d p cont es d' s' : let lpath := path ++ [lk] in let pn := part_name lpath pt in
    linv s d env -> covers s d es -> opened s d path p -> labelled (heap s) cont (LNode pn) -> cont <> ld_params d ->
    full_name (heap s) cont (join "/" lpath +:+ "/" +:+ pn) ->
    collect_geometries fl (lpath ++ [own_name (match pt with CVisual id _ _ => id | CCollision id _ => id end)]) cont (part_geometry pt) d s = (Ok d', s') ->
    part_found lpath es (dkeys (ld_refs d)) pt /\ covers s' d' (es ++ geometry_entries (lpath ++ [pn]) ("geom_" +:+ pn) (part_geometry pt)).
  Proof.
    intros lpath pn I Cv O Hl Hcp Hn E. pose proof (linv_wf _ _ _ I) as W. pose proof (labelled_exists _ _ _ Hl) as Hce.
    assert (Hlp : lpath <> []) by (unfold lpath; by destruct path).
    unfold collect_geometries in E. apply bind_inv in E as (oc & s1 & E1 & E). apply deref_inv in E1 as [Hoc ->].
    assert (Hon : o_name oc = pn) by (destruct Hl as (o & Ho & _ & Hx); congruence).
    rewrite Hon in E. change (join "_" ["geom"; pn]) with ("geom_" +:+ pn) in E. apply bind_inv in E as (gel & s1 & E1 & E).
    pose proof (labelled_kind _ _ _ Hl) as Hk. cbn in Hk.
    apply (node_step lpath env _ d _ _ _ _ _ I) in E1 as (og & B & Hog & S1 & L1); [|done|by rewrite Hk|done].
    pose proof (linv_after _ _ _ _ _ _ _ S1) as I1. pose proof (linv_wf _ _ _ I1) as W1.
    pose proof (born_under lpath _ _ _ _ _ _ W B Hn) as Fg. rewrite Hog in Fg. pose proof (born_not _ _ _ _ _ B) as Hge.
    assert (Hgp : gel <> ld_params d) by (intros ->; apply Hge, I).
    pose proof (opened_exists _ _ _ _ O) as Hpe. pose proof Hpe as Hplt. apply exists_in_lt in Hplt. pose proof (bn_len _ _ _ _ _ B) as Hl1.
    assert (Cv1 : covers s1 d es) by (eapply covers_kept; [exact Cv|exact I|apply S1]).
    apply bind_inv in E as (d1 & s2 & E1 & E).
    assert (X : part_found lpath es (dkeys (ld_refs d)) pt /\ linv s2 d1 env /\ labelled (heap s2) gel (LNode ("geom_" +:+ pn)) /\ full_name (heap s2) gel (join "/" lpath +:+ "/" +:+ pn +:+ "/" +:+ "geom_" +:+ pn) /\
      covers s2 d1 (es ++ match part_geometry pt with GOwn _ _ => [(join "/" ((lpath ++ [pn]) ++ ["geom_" +:+ pn; "geom_" +:+ pn]), None)] | GRef _ => [] end)).
    { unfold part_found. destruct (part_geometry pt) as [t f|ref]; cbn [geometry_tree].
      - split; [done|]. apply bind_inv in E1 as (s0 & s3 & E2 & E1). apply get_inv in E2 as [-> ->].
        apply bind_inv in E1 as (vs & s3 & E2 & E1). apply lift_inv in E2 as [Ev ->]. apply bind_inv in E1 as (sv & s3 & E2 & E1).
        destruct (sem_born _ _ _ _ _ [("name", PStr ("geom_" +:+ pn))] _ _ _ (li_clean _ _ _ I1) (born_exists _ _ _ _ _ B) ltac:(done) E2) as (_ & c & _ & Hc & _).
        apply (sem_step lpath env _ d _ _ _ _ _ _ _ _ c I1) in E2 as (osv & Bs & Hks & Hns & _ & S2 & V); [|by eapply born_exists|done|done|done].
        pose proof (born_under lpath _ _ _ _ _ _ W1 Bs Fg) as Fs. rewrite Hns in Fs. pose proof E1 as E1'. apply cache_inv in E1' as [-> _].
        pose proof E1 as E1'. apply (cache_step lpath env) with (t := (pn +:+ "/" +:+ "geom_" +:+ pn) +:+ "/" +:+ "geom_" +:+ pn) in E1' as (_ & S3 & Hr & _); [|by eapply linv_after|exact Fs].
        split; [by eapply linv_after|]. split; [eapply labelled_kept; [apply S2|exact Logic.I|exact L1]|]. split; [eapply grows_name; [exact W1|apply S2|exact Fg]|].
        replace (join "/" ((lpath ++ [pn]) ++ ["geom_" +:+ pn; "geom_" +:+ pn])) with (join "/" lpath +:+ "/" +:+ (pn +:+ "/" +:+ "geom_" +:+ pn) +:+ "/" +:+ "geom_" +:+ pn).
        2:{ rewrite <- app_assoc. rewrite (join_apps lpath) by done. cbn [app]. change (join "/" [pn; "geom_" +:+ pn; "geom_" +:+ pn]) with (pn +:+ "/" +:+ ("geom_" +:+ pn) +:+ "/" +:+ "geom_" +:+ pn). by rewrite !app_assoc_s. }
        eapply (covers_cache s3 d es env sv d1 s3); [eapply covers_kept; [exact Cv1|exact I1|apply S2]|by eapply linv_after|exact Fs|exact E1|by eapply sem_not_hyper].
      - assert (O1 : opened s1 d path p) by (eapply opened_deeper; [apply O|exact O|exact S1]).
        assert (Ht : target lpath pt ref = inferred_name ((path ++ [lk]) ++ [own_name (match pt with CVisual id _ _ => id | CCollision id _ => id end)]) ref)
            by (unfold target, inferred_name, own_name; by destruct pt).
        split; [rewrite Ht; exact (reference_bd path lk _ ref gel ("geom_" +:+ pn) s1 d p es d1 s2 I1 Cv1 O1 L1 E1)|].
        destruct (reference_visit env path lk _ ref gel ("geom_" +:+ pn) s1 d p d1 s2 I1 O1 ltac:(lia) L1 E1 _ Fg) as (ees & ets & Hr & S2 & Hca & V).
        split; [by eapply linv_after|]. split; [eapply labelled_kept; [apply S2|exact Logic.I|exact L1]|]. split; [eapply grows_name; [exact W1|apply S2|exact Fg]|].
        rewrite app_nil_r. intros k x Hx. rewrite Hca in Hx. exact (covers_kept s1 s2 d env es Cv1 I1 (gs_kept _ _ _ (sp_grows _ _ _ _ _ _ _ S2)) k x Hx). }
    destruct X as (X1 & I2 & L2 & F2 & Cv2). split; [done|]. unfold geometry_entries. rewrite app_assoc. pose proof E as E'. apply cache_inv in E' as [-> _].
    replace (join "/" ((lpath ++ [pn]) ++ ["geom_" +:+ pn])) with (join "/" lpath +:+ "/" +:+ pn +:+ "/" +:+ "geom_" +:+ pn) by (rewrite <- app_assoc; rewrite (join_apps lpath) by done; done).
    by eapply (covers_cache s2 d1 _ env gel d' s2).
  Qed.

  Lemma part_bound path lk pt s d p lx es d' s' : let lpath := path ++ [lk] in
    linv s d env -> covers s d es -> opened s d path p -> opened s d lpath lx -> visit_part fl lpath pt d s = (Ok d', s') ->
    part_found lpath (es ++ [part_entry lpath pt]) (dkeys (ld_refs d)) pt /\ covers s' d' (es ++ part_entries lpath pt).
  Proof.
    intros lpath I Cv O Ol E. pose proof (linv_wf _ _ _ I) as W. pose proof (opened_exists _ _ _ _ O) as Hpe. pose proof (opened_exists _ _ _ _ Ol) as Hle.
    assert (Hlp : lpath <> []) by (unfold lpath; by destruct path).
    unfold visit_part in E. apply bind_inv in E as (cont & s1 & E1 & E). apply cached_inv in E1 as [Hx ->]. rewrite (op_cached _ _ _ _ Ol) in Hx. injection Hx as <-.
    set (m := match pt with CVisual _ m _ => Some m | CCollision _ _ => None end).
    assert (X : exists el s1 d1 s2 d2 s3, generate_node (ld_nodes d) (part_name lpath pt) (Some lx) s = (Ok el, s1) /\ cache_element el d s1 = (Ok d1, s2) /\
      collect_geometries fl (lpath ++ [own_name (match pt with CVisual id _ _ => id | CCollision id _ => id end)]) el (part_geometry pt) d1 s2 = (Ok d2, s3) /\
      match m with Some m => collect_materials m el d2 s3 = (Ok d', s') | None => d' = d2 /\ s' = s3 end).
    { destruct pt as [id m0 g|id g]; cbn [part_geometry part_name] in *.
      - apply bind_inv in E as (el & s1 & E1 & E). apply bind_inv in E as (d1 & s2 & E2 & E). apply bind_inv in E as (d2 & s3 & E3 & E).
        exists el, s1, d1, s2, d2, s3. done.
      - cbv zeta in E. apply bind_inv in E as (el & s1 & E1 & E). apply bind_inv in E as (d1 & s2 & E2 & E).
        exists el, s1, d1, s2, d', s'. split; [|done]. rewrite <- E1. by destruct id. }
    destruct X as (el & s1 & d1 & s2 & d2 & s3 & E1 & E2 & E3 & E4). clear E. set (pn := part_name lpath pt) in *.
    assert (Hlp0 : lx <> ld_params d) by (pose proof (op_later _ _ _ _ Ol); lia).
    apply (node_step lpath env _ d _ _ _ _ _ I) in E1 as (oc & B & Hoc & S1 & L1); [|done|by rewrite (op_kind _ _ _ _ Ol)|done].
    pose proof (linv_after _ _ _ _ _ _ _ S1) as I1. pose proof (linv_wf _ _ _ I1) as W1.
    pose proof (born_below lpath _ _ _ _ _ W B (opened_name _ _ _ _ _ I Ol)) as F. rewrite Hoc in F.
    assert (Cv1 : covers s1 d es) by (eapply covers_kept; [exact Cv|exact I|apply S1]).
    pose proof E2 as E2'. apply (cache_step lpath env) with (t := pn) in E2' as (-> & S2 & Hr2 & _); [|exact I1|exact F].
    assert (Cv2 : covers s1 d1 (es ++ [part_entry lpath pt])).
    { unfold part_entry. fold pn. rewrite (join_apps lpath [pn]) by done. by eapply (covers_cache s1 d es env el d1 s1). }
    pose proof (linv_after _ _ _ _ _ _ _ S2) as I2. pose proof (born_not _ _ _ _ _ B) as Hne.
    assert (S12 : step lpath env (only lx [el]) s d s1 d1) by (by eapply step_none).
    assert (O2 : opened s1 d1 path p) by (eapply opened_deeper; [apply O|exact O|exact S12]).
    assert (Hpd : ld_params d1 = ld_params d) by apply S2.
    assert (Hep : el <> ld_params d1) by (rewrite Hpd; intros ->; apply Hne, I).
    destruct (geometry_bound path lk pt s1 d1 p el _ d2 s3 I2 Cv2 O2 L1 Hep F E3) as [Hf Cv3]. fold lpath pn in Hf, Cv3. rewrite Hr2 in Hf. split; [exact Hf|].
    destruct (geometry_visit fl env ENV Hpre path lk pt s1 d1 p el d2 s3 I2 O2 L1 Hep F E3) as (gel & gt & ees & ets & _ & _ & S3 & _ & _). fold lpath in S3.
    pose proof (linv_after _ _ _ _ _ _ _ S3) as I3. pose proof (linv_wf _ _ _ I3) as W3.
    unfold part_entries. fold pn. cbv zeta. rewrite <- app_assoc in Cv3. cbn [app] in Cv3.
    destruct pt as [id m0 g|id g]; subst m; cbn in E4.
    - unfold collect_materials in E4. apply bind_inv in E4 as (oe & s4 & E5 & E4). apply deref_inv in E5 as [Hoe ->].
      assert (Hee : exists_in (heap s3) el) by (by eexists).
      assert (Hon : o_name oe = pn).
      { assert (L3 : labelled (heap s3) el (LNode pn)) by (eapply labelled_kept; [apply S3|done|done]). destruct L3 as (o & Ho & _ & Hx); congruence. }
      rewrite Hon in E4. cbv zeta in E4. apply bind_inv in E4 as (sv & s4 & E5 & E4).
      assert (Hpd2 : ld_params d2 = ld_params d1) by apply S3.
      assert (F3 : full_name (heap s3) el (join "/" lpath +:+ "/" +:+ pn)) by (eapply grows_name; [exact W1|apply S3|exact F]).
      apply (sem_step lpath env _ d2 _ _ _ _ _ _ _ _ SVisualMaterial I3) in E5 as (osv & Bs & Hks & Hns & _ & S4 & V); [|done|by rewrite Hpd2|done|reflexivity].
      pose proof (born_under lpath _ _ _ _ _ _ W3 Bs F3) as Fs. rewrite Hns in Fs. pose proof E4 as E4'. apply cache_inv in E4' as [-> _].
      replace (join "/" ((lpath ++ [pn]) ++ ["material_" +:+ pn])) with (join "/" lpath +:+ "/" +:+ pn +:+ "/" +:+ "material_" +:+ pn) by (rewrite <- (app_assoc lpath); rewrite (join_apps lpath) by done; done).
      change (es ++ part_entry lpath (CVisual id m0 g) :: geometry_entries (lpath ++ [pn]) ("geom_" +:+ pn) (part_geometry (CVisual id m0 g)) ++ [(join "/" lpath +:+ "/" +:+ pn +:+ "/" +:+ "material_" +:+ pn, None)])
        with (es ++ ((part_entry lpath (CVisual id m0 g) :: geometry_entries (lpath ++ [pn]) ("geom_" +:+ pn) (part_geometry (CVisual id m0 g))) ++ [(join "/" lpath +:+ "/" +:+ pn +:+ "/" +:+ "material_" +:+ pn, @None string)])).
      rewrite app_assoc.
      eapply (covers_cache s4 d2 _ env sv d' s4); [eapply covers_kept; [exact Cv3|exact I3|apply S4]|by eapply linv_after|exact Fs|exact E4|by eapply sem_not_hyper].
    - destruct E4 as [-> ->]. rewrite app_nil_r. exact Cv3.
  Qed.

  Lemma parts_bound path lk p lx : let lpath := path ++ [lk] in forall pts s d es tts d' s',
    linv s d env -> covers s d es -> opened s d path p -> opened s d lpath lx -> fold_m (visit_part fl lpath) pts d s = (Ok d', s') ->
    in_turn (reference_tree lpath) (part_entries lpath) (fun _ es seen p => part_found lpath (es ++ [part_entry lpath p]) seen p) tts es (dkeys (ld_refs d)) pts /\
    covers s' d' (es ++ flat_map (part_entries lpath) pts).
  Proof.
    intros lpath. induction pts as [|pt pts IH]; intros s d es tts d' s' I Cv O Ol E.
    - apply ret_inv in E as [-> ->]. split; [exact Logic.I|]. cbn [flat_map]. by rewrite app_nil_r.
    - rewrite fold_cons in E. apply bind_inv in E as (d1 & s1 & E1 & E).
      destruct (part_bound path lk pt s d p lx es d1 s1 I Cv O Ol E1) as [Hf Cv1]. fold lpath in Hf, Cv1.
      destruct (part_visit fl env ENV Hpre path lk pt s d p lx d1 s1 I O Ol E1) as (x & t & ees & ets & H1 & H2 & S1 & V1 & V2). fold lpath in S1, H2.
      destruct (IH s1 d1 (es ++ part_entries lpath pt) (tts ++ ets) d' s' (linv_after _ _ _ _ _ _ _ S1) Cv1) as [Hr Cv2].
      { eapply opened_deeper; [apply O|exact O|exact S1]. } { by eapply opened_step. } { exact E. }
      split; [cbn [in_turn]; split; [exact Hf|]; rewrite H2; exact Hr|]. cbn [flat_map]. by rewrite app_assoc.
  Qed.

  Lemma link_bound path l s d p es d' s' : linv s d env -> covers s d es -> opened s d path p -> visit_link fl rad path l d s = (Ok d', s') ->
    link_found path es (dkeys (ld_refs d)) l /\ covers s' d' (es ++ link_entries path l).
  Proof.
    intros I Cv O E. pose proof (linv_wf _ _ _ I) as W. pose proof (opened_exists _ _ _ _ O) as Hpe. pose proof (op_path _ _ _ _ O) as Hpa.
    assert (Hpp : p <> ld_params d) by (pose proof (op_later _ _ _ _ O); lia). set (lpath := path ++ [lk_name l]).
    unfold visit_link in E. apply bind_inv in E as (p0 & s1 & E1 & E). apply cached_inv in E1 as [Hx ->]. rewrite (op_cached _ _ _ _ O) in Hx. injection Hx as <-.
    apply bind_inv in E as (el & s1 & E1 & E).
    apply (node_step path env _ d _ _ _ _ _ I) in E1 as (oc & B & Hoc & S1 & L1); [|done|by rewrite (op_kind _ _ _ _ O)|done].
    pose proof (linv_after _ _ _ _ _ _ _ S1) as I1. pose proof (linv_wf _ _ _ I1) as W1. pose proof (born_not _ _ _ _ _ B) as Hne. pose proof (born_exists _ _ _ _ _ B) as Hee.
    assert (Hep : el <> ld_params d) by (intros ->; apply Hne, I).
    pose proof (born_below path _ _ _ _ _ W B (opened_name _ _ _ _ _ I O)) as F. rewrite Hoc in F.
    assert (Cv1 : covers s1 d es) by (eapply covers_kept; [exact Cv|exact I|apply S1]).
    apply bind_inv in E as (sv & s2 & E2 & E). apply bind_inv in E as (d1 & s3 & E3 & E).
    assert (E23 : bind (generate_semantic_element (ld_sems d) "kinematiclink" (lk_name l) el [("name", PStr (lk_name l))] None) (fun sv =>
      match lk_pose l with
      | None => ret d
      | Some r => bind (rigid_element fl rad sv r d) (fun x => let '(tr, t, q, d') := x in
                    bind (add_named_attribute sv "rigidtransformation" (PList [PRef tr; nums t; nums q])) (fun _ => ret d'))
      end) s1 = (Ok d1, s3)) by (rewrite (bind_ok _ _ _ _ _ E2); exact E3).
    destruct (link_head_visit fl rad env ENV Hpre path l s1 d el d1 s3 (lk_name l) I1 Hee Hep F E23) as (sv' & ht & Hh & S23 & _ & Hr23).
    apply (sem_step path env _ d _ _ _ _ _ _ _ _ SKinematicLink I1) in E2 as (os & Bs & Hks & Hns & _ & S2 & _); [|done|done|done|reflexivity].
    pose proof (linv_after _ _ _ _ _ _ _ S2) as I2. pose proof (born_under path _ _ _ _ _ _ W1 Bs F) as Fs. rewrite Hns in Fs.
    assert (Cv2 : covers s2 d es) by (eapply covers_kept; [exact Cv1|exact I1|apply S2]).
    set (nm := lk_name l) in *.
    assert (Cv3 : covers s3 d1 (es ++ match lk_pose l with Some _ => [(join "/" (path ++ [nm; nm; nm +:+ "_transformation"]), None)] | None => [] end)).
    { destruct (lk_pose l) as [r|]; [|apply ret_inv in E3 as [-> ->]; by rewrite app_nil_r].
      apply bind_inv in E3 as ([[[tr t] q] d3] & s4 & E4 & E3). apply bind_inv in E3 as ([] & s5 & E5 & E3). apply ret_inv in E3 as [-> ->].
      apply attr_retag in E5 as [R _]. eapply covers_retag; [|exact R].
      apply (rigid_bound path s2 d es sv r tr t q d3 s4 (nm +:+ "/" +:+ nm)) in E4; [|done|done|by eapply born_exists| |exact Fs].
      - rewrite (born_name _ _ _ _ _ Bs), Hns in E4. rewrite (join_apps path) by done.
        change (join "/" [nm; nm; nm +:+ "_transformation"]) with (nm +:+ "/" +:+ nm +:+ "/" +:+ nm +:+ "_transformation"). rewrite !app_assoc_s in E4. exact E4.
      - intros ->. apply (born_not _ _ _ _ _ Bs), I1. }
    pose proof (linv_after _ _ _ _ _ _ _ S23) as I3. pose proof (linv_wf _ _ _ I3) as W3.
    assert (L3 : labelled (heap s3) el (LNode nm)) by (eapply labelled_kept; [apply S23|exact Logic.I|done]).
    assert (F3 : full_name (heap s3) el (join "/" path +:+ "/" +:+ nm)) by (eapply grows_name; [exact W1|apply S23|exact F]).
    apply bind_inv in E as (d2 & s4 & E4 & E).
    pose proof E4 as E4'. apply (cache_step path env) with (t := nm) in E4' as (-> & S4 & Hr4 & Hc4); [|exact I3|exact F3].
    assert (Cv4 : covers s3 d2 (es ++ link_entry path l)).
    { unfold link_entry. fold nm. rewrite (join_apps path [nm]) by done. rewrite app_assoc. by eapply (covers_cache s3 d1 _ env el d2 s3). }
    pose proof (linv_after _ _ _ _ _ _ _ S4) as I4.
    assert (S14 : step path env (only p [el]) s d s3 d2) by (eapply step_none; [|exact S4]; eapply step_new; [exact S1|exact S23|done]).
    assert (O4 : opened s3 d2 path p) by (by eapply opened_step).
    assert (Hpd : ld_params d2 = ld_params d) by apply S14.
    assert (Ol : opened s3 d2 lpath el).
    { split.
      - unfold lpath. rewrite join_snoc by done. exact Hc4.
      - apply (labelled_kind _ _ _ L3).
      - rewrite Hpd. pose proof (li_ps _ _ _ I) as Hx. apply exists_in_lt in Hx. rewrite (bn_new _ _ _ _ _ B). done.
      - unfold lpath. by destruct path. }
    unfold link_found, link_entries, link_parts. fold nm lpath. destruct (lk_body l) as [[i parts]|].
    - apply bind_inv in E as ([] & s5 & E5 & E). unfold visit_inertia in E5. apply bind_inv in E5 as (c0 & s6 & E6 & E5). apply cached_inv in E6 as [Hx ->].
      change (dget (join "/" lpath) (ld_cache d2) = Some c0) in Hx. rewrite (op_cached _ _ _ _ Ol) in Hx. injection Hx as <-. apply bind_inv in E5 as (q & s6 & E6 & E5). apply lift_inv in E6 as [Hq ->].
      apply bind_inv in E5 as (iv & s6 & E6 & E5). apply ret_inv in E5 as [_ ->].
      apply (sem_step lpath env _ d2 _ _ _ _ _ _ _ _ SInertiaElement I4) in E6 as (oi & Bi & _ & _ & _ & S5 & V5); [|by eapply opened_exists|by rewrite Hpd|done|reflexivity].
      destruct (parts_bound path nm p el parts s6 d2 (es ++ link_entry path l) [] d' s' (linv_after _ _ _ _ _ _ _ S5)) as [Hf Cv5].
      { eapply covers_kept; [exact Cv4|exact I4|apply S5]. } { eapply opened_deeper; [apply O4|exact O4|exact S5]. } { by eapply opened_step. } { exact E. }
      fold lpath in Hf, Cv5. rewrite Hr4, Hr23 in Hf. split; [exact Hf|]. by rewrite app_assoc.
    - apply ret_inv in E as [-> ->]. split; [exact Logic.I|]. cbn [flat_map]. by rewrite app_nil_r.
  Qed.
End links.
