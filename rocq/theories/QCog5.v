(** * Loading: links, plain nodes *)
From stdpp Require Import relations.
From Verif Require Import Spec Hierarchy Elements Factory History PDict PPath PExec PBfs PWF PAdd PMono PStep PRemove PReach PPrim PHist QHier QHier2 QHier3 QHier4 QHier5 QHier6 QFac SpecFac QFac2 CogniLang SpecCogni QCog QCog2 QCog3 QCog4.

Lemma retag_exists h h' x k v l : retag h h' x k v -> exists_in h l -> exists_in h' l.
Proof. intros R H. apply exists_in_lt. rewrite (rt_len _ _ _ _ _ R). by apply exists_in_lt. Qed.
Lemma retag_obj h h' x k v l o : retag h h' x k v -> h !! l = Some o -> exists o', h' !! l = Some o' /\ o_kind o' = o_kind o /\ o_name o' = o_name o /\ o_vals o' = o_vals o.
Proof.
  intros R Ho. destruct (decide (l = x)) as [->|Hl].
  - rewrite (rt_at _ _ _ _ _ R), Ho. by eexists.
  - rewrite (rt_other _ _ _ _ _ R) by done. by exists o.
Qed.
Lemma retag_name h h' x k v y q : retag h h' x k v -> full_name h y q -> full_name h' y q.
Proof.
  intros R H. eapply full_name_ext; [exact H|]. intros l Hl _. split; [by eapply retag_exists|]. split; [by eapply retag_parent|].
  destruct Hl as [o Ho]. destruct (retag_obj _ _ _ _ _ _ _ R Ho) as (o' & Ho' & _ & Hn & _). unfold name_of. rewrite Ho, Ho'. simpl. by rewrite Hn.
Qed.
Lemma retag_linv s s' d env x k v : linv s d env -> clean s' -> retag (heap s) (heap s') x k v -> linv s' d env.
Proof.
  intros I C R. split.
  - done.
  - intros k' y H. eapply retag_exists; [done|]. by apply (li_cex _ _ _ I k').
  - intros k' y o H Ho Hk. destruct (li_cex _ _ _ I k' y H) as [o0 Ho0]. destruct (retag_obj _ _ _ _ _ _ _ R Ho0) as (o' & Ho' & Hk' & _).
    eapply retag_name; [done|]. apply (li_cache _ _ _ I k' y o0); [done|done|]. rewrite Ho in Ho'. injection Ho' as ->. by rewrite <- Hk'.
  - eapply retag_exists; [done|]. apply I.
  - pose proof (li_params _ _ _ I) as H. unfold params_are in *. rewrite (retag_kids _ _ _ _ _ _ R), <- H. pose proof (kids_exist _ (ld_params d) (linv_wf _ _ _ I)) as Hk.
    clear H. revert Hk. generalize (kids (heap s) (ld_params d)). intros l. induction l as [|c l IH]; intros Hk; [done|]. rewrite !omap_cons.
    rewrite IH by (intros; apply Hk; by right). assert (E : pv (heap s') c = pv (heap s) c); [|by rewrite E].
    destruct (Hk c ltac:(left)) as [o Ho]. destruct (retag_obj _ _ _ _ _ _ _ R Ho) as (o' & Ho' & E1 & E2 & E3). unfold pv. by rewrite Ho, Ho', E1, E2, E3.
Qed.
Lemma leaf_retag n h h' x k v y c nm a : retag h h' x k v -> y <> x -> viewn n h y (sem_leaf c nm a) -> viewn n h' y (sem_leaf c nm a).
Proof.
  unfold sem_leaf. intros R Hy V. inversion V as [? ? ? Hn Hla F]; subst. destruct Hla as (o & Ho & H1 & H2 & H3). assert (Hk : kids h y = []) by (by inversion F). constructor; [done| |].
  - exists o. split; [by rewrite (rt_other _ _ _ _ _ R)|]. split; [done|]. split; [done|]. clear -H3. revert H3. generalize (o_attr o). intros l. revert l.
    induction a as [|[b w] a IH]; intros l F; inversion F as [|? ? ? ? Hx F']; subst; constructor; [done|by apply IH].
  - rewrite (retag_kids _ _ _ _ _ _ R), Hk. constructor.
Qed.
Lemma retag_obj_at h h' x k v o : retag h h' x k v -> h !! x = Some o -> h' !! x = Some (s_attr (dset k v (o_attr o)) o).
Proof. intros R Ho. by rewrite (rt_at _ _ _ _ _ R), Ho. Qed.

Section visits.
  Context (fl : string -> option Qc) (rad : Qc) (env ENV : list (string * string)) (Hpre : env `prefix_of` ENV).

  Lemma link_head_visit path l s d el d' s' lb : linv s d env -> exists_in (heap s) el -> el <> ld_params d -> full_name (heap s) el (join "/" path +:+ "/" +:+ lb) ->
    bind (generate_semantic_element (ld_sems d) "kinematiclink" (lk_name l) el [("name", PStr (lk_name l))] None) (fun sv =>
      match lk_pose l with
      | None => ret d
      | Some r => bind (rigid_element fl rad sv r d) (fun x => let '(tr, t, q, d') := x in
                    bind (add_named_attribute sv "rigidtransformation" (PList [PRef tr; nums t; nums q])) (fun _ => ret d'))
      end) s = (Ok d', s') ->
    exists sv t, link_head fl rad ENV l = Some t /\ step path env (only el [sv]) s d s' d' /\ viewn (length (heap s)) (heap s') sv t /\ ld_refs d' = ld_refs d.
  Proof.
    intros I Hel Hp Hn E. apply bind_inv in E as (sv & s1 & E1 & E).
    pose proof (linv_wf _ _ _ I) as W.
    apply (sem_step path env _ d _ _ _ _ _ _ _ _ SKinematicLink I) in E1 as (oc & B & Hk & Hnm & Ha & S1 & V); [|done|done|done|reflexivity].
    unfold link_head. destruct (lk_pose l) as [r|].
    - apply bind_inv in E as ([[[tr t] q] d1] & s2 & E1 & E). apply bind_inv in E as ([] & s3 & E2 & E). apply ret_inv in E as [-> ->].
      pose proof (linv_after _ _ _ _ _ _ _ S1) as I1. pose proof (linv_wf _ _ _ I1) as W1. pose proof (born_not _ _ _ _ _ B) as Hne.
      pose proof (born_under path _ _ _ _ _ _ W B Hn) as F. pose proof (born_exists _ _ _ _ _ B) as Hee.
      apply (rigid_visit fl rad env ENV Hpre path s1 d sv r tr t q d1 s2 (lb +:+ "/" +:+ o_name oc) I1 Hee) in E1 as (q0 & ty & otr & Hr & -> & Bt & S2 & V2 & Hre); [|intros ->; apply Hne, I|exact F].
      rewrite Hr. rewrite (born_name _ _ _ _ _ B), Hnm in V2. pose proof (linv_after _ _ _ _ _ _ _ S2) as I2.
      pose proof (attr_clean _ _ _ _ _ (li_clean _ _ _ I2) E2) as C3. apply attr_retag in E2 as [R _]. eexists sv, _. split; [done|].
      assert (G2 : grows (heap s) (heap s2) (only el [sv])) by (eapply grows_new; [apply S1|apply S2|done]).
      split.
      { split; [by eapply retag_linv|by eapply retag_grows|eapply cext_trans; [apply S1|apply S2]|eapply same_trans; [apply S1|apply S2]]. }
      split; [|done]. pose proof (bn_new _ _ _ _ _ B) as Hs. pose proof (bn_new _ _ _ _ _ Bt) as Ht. pose proof (bn_len _ _ _ _ _ B) as Hl1.
      assert (Kx : kids (heap s3) sv = [tr]).
      { rewrite (retag_kids _ _ _ _ _ _ R), (gs_kids _ _ _ (sp_grows _ _ _ _ _ _ _ S2)) by done. rewrite only_at. by rewrite (bn_kids _ _ _ _ _ B). }
      constructor; [lia| |].
      + assert (L2 : labelled (heap s2) sv (LSem SKinematicLink (lk_name l) (plain [("name", PStr (lk_name l))]))).
        { destruct Hee as [o Ho]. pose proof (gs_kept _ _ _ (sp_grows _ _ _ _ _ _ _ S2) sv o Ho) as K. unfold sem_leaf in V. inversion V as [? ? ? _ Hla _]; subst. destruct Hla as (o1 & Ho1 & V1 & V3 & V4).
          assert (o1 = o) as -> by congruence. destruct (heap s2 !! length (heap s)) as [o2|] eqn:Ho2; [|done]. cbn [fmap option_fmap option_map] in K. apply (inj Some) in K.
          exists o2. split; [done|].
          change (o_kind o2) with (o_kind (ident_part o2)). change (o_name o2) with (o_name (ident_part o2)). change (o_attr o2) with (o_attr (ident_part o2)). rewrite K.
          split; [exact V1|]. split; [exact V3|]. change (o_attr (ident_part o)) with (o_attr o). eapply Forall2_impl; [exact V4|]. intros [k1 v1] [k2 [v2|]] [X1 X2]; simpl in *; [done|].
          destruct X2 as (y & Hy & _). rewrite (bn_kids _ _ _ _ _ B) in Hy. done. }
        destruct L2 as (o2 & Ho2 & V1 & V3 & V4). eexists. split; [exact (retag_obj_at _ _ _ _ _ _ R Ho2)|]. split; [done|]. split; [done|].
        inversion V4 as [|a b ? ? X1 X2 X3]; subst. inversion X2; subst. destruct a as [k v]. destruct X1 as [X1 X4]. simpl in X1, X4. subst k v. simpl.
        constructor; [done|]. constructor; [|constructor]. split; [done|]. eexists. split; [exact Kx|done].
      + rewrite Kx. constructor; [|constructor]. eapply leaf_retag; [exact R|lia|]. eapply viewn_le; [|exact V2]. lia.
    - apply ret_inv in E as [-> ->]. eexists sv, _. split; [done|]. split; [exact S1|]. split; [exact V|done].
  Qed.

  Lemma thread_cons {A} (f : list string -> A -> option (list tree * list string)) seen x l :
    thread f seen (x :: l) = match f seen x with Some (ts, seen1) => match thread f seen1 l with Some (ts', seen2) => Some (ts ++ ts', seen2) | None => None end | None => None end.
  Proof. done. Qed.
  Lemma fold_cons {A B} (f : A -> B -> M B) x l d : fold_m f (x :: l) d = bind (f x d) (fun d' => fold_m f l d').
  Proof. done. Qed.

  Lemma parts_visit path lk p lx : let lpath := path ++ [lk] in forall pts s d d' s',
    linv s d env -> opened s d path p -> opened s d lpath lx -> fold_m (visit_part fl lpath) pts d s = (Ok d', s') ->
    exists xs ts es ets, part_trees fl ENV lpath pts = Some ts /\ thread (reference_tree lpath) (dkeys (ld_refs d)) pts = Some (ets, dkeys (ld_refs d')) /\
      step lpath env (fun l => only lx xs l ++ only p es l) s d s' d' /\
      Forall2 (viewn (length (heap s)) (heap s')) xs ts /\ Forall2 (viewn (length (heap s)) (heap s')) es ets.
  Proof.
    intros lpath. induction pts as [|pt pts IH]; intros s d d' s' I O Ol E.
    - apply ret_inv in E as [-> ->]. exists [], [], [], []. split; [done|]. split; [done|]. split; [|by split].
      eapply step_ext; [|by apply step_refl]. intros l _. unfold only. by repeat case_decide.
    - rewrite fold_cons in E. apply bind_inv in E as (d1 & s1 & E1 & E).
      destruct (part_visit fl env ENV Hpre path lk pt s d p lx d1 s1 I O Ol E1) as (x & t & es & ets & H1 & H2 & S1 & V1 & V2). fold lpath in S1.
      fold lpath in H1, H2. pose proof (linv_after _ _ _ _ _ _ _ S1) as I1.
      destruct (IH s1 d1 d' s' I1) as (xs & ts & es' & ets' & H3 & H4 & S2 & V3 & V4).
      { eapply opened_deeper; [apply O|exact O|exact S1]. } { by eapply opened_step. } { done. }
      exists (x :: xs), (t :: ts), (es ++ es'), (ets ++ ets'). cbn [part_trees]. rewrite H1, H3. split; [done|]. rewrite thread_cons, H2, H4. split; [done|].
      pose proof (opened_exists _ _ _ _ O) as Hp. pose proof (opened_exists _ _ _ _ Ol) as Hl. apply exists_in_lt in Hp, Hl.
      pose proof (gs_len _ _ _ (sp_grows _ _ _ _ _ _ _ S1)) as Hlen.
      assert (Hno : forall y, length (heap s) <= y -> only lx xs y ++ only p es' y = []) by (intros y Hy; rewrite !only_ne by lia; done).
      split.
      { eapply step_ext; [|eapply step_trans; [exact S1|exact S2]]. intros y Hy. simpl. unfold only. destruct (decide (y = lx)) as [E1x|]; destruct (decide (y = p)) as [E2x|]; simpl; rewrite ?app_nil_r; try done.
        exfalso. subst y. subst p. pose proof (linv_wf _ _ _ I) as W. pose proof (opened_name _ _ _ _ _ I O) as N1. pose proof (opened_name _ _ _ _ _ I Ol) as N2.
        pose proof (full_name_det _ _ _ _ N1 N2) as Eq. apply (under_self path). rewrite Eq at 1. apply under_child. apply O. }
      split.
      + constructor; [eapply viewn_grows; [by eapply linv_wf|apply S2|exact Hno|exact V1]|]. eapply views_le; [|exact V3]. lia.
      + apply Forall2_app; [eapply views_grows; [by eapply linv_wf|apply S2|exact Hno|exact V2]|]. eapply views_le; [|exact V4]. lia.
  Qed.

  Lemma link_visit path l s d p d' s' : linv s d env -> opened s d path p -> visit_link fl rad path l d s = (Ok d', s') ->
    exists news ts, kitem_trees fl rad ENV path (dkeys (ld_refs d)) (KiLink l) = Some (ts, dkeys (ld_refs d')) /\
      step path env (only p news) s d s' d' /\ Forall2 (viewn (length (heap s)) (heap s')) news ts.
  Proof.
    intros I O E. pose proof (linv_wf _ _ _ I) as W. pose proof (opened_exists _ _ _ _ O) as Hpe. pose proof (op_path _ _ _ _ O) as Hpa.
    assert (Hpp : p <> ld_params d) by (pose proof (op_later _ _ _ _ O); lia). set (lpath := path ++ [lk_name l]).
    unfold visit_link in E. apply bind_inv in E as (p0 & s1 & E1 & E). apply cached_inv in E1 as [Hx ->]. rewrite (op_cached _ _ _ _ O) in Hx. injection Hx as <-.
    apply bind_inv in E as (el & s1 & E1 & E).
    apply (node_step path env _ d _ _ _ _ _ I) in E1 as (oc & B & Hoc & S1 & L1); [|done|by rewrite (op_kind _ _ _ _ O)|done].
    pose proof (linv_after _ _ _ _ _ _ _ S1) as I1. pose proof (linv_wf _ _ _ I1) as W1. pose proof (born_not _ _ _ _ _ B) as Hne. pose proof (born_exists _ _ _ _ _ B) as Hee.
    assert (Hep : el <> ld_params d) by (intros ->; apply Hne, I).
    pose proof (born_below path _ _ _ _ _ W B (opened_name _ _ _ _ _ I O)) as F. rewrite Hoc in F.
    assert (X : exists d1 s2, bind (generate_semantic_element (ld_sems d) "kinematiclink" (lk_name l) el [("name", PStr (lk_name l))] None) (fun sv =>
      match lk_pose l with
      | None => ret d
      | Some r => bind (rigid_element fl rad sv r d) (fun x => let '(tr, t, q, d') := x in
                    bind (add_named_attribute sv "rigidtransformation" (PList [PRef tr; nums t; nums q])) (fun _ => ret d'))
      end) s1 = (Ok d1, s2) /\ bind (cache_element el d1) (fun d2 => match lk_body l with
       | None => ret d2
       | Some (i, parts) => bind (visit_inertia fl lpath i d2) (fun _ => fold_m (visit_part fl lpath) parts d2) end) s2 = (Ok d', s')).
    { apply bind_inv in E as (sv & s2 & E2 & E). apply bind_inv in E as (d1 & s3 & E3 & E). exists d1, s3. split; [|exact E]. rewrite (bind_ok _ _ _ _ _ E2). exact E3. }
    clear E. destruct X as (d1 & s2 & E2 & E).
    destruct (link_head_visit path l s1 d el d1 s2 (lk_name l) I1 Hee Hep F E2) as (sv & ht & Hh & S2 & V2 & Hr2).
    pose proof (linv_after _ _ _ _ _ _ _ S2) as I2. pose proof (linv_wf _ _ _ I2) as W2.
    apply bind_inv in E as (d2 & s3 & E3 & E).
    apply (cache_step path env) with (t := lk_name l) in E3 as (-> & S3 & Hr3 & Hc3); [|exact I2|eapply grows_name; [exact W1|apply S2|exact F]].
    pose proof (linv_after _ _ _ _ _ _ _ S3) as I3.
    assert (S13 : step path env (only p [el]) s d s2 d2) by (eapply step_none; [|exact S3]; eapply step_new; [exact S1|exact S2|done]).
    assert (O3 : opened s2 d2 path p) by (by eapply opened_step).
    assert (Hpd : ld_params d2 = ld_params d) by apply S13.
    assert (Ol : opened s2 d2 lpath el).
    { split.
      - unfold lpath. rewrite join_snoc by done. exact Hc3.
      - rewrite (kept_kind _ _ _ (gs_kept _ _ _ (sp_grows _ _ _ _ _ _ _ S2))) by done. apply (labelled_kind _ _ _ L1).
      - rewrite Hpd. pose proof (li_ps _ _ _ I) as Hx. apply exists_in_lt in Hx. rewrite (bn_new _ _ _ _ _ B). done.
      - unfold lpath. by destruct path. }
    pose proof (bn_new _ _ _ _ _ B) as Hen. pose proof (bn_len _ _ _ _ _ B) as Hl1. pose proof Hpe as Hplt. apply exists_in_lt in Hplt.
    assert (X : exists zs es ets zts, match lk_body l with
        | None => zts = []
        | Some (i, parts) => exists m ts, fl (in_mass i) = Some m /\ part_trees fl ENV lpath parts = Some ts /\
            zts = sem_leaf SInertiaElement ("inertia_" +:+ join "/" lpath) [("mass", PNum m)] :: ts end /\
      thread (reference_tree lpath) (dkeys (ld_refs d)) (link_parts l) = Some (ets, dkeys (ld_refs d')) /\
      step lpath env (fun l => only el zs l ++ only p es l) s2 d2 s' d' /\
      Forall2 (viewn (length (heap s2)) (heap s')) zs zts /\ Forall2 (viewn (length (heap s2)) (heap s')) es ets).
    { unfold link_parts. destruct (lk_body l) as [[i parts]|].
      - apply bind_inv in E as ([] & s4 & E4 & E). unfold visit_inertia in E4. apply bind_inv in E4 as (c0 & s5 & E5 & E4). apply cached_inv in E5 as [Hx ->].
        rewrite (op_cached _ _ _ _ Ol) in Hx. injection Hx as <-. apply bind_inv in E4 as (q & s5 & E5 & E4). apply lift_inv in E5 as [Hq ->].
        apply bind_inv in E4 as (iv & s5 & E5 & E4). apply ret_inv in E4 as [_ ->].
        apply (sem_step lpath env _ d2 _ _ _ _ _ _ _ _ SInertiaElement I3) in E5 as (oi & Bi & _ & _ & _ & S4 & V4); [|by eapply opened_exists|by rewrite Hpd|done|reflexivity].
        pose proof (linv_after _ _ _ _ _ _ _ S4) as I4.
        destruct (parts_visit path (lk_name l) p el parts s5 d2 d' s' I4) as (xs & ts & es & ets & H1 & H2 & S5 & V5 & V6).
        { eapply opened_deeper; [apply O|exact O3|exact S4]. } { by eapply opened_step. } { exact E. }
        fold lpath in H1, H2, S5. exists (iv :: xs), es, ets. eexists. split.
        { exists q, ts. split; [|done]. cbn in Hq. destruct (fl (in_mass i)); [by injection Hq as ->|done]. }
        rewrite <- Hr2, <- Hr3. split; [done|]. pose proof (opened_exists _ _ _ _ Ol) as He2. apply exists_in_lt in He2.
        pose proof (gs_len _ _ _ (sp_grows _ _ _ _ _ _ _ S2)) as Hl2. pose proof (gs_len _ _ _ (sp_grows _ _ _ _ _ _ _ S4)) as Hl4.
        split.
        { eapply step_ext; [|eapply step_trans; [exact S4|exact S5]]. intros y Hy. simpl. unfold only. by destruct (decide (y = el)). }
        split; [|eapply views_le; [|exact V6]; lia].
        constructor; [|eapply views_le; [|exact V5]; lia]. eapply viewn_grows; [by eapply linv_wf|apply S5| |exact V4]. intros y Hy. simpl. rewrite !only_ne by lia. done.
      - apply ret_inv in E as [-> ->]. exists [], [], [], []. split; [done|]. rewrite <- Hr2, <- Hr3. split; [done|]. split; [|by split].
        eapply step_ext; [|by apply step_refl]. intros y _. unfold only. by repeat case_decide. }
    destruct X as (zs & es & ets & zts & H1 & H2 & S4 & V4 & V5).
    exists (el :: es), (T (LNode (lk_name l)) (ht :: zts) :: ets). cbn [kitem_trees].
    assert (Ht : link_tree fl rad ENV path l = Some (T (LNode (lk_name l)) (ht :: zts))).
    { unfold link_tree. fold lpath. rewrite Hh. destruct (lk_body l) as [[i parts]|]; [|by rewrite H1]. destruct H1 as (m & ts & -> & -> & ->). done. }
    fold lpath. rewrite Ht, H2. split; [done|].
    assert (S4' : step path env (fun l => only el zs l ++ only p es l) s2 d2 s' d') by (eapply step_deeper; [done|exact S4]).
    split.
    { eapply step_ext; [|eapply step_trans; [exact S13|exact S4']]. intros y Hy. simpl. rewrite (only_ne el) by (by intros ->). unfold only. by case_decide. }
    pose proof (gs_len _ _ _ (sp_grows _ _ _ _ _ _ _ S2)) as Hl2.
    constructor; [|eapply views_le; [|exact V5]; lia].
    assert (S24 : step path env (fun y => only el [sv] y ++ (only el zs y ++ only p es y)) s1 d s' d').
    { eapply step_trans; [exact S2|]. eapply none_step; [exact S3|exact S4']. }
    eapply (wrap _ (heap s1) _ _ _ _ (sv :: zs)); [lia|done|done|apply B|apply S24| |].
    - simpl. rewrite !only_at. rewrite only_ne by lia. by rewrite app_nil_r.
    - constructor; [|eapply views_le; [|exact V4]; lia]. eapply viewn_le; [|eapply viewn_grows; [exact W2|apply S4| |exact V2]]; [lia|].
      intros y Hy. simpl. rewrite !only_ne by lia. done.
  Qed.
End visits.
