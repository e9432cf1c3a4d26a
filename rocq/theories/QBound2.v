(** * Loading: what is accepted has its references bound: joints *)
From stdpp Require Import relations.
From Verif Require Import Spec Hierarchy Elements Factory History PDict PPath PExec PBfs PWF PAdd PMono PStep PRemove PReach PPrim PHist QHier QHier2 QHier3 QHier4 QHier5 QHier6 QFac SpecFac QFac2 CogniLang QCog QCog2 QCog3 QCog4 QCog5 QCog6 QCog7 QCog8 QConv QGo QGo2 QGo3 QGo4 QGo5 QGo6 QBound SpecBound.

Lemma join_slash a b l : has_char slash (join "/" (a :: b :: l)) = true.
Proof. change (join "/" (a :: b :: l)) with (a +:+ "/" +:+ join "/" (b :: l)). rewrite has_char_app. apply orb_true_iff. right. rewrite has_char_app. done. Qed.
Lemma full_name_short h x q : full_name h x q -> has_char slash q = false -> name_of h x = q.
Proof.
  intros (ls & Hp & ->) Hs. inversion Hp as [? He Hn|? p ls' He Hn Hp']; subst; [done|]. exfalso.
  destruct (path_cons _ _ _ Hp') as [l' ->]. cbn [map rev] in Hs. rewrite <- app_assoc in Hs. cbn [app] in Hs.
  destruct (rev (map (name_of h) l')) as [|a [|b l]]; cbn [app] in Hs; by rewrite join_slash in Hs.
Qed.
Lemma follow_last h : forall names p x, names <> [] -> x ∈ follow h names p -> name_of h x = default "" (last names).
Proof.
  induction names as [|n names IH]; intros p x Hne Hx; [done|]. cbn [follow] in Hx. apply elem_of_flat_map in Hx as (c & Hc & Hx). apply elem_of_list_filter in Hc as [Hcn Hc].
  destruct names as [|m names]; [cbn [follow] in Hx; apply elem_of_list_singleton in Hx as ->; done|]. specialize (IH c x ltac:(done) Hx). by rewrite last_cons_cons.
Qed.
Lemma head_filter {A} (P Q : A -> Prop) {DP : forall x, Decision (P x)} {DQ : forall x, Decision (Q x)} (l : list A) x :
  head (filter P l) = Some x -> Q x -> head (filter P (filter Q l)) = Some x.
Proof.
  induction l as [|a l IH]; [done|]. rewrite (filter_cons P), (filter_cons Q). destruct (decide (P a)) as [Hp|Hp].
  - intros [= ->] Hq. rewrite decide_True by done. by rewrite filter_cons, decide_True.
  - intros Hh Hq. destruct (decide (Q a)); [rewrite filter_cons, decide_False by done|]; by apply IH.
Qed.

(** What a reference is, seen from the elements before the joint. *)
Definition found_at (h0 : list obj) (p : loc) (ref : string) (ep : loc) : Prop :=
  name_of h0 ep = short_name ref /\
  (ref = "world" \/ has_char slash ref = true \/ head (filter (fun x => name_of h0 x = ref) (kids h0 p)) = Some ep /\ hyper h0 ep).

Section joints.
  Context (fl : string -> option Qc) (rad : Qc) (env ENV : list (string * string)) (Hpre : env `prefix_of` ENV).

  Lemma lookup_bound h0 a s d path p ref ep s' : WF0 h0 -> named h0 -> linv s d env -> opened s d path p -> exists_in h0 p -> grows h0 (heap s) a -> sems_new h0 (heap s) ->
    lookup_reference p ref d s = (Ok ep, s') -> hyper (heap s) ep -> found_at h0 p ref ep.
  Proof.
    intros W0 N0 I O Hp0 G Sn E Hh. pose proof (linv_wf _ _ _ I) as W.
    destruct (reference_ok s d env path p ref ep s' I O E) as (Hss & Hee & Hfn). subst s'. specialize (Hfn Hh).
    destruct (old_hyper _ _ _ _ _ W0 N0 G Sn Hh Hfn) as [He0 F0]. pose proof (kept_name _ _ _ (gs_kept _ _ _ G) He0) as Hn.
    unfold lookup_reference in E. unfold endpoint_name in F0. unfold found_at, short_name. destruct (decide (ref = "world")) as [->|Hw].
    - split; [|by left]. by apply full_name_short in F0.
    - apply bind_inv in E as (l & s1 & E1 & E). apply of_opt_inv in E as [Hl Es]. subst s1.
      destruct (q_C14 s p ref (proj1 (li_clean _ _ _ I)) (opened_exists _ _ _ _ O)) as (r & E2 & Hr & _). rewrite E2 in E1. injection E1 as ->. subst l.
      assert (Hin : ep ∈ follow (heap s) (split_on slash ref) p) by (destruct (follow _ _ _); [done|]; injection Hl as ->; left).
      split; [rewrite <- Hn; by eapply follow_last; [apply split_on_cons_ne|exact Hin]|]. right. destruct (has_char slash ref) eqn:Hs; [by left|]. right.
      assert (Hh0 : hyper h0 ep) by (eapply hyper_back; [apply G|done|done]). split; [|done].
      rewrite (has_char_split _ _ Hs) in Hl, Hin. cbn [follow] in Hl.
      assert (Ef : flat_map (fun x => [x]) (filter (fun x => name_of (heap s) x = ref) (children (heap s) p)) = filter (fun x => name_of (heap s) x = ref) (children (heap s) p)).
      { generalize (filter (fun x => name_of (heap s) x = ref) (children (heap s) p)). intros l. induction l as [|b l IH]; [done|]. cbn [flat_map app]. by rewrite IH. }
      rewrite Ef in Hl.
      assert (Hk : head (filter (fun x => name_of (heap s) x = ref) (kids (heap s) p)) = Some ep).
      { unfold kids. apply head_filter; [exact Hl|]. destruct Hh as (o & Ho & Hko). unfold kind_of. rewrite Ho. cbn. intros [= Hkk]. by rewrite Hkk in Hko. }
      rewrite (gs_kids _ _ _ G) in Hk by done. rewrite filter_app in Hk.
      assert (E0 : filter (fun x => name_of (heap s) x = ref) (kids h0 p) = filter (fun x => name_of h0 x = ref) (kids h0 p)).
      { apply QGo5.filter_ext_in. intros x Hx. rewrite (kept_name _ _ _ (gs_kept _ _ _ G)); [done|by eapply kids_exist]. }
      rewrite E0 in Hk. destruct (filter (fun x => name_of h0 x = ref) (kids h0 p)) as [|y ys] eqn:Ey; [|exact Hk]. exfalso.
      cbn [follow] in Hin. rewrite Ef in Hin. apply elem_of_list_filter in Hin as [Hnm Hin]. destruct (wf0_child _ W p ep Hin) as [_ Hpar]. rewrite (gs_unmoved _ _ _ G) in Hpar by done.
      assert (Hx : ep ∈ filter (fun x => name_of h0 x = ref) (kids h0 p)).
      { apply elem_of_list_filter. split; [by rewrite <- Hn|]. unfold kids. apply elem_of_list_filter. split; [|by apply wf0_parent].
        destruct Hh0 as (o & Ho & Hko). unfold kind_of. rewrite Ho. cbn. intros [= Hkk]. by rewrite Hkk in Hko. }
      rewrite Ey in Hx. inversion Hx.
  Qed.

  Lemma relation_bound path edge h0 a s d p r x d' s' es : WF0 h0 -> named h0 -> linv s d env -> opened s d path p -> exists_in h0 p -> grows h0 (heap s) a -> sems_new h0 (heap s) -> covers s d es ->
    joint_relation fl rad p edge r d s = (Ok (x, d'), s') ->
    covers s' d' (es ++ relation_entries path edge r) /\ (hyper (heap s') (t_ep x) -> found_at h0 p (jr_ref r) (t_ep x)).
  Proof.
    intros W0 N0 I O Hp0 G0 Sn Cv E. pose proof (linv_wf _ _ _ I) as W. pose proof (opened_exists _ _ _ _ O) as Hpe. pose proof (op_path _ _ _ _ O) as Hpa.
    assert (Hpp : p <> ld_params d) by (pose proof (op_later _ _ _ _ O); lia).
    unfold joint_relation in E. apply bind_inv in E as (ep & s1 & E1 & E). pose proof (lookup_bound h0 a s d path p (jr_ref r) ep s1 W0 N0 I O Hp0 G0 Sn E1) as Hf.
    apply (reference_ok s d env path) in E1 as (-> & Hee & _); [|done|done].
    apply bind_inv in E as (dir & s1 & E1 & E). apply lift_inv in E1 as [_ ->].
    apply bind_inv in E as (sv & s1 & E1 & E). set (nm := joint_name edge (jr_ref r)) in *.
    apply (sem_step path env _ d _ _ _ _ _ _ _ _ SKinematicJoint I) in E1 as (oc & B & Hk & Hnm & Ha & S1 & _); [|done|done|done|reflexivity].
    pose proof (linv_after _ _ _ _ _ _ _ S1) as I1. pose proof (linv_wf _ _ _ I1) as W1. pose proof (born_exists _ _ _ _ _ B) as Hse.
    pose proof (born_below path _ _ _ _ _ W B (opened_name _ _ _ _ _ I O)) as F. rewrite Hnm in F.
    assert (Cv1 : covers s1 d es) by (eapply covers_kept; [exact Cv|exact I|apply S1]).
    apply bind_inv in E as ([] & s2 & E2 & E).
    assert (X : linv s2 d env /\ covers s2 d es /\ exists_in (heap s2) sv /\ name_of (heap s2) sv = nm /\ full_name (heap s2) sv (join "/" path +:+ "/" +:+ nm) /\ exists_in (heap s2) ep /\ (hyper (heap s2) ep -> hyper (heap s1) ep)).
    { pose proof (born_name _ _ _ _ _ B) as Hbn. assert (He1 : exists_in (heap s1) ep) by (eapply grows_exists; [apply B|done]). destruct (jr_axis r) as [v|].
      - apply bind_inv in E2 as (s0 & s3 & E3 & E2). apply get_inv in E3 as [-> ->]. apply bind_inv in E2 as (q & s3 & E3 & E2). apply lift_inv in E3 as [Hq ->].
        pose proof (attr_clean _ _ _ _ _ (li_clean _ _ _ I1) E2) as C2. apply attr_retag in E2 as [R _].
        split; [by eapply retag_linv|]. split; [by eapply covers_retag|]. split; [by eapply retag_exists|].
        split; [destruct Hse as [o Ho]; destruct (retag_obj _ _ _ _ _ _ _ R Ho) as (o' & Ho' & _ & K2 & _); unfold name_of in *; rewrite Ho in Hbn; rewrite Ho'; cbn in *; congruence|].
        split; [by eapply retag_name|]. split; [by eapply retag_exists|]. destruct He1 as [o Ho]. destruct (retag_obj _ _ _ _ _ _ _ R Ho) as (o' & Ho' & K1 & _).
        intros (o2 & Ho2 & Hk2). exists o. split; [done|]. congruence.
      - apply ret_inv in E2 as [_ ->]. by rewrite Hbn. }
    destruct X as (I2 & Cv2 & Hse2 & Hn2 & F2 & He2 & Hb). unfold relation_entries. cbv zeta. destruct (jr_rigid r) as [rg|].
    - apply bind_inv in E as ([[[tr t] q] d1] & s3 & E3 & E). apply ret_inv in E as [E ->]. injection E as -> ->. cbn [t_ep fst].
      assert (Hsp : sv <> ld_params d) by (intros ->; apply (born_not _ _ _ _ _ B), I).
      pose proof E3 as E3'. apply (rigid_visit fl rad env ENV Hpre path s2 d sv rg tr t q d1 s3 nm I2) in E3' as (q0 & ty & otr & Hr & -> & Bt & S3 & V3 & Hre); [|done|done|exact F2].
      apply (rigid_bound fl rad env path s2 d es sv rg tr t _ d1 s3 nm I2 Cv2) in E3; [|done|done|exact F2]. rewrite Hn2 in E3.
      split; [rewrite (join_apps path) by done; exact E3|]. intros Hh. apply Hf. eapply hyper_back; [apply B|done|]. apply Hb. eapply hyper_back; [apply Bt|done|done].
    - apply ret_inv in E as [E ->]. injection E as -> ->. cbn [t_ep fst]. rewrite app_nil_r. split; [done|]. intros Hh. apply Hf. eapply hyper_back; [apply B|done|]. by apply Hb.
  Qed.

  Lemma relations_bound path edge p h0 : WF0 h0 -> named h0 -> exists_in h0 p -> forall rs s d a xs d' s' es,
    linv s d env -> opened s d path p -> grows h0 (heap s) a -> sems_new h0 (heap s) -> covers s d es ->
    joint_relations fl rad p edge rs d s = (Ok (xs, d'), s') ->
    covers s' d' (es ++ flat_map (relation_entries path edge) rs) /\ Forall2 (fun r x => hyper (heap s') (t_ep x) -> found_at h0 p (jr_ref r) (t_ep x)) rs xs.
  Proof.
    intros W0 N0 Hp. pose proof Hp as Hplt. apply exists_in_lt in Hplt. induction rs as [|r rs IH]; intros s d a xs d' s' es I O G Sn Cv E.
    - apply ret_inv in E as [E ->]. injection E as -> ->. cbn [flat_map]. rewrite app_nil_r. by split.
    - cbn [joint_relations] in E. apply bind_inv in E as ([x d1] & s1 & E1 & E). apply bind_inv in E as ([ys d2] & s2 & E2 & E). apply ret_inv in E as [E ->]. injection E as -> ->.
      destruct (relation_visit fl rad env ENV Hpre path p edge h0 a s d r x d1 s1 W0 N0 I O Hplt G Sn E1) as (sv & R & S1 & Sn1 & Hr1).
      destruct (relation_bound path edge h0 a s d p r x d1 s1 es W0 N0 I O Hp G Sn Cv E1) as [Cv1 Hf1]. cbn [snd fst] in E2 |- *.
      assert (O1 : opened s1 d1 path p) by (by eapply opened_step).
      assert (G1 : grows h0 (heap s1) (fun l => a l ++ only p [sv] l)) by (eapply grows_trans; [exact G|apply S1]).
      destruct (IH s1 d1 _ ys d2 s2 _ (linv_after _ _ _ _ _ _ _ S1) O1 G1 Sn1 Cv1 E2) as [Cv2 F2].
      destruct (relations_visit fl rad env ENV Hpre path p edge h0 W0 N0 Hplt rs s1 d1 _ ys d2 s2 (linv_after _ _ _ _ _ _ _ S1) O1 G1 Sn1 E2) as (svs & _ & _ & S2 & _ & _).
      cbn [flat_map]. rewrite app_assoc. split; [done|]. constructor; [|done]. intros Hh. apply Hf1. eapply hyper_back; [apply S2|apply R|done].
  Qed.
End joints.

(** No two relations of the edge lead to elements with the same name. *)
Lemma connect_apart hA hB p e K enm : kept hA hB -> kind_of hB p = Some KNode -> parent_of hB e = Some p -> ~ exists_in hA e -> exists_in hB e -> p <> e -> name_of hB e = enm ->
  forall todo rest moved dn rds ns s s', Forall2 (todo_ok hA hB p) todo rest -> NoDup (moved ++ rest) -> e ∉ moved ++ rest -> clean s -> cinv hB p e K (heap s) rest moved dn rds ->
  NoDup ns -> (forall n, n ∈ ns -> exists x, x ∈ kids (heap s) e /\ uuid_of (heap s) x = sha s (elem_id_text enm n)) ->
  connect_tuples e todo s = (Ok tt, s') -> NoDup (ns ++ map (fun x => name_of hA (t_ep x)) todo).
Proof.
  intros HAB Hkp Hpe HeA HeB Hne Hen. induction todo as [|x todo IH]; intros rest moved dn rds ns s s' F Nd Hem C Ci Hns Hch E.
  - cbn [map]. by rewrite app_nil_r.
  - inversion F as [|? sv ? rest' Td F']; subst. destruct x as [[[n d] w] sem]. assert (sem = Some sv) as -> by apply Td.
    cbn [connect_tuples] in E. apply bind_inv in E as (r & s1 & E1 & E). pose proof (clean_wf _ C) as W. set (enm := name_of hB e) in *.
    destruct (connect_step hA hB p e K HAB Hkp Hpe HeA HeB Hne s n d w sv rest' moved dn rds r s1 Td Nd Hem C Ci E1) as (C1 & HhA & Ci1).
    assert (Hsm : sv ∉ moved). { intros Hin. apply NoDup_app in Nd as (_ & Nd & _). apply (Nd sv Hin). left. }
    assert (Hem' : e ∉ moved). { intros Hin. apply Hem. apply elem_of_app. by left. }
    assert (Hes0 : e <> sv). { intros ->. apply Hem. apply elem_of_app. right. left. }
    destruct (connect_facts hA hB p e K HAB Hkp Hpe HeB _ _ _ _ _ _ _ W Td Hsm Hem' Hes0 Ci) as (Hes & Hns0 & Hkps & Hnw & osv & Hosv & Hks & Hps). cbn [t_ep fst] in Hns0.
    assert (Hrem : removable (heap s) sv). { intros q Hq. unfold parent_of in Hq. rewrite Hosv in Hq. simpl in Hq. assert (q = p) as -> by congruence. by rewrite Hkps. }
    assert (Hal : allowed (heap s) (OUnary e n w d (Some sv))). { split; [done|]. split; [done|]. split; [by eexists|]. done. }
    pose proof (clean_wf _ C1) as W1.
    destruct (unary_result s e n w d (Some sv) r s1 W Hal E1) as (Hr & Hru & _ & _).
    pose proof (pres_unary_connect e n w d (Some sv) s) as Mn. rewrite E1 in Mn. cbn [snd] in Mn.
    assert (Hnm : name_of (heap s) n = name_of hA n).
    { apply (kept_name hA); [|destruct HhA as (o & Ho & _); by eexists]. eapply kept_trans; [exact HAB|apply Ci]. }
    assert (Hnme : name_of (heap s) e = enm) by (apply (kept_name hB); [apply Ci|done]).
    assert (Hkids : kids (heap s1) e = kids (heap s) e ++ [r]) by (rewrite (ci_e _ _ _ _ _ _ _ _ _ Ci1), (ci_e _ _ _ _ _ _ _ _ _ Ci); done).
    assert (Hnew : name_of hA n ∉ ns).
    { intros Hin. destruct (Hch _ Hin) as (y & Hy & Hu). apply (unary_clash s e n w d (Some sv) r s1 y W W1 Hal E1).
      - apply kids_children. rewrite Hkids. apply elem_of_app. by left.
      - by eapply kids_exist.
      - by rewrite Hu, Hnme, Hnm. }
    assert (X : NoDup ((ns ++ [name_of hA n]) ++ map (fun x => name_of hA (t_ep x)) todo)); [|by rewrite <- app_assoc in X].
    eapply (IH rest' (moved ++ [sv]) (dn ++ [(n, d, w, Some sv)]) (rds ++ [r]) (ns ++ [name_of hA n]) s1 s'); try done.
    + by rewrite <- app_assoc. + by rewrite <- app_assoc.
    + apply NoDup_app. split; [done|]. split; [|apply NoDup_singleton]. intros z Hz Hz'. apply elem_of_list_singleton in Hz' as ->. done.
    + intros m Hm. rewrite (m_sha _ _ Mn), Hkids. apply elem_of_app in Hm as [Hm|Hm].
      * destruct (Hch m Hm) as (y & Hy & Hu). exists y. split; [apply elem_of_app; by left|]. rewrite <- Hu.
        assert (Hye : exists_in (heap s) y) by (by eapply kids_exist). destruct Hye as [oy Hoy]. destruct (m_obj _ _ Mn y oy Hoy) as (oy' & Hoy' & Mo). unfold uuid_of. rewrite Hoy, Hoy'. cbn. apply Mo.
      * apply elem_of_list_singleton in Hm as ->. exists r. split; [apply elem_of_app; right; left|]. rewrite Hru. unfold elem_id_text. by rewrite Hnme, Hnm.
Qed.

(** What the elements of the container are. *)
Definition tagged2 (h : list obj) (x : loc) (t : tree) : Prop := name_of h x = tree_name t /\ (hyper h x -> connectable t).
Definition holds2 (h : list obj) (p : loc) (ts : list tree) : Prop := Forall2 (tagged2 h) (kids h p) ts.
Lemma viewn_tagged2 n h x t : solid t -> viewn n h x t -> tagged2 h x t.
Proof.
  intros Hs V. inversion V as [? lb ts _ (o & Ho & Hl) _]; subst. unfold tagged2, name_of. rewrite Ho. cbn. split.
  - destruct lb; cbn in Hl; try done; by destruct Hl as (_ & H & _) || by destruct Hl as (_ & H).
  - intros (o' & Ho' & Hk). assert (o' = o) as -> by congruence. destruct lb; try done; cbn in Hl; destruct Hl as [Hl _]; by rewrite Hl in Hk.
Qed.
Lemma holds2_grows h h' a p tcs news ts n : WF0 h -> holds2 h p tcs -> grows h h' a -> exists_in h p -> a p = news -> Forall2 (viewn n h') news ts -> Forall solid ts -> holds2 h' p (tcs ++ ts).
Proof.
  intros W Hh G Hp Ha V Hs. unfold holds2 in *. rewrite (gs_kids _ _ _ G) by done. rewrite Ha. apply Forall2_app.
  - assert (Hex : forall x, x ∈ kids h p -> exists_in h x) by (by apply kids_exist). clear Ha. induction Hh as [|x t xs ts' [H1 H2] Hh IH]; constructor.
    + assert (He : exists_in h x) by (apply Hex; left). split; [by rewrite (kept_name _ _ _ (gs_kept _ _ _ G))|]. intros Hy. apply H2. by eapply hyper_back; [apply G| |].
    + apply IH. intros y Hy. apply Hex. by right.
  - clear Ha. induction V as [|x t xs ts' V1 V IH]; constructor; inversion Hs; subst; [by eapply viewn_tagged2|by apply IH].
Qed.
Lemma holds2_found h p tcs ref ep : holds2 h p tcs -> found_at h p ref ep -> reference_bound tcs ref.
Proof.
  intros Hh [_ [H|[H|[H Hy]]]]; [by left|by right; left|]. right. right. unfold holds2 in Hh. revert H. induction Hh as [|x t xs ts [H1 H2] Hh IH]; [done|].
  rewrite !filter_cons, H1. destruct (decide (tree_name t = ref)); [|done]. intros [= ->]. exists t. split; [done|]. by apply H2.
Qed.

Lemma joint_bd fl rad env path j s d p es tcs d' s' : linv s d env -> opened s d path p -> covers s d es -> holds2 (heap s) p tcs -> visit_joint fl rad path j d s = (Ok d', s') ->
  joint_bound tcs j /\ covers s' d' (es ++ flat_map (relation_entries path (jt_name j)) (jt_rels j)).
Proof.
  intros I O Cv Hh E. pose proof (linv_wf _ _ _ I) as W. pose proof (opened_exists _ _ _ _ O) as Hpe. assert (Hpre : env `prefix_of` env) by done.
  assert (Hpp : p <> ld_params d) by (pose proof (op_later _ _ _ _ O); lia). pose proof Hpe as Hplt. apply exists_in_lt in Hplt.
  unfold visit_joint in E. apply bind_inv in E as (p0 & s1 & E1 & E). apply cached_inv in E1 as [Hx ->]. rewrite (op_cached _ _ _ _ O) in Hx. injection Hx as <-.
  apply bind_inv in E as ([xs d1] & sA & E1 & E). cbn [fst snd] in E. apply bind_inv in E as (e & s2 & E2 & E). apply ret_inv in E as [-> ->].
  unfold connect_tuple_nodes in E2. apply bind_inv in E2 as (e0 & sB & E3 & E2). apply bind_inv in E2 as ([] & s3 & E4 & E2). apply ret_inv in E2 as [-> ->].
  assert (Sn0 : sems_new (heap s) (heap s)) by (intros l o Hl Ho; apply lookup_lt_Some in Ho; lia).
  destruct (relations_visit fl rad env env Hpre path p (jt_name j) (heap s) W (proj2 (li_clean _ _ _ I)) Hplt (jt_rels j) s d (fun _ => []) xs d1 sA I O (grows_refl _) Sn0 E1) as (svs & F & Hlen & SA & SnA & HrA).
  destruct (relations_bound fl rad env env Hpre path (jt_name j) p (heap s) W (proj2 (li_clean _ _ _ I)) Hpe (jt_rels j) s d (fun _ => []) xs d1 sA es I O (grows_refl _) Sn0 Cv E1) as (CvA & Fb).
  pose proof (linv_after _ _ _ _ _ _ _ SA) as IA. pose proof (linv_wf _ _ _ IA) as WA. pose proof (opened_step _ _ _ _ _ _ _ _ O SA) as OA.
  destruct (edge_born _ _ _ _ _ _ (li_clean _ _ _ IA) (opened_exists _ _ _ _ OA) E3) as (CB & u & prog & ck & B).
  pose proof (clean_wf _ CB) as WB. pose proof (born_exists _ _ _ _ _ B) as HeB. pose proof (born_not _ _ _ _ _ B) as HeA.
  assert (GA : grows (heap s) (heap sA) (only p svs)) by apply SA. assert (GB : grows (heap sA) (heap sB) (only p [e0])) by apply B.
  pose proof (gs_len _ _ _ GA) as LA. pose proof (bn_new _ _ _ _ _ B) as He0. pose proof (bn_len _ _ _ _ _ B) as LB.
  assert (Hpe0 : p <> e0) by lia.
  assert (Kp : kids (heap sB) p = kids (heap s) p ++ svs ++ [e0]).
  { rewrite (gs_kids _ _ _ GB) by (by eapply opened_exists). rewrite (gs_kids _ _ _ GA) by done. rewrite !only_at. by rewrite app_assoc. }
  assert (Nd : NoDup (svs ++ [e0])). { pose proof (kids_nd _ p WB) as Hn. rewrite Kp in Hn. by apply NoDup_app in Hn as (_ & _ & Hn). }
  assert (Td : Forall2 (todo_ok (heap sA) (heap sB) p) xs svs).
  { clear -F Hlen GB. revert svs xs F Hlen. induction (jt_rels j) as [|r rs IH]; intros svs xs F Hlen; destruct xs as [|x xs], svs as [|sv svs]; try done; try (by inversion F).
    inversion F as [|? ? ? ? R F']; subst. constructor; [|apply IH; [done|by injection Hlen]]. destruct R as [R1 R2 R3 R4 R5 R6]; cbn [fst snd] in *.
    split; [done|]. split; [done|]. split; [|done]. rewrite (gs_unmoved _ _ _ GB); [done|by eapply kind_exists]. }
  assert (KAB : kept (heap sA) (heap sB)) by apply GB.
  assert (HkB : kind_of (heap sB) p = Some KNode) by (rewrite (kept_kind _ _ _ KAB) by (by eapply opened_exists); apply OA).
  assert (HpB : parent_of (heap sB) e0 = Some p) by apply B.
  assert (NdS : NoDup ([] ++ svs)) by (by apply NoDup_app in Nd as (? & _ & _)).
  assert (HeS : e0 ∉ [] ++ svs). { apply NoDup_app in Nd as (_ & Nd & _). cbn. intros Hin. apply (Nd e0 Hin). left. }
  assert (Ci0 : cinv (heap sB) p e0 (kids (heap s) p) (heap sB) svs [] [] []) by (split; [apply kept_refl|done|done|done|exact Kp|apply B|constructor]).
  destruct (connect_visit (heap sA) (heap sB) p e0 (kids (heap s) p) KAB HkB HpB HeA HeB Hpe0 xs svs [] [] [] sB s3 Td NdS HeS CB Ci0 E4) as (C3 & Hhy & rs & Ci).
  pose proof (connect_apart (heap sA) (heap sB) p e0 (kids (heap s) p) _ KAB HkB HpB HeA HeB Hpe0 eq_refl xs svs [] [] [] [] sB s3 Td NdS HeS CB Ci0 ltac:(constructor) ltac:(intros n Hn; inversion Hn) E4) as Hnd. cbn [app] in Hnd.
  assert (Ff : Forall2 (fun r x => found_at (heap s) p (jr_ref r) (t_ep x) /\ name_of (heap sA) (t_ep x) = short_name (jr_ref r)) (jt_rels j) xs).
  { assert (KA : kept (heap s) (heap sA)) by apply GA. clear -Fb Hhy F Hlen KA. revert svs F Hlen. induction Fb as [|r x rl xs Hr Fb IH]; intros svs F Hlen; [constructor|]. destruct svs as [|sv svs]; [done|]. inversion Hhy as [|? ? Hh1 Hh2]; subst. inversion F as [|? ? ? ? R F']; subst.
    constructor; [|by apply (IH Hh2 svs); [|injection Hlen]]. specialize (Hr Hh1). split; [done|]. cbn [fst snd] in R. destruct (ro_name _ _ _ _ _ _ _ _ _ _ _ R Hh1) as [He _]. etransitivity; [exact (kept_name _ _ _ KA He)|apply Hr]. }
  split.
  - split.
    + assert (Em : map (fun r => short_name (jr_ref r)) (jt_rels j) = map (fun x => name_of (heap sA) (t_ep x)) xs); [|by rewrite Em].
      clear -Ff. induction Ff as [|r x rl xs [_ Hr] Ff IH]; [done|]. cbn [map]. by rewrite Hr, IH.
    + clear -Ff Hh. induction Ff as [|r x rl xs [Hr _] Ff IH]; constructor; [by eapply holds2_found|done].
  - eapply covers_kept; [exact CvA|exact IA|]. eapply kept_trans; [exact KAB|apply Ci].
Qed.
