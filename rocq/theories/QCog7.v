(** * Loading: joints *)
From stdpp Require Import relations.
From Verif Require Import Spec Hierarchy Elements Factory History PDict PPath PExec PBfs PWF PAdd PMono PStep PRemove PReach PPrim PHist QHier QHier2 QHier3 QHier4 QHier5 QHier6 QFac SpecFac QFac2 CogniLang SpecCogni QCog QCog2 QCog3 QCog4 QCog5 QCog6.

Notation tup := (loc * direction * weight * option loc)%type.
Definition t_ep (x : tup) : loc := fst (fst (fst x)).
Lemma no_loop h x : WF0 h -> ~ ancestor h x x.
Proof.
  intros W Ha. assert (He : exists_in h x). { inversion Ha as [? ? H|? ? ? H]; subst; unfold parent_of in H; destruct (h !! x) eqn:E; [by eexists|done|by eexists|done]. }
  destruct (wf_acy _ W x He) as [ls Hp]. apply (path_ancestor _ _ _ _ Hp) in Ha. pose proof (path_nodup _ _ _ Hp) as Hnd. destruct (path_cons _ _ _ Hp) as [l' ->].
  apply NoDup_cons in Hnd as [Hnd _]. done.
Qed.
Lemma kids_nd h x : WF0 h -> NoDup (kids h x).
Proof. intros W. apply NoDup_filter. by apply wf0_children_nd. Qed.
Lemma filter_one (a b : list loc) x : NoDup (a ++ x :: b) -> filter (fun y => y <> x) (a ++ x :: b) = a ++ b.
Proof.
  intros H. apply NoDup_app in H as (_ & H1 & H2). apply NoDup_cons in H2 as [H2 _]. rewrite filter_app, filter_cons_False by (intros E; by apply E).
  rewrite !filter_id; [done|done|]. intros Hx. apply (H1 x Hx). left.
Qed.

Section connect.
  Context (hA hB : list obj) (p e : loc) (K : list loc).
  Record cinv (h : list obj) (rest moved : list loc) (dn : list tup) (rds : list loc) : Prop := {
    ci_kept : kept hB h;
    ci_len : length hB <= length h;
    ci_parent : forall l, exists_in hB l -> l ∉ moved -> parent_of h l = parent_of hB l;
    ci_kids : forall l, exists_in hB l -> l <> p -> l <> e -> kids h l = kids hB l;
    ci_p : kids h p = K ++ rest ++ [e];
    ci_e : kids h e = rds;
    ci_rel : Forall2 (fun r x => length hB <= r /\ exists sv, snd x = Some sv /\ sv ∈ moved /\ relation h r (t_ep x) (snd (fst x)) (snd (fst (fst x))) (Some sv) /\ kids h r = [sv]) rds dn
  }.
  Definition todo_ok (x : tup) (sv : loc) : Prop :=
    snd x = Some sv /\ kind_of hA sv = Some (KSem SKinematicJoint) /\ parent_of hB sv = Some p /\ exists_in hA (t_ep x).
  Context (HAB : kept hA hB) (Wp : kind_of hB p = Some KNode) (Hpe : parent_of hB e = Some p) (HeA : ~ exists_in hA e) (HeB : exists_in hB e) (Hne : p <> e).

  Lemma kind_exists h x k : kind_of h x = Some k -> exists_in h x.
  Proof. unfold kind_of. destruct (h !! x) eqn:E; [by eexists|done]. Qed.

  Lemma connect_facts h x sv rest moved dn rds : WF0 h -> todo_ok x sv -> sv ∉ moved -> e ∉ moved -> e <> sv -> cinv h (sv :: rest) moved dn rds ->
    exists_in h e /\ exists_in h (t_ep x) /\ kind_of h p = Some KNode /\ ~ within h sv e /\ exists osv, h !! sv = Some osv /\ o_kind osv = KSem SKinematicJoint /\ o_parent osv = Some p.
  Proof.
    intros W (T1 & T2 & T3 & T4) Hsm Hem' Hes0 Ci. destruct Ci as [C1 C2 C3 C4 C5 C6 C7].
    pose proof (kind_exists _ _ _ T2) as HsA. assert (HsB : exists_in hB sv) by (by eapply kept_exists).
    assert (KAs : kept hA h) by (by eapply kept_trans).
    assert (Hsv : exists osv, h !! sv = Some osv /\ o_kind osv = KSem SKinematicJoint /\ o_parent osv = Some p).
    { destruct (kept_exists _ _ _ KAs HsA) as [osv Hosv]. exists osv. split; [done|].
      pose proof (kept_kind _ _ _ KAs HsA) as X. unfold kind_of in X at 1. rewrite T2, Hosv in X. split; [by injection X|].
      pose proof (C3 sv HsB Hsm) as Y. rewrite T3 in Y. unfold parent_of in Y. rewrite Hosv in Y. exact Y. }
    pose proof Hsv as (osv & Hosv & Hks & Hps).
    assert (HpB : exists_in hB p) by (by eapply kind_exists).
    assert (Hkp : kind_of h p = Some KNode) by (rewrite (kept_kind _ _ _ C1); done).
    assert (Hes : exists_in h e) by exact (kept_exists _ _ _ C1 HeB).
    assert (Hns : exists_in h (t_ep x)) by exact (kept_exists _ _ _ KAs T4).
    assert (Hep : parent_of h e = Some p) by (rewrite C3; done).
    assert (Hsp : parent_of h sv = Some p) by (rewrite C3; done).
    assert (Hsep : sv <> p). { intros ->. unfold kind_of in Hkp. rewrite Hosv in Hkp. cbn in Hkp. congruence. }
    assert (Hnw : ~ within h sv e).
    { intros [Hx|Ha]; [subst sv; done|]. inversion Ha as [? ? Hx|? q ? Hx Hy]; subst; rewrite Hep in Hx; injection Hx as <-; [done|].
      apply (no_loop _ p W). eapply ancestor_trans; [apply anc_parent; exact Hsp|exact Hy]. }
    done.
  Qed.
  Lemma connect_step s n d w sv rest moved dn rds r s1 : todo_ok (n, d, w, Some sv) sv -> NoDup (moved ++ sv :: rest) -> e ∉ moved ++ sv :: rest -> clean s -> cinv (heap s) (sv :: rest) moved dn rds ->
    unary_connect e n w d (Some sv) s = (Ok r, s1) ->
    clean s1 /\ hyper hA n /\ cinv (heap s1) rest (moved ++ [sv]) (dn ++ [(n, d, w, Some sv)]) (rds ++ [r]).
  Proof.
    intros Td Nd Hem C Ci E1. pose proof (clean_wf _ C) as W.
    assert (Hsm : sv ∉ moved). { intros Hin. apply NoDup_app in Nd as (_ & Nd & _). apply (Nd sv Hin). left. }
    assert (Hem' : e ∉ moved). { intros Hin. apply Hem. apply elem_of_app. by left. }
    assert (Hes0 : e <> sv). { intros ->. apply Hem. apply elem_of_app. right. left. }
    destruct (connect_facts _ _ _ _ _ _ _ W Td Hsm Hem' Hes0 Ci) as (Hes & Hns & Hkp & Hnw & osv & Hosv & Hks & Hps). cbn [t_ep fst] in Hns.
    destruct Td as (T1 & T2 & T3 & T4). cbn [t_ep fst snd] in *. destruct Ci as [C1 C2 C3 C4 C5 C6 C7].
    assert (KAs : kept hA (heap s)) by (by eapply kept_trans).
    assert (Hsp : parent_of (heap s) sv = Some p) by (unfold parent_of; by rewrite Hosv).
    destruct (unary_hyper _ _ _ _ _ _ _ _ W Hes Hns E1) as (on & Hon & Hkn).
    assert (HhA : hyper hA n) by (eapply hyper_back; [exact KAs|done|by exists on]).
    destruct (rel_sem s e n w d sv r s1 p osv C Hes Hns ltac:(by intros ->) Hosv ltac:(by rewrite Hks) ltac:(by rewrite Hks) Hps Hkp Hnw E1) as (Cl1 & Mv & R).
    assert (Hnosv : forall l, l <> p -> sv ∉ kids (heap s) l).
    { intros l Hl Hin. apply kids_children in Hin. destruct (wf0_child _ W l sv Hin) as [_ Hx]. congruence. }
    assert (Hsub : exists_in (heap s) p) by (by eapply kind_exists).
    split; [done|]. split; [done|]. split.
    * eapply kept_trans; [exact C1|apply Mv].
    * pose proof (mv_len _ _ _ _ _ Mv). lia.
    * intros l Hl Hlm. apply not_elem_of_app in Hlm as [Hlm Hls]. assert (l <> sv) by (intros ->; apply Hls; left).
      rewrite (mv_unmoved _ _ _ _ _ Mv) by (first [done|exact (kept_exists _ _ _ C1 Hl)]). by apply C3.
    * intros l Hl Hlp Hle. rewrite (mv_kids _ _ _ _ _ Mv) by (first [done|exact (kept_exists _ _ _ C1 Hl)]). rewrite filter_id by (by apply Hnosv). by apply C4.
    * rewrite (mv_kids _ _ _ _ _ Mv) by done. pose proof (kids_nd _ p W) as Hnd. rewrite C5 in *. apply filter_one. exact Hnd.
    * by rewrite (mv_kids_e _ _ _ _ _ Mv), C6.
    * apply Forall2_app.
      -- eapply Forall2_impl; [exact C7|]. intros r' x' (Hr1 & sv' & Hx1 & Hx2 & Hx3 & Hx4). split; [done|]. exists sv'. split; [done|]. split; [apply elem_of_app; by left|].
         split; [eapply kept_relation; [apply Mv|exact Hx3]|]. rewrite (mv_kids _ _ _ _ _ Mv).
         ++ rewrite Hx4. apply filter_id. intros Hin. apply elem_of_list_singleton in Hin as ->. done.
         ++ destruct Hx3 as (o & Ho & _). by eexists.
         ++ intros ->. apply exists_in_lt in HeB. lia.
      -- constructor; [|constructor]. split.
         ++ rewrite (mv_r _ _ _ _ _ Mv). lia.
         ++ exists sv. split; [done|]. split; [apply elem_of_app; right; left|]. split; [exact R|]. apply Mv.
  Qed.
  Lemma connect_visit : forall todo rest moved dn rds s s', Forall2 todo_ok todo rest -> NoDup (moved ++ rest) -> e ∉ moved ++ rest -> clean s -> cinv (heap s) rest moved dn rds ->
    connect_tuples e todo s = (Ok tt, s') ->
    clean s' /\ Forall (fun x => hyper hA (t_ep x)) todo /\ exists rs, cinv (heap s') [] (moved ++ rest) (dn ++ todo) (rds ++ rs).
  Proof.
    induction todo as [|x todo IH]; intros rest moved dn rds s s' F Nd Hem C Ci E.
    - inversion F; subst. apply ret_inv in E as [_ ->]. split; [done|]. split; [constructor|]. exists []. by rewrite !app_nil_r.
    - inversion F as [|? sv ? rest' Td F']; subst. destruct x as [[[n d] w] sem]. assert (sem = Some sv) as -> by apply Td.
      cbn [connect_tuples] in E. apply bind_inv in E as (r & s1 & E1 & E).
      destruct (connect_step s n d w sv rest' moved dn rds r s1 Td Nd Hem C Ci E1) as (Cl1 & HhA & Ci1).
      destruct (IH rest' (moved ++ [sv]) (dn ++ [(n, d, w, Some sv)]) (rds ++ [r]) s1 s') as (Cl & Hh & rs & Ci'); [done|by rewrite <- app_assoc|by rewrite <- app_assoc|done|done|done|].
      split; [done|]. split; [by constructor|]. exists (r :: rs). rewrite <- !app_assoc in Ci'. exact Ci'.
  Qed.
End connect.

Section joints.
  Context (fl : string -> option Qc) (rad : Qc) (env ENV : list (string * string)) (Hpre : env `prefix_of` ENV).

  Lemma joint_visit path j s d p d' s' : linv s d env -> opened s d path p -> visit_joint fl rad path j d s = (Ok d', s') ->
    exists news ts, kitem_trees fl rad ENV path (dkeys (ld_refs d)) (KiJoint j) = Some (ts, dkeys (ld_refs d')) /\
      step path env (only p news) s d s' d' /\ Forall2 (viewn (length (heap s)) (heap s')) news ts.
  Proof.
    intros I O E. pose proof (linv_wf _ _ _ I) as W. pose proof (opened_exists _ _ _ _ O) as Hpe.
    assert (Hpp : p <> ld_params d) by (pose proof (op_later _ _ _ _ O); lia). pose proof Hpe as Hplt. apply exists_in_lt in Hplt.
    unfold visit_joint in E. apply bind_inv in E as (p0 & s1 & E1 & E). apply cached_inv in E1 as [Hx ->]. rewrite (op_cached _ _ _ _ O) in Hx. injection Hx as <-.
    apply bind_inv in E as ([xs d1] & sA & E1 & E). cbn [fst snd] in E. apply bind_inv in E as (e & s2 & E2 & E). apply ret_inv in E as [-> ->].
    unfold connect_tuple_nodes in E2. apply bind_inv in E2 as (e0 & sB & E3 & E2). apply bind_inv in E2 as ([] & s3 & E4 & E2). apply ret_inv in E2 as [-> ->].
    destruct (relations_visit fl rad env ENV Hpre path p (jt_name j) (heap s) W (proj2 (li_clean _ _ _ I)) Hplt (jt_rels j) s d (fun _ => []) xs d1 sA I O) as (svs & F & Hlen & SA & SnA & HrA).
    { apply grows_refl. } { intros l o Hl Ho. apply lookup_lt_Some in Ho. lia. } { done. }
    pose proof (linv_after _ _ _ _ _ _ _ SA) as IA. pose proof (linv_wf _ _ _ IA) as WA. pose proof (opened_step _ _ _ _ _ _ _ _ O SA) as OA.
    destruct (edge_born _ _ _ _ _ _ (li_clean _ _ _ IA) (opened_exists _ _ _ _ OA) E3) as (CB & u & prog & ck & B).
    pose proof (clean_wf _ CB) as WB. pose proof (born_exists _ _ _ _ _ B) as HeB. pose proof (born_not _ _ _ _ _ B) as HeA.
    assert (GA : grows (heap s) (heap sA) (only p svs)) by apply SA. assert (GB : grows (heap sA) (heap sB) (only p [e0])) by apply B.
    pose proof (gs_len _ _ _ GA) as LA. pose proof (bn_new _ _ _ _ _ B) as He0. pose proof (bn_len _ _ _ _ _ B) as LB.
    assert (Hpe0 : p <> e0) by lia.
    assert (Kp : kids (heap sB) p = kids (heap s) p ++ svs ++ [e0]).
    { rewrite (gs_kids _ _ _ GB) by (by eapply opened_exists). rewrite (gs_kids _ _ _ GA) by done. rewrite !only_at. by rewrite app_assoc. }
    assert (Nd : NoDup (svs ++ [e0])). { pose proof (kids_nd _ p WB) as Hn. rewrite Kp in Hn. by apply NoDup_app in Hn as (_ & _ & Hn). }
    assert (Td : Forall2 (todo_ok (heap sA) (heap sB) p) xs svs).
    { clear -F Hlen GB. revert svs xs F Hlen. induction (jt_rels j) as [|r rs IH]; intros svs xs F Hlen; destruct xs as [|x xs], svs as [|sv svs]; try done; try (by inversion F).
      inversion F as [|? ? ? ? R F']; subst. constructor; [|apply IH; [done|by injection Hlen]]. destruct R as [R1 R2 R3 R4 R5 R6]; cbn [fst snd] in *.
      split; [done|]. split; [done|]. split; [|done]. rewrite (gs_unmoved _ _ _ GB); [done|by eapply kind_exists]. }
    destruct (connect_visit (heap sA) (heap sB) p e0 (kids (heap s) p)) with (todo := xs) (rest := svs) (moved := @nil loc) (dn := @nil tup) (rds := @nil loc) (s := sB) (s' := s3)
      as (C3 & Hh & rs & Ci).
    { apply GB. } { rewrite (kept_kind _ _ _ (gs_kept _ _ _ GB)) by (by eapply opened_exists). apply OA. } { apply B. } { done. } { done. } { done. } { done. }
    { by apply NoDup_app in Nd as (? & _ & _). } { apply NoDup_app in Nd as (_ & Nd & _). cbn. intros Hin. apply (Nd e0 Hin). left. } { done. }
    { split; [apply kept_refl|done|done|done|exact Kp|apply B|constructor]. }
    { done. }
    cbn [app] in Ci. destruct Ci as [K1 K2 K3 K4 K5 K6 K7]. cbn [app] in K5.
    assert (Hsv : forall sv, sv ∈ svs -> length (heap s) <= sv).
    { intros sv Hin. destruct (decide (sv < length (heap s))) as [Hlt|]; [|lia]. exfalso. apply exists_in_lt in Hlt.
      assert (Hpar : parent_of (heap s) sv = Some p).
      { apply elem_of_list_lookup in Hin as [i Hi]. destruct (Forall2_lookup_r _ _ _ _ _ Td Hi) as (x & _ & _ & _ & Hx & _).
        rewrite (gs_unmoved _ _ _ GB) in Hx by (by eapply grows_exists). by rewrite (gs_unmoved _ _ _ GA) in Hx. }
      assert (Hk : sv ∈ kids (heap s) p).
      { unfold kids. apply elem_of_list_filter. split.
        - apply elem_of_list_lookup in Hin as [i Hi]. destruct (Forall2_lookup_r _ _ _ _ _ Td Hi) as (x & _ & _ & Hx & _). rewrite (kept_kind _ _ _ (gs_kept _ _ _ GA)) in Hx by done. by rewrite Hx.
        - by apply wf0_parent. }
      pose proof (kids_nd _ p WB) as Hn. rewrite Kp in Hn. apply NoDup_app in Hn as (_ & Hn & _). apply (Hn sv Hk). apply elem_of_app. by left. }
    assert (G : grows (heap s) (heap s3) (only p [e0])).
    { split.
      - lia. - eapply kept_trans; [apply GA|]. eapply kept_trans; [apply GB|exact K1].
      - intros l Hl. rewrite K3.
        + rewrite (gs_unmoved _ _ _ GB) by (by eapply grows_exists). by apply (gs_unmoved _ _ _ GA).
        + eapply grows_exists; [exact GB|]. by eapply grows_exists.
        + intros Hin. apply Hsv in Hin. apply exists_in_lt in Hl. lia.
      - intros l Hl. destruct (decide (l = p)) as [->|Hlp]; [by rewrite only_at, K5|]. rewrite (only_ne p) by done. rewrite app_nil_r. pose proof Hl as Hlt. apply exists_in_lt in Hlt.
        rewrite K4; [|eapply grows_exists; [exact GB|]; by eapply grows_exists|done|lia].
        rewrite (gs_kids _ _ _ GB) by (by eapply grows_exists). rewrite (gs_kids _ _ _ GA) by done. rewrite !only_ne by done. by rewrite !app_nil_r. }
    assert (KA3 : kept (heap sA) (heap s3)) by (eapply kept_trans; [apply GB|exact K1]).
    assert (X : exists ts, relation_trees fl rad ENV path (jt_name j) (jt_rels j) = Some ts /\ Forall2 (viewn (length (heap s)) (heap s3)) rs ts).
    { cbn [app] in K7.
      assert (K7w : Forall2 (fun r x => length (heap sB) <= r /\ exists sv, snd x = Some sv /\ relation (heap s3) r (t_ep x) (snd (fst x)) (snd (fst (fst x))) (Some sv) /\ kids (heap s3) r = [sv]) rs xs).
      { eapply Forall2_impl; [exact K7|]. intros a b (A1 & sva & A2 & A3 & A4 & A5). split; [done|]. by exists sva. }
      clear K7. rename K7w into K7. assert (Hfr : forall l, length (heap s) <= l -> exists_in (heap sA) l -> kids (heap s3) l = kids (heap sA) l).
      { intros l Hl Hle. rewrite K4; [|by eapply grows_exists|lia|intros ->; done]. rewrite (gs_kids _ _ _ GB) by done. rewrite only_ne by lia. by rewrite app_nil_r. }
      clear -F Hlen Hh K7 W G Hfr KA3 LA LB. revert svs xs rs F Hlen Hh K7. induction (jt_rels j) as [|r rl IH]; intros svs xs rs F Hlen Hh K7; destruct xs as [|x xs], svs as [|sv svs]; try done; try (by inversion F).
      - inversion K7; subst. by exists [].
      - inversion F as [|? ? ? ? R F']; subst. inversion K7 as [|r' ? rs' ? (Hr1 & sv' & Hr2 & Hr4 & Hr5) K7']; subst. inversion Hh as [|? ? Hh1 Hh2]; subst.
        destruct (IH svs xs rs' F' ltac:(by injection Hlen) Hh2 K7') as (ts & Ht & V).
        cbn [relation_trees]. destruct R as [R1 (t & R2 & R3 & R4) R5 R6 R7 R8]; cbn [fst snd] in *. rewrite R2, Ht. eexists. split; [done|]. constructor; [|exact V].
        assert (sv' = sv) as -> by congruence. destruct (R8 Hh1) as [_ Fn]. constructor; [lia| |].
        + destruct Hr4 as (o & Ho & H1 & H2 & H3 & H4 & H5). exists o. split; [done|]. split; [done|]. split; [done|]. split; [done|]. split; [by rewrite Hr5|]. eexists. split; [exact H2|].
          eapply grows_name; [exact W|exact G|exact Fn].
        + rewrite Hr5. constructor; [|constructor]. eapply sems_frame; [exact KA3|exact Hfr|done|exact R3]. }
    destruct X as (ts & Ht & V). exists [e0], [T (LEdge (jt_name j)) ts]. cbn [kitem_trees]. unfold joint_tree. rewrite Ht. split; [by rewrite HrA|]. split.
    - split.
      + assert (Hback : forall x k, dget k (ld_cache d1) = Some x -> hyper (heap s3) x -> full_name (heap s3) x k).
        { intros x k Hg Hx. pose proof (li_cex _ _ _ IA k x Hg) as He. pose proof (hyper_back _ _ _ KA3 He Hx) as (oA & HoA & HkA).
          destruct (old_hyper _ _ _ x k W (proj2 (li_clean _ _ _ I)) GA SnA) as [_ Fk]; [by exists oA|by apply (li_cache _ _ _ IA k x oA)|]. eapply grows_name; [exact W|exact G|exact Fk]. }
        assert (Hpd : ld_params d1 = ld_params d) by apply SA. split.
        * done.
        * intros k x Hg. eapply kept_exists; [exact KA3|]. by apply (li_cex _ _ _ IA k).
        * intros k x o Hg Ho Hk. apply Hback; [done|by exists o].
        * rewrite Hpd. eapply grows_exists; [exact G|apply I].
        * rewrite Hpd. eapply params_grows; [exact W|exact G|apply I|by rewrite only_ne|apply I].
      + exact G.
      + apply SA.
      + apply SA.
    - constructor; [|constructor]. constructor; [lia| |].
      + eapply labelled_kept; [exact K1|done|by eapply born_edge].
      + rewrite K6. exact V.
  Qed.
End joints.
