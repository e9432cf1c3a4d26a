(** * Loading: what is accepted has its references bound: a whole description *)
From stdpp Require Import relations.
From Verif Require Import Spec Hierarchy Elements Factory History PDict PPath PExec PBfs PWF PAdd PMono PStep PRemove PReach PPrim PHist QHier QHier2 QHier3 QHier4 QHier5 QHier6 QFac SpecFac QFac2 CogniLang QCog QCog2 QCog3 QCog4 QCog5 QCog6 QCog7 QCog8 QConv QGo QGo2 QGo3 QGo4 QGo5 QGo6 QBound QBound2 SpecBound.

Section items.
  Context (fl : string -> option Qc) (rad : Qc) (env : list (string * string)).

  Definition okbound (path : list string) (f : loader -> M loader) (en : entries) (ok : list tree -> entries -> list string -> Prop) : Prop :=
    forall p s d es tcs d' s', linv s d env -> opened s d path p -> covers s d es -> holds2 (heap s) p tcs -> f d s = (Ok d', s') ->
    ok tcs es (dkeys (ld_refs d)) /\ covers s' d' (es ++ en).

  Lemma fold_bound {A} path (f : A -> loader -> M loader) tr (en : A -> entries) ok : forall items,
    Forall (fun x => okbound path (f x) (en x) (fun tcs es seen => ok tcs es seen x) /\ okvisit env path (f x) (fun seen => tr seen x) /\
      forall seen ts seen', tr seen x = Some (ts, seen') -> Forall solid ts) items ->
    forall p s d es tcs d' s', linv s d env -> opened s d path p -> covers s d es -> holds2 (heap s) p tcs -> fold_m f items d s = (Ok d', s') ->
    in_turn tr en ok tcs es (dkeys (ld_refs d)) items /\ covers s' d' (es ++ flat_map en items).
  Proof.
    induction items as [|x items IH]; intros F p s d es tcs d' s' I O Cv Hh E.
    - apply ret_inv in E as [-> ->]. split; [exact Logic.I|]. cbn [flat_map]. by rewrite app_nil_r.
    - inversion F as [|? ? (F1 & F2 & F3) F']; subst. rewrite fold_cons in E. apply bind_inv in E as (d1 & s1 & E1 & E).
      destruct (F1 p s d es tcs d1 s1 I O Cv Hh E1) as [Hok Cv1]. destruct (F2 p s d d1 s1 I O E1) as (news & ts1 & T1 & S1 & V1). cbn in T1.
      destruct (IH F' p s1 d1 (es ++ en x) (tcs ++ ts1) d' s') as [Hr Cv2].
      { by eapply linv_after. } { by eapply opened_step. } { done. }
      { eapply holds2_grows; [exact (linv_wf _ _ _ I)|exact Hh|apply S1|by eapply opened_exists|apply only_at|exact V1|by eapply F3]. } { done. }
      cbn [in_turn flat_map]. rewrite T1, app_assoc. done.
  Qed.

  Lemma plain_bound path nm p s d es d' s' : linv s d env -> opened s d path p -> covers s d es -> plain_node path nm d s = (Ok d', s') -> covers s' d' (es ++ [node_entry path nm]).
  Proof.
    intros I O Cv E. unfold plain_node in E. apply bind_inv in E as (p0 & s1 & E1 & E). apply cached_inv in E1 as [Hx ->]. rewrite (op_cached _ _ _ _ O) in Hx. injection Hx as <-.
    apply bind_inv in E as (el & s1 & E1 & E). destruct (enter_visit env path nm p s d el s1 I O E1) as (L1 & S1 & He & Hl & K1 & F1 & _).
    pose proof (linv_after _ _ _ _ _ _ _ S1) as I1. pose proof E as E'. apply cache_inv in E' as [-> _].
    unfold node_entry. rewrite (join_apps path) by (first [done|apply O]). eapply (covers_cache s1 d es env el d' s1); [eapply covers_kept; [exact Cv|exact I|apply S1]|done|exact F1|done|done].
  Qed.
  Lemma kinematic_bound path nm p s d es d' s' : linv s d env -> opened s d path p -> covers s d es -> enter_kinematic path nm d s = (Ok d', s') -> covers s' d' (es ++ [node_entry path nm]).
  Proof.
    intros I O Cv E. unfold enter_kinematic in E. apply bind_inv in E as (p0 & s1 & E1 & E). apply cached_inv in E1 as [Hx ->]. rewrite (op_cached _ _ _ _ O) in Hx. injection Hx as <-.
    apply bind_inv in E as (el & s1 & E1 & E). destruct (enter_visit env path nm p s d el s1 I O E1) as (L1 & S1 & He & Hl & K1 & F1 & Hep).
    pose proof (linv_after _ _ _ _ _ _ _ S1) as I1. apply bind_inv in E as (sv & s2 & E2 & E). pose proof (labelled_exists _ _ _ L1) as Hee.
    apply (sem_step path env _ d _ _ _ _ _ _ _ _ SKinematicGraph I1) in E2 as (oi & Bi & _ & _ & _ & S2 & V2); [|done|done|done|reflexivity].
    pose proof (linv_after _ _ _ _ _ _ _ S2) as I2. pose proof E as E'. apply cache_inv in E' as [-> _].
    unfold node_entry. rewrite (join_apps path) by (first [done|apply O]).
    eapply (covers_cache s2 d es env el d' s2); [eapply covers_kept; [|exact I1|apply S2]; eapply covers_kept; [exact Cv|exact I|apply S1]|done| |done|].
    - eapply grows_name; [exact (linv_wf _ _ _ I1)|apply S2|exact F1].
    - eapply labelled_kept; [apply S2|exact Logic.I|done].
  Qed.

  Lemma kitem_bd : forall it path, okbound path (visit_kitem fl rad path it) (kitem_entries path it) (fun tcs es seen => kitem_bound fl rad env path tcs es seen it).
  Proof.
    induction it as [l|j|nm its IH|] using kitem_rect'; intros path p s d es tcs d' s' I O Cv Hh E.
    - exact (link_bound fl rad env env ltac:(done) path l s d p es d' s' I Cv O E).
    - exact (joint_bd fl rad env path j s d p es tcs d' s' I O Cv Hh E).
    - cbn [visit_kitem kitem_entries kitem_bound] in *. apply bind_inv in E as (d1 & s1 & E1 & E). pose proof (kinematic_bound path nm p s d es d1 s1 I O Cv E1) as Cv1.
      destruct (kinematic_enter env path nm p s d d1 s1 I O E1) as (el & S1 & O1 & _ & L1 & K1 & V1 & Hr1).
      destruct (fold_bound (path ++ [nm]) (visit_kitem fl rad (path ++ [nm])) (kitem_trees fl rad env (path ++ [nm])) (kitem_entries (path ++ [nm])) (kitem_bound fl rad env (path ++ [nm])) its) with (p := el) (s := s1) (d := d1)
        (es := es ++ [node_entry path nm]) (tcs := [sem_leaf SKinematicGraph nm [("name", PStr nm)]]) (d' := d') (s' := s') as [Hr Cv2].
      { eapply Forall_impl; [exact IH|]. intros it Hit. split; [apply Hit|]. split; [by apply kitem_visit|]. intros seen1 ts1 seen2. apply kitem_solid. }
      { by eapply linv_after. } { done. } { done. } { unfold holds2. rewrite K1. inversion V1; subst. constructor; [by eapply viewn_tagged2|constructor]. } { done. }
      rewrite Hr1 in Hr. rewrite <- app_assoc in Cv2. done.
    - apply ret_inv in E as [-> ->]. split; [exact Logic.I|]. cbn [kitem_entries]. by rewrite app_nil_r.
  Qed.
  Lemma aitem_bd : forall it path, okbound path (visit_aitem fl rad path it) (aitem_entries path it) (fun tcs es seen => aitem_bound fl rad env path tcs es seen it).
  Proof.
    induction it as [n|n|nm its IH|nm its|] using aitem_rect'; intros path.
    - intros p s d es tcs d' s' I O Cv _ E. split; [exact Logic.I|by eapply plain_bound].
    - intros p s d es tcs d' s' I O Cv _ E. split; [exact Logic.I|by eapply plain_bound].
    - intros p s d es tcs d' s' I O Cv Hh E. cbn [visit_aitem aitem_entries aitem_bound] in *. apply bind_inv in E as (d1 & s1 & E1 & E). pose proof (plain_bound path nm p s d es d1 s1 I O Cv E1) as Cv1.
      destruct (ambient_enter env path nm p s d d1 s1 I O E1) as (el & S1 & O1 & _ & L1 & K1 & V1 & Hr1).
      destruct (fold_bound (path ++ [nm]) (visit_aitem fl rad (path ++ [nm])) (aitem_trees fl rad env (path ++ [nm])) (aitem_entries (path ++ [nm])) (aitem_bound fl rad env (path ++ [nm])) its) with (p := el) (s := s1) (d := d1)
        (es := es ++ [node_entry path nm]) (tcs := @nil tree) (d' := d') (s' := s') as [Hr Cv2].
      { eapply Forall_impl; [exact IH|]. intros it Hit. split; [apply Hit|]. split; [by apply aitem_visit|]. intros seen1 ts1 seen2. apply aitem_solid. }
      { by eapply linv_after. } { done. } { done. } { unfold holds2. rewrite K1. constructor. } { done. }
      rewrite Hr1 in Hr. rewrite <- app_assoc in Cv2. done.
    - apply (kitem_bd (KiKin nm its) path).
    - intros p s d es tcs d' s' I O Cv _ E. apply ret_inv in E as [-> ->]. split; [exact Logic.I|]. cbn [aitem_entries]. by rewrite app_nil_r.
  Qed.
End items.

Lemma items_bd fl rad n0 root nm : forall items env s d es tcs d' s', einv n0 root nm s d env -> covers s d es -> holds2 (heap s) root tcs ->
  fold_m (visit_eitem fl rad [nm]) items d s = (Ok d', s') -> items_bound fl rad [nm] env tcs es (dkeys (ld_refs d)) items.
Proof.
  induction items as [|it items IH]; intros env s d es tcs d' s' Ei Cv Hh E; [exact Logic.I|]. rewrite fold_cons in E. apply bind_inv in E as (d1 & s1 & E1 & E).
  pose proof (ei_open _ _ _ _ _ _ Ei) as O. pose proof (op_later _ _ _ _ O) as Hlt. pose proof (ei_inv _ _ _ _ _ _ Ei) as I. assert (Hpre : env `prefix_of` env) by done.
  assert (X : exists ts, eitem_bound fl rad env [nm] tcs es (dkeys (ld_refs d)) it /\ eitem_trees fl rad env [nm] (dkeys (ld_refs d)) it = Some (ts, dkeys (ld_refs d1)) /\
    einv n0 root nm s1 d1 (env ++ item_params it) /\ covers s1 d1 (es ++ eitem_entries [nm] it) /\ holds2 (heap s1) root (tcs ++ ts)).
  { assert (Hgo : forall f tr en ok, okbound env [nm] f en ok -> okvisit env [nm] f tr -> (forall seen ts seen', tr seen = Some (ts, seen') -> Forall solid ts) -> f d s = (Ok d1, s1) ->
      exists ts, ok tcs es (dkeys (ld_refs d)) /\ tr (dkeys (ld_refs d)) = Some (ts, dkeys (ld_refs d1)) /\ einv n0 root nm s1 d1 (env ++ []) /\ covers s1 d1 (es ++ en) /\ holds2 (heap s1) root (tcs ++ ts)).
    { intros f tr en ok Hb Hv Hs Ef. destruct (Hb root s d es tcs d1 s1 I O Cv Hh Ef) as [Hok Cv1]. destruct (okvisit_step n0 root nm env s d d1 s1 f tr Ei Hv Ef) as (news & ts1 & T1 & Ei1 & Gr & _ & V1).
      exists ts1. split; [done|]. split; [done|]. rewrite app_nil_r. split; [done|]. split; [done|].
      eapply holds2_grows; [exact (linv_wf _ _ _ I)|exact Hh|exact Gr|by eapply opened_exists| |exact V1|by eapply Hs]. unfold both. rewrite only_at, only_ne by lia. by rewrite app_nil_r. }
    destruct it as [j|anm its|knm its|ps|].
    - refine (Hgo _ _ _ _ (kitem_bd fl rad env (KiJoint j) [nm]) (kitem_visit fl rad env env Hpre (KiJoint j) [nm]) _ E1). intros ???. apply kitem_solid.
    - refine (Hgo _ _ _ _ (aitem_bd fl rad env (AiAmbient anm its) [nm]) (aitem_visit fl rad env env Hpre (AiAmbient anm its) [nm]) _ E1). intros ???. apply aitem_solid.
    - refine (Hgo _ _ _ _ (kitem_bd fl rad env (KiKin knm its) [nm]) (kitem_visit fl rad env env Hpre (KiKin knm its) [nm]) _ E1). intros ???. apply kitem_solid.
    - cbn [visit_eitem] in E1. destruct (parameters_step _ _ _ _ _ _ _ _ _ Ei E1) as (vs & -> & Ei1 & Gr). exists []. split; [exact Logic.I|]. split; [done|]. cbn [item_params eitem_entries]. rewrite !app_nil_r. split; [done|].
      split; [eapply covers_kept; [exact Cv|exact I|apply Gr]|]. rewrite <- (app_nil_r tcs).
      eapply (holds2_grows _ _ _ _ _ [] [] 0); [exact (linv_wf _ _ _ I)|exact Hh|exact Gr|by eapply opened_exists| |constructor|constructor]. unfold both. rewrite only_at, only_ne by lia. done.
    - apply ret_inv in E1 as [-> ->]. exists []. cbn [item_params eitem_entries]. rewrite !app_nil_r. done. }
  destruct X as (ts & Hok & Ht & Ei1 & Cv1 & Hh1). cbn [items_bound]. split; [done|]. rewrite Ht. by eapply IH.
Qed.

Theorem load_bound fl rad icon c e s d s' : clean s -> load fl rad icon c e s = (Ok d, s') -> bound fl rad e.
Proof.
  intros C E. unfold load in E. apply bind_inv in E as (d0 & s2 & E0 & E). unfold new_loader in E0. apply bind_inv in E0 as (w & s1 & E1 & E0). apply bind_inv in E0 as (ps & s2' & E2 & E0).
  apply ret_inv in E0 as [-> ->]. set (f := mkFactory ("factory_" +:+ icon) c) in *.
  destruct (root_born _ _ _ _ _ C E1) as (C1 & Hw & G1 & L1 & P1 & K1 & ow & How & Hkw & Hnw).
  destruct (root_born _ _ _ _ _ C1 E2) as (C2 & Hps & G2 & L2 & P2 & K2 & op & Hop & Hkp & Hnp).
  set (d0 := mkLoader _ _ _ _ _ _) in E. pose proof (clean_wf _ C1) as W1. pose proof (clean_wf _ C2) as W2.
  assert (I2 : linv s2' d0 []).
  { split.
    - done.
    - intros k x Hg. cbn in Hg. case_decide; [|done]. injection Hg as <-. eapply grows_exists; [exact G2|by eexists].
    - intros k x o Hg Ho Hk. cbn in Hg. case_decide as Hkk; [|done]. injection Hg as <-. subst k. eapply grows_name; [exact W1|exact G2|].
      pose proof (root_name (heap s1) w ltac:(by eexists) P1) as F. unfold name_of in F. rewrite How in F. cbn in F. by rewrite Hnw in F.
    - by eexists.
    - unfold params_are. cbn [ld_params d0]. by rewrite K2. }
  unfold visit_entity in E. apply bind_inv in E as (root & s3 & E3 & E). destruct (root_born _ _ _ _ _ C2 E3) as (C3 & Hr & G3 & L3 & P3 & K3 & orr & Horr & Hkr & Hnr).
  set (d1 := set_root (Some root) d0) in E. apply bind_inv in E as (sv & s4 & E4 & E).
  assert (I3 : linv s3 d1 []). { assert (J : linv s3 d0 []) by (eapply linv_grows; [exact I2|done|exact G3|done]). by destruct J; split. }
  assert (Hrps : root <> ps) by lia.
  apply (sem_step [] [] _ d1 _ _ _ _ _ _ _ _ SCognitiveEntity I3) in E4 as (oi & Bi & _ & _ & _ & S4 & V4); [|by eexists|done|done|reflexivity].
  pose proof (linv_after _ _ _ _ _ _ _ S4) as I4. pose proof (clean_wf _ C3) as W3.
  apply bind_inv in E as (d2 & s5 & E5 & E). apply cache_inv in E5 as (-> & o4 & Ho4 & ->).
  assert (F3 : full_name (heap s3) root (en_name e)). { pose proof (root_name (heap s3) root ltac:(by eexists) P3) as F. unfold name_of in F. rewrite Horr in F. cbn in F. by rewrite Hnr in F. }
  assert (F4 : full_name (heap s4) root (en_name e)) by (eapply grows_name; [exact W3|apply S4|exact F3]).
  pose proof (clean_name _ _ _ _ (li_clean _ _ _ I4) Ho4 F4) as Hq4. rewrite Hq4 in E.
  set (d2 := set_cache _ d1) in E.
  assert (Lr : labelled (heap s3) root (LNode (en_name e))) by (by exists orr).
  assert (Lr4 : labelled (heap s4) root (LNode (en_name e))) by (eapply labelled_kept; [apply S4|done|done]).
  assert (Lw4 : labelled (heap s4) w (LNode "world")).
  { eapply labelled_kept; [apply S4|exact Logic.I|]. eapply labelled_kept; [apply G3|exact Logic.I|]. eapply labelled_kept; [apply G2|exact Logic.I|]. by exists ow. }
  assert (Hcache : forall k, dget k (ld_cache d2) = if decide (k = en_name e) then Some root else if decide (k = "world") then Some w else None).
  { intros k. unfold d2. cbn [ld_cache set_cache]. rewrite dget_dset. destruct (decide (k = en_name e)) as [->|Hk]; [done|]. cbn [ld_cache d1 set_root d0 dget].
    destruct (decide (k = "world")) as [->|Hk2]; [reflexivity|]. reflexivity. }
  assert (I5 : linv s4 d2 []).
  { split.
    - apply I4.
    - intros k x Hg. rewrite Hcache in Hg. destruct (decide (k = en_name e)); [injection Hg as <-; by eexists|]. destruct (decide (k = "world")); [injection Hg as <-; by eapply labelled_exists|done].
    - intros k x o Hg Ho Hk. unfold d2 in Hg. cbn [ld_cache set_cache] in Hg. rewrite dget_dset in Hg. destruct (decide (k = en_name e)) as [->|Hkk]; [by injection Hg as <-|].
      by apply (li_cache _ _ _ I4 k x o).
    - apply I4. - apply I4. }
  pose proof (gs_len _ _ _ (sp_grows _ _ _ _ _ _ _ S4)) as L4.
  assert (Kr4 : kids (heap s4) root = [sv]) by (rewrite (gs_kids _ _ _ (sp_grows _ _ _ _ _ _ _ S4)) by (by eexists); by rewrite only_at, K3).
  assert (Kp4 : kids (heap s4) ps = []).
  { rewrite (gs_kids _ _ _ (sp_grows _ _ _ _ _ _ _ S4)); [|eapply grows_exists; [exact G3|by eexists]]. rewrite only_ne by done. rewrite (gs_kids _ _ _ G3) by (by eexists). by rewrite K2. }
  assert (Ei : einv (S root) root (en_name e) s4 d2 []).
  { split; [done| |done|lia|lia|cbn; lia|cbn; by rewrite Kp4; constructor]. split; [|by apply (labelled_kind _ _ _ Lr4)|cbn; lia|done]. cbn [join]. rewrite Hcache. by rewrite decide_True. }
  assert (Cv : covers s4 d2 [("world", Some "world"); (en_name e, Some (en_name e))]).
  { intros k x Hg. rewrite Hcache in Hg. change [("world", Some "world"); (en_name e, Some (en_name e))] with ([("world", Some "world")] ++ [(en_name e, Some (en_name e))]). rewrite entry_snoc.
    destruct (decide (k = en_name e)) as [->|Hk].
    - injection Hg as <-. rewrite decide_True by done. by exists (Some (en_name e)).
    - rewrite decide_False by done. destruct (decide (k = "world")) as [->|]; [|done]. injection Hg as <-. by exists (Some "world"). }
  unfold bound. eapply (items_bd fl rad (S root) root (en_name e) (en_items e) [] s4 d2 _ _ d s' Ei Cv); [|exact E].
  unfold holds2. rewrite Kr4. constructor; [by eapply viewn_tagged2|constructor].
Qed.
