(** * Loading: a whole description *)
From stdpp Require Import relations.
From Verif Require Import Spec Hierarchy Elements Factory History PDict PPath PExec PBfs PWF PAdd PMono PStep PRemove PReach PPrim PHist QHier QHier2 QHier3 QHier4 QHier5 QHier6 QFac SpecFac QFac2 CogniLang SpecCogni QCog QCog2 QCog3 QCog4 QCog5 QCog6 QCog7.

Lemma kitem_rect' (P : kitem -> Prop) : (forall l, P (KiLink l)) -> (forall j, P (KiJoint j)) -> (forall nm its, Forall P its -> P (KiKin nm its)) -> P KiOther -> forall it, P it.
Proof.
  intros H1 H2 H3 H4. fix IH 1. intros [l|j|nm its|]; [apply H1|apply H2| |exact H4]. apply H3. induction its as [|i its IHi]; constructor; [apply IH|exact IHi].
Qed.
Lemma aitem_rect' (P : aitem -> Prop) : (forall n, P (AiSensor n)) -> (forall n, P (AiActuator n)) -> (forall nm its, Forall P its -> P (AiAmbient nm its)) ->
  (forall nm its, P (AiKin nm its)) -> P AiOther -> forall it, P it.
Proof.
  intros H1 H2 H3 H4 H5. fix IH 1. intros [n|n|nm its|nm its|]; [apply H1|apply H2| |apply H4|exact H5]. apply H3. induction its as [|i its IHi]; constructor; [apply IH|exact IHi].
Qed.

Section items.
  Context (fl : string -> option Qc) (rad : Qc) (env ENV : list (string * string)) (Hpre : env `prefix_of` ENV).
  Definition okvisit (path : list string) (f : loader -> M loader) (tr : list string -> option (list tree * list string)) : Prop :=
    forall p s d d' s', linv s d env -> opened s d path p -> f d s = (Ok d', s') ->
    exists news ts, tr (dkeys (ld_refs d)) = Some (ts, dkeys (ld_refs d')) /\ step path env (only p news) s d s' d' /\ Forall2 (viewn (length (heap s)) (heap s')) news ts.

  Lemma nothing_visit path : okvisit path (fun d => ret d) (fun seen => Some ([], seen)).
  Proof.
    intros p s d d' s' I O E. apply ret_inv in E as [-> ->]. exists [], []. split; [done|]. split; [|constructor]. eapply step_ext; [|by apply step_refl].
    intros l _. unfold only. by case_decide.
  Qed.
  Lemma fold_visit {A} path (f : A -> loader -> M loader) (tr : list string -> A -> option (list tree * list string)) : forall items,
    Forall (fun x => okvisit path (f x) (fun seen => tr seen x)) items -> okvisit path (fold_m f items) (fun seen => thread tr seen items).
  Proof.
    induction items as [|x items IH]; intros F; [apply nothing_visit|]. inversion F as [|? ? F1 F2]; subst. intros p s d d' s' I O E.
    rewrite fold_cons in E. apply bind_inv in E as (d1 & s1 & E1 & E). destruct (F1 p s d d1 s1 I O E1) as (xs & ts & T1 & S1 & V1).
    pose proof (linv_after _ _ _ _ _ _ _ S1) as I1. destruct (IH F2 p s1 d1 d' s' I1 ltac:(by eapply opened_step) E) as (ys & us & T2 & S2 & V2).
    exists (xs ++ ys), (ts ++ us). rewrite thread_cons, T1, T2. split; [done|]. split; [by eapply step_only|].
    pose proof (opened_exists _ _ _ _ O) as Hp. apply exists_in_lt in Hp. pose proof (gs_len _ _ _ (sp_grows _ _ _ _ _ _ _ S1)) as Hl.
    apply Forall2_app; [|eapply views_le; [|exact V2]; lia]. eapply views_grows; [by eapply linv_wf|apply S2| |exact V1]. intros l Hll. apply only_ne. lia.
  Qed.
  (** A node, some elements in it, its registration. *)
  Lemma enter_visit path nm p s d el s1 : linv s d env -> opened s d path p -> generate_node (ld_nodes d) nm (Some p) s = (Ok el, s1) ->
    labelled (heap s1) el (LNode nm) /\ step path env (only p [el]) s d s1 d /\ el = length (heap s) /\ length (heap s1) = S (length (heap s)) /\ kids (heap s1) el = [] /\
    full_name (heap s1) el (join "/" path +:+ "/" +:+ nm) /\ el <> ld_params d.
  Proof.
    intros I O E. assert (Hpp : p <> ld_params d) by (pose proof (op_later _ _ _ _ O); lia).
    apply (node_step path env _ d _ _ _ _ _ I) in E as (oc & B & Hoc & S1 & L1); [|by eapply opened_exists|by rewrite (op_kind _ _ _ _ O)|done].
    split; [done|]. split; [done|]. split; [apply B|]. split; [apply B|]. split; [apply B|]. split.
    - rewrite <- Hoc. eapply born_below; [by eapply linv_wf|exact B|by eapply opened_name].
    - intros ->. apply (born_not _ _ _ _ _ B), I.
  Qed.
  (** After the registration the node is open. *)
  Lemma open_visit path nm s0 s d el d' s' : linv s d env -> path <> [] -> ld_params d < length (heap s0) -> length (heap s0) <= el -> labelled (heap s) el (LNode nm) -> full_name (heap s) el (join "/" path +:+ "/" +:+ nm) ->
    cache_element el d s = (Ok d', s') -> s' = s /\ step path env (fun _ => []) s d s d' /\ ld_refs d' = ld_refs d /\ opened s d' (path ++ [nm]) el.
  Proof.
    intros I Hp Hps Hel Hl F E. apply (cache_step path env) with (t := nm) in E as (-> & S1 & Hr & Hc); [|done|done]. split; [done|]. split; [done|]. split; [done|]. split.
    - by rewrite join_snoc. - apply (labelled_kind _ _ _ Hl). - assert (ld_params d' = ld_params d) as -> by apply S1. lia. - by destruct path.
  Qed.
  Lemma plain_visit path nm : okvisit path (plain_node path nm) (fun seen => Some ([T (LNode nm) []], seen)).
  Proof.
    intros p s d d' s' I O E. unfold plain_node in E. apply bind_inv in E as (p0 & s1 & E1 & E). apply cached_inv in E1 as [Hx ->]. rewrite (op_cached _ _ _ _ O) in Hx. injection Hx as <-.
    apply bind_inv in E as (el & s1 & E1 & E). destruct (enter_visit path nm p s d el s1 I O E1) as (L1 & S1 & He & Hl & K1 & F1 & _).
    pose proof (linv_after _ _ _ _ _ _ _ S1) as I1. pose proof (li_ps _ _ _ I) as Hps. apply exists_in_lt in Hps.
    destruct (open_visit path nm s s1 d el d' s' I1 (op_path _ _ _ _ O) Hps ltac:(lia) L1 F1 E) as (-> & S2 & Hr & _).
    eexists [el], _. split; [by rewrite Hr|]. split; [by eapply step_none|]. constructor; [|constructor]. constructor; [lia|done|]. rewrite K1. constructor.
  Qed.
  (** A node with what [g] puts into it. *)
  Lemma node_visit path nm (enter g : loader -> M loader) tr pre pts :
    (forall p s d d' s', linv s d env -> opened s d path p -> enter d s = (Ok d', s') -> exists el, step path env (only p [el]) s d s' d' /\ opened s' d' (path ++ [nm]) el /\
       length (heap s) <= el /\ labelled (heap s') el (LNode nm) /\ kids (heap s') el = pre el /\ Forall2 (viewn (S el) (heap s')) (pre el) pts /\ ld_refs d' = ld_refs d) ->
    okvisit (path ++ [nm]) g tr ->
    okvisit path (fun d => bind (enter d) g) (fun seen => match tr seen with Some (ts, seen') => Some ([T (LNode nm) (pts ++ ts)], seen') | None => None end).
  Proof.
    intros He Hg p s d d' s' I O E. apply bind_inv in E as (d1 & s1 & E1 & E). destruct (He p s d d1 s1 I O E1) as (el & S1 & O1 & Hel & L1 & K1 & V1 & Hr1).
    pose proof (linv_after _ _ _ _ _ _ _ S1) as I1. destruct (Hg el s1 d1 d' s' I1 O1 E) as (news & ts & T2 & S2 & V2). rewrite Hr1 in T2.
    eexists [el], _. rewrite T2. split; [done|]. assert (S2' : step path env (only el news) s1 d1 s' d') by (eapply step_deeper; [apply O|exact S2]).
    pose proof (opened_exists _ _ _ _ O1) as Hee. pose proof Hee as Hlt. apply exists_in_lt in Hlt. pose proof (gs_len _ _ _ (sp_grows _ _ _ _ _ _ _ S1)) as Hln.
    split. { eapply step_new; [exact S1|exact S2'|]. rewrite exists_in_lt. lia. }
    constructor; [|constructor]. constructor; [done|eapply labelled_kept; [apply S2|done|done]|]. rewrite (gs_kids _ _ _ (sp_grows _ _ _ _ _ _ _ S2)) by done. rewrite only_at, K1.
    apply Forall2_app.
    - eapply views_le; [|eapply (views_grows (S el)); [by eapply linv_wf|apply S2| |exact V1]]; [lia|]. intros l Hll. apply only_ne. lia.
    - eapply views_le; [|exact V2]. lia.
  Qed.
  Lemma kinematic_enter path nm p s d d' s' : linv s d env -> opened s d path p -> enter_kinematic path nm d s = (Ok d', s') ->
    exists el, step path env (only p [el]) s d s' d' /\ opened s' d' (path ++ [nm]) el /\ length (heap s) <= el /\ labelled (heap s') el (LNode nm) /\ kids (heap s') el = [S el] /\
      Forall2 (viewn (S el) (heap s')) [S el] [sem_leaf SKinematicGraph nm [("name", PStr nm)]] /\ ld_refs d' = ld_refs d.
  Proof.
    intros I O E. unfold enter_kinematic in E. apply bind_inv in E as (p0 & s1 & E1 & E). apply cached_inv in E1 as [Hx ->]. rewrite (op_cached _ _ _ _ O) in Hx. injection Hx as <-.
    apply bind_inv in E as (el & s1 & E1 & E). destruct (enter_visit path nm p s d el s1 I O E1) as (L1 & S1 & He & Hl & K1 & F1 & Hep).
    pose proof (linv_after _ _ _ _ _ _ _ S1) as I1. apply bind_inv in E as (sv & s2 & E2 & E). pose proof (labelled_exists _ _ _ L1) as Hee.
    apply (sem_step path env _ d _ _ _ _ _ _ _ _ SKinematicGraph I1) in E2 as (oi & Bi & _ & _ & _ & S2 & V2); [|done|done|done|reflexivity].
    assert (sv = S el) as -> by (rewrite (bn_new _ _ _ _ _ Bi); lia). pose proof (linv_after _ _ _ _ _ _ _ S2) as I2. pose proof (li_ps _ _ _ I) as Hps. apply exists_in_lt in Hps.
    assert (L2 : labelled (heap s2) el (LNode nm)) by (eapply labelled_kept; [apply S2|done|done]).
    assert (F2 : full_name (heap s2) el (join "/" path +:+ "/" +:+ nm)) by (eapply grows_name; [exact (linv_wf _ _ _ I1)|apply S2|exact F1]).
    destruct (open_visit path nm s s2 d el d' s' I2 (op_path _ _ _ _ O) Hps ltac:(lia) L2 F2 E) as (-> & S3 & Hr & O3).
    exists el. split; [eapply step_none; [|exact S3]; eapply step_new; [exact S1|exact S2|rewrite exists_in_lt; lia]|]. split; [done|]. split; [lia|]. split; [done|].
    split; [rewrite (gs_kids _ _ _ (sp_grows _ _ _ _ _ _ _ S2)) by done; by rewrite only_at, K1|]. split; [|done]. constructor; [|constructor]. rewrite Hl in V2. rewrite <- He in V2. exact V2.
  Qed.
  Lemma ambient_enter path nm p s d d' s' : linv s d env -> opened s d path p -> plain_node path nm d s = (Ok d', s') ->
    exists el, step path env (only p [el]) s d s' d' /\ opened s' d' (path ++ [nm]) el /\ length (heap s) <= el /\ labelled (heap s') el (LNode nm) /\ kids (heap s') el = [] /\
      Forall2 (viewn (S el) (heap s')) [] [] /\ ld_refs d' = ld_refs d.
  Proof.
    intros I O E. unfold plain_node in E. apply bind_inv in E as (p0 & s1 & E1 & E). apply cached_inv in E1 as [Hx ->]. rewrite (op_cached _ _ _ _ O) in Hx. injection Hx as <-.
    apply bind_inv in E as (el & s1 & E1 & E). destruct (enter_visit path nm p s d el s1 I O E1) as (L1 & S1 & He & Hl & K1 & F1 & _).
    pose proof (linv_after _ _ _ _ _ _ _ S1) as I1. pose proof (li_ps _ _ _ I) as Hps. apply exists_in_lt in Hps.
    destruct (open_visit path nm s s1 d el d' s' I1 (op_path _ _ _ _ O) Hps ltac:(lia) L1 F1 E) as (-> & S2 & Hr & O2).
    exists el. split; [by eapply step_none|]. split; [done|]. split; [lia|]. done.
  Qed.

  Lemma kitem_visit : forall it path, okvisit path (visit_kitem fl rad path it) (fun seen => kitem_trees fl rad ENV path seen it).
  Proof.
    induction it as [l|j|nm its IH|] using kitem_rect'; intros path.
    - intros p s d d' s' I O E. by apply (link_visit fl rad env ENV Hpre path l s d p d' s').
    - intros p s d d' s' I O E. by apply (joint_visit fl rad env ENV Hpre path j s d p d' s').
    - apply (node_visit path nm (enter_kinematic path nm) (fold_m (visit_kitem fl rad (path ++ [nm])) its) (fun seen => thread (kitem_trees fl rad ENV (path ++ [nm])) seen its)
        (fun el => [S el]) [sem_leaf SKinematicGraph nm [("name", PStr nm)]]); [apply kinematic_enter|].
      apply fold_visit. eapply Forall_impl; [exact IH|]. intros it Hit. apply Hit.
    - apply nothing_visit.
  Qed.
  Lemma aitem_visit : forall it path, okvisit path (visit_aitem fl rad path it) (fun seen => aitem_trees fl rad ENV path seen it).
  Proof.
    induction it as [n|n|nm its IH|nm its|] using aitem_rect'; intros path.
    - apply plain_visit. - apply plain_visit.
    - apply (node_visit path nm (plain_node path nm) (fold_m (visit_aitem fl rad (path ++ [nm])) its) (fun seen => thread (aitem_trees fl rad ENV (path ++ [nm])) seen its)
        (fun el => []) []); [apply ambient_enter|]. apply fold_visit. eapply Forall_impl; [exact IH|]. intros it Hit. apply Hit.
    - apply kitem_visit. - apply nothing_visit.
  Qed.
End items.

Lemma linv_params s d env s' a env' : linv s d env -> clean s' -> grows (heap s) (heap s') a -> params_are (heap s') (ld_params d) env' -> linv s' d env'.
Proof.
  intros I C G Ha. pose proof (linv_wf _ _ _ I) as W. split.
  - done.
  - intros k x H. eapply grows_exists; [done|]. by apply (li_cex _ _ _ I k).
  - intros k x o H Ho Hk. destruct (li_cex _ _ _ I k x H) as [o0 Ho0]. eapply grows_name; [done|done|]. apply (li_cache _ _ _ I k x o0); [done|done|].
    pose proof (kept_kind _ _ x (gs_kept _ _ _ G) ltac:(by eexists)) as E. unfold kind_of in E. rewrite Ho, Ho0 in E. simpl in E. injection E as <-. done.
  - eapply grows_exists; [done|]. apply I.
  - done.
Qed.
Definition param_trees (env : list (string * string)) : list tree := map (fun x => T (LValue (fst x) [PStr (snd x)]) []) env.

Section entity.
  Context (fl : string -> option Qc) (rad : Qc).
  (** Between two items of the entity. *)
  Record einv (n0 : nat) (root : loc) (nm : string) (s : st) (d : loader) (env : list (string * string)) : Prop := {
    ei_inv : linv s d env;
    ei_open : opened s d [nm] root;
    ei_root : ld_root d = Some root;
    ei_n0 : n0 <= length (heap s);
    ei_r : root < n0;
    ei_p : ld_params d < n0;
    ei_vals : Forall2 (viewn n0 (heap s)) (kids (heap s) (ld_params d)) (param_trees env)
  }.
  Definition both (root ps : loc) (xs vs : list loc) : loc -> list loc := fun l => only root xs l ++ only ps vs l.
  Lemma both_fresh n0 root ps xs vs l : root < n0 -> ps < n0 -> n0 <= l -> both root ps xs vs l = [].
  Proof. intros. unfold both. rewrite !only_ne by lia. done. Qed.
  Lemma both_app root ps xs vs xs' vs' l : root <> ps -> both root ps xs vs l ++ both root ps xs' vs' l = both root ps (xs ++ xs') (vs ++ vs') l.
  Proof. intros. unfold both, only. repeat case_decide; subst; try done; by rewrite ?app_nil_r. Qed.

  Lemma okvisit_step n0 root nm env s d d' s' f tr : einv n0 root nm s d env -> okvisit env [nm] f tr -> f d s = (Ok d', s') ->
    exists news ts, tr (dkeys (ld_refs d)) = Some (ts, dkeys (ld_refs d')) /\ einv n0 root nm s' d' env /\ grows (heap s) (heap s') (both root (ld_params d) news []) /\
      ld_params d' = ld_params d /\ Forall2 (viewn n0 (heap s')) news ts.
  Proof.
    intros [I O Hr Hn Hrn Hp Hv] Hf E. destruct (Hf root s d d' s' I O E) as (news & ts & T1 & S1 & V1). exists news, ts. split; [done|].
    assert (Hpd : ld_params d' = ld_params d) by apply S1. assert (Hrd : ld_root d' = ld_root d) by apply S1. pose proof (op_later _ _ _ _ O) as Hlater.
    split; [|split; [|split; [done|eapply views_le; [|exact V1]; done]]].
    - split; [by eapply linv_after|by eapply opened_step|by rewrite Hrd|pose proof (gs_len _ _ _ (sp_grows _ _ _ _ _ _ _ S1)); lia|done|by rewrite Hpd|].
      rewrite Hpd, (gs_kids _ _ _ (sp_grows _ _ _ _ _ _ _ S1)) by apply I. rewrite only_ne by lia. rewrite app_nil_r.
      eapply views_grows; [by eapply linv_wf|apply S1| |exact Hv]. intros l Hl. apply only_ne. lia.
    - eapply grows_ext; [|apply S1]. intros l _. unfold both. unfold only at 3. case_decide; by rewrite app_nil_r.
  Qed.
  Lemma parameter_step n0 root nm env s d x d' s' : einv n0 root nm s d env -> visit_parameter [nm] x d s = (Ok d', s') ->
    exists v, d' = d /\ einv n0 root nm s' d (env ++ [x]) /\ grows (heap s) (heap s') (both root (ld_params d) [] [v]).
  Proof.
    intros [I O Hr Hn Hrn Hp Hv] E. pose proof (linv_wf _ _ _ I) as W. unfold visit_parameter in E. apply bind_inv in E as (c & s1 & E1 & E). apply cached_inv in E1 as [Hx ->].
    rewrite (op_cached _ _ _ _ O) in Hx. injection Hx as <-. rewrite decide_True in E by done. apply bind_inv in E as ([] & s1 & E1 & E). apply ret_inv in E as [-> ->].
    apply bind_inv in E1 as (v & s2 & E1 & E). apply ret_inv in E as [_ ->].
    destruct (value_born _ _ _ _ _ _ _ (li_clean _ _ _ I) (li_ps _ _ _ I) E1) as (C & oc & B & Hk & Hnm & Hvs). exists v. split; [done|].
    assert (G : grows (heap s) (heap s2) (only (ld_params d) [v])) by apply B.
    assert (L : labelled (heap s2) v (LValue (fst x) [PStr (snd x)])).
    { destruct (born_exists _ _ _ _ _ B) as [o Ho]. exists o. split; [done|].
      pose proof (born_get o_kind _ _ _ _ _ B (fun _ => eq_refl)) as F1. pose proof (born_get o_name _ _ _ _ _ B (fun _ => eq_refl)) as F2.
      pose proof (born_get o_vals _ _ _ _ _ B (fun _ => eq_refl)) as F3. rewrite Ho in F1, F2, F3. cbn in F1, F2, F3. injection F1 as ->. injection F2 as ->. injection F3 as ->. done. }
    assert (Kp : kids (heap s2) (ld_params d) = kids (heap s) (ld_params d) ++ [v]) by (rewrite (gs_kids _ _ _ G) by apply I; by rewrite only_at).
    pose proof (bn_new _ _ _ _ _ B) as Hvn. pose proof (bn_len _ _ _ _ _ B) as Hl. split.
    - split.
      + eapply linv_params; [exact I|done|exact G|]. unfold params_are. rewrite Kp. rewrite omap_app, map_app. f_equal.
        * rewrite <- (li_params _ _ _ I). apply pv_kept; [apply G|by apply kids_exist].
        * rewrite omap_cons. unfold pv. destruct L as (o & Ho & L1 & L2 & L3). rewrite Ho, L1, L2, L3. done.
      + destruct O as [O1 O2 O3 O4]. split; [done| |done|done]. rewrite (kept_kind _ _ _ (gs_kept _ _ _ G)); [done|by eapply kind_exists].
      + done.
      + lia. + done. + done.
      + rewrite Kp. unfold param_trees. rewrite map_app. apply Forall2_app.
        * eapply views_grows; [exact W|exact G| |exact Hv]. intros l Hll. apply only_ne. lia.
        * constructor; [|constructor]. constructor; [lia|done|]. rewrite (bn_kids _ _ _ _ _ B). constructor.
    - eapply grows_ext; [|exact G]. intros l _. unfold both. unfold only at 2. by case_decide.
  Qed.
  Lemma parameters_step n0 root nm : forall ps env s d d' s', einv n0 root nm s d env -> fold_m (visit_parameter [nm]) ps d s = (Ok d', s') ->
    exists vs, d' = d /\ einv n0 root nm s' d (env ++ ps) /\ grows (heap s) (heap s') (both root (ld_params d) [] vs).
  Proof.
    induction ps as [|x ps IH]; intros env s d d' s' Ei E.
    - apply ret_inv in E as [-> ->]. exists []. rewrite app_nil_r. split; [done|]. split; [done|]. eapply grows_ext; [|apply grows_refl]. intros l _. unfold both, only. by repeat case_decide.
    - rewrite fold_cons in E. apply bind_inv in E as (d1 & s1 & E1 & E). destruct (parameter_step _ _ _ _ _ _ _ _ _ Ei E1) as (v & -> & Ei1 & G1).
      destruct (IH _ _ _ _ _ Ei1 E) as (vs & -> & Ei2 & G2). exists ([v] ++ vs). split; [done|]. rewrite <- app_assoc in Ei2. split; [done|].
      eapply grows_ext; [|eapply grows_trans; [exact G1|exact G2]]. intros l _. simpl. apply (both_app _ _ [] [v] [] vs). pose proof (op_later _ _ _ _ (ei_open _ _ _ _ _ _ Ei)). lia.
  Qed.
  Lemma items_step n0 root nm : forall items env s d d' s', einv n0 root nm s d env ->
    fold_m (visit_eitem fl rad [nm]) items d s = (Ok d', s') ->
    exists news ts vs, items_trees fl rad [nm] env (dkeys (ld_refs d)) items = Some (ts, dkeys (ld_refs d')) /\ einv n0 root nm s' d' (env ++ flat_map item_params items) /\
      grows (heap s) (heap s') (both root (ld_params d) news vs) /\ ld_params d' = ld_params d /\ Forall2 (viewn n0 (heap s')) news ts.
  Proof.
    induction items as [|it items IH]; intros env s d d' s' Ei E.
    - apply ret_inv in E as [-> ->]. exists [], [], []. split; [done|]. cbn [flat_map]. rewrite app_nil_r. split; [done|]. split; [|done].
      eapply grows_ext; [|apply grows_refl]. intros l _. unfold both, only. by repeat case_decide.
    - rewrite fold_cons in E. apply bind_inv in E as (d1 & s1 & E1 & E). assert (Hpre0 : env `prefix_of` env) by done.
      pose proof (op_later _ _ _ _ (ei_open _ _ _ _ _ _ Ei)) as Hlater.
      assert (X : exists news ts vs, eitem_trees fl rad env [nm] (dkeys (ld_refs d)) it = Some (ts, dkeys (ld_refs d1)) /\ einv n0 root nm s1 d1 (env ++ item_params it) /\
        grows (heap s) (heap s1) (both root (ld_params d) news vs) /\ ld_params d1 = ld_params d /\ Forall2 (viewn n0 (heap s1)) news ts).
      { assert (Hok : forall f tr, okvisit env [nm] f tr -> item_params it = [] -> f d s = (Ok d1, s1) ->
          exists news ts vs, tr (dkeys (ld_refs d)) = Some (ts, dkeys (ld_refs d1)) /\ einv n0 root nm s1 d1 (env ++ item_params it) /\
          grows (heap s) (heap s1) (both root (ld_params d) news vs) /\ ld_params d1 = ld_params d /\ Forall2 (viewn n0 (heap s1)) news ts).
        { intros f tr Hf Hi Ef. destruct (okvisit_step _ _ _ _ _ _ _ _ f tr Ei Hf Ef) as (news & ts & T1 & Ei1 & G1 & Hp1 & V1). exists news, ts, []. rewrite Hi, app_nil_r. done. }
        destruct it as [j|anm its|knm its|ps|].
        - exact (Hok _ _ (kitem_visit fl rad env env Hpre0 (KiJoint j) [nm]) eq_refl E1).
        - exact (Hok _ _ (aitem_visit fl rad env env Hpre0 (AiAmbient anm its) [nm]) eq_refl E1).
        - exact (Hok _ _ (kitem_visit fl rad env env Hpre0 (KiKin knm its) [nm]) eq_refl E1).
        - cbn [visit_eitem] in E1. destruct (parameters_step _ _ _ _ _ _ _ _ _ Ei E1) as (vs & -> & Ei1 & G1). exists [], [], vs. done.
        - exact (Hok _ _ (nothing_visit env [nm]) eq_refl E1). }
      destruct X as (xs & ts & vs & T1 & Ei1 & G1 & Hp1 & V1). destruct (IH _ _ _ _ _ Ei1 E) as (ys & us & ws & T2 & Ei2 & G2 & Hp2 & V2).
      exists (xs ++ ys), (ts ++ us), (vs ++ ws). cbn [items_trees]. rewrite T1, T2. split; [done|]. cbn [flat_map]. rewrite app_assoc. split; [done|]. rewrite Hp1 in G2.
      split; [eapply grows_ext; [|eapply grows_trans; [exact G1|exact G2]]; intros l _; simpl; apply both_app; lia|]. split; [congruence|].
      apply Forall2_app; [|done]. eapply views_grows; [apply clean_wf, Ei1|exact G2| |exact V1]. intros l Hl. apply (both_fresh n0); [apply Ei|apply Ei|done].
  Qed.
End entity.

(** ** load *)
Theorem load_meaning_full fl rad icon c e s d s' : clean s -> load fl rad icon c e s = (Ok d, s') ->
  exists root t, ld_root d = Some root /\ meaning fl rad e = Some t /\ ~ exists_in (heap s) root /\ parent_of (heap s') root = None /\ view (heap s') root t /\
    ~ exists_in (heap s) (ld_params d) /\ parent_of (heap s') (ld_params d) = None /\ view (heap s') (ld_params d) (params_tree (file_params e)) /\
    grows (heap s) (heap s') (fun _ => []) /\ clean s' /\
    (root = S (S (length (heap s))) /\ ld_params d = S (length (heap s)) /\ labelled (heap s') (length (heap s)) (LNode "world") /\ parent_of (heap s') (length (heap s)) = None /\ kids (heap s') (length (heap s)) = []) /\
    exists f d1 s2 s3, generate_node f (en_name e) None s2 = (Ok root, s3) /\ clean s2 /\
      (generate_semantic_element (ld_sems d1) "cognitiveentity" (en_name e) root [("name", PStr (en_name e))] None ;;
       let! d2 := cache_element root d1 in fold_m (visit_eitem fl rad [en_name e]) (en_items e) d2) s3 = (Ok d, s').
Proof.
  intros C E. unfold load in E. apply bind_inv in E as (d0 & s2 & E0 & E). unfold new_loader in E0. apply bind_inv in E0 as (w & s1 & E1 & E0). apply bind_inv in E0 as (ps & s2' & E2 & E0).
  apply ret_inv in E0 as [-> ->]. set (f := mkFactory ("factory_" +:+ icon) c) in *.
  destruct (root_born _ _ _ _ _ C E1) as (C1 & Hw & G1 & L1 & P1 & K1 & ow & How & Hkw & Hnw).
  destruct (root_born _ _ _ _ _ C1 E2) as (C2 & Hps & G2 & L2 & P2 & K2 & op & Hop & Hkp & Hnp).
  set (d0 := mkLoader _ _ _ _ _ _) in E. pose proof (clean_wf _ C1) as W1. pose proof (clean_wf _ C2) as W2.
  assert (I2 : linv s2' d0 []).
  { split.
    - done.
    - intros k x Hg. cbn in Hg. case_decide; [|done]. injection Hg as <-. eapply grows_exists; [exact G2|by eexists].
    - intros k x o Hg Ho Hk. cbn in Hg. case_decide as Hkk; [|done]. injection Hg as <-. subst k. eapply grows_name; [exact W1|exact G2|].
      pose proof (root_name (heap s1) w ltac:(by eexists) P1) as F. unfold name_of in F. rewrite How in F. cbn in F. by rewrite Hnw in F.
    - by eexists.
    - unfold params_are. cbn [ld_params d0]. by rewrite K2. }
  unfold visit_entity in E. apply bind_inv in E as (root & s3 & E3 & E). destruct (root_born _ _ _ _ _ C2 E3) as (C3 & Hr & G3 & L3 & P3 & K3 & orr & Horr & Hkr & Hnr).
  set (d1 := set_root (Some root) d0) in E. pose proof E as Efull. apply bind_inv in E as (sv & s4 & E4 & E).
  assert (I3 : linv s3 d1 []). { assert (J : linv s3 d0 []) by (eapply linv_grows; [exact I2|done|exact G3|done]). by destruct J; split. }
  assert (Hrps : root <> ps) by lia.
  apply (sem_step [] [] _ d1 _ _ _ _ _ _ _ _ SCognitiveEntity I3) in E4 as (oi & Bi & _ & _ & _ & S4 & V4); [|by eexists|done|done|reflexivity].
  pose proof (linv_after _ _ _ _ _ _ _ S4) as I4. pose proof (clean_wf _ C3) as W3.
  apply bind_inv in E as (d2 & s5 & E5 & E). apply cache_inv in E5 as (-> & o4 & Ho4 & ->).
  assert (F3 : full_name (heap s3) root (en_name e)). { pose proof (root_name (heap s3) root ltac:(by eexists) P3) as F. unfold name_of in F. rewrite Horr in F. cbn in F. by rewrite Hnr in F. }
  assert (F4 : full_name (heap s4) root (en_name e)) by (eapply grows_name; [exact W3|apply S4|exact F3]).
  pose proof (clean_name _ _ _ _ (li_clean _ _ _ I4) Ho4 F4) as Hq4. rewrite Hq4 in E.
  set (d2 := set_cache _ d1) in E.
  assert (Lr : labelled (heap s3) root (LNode (en_name e))) by (by exists orr).
  assert (Lr4 : labelled (heap s4) root (LNode (en_name e))) by (eapply labelled_kept; [apply S4|done|done]).
  assert (I5 : linv s4 d2 []).
  { split.
    - apply I4.
    - intros k x Hg. unfold d2 in Hg. cbn [ld_cache set_cache] in Hg. rewrite dget_dset in Hg. case_decide; [injection Hg as <-; by eexists|]. by apply (li_cex _ _ _ I4 k).
    - intros k x o Hg Ho Hk. unfold d2 in Hg. cbn [ld_cache set_cache] in Hg. rewrite dget_dset in Hg. case_decide as Hkk; [injection Hg as <-; by subst k|]. by apply (li_cache _ _ _ I4 k x o).
    - apply I4. - apply I4. }
  pose proof (gs_len _ _ _ (sp_grows _ _ _ _ _ _ _ S4)) as L4. pose proof (bn_new _ _ _ _ _ Bi) as Hsv. pose proof (bn_len _ _ _ _ _ Bi) as Ll4.
  assert (Kr4 : kids (heap s4) root = [sv]) by (rewrite (gs_kids _ _ _ (sp_grows _ _ _ _ _ _ _ S4)) by (by eexists); by rewrite only_at, K3).
  assert (Kp4 : kids (heap s4) ps = []).
  { rewrite (gs_kids _ _ _ (sp_grows _ _ _ _ _ _ _ S4)); [|eapply grows_exists; [exact G3|by eexists]]. rewrite only_ne by done. rewrite (gs_kids _ _ _ G3) by (by eexists). by rewrite K2. }
  assert (Ei : einv (S root) root (en_name e) s4 d2 []).
  { split; [done| |done|lia|lia|cbn; lia|cbn; by rewrite Kp4; constructor]. split; [|by apply (labelled_kind _ _ _ Lr4)|cbn; lia|done]. unfold d2. cbn [ld_cache set_cache join]. by rewrite dget_dset, decide_True. }
  destruct (items_step fl rad (S root) root (en_name e) (en_items e) [] s4 d2 d s' Ei E) as (news & ts & vs & Tt & Ei' & G & Hpd & V).
  pose proof (li_clean _ _ _ (ei_inv _ _ _ _ _ _ Ei')) as C'. pose proof (gs_len _ _ _ G) as L'. pose proof (gs_len _ _ _ G1). pose proof (gs_len _ _ _ G2). pose proof (gs_len _ _ _ G3).
  assert (Hpd' : ld_params d = ps) by (rewrite Hpd; done).
  exists root, (T (LNode (en_name e)) (sem_leaf SCognitiveEntity (en_name e) [("name", PStr (en_name e))] :: ts)).
  split; [apply Ei'|]. split; [unfold meaning; cbn [ld_refs d2 set_cache d1 set_root d0] in Tt; cbn in Tt; by rewrite Tt|].
  assert (G4 : grows (heap s3) (heap s4) (only root [sv])) by apply S4.
  split; [rewrite exists_in_lt; lia|]. split.
  { rewrite (gs_unmoved _ _ _ G) by (by eexists). rewrite (gs_unmoved _ _ _ G4) by (by eexists). done. }
  split.
  { constructor; [eapply labelled_kept; [apply G|done|done]|]. rewrite (gs_kids _ _ _ G) by (by eexists). rewrite Kr4. unfold both. rewrite only_at. rewrite only_ne by (cbn; lia). rewrite app_nil_r. constructor.
    - eapply (viewn_view (length (heap s3))). eapply viewn_grows; [by eapply linv_wf|exact G| |exact V4]. intros l Hl. apply (both_fresh (S root)); [lia|cbn; lia|lia].
    - eapply Forall2_impl; [exact V|]. intros. by eapply viewn_view. }
  rewrite Hpd'. split; [rewrite exists_in_lt; lia|].
  assert (Hps3 : exists_in (heap s3) ps) by (eapply grows_exists; [exact G3|by eexists]). assert (Hps4 : exists_in (heap s4) ps) by (eapply grows_exists; [exact G4|done]).
  split. { rewrite (gs_unmoved _ _ _ G) by done. rewrite (gs_unmoved _ _ _ G4) by done. rewrite (gs_unmoved _ _ _ G3) by (by eexists). done. }
  split.
  { constructor.
    - eapply labelled_kept; [apply G|done|]. eapply labelled_kept; [apply G4|done|]. eapply labelled_kept; [apply G3|done|]. exists op. done.
    - pose proof (ei_vals _ _ _ _ _ _ Ei') as Hv. rewrite Hpd' in Hv. eapply Forall2_impl; [exact Hv|]. intros. by eapply viewn_view. }
  assert (Hw2 : exists_in (heap s2') w) by (eapply grows_exists; [exact G2|by eexists]). assert (Hw3 : exists_in (heap s3) w) by (eapply grows_exists; [exact G3|done]). assert (Hw4 : exists_in (heap s4) w) by (eapply grows_exists; [exact G4|done]).
  split; [|split; [done|split; [|exists f, d1, s2', s3; done]]]; cycle 1.
  { rewrite <- Hw. split; [lia|]. split; [lia|]. split; [|split].
    - eapply labelled_kept; [apply G|done|]. eapply labelled_kept; [apply G4|done|]. eapply labelled_kept; [apply G3|done|]. eapply labelled_kept; [apply G2|done|]. by exists ow.
    - rewrite (gs_unmoved _ _ _ G), (gs_unmoved _ _ _ G4), (gs_unmoved _ _ _ G3), (gs_unmoved _ _ _ G2) by (first [done|by eexists]). done.
    - rewrite (gs_kids _ _ _ G), (gs_kids _ _ _ G4), (gs_kids _ _ _ G3), (gs_kids _ _ _ G2), K1 by (first [done|by eexists]). unfold both. rewrite !only_ne by (cbn; lia). done. }
  eapply grows_ext; [|eapply grows_trans; [exact G1|eapply grows_trans; [exact G2|eapply grows_trans; [exact G3|eapply grows_trans; [exact G4|exact G]]]]].
  intros l Hl. cbn. apply exists_in_lt in Hl. unfold both. rewrite !only_ne by (cbn; lia). done.
Qed.

Theorem load_meaning fl rad icon c e s d s' : clean s -> load fl rad icon c e s = (Ok d, s') ->
  exists root t, ld_root d = Some root /\ meaning fl rad e = Some t /\ ~ exists_in (heap s) root /\ parent_of (heap s') root = None /\ view (heap s') root t /\
    ~ exists_in (heap s) (ld_params d) /\ parent_of (heap s') (ld_params d) = None /\ view (heap s') (ld_params d) (params_tree (file_params e)) /\
    grows (heap s) (heap s') (fun _ => []) /\ clean s'.
Proof. intros C E. destruct (load_meaning_full fl rad icon c e s d s' C E) as (root & t & H1 & H2 & H3 & H4 & H5 & H6 & H7 & H8 & H9 & H10 & _). by exists root, t. Qed.
