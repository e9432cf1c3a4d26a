(** * Loading: every resolvable description is accepted *)
From stdpp Require Import relations.
From Verif Require Import Spec Hierarchy Elements Factory History PDict PPath PExec PBfs PWF PAdd PMono PStep PRemove PReach PPrim PHist QHier QHier2 QHier3 QHier4 QHier5 QHier6 QFac SpecFac QFac2 CogniLang QCog QCog2 QCog3 QCog4 QCog5 QCog6 QCog7 QCog8 QConv QGo QGo2 QGo3 QGo4 QGo5 SpecScope.

Definition solid (t : tree) : Prop := match t with T (LRel _ _ _) _ => False | _ => True end.
Lemma viewn_tagged n h x t : solid t -> viewn n h x t -> tagged h x t.
Proof.
  intros Hs V. inversion V as [? lb ts _ (o & Ho & Hl) _]; subst. unfold tagged, name_of, kind_of. rewrite Ho. cbn. split.
  - destruct lb; cbn in Hl; try done; by destruct Hl as (_ & H & _) || by destruct Hl as (_ & H).
  - intros nm sub [= -> ->]. by destruct Hl as [-> _].
Qed.
Lemma thread_solid {A} (f : list string -> A -> option (list tree * list string)) : forall l seen ts seen',
  Forall (fun x => forall seen ts seen', f seen x = Some (ts, seen') -> Forall solid ts) l -> thread f seen l = Some (ts, seen') -> Forall solid ts.
Proof.
  induction l as [|x l IH]; intros seen ts seen' F E.
  - injection E as <- _. constructor.
  - inversion F as [|? ? F1 F2]; subst. rewrite thread_cons in E. destruct (f seen x) as [[t1 s1]|] eqn:E1; [|done]. destruct (thread f s1 l) as [[t2 s2]|] eqn:E2; [|done]. injection E as <- _.
    apply Forall_app. split; [by eapply F1|by eapply IH].
Qed.
Lemma kitem_solid fl rad env : forall it path seen ts seen', kitem_trees fl rad env path seen it = Some (ts, seen') -> Forall solid ts.
Proof.
  intros [l|j|nm its|] path seen ts seen' E; cbn [kitem_trees] in E.
  - unfold link_tree in E. destruct (link_head fl rad env l); [|done].
    assert (X : forall y, thread (reference_tree (path ++ [lk_name l])) seen (link_parts l) = Some (y, seen') -> Forall solid y).
    { intros y Hy. eapply thread_solid; [|exact Hy]. apply Forall_forall. intros pt _ sn tt sn' Hr. unfold reference_tree in Hr. destruct (part_geometry pt); [injection Hr as <- _; constructor|].
      case_decide; injection Hr as <- _; repeat constructor. }
    destruct (thread (reference_tree (path ++ [lk_name l])) seen (link_parts l)) as [[y sn]|] eqn:Ey; [|destruct (lk_body l) as [[? ?]|]; [destruct (fl _); [destruct (part_trees _ _ _ _)|]|]; done].
    destruct (lk_body l) as [[i ps]|].
    + destruct (fl (in_mass i)); [|done]. destruct (part_trees fl env (path ++ [lk_name l]) ps); [|done]. injection E as <- <-. constructor; [done|by apply X].
    + injection E as <- <-. constructor; [done|by apply X].
  - unfold joint_tree in E. destruct (relation_trees _ _ _ _ _ _); [|done]. injection E as <- _. by repeat constructor.
  - destruct (thread _ _ _) as [[y sn]|]; [|done]. injection E as <- _. by repeat constructor.
  - injection E as <- _. constructor.
Qed.
Lemma aitem_solid fl rad env : forall it path seen ts seen', aitem_trees fl rad env path seen it = Some (ts, seen') -> Forall solid ts.
Proof.
  intros [n|n|nm its|nm its|] path seen ts seen' E; cbn [aitem_trees] in E; try (injection E as <- _; by repeat constructor).
  - destruct (thread _ _ _) as [[y sn]|]; [|done]. injection E as <- _. by repeat constructor.
  - by eapply kitem_solid.
Qed.

Section go.
  Context (n0 : nat) (c : clockid) (fl : string -> option Qc) (rad : Qc) (env : list (string * string)).
  Notation ginv := (ginv n0 c).

  Lemma holds_grows h h' a p tcs news ts n : WF0 h -> holds h p tcs -> grows h h' a -> exists_in h p -> a p = news -> Forall2 (viewn n h') news ts -> Forall solid ts -> holds h' p (tcs ++ ts).
  Proof.
    intros W Hh G Hp Ha V Hs. unfold holds in *. rewrite (gs_kids _ _ _ G) by done. rewrite Ha. apply Forall2_app.
    - assert (Hex : forall x, x ∈ kids h p -> exists_in h x) by (by apply kids_exist). clear Ha. induction Hh as [|x t xs ts' [H1 H2] Hh IH]; constructor.
      + assert (He : exists_in h x) by (apply Hex; left). split; [by rewrite (kept_name _ _ _ (gs_kept _ _ _ G))|]. intros nm sub E. rewrite (kept_kind _ _ _ (gs_kept _ _ _ G)) by done. by eapply H2.
      + apply IH. intros y Hy. apply Hex. by right.
    - clear Ha. induction V as [|x t xs ts' V1 V IH]; constructor; inversion Hs; subst; [by eapply viewn_tagged|by apply IH].
  Qed.

  Definition goes (path : list string) (f : loader -> M loader) (tr : list string -> option (list tree * list string)) (en : entries) (ok : list tree -> entries -> list string -> Prop) : Prop :=
    forall p s d es tcs, ginv s d env es -> opened s d path p -> holds (heap s) p tcs -> ok tcs es (dkeys (ld_refs d)) -> is_Some (tr (dkeys (ld_refs d))) ->
    exists d' s', f d s = (Ok d', s') /\ ginv s' d' env (es ++ en).

  Lemma fold_goes {A} path (f : A -> loader -> M loader) tr (en : A -> entries) ok : forall items,
    Forall (fun x => goes path (f x) (fun seen => tr seen x) (en x) (fun tcs es seen => ok tcs es seen x) /\ okvisit env path (f x) (fun seen => tr seen x) /\
      forall seen ts seen', tr seen x = Some (ts, seen') -> Forall solid ts) items ->
    forall p s d es tcs, ginv s d env es -> opened s d path p -> holds (heap s) p tcs -> in_turn tr en ok tcs es (dkeys (ld_refs d)) items ->
    exists d' s', fold_m f items d s = (Ok d', s') /\ ginv s' d' env (es ++ flat_map en items).
  Proof.
    induction items as [|x items IH]; intros F p s d es tcs G O Hh Ht.
    - exists d, s. split; [reflexivity|]. cbn [flat_map]. by rewrite app_nil_r.
    - inversion F as [|? ? (F1 & F2 & F3) F']; subst. cbn [in_turn] in Ht. destruct Ht as [Hok Ht]. destruct (tr (dkeys (ld_refs d)) x) as [[ts seen']|] eqn:Etr; [|done].
      assert (Hi : is_Some (tr (dkeys (ld_refs d)) x)) by (rewrite Etr; by eexists).
      destruct (F1 p s d es tcs G O Hh Hok Hi) as (d1 & s1 & E1 & G1).
      destruct (F2 p s d d1 s1 (gi_l _ _ _ _ _ _ G) O E1) as (news & ts1 & T1 & S1 & V1). cbn in T1. rewrite Etr in T1. injection T1 as -> ->.
      destruct (IH F' p s1 d1 (es ++ en x) (tcs ++ ts1) G1) as (d2 & s2 & E2 & G2).
      { by eapply opened_step. } { eapply holds_grows; [exact (ginv_wf _ _ _ _ _ _ G)|exact Hh|apply S1|by eapply opened_exists|apply only_at|exact V1|by eapply F3]. } { exact Ht. }
      exists d2, s2. split; [rewrite fold_cons, (bind_ok _ _ _ _ _ E1); exact E2|]. cbn [flat_map]. by rewrite app_assoc.
  Qed.

  Lemma plain_go path nm p s d es : ginv s d env es -> opened s d path p -> exists d' s', plain_node path nm d s = (Ok d', s') /\ ginv s' d' env (es ++ [node_entry path nm]).
  Proof.
    intros G O. pose proof (ginv_wf _ _ _ _ _ _ G) as W. assert (Hpp : p <> ld_params d) by (pose proof (op_later _ _ _ _ O); lia). pose proof (op_path _ _ _ _ O) as Hpa.
    destruct (gnode n0 c path s d env es nm p G (opened_n0 _ _ _ _ _ _ _ _ G O) (op_kind _ _ _ _ O) Hpp) as (el & s1 & E1 & G1 & oc & B & Hoc & S1 & L1).
    pose proof (born_below path _ _ _ _ _ W B (opened_name _ _ _ _ _ (gi_l _ _ _ _ _ _ G) O)) as F. rewrite Hoc in F.
    destruct (gcache n0 c path nm s1 d env es el (Some nm) G1 F (new_n0 _ _ _ _ _ _ _ _ _ _ G B) L1) as (d1 & E2 & G2 & _).
    exists d1, s1. split.
    - unfold plain_node, cached. rewrite (op_cached _ _ _ _ O). cbn [of_opt]. rewrite (bind_ok (ret p) _ s p s) by done. rewrite (bind_ok _ _ _ _ _ E1). exact E2.
    - unfold node_entry. rewrite (join_apps path) by done. exact G2.
  Qed.
  Lemma kinematic_go path nm p s d es : ginv s d env es -> opened s d path p -> exists d' s', enter_kinematic path nm d s = (Ok d', s') /\ ginv s' d' env (es ++ [node_entry path nm]).
  Proof.
    intros G O. pose proof (ginv_wf _ _ _ _ _ _ G) as W. assert (Hpp : p <> ld_params d) by (pose proof (op_later _ _ _ _ O); lia). pose proof (op_path _ _ _ _ O) as Hpa.
    destruct (gnode n0 c path s d env es nm p G (opened_n0 _ _ _ _ _ _ _ _ G O) (op_kind _ _ _ _ O) Hpp) as (el & s1 & E1 & G1 & oc & B & Hoc & S1 & L1).
    pose proof (born_below path _ _ _ _ _ W B (opened_name _ _ _ _ _ (gi_l _ _ _ _ _ _ G) O)) as F. rewrite Hoc in F.
    destruct (gsem n0 c path s1 d env es "kinematicgraph" nm el [("name", PStr nm)] None SKinematicGraph G1 (new_n0 _ _ _ _ _ _ _ _ _ _ G B) (born_exists _ _ _ _ _ B)) as (sv & s2 & E2 & G2 & os & Bs & _ & _ & S2).
    { rewrite (labelled_kind _ _ _ L1). done. } { rewrite (labelled_kind _ _ _ L1). done. } { exact (new_par _ _ _ _ _ _ _ _ _ _ G B). } { done. } { reflexivity. }
    destruct (gcache n0 c path nm s2 d env es el (Some nm) G2) as (d1 & E3 & G3 & _).
    { eapply grows_name; [exact (ginv_wf _ _ _ _ _ _ G1)|apply S2|exact F]. } { exact (new_n0 _ _ _ _ _ _ _ _ _ _ G B). } { eapply labelled_kept; [apply S2|exact Logic.I|done]. }
    exists d1, s2. split.
    - unfold enter_kinematic, cached. rewrite (op_cached _ _ _ _ O). cbn [of_opt]. rewrite (bind_ok (ret p) _ s p s) by done. rewrite (bind_ok _ _ _ _ _ E1), (bind_ok _ _ _ _ _ E2). exact E3.
    - unfold node_entry. rewrite (join_apps path) by done. exact G3.
  Qed.

  Lemma kitem_goes : forall it path, goes path (visit_kitem fl rad path it) (fun seen => kitem_trees fl rad env path seen it) (kitem_entries path it) (fun tcs es seen => kitem_found fl rad env path tcs es seen it).
  Proof.
    induction it as [l|j|nm its IH|] using kitem_rect'; intros path p s d es tcs G O Hh Hok [[ts seen'] Ht].
    - by eapply link_go.
    - by eapply joint_go.
    - cbn [visit_kitem kitem_entries kitem_found] in *. destruct (kinematic_go path nm p s d es G O) as (d1 & s1 & E1 & G1).
      destruct (kinematic_enter env path nm p s d d1 s1 (gi_l _ _ _ _ _ _ G) O E1) as (el & S1 & O1 & _ & L1 & K1 & V1 & Hr1).
      destruct (fold_goes (path ++ [nm]) (visit_kitem fl rad (path ++ [nm])) (kitem_trees fl rad env (path ++ [nm])) (kitem_entries (path ++ [nm])) (kitem_found fl rad env (path ++ [nm])) its) with (p := el) (s := s1) (d := d1)
        (es := es ++ [node_entry path nm]) (tcs := [sem_leaf SKinematicGraph nm [("name", PStr nm)]]) as (d2 & s2 & E2 & G2).
      { eapply Forall_impl; [exact IH|]. intros it Hit. split; [apply Hit|]. split; [by apply kitem_visit|]. intros seen1 ts1 seen2. apply kitem_solid. }
      { done. } { done. } { unfold holds. rewrite K1. inversion V1; subst. constructor; [by eapply viewn_tagged|constructor]. } { by rewrite Hr1. }
      exists d2, s2. split; [rewrite (bind_ok _ _ _ _ _ E1); exact E2|]. by rewrite <- app_assoc in G2.
    - exists d, s. split; [reflexivity|]. cbn [kitem_entries]. by rewrite app_nil_r.
  Qed.
  Lemma aitem_goes : forall it path, goes path (visit_aitem fl rad path it) (fun seen => aitem_trees fl rad env path seen it) (aitem_entries path it) (fun tcs es seen => aitem_found fl rad env path tcs es seen it).
  Proof.
    induction it as [n|n|nm its IH|nm its|] using aitem_rect'; intros path.
    - intros p s d es tcs G O _ _ _. by eapply plain_go.
    - intros p s d es tcs G O _ _ _. by eapply plain_go.
    - intros p s d es tcs G O Hh Hok [[ts seen'] Ht]. cbn [visit_aitem aitem_entries aitem_found] in *. destruct (plain_go path nm p s d es G O) as (d1 & s1 & E1 & G1).
      destruct (ambient_enter env path nm p s d d1 s1 (gi_l _ _ _ _ _ _ G) O E1) as (el & S1 & O1 & _ & L1 & K1 & V1 & Hr1).
      destruct (fold_goes (path ++ [nm]) (visit_aitem fl rad (path ++ [nm])) (aitem_trees fl rad env (path ++ [nm])) (aitem_entries (path ++ [nm])) (aitem_found fl rad env (path ++ [nm])) its) with (p := el) (s := s1) (d := d1)
        (es := es ++ [node_entry path nm]) (tcs := @nil tree) as (d2 & s2 & E2 & G2).
      { eapply Forall_impl; [exact IH|]. intros it Hit. split; [apply Hit|]. split; [by apply aitem_visit|]. intros seen1 ts1 seen2. apply aitem_solid. }
      { done. } { done. } { unfold holds. rewrite K1. constructor. } { by rewrite Hr1. }
      exists d2, s2. split; [rewrite (bind_ok _ _ _ _ _ E1); exact E2|]. by rewrite <- app_assoc in G2.
    - apply (kitem_goes (KiKin nm its) path).
    - intros p s d es tcs G O _ _ _. exists d, s. split; [reflexivity|]. cbn [aitem_entries]. by rewrite app_nil_r.
  Qed.
End go.

Section entity.
  Context (n0 : nat) (c : clockid) (fl : string -> option Qc) (rad : Qc).
  Notation ginv := (ginv n0 c).

  Lemma parameter_go n1 root nm env s d es x : einv n1 root nm s d env -> ginv s d env es -> exists s', visit_parameter [nm] x d s = (Ok d, s') /\ ginv s' d (env ++ [x]) es.
  Proof.
    intros Ei G. destruct (gi_ps _ _ _ _ _ _ G) as [Hp Hk]. destruct (value_go n0 c s (ld_nodes d) (ld_params d) (fst x) (Some [PStr (snd x)]) (gi_d _ _ _ _ _ _ G) (ginv_wf _ _ _ _ _ _ G) (gi_n _ _ _ _ _ _ G) Hp Hk) as (v & s' & E & D').
    assert (E' : visit_parameter [nm] x d s = (Ok d, s')).
    { unfold visit_parameter, cached. rewrite (op_cached _ _ _ _ (ei_open _ _ _ _ _ _ Ei)). cbn [of_opt]. rewrite (bind_ok (ret root) _ s root s) by done. rewrite decide_True by (by rewrite (ei_root _ _ _ _ _ _ Ei)).
      rewrite (bind_ok _ _ s tt s'); [reflexivity|]. rewrite (bind_ok _ _ _ _ _ E). reflexivity. }
    exists s'. split; [exact E'|]. destruct (parameter_step _ _ _ _ _ _ _ _ _ Ei E') as (v' & _ & Ei' & Gr). eapply ginv_kept; [exact G|apply Ei'|exact D'|apply Gr].
  Qed.
  Lemma parameters_go n1 root nm : forall ps env s d es, einv n1 root nm s d env -> ginv s d env es -> exists s', fold_m (visit_parameter [nm]) ps d s = (Ok d, s') /\ ginv s' d (env ++ ps) es.
  Proof.
    induction ps as [|x ps IH]; intros env s d es Ei G.
    - exists s. split; [reflexivity|]. by rewrite app_nil_r.
    - destruct (parameter_go n1 root nm env s d es x Ei G) as (s1 & E1 & G1). destruct (parameter_step _ _ _ _ _ _ _ _ _ Ei E1) as (v' & _ & Ei1 & _).
      destruct (IH _ _ _ _ Ei1 G1) as (s2 & E2 & G2). exists s2. split; [rewrite fold_cons, (bind_ok _ _ _ _ _ E1); exact E2|]. by rewrite <- app_assoc in G2.
  Qed.
  Lemma items_go n1 root nm : forall items env s d es tcs, einv n1 root nm s d env -> ginv s d env es -> holds (heap s) root tcs ->
    items_found fl rad [nm] env tcs es (dkeys (ld_refs d)) items -> exists d' s', fold_m (visit_eitem fl rad [nm]) items d s = (Ok d', s') /\ dinv n0 c s'.
  Proof.
    induction items as [|it items IH]; intros env s d es tcs Ei G Hh Hf; [exists d, s; split; [reflexivity|apply (gi_d _ _ _ _ _ _ G)]|]. cbn [items_found] in Hf. destruct Hf as [Hok Ht].
    destruct (eitem_trees fl rad env [nm] (dkeys (ld_refs d)) it) as [[ts seen']|] eqn:Etr; [|done]. pose proof (ei_open _ _ _ _ _ _ Ei) as O. pose proof (op_later _ _ _ _ O) as Hlt.
    assert (X : exists d1 s1, visit_eitem fl rad [nm] it d s = (Ok d1, s1) /\ ginv s1 d1 (env ++ item_params it) (es ++ eitem_entries [nm] it) /\ einv n1 root nm s1 d1 (env ++ item_params it) /\
      dkeys (ld_refs d1) = seen' /\ holds (heap s1) root (tcs ++ ts)).
    { assert (Hgo : forall f tr en ok, goes n0 c env [nm] f tr en ok -> okvisit env [nm] f tr -> (forall seen ts seen', tr seen = Some (ts, seen') -> Forall solid ts) -> ok tcs es (dkeys (ld_refs d)) ->
        tr (dkeys (ld_refs d)) = Some (ts, seen') -> exists d1 s1, f d s = (Ok d1, s1) /\ ginv s1 d1 (env ++ []) (es ++ en) /\ einv n1 root nm s1 d1 (env ++ []) /\ dkeys (ld_refs d1) = seen' /\ holds (heap s1) root (tcs ++ ts)).
      { intros f tr en ok Hg Hv Hs Ho Htr. destruct (Hg root s d es tcs G O Hh Ho ltac:(rewrite Htr; by eexists)) as (d1 & s1 & E1 & G1). exists d1, s1. rewrite app_nil_r. split; [exact E1|]. split; [done|].
        destruct (okvisit_step n1 root nm env s d d1 s1 f tr Ei Hv E1) as (news & ts1 & T1 & Ei1 & Gr & _ & V1). rewrite Htr in T1. injection T1 as <- ->. split; [done|]. split; [done|].
        eapply holds_grows; [exact (ginv_wf _ _ _ _ _ _ G)|exact Hh|exact Gr|by eapply opened_exists| |exact V1|by eapply Hs]. unfold both. rewrite only_at, only_ne by lia. by rewrite app_nil_r. }
      destruct it as [j|anm its|knm its|ps|].
      - refine (Hgo _ _ _ _ (kitem_goes n0 c fl rad env (KiJoint j) [nm]) (kitem_visit fl rad env env ltac:(done) (KiJoint j) [nm]) _ Hok Etr). intros ???. apply kitem_solid.
      - refine (Hgo _ _ _ _ (aitem_goes n0 c fl rad env (AiAmbient anm its) [nm]) (aitem_visit fl rad env env ltac:(done) (AiAmbient anm its) [nm]) _ Hok Etr). intros ???. apply aitem_solid.
      - refine (Hgo _ _ _ _ (kitem_goes n0 c fl rad env (KiKin knm its) [nm]) (kitem_visit fl rad env env ltac:(done) (KiKin knm its) [nm]) _ Hok Etr). intros ???. apply kitem_solid.
      - injection Etr as <- <-. cbn [visit_eitem item_params eitem_entries]. rewrite !app_nil_r. destruct (parameters_go n1 root nm ps env s d es Ei G) as (s1 & E1 & G1). exists d, s1. split; [exact E1|]. split; [done|].
        destruct (parameters_step _ _ _ _ _ _ _ _ _ Ei E1) as (vs & _ & Ei1 & Gr). split; [done|]. split; [done|]. rewrite <- (app_nil_r tcs).
        eapply (holds_grows _ _ _ _ _ [] [] 0); [exact (ginv_wf _ _ _ _ _ _ G)|exact Hh|exact Gr|by eapply opened_exists| |constructor|constructor]. unfold both. rewrite only_at, only_ne by lia. done.
      - injection Etr as <- <-. exists d, s. split; [reflexivity|]. cbn [item_params eitem_entries]. by rewrite !app_nil_r. }
    destruct X as (d1 & s1 & E1 & G1 & Ei1 & Hr & Hh1). destruct (IH _ _ _ _ _ Ei1 G1 Hh1) as (d2 & s2 & E2 & D2); [by rewrite Hr|].
    exists d2, s2. split; [|exact D2]. rewrite fold_cons, (bind_ok _ _ _ _ _ E1). exact E2.
  Qed.
End entity.

Theorem load_go fl rad icon c e s : clean s -> (forall a b, sha s a = sha s b -> a = b) -> (forall k k', clk s c k = clk s c k' -> k = k') -> resolvable fl rad e ->
  exists d s', load fl rad icon c e s = (Ok d, s') /\ dinv (length (heap s)) c s'.
Proof.
  intros C Hsha Hclk Hres. set (n0 := length (heap s)). pose proof (clean_wf _ C) as W.
  assert (D : dinv n0 c s).
  { split; try done.
    - intros l o Hl Ho. apply lookup_lt_Some in Ho. unfold n0 in Hl. lia.
    - intros l o Hl Ho. apply lookup_lt_Some in Ho. unfold n0 in Hl. lia.
    - intros x p _ Hp. apply exists_in_lt. by eapply wf0_parent_exists.
    - intros r x Hr Hk. apply kind_exists in Hk. apply exists_in_lt in Hk. unfold n0 in Hr. lia.
    - intros l o Hl Ho. apply lookup_lt_Some in Ho. unfold n0 in Hl. lia.
    - intros l o Hl Ho. apply lookup_lt_Some in Ho. unfold n0 in Hl. lia.
    - intros r y Hr Hk. apply kind_exists in Hk. apply exists_in_lt in Hk. unfold n0 in Hr. lia.
    - intros l p Hl Hp. unfold parent_of in Hp. destruct (heap s !! l) eqn:E; [|done]. apply lookup_lt_Some in E. unfold n0 in Hl. lia. }
  unfold load, new_loader. set (f := mkFactory ("factory_" +:+ icon) c).
  destruct (root_go n0 c s f "world" D ltac:(unfold n0; lia) eq_refl W) as (w & s1 & E1 & D1). destruct (root_born _ _ _ _ _ C E1) as (C1 & Hw & G1 & L1 & P1 & K1 & ow & How & Hkw & Hnw). pose proof (clean_wf _ C1) as W1.
  destruct (root_go n0 c s1 f "parameters" D1 ltac:(unfold n0; lia) eq_refl W1) as (ps & s2 & E2 & D2). destruct (root_born _ _ _ _ _ C1 E2) as (C2 & Hps & G2 & L2 & P2 & K2 & op & Hop & Hkp & Hnp). pose proof (clean_wf _ C2) as W2.
  set (d0 := mkLoader f (mkFactory ("cogni_" +:+ icon) c) [("world", w)] [] None ps).
  destruct (root_go n0 c s2 f (en_name e) D2 ltac:(unfold n0; lia) eq_refl W2) as (root & s3 & E3 & D3). destruct (root_born _ _ _ _ _ C2 E3) as (C3 & Hr & G3 & L3 & P3 & K3 & orr & Horr & Hkr & Hnr). pose proof (clean_wf _ C3) as W3.
  assert (I2 : linv s2 d0 []).
  { split.
    - done.
    - intros k x Hg. cbn in Hg. case_decide; [|done]. injection Hg as <-. eapply grows_exists; [exact G2|by eexists].
    - intros k x o Hg Ho Hk. cbn in Hg. case_decide as Hkk; [|done]. injection Hg as <-. subst k. eapply grows_name; [exact W1|exact G2|].
      pose proof (root_name (heap s1) w ltac:(by eexists) P1) as F. unfold name_of in F. rewrite How in F. cbn in F. by rewrite Hnw in F.
    - by eexists.
    - unfold params_are. cbn [ld_params d0]. by rewrite K2. }
  set (d1 := set_root (Some root) d0).
  assert (I3 : linv s3 d1 []). { assert (J : linv s3 d0 []) by (eapply linv_grows; [exact I2|done|exact G3|done]). by destruct J; split. }
  assert (Hrps : root <> ps) by lia. assert (Hrn : n0 <= root) by (unfold n0; lia).
  destruct (sem_go n0 c s3 (ld_sems d1) "cognitiveentity" (en_name e) root [("name", PStr (en_name e))] None SCognitiveEntity D3 W3 eq_refl Hrn) as (sv & s4 & E4 & D4).
  { unfold kind_of. rewrite Horr. cbn. by rewrite Hkr. } { unfold kind_of. rewrite Horr. cbn. by rewrite Hkr. } { by eexists. } { done. } { reflexivity. }
  pose proof E4 as E4'. apply (sem_step [] [] _ d1 _ _ _ _ _ _ _ _ SCognitiveEntity I3) in E4' as (oi & Bi & _ & _ & _ & S4 & V4); [|by eexists|done|done|reflexivity].
  pose proof (linv_after _ _ _ _ _ _ _ S4) as I4.
  assert (F3 : full_name (heap s3) root (en_name e)). { pose proof (root_name (heap s3) root ltac:(by eexists) P3) as F. unfold name_of in F. rewrite Horr in F. cbn in F. by rewrite Hnr in F. }
  assert (F4 : full_name (heap s4) root (en_name e)) by (eapply grows_name; [exact W3|apply S4|exact F3]).
  assert (Lr : labelled (heap s3) root (LNode (en_name e))) by (by exists orr).
  assert (Lr4 : labelled (heap s4) root (LNode (en_name e))) by (eapply labelled_kept; [apply S4|exact Logic.I|done]).
  assert (Lw4 : labelled (heap s4) w (LNode "world")).
  { eapply labelled_kept; [apply S4|exact Logic.I|]. eapply labelled_kept; [apply G3|exact Logic.I|]. eapply labelled_kept; [apply G2|exact Logic.I|]. by exists ow. }
  destruct (labelled_exists _ _ _ Lr4) as [o4 Ho4]. pose proof (clean_name _ _ _ _ (li_clean _ _ _ I4) Ho4 F4) as Hq4.
  set (d2 := set_cache (dset (en_name e) root (ld_cache d1)) d1).
  assert (E5 : cache_element root d1 s4 = (Ok d2, s4)). { unfold cache_element. rewrite (bind_ok _ _ _ _ _ (deref_ok _ _ _ Ho4)). by rewrite Hq4. }
  assert (Hcache : forall k, dget k (ld_cache d2) = if decide (k = en_name e) then Some root else if decide (k = "world") then Some w else None).
  { intros k. unfold d2. cbn [ld_cache set_cache]. rewrite dget_dset. destruct (decide (k = en_name e)) as [->|Hk]; [done|]. cbn [ld_cache d1 set_root d0 dget].
    destruct (decide (k = "world")) as [->|Hk2]; [reflexivity|]. reflexivity. }
  assert (I5 : linv s4 d2 []).
  { split.
    - apply I4.
    - intros k x Hg. rewrite Hcache in Hg. destruct (decide (k = en_name e)); [injection Hg as <-; by eexists|]. destruct (decide (k = "world")); [injection Hg as <-; by eapply labelled_exists|done].
    - intros k x o Hg Ho Hk. unfold d2 in Hg. cbn [ld_cache set_cache] in Hg. rewrite dget_dset in Hg. destruct (decide (k = en_name e)) as [->|Hkk]; [by injection Hg as <-|].
      by apply (li_cache _ _ _ I4 k x o).
    - apply I4. - apply I4. }
  pose proof (gs_len _ _ _ (sp_grows _ _ _ _ _ _ _ S4)) as L4.
  assert (Kr4 : kids (heap s4) root = [sv]) by (rewrite (gs_kids _ _ _ (sp_grows _ _ _ _ _ _ _ S4)) by (by eexists); by rewrite only_at, K3).
  assert (Kp4 : kids (heap s4) ps = []).
  { rewrite (gs_kids _ _ _ (sp_grows _ _ _ _ _ _ _ S4)); [|eapply grows_exists; [exact G3|by eexists]]. rewrite only_ne by done. rewrite (gs_kids _ _ _ G3) by (by eexists). by rewrite K2. }
  assert (Ei : einv (S root) root (en_name e) s4 d2 []).
  { split; [done| |done|lia|lia|cbn; lia|cbn; by rewrite Kp4; constructor]. split; [|by apply (labelled_kind _ _ _ Lr4)|cbn; lia|done]. cbn [join]. rewrite Hcache. by rewrite decide_True. }
  assert (Gi : ginv n0 c s4 d2 [] [("world", Some "world"); (en_name e, Some (en_name e))]).
  { split; try done.
    - intros k x Hg. rewrite Hcache in Hg. destruct (decide (k = en_name e)); [injection Hg as <-; done|]. destruct (decide (k = "world")); [injection Hg as <-; unfold n0; lia|done].
    - split; [cbn; unfold n0; lia|]. cbn [ld_params d2 set_cache d1 set_root d0].
      assert (Lp : labelled (heap s4) ps (LNode "parameters")) by (eapply labelled_kept; [apply S4|exact Logic.I|]; eapply labelled_kept; [apply G3|exact Logic.I|]; by exists op).
      apply (labelled_kind _ _ _ Lp).
    - intros k nm. change [("world", Some "world"); (en_name e, Some (en_name e))] with ([("world", Some "world")] ++ [(en_name e, Some (en_name e))]). rewrite entry_snoc. rewrite Hcache.
      destruct (decide (en_name e = k)) as [<-|Hk].
      + intros [= <-]. exists root. by rewrite decide_True.
      + rewrite decide_False by done. change [("world", Some "world")] with ([] ++ [("world", Some "world")]). rewrite entry_snoc. destruct (decide ("world" = k)) as [<-|Hk2]; [|done]. intros [= <-]. exists w. split; [reflexivity|done].
    - cbn. intros k Hk. inversion Hk.
    - rewrite Hcache. destruct (decide ("world" = en_name e)) as [Hwe|]; [exists root; by rewrite Hwe|exists w; by rewrite decide_True]. }
  destruct (items_go n0 c fl rad (S root) root (en_name e) (en_items e) [] s4 d2 _ [sem_leaf SCognitiveEntity (en_name e) [("name", PStr (en_name e))]] Ei Gi) as (d' & s' & E6 & D6).
  { unfold holds. rewrite Kr4. constructor; [by eapply viewn_tagged|constructor]. } { exact Hres. }
  exists d', s'. split; [|exact D6]. rewrite (bind_ok _ _ s d0 s2).
  - unfold visit_entity. change (ld_nodes d0) with f. rewrite (bind_ok _ _ _ _ _ E3). cbv zeta. fold d1. change (ld_sems d0) with (ld_sems d1). rewrite (bind_ok _ _ _ _ _ E4), (bind_ok _ _ _ _ _ E5). exact E6.
  - rewrite (bind_ok _ _ _ _ _ E1), (bind_ok _ _ _ _ _ E2). reflexivity.
Qed.
