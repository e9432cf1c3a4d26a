(** * Loading: the parts of a link can be visited *)
From stdpp Require Import relations.
From Verif Require Import Spec Hierarchy Elements Factory History PDict PPath PExec PBfs PWF PAdd PMono PStep PRemove PReach PPrim PHist QHier QHier2 QHier3 QHier4 QHier5 QHier6 QFac SpecFac QFac2 CogniLang QCog QCog2 QCog3 QCog4 QCog5 QCog6 QCog7 QCog8 QConv QGo QGo2 SpecScope.

Lemma entry_snoc es k v q : entry (es ++ [(k, v)]) q = if decide (k = q) then Some v else entry es q.
Proof.
  unfold entry. rewrite filter_app. destruct (decide (k = q)) as [E|E].
  - rewrite filter_cons_True by done. change (filter _ []) with (@nil (string * option string)). by rewrite last_snoc.
  - rewrite filter_cons_False by done. change (filter _ []) with (@nil (string * option string)). by rewrite app_nil_r.
Qed.
Lemma sapp_inj (a b c : string) : a +:+ b = a +:+ c -> b = c.
Proof. induction a as [|x a IH]; [done|]. intros E. apply IH. by injection E. Qed.
Lemma world_top path : ~ under path "world".
Proof.
  intros [t H]. assert (E : has_char slash "world" = true) by (rewrite H, has_char_app; apply orb_true_iff; right; done). done.
Qed.
Lemma vector_go fl h ps env : params_are h ps env -> forall vs qs, numbers fl env vs = Some qs -> vector_values fl h ps vs = Ok qs.
Proof.
  intros Hp. induction vs as [|v vs IH]; intros qs E; [by injection E as <-|]. cbn [numbers] in E. destruct (number fl env v) as [q|] eqn:Ev; [|done].
  destruct (numbers fl env vs) as [l|]; [|done]. injection E as <-. cbn [vector_values]. rewrite (IH l eq_refl).
  assert (X : match v with CRef id => match find_value h ps id with Some o => floats fl (o_vals o) | None => Exn RuntimeError end | CFloat t => match fl t with Some q => Ok [q] | None => Exn ValueError end end = Ok [q]).
  { destruct v as [id|t]; cbn [number] in Ev; [|by rewrite Ev]. pose proof (find_value_params h ps env id Hp) as F.
    destruct (head (filter (fun x => fst x = id) env)) as [x|] eqn:Eh; [|done]. destruct (find_value h ps id) as [o|]; [|done]. cbn [fmap option_fmap option_map] in F. apply (inj Some) in F. injection F as _ F. rewrite F. cbn. by rewrite Ev. }
  rewrite X. done.
Qed.
Lemma rigid_values_go fl h ps env r x : params_are h ps env -> rigid fl env r = Some x -> rigid_values fl h ps r = Ok x.
Proof.
  intros Hp. unfold rigid_values, rigid. destruct (numbers fl env (rg_trans r)) as [t|] eqn:E1; [|done]. rewrite (vector_go _ _ _ _ Hp _ _ E1). cbn [rseq].
  destruct (rg_rot r) as [ro|]; [|by intros [= <-]]. destruct (numbers fl env (ro_vec ro)) as [q|] eqn:E2; [|done]. rewrite (vector_go _ _ _ _ Hp _ _ E2). cbn [rseq]. by intros [= <-].
Qed.

Section go.
  Context (n0 : nat) (c : clockid).
  Record ginv (s : st) (d : loader) (env : list (string * string)) (es : entries) : Prop := {
    gi_l : linv s d env;
    gi_d : dinv n0 c s;
    gi_n : f_clock (ld_nodes d) = c;
    gi_s : f_clock (ld_sems d) = c;
    gi_cache : forall k x, dget k (ld_cache d) = Some x -> n0 <= x;
    gi_ps : n0 <= ld_params d /\ kind_of (heap s) (ld_params d) = Some KNode;
    gi_reg : forall k nm, entry es k = Some (Some nm) -> exists x, dget k (ld_cache d) = Some x /\ labelled (heap s) x (LNode nm);
    gi_refs : forall k, k ∈ dkeys (ld_refs d) -> is_Some (dget k (ld_cache d));
    gi_world : exists x, dget "world" (ld_cache d) = Some x /\ labelled (heap s) x (LNode "world")
  }.
  Lemma ginv_wf s d env es : ginv s d env es -> WF0 (heap s).
  Proof. intros G. eapply linv_wf, G. Qed.
  Lemma ginv_heap s d env es s' env' : ginv s d env es -> linv s' d env' -> dinv n0 c s' ->
    (forall x nm, labelled (heap s) x (LNode nm) -> labelled (heap s') x (LNode nm)) -> ginv s' d env' es.
  Proof.
    intros [G1 G2 G3 G4 G5 G6 G7 G8 G9] I D L. split; try done.
    - destruct G6 as [G6 Hk]. split; [done|]. unfold kind_of in Hk. destruct (heap s !! ld_params d) as [o|] eqn:Ho; [|done]. cbn in Hk. injection Hk as Hk.
      assert (X : labelled (heap s') (ld_params d) (LNode (o_name o))) by (apply L; by exists o). by apply labelled_kind in X.
    - intros k nm H. destruct (G7 k nm H) as (x & Hx & Hl). exists x. split; [done|]. by apply L.
    - destruct G9 as (x & Hx & Hl). exists x. split; [done|]. by apply L.
  Qed.
  Lemma ginv_kept s d env es s' env' : ginv s d env es -> linv s' d env' -> dinv n0 c s' -> kept (heap s) (heap s') -> ginv s' d env' es.
  Proof. intros G I D K. eapply ginv_heap; [exact G|exact I|exact D|]. intros x nm. by apply labelled_kept. Qed.
  Lemma opened_n0 s d env es path p : ginv s d env es -> opened s d path p -> n0 <= p.
  Proof. intros G O. eapply gi_cache; [exact G|apply O]. Qed.

  Lemma gnode path s d env es nm q : ginv s d env es -> n0 <= q -> kind_of (heap s) q = Some KNode -> q <> ld_params d ->
    exists x s', generate_node (ld_nodes d) nm (Some q) s = (Ok x, s') /\ ginv s' d env es /\
      exists oc, born_at (heap s) (heap s') q x oc /\ o_name oc = nm /\ step path env (only q [x]) s d s' d /\ labelled (heap s') x (LNode nm).
  Proof.
    intros G Hq Hk Hp. destruct (node_go n0 c s (ld_nodes d) nm q (gi_d _ _ _ _ G) (ginv_wf _ _ _ _ G) (gi_n _ _ _ _ G) Hq Hk) as (x & s' & E & D').
    destruct (node_step path env s d _ nm q x s' (gi_l _ _ _ _ G) (kind_exists _ _ _ Hk) ltac:(by rewrite Hk) Hp E) as (oc & B & Ho & S1 & L1).
    exists x, s'. split; [exact E|]. split; [eapply ginv_kept; [exact G|apply S1|exact D'|apply S1]|]. by exists oc.
  Qed.
  Lemma gsem path s d env es raw nm q attr vs cl : ginv s d env es -> n0 <= q -> exists_in (heap s) q -> kind_of (heap s) q <> Some KEdge -> kind_of (heap s) q <> Some KPort -> q <> ld_params d -> attr <> [] ->
    type_class (norm_type raw) = Some cl ->
    exists x s', generate_semantic_element (ld_sems d) raw nm q attr vs s = (Ok x, s') /\ ginv s' d env es /\
      exists oc, born_at (heap s) (heap s') q x oc /\ o_kind oc = KSem cl /\ o_name oc = nm /\ step path env (only q [x]) s d s' d.
  Proof.
    intros G Hq He Hk Hkp Hp Ha Hc. destruct (sem_go n0 c s (ld_sems d) raw nm q attr vs cl (gi_d _ _ _ _ G) (ginv_wf _ _ _ _ G) (gi_s _ _ _ _ G) Hq Hk Hkp He Ha Hc) as (x & s' & E & D').
    destruct (sem_step path env s d _ raw nm q attr vs x s' cl (gi_l _ _ _ _ G) He Hp Ha Hc E) as (oc & B & H1 & H2 & _ & S1 & _).
    exists x, s'. split; [exact E|]. split; [eapply ginv_kept; [exact G|apply S1|exact D'|apply S1]|]. by exists oc.
  Qed.
  Lemma gattr s d env es x k v : ginv s d env es -> exists_in (heap s) x -> exists s', add_named_attribute x k v s = (Ok tt, s') /\ ginv s' d env es /\ retag (heap s) (heap s') x k v.
  Proof.
    intros G He. destruct (attr_go n0 c s x k v (gi_d _ _ _ _ G) He) as (s' & E & D'). pose proof (attr_clean _ _ _ _ _ (li_clean _ _ _ (gi_l _ _ _ _ G)) E) as C'.
    pose proof (attr_retag _ _ _ _ _ E) as [R _]. exists s'. split; [exact E|]. split; [|done]. eapply ginv_heap; [exact G|eapply retag_linv; [apply G|done|exact R]|exact D'|].
    intros y nm (o & Ho & H1 & H2). destruct (retag_obj _ _ _ _ _ _ _ R Ho) as (o' & Ho' & E1 & E2 & _). exists o'. split; [done|]. by rewrite E1, E2.
  Qed.
  Lemma gcache path t s d env es x v : ginv s d env es -> full_name (heap s) x (join "/" path +:+ "/" +:+ t) -> n0 <= x ->
    match v with Some nm => labelled (heap s) x (LNode nm) | None => True end ->
    exists d', cache_element x d s = (Ok d', s) /\ ginv s d' env (es ++ [(join "/" path +:+ "/" +:+ t, v)]) /\ step path env (fun _ => []) s d s d' /\ ld_refs d' = ld_refs d /\
      dget (join "/" path +:+ "/" +:+ t) (ld_cache d') = Some x.
  Proof.
    intros G F Hx Hv. assert (He : exists_in (heap s) x) by (destruct F as (ls & Hp & _); by destruct Hp). destruct He as [o Ho].
    assert (E : cache_element x d s = (Ok (set_cache (dset (o_qname o) x (ld_cache d)) d), s)).
    { unfold cache_element. rewrite (bind_ok _ _ _ _ _ (deref_ok _ _ _ Ho)). done. }
    pose proof (clean_name s x o _ (li_clean _ _ _ (gi_l _ _ _ _ G)) Ho F) as Hq. rewrite Hq in E.
    destruct (cache_step path env s d x _ s t (gi_l _ _ _ _ G) E F) as (_ & S1 & Hr & Hc). eexists. split; [exact E|]. split; [|done].
    destruct G as [G1 G2 G3 G4 G5 G6 G7 G8 G9]. split; try done.
    - apply S1.
    - intros k y Hg. cbn in Hg. rewrite dget_dset in Hg. case_decide; [by injection Hg as <-|by apply (G5 k)].
    - intros k nm. rewrite entry_snoc. cbn [ld_cache set_cache]. destruct (decide (_ = k)) as [<-|Hne].
      + intros [= ->]. exists x. by rewrite dget_dset, decide_True.
      + intros H. destruct (G7 k nm H) as (y & Hy & Hl). exists y. split; [|done]. rewrite dget_dset. case_decide; [congruence|done].
    - intros k Hk. cbn in *. rewrite dget_dset. case_decide; [by eexists|by apply G8].
    - destruct G9 as (w & Hw & Hl). exists w. split; [|done]. cbn. rewrite dget_dset. case_decide as Hd; [|done].
      exfalso. apply (world_top path). exists t. congruence.
  Qed.

  Context (fl : string -> option Qc) (rad : Qc) (env : list (string * string)).

  Lemma rigid_go path lb s d es el r x : ginv s d env es -> n0 <= el -> exists_in (heap s) el -> kind_of (heap s) el <> Some KEdge -> kind_of (heap s) el <> Some KPort -> el <> ld_params d ->
    full_name (heap s) el (join "/" path +:+ "/" +:+ lb) -> rigid fl env r = Some x ->
    exists y s', rigid_element fl rad el r d s = (Ok y, s') /\ ginv s' (snd y) env (es ++ [(join "/" path +:+ "/" +:+ (lb +:+ "/" +:+ name_of (heap s) el +:+ "_transformation"), None)]) /\
      exists oc, born_at (heap s) (heap s') el (fst (fst (fst y))) oc.
  Proof.
    intros G Hn He Hk Hkp Hp F Hr. unfold rigid_element. rewrite (bind_ok get_st _ s s s) by done. rewrite (rigid_values_go _ _ _ _ _ _ (li_params _ _ _ (gi_l _ _ _ _ G)) Hr). cbn [lift].
    rewrite (bind_ok (ret x) _ s x s) by done. destruct x as [[t q] ty]. pose proof He as [o Ho]. rewrite (bind_ok _ _ _ _ _ (deref_ok _ _ _ Ho)).
    assert (En : name_of (heap s) el = o_name o) by (unfold name_of; by rewrite Ho). rewrite En.
    destruct (gsem path s d env es "rigidtransformation" (join "_" [o_name o; "transformation"]) el [("translation", nums t); ("rotation", nums q); ("rotation_type", PStr ty)] None SRigidTransformation G Hn He Hk Hkp Hp ltac:(done) ltac:(reflexivity))
      as (sv & s1 & E1 & G1 & oc & B & Hks & Hns & S1).
    rewrite (bind_ok _ _ _ _ _ E1). cbv zeta.
    pose proof (born_under path _ _ _ _ _ _ (ginv_wf _ _ _ _ G) B F) as Fs. rewrite Hns in Fs.
    destruct (gcache path (lb +:+ "/" +:+ join "_" [o_name o; "transformation"]) s1 d env es sv None G1 Fs) as (d' & E2 & G2 & _); [|done|].
    { pose proof (bn_new _ _ _ _ _ B). pose proof (dv_len _ _ _ (gi_d _ _ _ _ G)). lia. }
    rewrite (bind_ok _ _ _ _ _ E2). eexists _, s1. split; [reflexivity|]. cbn [fst snd]. split; [exact G2|]. by exists oc.
  Qed.

  Lemma geometry_class_go t cl : geometry_class t = Some cl -> type_class (norm_type (geometry_type t)) = Some cl.
  Proof. by destruct t; vm_compute. Qed.

  Lemma reference_go path lk own ref g gq s d p es : ginv s d env es -> opened s d path p -> n0 <= g -> labelled (heap s) g (LNode gq) ->
    let t := inferred_name ((path ++ [lk]) ++ [own]) ref in
    t ∈ dkeys (ld_refs d) \/ (exists nm, entry es t = Some (Some nm) /\ nm <> gq) ->
    exists d' s', add_reference ((path ++ [lk]) ++ [own]) g ref d s = (Ok d', s') /\ ginv s' d' env es.
  Proof.
    intros G O Hgn Hg t Hor. unfold add_reference. unfold cached. rewrite removelast2, (op_cached _ _ _ _ O). cbn [of_opt]. rewrite (bind_ok (ret p) _ s p s) by done. cbv zeta. fold t.
    assert (Hx : exists x, dget t (ld_cache d) = Some x).
    { destruct Hor as [Hin|(nm & Hr & _)]; [by apply (gi_refs _ _ _ _ G)|]. destruct (gi_reg _ _ _ _ G t nm Hr) as (x & Hx & _). by exists x. }
    destruct Hx as [x Hx]. rewrite Hx. cbn [of_opt]. rewrite (bind_ok (ret x) _ s x s) by done. destruct (dget t (ld_refs d)) as [y|] eqn:Hd.
    { exists d, s. split; [reflexivity|done]. }
    apply dget_None in Hd. destruct Hor as [Hin|(nm & Hr & Hne)]; [done|]. destruct (gi_reg _ _ _ _ G t nm Hr) as (x' & Hx' & Hlx). assert (x' = x) as -> by congruence.
    destruct Hg as (og & Hog & Hgk & Hgnm). rewrite (bind_ok _ _ _ _ _ (deref_ok _ _ _ Hog)). pose proof (ginv_wf _ _ _ _ G) as W. pose proof (opened_n0 _ _ _ _ _ _ G O) as Hpn.
    destruct (edge_go n0 c s (ld_nodes d) ("ref_" +:+ o_name og +:+ "_" +:+ ref) p (gi_d _ _ _ _ G) W (gi_n _ _ _ _ G) Hpn (op_kind _ _ _ _ O)) as (e & s1 & E1 & D1 & K1 & oe & Hoe & Hke & Hne' & Hce & Hre).
    rewrite (bind_ok _ _ _ _ _ E1). destruct (edge_born _ _ _ _ _ _ (li_clean _ _ _ (gi_l _ _ _ _ G)) (opened_exists _ _ _ _ O) E1) as (C1 & u & prog & ck & B).
    pose proof (clean_wf _ C1) as W1. assert (KS1 : kept (heap s) (heap s1)) by apply B.
    destruct (labelled_kept _ _ x (LNode nm) KS1 Logic.I Hlx) as (ox & Hox & Hxk & Hxn).
    assert (Hxn0 : n0 <= x) by (by eapply gi_cache).
    destruct (unary_go n0 c s1 e x WNone OUTWARDS oe ox D1 W1 Hoe Hke Hre Hce Hxn0 Hox Hxk) as (r1 & s2 & E2 & D2 & Mn2 & Ch2 & K2 & W2 & Hu2).
    { rewrite K1. intros z Hz. inversion Hz. }
    rewrite (bind_ok _ _ _ _ _ E2).
    assert (KS2 : kept (heap s) (heap s2)) by (by eapply kept_trans).
    assert (Lg : labelled (heap s2) g (LNode gq)) by (eapply labelled_kept; [exact KS2|done|]; by exists og).
    destruct Lg as (og2 & Hog2 & Hgk2 & Hgn2).
    assert (Hoe2 : exists oe2, heap s2 !! e = Some oe2 /\ ident_part oe2 = ident_part oe).
    { pose proof (K2 e oe Hoe) as K. destruct (heap s2 !! e) as [o'|]; [|done]. exists o'. split; [done|]. cbn [fmap option_fmap option_map] in K. by apply (inj Some) in K. }
    destruct Hoe2 as (oe2 & Hoe2 & Hi2).
    assert (E2k : o_kind oe2 = KEdge) by (change (o_kind oe2) with (o_kind (ident_part oe2)); by rewrite Hi2).
    assert (E2r : o_ready oe2 = true) by (change (o_ready oe2) with (o_ready (ident_part oe2)); by rewrite Hi2).
    assert (E2c : o_clock oe2 = Some c) by (change (o_clock oe2) with (o_clock (ident_part oe2)); by rewrite Hi2).
    assert (E2n : o_name oe2 = o_name oe) by (change (o_name oe2) with (o_name (ident_part oe2)); by rewrite Hi2).
    destruct (unary_go n0 c s2 e g WNone INWARDS oe2 og2 D2 W2 Hoe2 E2k E2r E2c Hgn Hog2 Hgk2) as (r2 & s3 & E3 & D3 & Mn3 & Ch3 & K3 & W3 & Hu3).
    { rewrite Ch2, K1. cbn [app]. intros z Hz. apply elem_of_list_singleton in Hz as ->. rewrite Hu2, (m_sha _ _ Mn2), E2n, Hxn, Hgn2. intros Eq.
      apply (dv_sha _ _ _ D1) in Eq. unfold elem_id_text in Eq. apply Hne. rewrite <- !app_assoc_s in Eq. by apply sapp_inj in Eq. }
    rewrite (bind_ok _ _ _ _ _ E3). eexists _, s3. split; [reflexivity|].
    assert (EA : add_reference ((path ++ [lk]) ++ [own]) g ref d s = (Ok (set_refs (dset t e (ld_refs d)) d), s3)).
    { unfold add_reference. unfold cached. rewrite removelast2, (op_cached _ _ _ _ O). cbn [of_opt]. rewrite (bind_ok (ret p) _ s p s) by done. cbv zeta. fold t. rewrite Hx. cbn [of_opt].
      rewrite (bind_ok (ret x) _ s x s) by done. apply dget_None in Hd. rewrite Hd. rewrite (bind_ok _ _ _ _ _ (deref_ok _ _ _ Hog)), (bind_ok _ _ _ _ _ E1), (bind_ok _ _ _ _ _ E2), (bind_ok _ _ _ _ _ E3). reflexivity. }
    assert (Hge : exists_in (heap s) g) by (by eexists). pose proof (proj2 (li_clean _ _ _ (gi_l _ _ _ _ G)) g og Hog) as Fg.
    destruct (reference_visit env path lk own ref g gq s d p _ s3 (gi_l _ _ _ _ G) O ltac:(apply exists_in_lt; by eapply opened_exists) ltac:(by exists og) EA _ Fg) as (ees & ets & _ & S3 & _ & _).
    destruct (ginv_kept s d env es s3 env G) as [G1 G2 G3 G4 G5 G6 G7 G8 G9].
    { pose proof (sp_inv _ _ _ _ _ _ _ S3) as J. by destruct J; split. } { exact D3. } { apply S3. }
    split; try done.
    - apply S3.
    - cbn [ld_refs set_refs ld_cache]. intros k Hk. rewrite dkeys_dset_new in Hk by (by apply dget_None). apply elem_of_app in Hk as [Hk|Hk]; [by apply G8|]. apply elem_of_list_singleton in Hk as ->. by exists x.
  Qed.
End go.
