(** * Loading: links can be visited *)
From stdpp Require Import relations.
From Verif Require Import Spec Hierarchy Elements Factory History PDict PPath PExec PBfs PWF PAdd PMono PStep PRemove PReach PPrim PHist QHier QHier2 QHier3 QHier4 QHier5 QHier6 QFac SpecFac QFac2 CogniLang QCog QCog2 QCog3 QCog4 QCog5 QCog6 QCog7 QCog8 QConv QGo QGo2 QGo3 SpecScope.

Lemma join_apps (path ts : list string) : path <> [] -> ts <> [] -> join "/" (path ++ ts) = join "/" path +:+ "/" +:+ join "/" ts.
Proof.
  intros Hp Ht. induction path as [|a path IH]; [done|]. destruct path as [|b path].
  - destruct ts; [done|]. reflexivity.
  - change (join "/" ((a :: b :: path) ++ ts)) with (a +:+ "/" +:+ join "/" ((b :: path) ++ ts)). rewrite IH by done.
    change (join "/" (a :: b :: path)) with (a +:+ "/" +:+ join "/" (b :: path)). by rewrite !app_assoc_s.
Qed.

Section go.
  Context (n0 : nat) (c : clockid) (fl : string -> option Qc) (rad : Qc) (env : list (string * string)).
  Notation ginv := (ginv n0 c).

  Lemma new_n0 s d es h' q x oc : ginv s d env es -> born_at (heap s) h' q x oc -> n0 <= x.
  Proof. intros G B. rewrite (bn_new _ _ _ _ _ B). apply (dv_len _ _ _ (gi_d _ _ _ _ _ _ G)). Qed.
  Lemma new_par s d es h' q x oc : ginv s d env es -> born_at (heap s) h' q x oc -> x <> ld_params d.
  Proof. intros G B ->. apply (born_not _ _ _ _ _ B), (li_ps _ _ _ (gi_l _ _ _ _ _ _ G)). Qed.

  Lemma geometry_go path lk pt s d p cont gt es : let lpath := path ++ [lk] in let pn := part_name lpath pt in
    ginv s d env es -> opened s d path p -> labelled (heap s) cont (LNode pn) -> cont <> ld_params d -> n0 <= cont ->
    full_name (heap s) cont (join "/" lpath +:+ "/" +:+ pn) ->
    geometry_tree fl env ("geom_" +:+ pn) (part_geometry pt) = Some gt -> part_found lpath es (dkeys (ld_refs d)) pt ->
    exists d' s', collect_geometries fl (lpath ++ [own_name (match pt with CVisual id _ _ => id | CCollision id _ => id end)]) cont (part_geometry pt) d s = (Ok d', s') /\
      ginv s' d' env (es ++ geometry_entries (lpath ++ [pn]) ("geom_" +:+ pn) (part_geometry pt)).
  Proof.
    intros lpath pn G O Hl Hcp Hn0 Hn Hg Hf. pose proof (ginv_wf _ _ _ _ _ _ G) as W. pose proof (labelled_exists _ _ _ Hl) as [oc Hoc].
    assert (Hlp : lpath <> []) by (unfold lpath; by destruct path).
    unfold collect_geometries. rewrite (bind_ok _ _ _ _ _ (deref_ok _ _ _ Hoc)). assert (Hon : o_name oc = pn) by (destruct Hl as (o & Ho & _ & Hx); congruence).
    rewrite Hon. change (join "_" ["geom"; pn]) with ("geom_" +:+ pn).
    pose proof (labelled_kind _ _ _ Hl) as Hk. cbn in Hk.
    destruct (gnode n0 c lpath s d env es ("geom_" +:+ pn) cont G Hn0 Hk Hcp) as (gel & s1 & E1 & G1 & og & B & Hog & S1 & L1).
    cbv zeta. rewrite (bind_ok _ _ _ _ _ E1).
    pose proof (born_under lpath _ _ _ _ _ _ W B Hn) as Fg. rewrite Hog in Fg.
    pose proof (new_n0 _ _ _ _ _ _ _ G B) as Hgn. pose proof (new_par _ _ _ _ _ _ _ G B) as Hgp. pose proof (ginv_wf _ _ _ _ _ _ G1) as W1.
    assert (X : exists d1 s2 a, match part_geometry pt with
               | GRef ref => add_reference (lpath ++ [own_name (match pt with CVisual id _ _ => id | CCollision id _ => id end)]) gel ref d
               | GOwn t f => bind get_st (fun s => bind (lift (field_values fl (heap s) (ld_params d) f)) (fun vs =>
                   bind (generate_semantic_element (ld_sems d) (geometry_type t) ("geom_" +:+ pn) gel [("name", PStr ("geom_" +:+ pn))] (Some (nums vs))) (fun sv => cache_element sv d)))
               end s1 = (Ok d1, s2) /\ ginv s2 d1 env (es ++ match part_geometry pt with GOwn _ _ => [(join "/" ((lpath ++ [pn]) ++ ["geom_" +:+ pn; "geom_" +:+ pn]), None)] | GRef _ => [] end) /\
               step lpath env a s1 d s2 d1).
    { unfold part_found in Hf. destruct (part_geometry pt) as [t f|ref] eqn:Hpg.
      - destruct f as [v|]; [|done]. cbn [geometry_tree] in Hg. destruct (geometry_class t) as [cl|] eqn:Hcl; [|done]. destruct (numbers fl env v) as [q|] eqn:Hq; [|done].
        rewrite (bind_ok get_st _ s1 s1 s1) by done. cbn [field_values]. rewrite (vector_go fl _ _ env (li_params _ _ _ (gi_l _ _ _ _ _ _ G1)) _ _ Hq). cbn [lift]. rewrite (bind_ok (ret q) _ s1 q s1) by done.
        destruct (gsem n0 c lpath s1 d env es (geometry_type t) ("geom_" +:+ pn) gel [("name", PStr ("geom_" +:+ pn))] (Some (nums q)) cl G1 Hgn (born_exists _ _ _ _ _ B)) as (sv & s2 & E2 & G2 & os & Bs & _ & Hns & S2).
        { rewrite (labelled_kind _ _ _ L1). done. } { rewrite (labelled_kind _ _ _ L1). done. } { done. } { done. } { by apply geometry_class_go. }
        rewrite (bind_ok _ _ _ _ _ E2). pose proof (born_under lpath _ _ _ _ _ _ W1 Bs Fg) as Fs. rewrite Hns in Fs.
        destruct (gcache n0 c lpath ((pn +:+ "/" +:+ "geom_" +:+ pn) +:+ "/" +:+ "geom_" +:+ pn) s2 d env es sv None G2 Fs) as (d1 & E3 & G3 & S3 & _); [exact (new_n0 _ _ _ _ _ _ _ G1 Bs)|done|].
        eexists d1, s2, _. split; [exact E3|]. split; [|eapply step_trans; [exact S2|exact S3]].
        rewrite <- app_assoc. rewrite (join_apps lpath) by done. cbn [app]. change (join "/" [pn; "geom_" +:+ pn; "geom_" +:+ pn]) with (pn +:+ "/" +:+ ("geom_" +:+ pn) +:+ "/" +:+ "geom_" +:+ pn).
        rewrite !app_assoc_s in *. exact G3.
      - assert (O1 : opened s1 d path p) by (eapply opened_deeper; [apply O|exact O|exact S1]).
        assert (Ht : target lpath pt ref = inferred_name ((path ++ [lk]) ++ [own_name (match pt with CVisual id _ _ => id | CCollision id _ => id end)]) ref)
            by (unfold target, inferred_name, own_name; by destruct pt).
        rewrite Ht in Hf. destruct (reference_go n0 c env path lk _ ref gel ("geom_" +:+ pn) s1 d p es G1 O1 Hgn L1 Hf) as (d1 & s2 & E2 & G2).
        destruct (reference_visit env path lk _ ref gel ("geom_" +:+ pn) s1 d p d1 s2 (gi_l _ _ _ _ _ _ G1) O1 (proj1 (exists_in_lt _ _) (opened_exists _ _ _ _ O1)) L1 E2 _ Fg) as (ees & ets & _ & S2 & Hca & _).
        exists d1, s2, (only p ees). split; [exact E2|]. rewrite app_nil_r. split; [done|]. by eapply step_path. }
    destruct X as (d1 & s2 & a & E2 & G2 & S2). rewrite (bind_ok _ _ _ _ _ E2).
    assert (L2 : labelled (heap s2) gel (LNode ("geom_" +:+ pn))) by (eapply labelled_kept; [apply S2|exact Logic.I|exact L1]).
    destruct (gcache n0 c lpath (pn +:+ "/" +:+ "geom_" +:+ pn) s2 d1 env _ gel (Some ("geom_" +:+ pn)) G2) as (d2 & E3 & G3 & _);
      [eapply grows_name; [exact W1|apply S2|exact Fg]|done|done|].
    exists d2, s2. split; [exact E3|]. unfold geometry_entries. rewrite app_assoc.
    replace (join "/" ((lpath ++ [pn]) ++ ["geom_" +:+ pn])) with (join "/" lpath +:+ "/" +:+ pn +:+ "/" +:+ "geom_" +:+ pn); [exact G3|].
    rewrite <- app_assoc. rewrite (join_apps lpath) by done. done.
  Qed.

  Lemma part_go path lk pt s d p lx t es : let lpath := path ++ [lk] in
    ginv s d env es -> opened s d path p -> opened s d lpath lx ->
    part_tree fl env lpath pt = Some t -> part_found lpath (es ++ [part_entry lpath pt]) (dkeys (ld_refs d)) pt ->
    exists d' s', visit_part fl lpath pt d s = (Ok d', s') /\ ginv s' d' env (es ++ part_entries lpath pt).
  Proof.
    intros lpath G O Ol Ht Hf. pose proof (ginv_wf _ _ _ _ _ _ G) as W. assert (Hlp : lpath <> []) by (unfold lpath; by destruct path).
    set (pn := part_name lpath pt) in *. assert (Hlx : lx <> ld_params d) by (pose proof (op_later _ _ _ _ Ol); lia).
    destruct (gnode n0 c lpath s d env es pn lx G (opened_n0 _ _ _ _ _ _ _ _ G Ol) (op_kind _ _ _ _ Ol) Hlx) as (el & s1 & E1 & G1 & oc & B & Hoc & S1 & L1).
    pose proof (born_below lpath _ _ _ _ _ W B (opened_name _ _ _ _ _ (gi_l _ _ _ _ _ _ G) Ol)) as F. rewrite Hoc in F.
    pose proof (new_n0 _ _ _ _ _ _ _ G B) as Hen. pose proof (new_par _ _ _ _ _ _ _ G B) as Hep.
    destruct (gcache n0 c lpath pn s1 d env es el (Some pn) G1 F Hen L1) as (d1 & E2 & G2 & S2 & Hr2 & _).
    assert (Hpe : (join "/" lpath +:+ "/" +:+ pn, Some pn) = part_entry lpath pt).
    { unfold part_entry. fold pn. by rewrite (join_apps lpath [pn]) by done. }
    rewrite Hpe in G2.
    assert (S12 : step lpath env (only lx [el]) s d s1 d1) by (by eapply step_none).
    assert (O2 : opened s1 d1 path p) by (eapply opened_deeper; [apply O|exact O|exact S12]).
    assert (Hpd : ld_params d1 = ld_params d) by apply S2.
    unfold part_tree in Ht. fold pn in Ht. destruct (geometry_tree fl env ("geom_" +:+ pn) (part_geometry pt)) as [gt|] eqn:Hg; [|done].
    destruct (geometry_go path lk pt s1 d1 p el gt _ G2 O2 L1) as (d2 & s2 & E3 & G3); [by rewrite Hpd|done|exact F|exact Hg|by rewrite Hr2|]. fold lpath pn in E3, G3.
    destruct (geometry_visit fl env env ltac:(done) path lk pt s1 d1 p el d2 s2 (gi_l _ _ _ _ _ _ G2) O2 L1 ltac:(by rewrite Hpd) F E3) as (gel & gt' & ees & ets & _ & _ & S3 & _ & _). fold lpath in S3.
    assert (X : exists d3 s3, match pt with CVisual _ m _ => collect_materials m el d2 | CCollision _ _ => ret d2 end s2 = (Ok d3, s3) /\
      ginv s3 d3 env (((es ++ [part_entry lpath pt]) ++ geometry_entries (lpath ++ [pn]) ("geom_" +:+ pn) (part_geometry pt)) ++
        match pt with CVisual _ _ _ => [(join "/" ((lpath ++ [pn]) ++ ["material_" +:+ pn]), None)] | CCollision _ _ => [] end)).
    { destruct pt as [id m g|id g]; [|exists d2, s2; split; [reflexivity|by rewrite app_nil_r]].
      assert (L3 : labelled (heap s2) el (LNode pn)) by (eapply labelled_kept; [apply S3|exact Logic.I|done]).
      pose proof (labelled_exists _ _ _ L3) as [oe Hoe]. unfold collect_materials. rewrite (bind_ok _ _ _ _ _ (deref_ok _ _ _ Hoe)).
      assert (Hon : o_name oe = pn) by (destruct L3 as (o & Ho & _ & Hx); congruence). rewrite Hon. cbv zeta.
      assert (Hpd2 : ld_params d2 = ld_params d1) by apply S3.
      destruct (gsem n0 c lpath s2 d2 env _ "material" ("material_" +:+ pn) el [("name", PStr ("material_" +:+ pn)); ("material_name", PStr (default "white" m))] None SVisualMaterial G3 Hen ltac:(by eexists))
        as (sv & s3 & E4 & G4 & os & Bs & _ & Hns & S4).
      { rewrite (labelled_kind _ _ _ L3). done. } { rewrite (labelled_kind _ _ _ L3). done. } { by rewrite Hpd2, Hpd. } { done. } { reflexivity. }
      rewrite (bind_ok _ _ _ _ _ E4). pose proof (ginv_wf _ _ _ _ _ _ G3) as W3. pose proof (ginv_wf _ _ _ _ _ _ G2) as W2.
      assert (F3 : full_name (heap s2) el (join "/" lpath +:+ "/" +:+ pn)) by (eapply grows_name; [exact W2|apply S3|exact F]).
      pose proof (born_under lpath _ _ _ _ _ _ W3 Bs F3) as Fs. rewrite Hns in Fs.
      destruct (gcache n0 c lpath (pn +:+ "/" +:+ "material_" +:+ pn) s3 d2 env _ sv None G4 Fs) as (d3 & E5 & G5 & _); [exact (new_n0 _ _ _ _ _ _ _ G3 Bs)|done|].
      exists d3, s3. split; [exact E5|].
      replace (join "/" ((lpath ++ [pn]) ++ ["material_" +:+ pn])) with (join "/" lpath +:+ "/" +:+ pn +:+ "/" +:+ "material_" +:+ pn); [exact G5|].
      rewrite <- (app_assoc lpath). rewrite (join_apps lpath) by done. done. }
    destruct X as (d3 & s3 & E4 & G4). exists d3, s3. split.
    - unfold visit_part. unfold cached. rewrite (op_cached _ _ _ _ Ol). cbn [of_opt]. rewrite (bind_ok (ret lx) _ s lx s) by done. destruct pt as [id m g|id g].
      + rewrite (bind_ok _ _ _ _ _ E1), (bind_ok _ _ _ _ _ E2), (bind_ok _ _ _ _ _ E3). exact E4.
      + cbv zeta. assert (E1' : generate_node (ld_nodes d) (match id with Some i => i | None => join "/" [join "/" lpath; "coll"] end) (Some lx) s = (Ok el, s1)) by (rewrite <- E1; by destruct id).
        rewrite (bind_ok _ _ _ _ _ E1'), (bind_ok _ _ _ _ _ E2). cbn [part_geometry] in E3. rewrite E3. exact E4.
    - unfold part_entries. fold pn. cbv zeta. rewrite <- (app_assoc (es ++ _)), <- (app_assoc es) in G4. cbn [app] in G4. exact G4.
  Qed.

  Lemma parts_go path lk p lx : let lpath := path ++ [lk] in forall pts s d es ts, ginv s d env es -> opened s d path p -> opened s d lpath lx ->
    part_trees fl env lpath pts = Some ts ->
    (forall tts, in_turn (reference_tree lpath) (part_entries lpath) (fun _ es seen p => part_found lpath (es ++ [part_entry lpath p]) seen p) tts es (dkeys (ld_refs d)) pts ->
    exists d' s', fold_m (visit_part fl lpath) pts d s = (Ok d', s') /\ ginv s' d' env (es ++ flat_map (part_entries lpath) pts)).
  Proof.
    intros lpath. induction pts as [|pt pts IH]; intros s d es ts G O Ol Ht tts Hf.
    - exists d, s. split; [reflexivity|]. cbn [flat_map]. by rewrite app_nil_r.
    - cbn [part_trees] in Ht. destruct (part_tree fl env lpath pt) as [t|] eqn:H1; [|done]. destruct (part_trees fl env lpath pts) as [ts'|] eqn:H2; [|done].
      cbn [in_turn] in Hf. destruct Hf as [Hf Hr]. destruct (part_go path lk pt s d p lx t es G O Ol H1 Hf) as (d1 & s1 & E1 & G1). fold lpath in E1, G1.
      destruct (part_visit fl env env ltac:(done) path lk pt s d p lx d1 s1 (gi_l _ _ _ _ _ _ G) O Ol E1) as (x & t' & ees & ets & _ & Hrt & S1 & _ & _). fold lpath in S1, Hrt.
      rewrite Hrt in Hr. destruct (IH s1 d1 _ ts' G1) with (tts := tts ++ ets) as (d2 & s2 & E2 & G2).
      { eapply opened_deeper; [apply O|exact O|exact S1]. } { by eapply opened_step. } { done. } { exact Hr. }
      exists d2, s2. split; [rewrite fold_cons, (bind_ok _ _ _ _ _ E1); exact E2|]. cbn [flat_map]. by rewrite app_assoc.
  Qed.

  Lemma link_go path l s d p es ts seen' : ginv s d env es -> opened s d path p ->
    kitem_trees fl rad env path (dkeys (ld_refs d)) (KiLink l) = Some (ts, seen') -> link_found path es (dkeys (ld_refs d)) l ->
    exists d' s', visit_link fl rad path l d s = (Ok d', s') /\ ginv s' d' env (es ++ link_entries path l).
  Proof.
    intros G O Ht Hf. pose proof (ginv_wf _ _ _ _ _ _ G) as W. pose proof (op_path _ _ _ _ O) as Hpa.
    assert (Hpp : p <> ld_params d) by (pose proof (op_later _ _ _ _ O); lia). set (lpath := path ++ [lk_name l]). set (nm := lk_name l) in *.
    cbn [kitem_trees] in Ht. destruct (link_tree fl rad env path l) as [lt|] eqn:Hlt; [|done]. clear Ht.
    destruct (gnode n0 c path s d env es nm p G (opened_n0 _ _ _ _ _ _ _ _ G O) (op_kind _ _ _ _ O) Hpp) as (el & s1 & E1 & G1 & oc & B & Hoc & S1 & L1).
    pose proof (born_below path _ _ _ _ _ W B (opened_name _ _ _ _ _ (gi_l _ _ _ _ _ _ G) O)) as F. rewrite Hoc in F.
    pose proof (new_n0 _ _ _ _ _ _ _ G B) as Hen. pose proof (new_par _ _ _ _ _ _ _ G B) as Hep. pose proof (ginv_wf _ _ _ _ _ _ G1) as W1.
    destruct (gsem n0 c path s1 d env es "kinematiclink" nm el [("name", PStr nm)] None SKinematicLink G1 Hen (born_exists _ _ _ _ _ B)) as (sv & s2 & E2 & G2 & os & Bs & Hks & Hns & S2).
    { rewrite (labelled_kind _ _ _ L1). done. } { rewrite (labelled_kind _ _ _ L1). done. } { done. } { done. } { reflexivity. }
    pose proof (born_under path _ _ _ _ _ _ W1 Bs F) as Fs. rewrite Hns in Fs.
    assert (X : exists d1 s3, match lk_pose l with
      | None => ret d
      | Some r => bind (rigid_element fl rad sv r d) (fun x => let '(tr, t, q, d') := x in
                    bind (add_named_attribute sv "rigidtransformation" (PList [PRef tr; nums t; nums q])) (fun _ => ret d'))
      end s2 = (Ok d1, s3) /\ ginv s3 d1 env (es ++ match lk_pose l with Some _ => [(join "/" (path ++ [nm; nm; nm +:+ "_transformation"]), None)] | None => [] end)).
    { unfold link_tree, link_head in Hlt. destruct (lk_pose l) as [r|]; [|exists d, s2; split; [reflexivity|by rewrite app_nil_r]].
      destruct (rigid fl env r) as [x|] eqn:Hr; [|done].
      destruct (rigid_go n0 c fl rad env path (nm +:+ "/" +:+ nm) s2 d es sv r x G2 (new_n0 _ _ _ _ _ _ _ G1 Bs) (born_exists _ _ _ _ _ Bs)) as ([[[tr t] q] d1] & s3 & E3 & G3 & ot & Bt).
      { unfold kind_of. rewrite (born_get o_kind _ _ _ _ _ Bs (fun _ => eq_refl)), Hks. done. } { unfold kind_of. rewrite (born_get o_kind _ _ _ _ _ Bs (fun _ => eq_refl)), Hks. done. } { exact (new_par _ _ _ _ _ _ _ G1 Bs). } { exact Fs. } { exact Hr. }
      cbn [fst snd] in G3, Bt. rewrite (bind_ok _ _ _ _ _ E3).
      destruct (gattr n0 c s3 d1 env _ sv "rigidtransformation" (PList [PRef tr; nums t; nums q]) G3) as (s4 & E4 & G4 & _).
      { eapply grows_exists; [apply Bt|]. by eapply born_exists. }
      rewrite (bind_ok _ _ _ _ _ E4). exists d1, s4. split; [reflexivity|]. rewrite (born_name _ _ _ _ _ Bs), Hns in G4. rewrite (join_apps path) by done.
      change (join "/" [nm; nm; nm +:+ "_transformation"]) with (nm +:+ "/" +:+ nm +:+ "/" +:+ nm +:+ "_transformation"). rewrite !app_assoc_s in G4. exact G4. }
    destruct X as (d1 & s3 & E3 & G3).
    assert (E23 : bind (generate_semantic_element (ld_sems d) "kinematiclink" (lk_name l) el [("name", PStr (lk_name l))] None) (fun sv =>
      match lk_pose l with
      | None => ret d
      | Some r => bind (rigid_element fl rad sv r d) (fun x => let '(tr, t, q, d') := x in
                    bind (add_named_attribute sv "rigidtransformation" (PList [PRef tr; nums t; nums q])) (fun _ => ret d'))
      end) s1 = (Ok d1, s3)) by (fold nm; rewrite (bind_ok _ _ _ _ _ E2); exact E3).
    destruct (link_head_visit fl rad env env ltac:(done) path l s1 d el d1 s3 nm (gi_l _ _ _ _ _ _ G1) (born_exists _ _ _ _ _ B) Hep F E23) as (sv' & ht & Hh & S3 & _ & Hr3).
    assert (L3 : labelled (heap s3) el (LNode nm)) by (eapply labelled_kept; [apply S3|exact Logic.I|done]).
    destruct (gcache n0 c path nm s3 d1 env _ el (Some nm) G3 ltac:(eapply grows_name; [exact W1|apply S3|exact F]) Hen L3) as (d2 & E4 & G4 & S4 & Hr4 & Hc4).
    assert (Hle : (es ++ match lk_pose l with Some _ => [(join "/" (path ++ [nm; nm; nm +:+ "_transformation"]), None)] | None => [] end) ++ [(join "/" path +:+ "/" +:+ nm, Some nm)] = es ++ link_entry path l).
    { unfold link_entry. fold nm. rewrite (join_apps path [nm]) by done. by rewrite app_assoc. }
    rewrite Hle in G4.
    assert (S14 : step path env (only p [el]) s d s3 d2) by (eapply step_none; [|exact S4]; eapply step_new; [exact S1|exact S3|by eapply born_not]).
    assert (O4 : opened s3 d2 path p) by (by eapply opened_step).
    assert (Hpd : ld_params d2 = ld_params d) by apply S14.
    assert (Ol : opened s3 d2 lpath el).
    { split.
      - unfold lpath. rewrite join_snoc by done. exact Hc4.
      - apply (labelled_kind _ _ _ L3).
      - rewrite Hpd. pose proof (li_ps _ _ _ (gi_l _ _ _ _ _ _ G)) as Hx. apply exists_in_lt in Hx. rewrite (bn_new _ _ _ _ _ B). done.
      - unfold lpath. by destruct path. }
    assert (X : exists d' s', match lk_body l with
       | None => ret d2
       | Some (i, parts) => bind (visit_inertia fl lpath i d2) (fun _ => fold_m (visit_part fl lpath) parts d2) end s3 = (Ok d', s') /\ ginv s' d' env (es ++ link_entries path l)).
    { unfold link_tree in Hlt. rewrite Hh in Hlt. unfold link_found in Hf. unfold link_entries. unfold link_parts in *. fold nm lpath in Hlt, Hf |- *. destruct (lk_body l) as [[i parts]|].
      - destruct (fl (in_mass i)) as [m|] eqn:Hm; [|done]. destruct (part_trees fl env lpath parts) as [pts|] eqn:Hpt; [|done].
        destruct (gsem n0 c lpath s3 d2 env _ "inertiaelement" ("inertia_" +:+ join "/" lpath) el [("mass", PNum m)] None SInertiaElement G4 Hen (opened_exists _ _ _ _ Ol)) as (iv & s4 & E5 & G5 & oi & Bi & _ & _ & S5).
        { rewrite (op_kind _ _ _ _ Ol). done. } { rewrite (op_kind _ _ _ _ Ol). done. } { by rewrite Hpd. } { done. } { reflexivity. }
        destruct (parts_go path nm p el parts s4 d2 _ pts G5) with (tts := @nil tree) as (d' & s' & E6 & G6).
        { eapply opened_deeper; [apply O4|exact O4|exact S5]. } { by eapply opened_step. } { exact Hpt. } { rewrite Hr4, Hr3. exact Hf. }
        fold lpath in E6, G6. exists d', s'. split; [|by rewrite app_assoc].
        assert (Ei : visit_inertia fl lpath i d2 s3 = (Ok tt, s4)).
        { unfold visit_inertia, cached. rewrite (op_cached _ _ _ _ Ol). cbn [of_opt]. rewrite (bind_ok (ret el) _ s3 el s3) by done. cbn [py_float]. rewrite Hm. cbn [lift]. rewrite (bind_ok (ret m) _ s3 m s3) by done.
          rewrite (bind_ok _ _ _ _ _ E5). reflexivity. }
        rewrite (bind_ok _ _ _ _ _ Ei). exact E6.
      - exists d2, s3. split; [reflexivity|]. cbn [flat_map]. by rewrite app_nil_r. }
    destruct X as (d' & s' & E5 & G5). exists d', s'. split; [|exact G5].
    unfold visit_link, cached. rewrite (op_cached _ _ _ _ O). cbn [of_opt]. rewrite (bind_ok (ret p) _ s p s) by done. fold nm lpath. rewrite (bind_ok _ _ _ _ _ E1), (bind_ok _ _ _ _ _ E2), (bind_ok _ _ _ _ _ E3), (bind_ok _ _ _ _ _ E4).
    exact E5.
  Qed.
End go.
