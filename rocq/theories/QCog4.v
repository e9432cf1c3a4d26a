(** * Loading: links *)
From stdpp Require Import relations.
From Verif Require Import Spec Hierarchy Elements Factory History PDict PPath PExec PBfs PWF PAdd PMono PStep PRemove PReach PPrim PHist QHier QHier2 QHier3 QHier4 QHier5 QHier6 QFac SpecFac QFac2 CogniLang SpecCogni QCog QCog2 QCog3.

Lemma grown_lt h h' a x : grows h h' a -> exists_in h x -> x < length h'.
Proof. intros G H. apply exists_in_lt in H. pose proof (gs_len _ _ _ G). lia. Qed.
Lemma linv_after path env a s d s' d' : step path env a s d s' d' -> linv s' d' env.
Proof. by intros []. Qed.
Lemma sem_step path env s d f raw nm q attr vs x s' c : linv s d env -> exists_in (heap s) q -> q <> ld_params d -> attr <> [] ->
  type_class (norm_type raw) = Some c -> generate_semantic_element f raw nm q attr vs s = (Ok x, s') ->
  exists oc, born_at (heap s) (heap s') q x oc /\ o_kind oc = KSem c /\ o_name oc = nm /\ o_attr oc = with_values attr vs /\
    step path env (only q [x]) s d s' d /\ viewn (length (heap s)) (heap s') x (sem_leaf c nm (with_values attr vs)).
Proof.
  intros I Hq Hp Ha Hc E. destruct (sem_born s f raw nm q attr vs x s' (li_clean _ _ _ I) Hq Ha E) as (C & c' & oc & Hc' & B & H1 & H2 & H3).
  assert (c' = c) as -> by congruence. exists oc. do 4 (split; [done|]). split; [by eapply born_step|]. by eapply leaf_view.
Qed.
Lemma node_step path env s d f nm q x s' : linv s d env -> exists_in (heap s) q -> kind_of (heap s) q <> Some KRel -> q <> ld_params d ->
  generate_node f nm (Some q) s = (Ok x, s') ->
  exists oc, born_at (heap s) (heap s') q x oc /\ o_name oc = nm /\ step path env (only q [x]) s d s' d /\ labelled (heap s') x (LNode nm).
Proof.
  intros I Hq Hk Hp E. destruct (node_born s f nm q x s' (li_clean _ _ _ I) Hq Hk E) as (C & u & prog & B).
  eexists. split; [exact B|]. split; [done|]. split; [by eapply born_step|by eapply born_node].
Qed.
Lemma wrap n h1 h2 a x lb ys ts : n <= x -> labelled h1 x lb -> match lb with LNode _ | LEdge _ => True | _ => False end -> kids h1 x = [] ->
  grows h1 h2 a -> a x = ys -> Forall2 (viewn n h2) ys ts -> viewn n h2 x (T lb ts).
Proof.
  intros Hn Hl Hb Hk G <- F. constructor; [done|eapply labelled_kept; [apply G|done|done]|].
  rewrite (gs_kids _ _ _ G) by (destruct Hl as (o & Ho & _); by eexists). by rewrite Hk.
Qed.
Lemma step_none path env a s d s1 d1 s2 d2 : step path env a s d s1 d1 -> step path env (fun _ => []) s1 d1 s2 d2 -> step path env a s d s2 d2.
Proof. intros A B. eapply step_ext; [|by eapply step_trans]. intros l _. simpl. apply app_nil_r. Qed.
Lemma none_step path env a s d s1 d1 s2 d2 : step path env (fun _ => []) s d s1 d1 -> step path env a s1 d1 s2 d2 -> step path env a s d s2 d2.
Proof. intros A B. eapply step_ext; [|by eapply step_trans]. done. Qed.
Lemma labelled_exists h x lb : labelled h x lb -> exists_in h x.
Proof. intros (o & Ho & _). by eexists. Qed.
Lemma born_under path h h' p x oc t : WF0 h -> born_at h h' p x oc -> full_name h p (join "/" path +:+ "/" +:+ t) ->
  full_name h' x (join "/" path +:+ "/" +:+ (t +:+ "/" +:+ o_name oc)).
Proof. intros W B H. pose proof (born_full _ _ _ _ _ _ W B H) as F. by rewrite !app_assoc_s in F. Qed.
Lemma born_below path h h' p x oc : WF0 h -> born_at h h' p x oc -> full_name h p (join "/" path) ->
  full_name h' x (join "/" path +:+ "/" +:+ o_name oc).
Proof. intros W B H. by apply (born_full _ _ _ _ _ _ W B H). Qed.

Section visits.
  Context (fl : string -> option Qc) (rad : Qc) (env ENV : list (string * string)) (Hpre : env `prefix_of` ENV).

  Lemma rigid_visit path s d el r sv t q d' s' lb : linv s d env -> exists_in (heap s) el -> el <> ld_params d -> full_name (heap s) el (join "/" path +:+ "/" +:+ lb) ->
    rigid_element fl rad el r d s = (Ok (sv, t, q, d'), s') ->
    exists q0 ty oc, rigid fl ENV r = Some (t, q0, ty) /\ q = radians rad ty q0 /\ born_at (heap s) (heap s') el sv oc /\ step path env (only el [sv]) s d s' d' /\
      viewn (length (heap s)) (heap s') sv (rigid_tree (name_of (heap s) el) (t, q0, ty)) /\ ld_refs d' = ld_refs d.
  Proof.
    intros I Hel Hp Hn E. unfold rigid_element in E. apply bind_inv in E as (s0 & s1 & E0 & E). apply get_inv in E0 as [-> ->].
    apply bind_inv in E as ([[t0 q0] ty] & s1 & E0 & E). apply lift_inv in E0 as [Ev ->]. apply bind_inv in E as (o & s1 & E0 & E). apply deref_inv in E0 as [Ho ->].
    apply bind_inv in E as (sv0 & s1 & E1 & E). apply bind_inv in E as (d1 & s2 & E2 & E). apply ret_inv in E as [E ->]. injection E as -> -> -> ->.
    apply (sem_step path env _ d _ _ _ _ _ _ _ _ SRigidTransformation I) in E1 as (oc & B & Hk & Hnm & Ha & S1 & V); [|done|done|done|reflexivity].
    pose proof (born_under path _ _ _ _ _ _ (linv_wf _ _ _ I) B Hn) as F.
    apply (cache_step path env) with (t := lb +:+ "/" +:+ o_name oc) in E2 as (-> & S2 & Hr & _); [|by eapply linv_after|done].
    exists q0, ty, oc. split; [by eapply rigid_ok; [apply I|exact Hpre|exact Ev]|]. split; [done|]. split; [done|]. split; [by eapply step_none|].
    split; [|done]. unfold rigid_tree. assert (En : name_of (heap s) el = o_name o) by (unfold name_of; by rewrite Ho). rewrite En. exact V.
  Qed.

  Lemma field_ok h ps f qs : params_are h ps env -> field_values fl h ps f = Ok qs -> exists v, f = FVec v /\ numbers fl ENV v = Some qs.
  Proof. intros Hp. destruct f as [v|]; [|done]. cbn [field_values]. intros E. exists v. split; [done|]. by eapply vector_ok. Qed.
  Lemma geometry_class_ok t c : type_class (norm_type (geometry_type t)) = Some c -> geometry_class t = Some c.
  Proof. by destruct t; vm_compute. Qed.
  Lemma removelast2 (l : list string) a b : removelast (removelast ((l ++ [a]) ++ [b])) = l.
  Proof. by rewrite !removelast_last. Qed.

  (** A reference from the geometry node [g] of a part of the link at [path ++ [lk]]. *)
  Lemma reference_visit path lk own ref g gq s d p d' s' : linv s d env -> opened s d path p -> p < length (heap s) ->
    labelled (heap s) g (LNode gq) -> add_reference ((path ++ [lk]) ++ [own]) g ref d s = (Ok d', s') ->
    let t := inferred_name ((path ++ [lk]) ++ [own]) ref in
    forall fg, full_name (heap s) g fg ->
    exists es ets, (if decide (t ∈ dkeys (ld_refs d)) then Some ([], dkeys (ld_refs d))
        else Some ([T (LEdge ("ref_" +:+ gq +:+ "_" +:+ ref)) [T (LRel OUTWARDS WNone t) []; T (LRel INWARDS WNone fg) []]], dkeys (ld_refs d) ++ [t]))
        = Some (ets, dkeys (ld_refs d')) /\
      step path env (only p es) s d s' d' /\ ld_cache d' = ld_cache d /\ Forall2 (viewn (length (heap s)) (heap s')) es ets.
  Proof.
    intros I O Hlt Hg E t fg Hfg. unfold add_reference in E. apply bind_inv in E as (pg & s1 & E1 & E). apply cached_inv in E1 as [Hpg ->].
    rewrite removelast2, (op_cached _ _ _ _ O) in Hpg. injection Hpg as <-. cbv zeta in E. fold t in E.
    apply bind_inv in E as (x & s1 & E1 & E). apply of_opt_inv in E1 as [Hx ->]. destruct (dget t (ld_refs d)) as [y|] eqn:Hd.
    - apply ret_inv in E as [-> ->]. exists [], []. rewrite decide_True by (apply dget_is_Some; by eexists). split; [done|]. split; [|done].
      eapply step_ext; [|by apply step_refl]. intros l _. unfold only. by case_decide.
    - rewrite decide_False by (by apply dget_None). apply bind_inv in E as (og & s1 & E1 & E). apply deref_inv in E1 as [Hog ->].
      assert (Hgn : o_name og = gq) by (destruct Hg as (o & Ho & _ & Hn); congruence). rewrite Hgn in E.
      apply bind_inv in E as (e & s1 & E1 & E). pose proof (opened_exists _ _ _ _ O) as Hp. pose proof (linv_wf _ _ _ I) as W.
      destruct (edge_born _ _ _ _ _ _ (li_clean _ _ _ I) Hp E1) as (C1 & u & prog & c & B).
      assert (Hpp : p <> ld_params d) by (pose proof (op_later _ _ _ _ O); lia).
      pose proof (born_step path env _ _ _ _ _ _ I C1 B Hpp) as S1. pose proof (linv_after _ _ _ _ _ _ _ S1) as I1. pose proof (linv_wf _ _ _ I1) as W1.
      pose proof (born_not _ _ _ _ _ B) as Hne. pose proof (born_exists _ _ _ _ _ B) as Hee.
      apply bind_inv in E as (r1 & s2 & E2 & E). pose proof (li_cex _ _ _ I t x Hx) as Hxe. pose proof (labelled_exists _ _ _ Hg) as Hge.
      assert (Hx1 : exists_in (heap s1) x) by (eapply grows_exists; [apply B|done]).
      destruct (unary_hyper _ _ _ _ _ _ _ _ W1 Hee Hx1 E2) as (ox & Hox & Hxk).
      pose proof (li_cache _ _ _ I1 t x ox Hx Hox Hxk) as Hxn.
      destruct (rel_born _ _ _ _ _ _ _ C1 Hee Hx1 ltac:(by intros ->) E2) as (C2 & -> & G2 & K2 & R2 & P2).
      assert (W2 : WF0 (heap s2)) by (by apply clean_wf).
      apply bind_inv in E as (r2 & s3 & E3 & E). apply ret_inv in E as [-> ->].
      assert (He2 : exists_in (heap s2) e) by (by eapply grows_exists).
      assert (Hg1 : exists_in (heap s1) g) by (eapply grows_exists; [apply B|done]).
      assert (Hg2 : exists_in (heap s2) g) by (eapply grows_exists; [exact G2|done]).
      destruct (rel_born _ _ _ _ _ _ _ C2 He2 Hg2 ltac:(by intros ->) E3) as (C3 & -> & G3 & K3 & R3 & P3).
      assert (W3 : WF0 (heap s3)) by (by apply clean_wf).
      set (r1 := length (heap s1)) in *. set (r2 := length (heap s2)) in *.
      assert (L1 : length (heap s1) = S (length (heap s))) by apply B. assert (Le : e = length (heap s)) by apply B.
      assert (L2 : length (heap s1) < length (heap s2)).
      { assert (Hr : exists_in (heap s2) r1) by (destruct R2 as (o & Ho & _); by eexists). apply exists_in_lt in Hr. done. }
      eexists [e], _. split; [simpl; by rewrite (dkeys_dset_new _ _ _ Hd)|].
      assert (G13 : grows (heap s1) (heap s3) (only e [r1; r2])) by (exact (grows_only _ _ _ _ _ _ G2 G3)).
      assert (G03 : grows (heap s) (heap s3) (only p [e])) by (eapply grows_new; [apply B|exact G13|done]).
      split.
      { split; [|done|done|done]. assert (J : linv s3 d env). { eapply linv_grows; [exact I|done|exact G03|]. by rewrite only_ne. } by destruct J; split. }
      split; [done|]. constructor; [|constructor]. eapply (wrap _ (heap s1) _ _ _ _ [r1; r2]); [|by eapply born_edge|done|apply B|exact G13|apply only_at|].
      { lia. }
      assert (Kr1 : kids (heap s3) r1 = []).
      { rewrite (gs_kids _ _ _ G3); [|destruct R2 as (o & Ho & _); by eexists]. rewrite only_ne by (unfold r1; lia). by rewrite app_nil_r. }
      apply (kept_relation _ (heap s3) _ _ _ _ _ (gs_kept _ _ _ G3)) in R2.
      constructor; [|constructor; [|constructor]].
      + constructor; [unfold r1; lia| |by rewrite Kr1]. destruct R2 as (o & Ho & R2). exists o. split; [done|]. destruct R2 as (? & ? & ? & ? & ?). rewrite Kr1. do 4 (split; [done|]).
        exists x. split; [done|]. eapply grows_name; [exact W1|exact G13|done].
      + constructor; [unfold r2; lia| |by rewrite K3]. destruct R3 as (o & Ho & R3). exists o. split; [done|]. destruct R3 as (? & ? & ? & ? & ?). rewrite K3. do 4 (split; [done|]).
        exists g. split; [done|]. eapply grows_name; [exact W|exact G03|done].
  Qed.

  Lemma step_path path path' a s d s' d' : step path env a s d s' d' -> ld_cache d' = ld_cache d -> step path' env a s d s' d'.
  Proof. intros [I G C S] H. split; [done|done|by intros k _; rewrite H|done]. Qed.
  Lemma join_two path a b : path <> [] -> join "/" (path ++ [a; b]) = join "/" path +:+ "/" +:+ a +:+ "/" +:+ b.
  Proof.
    intros H. change [a; b] with ([a] ++ [b]). rewrite app_assoc, join_snoc by (by destruct path). rewrite join_snoc by done. by rewrite !app_assoc_s.
  Qed.
  Lemma geometry_visit path lk pt s d p cont d' s' : let lpath := path ++ [lk] in let pn := part_name lpath pt in
    linv s d env -> opened s d path p -> labelled (heap s) cont (LNode pn) -> cont <> ld_params d ->
    full_name (heap s) cont (join "/" lpath +:+ "/" +:+ pn) ->
    collect_geometries fl (lpath ++ [own_name (match pt with CVisual id _ _ => id | CCollision id _ => id end)]) cont (part_geometry pt) d s = (Ok d', s') ->
    exists gel gt es ets, geometry_tree fl ENV ("geom_" +:+ pn) (part_geometry pt) = Some gt /\
      reference_tree lpath (dkeys (ld_refs d)) pt = Some (ets, dkeys (ld_refs d')) /\
      step lpath env (fun l => only cont [gel] l ++ only p es l) s d s' d' /\
      viewn (length (heap s)) (heap s') gel gt /\ Forall2 (viewn (length (heap s)) (heap s')) es ets.
  Proof.
    intros lpath pn I O Hl Hcp Hn E. pose proof (linv_wf _ _ _ I) as W. pose proof (labelled_exists _ _ _ Hl) as Hce.
    assert (Hlp : lpath <> []) by (unfold lpath; by destruct path).
    unfold collect_geometries in E. apply bind_inv in E as (oc & s1 & E1 & E). apply deref_inv in E1 as [Hoc ->].
    assert (Hon : o_name oc = pn) by (destruct Hl as (o & Ho & _ & Hx); congruence).
    rewrite Hon in E. change (join "_" ["geom"; pn]) with ("geom_" +:+ pn) in E. apply bind_inv in E as (gel & s1 & E1 & E).
    pose proof (labelled_kind _ _ _ Hl) as Hk. cbn in Hk.
    apply (node_step lpath env _ d _ _ _ _ _ I) in E1 as (og & B & Hog & S1 & L1); [|done|by rewrite Hk|done].
    pose proof (linv_after _ _ _ _ _ _ _ S1) as I1. pose proof (linv_wf _ _ _ I1) as W1.
    pose proof (born_under lpath _ _ _ _ _ _ W B Hn) as Fg. rewrite Hog in Fg. pose proof (born_not _ _ _ _ _ B) as Hge.
    assert (Hgp : gel <> ld_params d) by (intros ->; apply Hge, I).
    pose proof (bn_new _ _ _ _ _ B) as Hgl. pose proof (bn_len _ _ _ _ _ B) as Hl1. pose proof (opened_exists _ _ _ _ O) as Hpe. pose proof Hpe as Hplt. apply exists_in_lt in Hplt.
    apply bind_inv in E as (d1 & s2 & E1 & E).
    assert (X : exists gt es ets ys, geometry_tree fl ENV ("geom_" +:+ pn) (part_geometry pt) = Some gt /\
      reference_tree lpath (dkeys (ld_refs d)) pt = Some (ets, dkeys (ld_refs d1)) /\
      step lpath env (fun l => only gel ys l ++ only p es l) s1 d s2 d1 /\ viewn (length (heap s)) (heap s2) gel gt /\ Forall2 (viewn (length (heap s1)) (heap s2)) es ets).
    { unfold reference_tree. destruct (part_geometry pt) as [t f|ref]; cbn [geometry_tree].
      - apply bind_inv in E1 as (s0 & s3 & E2 & E1). apply get_inv in E2 as [-> ->].
        apply bind_inv in E1 as (vs & s3 & E2 & E1). apply lift_inv in E2 as [Ev ->].
        destruct (field_ok _ _ _ _ (li_params _ _ _ I1) Ev) as (v & -> & Hv).
        apply bind_inv in E1 as (sv & s3 & E2 & E1).
        destruct (sem_born _ _ _ _ _ [("name", PStr ("geom_" +:+ pn))] _ _ _ (li_clean _ _ _ I1) (born_exists _ _ _ _ _ B) ltac:(done) E2) as (_ & c & _ & Hc & _).
        rewrite (geometry_class_ok _ _ Hc), Hv.
        apply (sem_step lpath env _ d _ _ _ _ _ _ _ _ c I1) in E2 as (osv & Bs & _ & Hns & _ & S2 & V); [|by eapply born_exists|done|done|done].
        pose proof (born_under lpath _ _ _ _ _ _ W1 Bs Fg) as Fs.
        apply (cache_step lpath env) with (t := (pn +:+ "/" +:+ "geom_" +:+ pn) +:+ "/" +:+ o_name osv) in E1 as (-> & S3 & Hr & _); [|by eapply linv_after|exact Fs].
        eexists _, [], [], [sv]. split; [done|]. split; [by rewrite Hr|]. assert (S4 : step lpath env (only gel [sv]) s1 d s3 d1) by (by eapply step_none).
        split; [eapply step_ext; [|exact S4]; intros l _; unfold only; destruct (decide (l = p)); by rewrite app_nil_r|].
        split; [|constructor]. eapply (wrap _ (heap s1) _ _ _ _ [sv]); [lia|done|done|apply B|apply S4|apply only_at|].
        constructor; [|constructor]. eapply viewn_le; [|exact V]. lia.
      - assert (O1 : opened s1 d path p) by (eapply opened_deeper; [apply O|exact O|exact S1]).
        destruct (reference_visit path lk _ ref gel ("geom_" +:+ pn) s1 d p d1 s2 I1 O1 ltac:(lia) L1 E1 _ Fg) as (es & ets & Hr & S2 & Hca & V).
        eexists _, es, ets, []. split; [done|]. split.
        { fold lpath pn. cbv zeta. assert (Ht : target lpath pt ref = inferred_name ((path ++ [lk]) ++ [own_name (match pt with CVisual id _ _ => id | CCollision id _ => id end)]) ref)
            by (unfold target, inferred_name, own_name; by destruct pt). rewrite Ht, join_two by done. exact Hr. }
        assert (S3 : step lpath env (only p es) s1 d s2 d1) by (by eapply step_path).
        split; [eapply step_ext; [|exact S3]; intros l _; unfold only; destruct (decide (l = gel)); done|]. split; [|done].
        eapply (wrap _ (heap s1) _ _ _ _ []); [lia|done|done|apply B|apply S3| |constructor]. apply only_ne. lia. }
    destruct X as (gt & es & ets & ys & X1 & X2 & S2 & Vg & Ve).
    pose proof (linv_after _ _ _ _ _ _ _ S2) as I2.
    apply (cache_step lpath env) with (t := pn +:+ "/" +:+ "geom_" +:+ pn) in E as (-> & S3 & Hr & _); [|exact I2|eapply grows_name; [exact W1|apply S2|exact Fg]].
    exists gel, gt, es, ets. split; [done|]. split; [by rewrite Hr|]. split.
    { eapply step_none; [|exact S3]. eapply step_ext; [|eapply step_trans; [exact S1|exact S2]]. intros l Hel. simpl.
      rewrite (only_ne gel) by (by intros ->). done. }
    split; [done|]. eapply views_le; [|exact Ve]. lia.
  Qed.

  Lemma part_visit path lk pt s d p lx d' s' : let lpath := path ++ [lk] in
    linv s d env -> opened s d path p -> opened s d lpath lx -> visit_part fl lpath pt d s = (Ok d', s') ->
    exists x t es ets, part_tree fl ENV lpath pt = Some t /\ reference_tree lpath (dkeys (ld_refs d)) pt = Some (ets, dkeys (ld_refs d')) /\
      step lpath env (fun l => only lx [x] l ++ only p es l) s d s' d' /\
      viewn (length (heap s)) (heap s') x t /\ Forall2 (viewn (length (heap s)) (heap s')) es ets.
  Proof.
    intros lpath I O Ol E. pose proof (linv_wf _ _ _ I) as W. pose proof (opened_exists _ _ _ _ O) as Hpe. pose proof (opened_exists _ _ _ _ Ol) as Hle.
    unfold visit_part in E. apply bind_inv in E as (cont & s1 & E1 & E). apply cached_inv in E1 as [Hx ->]. rewrite (op_cached _ _ _ _ Ol) in Hx. injection Hx as <-.
    set (m := match pt with CVisual _ m _ => Some m | CCollision _ _ => None end).
    assert (X : exists el s1 d1 s2 d2 s3, generate_node (ld_nodes d) (part_name lpath pt) (Some lx) s = (Ok el, s1) /\ cache_element el d s1 = (Ok d1, s2) /\
      collect_geometries fl (lpath ++ [own_name (match pt with CVisual id _ _ => id | CCollision id _ => id end)]) el (part_geometry pt) d1 s2 = (Ok d2, s3) /\
      match m with Some m => collect_materials m el d2 s3 = (Ok d', s') | None => d' = d2 /\ s' = s3 end).
    { destruct pt as [id m0 g|id g]; cbn [part_geometry part_name] in *.
      - apply bind_inv in E as (el & s1 & E1 & E). apply bind_inv in E as (d1 & s2 & E2 & E). apply bind_inv in E as (d2 & s3 & E3 & E).
        exists el, s1, d1, s2, d2, s3. done.
      - cbv zeta in E. apply bind_inv in E as (el & s1 & E1 & E). apply bind_inv in E as (d1 & s2 & E2 & E).
        exists el, s1, d1, s2, d', s'. split; [|done]. rewrite <- E1. by destruct id. }
    destruct X as (el & s1 & d1 & s2 & d2 & s3 & E1 & E2 & E3 & E4). clear E. set (pn := part_name lpath pt) in *.
    assert (Hlp : lx <> ld_params d) by (pose proof (op_later _ _ _ _ Ol); lia).
    apply (node_step lpath env _ d _ _ _ _ _ I) in E1 as (oc & B & Hoc & S1 & L1); [|done|by rewrite (op_kind _ _ _ _ Ol)|done].
    pose proof (linv_after _ _ _ _ _ _ _ S1) as I1. pose proof (linv_wf _ _ _ I1) as W1.
    pose proof (born_below lpath _ _ _ _ _ W B (opened_name _ _ _ _ _ I Ol)) as F. rewrite Hoc in F.
    apply (cache_step lpath env) with (t := pn) in E2 as (-> & S2 & Hr2 & _); [|exact I1|exact F].
    pose proof (linv_after _ _ _ _ _ _ _ S2) as I2. pose proof (born_not _ _ _ _ _ B) as Hne.
    assert (S12 : step lpath env (only lx [el]) s d s1 d1) by (by eapply step_none).
    assert (O2 : opened s1 d1 path p) by (eapply opened_deeper; [apply O|exact O|exact S12]).
    assert (Hpd : ld_params d1 = ld_params d) by apply S2.
    assert (Hep : el <> ld_params d1) by (rewrite Hpd; intros ->; apply Hne, I).
    destruct (geometry_visit path lk pt s1 d1 p el d2 s3 I2 O2 L1 Hep F E3) as (gel & gt & es & ets & G1 & G2 & S3 & Vg & Ve).
    fold lpath pn in G1, G2, S3. rewrite Hr2 in G2. pose proof (linv_after _ _ _ _ _ _ _ S3) as I3. pose proof (linv_wf _ _ _ I3) as W3.
    pose proof (bn_new _ _ _ _ _ B) as Hen. pose proof (bn_len _ _ _ _ _ B) as Hl1. pose proof Hpe as Hplt. apply exists_in_lt in Hplt.
    assert (X : exists ys mts, part_tree fl ENV lpath pt = Some (T (LNode pn) (gt :: mts)) /\ dkeys (ld_refs d') = dkeys (ld_refs d2) /\ step lpath env (only el ys) s3 d2 s' d' /\
      Forall2 (viewn (length (heap s3)) (heap s')) ys mts).
    { unfold part_tree. fold pn. rewrite G1. destruct pt as [id m0 g|id g]; subst m; cbn in E4.
      - unfold collect_materials in E4. apply bind_inv in E4 as (oe & s4 & E5 & E4). apply deref_inv in E5 as [Hoe ->].
        assert (Hee : exists_in (heap s3) el) by (by eexists).
        assert (Hon : o_name oe = pn).
        { assert (L3 : labelled (heap s3) el (LNode pn)) by (eapply labelled_kept; [apply S3|done|done]). destruct L3 as (o & Ho & _ & Hx); congruence. }
        rewrite Hon in E4. cbv zeta in E4. apply bind_inv in E4 as (sv & s4 & E5 & E4).
        assert (Hpd2 : ld_params d2 = ld_params d1) by apply S3.
        assert (F3 : full_name (heap s3) el (join "/" lpath +:+ "/" +:+ pn)) by (eapply grows_name; [exact W1|apply S3|exact F]).
        apply (sem_step lpath env _ d2 _ _ _ _ _ _ _ _ SVisualMaterial I3) in E5 as (osv & Bs & _ & Hns & _ & S4 & V); [|done|by rewrite Hpd2|done|reflexivity].
        pose proof (born_under lpath _ _ _ _ _ _ W3 Bs F3) as Fs.
        apply (cache_step lpath env) with (t := pn +:+ "/" +:+ o_name osv) in E4 as (-> & S5 & Hr & _); [|by eapply linv_after|exact Fs].
        eexists [sv], _. split; [done|]. split; [by rewrite Hr|]. split; [by eapply step_none|]. constructor; [exact V|constructor].
      - destruct E4 as [-> ->]. exists [], []. split; [done|]. split; [done|]. split; [|constructor]. eapply step_ext; [|by apply step_refl].
        intros l _. unfold only. by case_decide. }
    destruct X as (ys & mts & X1 & X2 & S4 & Vm).
    exists el, (T (LNode pn) (gt :: mts)), es, ets. split; [done|]. split; [by rewrite X2|].
    assert (S34 : step lpath env (fun l => (only el [gel] l ++ only p es l) ++ only el ys l) s1 d1 s' d') by (by eapply step_trans).
    split.
    { eapply step_ext; [|eapply step_trans; [exact S12|exact S34]]. intros l Hl. simpl. rewrite !(only_ne el) by (by intros ->). by rewrite app_nil_r. }
    pose proof (gs_len _ _ _ (sp_grows _ _ _ _ _ _ _ S3)) as Hl3.
    assert (Hown : forall l, length (heap s1) <= l -> only el ys l = []) by (intros l Hl; apply only_ne; lia).
    split.
    - eapply (wrap _ (heap s1) _ _ _ _ (gel :: ys)); [lia|done|done|apply B|apply S34| |].
      + simpl. rewrite !only_at. rewrite only_ne by lia. done.
      + constructor.
        * eapply viewn_le; [|eapply viewn_grows; [exact W3|apply S4|exact Hown|exact Vg]]. lia.
        * eapply views_le; [|exact Vm]. lia.
    - eapply views_le; [|eapply views_grows; [exact W3|apply S4|exact Hown|exact Ve]]. lia.
  Qed.
End visits.
