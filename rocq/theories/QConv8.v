(** * Conversion: the <link> of a loaded link *)
From stdpp Require Import relations.
From Verif Require Import Spec Hierarchy Elements Factory History PDict PPath PExec PMono PWF PReach QFac Traverse SpecTrav QueryEngine SpecQuery CogniLang SpecPhys SpecPhys2 SpecKin QPhys QPhys2 QKin Convert SpecSdf QSdf QSdf2 QConv3 SpecConv QConv4 QConv6 SpecCogni.

(** ** Results *)
Lemma rbind_inv {A B} (m : res A) (k : A -> res B) b : rbind m k = Ok b -> exists a, m = Ok a /\ k a = Ok b.
Proof. destruct m as [a|]; [|done]. intros H. by exists a. Qed.
Lemma r_opt_inv {A} e (x : option A) a : r_opt e x = Ok a -> x = Some a.
Proof. destruct x; [|done]. by intros [= ->]. Qed.
Lemma r_map_inv {A B} (f : A -> res B) l ys : r_map f l = Ok ys -> Forall2 (fun x y => f x = Ok y) l ys.
Proof.
  revert ys. induction l as [|x l IH]; intros ys H; cbn [r_map] in H; [injection H as <-; constructor|]. apply rbind_inv in H as (y & Hy & H). apply rbind_inv in H as (ys' & Hys & H). injection H as <-. constructor; [done|by apply IH].
Qed.

Lemma head_lookup' {A} (l : list A) x : head l = Some x -> x ∈ l.
Proof. destruct l; [done|]. intros [= ->]. left. Qed.
(** ** Elements and labels *)
Definition lkind (lb : label) : kind := match lb with LNode _ => KNode | LEdge _ => KEdge | LRel _ _ _ => KRel | LSem c _ _ => KSem c | LValue _ _ => KValue end.
Lemma labelled_kind h x lb : labelled h x lb -> kind_of h x = Some (lkind lb).
Proof. intros (o & Ho & H). unfold kind_of. rewrite Ho. cbn. destruct lb; destruct H as (-> & _); done. Qed.
Lemma view_labelled h x t : view h x t -> labelled h x (rt t).
Proof. by destruct 1. Qed.
Lemma view_pkind h x t : view h x t -> pkind h x = lkind (rt t).
Proof. intros V. apply pkind_of, labelled_kind, view_labelled, V. Qed.
Lemma labelled_name h x c nm a : labelled h x (LSem c nm a) -> pname h x = nm.
Proof. intros (o & Ho & _ & H & _). unfold pname. by rewrite Ho. Qed.
Lemma node_name h x nm : labelled h x (LNode nm) -> pname h x = nm.
Proof. intros (o & Ho & _ & H). unfold pname. by rewrite Ho. Qed.
Lemma plain_eq h x a b : Forall2 (attr_is h x) a (plain b) -> a = b.
Proof.
  revert b. induction a as [|[k v] a IH]; intros [|[k' v'] b] F; inversion F as [|? ? ? ? H1 H2]; subst; [done|]. destruct H1 as [H1 H3]. cbn in H1, H3. subst. f_equal. by apply IH.
Qed.
Lemma plain_sattr h x c nm a k : labelled h x (LSem c nm (plain a)) -> sattr h x k = default PNone (dget k a).
Proof. intros (o & Ho & _ & _ & F). apply plain_eq in F. unfold sattr. by rewrite Ho, F. Qed.
(** The sub-elements of a kind other than ports. *)
Lemma subs_kids h f x : f KPort = false -> subs_of h f x = List.filter (fun c => match h !! c with Some o => f (o_kind o) | None => false end) (kids h x).
Proof.
  intros Hf. unfold subs_of, kids. rewrite !List_filter_stdpp.
  assert (E : match h !! x with Some o => map snd (o_subs o) | None => [] end = children h x) by (unfold children; destruct (h !! x); done). rewrite E. rewrite list_filter_filter. apply list_filter_iff.
  intros y. unfold kind_of. destruct (h !! y) as [o|] eqn:Ey; cbn; [|naive_solver]. split; [intros H; split; [done|]; intros [= K]; congruence|tauto].
Qed.
Lemma sub_parent h f x y : WF0 h -> f KPort = false -> y ∈ subs_of h f x -> parent_of h y = Some x.
Proof. intros W Hf H. rewrite (subs_kids h f x Hf), List_filter_stdpp in H. apply elem_of_list_filter in H as [_ H]. by apply (QConv3.kid_iff h W) in H as [? _]. Qed.
Lemma Forall2_filter {A B} (R : A -> B -> Prop) (p : A -> bool) (q : B -> bool) l m : Forall2 R l m -> (forall a b, R a b -> p a = q b) -> Forall2 R (List.filter p l) (List.filter q m).
Proof. intros F H. induction F as [|a b l m Hab _ IH]; [constructor|]. cbn. rewrite (H a b Hab). destruct (q b); [by constructor|done]. Qed.
Definition of_lkind (f : kind -> bool) (ts : list tree) : list tree := List.filter (fun u => f (lkind (rt u))) ts.
Lemma view_subs h f x lb ts : f KPort = false -> view h x (T lb ts) -> Forall2 (view h) (subs_of h f x) (of_lkind f ts).
Proof.
  intros Hf V. rewrite (subs_kids h f x Hf). apply view_kids in V. apply Forall2_filter; [done|]. intros a b Vab. apply view_labelled, labelled_kind in Vab. unfold kind_of in Vab. destruct (h !! a) as [o|]; [|done]. cbn in Vab. by injection Vab as ->.
Qed.
Lemma of_lkind_all f ts : Forall (fun u => f (lkind (rt u)) = true) ts -> of_lkind f ts = ts.
Proof. unfold of_lkind. induction 1 as [|u ts H _ IH]; [done|]. cbn. by rewrite H, IH. Qed.
Lemma of_lkind_none f ts : Forall (fun u => f (lkind (rt u)) = false) ts -> of_lkind f ts = [].
Proof. unfold of_lkind. induction 1 as [|u ts H _ IH]; [done|]. cbn. by rewrite H, IH. Qed.
Lemma Forall2_one {A B} (R : A -> B -> Prop) l b : Forall2 R l [b] -> exists a, l = [a] /\ R a b.
Proof. intros F. inversion F as [|a ? l' ? H F']; subst. inversion F'; subst. by exists a. Qed.

Section link.
  Context (fl : string -> option Qc) (rad : Qc) (h : list obj) (env : list (string * string)).
  (** *** Poses *)
  Lemma pose_inv x owner y txt : view h x (rigid_tree owner y) -> pose_text h rad x = Ok txt -> forall r, rigid fl env r = Some y -> link_text fl rad env (Some r) = Some txt.
  Proof.
    destruct y as [[tr q] u]. intros V H r Hr. apply view_labelled in V. cbn [rigid_tree sem_leaf rt] in V. unfold pose_text in H. rewrite !(plain_sattr _ _ _ _ _ _ V) in H.
    set (a := [("translation", qlist tr); ("rotation", qlist q); ("rotation_type", PStr u)]) in H. change (default PNone (dget "translation" a)) with (qlist tr) in H. change (default PNone (dget "rotation" a)) with (qlist q) in H. change (default PNone (dget "rotation_type" a)) with (PStr u) in H.
    unfold link_text. rewrite Hr. apply rbind_inv in H as (rot0 & Hrot0 & H). cbn in Hrot0. injection Hrot0 as <-. apply rbind_inv in H as (rot & Hrot & H).
    apply rbind_inv in H as (x0 & H0 & H). apply rbind_inv in H as (x1 & H1 & H). apply rbind_inv in H as (x2 & H2 & H).
    apply r_opt_inv in H0, H1, H2. rewrite list_lookup_fmap in H0, H1, H2. destruct tr as [|t0 [|t1 [|t2 tr]]]; try discriminate. cbn in H0, H1, H2. injection H0 as <-. injection H1 as <-. injection H2 as <-.
    apply rbind_inv in H as (r0 & H0 & H). apply rbind_inv in H as (r1 & H1 & H). apply rbind_inv in H as (r2 & H2 & H). apply r_opt_inv in H0, H1, H2. injection H as <-.
    destruct (decide (u = "deg")) as [->|Hu].
    - rewrite is_text_true in Hrot by done. apply r_map_inv in Hrot.
      assert (E : rot = map (fun a => PNum (rad * a)%Qc) q). { clear -Hrot. revert rot Hrot. induction q as [|a q IH]; intros rot F; inversion F as [|? ? ? ? Ha F']; subst; [done|]. cbn in Ha. injection Ha as <-. cbn. f_equal. by apply IH. }
      subst rot. rewrite list_lookup_fmap in H0, H1, H2. destruct q as [|q0 [|q1 [|q2 q]]]; try discriminate. cbn in H0, H1, H2. injection H0 as <-. injection H1 as <-. injection H2 as <-. done.
    - rewrite is_text_false in Hrot by congruence. injection Hrot as <-. rewrite list_lookup_fmap in H0, H1, H2. destruct q as [|q0 [|q1 [|q2 q]]]; try discriminate. cbn in H0, H1, H2. injection H0 as <-. injection H1 as <-. injection H2 as <-. done.
  Qed.
  Lemma head_pose l hd el txt : link_head fl rad env l = Some hd -> view h el hd -> 
    match subs_of h (k_sem_is SRigidTransformation) el with x :: _ => pose_text h rad x | [] => Ok [PT "0.0 0.0 0.0 0.0 0.0 0.0"] end = Ok txt ->
    link_text fl rad env (lk_pose l) = Some txt /\ pname h el = lk_name l.
  Proof.
    intros Hh V H. unfold link_head in Hh. destruct (lk_pose l) as [r|] eqn:Ep.
    - destruct (rigid fl env r) as [[[tr q] u]|] eqn:Er; [|done]. injection Hh as <-. pose proof (view_subs h (k_sem_is SRigidTransformation) el _ _ eq_refl V) as F. cbn in F. apply Forall2_one in F as (x & Ex & Vx). rewrite Ex in H. split.
      + by apply (pose_inv x (lk_name l) (tr, q, u) txt Vx H r).
      + apply view_labelled in V. by eapply labelled_name.
    - injection Hh as <-. pose proof (view_subs h (k_sem_is SRigidTransformation) el _ _ eq_refl V) as F. cbn in F. apply Forall2_nil_inv_r in F. rewrite F in H. injection H as <-. split; [done|]. apply view_labelled in V. by eapply labelled_name.
  Qed.

  (** *** Geometries *)
  Lemma refs_inv x refs : r_map (port_geometries h) (subs_of h k_port x) = Ok refs -> Forall (fun y => exists z, y = group "geometry" [z]) (concat refs).
  Proof.
    intros H. apply r_map_inv in H. induction H as [|p xs ps refs H _ IH]; [constructor|]. cbn [concat]. apply Forall_app. split; [|done]. unfold port_geometries in H.
    apply rbind_inv in H as (r & _ & H). apply rbind_inv in H as (e & _ & H). apply rbind_inv in H as (rs & _ & H). apply rbind_inv in H as (ys & H & E). injection E as <-. clear -H. apply r_map_inv in H.
    induction H as [|y zs rs ys H _ IH]; [constructor|]. cbn [concat]. apply Forall_app. split; [|done]. apply rbind_inv in H as (n & _ & H). apply r_map_inv in H. clear -H. induction H as [|g z gs zs H _ IH]; [constructor|]. constructor; [|done].
    unfold ref_geometry in H. apply rbind_inv in H as ([x|] & _ & H); [|done]. injection H as <-. by exists x.
  Qed.
  Lemma drawing_inv g nm t c q y : view h g (sem_leaf c nm [("name", PStr nm); ("values", qlist q)]) -> geometry_class t = Some c -> encode_typegeometry_element h g = Ok y -> drawing t q = Some y.
  Proof.
    intros V Hc H. apply view_labelled in V. cbn [sem_leaf rt] in V. unfold encode_typegeometry_element in H. rewrite (plain_sattr _ _ _ _ _ _ V) in H. rewrite (pkind_of _ _ _ (labelled_kind _ _ _ V)) in H. set (at0 := [("name", PStr nm); ("values", qlist q)]) in H. change (default PNone (dget "values" at0)) with (qlist q) in H. cbn [lkind] in H.
    destruct t; try discriminate Hc; injection Hc as <-; cbn in H.
    - destruct q as [|r [|l q]]; cbn in H; try discriminate. by injection H as <-.
    - rewrite map_length in H. destruct q as [|a [|b [|c [|d q]]]]; cbn in H; try discriminate; by injection H as <-.
    - rewrite map_length in H. destruct q as [|a [|b q]]; cbn in H; [by injection H as <-|by injection H as <-|]. injection H as <-. cbn. do 5 f_equal. do 2 f_equal. 
      rewrite map_map. by rewrite <- flat_map_concat_map.
  Qed.
  Lemma geometry_inv nm g t x gs : geometry_tree fl env nm g = Some t -> view h x t -> extract_geometry_element h x = Ok gs ->
    pname h x = nm /\ exists own more, own_geometries fl env g = Some own /\ Forall (fun y => exists z, y = group "geometry" [z]) more /\ gs = own ++ more.
  Proof.
    intros Ht V H. unfold extract_geometry_element in H. apply rbind_inv in H as (own & Ho & H). apply rbind_inv in H as (refs & Hr & H). injection H as <-. apply r_map_inv in Ho. apply refs_inv in Hr. unfold geometry_tree in Ht. destruct g as [t0 [v|]|ref]; [|done|].
    - destruct (geometry_class t0) as [c|] eqn:Ec; [|done]. destruct (numbers fl env v) as [q|] eqn:En; [|done]. injection Ht as <-. split; [apply view_labelled in V; by apply node_name|].
      exists own, (concat refs). split; [|done]. assert (Kc : k_geometry (KSem c) = true) by (by destruct t0; try discriminate Ec; injection Ec as <-).
      pose proof (view_subs h k_geometry x _ _ eq_refl V) as F. unfold of_lkind in F. cbn [List.filter sem_leaf rt lkind] in F. rewrite Kc in F. apply Forall2_one in F as (y & Ey & Vy). rewrite Ey in Ho.
      inversion Ho as [|? z ? zs Hy Ho']; subst. inversion Ho'; subst. unfold own_geometry in Hy. apply rbind_inv in Hy as (o & Hy & E). injection E as <-. cbn [own_geometries]. rewrite En.
      by rewrite (drawing_inv y nm t0 c q o Vy Ec Hy).
    - injection Ht as <-. split; [apply view_labelled in V; by apply node_name|]. pose proof (view_subs h k_geometry x _ _ eq_refl V) as F. cbn in F. apply Forall2_nil_inv_r in F. rewrite F in Ho. apply Forall2_nil_inv_l in Ho as ->. by exists [], (concat refs).
  Qed.
  (** *** Parts *)
  Definition part_is (path : list string) (p : cpart) (n : loc) : Prop := exists t, part_tree fl env path p = Some t /\ view h n t.
  Lemma part_subs path p n : part_is path p n -> exists g t, geometry_tree fl env ("geom_" +:+ part_name path p) (part_geometry p) = Some t /\ view h g t /\ subs_of h k_node n = [g] /\
    match p with CVisual _ m _ => exists ma, subs_of h (k_sem_is SVisualMaterial) n = [ma] /\ sattr h ma "material_name" = PStr (default "white" m) | CCollision _ _ => subs_of h (k_sem_is SVisualMaterial) n = [] end.
  Proof.
    intros (t & Ht & V). unfold part_tree in Ht. destruct (geometry_tree fl env ("geom_" +:+ part_name path p) (part_geometry p)) as [tg|] eqn:Eg; [|done]. apply (inj Some) in Ht. subst t.
    pose proof (geometry_shaped fl env _ _ _ Eg) as [Rg _].
    pose proof (view_subs h k_node n _ _ eq_refl V) as F. pose proof (view_subs h (k_sem_is SVisualMaterial) n _ _ eq_refl V) as Fm. unfold of_lkind in F, Fm. cbn [List.filter] in F, Fm. rewrite Rg in F, Fm.
    cbn [lkind k_node k_sem_is] in F, Fm.
    assert (X : exists g, subs_of h k_node n = [g] /\ view h g tg). { apply Forall2_one. by destruct p. }
    destruct X as (g & Hg & Vg). exists g, tg. split; [done|]. split; [done|]. split; [done|]. destruct p as [id m g'|id g'].
    - cbn in Fm. apply Forall2_one in Fm as (ma & Em & Vm). exists ma. split; [done|]. apply view_labelled in Vm. cbn [sem_leaf rt] in Vm. by rewrite (plain_sattr _ _ _ _ _ _ Vm).
    - cbn in Fm. by apply Forall2_nil_inv_r in Fm.
  Qed.
  Definition is_v (n : loc) : bool := match subs_of h (k_sem_is SVisualMaterial) n with [] => false | _ => true end.
  Definition geoms (ns : list loc) : list loc := flat_map (subs_of h k_node) ns.
  Lemma geoms_app a b : geoms (a ++ b) = geoms a ++ geoms b.
  Proof. apply flat_map_app. Qed.
  Definition mats_of (n : loc) : list (loc * loc) := match subs_of h (k_sem_is SVisualMaterial) n with m :: _ => fold_left (fun d g => dset g m d) (subs_of h k_node n) [] | [] => [] end.
  Lemma sort_split ns coll vis mats : sort_geometries h ns coll vis mats =
    (coll ++ geoms (List.filter (fun n => negb (is_v n)) ns), vis ++ geoms (List.filter is_v ns), match last (List.filter is_v ns) with Some n => mats_of n | None => mats end).
  Proof.
    revert coll vis mats. induction ns as [|n ns IH]; intros coll vis mats; [cbn; by rewrite !app_nil_r|]. cbn [sort_geometries]. destruct (subs_of h (k_sem_is SVisualMaterial) n) as [|m ms] eqn:Em.
    - rewrite IH. cbn [List.filter]. assert (E : is_v n = false) by (unfold is_v; by rewrite Em). rewrite E. cbn [negb]. cbn [geoms flat_map]. by rewrite app_assoc.
    - rewrite IH. cbn [List.filter]. assert (E : is_v n = true) by (unfold is_v; by rewrite Em). rewrite E. cbn [negb]. cbn [geoms flat_map]. rewrite <- app_assoc. f_equal. 
      destruct (List.filter is_v ns) as [|n' ns'] eqn:Ev; [|rewrite last_cons_cons; destruct (last (n' :: ns')) eqn:El; [done|by apply last_None in El]]. cbn. unfold mats_of. by rewrite Em.
  Qed.
  Lemma part_v path p n : part_is path p n -> is_v n = is_visual p.
  Proof. intros H. destruct (part_subs path p n H) as (g & t & _ & _ & _ & Hm). unfold is_v. destruct p; [by destruct Hm as (ma & -> & _)|by rewrite Hm]. Qed.
  Lemma part_geom path p n : part_is path p n -> exists g t, subs_of h k_node n = [g] /\ view h g t /\ geometry_tree fl env ("geom_" +:+ part_name path p) (part_geometry p) = Some t.
  Proof. intros H. destruct (part_subs path p n H) as (g & t & H1 & H2 & H3 & _). by exists g, t. Qed.
  Lemma parts_split path ps ns : Forall2 (part_is path) ps ns -> Forall2 (part_is path) (List.filter is_visual ps) (List.filter is_v ns) /\ Forall2 (part_is path) (List.filter (fun p => negb (is_visual p)) ps) (List.filter (fun n => negb (is_v n)) ns).
  Proof.
    intros F. split; (apply Forall2_filter; [done|]); intros p n H; by rewrite (part_v path p n H).
  Qed.
  Lemma collisions_inv path ps ns cs : Forall2 (part_is path) ps ns -> Forall (fun p => is_visual p = false) ps -> r_map (fun c => encode_collision_elements h c "") (geoms ns) = Ok cs -> Forall2 (part_xml fl env path) ps cs.
  Proof.
    intros F. revert cs. induction F as [|p n ps ns H _ IH]; intros cs Hv E; [cbn in E; injection E as <-; constructor|]. apply Forall_cons in Hv as [Hp Hv]. destruct (part_geom path p n H) as (g & t & Hg & V & Ht).
    cbn [geoms flat_map] in E. rewrite Hg in E. cbn [app r_map] in E. apply rbind_inv in E as (x & Ex & E). apply rbind_inv in E as (xs & Exs & E). injection E as <-. constructor; [|by apply IH].
    unfold encode_collision_elements in Ex. apply rbind_inv in Ex as (gs & Egs & Ex). injection Ex as <-. destruct (geometry_inv _ _ _ _ _ Ht V Egs) as (Hn & own & more & Ho & Hm & ->). exists own, more. split; [done|]. split; [done|].
    rewrite Hp. unfold prefixed. rewrite Hn. destruct p; [done|]. by rewrite app_nil_r.
  Qed.
  Lemma visual_inv path p n ma g x : part_is path p n -> is_visual p = true -> subs_of h k_node n = [g] -> subs_of h (k_sem_is SVisualMaterial) n = [ma] -> encode_visual_elements h g ma "" = Ok x -> part_xml fl env path p x.
  Proof.
    intros H Hv Hg Hm E. destruct (part_subs path p n H) as (g' & t & Ht & V & Hg' & Hma). rewrite Hg in Hg'. injection Hg' as <-. destruct p as [id m gm|]; [|done]. destruct Hma as (ma' & Hm' & Ha). rewrite Hm in Hm'. injection Hm' as <-.
    unfold encode_visual_elements in E. apply rbind_inv in E as (gs & Egs & E). rewrite Ha in E. injection E as <-. destruct (geometry_inv _ _ _ _ _ Ht V Egs) as (Hn & own & more & Ho & Hmo & ->).
    exists own, more. split; [done|]. split; [done|]. unfold prefixed. rewrite Hn. cbn [is_visual]. f_equal. by rewrite <- app_assoc.
  Qed.
  Lemma solids_inv (W : WF0 h) path ps ns n gs : Forall2 (part_is path) ps ns -> subs_of h k_node n = ns -> encode_geometry_element h n "" = Ok gs ->
    length (List.filter is_visual ps) <= 1 /\ exists vs cs, gs = vs ++ cs /\ Forall2 (part_xml fl env path) (List.filter is_visual ps) vs /\ Forall2 (part_xml fl env path) (List.filter (fun p => negb (is_visual p)) ps) cs.
  Proof.
    intros F Hns E. unfold encode_geometry_element in E. rewrite Hns, sort_split in E. cbn [app] in E. destruct (parts_split path ps ns F) as [FV FC].
    apply rbind_inv in E as (vs & Evs & E). apply rbind_inv in E as (cs & Ecs & E). injection E as <-.
    assert (HC : Forall2 (part_xml fl env path) (List.filter (fun p => negb (is_visual p)) ps) cs).
    { eapply collisions_inv; [exact FC| |exact Ecs]. apply Forall_forall. intros p Hp. apply elem_of_list_In, filter_In in Hp as [_ Hp]. by apply negb_true_iff. }
    assert (HV : Forall (fun p => is_visual p = true) (List.filter is_visual ps)). { apply Forall_forall. intros p Hp. apply elem_of_list_In, filter_In in Hp. tauto. }
    assert (Nns : NoDup (List.filter is_v ns)). { rewrite List_filter_stdpp. apply NoDup_filter. rewrite <- Hns, subs_nodes. apply NoDup_filter, (wf0_children_nd h W). }
    clear FC Ecs. revert FV Evs HV Nns. generalize (List.filter is_visual ps) (List.filter is_v ns). intros pv0 nv0 FV Evs HV Nns. destruct FV as [|p n1 pv nv Hp FV]; [cbn in Evs; injection Evs as <-; split; [cbn; lia|]; exists [], cs; by repeat split|].
    apply Forall_cons in HV as [Hv1 HV]. pose proof (part_subs path p n1 Hp) as (g1 & t1 & Ht1 & V1 & Hg1 & Hm1). destruct p as [id m gm|]; [|done]. destruct Hm1 as (ma & Hma & _).
    destruct FV as [|p2 n2 pv nv Hp2 FV].
    - cbn [last mats_of] in Evs. cbn [geoms flat_map] in Evs. rewrite Hg1 in Evs. unfold mats_of in Evs. rewrite Hma, Hg1 in Evs. cbn [app r_map fold_left] in Evs. apply rbind_inv in Evs as (x & Ex & Evs). injection Evs as <-.
      apply rbind_inv in Ex as (ma' & Em & Ex). apply r_opt_inv in Em. rewrite dget_dset, decide_True in Em by done. injection Em as <-. split; [cbn; lia|]. exists [x], cs. split; [done|]. split; [|done]. constructor; [|constructor].
      by eapply visual_inv.
    - exfalso. assert (Hlast : exists z, last (n1 :: n2 :: nv) = Some z /\ z <> n1 /\ exists pz, part_is path pz z).
      { rewrite last_cons_cons. destruct (last (n2 :: nv)) as [z|] eqn:El; [|by apply last_None in El]. exists z. split; [done|]. assert (Hz : z ∈ n2 :: nv) by (by apply last_Some_elem_of). split; [intros ->; by apply NoDup_cons in Nns as [? _]|].
        assert (F2 : Forall2 (part_is path) (p2 :: pv) (n2 :: nv)) by (by constructor). apply elem_of_list_lookup in Hz as [i Hz]. destruct (Forall2_lookup_r _ _ _ _ _ F2 Hz) as (pz & _ & Hpz). by exists pz. }
      destruct Hlast as (z & Hl & Hz & pz & Hpz). rewrite Hl in Evs. cbn [geoms flat_map] in Evs. rewrite Hg1 in Evs. cbn [app r_map] in Evs. apply rbind_inv in Evs as (x & Ex & _). apply rbind_inv in Ex as (ma' & Em & _). apply r_opt_inv in Em.
      destruct (part_geom path pz z Hpz) as (gz & tz & Hgz & _). unfold mats_of in Em. destruct (subs_of h (k_sem_is SVisualMaterial) z) as [|mz ms]; [done|]. rewrite Hgz in Em. cbn [fold_left] in Em. rewrite dget_dset in Em.
      assert (g1 <> gz). { intros <-. assert (A : parent_of h g1 = Some n1) by (apply (sub_parent h k_node); [done|done|rewrite Hg1; left]). assert (B : parent_of h g1 = Some z) by (apply (sub_parent h k_node); [done|done|rewrite Hgz; left]). congruence. }
      by rewrite decide_False in Em.
  Qed.
  (** *** Inertia *)
  Lemma inertia_geoms path ps ns : Forall2 (part_is path) ps ns ->
    match inertia_geometries h ns with
    | [] => forall m, moments fl env m ps = Some unit_moments
    | gs => exists g t v q c nm, gs = [g] /\ view h g (sem_leaf c nm [("name", PStr nm); ("values", qlist q)]) /\ geometry_class t = Some c /\ numbers fl env v = Some q /\
        forall m, moments fl env m ps = match t, numbers fl env v with
            | GCylinder, Some (radius :: len :: _) => Some (cylinder_moments m len radius)
            | GEllipsoid, Some [radius] => Some (sphere_moments m radius)
            | GPolyhedron, Some _ => Some unit_moments
            | _, _ => None
            end
    end.
  Proof.
    induction 1 as [|p n ps ns H _ IH]; [done|]. cbn [inertia_geometries]. destruct (part_geom path p n H) as (g & t & Hg & V & Ht). rewrite Hg. cbn [moments]. unfold geometry_tree in Ht. destruct (part_geometry p) as [t0 [v|]|ref]; [|done|].
    - destruct (geometry_class t0) as [c|] eqn:Ec; [|done]. destruct (numbers fl env v) as [q|] eqn:En; [|done]. injection Ht as <-. assert (Kc : k_geometry (KSem c) = true) by (by destruct t0; try discriminate Ec; injection Ec as <-).
      pose proof (view_subs h k_geometry g _ _ eq_refl V) as F. unfold of_lkind in F. cbn [List.filter sem_leaf rt lkind] in F. rewrite Kc in F. apply Forall2_one in F as (y & Ey & Vy). rewrite Ey. exists y, t0, v, q, c, ("geom_" +:+ part_name path p). rewrite En. done.
    - injection Ht as <-. pose proof (view_subs h k_geometry g _ _ eq_refl V) as F. cbn in F. apply Forall2_nil_inv_r in F. by rewrite F.
  Qed.
  Lemma parts_are path ps ts ns : part_trees fl env path ps = Some ts -> Forall2 (view h) ns ts -> Forall2 (part_is path) ps ns.
  Proof.
    revert ts ns. induction ps as [|p ps IH]; intros ts ns H F; cbn [part_trees] in H; [injection H as <-; inversion F; constructor|]. destruct (part_tree fl env path p) as [t|] eqn:Et; [|done]. destruct (part_trees fl env path ps) as [ts'|] eqn:Ets; [|done].
    injection H as <-. inversion F as [|n ? ns' ? V F']; subst. constructor; [by exists t|by eapply IH].
  Qed.
  Lemma one_inertia_inv path ps ns i m is : Forall2 (part_is path) ps ns -> sattr h i "mass" = PNum m -> encode_one_inertia h (inertia_geometries h ns) i = Ok is ->
    exists mo, moments fl env m ps = Some mo /\ is = [leaf "mass" [PV (PNum m)]; inertia_xml mo].
  Proof.
    intros F Hm E. pose proof (inertia_geoms path ps ns F) as G.
    assert (Done : forall mo, length mo = 6 -> gives_all h m (inertia_geometries h ns) unit_moments mo -> is = [leaf "mass" [PV (PNum m)]; inertia_xml mo]).
    { intros mo Hl Hg. rewrite (one_inertia h _ i m mo) in E; [by injection E as <-|by rewrite <- sattr_attr|done]. }
    destruct (inertia_geometries h ns) as [|g0 gs0] eqn:Eg.
    - exists unit_moments. split; [apply G|]. apply Done; [done|constructor].
    - destruct G as (g & t & v & q & c & nm & Egs & V & Ec & En & Hmo). rewrite Egs in *. apply view_labelled in V. cbn [sem_leaf rt] in V. pose proof (labelled_kind _ _ _ V) as Kg. pose proof (plain_sattr _ _ _ _ _ "values" V) as Vg.
      change (sattr h g "values" = qlist q) in Vg. rewrite Hmo, En. unfold encode_one_inertia in E. rewrite Hm in E. apply rbind_inv in E as (vs & Evs & E). cbn [inertia_values] in Evs. rewrite (pkind_of _ _ _ Kg) in Evs. cbn [lkind] in Evs.
      destruct t; try discriminate Ec; injection Ec as <-.
      + apply rbind_inv in Evs as (cur & Ecur & _). apply rbind_inv in Ecur as (l0 & El0 & _). unfold calc_cylinder_inertia in El0. rewrite Vg in El0. apply rbind_inv in El0 as (a & Ea & El0). apply rbind_inv in El0 as (b & Eb & _).
        destruct q as [|a0 [|b0 q]]; cbn in Ea, Eb; try discriminate. eexists. split; [reflexivity|]. apply Done; [done|]. econstructor; [|constructor]. apply gv_cylinder. split; [done|]. exists (map PNum q). by rewrite <- sattr_attr.
      + eexists. split; [reflexivity|]. apply Done; [done|]. econstructor; [by apply gv_box|constructor].
      + destruct q as [|r [|b q]].
        * exfalso. unfold calc_ellipsoid_inertia in Evs. rewrite Vg in Evs. cbn in Evs. injection Evs as <-. done.
        * eexists. split; [reflexivity|]. apply Done; [done|]. econstructor; [|constructor]. apply gv_sphere. split; [done|]. by rewrite <- sattr_attr.
        * exfalso. unfold calc_ellipsoid_inertia in Evs. rewrite Vg in Evs. cbn in Evs. injection Evs as <-. done.
  Qed.
  Lemma link_inv (W : WF0 h) path l n t el y is : link_tree fl rad env path l = Some t -> view h n t -> head (kids h n) = Some el ->
    encode_link_element h rad el "" = Ok y -> encode_inertia_element h el = Ok is -> exported_link fl rad (env, path, l) (xml_append y is).
  Proof.
    intros Ht V Hel Ey Eis. assert (Hp : parent_of h el = Some n). { apply head_lookup' in Hel. by apply (QConv3.kid_iff h W) in Hel as [? _]. }
    unfold encode_link_element in Ey. unfold encode_inertia_element in Eis. rewrite pparent_of, Hp in Ey, Eis. cbn [r_opt rbind] in Ey, Eis.
    apply rbind_inv in Ey as (frame & _ & Ey). apply rbind_inv in Ey as (txt & Etxt & Ey). apply rbind_inv in Ey as (gs & Egs & Ey). injection Ey as <-.
    assert (Parts : exists hd ts, view h el hd /\ link_head fl rad env l = Some hd /\ subs_of h k_node n = ts /\ Forall2 (part_is (path ++ [lk_name l])) (link_parts l) ts /\ body_xml fl env l is).
    { unfold link_tree in Ht. destruct (link_head fl rad env l) as [hd|] eqn:Eh; [|done]. destruct (head_shaped fl rad env l hd Eh) as [_ [a Rh]].
      assert (Vh : forall rest, view h n (T (LNode (lk_name l)) (hd :: rest)) -> view h el hd). { intros rest V'. apply view_kids in V'. inversion V' as [|x ? xs ? Vx Fx Ex]; subst. rewrite <- Ex in Hel. cbn in Hel. by injection Hel as ->. }
      unfold link_parts, body_xml. destruct (lk_body l) as [[i ps]|].
      - destruct (fl (in_mass i)) as [m|] eqn:Em; [|done]. destruct (part_trees fl env (path ++ [lk_name l]) ps) as [ts|] eqn:Ep; [|done]. injection Ht as <-. exists hd, (subs_of h k_node n). split; [by eapply Vh|]. split; [done|]. split; [done|].
        pose proof (parts_shaped fl env _ _ _ Ep) as [_ Lts].
        pose proof (view_subs h k_node n _ _ eq_refl V) as F. unfold of_lkind in F. cbn [List.filter] in F. rewrite Rh in F. cbn [lkind k_node sem_leaf rt] in F. fold (of_lkind k_node ts) in F.
        rewrite of_lkind_all in F by (eapply Forall_impl; [exact Lts|]; intros u [nm ->]; done). pose proof (parts_are _ _ _ _ Ep F) as FP. split; [done|].
        pose proof (view_subs h (k_sem_is SInertiaElement) n _ _ eq_refl V) as Fi. unfold of_lkind in Fi. cbn [List.filter] in Fi. rewrite Rh in Fi. cbn [lkind k_sem_is sem_leaf rt] in Fi. fold (of_lkind (k_sem_is SInertiaElement) ts) in Fi.
        rewrite of_lkind_none in Fi by (eapply Forall_impl; [exact Lts|]; intros u [nm ->]; done). rewrite bool_decide_eq_false_2 in Fi by done. rewrite bool_decide_eq_true_2 in Fi by done. apply Forall2_one in Fi as (ie & Ei & Vi). rewrite Ei in Eis.
        apply rbind_inv in Eis as (xs & Exs & Eis). injection Eis as <-. cbn [r_map] in Exs. apply rbind_inv in Exs as (x0 & Ex0 & Exs). injection Exs as <-. apply view_labelled in Vi. cbn [sem_leaf rt] in Vi.
        destruct (one_inertia_inv _ _ _ ie m x0 FP (plain_sattr _ _ _ _ _ "mass" Vi) Ex0) as (mo & Hmo & ->). exists m, mo. by repeat split.
      - injection Ht as <-. exists hd, []. split; [by eapply Vh|]. split; [done|]. pose proof (view_subs h k_node n _ _ eq_refl V) as F. unfold of_lkind in F. cbn [List.filter] in F. rewrite Rh in F. cbn [lkind k_node] in F. apply Forall2_nil_inv_r in F. split; [done|]. split; [constructor|].
        pose proof (view_subs h (k_sem_is SInertiaElement) n _ _ eq_refl V) as Fi. unfold of_lkind in Fi. cbn [List.filter] in Fi. rewrite Rh in Fi. cbn [lkind k_sem_is] in Fi. rewrite bool_decide_eq_false_2 in Fi by done. apply Forall2_nil_inv_r in Fi. rewrite Fi in Eis. by injection Eis as <-. }
    destruct Parts as (hd & ts & Vh & Eh & Ets & FP & HB). destruct (head_pose l hd el txt Eh Vh Etxt) as [HT HN]. destruct (solids_inv W _ _ _ n gs FP Ets Egs) as (Hl & vs & cs & -> & HV & HC).
    eexists _, txt, vs, cs, is. split; [cbn [xml_append]; rewrite join1; unfold xml_name; cbn [decide]; rewrite decide_True by done; rewrite HN; cbn [app]; by rewrite <- app_assoc|].
    split; [destruct frame; [right; by eexists|by left]|]. split; [done|]. split; [done|]. split; [done|]. split; [done|]. done.
  Qed.
End link.
