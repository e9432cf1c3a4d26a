(** * Proofs about the SDF export, continued *)
From stdpp Require Import relations.
From Verif Require Import Spec Hierarchy Elements Factory History Phys SpecPhys SpecPhys2 PDict PPath PWF PReach QFac2 QPhys.

(** ** Shapes *)
Lemma shape_enc h g o : shape h g o -> encode_typegeometry_element h g = Ok o.
Proof.
  intros S. unfold encode_typegeometry_element. rewrite sattr_attr. destruct S as [r l rest Hk Hv|r Hk Hv|Hk Hv|a b rest Hk Hv|a Hk Hv|a b Hk Hv|a b c Hk Hv|l Hk Hv Hl];
    rewrite (pkind_of _ _ _ Hk), Hv; cbn [py_len rbind py_sub]; try reflexivity.
  - cbn [length Nat.eqb rbind py_list]. rewrite flat_map_concat_map. cbn [map concat app tail]. reflexivity.
  - destruct Hl as [Hl|Hl].
    + rewrite Hl. reflexivity.
    + destruct (Nat.leb_spec (length l) 3); [lia|]. by rewrite andb_false_r.
Qed.
Lemma ports_subs h x : subs_of h k_port x = ports_of h x.
Proof. apply subs_filter. intros y. split; [intros ->; by exists KPort|]. intros (k & -> & H). by destruct k. Qed.
Lemma out_rels_eq h e : kind_of h e = Some KEdge -> out_rels h e = Ok (outgoing_of h e).
Proof.
  intros Hk. unfold out_rels. rewrite (pkind_of _ _ _ Hk). f_equal. unfold outgoing_of, children. destruct (h !! e) as [o|]; [|done].
  rewrite List_filter_stdpp. apply filter_ext_in. intros y _. unfold kind_of, outward, dir_of. destruct (h !! y) as [oy|]; simpl.
  - destruct (o_kind oy), (o_dir oy); simpl; naive_solver.
  - naive_solver.
Qed.
Lemma in_rels_eq h e : kind_of h e = Some KEdge -> in_rels h e = Ok (incoming_of h e).
Proof.
  intros Hk. unfold in_rels. rewrite (pkind_of _ _ _ Hk). f_equal. unfold incoming_of, children. destruct (h !! e) as [o|]; [|done].
  rewrite List_filter_stdpp. apply filter_ext_in. intros y _. unfold kind_of, inward, dir_of. destruct (h !! y) as [oy|]; simpl.
  - destruct (o_kind oy), (o_dir oy); simpl; naive_solver.
  - naive_solver.
Qed.
Lemma pendpoint_of h x e : ep_of h x = Some e -> kind_of h x = Some KRel \/ kind_of h x = Some KPort -> pendpoint h x = Ok e.
Proof.
  unfold ep_of, kind_of, pendpoint. destruct (h !! x) as [o|]; [|done]. simpl. intros E [[= ->]|[= ->]]; by rewrite E.
Qed.
Lemma r_map_app {A B} (f : A -> res B) l1 l2 : r_map f (l1 ++ l2) = rbind (r_map f l1) (fun y1 => rbind (r_map f l2) (fun y2 => Ok (y1 ++ y2))).
Proof.
  induction l1 as [|x l1 IH]; cbn [r_map app rbind].
  - by destruct (r_map f l2).
  - destruct (f x) as [y|]; [|done]. cbn [rbind]. rewrite IH. destruct (r_map f l1) as [y1|]; [|done]. cbn [rbind]. by destruct (r_map f l2).
Qed.
Lemma ref_geom h gs xs : Forall2 (fun g x => shape h g (Some x)) gs xs -> r_map (ref_geometry h) gs = Ok (map (fun x => group "geometry" [x]) xs).
Proof.
  intros F. apply r_map_ok. induction F as [|g x gs xs H _ IH]; [constructor|]. constructor; [|done]. unfold ref_geometry. by rewrite (shape_enc _ _ _ H).
Qed.
Lemma own_geom h gs os : Forall2 (shape h) gs os -> r_map (own_geometry h) gs = Ok (map (fun g => group "geometry" (match g with Some x => [x] | None => [] end)) os).
Proof.
  intros F. apply r_map_ok. induction F as [|g x gs xs H _ IH]; [constructor|]. constructor; [|done]. unfold own_geometry. by rewrite (shape_enc _ _ _ H).
Qed.
Lemma refs_geoms h n : flat_map (subs_of h k_geometry) (subs_of h k_node n) = flat_map (geometries h) (subnodes h n).
Proof. rewrite subs_nodes. induction (subnodes h n) as [|x l IH]; [done|]. cbn [flat_map]. by rewrite IH, subs_geometries. Qed.
Lemma port_geoms h p gs xs : kind_of h p = Some KPort -> refers h p gs -> Forall2 (fun g x => shape h g (Some x)) gs xs ->
  port_geometries h p = Ok (map (fun x => group "geometry" [x]) xs).
Proof.
  intros Hk R F. destruct R as [r e ns Hp Hr He Hn]. unfold port_geometries. rewrite (pendpoint_of _ _ _ Hp (or_intror Hk)). cbn [rbind].
  rewrite pparent_of, Hr. cbn [rbind r_opt]. rewrite (out_rels_eq _ _ He). cbn [rbind].
  assert (Hrel : Forall (fun y => kind_of h y = Some KRel) (outgoing_of h e)).
  { apply Forall_forall. intros y Hy. unfold outgoing_of in Hy. apply elem_of_list_filter in Hy. tauto. }
  revert xs F. induction Hn as [|x n rs ns Hx _ IH]; intros xs F.
  - simpl in F. inversion F; subst. done.
  - apply Forall_cons in Hrel as [Hk1 Hrel]. cbn [flat_map] in F. apply Forall2_app_inv_l in F as (x1 & x2 & F1 & F2 & ->).
    cbn [r_map]. rewrite (pendpoint_of _ _ _ Hx (or_introl Hk1)). cbn [rbind]. rewrite refs_geoms, (ref_geom _ _ _ F1). cbn [rbind].
    specialize (IH Hrel _ F2). destruct (r_map _ rs) as [ys|]; [|done]. cbn [rbind] in *. injection IH as IH. by rewrite map_app, <- IH.
Qed.
Lemma drawn_enc h n xs : drawn h n xs -> extract_geometry_element h n = Ok xs.
Proof.
  intros (own & refs & shapes & F1 & F2 & F3 & ->). unfold extract_geometry_element. rewrite subs_geometries, (own_geom _ _ _ F1). cbn [rbind].
  rewrite ports_subs. assert (Hp : Forall (fun y => kind_of h y = Some KPort) (ports_of h n)).
  { apply Forall_forall. intros y Hy. unfold ports_of in Hy. apply elem_of_list_filter in Hy. tauto. }
  enough (E : exists ys, r_map (port_geometries h) (ports_of h n) = Ok ys /\ concat ys = map (fun x => group "geometry" [x]) shapes).
  { destruct E as (ys & -> & E). cbn [rbind]. by rewrite E. }
  revert shapes F3. induction F2 as [|p gs ps refs R _ IH]; intros shapes F3.
  - simpl in F3. inversion F3; subst. by exists [].
  - apply Forall_cons in Hp as [Hk Hp]. cbn [concat] in F3. apply Forall2_app_inv_l in F3 as (x1 & x2 & G1 & G2 & ->).
    destruct (IH Hp _ G2) as (ys & E1 & E2). exists (map (fun x => group "geometry" [x]) x1 :: ys). split.
    + cbn [r_map]. rewrite (port_geoms _ _ _ _ Hk R G1). cbn [rbind]. by rewrite E1.
    + cbn [concat]. by rewrite E2, map_app.
Qed.
Lemma prefixed_name h p x : prefixed h p x = xml_name p (name_of h x).
Proof. unfold prefixed, xml_name. by rewrite pname_of. Qed.
Lemma visual_enc h prefix t v m x : attribute h m "material_name" = PStr t -> visual_of h prefix t v x -> encode_visual_elements h v m prefix = Ok x.
Proof.
  intros Hm (gs & D & ->). unfold encode_visual_elements. rewrite (drawn_enc _ _ _ D). cbn [rbind]. rewrite sattr_attr, Hm, prefixed_name. done.
Qed.
Lemma collision_enc h prefix c x : collision_of h prefix c x -> encode_collision_elements h c prefix = Ok x.
Proof. intros (gs & D & ->). unfold encode_collision_elements. rewrite (drawn_enc _ _ _ D). cbn [rbind]. by rewrite prefixed_name. Qed.

(** ** C54 *)
Lemma sort_eq h ns coll vis mats : let '(c', v', m') := sort_geometries h ns coll vis mats in
  c' = coll ++ flat_map (subnodes h) (filter (fun n => ~ has_material h n) ns) /\
  v' = vis ++ flat_map (subnodes h) (filter (has_material h) ns) /\
  (forall z V1, filter (has_material h) ns = V1 ++ [z] -> exists m, head (parts h SVisualMaterial z) = Some m /\ m' = fold_left (fun d g => dset g m d) (subnodes h z) []) /\
  (filter (has_material h) ns = [] -> m' = mats).
Proof.
  revert coll vis mats. induction ns as [|n ns IH]; intros coll vis mats.
  - cbn [sort_geometries]. rewrite !filter_nil. cbn [flat_map]. rewrite !app_nil_r. split_and!; try done. intros z V1 H. by destruct V1.
  - cbn [sort_geometries]. rewrite subs_nodes, subs_parts. destruct (parts h SVisualMaterial n) as [|m ms] eqn:E.
    + assert (Hn : ~ has_material h n) by (unfold has_material; rewrite E; tauto).
      specialize (IH (coll ++ subnodes h n) vis mats). destruct (sort_geometries h ns _ _ _) as [[c' v'] m'].
      rewrite filter_cons_True, filter_cons_False by done. destruct IH as (-> & -> & IH3 & IH4). cbn [flat_map]. rewrite app_assoc. done.
    + assert (Hn : has_material h n) by (unfold has_material; by rewrite E).
      specialize (IH coll (vis ++ subnodes h n) (fold_left (fun d g => dset g m d) (subnodes h n) [])). destruct (sort_geometries h ns _ _ _) as [[c' v'] m'].
      rewrite filter_cons_False, filter_cons_True by tauto. destruct IH as (-> & -> & IH3 & IH4). cbn [flat_map]. rewrite app_assoc. split_and!; try done.
      intros z V1 H. destruct V1 as [|n' V1]; simpl in H.
      * injection H as -> Hf. exists m. split; [by rewrite E|by apply IH4].
      * injection H as -> Hf. by apply (IH3 z V1).
Qed.
Lemma fold_dset_get (m : loc) gs (d : list (loc * loc)) v : dget v (fold_left (fun d g => dset g m d) gs d) = if decide (v ∈ gs) then Some m else dget v d.
Proof.
  revert d. induction gs as [|g gs IH]; intros d; cbn [fold_left].
  - destruct (decide (v ∈ [])) as [H|]; [by apply elem_of_nil in H|done].
  - rewrite IH, dget_dset. destruct (decide (v ∈ gs)) as [H|H].
    + rewrite decide_True; [done|]. by right.
    + destruct (decide (v = g)) as [->|Hn].
      * rewrite (decide_True (P := g ∈ g :: gs)); [done|left].
      * rewrite (decide_False (P := v ∈ g :: gs)); [done|]. rewrite elem_of_cons. tauto.
Qed.
Lemma subnode_child h x y : y ∈ subnodes h x -> y ∈ children h x.
Proof. unfold subnodes. intros H. apply elem_of_list_filter in H. tauto. Qed.
Lemma q_C54_lost s cont prefix V1 z n : reach s -> visual_nodes (heap s) cont = V1 ++ [z] -> n ∈ V1 -> subnodes (heap s) n <> [] ->
  encode_geometry_element (heap s) cont prefix = Exn KeyError.
Proof.
  intros R HV Hn Hs. pose proof (reach_wf _ R) as W. unfold encode_geometry_element. rewrite subs_nodes.
  pose proof (sort_eq (heap s) (subnodes (heap s) cont) [] [] []) as Q. destruct (sort_geometries _ _ _ _ _) as [[c' v'] m'].
  destruct Q as (_ & -> & Q & _). fold (visual_nodes (heap s) cont) in *. destruct (Q z V1 HV) as (m & _ & ->). rewrite HV. cbn [app].
  assert (Hnd : NoDup (visual_nodes (heap s) cont)).
  { unfold visual_nodes. apply NoDup_filter. unfold subnodes. apply NoDup_filter. by apply wf0_children_nd. }
  rewrite HV in Hnd. apply NoDup_app in Hnd as (_ & Hd & _).
  assert (Hv : exists v l, flat_map (subnodes (heap s)) (V1 ++ [z]) = v :: l /\ v ∉ subnodes (heap s) z).
  { rewrite flat_map_app. clear HV Q. induction V1 as [|x V1 IH]; [by apply elem_of_nil in Hn|]. cbn [flat_map].
    destruct (subnodes (heap s) x) as [|v l] eqn:E.
    - apply IH; [|]. { apply elem_of_cons in Hn as [->|Hn]; [congruence|done]. } intros y Hy. apply Hd. by right.
    - exists v. eexists. split; [cbn [app]; reflexivity|]. intros Hz. apply (Hd x); [left|].
      assert (v ∈ subnodes (heap s) x) as Hx by (rewrite E; left).
      destruct (wf0_child _ W _ _ (subnode_child _ _ _ Hx)) as [_ P1]. destruct (wf0_child _ W _ _ (subnode_child _ _ _ Hz)) as [_ P2].
      assert (x = z) as -> by congruence. left. }
  destruct Hv as (v & l & -> & Hz). cbn [r_map]. rewrite fold_dset_get, decide_False by done. done.
Qed.
Lemma q_C54_single h cont prefix V1 z m t vs cs : visual_nodes h cont = V1 ++ [z] -> (forall n, n ∈ V1 -> subnodes h n = []) ->
  head (parts h SVisualMaterial z) = Some m -> attribute h m "material_name" = PStr t ->
  Forall2 (visual_of h prefix t) (subnodes h z) vs -> Forall2 (collision_of h prefix) (flat_map (subnodes h) (collision_nodes h cont)) cs ->
  encode_geometry_element h cont prefix = Ok (vs ++ cs).
Proof.
  intros HV H1 Hm Ht F1 F2. unfold encode_geometry_element. rewrite subs_nodes.
  pose proof (sort_eq h (subnodes h cont) [] [] []) as Q. destruct (sort_geometries _ _ _ _ _) as [[c' v'] m'].
  destruct Q as (-> & -> & Q & _). fold (visual_nodes h cont) in *. fold (collision_nodes h cont). destruct (Q z V1 HV) as (m1 & Hm1 & ->). rewrite HV. cbn [app].
  assert (m1 = m) as -> by congruence.
  assert (E : flat_map (subnodes h) (V1 ++ [z]) = subnodes h z).
  { rewrite flat_map_app. cbn [flat_map]. rewrite app_nil_r. clear HV Q. induction V1 as [|x V1 IH]; [done|]. cbn [flat_map]. rewrite (H1 x) by left. apply IH. intros n Hn. apply H1. by right. }
  rewrite E. erewrite r_map_ok.
  - cbn [rbind]. erewrite r_map_ok; [reflexivity|]. clear -F2. induction F2 as [|c x l l' H _ IH]; [constructor|]. constructor; [by apply collision_enc|done].
  - assert (G : forall v, v ∈ subnodes h z -> dget v (fold_left (fun d g => dset g m d) (subnodes h z) []) = Some m).
    { intros v Hv. by rewrite fold_dset_get, decide_True. }
    revert G. generalize (fold_left (fun d g => dset g m d) (subnodes h z) []). intros d G. clear -F1 Ht G.
    induction F1 as [|v x l l' H _ IH]; [constructor|]. constructor.
    + rewrite (G v) by left. cbn [r_opt rbind]. by apply (visual_enc _ _ t).
    + apply IH. intros w Hw. apply G. by right.
Qed.
Lemma q_C54_none h cont prefix cs : visual_nodes h cont = [] -> Forall2 (collision_of h prefix) (flat_map (subnodes h) (collision_nodes h cont)) cs ->
  encode_geometry_element h cont prefix = Ok cs.
Proof.
  intros HV F2. unfold encode_geometry_element. rewrite subs_nodes.
  pose proof (sort_eq h (subnodes h cont) [] [] []) as Q. destruct (sort_geometries _ _ _ _ _) as [[c' v'] m'].
  destruct Q as (-> & -> & _ & _). fold (visual_nodes h cont) in *. fold (collision_nodes h cont). rewrite HV. cbn [app flat_map r_map rbind].
  erewrite r_map_ok; [reflexivity|]. clear -F2. induction F2 as [|c x l l' H _ IH]; [constructor|]. constructor; [by apply collision_enc|done].
Qed.

(** ** C53 *)
Lemma kin_up h node ls fuel : path h node ls -> length ls <= fuel ->
  (forall d x, first_graph h ls d x -> kin_graph_up h fuel node = Ok (Some (d, x))) /\
  ((forall y, y ∈ ls -> parts h SKinematicGraph y = []) -> kin_graph_up h fuel node = Ok None).
Proof.
  intros P. revert fuel. induction P as [l [o Ho] Hp|l q ls [o Ho] Hp P IH]; intros fuel Hf; (destruct fuel as [|fuel]; [simpl in Hf; lia|]);
    cbn [kin_graph_up]; rewrite Ho, subs_parts; assert (Ep : o_parent o = parent_of h l) by (unfold parent_of; by rewrite Ho); rewrite Ep, Hp; split.
  - intros d x (below & above & E & Hd & Hb). destruct below as [|y below]; simpl in E.
    + injection E as <- <-. destruct (parts h SKinematicGraph l); [done|]. by injection Hd as ->.
    + injection E as -> E. by destruct below.
  - intros H. by rewrite (H l) by left.
  - intros d x (below & above & E & Hd & Hb). destruct below as [|y below]; simpl in E.
    + injection E as <- <-. destruct (parts h SKinematicGraph l); [done|]. by injection Hd as ->.
    + injection E as -> E. rewrite (Hb y) by left. apply (IH fuel); [simpl in Hf; lia|]. exists below, above. split; [done|]. split; [done|].
      intros w Hw. apply Hb. by right.
  - intros H. rewrite (H l) by left. apply (IH fuel); [simpl in Hf; lia|]. intros y Hy. apply H. by right.
Qed.
Lemma first_graph_or h ls : (exists d x, first_graph h ls d x) \/ (forall y, y ∈ ls -> parts h SKinematicGraph y = []).
Proof.
  induction ls as [|l ls IH]; [right; intros y Hy; by apply elem_of_nil in Hy|]. destruct (parts h SKinematicGraph l) as [|d ds] eqn:E.
  - destruct IH as [(d & x & below & above & -> & H2 & H3)|IH].
    + left. exists d, x, (l :: below), above. split; [done|]. split; [done|]. intros y Hy. apply elem_of_cons in Hy as [->|Hy]; [done|by apply H3].
    + right. intros y Hy. apply elem_of_cons in Hy as [->|Hy]; [done|by apply IH].
  - left. exists d, l, [], ls. split; [done|]. split; [by rewrite E|]. intros y Hy. by apply elem_of_nil in Hy.
Qed.
Lemma q_C53 s node : reach s -> exists_in (heap s) node -> exists ls, path (heap s) node ls /\
  ((exists d x, first_graph (heap s) ls d x /\ get_parent_kinematic_graph (heap s) node = Ok (Some (d, x))) \/
   ((forall y, y ∈ ls -> parts (heap s) SKinematicGraph y = []) /\ get_parent_kinematic_graph (heap s) node = Ok None)).
Proof.
  intros R Hx. pose proof (reach_wf _ R) as W. destruct (wf_acy _ W _ Hx) as [ls P]. exists ls. split; [done|].
  destruct (kin_up _ _ _ (S (length (heap s))) P) as [K1 K2]; [pose proof (path_bound _ _ _ P); lia|].
  destruct (first_graph_or (heap s) ls) as [(d & x & F)|N]; [left|right; auto]. exists d, x. auto.
Qed.

(** ** C51: one cylinder *)
Lemma ellipsoid_none h m g gs cur vs : kind_of h g = Some (KSem SEllipsoidGeometry) -> attribute h g "values" = PList vs -> length vs <> 1 -> inertia_values h m (g :: gs) cur = inertia_values h m gs None.
Proof.
  intros Hk Hv Hl. cbn [inertia_values]. rewrite (pkind_of _ _ _ Hk). unfold calc_ellipsoid_inertia. rewrite sattr_attr, Hv. cbn [py_len rbind].
  by destruct (Nat.eqb_spec (length vs) 1).
Qed.
Lemma inertia_values_app h m gs1 gs2 cur : inertia_values h m (gs1 ++ gs2) cur = rbind (inertia_values h m gs1 cur) (inertia_values h m gs2).
Proof.
  revert cur. induction gs1 as [|g gs IH]; intros cur; [done|]. cbn [app inertia_values]. destruct (match pkind h g with KSem _ => _ | _ => _ end); [|done]. cbn [rbind]. apply IH.
Qed.
Lemma q_C51_ellipsoid h el p gs g vs i is m out : parent_of h el = Some p -> inertia_from h (subnodes h p) (gs ++ [g]) ->
  parts h SInertiaElement p = i :: is -> attribute h i "mass" = PNum m -> gives_all h m gs unit_moments out ->
  kind_of h g = Some (KSem SEllipsoidGeometry) -> attribute h g "values" = PList vs -> length vs <> 1 ->
  encode_inertia_element h el = Exn TypeError.
Proof.
  intros Hp Hg Hi Hm G Hk Hv Hl. unfold encode_inertia_element. rewrite pparent_of, Hp. cbn [r_opt rbind]. rewrite subs_parts, subs_nodes, (inertia_from_eq _ _ _ Hg), Hi.
  cbn [r_map]. unfold encode_one_inertia at 1. rewrite sattr_attr, Hm. rewrite inertia_values_app. change default_inertia with (map PNum unit_moments).
  rewrite (gives_all_values _ _ _ _ _ G). cbn [rbind]. rewrite (ellipsoid_none _ _ _ _ _ _ Hk Hv Hl). done.
Qed.
Lemma inertial_inj m a b : length a = 6 -> length b = 6 -> inertial_xml [(m, a)] = inertial_xml [(m, b)] <-> a = b.
Proof.
  intros La Lb. split; [|by intros ->]. do 7 (destruct a as [|? a]; try done). do 7 (destruct b as [|? b]; try done). unfold inertial_xml, inertia_xml, group, leaf. cbn. intros [= -> -> -> -> -> ->]. done.
Qed.
Lemma q_C51_cylinder h el p g i m R L : parent_of h el = Some p -> inertia_from h (subnodes h p) [g] -> parts h SInertiaElement p = [i] ->
  attribute h i "mass" = PNum m -> cylinder_values h g R L ->
  shape h g (Some (group "cylinder" [leaf "radius" [PV (PNum R)]; leaf "length" [PV (PNum L)]])) /\
  encode_inertia_element h el = Ok [inertial_xml [(m, cylinder_moments m L R)]] /\
  (inertial_xml [(m, cylinder_moments m L R)] = inertial_xml [(m, cylinder_moments m R L)] <-> m = 0%Qc \/ (R * R)%Qc = (L * L)%Qc).
Proof.
  intros Hp Hg Hi Hm Hc. split; [|split].
  - destruct Hc as (Hk & rest & Hv). by apply sh_cylinder with rest.
  - apply (q_C51_emitted h el p [g]); [done|done|by rewrite Hi|]. rewrite Hi. constructor; [|constructor]. split; [done|]. econstructor; [by apply gv_cylinder|constructor].
  - rewrite inertial_inj by done. apply swapped_iff.
Qed.
Lemma q_C51_sphere h el p g i m r : parent_of h el = Some p -> inertia_from h (subnodes h p) [g] -> parts h SInertiaElement p = [i] ->
  attribute h i "mass" = PNum m -> sphere_values h g r ->
  shape h g (Some (group "sphere" [leaf "radius" [PV (PNum r)]])) /\ encode_inertia_element h el = Ok [inertial_xml [(m, sphere_moments m r)]].
Proof.
  intros Hp Hg Hi Hm Hc. split.
  - destruct Hc as (Hk & Hv). by apply sh_sphere.
  - apply (q_C51_emitted h el p [g]); [done|done|by rewrite Hi|]. rewrite Hi. constructor; [|constructor]. split; [done|]. econstructor; [by apply gv_sphere|constructor].
Qed.
Lemma q_C51_default h el p i m : parent_of h el = Some p -> parts h SInertiaElement p = [i] -> attribute h i "mass" = PNum m ->
  forall gs, inertia_from h (subnodes h p) gs -> Forall (fun g => kind_of h g = Some (KSem SPolyhedronGeometry)) gs ->
  encode_inertia_element h el = Ok [inertial_xml [(m, unit_moments)]].
Proof.
  intros Hp Hi Hm gs Hg F. apply (q_C51_emitted h el p gs); [done|done|by rewrite Hi|]. rewrite Hi. constructor; [|constructor]. split; [done|]. cbn [fst snd].
  clear Hg. induction F as [|g gs H _ IH]; [constructor|]. econstructor; [by apply gv_box|done].
Qed.
(** the geometry encoding as a whole *)
Lemma q_geometry_short h g vs : kind_of h g = Some (KSem SCylinderGeometry) -> attribute h g "values" = PList vs -> length vs < 2 -> encode_typegeometry_element h g = Exn IndexError.
Proof.
  intros Hk Hv Hl. unfold encode_typegeometry_element. rewrite (pkind_of _ _ _ Hk), sattr_attr, Hv. destruct vs as [|a [|b vs]]; [done|done|simpl in Hl; lia].
Qed.
Lemma q_geometry_total h g vs : is_geometry h g -> attribute h g "values" = PList vs ->
  (exists o, shape h g o) \/ (kind_of h g = Some (KSem SCylinderGeometry) /\ length vs < 2).
Proof.
  intros [Hk|[Hk|Hk]] Hv.
  - destruct vs as [|a [|b vs]]; [right; simpl; auto|right; simpl; auto|left]. eexists. by eapply sh_cylinder.
  - left. destruct vs as [|a [|b vs]]; eexists; [by apply sh_no_radii|by apply sh_sphere|by eapply sh_ellipsoid].
  - left. destruct vs as [|a [|b [|c [|d vs]]]]; eexists; [eapply sh_no_box; [done|done|by left]|by apply sh_cube|by eapply sh_flat|by eapply sh_box|].
    eapply sh_no_box; [done|done|right; simpl; lia].
Qed.
Lemma q_geometry_empty h n p gs g own : Forall2 (shape h) (geometries h n) own -> ports_of h n = p :: gs -> 
  forall r, refers h p r -> head r = Some g -> shape h g None -> extract_geometry_element h n = Exn TypeError.
Proof.
  intros H1 Hp r R Hr Hs. unfold extract_geometry_element. rewrite subs_geometries, (own_geom _ _ _ H1). cbn [rbind]. rewrite ports_subs, Hp. cbn [r_map].
  assert (Hk : kind_of h p = Some KPort).
  { assert (p ∈ ports_of h n) as H by (rewrite Hp; left). unfold ports_of in H. apply elem_of_list_filter in H. tauto. }
  enough (port_geometries h p = Exn TypeError) as -> by done.
  destruct R as [r e ns Hp' Hr' He Hn]. unfold port_geometries. rewrite (pendpoint_of _ _ _ Hp' (or_intror Hk)). cbn [rbind].
  rewrite pparent_of, Hr'. cbn [rbind r_opt]. rewrite (out_rels_eq _ _ He). cbn [rbind].
  assert (Hrel : Forall (fun y => kind_of h y = Some KRel) (outgoing_of h e)).
  { apply Forall_forall. intros y Hy. unfold outgoing_of in Hy. apply elem_of_list_filter in Hy. tauto. }
  enough (E : r_map (fun x => rbind (pendpoint h x) (fun n => r_map (ref_geometry h) (flat_map (subs_of h k_geometry) (subs_of h k_node n)))) (outgoing_of h e) = Exn TypeError) by (by rewrite E).
  induction Hn as [|x m rs ns Hx _ IH]; [done|]. apply Forall_cons in Hrel as [Hk1 Hrel]. cbn [r_map]. rewrite (pendpoint_of _ _ _ Hx (or_introl Hk1)). cbn [rbind].
  rewrite refs_geoms. cbn [flat_map] in Hr. destruct (flat_map (geometries h) (subnodes h m)) as [|g' l].
  - cbn [r_map rbind]. by rewrite (IH Hr Hrel).
  - cbn [app head] in Hr. injection Hr as ->. cbn [r_map]. unfold ref_geometry at 1. by rewrite (shape_enc _ _ _ Hs).
Qed.
