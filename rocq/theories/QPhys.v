(** * Proofs about the SDF export *)
From stdpp Require Import relations.
From Verif Require Import Spec Hierarchy Elements Factory History Phys SpecPhys PDict PPath PWF PReach QFac2.

Lemma subs_filter h (f : kind -> bool) (P : loc -> Prop) {HP : forall y, Decision (P y)} x :
  (forall y, P y <-> exists k, kind_of h y = Some k /\ f k = true) -> subs_of h f x = filter P (children h x).
Proof.
  intros H. unfold subs_of, children. destruct (h !! x) as [o|]; [|done]. rewrite List_filter_stdpp. apply filter_ext_in. intros y _.
  rewrite H. unfold kind_of. destruct (h !! y) as [oy|]; simpl; split.
  - intros E. exists (o_kind oy). split; [done|]. by destruct (f (o_kind oy)).
  - intros (k & E & Hf). injection E as <-. by rewrite Hf.
  - intros E. done.
  - intros (k & E & _). done.
Qed.
Lemma subs_nodes h x : subs_of h k_node x = subnodes h x.
Proof.
  apply subs_filter. intros y. split; [intros ->; by exists KNode|]. intros (k & -> & H). by destruct k.
Qed.
Lemma subs_parts h c x : subs_of h (k_sem_is c) x = parts h c x.
Proof.
  apply subs_filter. intros y. split; [intros ->; exists (KSem c); simpl; by rewrite bool_decide_true|].
  intros (k & -> & H). destruct k; try done. simpl in H. apply bool_decide_eq_true in H. by subst.
Qed.
Lemma subs_geometries h x : subs_of h k_geometry x = geometries h x.
Proof.
  apply subs_filter. intros y. unfold is_geometry. split.
  - by intros [->|[->| ->]]; eexists.
  - intros (k & -> & H). destruct k as [| | | | | | |[]]; try done; auto.
Qed.
Lemma sattr_attr h x k : sattr h x k = attribute h x k.
Proof. unfold sattr, attribute, attr_of. by destruct (h !! x). Qed.
Lemma pparent_of h x : pparent h x = parent_of h x.
Proof. unfold pparent, parent_of. by destruct (h !! x). Qed.
Lemma pkind_of h x k : kind_of h x = Some k -> pkind h x = k.
Proof. unfold pkind, kind_of. destruct (h !! x); [by intros [= <-]|done]. Qed.
Lemma pname_of h x : pname h x = name_of h x.
Proof. unfold pname, name_of. by destruct (h !! x). Qed.

(** ** C51 *)
Local Open Scope Qc_scope.
Lemma list6 (a b c a' b' c' : Qc) : a = a' -> b = b' -> c = c' -> [a; b; c; 0; 0; 0] = [a'; b'; c'; 0; 0; 0].
Proof. by intros -> -> ->. Qed.
Lemma cylinder_eq m r l : [Q2Qc (QArith_base.Qmake 1 12) * m * (Q2Qc (QArith_base.Qmake 3 1) * r * r + l * l);
   Q2Qc (QArith_base.Qmake 1 12) * m * (Q2Qc (QArith_base.Qmake 3 1) * r * r + l * l); Q2Qc (QArith_base.Qmake 1 2) * m * r * r; 0; 0; 0] = cylinder_moments m r l.
Proof.
  unfold cylinder_moments. assert (Q2Qc (QArith_base.Qmake 1 12) = / Q2Qc (QArith_base.Qmake 12 1)) as -> by (by apply Qc_is_canon).
  assert (Q2Qc (QArith_base.Qmake 1 2) = / Q2Qc (QArith_base.Qmake 2 1)) as -> by (by apply Qc_is_canon).
  unfold Qcdiv. cbv zeta. apply list6; ring.
Qed.
Lemma sphere_eq m r : [Q2Qc (QArith_base.Qmake 2 5) * m * r * r; Q2Qc (QArith_base.Qmake 2 5) * m * r * r; Q2Qc (QArith_base.Qmake 2 5) * m * r * r; 0; 0; 0] = sphere_moments m r.
Proof.
  unfold sphere_moments. assert (Q2Qc (QArith_base.Qmake 2 5) = Q2Qc (QArith_base.Qmake 2 1) / Q2Qc (QArith_base.Qmake 5 1)) as -> by (by apply Qc_is_canon).
  unfold Qcdiv. cbv zeta. apply list6; ring.
Qed.
Lemma calc_cyl h g m R L : cylinder_values h g R L -> calc_cylinder_inertia h (PNum m) g = Ok (map PNum (cylinder_moments m L R)).
Proof. intros (Hk & rest & Hv). unfold calc_cylinder_inertia. rewrite sattr_attr, Hv. rewrite <- cylinder_eq. done. Qed.
Lemma calc_sph h g m r : sphere_values h g r -> calc_ellipsoid_inertia h (PNum m) g = Ok (Some (map PNum (sphere_moments m r))).
Proof. intros (Hk & Hv). unfold calc_ellipsoid_inertia. rewrite sattr_attr, Hv. rewrite <- sphere_eq. done. Qed.
Lemma gives_all_values h m gs v out : gives_all h m gs v out -> inertia_values h (PNum m) gs (Some (map PNum v)) = Ok (Some (map PNum out)).
Proof.
  induction 1 as [v|g gs v v1 v2 G _ IH]; [done|]. cbn [inertia_values]. destruct G as [R L Hc|r Hs|Hb].
  - rewrite (pkind_of _ _ _ (proj1 Hc)), (calc_cyl _ _ _ _ _ Hc). exact IH.
  - rewrite (pkind_of _ _ _ (proj1 Hs)), (calc_sph _ _ _ _ Hs). exact IH.
  - rewrite (pkind_of _ _ _ Hb). exact IH.
Qed.
Lemma gives_all_length h m gs v out : gives_all h m gs v out -> length v = 6%nat -> length out = 6%nat.
Proof. induction 1 as [v|g gs v v1 v2 G _ IH]; intros Hl; [done|]. apply IH. by destruct G. Qed.
Lemma inertia_from_eq h ns gs : inertia_from h ns gs -> inertia_geometries h ns = gs.
Proof.
  induction 1 as [|n ns g gs Hg Hn ->|n ns gs Hn _ IH]; [done| |]; cbn [inertia_geometries]; rewrite subs_nodes.
  - destruct (subnodes h n); [done|]. injection Hg as ->. rewrite subs_geometries. by destruct (geometries h g).
  - destruct (subnodes h n) as [|g l]; [done|]. rewrite subs_geometries. by rewrite (Hn g eq_refl).
Qed.
Lemma inertia_from_total h ns : exists gs, inertia_from h ns gs.
Proof.
  induction ns as [|n ns (gs & IH)]; [eexists; constructor|]. destruct (subnodes h n) as [|g l] eqn:E.
  - exists gs. apply if_next; [|done]. by rewrite E.
  - destruct (geometries h g) as [|x xs] eqn:Eg.
    + exists gs. apply if_next; [|done]. rewrite E. by intros ? [= <-].
    + exists (geometries h g). apply (if_first _ _ _ g); [by rewrite E|by rewrite Eg|done].
Qed.
Lemma one_inertia h gs i m out : attribute h i "mass" = PNum m -> gives_all h m gs unit_moments out ->
  encode_one_inertia h gs i = Ok [leaf "mass" [PV (PNum m)]; inertia_xml out].
Proof.
  intros Hm G. unfold encode_one_inertia. rewrite sattr_attr, Hm. change default_inertia with (map PNum unit_moments). rewrite (gives_all_values _ _ _ _ _ G).
  cbn [rbind]. pose proof (gives_all_length _ _ _ _ _ G eq_refl) as Hl. destruct out as [|a [|b [|c [|d [|e [|f [|]]]]]]]; try done.
Qed.
Lemma r_map_ok {A B} (f : A -> res B) l ys : Forall2 (fun x y => f x = Ok y) l ys -> r_map f l = Ok ys.
Proof. induction 1 as [|x y l ys H _ IH]; [done|]. cbn [r_map]. by rewrite H, IH. Qed.
Lemma q_C51_emitted h el p gs l : parent_of h el = Some p -> inertia_from h (subnodes h p) gs -> parts h SInertiaElement p <> [] ->
  Forall2 (fun i x => attribute h i "mass" = PNum x.1 /\ gives_all h x.1 gs unit_moments x.2) (parts h SInertiaElement p) l ->
  encode_inertia_element h el = Ok [inertial_xml l].
Proof.
  intros Hp Hg Hne F. unfold encode_inertia_element. rewrite pparent_of, Hp. cbn [r_opt rbind]. rewrite subs_parts, subs_nodes, (inertia_from_eq _ _ _ Hg).
  assert (E : r_map (encode_one_inertia h gs) (parts h SInertiaElement p) = Ok (map (fun x => [leaf "mass" [PV (PNum x.1)]; inertia_xml x.2]) l)).
  { apply r_map_ok. clear Hne. induction F as [|i x is l [H1 H2] _ IH]; [constructor|]. constructor; [by apply one_inertia|done]. }
  rewrite E. destruct (parts h SInertiaElement p); [done|]. done.
Qed.
Lemma q_C51_none h el p : parent_of h el = Some p -> parts h SInertiaElement p = [] -> encode_inertia_element h el = Ok [].
Proof. intros Hp Hn. unfold encode_inertia_element. rewrite pparent_of, Hp. cbn [r_opt rbind]. by rewrite subs_parts, Hn. Qed.
Lemma cancel_mult (a b : Qc) : a * b = 0 <-> a = 0 \/ b = 0.
Proof. split; [apply Qcmult_integral|]. intros [->| ->]; ring. Qed.
Lemma swapped_iff m R L : cylinder_moments m L R = cylinder_moments m R L <-> m = 0 \/ R * R = L * L.
Proof.
  assert (H12 : Q2Qc (QArith_base.Qmake 12 1) <> 0) by (intros H; apply (f_equal this) in H; done).
  assert (H2 : Q2Qc (QArith_base.Qmake 2 1) <> 0) by (intros H; apply (f_equal this) in H; done).
  split.
  - intros H. unfold cylinder_moments in H. cbv zeta in H. apply (f_equal (fun l : list Qc => nth 2 l 0)) in H. cbn [nth] in H.
    assert (E : m * (R * R - L * L) = 0).
    { assert (m * L * L = m * R * R) as E1.
      { rewrite <- (Qcmult_div_r (m * L * L) _ H2). rewrite H. apply Qcmult_div_r, H2. }
      replace (m * (R * R - L * L)) with (m * R * R - m * L * L) by ring. rewrite E1. ring. }
    apply cancel_mult in E as [->|E]; [by left|right]. replace (R * R) with (R * R - L * L + L * L) by ring. rewrite E. ring.
  - intros [->|E]; unfold cylinder_moments.
    + cbv zeta. apply list6; unfold Qcdiv; ring.
    + assert (m * (Q2Qc (QArith_base.Qmake 3 1) * L * L + R * R) = m * (Q2Qc (QArith_base.Qmake 3 1) * R * R + L * L)) as ->.
      { replace (Q2Qc (QArith_base.Qmake 3 1) * L * L) with (Q2Qc (QArith_base.Qmake 3 1) * (L * L)) by ring.
        replace (Q2Qc (QArith_base.Qmake 3 1) * R * R) with (Q2Qc (QArith_base.Qmake 3 1) * (R * R)) by ring. by rewrite E. }
      assert (m * L * L = m * R * R) as ->; [|done]. replace (m * L * L) with (m * (L * L)) by ring. rewrite <- E. ring.
Qed.
