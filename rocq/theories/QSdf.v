(** * Proofs about the SDF icon *)
From stdpp Require Import relations.
From Verif Require Import Spec Hierarchy Elements Factory History Phys Sdf SpecTrav SpecTensor SpecFact SpecQuery SpecPhys SpecPhys2 SpecKin SpecSdf PDict PPath PWF PReach QFac2 QFact4 QQuery2 QPhys QPhys2 QKin.

Lemma put_nil ic : put [] ic = ic.
Proof.
  destruct ic as [ms [i|] c]; unfold put; simpl; [|by rewrite app_nil_r]. f_equal. rewrite <- (list_alter_id (fun m => m) ms i) at 2; [|done].
  apply list_alter_ext; [|done]. intros [n k] _. simpl. by rewrite app_nil_r.
Qed.
Lemma put_app xs ys ic : put (xs ++ ys) ic = put ys (put xs ic).
Proof.
  destruct ic as [ms [i|] c]; unfold put; simpl; [|by rewrite app_assoc]. f_equal. rewrite <- list_alter_compose. apply list_alter_ext; [|done].
  intros [n k] _. simpl. by rewrite app_assoc.
Qed.
Lemma add_put x ic : add_model_element x ic = put [x] ic.
Proof. done. Qed.
Lemma of_class_sem c s els : of_class c s els = of_sem (heap s) c els.
Proof.
  unfold of_class, of_sem. rewrite List_filter_stdpp. apply filter_ext_in. intros x _. unfold of_kind, kind_of. destruct (heap s !! x) as [o|]; simpl.
  - destruct (o_kind o) as [| | | | | | |c']; simpl; try naive_solver. rewrite bool_decide_eq_true. naive_solver.
  - naive_solver.
Qed.
Lemma sem_kind h c x els : x ∈ of_sem h c els -> pkind h x = KSem c.
Proof. unfold of_sem. intros H%elem_of_list_filter. apply pkind_of. tauto. Qed.
Lemma each_entities rad s els prefix ic : (forall x, x ∈ els -> pkind (heap s) x = KSem SCognitiveEntity) ->
  encode_each rad s els prefix ic = (Ok tt, fold_left open_model (map (name_of (heap s)) els) ic).
Proof.
  revert ic. induction els as [|x els IH]; intros ic H; [done|]. cbn [encode_each map fold_left]. unfold encode_element. rewrite (H x) by left. rewrite pname_of. apply IH.
  intros y Hy. apply H. by right.
Qed.
Lemma inertia_enc h el is : inertia_of h el is -> encode_inertia_element h el = Ok is.
Proof. intros I. destruct I; [by eapply q_C51_none|by eapply q_C51_emitted]. Qed.
Lemma each_links rad s els prefix ic xs : reach s -> (forall x, x ∈ els -> pkind (heap s) x = KSem SKinematicLink) -> Forall2 (whole_link rad (heap s) prefix) els xs ->
  encode_each rad s els prefix ic = (Ok tt, put xs ic).
Proof.
  intros R H F. revert ic. induction F as [|el x els xs (attrs & kids & is & L & I & ->) _ IH]; intros ic; [by rewrite put_nil|].
  cbn [encode_each]. unfold encode_element. rewrite (H el) by left. rewrite (q_link rad s prefix el _ R L), (inertia_enc _ _ _ I). rewrite IH by (intros y Hy; apply H; by right).
  change (?x :: xs) with ([x] ++ xs). rewrite put_app. done.
Qed.
Lemma omap_parent h (l : list loc) : omap (pparent h) l = omap (parent_of h) l.
Proof. induction l as [|x l IH]; [done|]. cbn [omap list_omap]. by rewrite IH, pparent_of. Qed.
Lemma is_graph_false h n : parts h SKinematicGraph n = [] -> is_kinematic_graph h n = false.
Proof. intros H. unfold is_kinematic_graph. rewrite subs_parts, H. by rewrite bool_decide_true. Qed.
Lemma is_graph_true h n : parts h SKinematicGraph n <> [] -> is_kinematic_graph h n = true.
Proof. intros H. unfold is_kinematic_graph. rewrite subs_parts. by rewrite bool_decide_false. Qed.
Lemma joints_flat lim rad s ps prefix xs ic : (forall jj, jj ∈ ps -> kind_of (heap s) jj.1 = Some KRel /\ kind_of (heap s) jj.2 = Some KRel) ->
  Forall2 (plain_joint rad (heap s) prefix) ps xs ->
  joints_run lim rad s ps prefix ic (Ok tt) (put xs ic) /\ forall r ic', joints_run lim rad s ps prefix ic r ic' -> r = Ok tt /\ ic' = put xs ic.
Proof.
  intros Hk F. revert ic. induction F as [|[j0 j1] x ps xs (n0 & n1 & d & H0 & H1 & Hd & Hg & Hx) _ IH]; intros ic.
  - rewrite put_nil. split; [constructor|]. intros r ic' J. inversion J. done.
  - cbn [fst snd] in *. destruct (Hk (j0, j1)) as [K0 K1]; [left|]. cbn [fst snd] in *. specialize (IH (fun jj Hj => Hk jj (elem_of_list_further _ _ _ Hj)) (add_model_element x ic)) as [IH1 IH2].
    pose proof (pendpoint_of _ _ _ H1 (or_introl K1)) as E1. pose proof (is_graph_false _ _ Hg) as E2. pose proof (q_joint rad (heap s) j0 j1 d n0 n1 prefix x H0 K0 H1 K1 Hd Hx) as E3.
    change (x :: xs) with ([x] ++ xs). rewrite put_app. split; [by eapply jr_plain|].
    intros r ic' J. inversion J; subst; try congruence; try (by apply IH2; assert (x0 = x) as <- by congruence). 
Qed.
Lemma q_flat lim rad s els prefix ic lx jx : reach s -> 
  Forall2 (whole_link rad (heap s) prefix) (of_sem (heap s) SKinematicLink els) lx ->
  rels_complete (heap s) (joint_rels (heap s) els) -> balanced (heap s) (joint_rels (heap s) els) ->
  Forall2 (plain_joint rad (heap s) prefix) (rel_pairs (heap s) false (joint_rels (heap s) els)) jx ->
  let ic' := put (lx ++ jx) (fold_left open_model (map (name_of (heap s)) (of_sem (heap s) SCognitiveEntity els)) ic) in
  encode_run lim rad s els prefix ic (Ok tt) ic' /\ forall r ic1, encode_run lim rad s els prefix ic r ic1 -> r = Ok tt /\ ic1 = ic'.
Proof.
  intros R FL HC HB FJ.
  set (sel := omap (parent_of (heap s)) (of_sem (heap s) SKinematicLink els) ++ omap (parent_of (heap s)) (of_sem (heap s) SKinematicJoint els)).
  assert (Hsel : selected (heap s) KRel sel = joint_rels (heap s) els) by done.
  assert (HC' : rels_complete (heap s) sel).
  { intros r Hr Hk. apply (HC r); [|done]. unfold joint_rels, selected. apply elem_of_list_filter. done. }
  assert (Hss : selected (heap s) KRel (joint_rels (heap s) els) = joint_rels (heap s) els).
  { unfold joint_rels, selected. rewrite list_filter_filter. apply list_filter_iff. intros x. tauto. }
  assert (HB' : balanced (heap s) sel) by (unfold balanced in *; by rewrite Hss in HB; rewrite Hsel).
  destruct (r_C39 false sel s R HC') as (P & _ & Pin). specialize (P HB'). rewrite Hsel in P, Pin.
  assert (EP : joint_pairs s els = Ok (rel_pairs (heap s) false (joint_rels (heap s) els))).
  { unfold joint_pairs. by rewrite !of_class_sem, !omap_parent. }
  assert (EN : encode_nodes rad s els prefix ic = (Ok tt, put lx (fold_left open_model (map (name_of (heap s)) (of_sem (heap s) SCognitiveEntity els)) ic))).
  { unfold encode_nodes. rewrite !of_class_sem, each_entities by (intros x Hx; by eapply sem_kind). apply each_links; [done| |done]. intros x Hx. by eapply sem_kind. }
  assert (HK : forall jj, jj ∈ rel_pairs (heap s) false (joint_rels (heap s) els) -> kind_of (heap s) jj.1 = Some KRel /\ kind_of (heap s) jj.2 = Some KRel).
  { intros [i o] Hj. apply Pin in Hj as (H1 & H2 & _). unfold joint_rels, selected in H1, H2. apply elem_of_list_filter in H1, H2. tauto. }
  destruct (joints_flat lim rad s _ prefix jx (put lx (fold_left open_model (map (name_of (heap s)) (of_sem (heap s) SCognitiveEntity els)) ic)) HK FJ) as [J1 J2].
  rewrite <- put_app in J1, J2. split; [by eapply er_joints|]. intros r ic1 E. inversion E; subst; try congruence.
  - assert (ps = rel_pairs (heap s) false (joint_rels (heap s) els)) as -> by congruence. match goal with H : encode_nodes _ _ _ _ _ = (Ok tt, ?i) |- _ => rewrite EN in H; injection H as <- end. by apply J2.
  - assert (ps = rel_pairs (heap s) false (joint_rels (heap s) els)) as -> by congruence. match goal with H : encode_nodes _ _ _ _ _ = (Ok tt, ?i) |- _ => rewrite EN in H; injection H as <- end.
    match goal with H : joints_run _ _ _ _ _ _ (Exn e) _ |- _ => apply J2 in H as [? _] end. done.
Qed.
