(** * Proofs about the SDF icon: sub-graphs *)
From stdpp Require Import relations.
From Verif Require Import Spec Hierarchy Elements Factory History Phys Sdf SpecTrav SpecTensor SpecFact SpecQuery SpecPhys SpecPhys2 SpecKin SpecSdf PDict PPath PWF PReach QFac2 QFact4 QQuery2 QPhys QPhys2 QKin QSdf.

Lemma sapp_inj (a b c : string) : a +:+ b = a +:+ c -> b = c.
Proof. induction a as [|x a IH]; simpl; [done|]. intros [= H]. by apply IH. Qed.
Lemma two_names_vals nm : dvals (two_names nm) = [0; 1].
Proof.
  unfold two_names, add_query, dset. cbn. destruct (decide _) as [E|E]; [|done]. exfalso. apply sapp_inj in E. done.
Qed.
Lemma through_ext f g h a y : (forall l, accepts f h l = accepts g h l) -> through f h a y -> through g h a y.
Proof. intros E. induction 1; [apply through_kid|eapply through_step]; try done; by rewrite <- E. Qed.
Lemma class_accepts c g h l : accepts (q_filter (class_query c g)) h l = accepts (fun _ o => q_kinds (o_kind o)) h l.
Proof. unfold accepts. destruct (h !! l); [|done]. unfold q_filter. simpl. by rewrite andb_true_r. Qed.
Lemma class_through c g h a y : through (q_filter (class_query c g)) h a y <-> through (fun _ o => q_kinds (o_kind o)) h a y.
Proof. split; apply through_ext; intros l; by rewrite class_accepts. Qed.
Lemma class_visits c c' g h x : q_visits h (class_query c g) x <-> q_visits h (class_query c' g) x.
Proof. unfold q_visits. by rewrite !class_accepts, !class_through. Qed.
Lemma class_part s g c x : kind_of (heap s) g = Some KNode -> q_visits (heap s) (class_query c g) x /\ q_matches s (class_query c g) x <-> in_graph (heap s) g c x.
Proof.
  intros Hg. unfold in_graph, q_visits, q_matches. rewrite class_through. cbn [q_start class_query new_query q_prep]. unfold class_prep, of_kind.
  assert (M : Ok (match heap s !! x with Some o => k_sem_is c (o_kind o) | None => false end) = Ok true <-> kind_of (heap s) x = Some (KSem c)).
  { unfold kind_of. destruct (heap s !! x) as [o|]; [|naive_solver]. simpl. destruct (o_kind o) as [| | | | | | |c']; simpl; try naive_solver.
    split; [intros [= H%bool_decide_eq_true]; by subst|intros [= ->]; f_equal; by apply bool_decide_eq_true]. }
  rewrite M. split; [|tauto]. intros [[[-> _]|H] K]; [congruence|done].
Qed.
Lemma sub_query_spec lim s g nm : reach s -> kind_of (heap s) g = Some KNode -> graph_fits (heap s) lim g ->
  (exists r, sub_query lim s g nm r) /\
  forall r, sub_query lim s g nm r -> exists ls js, r = Ok (ls ++ js) /\ NoDup ls /\ NoDup js /\
    (forall x, x ∈ ls <-> in_graph (heap s) g SKinematicLink x) /\ (forall x, x ∈ js <-> in_graph (heap s) g SKinematicJoint x).
Proof.
  intros R Hg Hf. assert (Hx : exists_in (heap s) g) by (unfold kind_of in Hg; destruct (heap s !! g) eqn:E; [by eexists|done]).
  destruct (q_C43 s R lim (two_names nm) (two_queries g)) as [Q _].
  - rewrite two_names_vals. repeat constructor; set_solver.
  - rewrite two_names_vals. intros i Hi. rewrite !elem_of_cons, elem_of_nil in Hi. destruct Hi as [->|[->|[]]]; eexists; (split; [reflexivity|]); (split; [exact Hx|]).
    + split; [exact Hf|]. split; [intros t Ht; by apply elem_of_nil in Ht|done].
    + split; [|split; [intros t Ht; by apply elem_of_nil in Ht|done]]. intros l Hl Hv. apply Hf; [done|]. intros x Hxl. apply (class_visits _ SKinematicJoint). by apply Hv.
  - destruct Q as [Q1 Q2].
    { exists 0, (class_query SKinematicLink g), g. rewrite two_names_vals. split; [left|]. split; [done|]. left. split; [done|]. rewrite class_accepts. unfold accepts, kind_of in *.
      destruct (heap s !! g) as [o|]; [|done]. simpl in Hg. by injection Hg as ->. }
    split.
    { destruct Q1 as (r & s' & qs' & Q1). exists r, s', qs'. done. }
    intros r (s' & qs' & E). destruct (Q2 _ _ _ E) as (_ & (parts & -> & F) & _). rewrite two_names_vals in F.
    inversion F as [|? p0 ? ps P0 F1]; subst. inversion F1 as [|? p1 ? ps' P1 F2]; subst. inversion F2; subst.
    destruct P0 as (q0 & [= <-] & N0 & P0). destruct P1 as (q1 & [= <-] & N1 & P1). exists p0, p1.
    split. { cbn. by rewrite app_nil_r. } split; [done|]. split; [done|]. split; intros x; [rewrite P0|rewrite P1]; by apply class_part.
Qed.
Lemma of_sem_all h c l : (forall x, x ∈ l -> kind_of h x = Some (KSem c)) -> of_sem h c l = l.
Proof. intros H. unfold of_sem. induction l as [|x l IH]; [done|]. rewrite filter_cons_True by (apply H; left). f_equal. apply IH. intros y Hy. apply H. by right. Qed.
Lemma of_sem_none h c c' l : c <> c' -> (forall x, x ∈ l -> kind_of h x = Some (KSem c')) -> of_sem h c l = [].
Proof.
  intros Hc H. unfold of_sem. induction l as [|x l IH]; [done|]. rewrite filter_cons_False; [apply IH; intros y Hy; apply H; by right|]. rewrite (H x) by left. congruence.
Qed.
Lemma remove_dups_nodup (l : list loc) : NoDup l -> remove_dups l = l.
Proof. induction 1 as [|x l Hx _ IH]; [done|]. cbn [remove_dups]. destruct (decide_rel _ x l); [done|]. by rewrite IH. Qed.
Lemma outgoing_rels h e : Forall (fun y => kind_of h y = Some KRel) (outgoing_of h e).
Proof. apply Forall_forall. intros y Hy. unfold outgoing_of in Hy. apply elem_of_list_filter in Hy. tauto. Qed.
Lemma drop_driven_eq h js : (forall j, j ∈ js -> exists r e, parent_of h j = Some r /\ parent_of h r = Some e /\ kind_of h e = Some KEdge /\ forall x, x ∈ outgoing_of h e -> is_Some (ep_of h x)) ->
  forall links, exists out, drop_driven h js links = Ok out /\ (NoDup links -> NoDup out) /\ forall l, l ∈ out <-> l ∈ links /\ forall j, j ∈ js -> ~ drives h j l.
Proof.
  induction js as [|j js IH]; intros H links.
  - exists links. split; [done|]. split; [done|]. intros l. split; [|tauto]. intros Hl. split; [done|]. intros j Hj. by apply elem_of_nil in Hj.
  - destruct (H j) as (r & e & Hr & He & Hk & Hc); [left|]. cbn [drop_driven]. rewrite pparent_of, Hr. cbn [r_opt rbind]. rewrite pparent_of, He. cbn [r_opt rbind].
    rewrite (out_rels_eq _ _ Hk). cbn [rbind]. rewrite (map_eps _ _ Hc (outgoing_rels _ _)). cbn [rbind].
    set (l1 := List.filter _ links). destruct (IH (fun j' Hj' => H j' (elem_of_list_further _ _ _ Hj')) l1) as (out & E & N & Ho). exists out. split; [done|].
    assert (D : forall l, l ∈ flat_map (subs_of h (k_sem_is SKinematicLink)) (omap (ep_of h) (outgoing_of h e)) <-> drives h j l).
    { intros l. rewrite elem_of_list_In, in_flat_map. split.
      - intros (n & Hn & Hl). rewrite subs_parts in Hl. apply elem_of_list_In in Hl. apply elem_of_list_In, elem_of_list_omap in Hn as (x & Hx & Hn). by exists r, e, x, n.
      - intros (r' & e' & x & n & Hr' & He' & Hx & Hn & Hl). assert (r' = r) as -> by congruence. assert (e' = e) as -> by congruence. exists n. split.
        + apply elem_of_list_In, elem_of_list_omap. by exists x.
        + rewrite subs_parts. by apply elem_of_list_In. }
    assert (Hl1 : forall l, l ∈ l1 <-> l ∈ links /\ ~ drives h j l).
    { intros l. unfold l1. rewrite List_filter_stdpp, elem_of_list_filter, negb_true_iff, bool_decide_eq_false, D. tauto. }
    split.
    + intros Hn. apply N. unfold l1. rewrite List_filter_stdpp. by apply NoDup_filter.
    + intros l. rewrite Ho, Hl1. split.
      * intros [[H1 H2] H3]. split; [done|]. intros j' Hj'. apply elem_of_cons in Hj' as [->|Hj']; [done|by apply H3].
      * intros [H1 H2]. split; [split; [done|apply H2; left]|]. intros j' Hj'. apply H2. by right.
Qed.
Lemma q_canonical lim s g : reach s -> kind_of (heap s) g = Some KNode -> graph_fits (heap s) lim g -> joints_ok (heap s) g ->
  (exists r, canonical_run lim s g r) /\
  forall r, canonical_run lim s g r -> exists ls, r = Ok ls /\ NoDup ls /\ forall l, l ∈ ls <-> canonical (heap s) g l.
Proof.
  intros R Hg Hf Hj. destruct (sub_query_spec lim s g (pname (heap s) g) R Hg Hf) as [[r Q] QA].
  assert (C : forall els, sub_query lim s g (pname (heap s) g) (Ok els) -> exists ls, drop_driven (heap s) (of_class SKinematicJoint s els) (remove_dups (of_class SKinematicLink s els)) = Ok ls /\ NoDup ls /\ forall l, l ∈ ls <-> canonical (heap s) g l).
  { intros els Q'. destruct (QA _ Q') as (ls & js & [= ->] & Nl & Nj & Pl & Pj).
    assert (Kl : forall x, x ∈ ls -> kind_of (heap s) x = Some (KSem SKinematicLink)) by (intros x Hx; apply Pl in Hx as [_ ?]; done).
    assert (Kj : forall x, x ∈ js -> kind_of (heap s) x = Some (KSem SKinematicJoint)) by (intros x Hx; apply Pj in Hx as [_ ?]; done).
    rewrite !of_class_sem.
    assert (of_sem (heap s) SKinematicJoint (ls ++ js) = js) as ->. { unfold of_sem. rewrite filter_app. fold (of_sem (heap s) SKinematicJoint ls) (of_sem (heap s) SKinematicJoint js). rewrite (of_sem_none _ SKinematicJoint SKinematicLink ls), (of_sem_all _ _ js); done. }
    assert (of_sem (heap s) SKinematicLink (ls ++ js) = ls) as ->. { unfold of_sem. rewrite filter_app. fold (of_sem (heap s) SKinematicLink ls) (of_sem (heap s) SKinematicLink js). rewrite (of_sem_none _ SKinematicLink SKinematicJoint js), (of_sem_all _ _ ls); [by rewrite app_nil_r|done..]. }
    rewrite (remove_dups_nodup ls Nl). destruct (drop_driven_eq (heap s) js) with (links := ls) as (out & E & N & Ho).
    { intros j Hjs. apply Hj. by apply Pj. }
    exists out. split; [done|]. split; [by apply N|]. intros l. rewrite Ho, Pl. unfold canonical. split; intros [H1 H2]; (split; [done|]); intros j Hjs; apply H2; by apply Pj. }
  split.
  - destruct (QA _ Q) as (ls & js & -> & _). eexists. by eapply can_done.
  - intros r' CR. destruct CR as [e Q'|els Q'].
    + destruct (QA _ Q') as (? & ? & ? & _). done.
    + by apply C.
Qed.
Lemma join3 a b c prefix : join_prefix [a; b; c] prefix = xml_name prefix (a +:+ "." +:+ b +:+ "." +:+ c).
Proof. unfold join_prefix, xml_name. destruct (decide (prefix = "")); reflexivity. Qed.
Lemma connect_enc rad s j0 j1 l prefix d n0 e x : parent_of (heap s) j1 = Some e -> ep_of (heap s) j0 = Some n0 -> kind_of (heap s) j0 = Some KRel -> joint_of (heap s) j1 d ->
  joint_xml rad (heap s) d n0 (xml_name prefix (name_of (heap s) e +:+ ".connect." +:+ name_of (heap s) l)) (name_of (heap s) e +:+ "." +:+ name_of (heap s) l) prefix x ->
  connect_element rad s j0 j1 l prefix = Ok x.
Proof.
  intros He H0 K0 Hd Hx. unfold connect_element. rewrite subs_parts, Hd. cbn [r_opt rbind]. rewrite join3. unfold edge_name. rewrite pparent_of, He, !pname_of. by apply (joint_endpoint_enc rad (heap s) j0 j1 d n0).
Qed.
Lemma joint_type_ex h d : exists t, joint_type_of h d t.
Proof. unfold joint_type_of. destruct (attribute h d "joint_type") as [| |t| |]; try (exists "fixed"; right; done). destruct (decide (t = "rev")) as [->|N]; [exists "revolute"; by left|exists "fixed"; right; split; [congruence|done]]. Qed.
Lemma joint_ready_xml rad h d n0 nm child prefix : joint_ready rad h d -> exists x, joint_xml rad h d n0 nm child prefix x.
Proof. intros [(a & b & c & Ha) (poses & Hp)]. destruct (joint_type_ex h d) as [t Ht]. eexists. exists a, b, c, t, poses. split; [exact Ha|]. split; [exact Ht|]. split; [exact Hp|]. reflexivity. Qed.
Section nested.
  Context (lim : nat) (rad : Qc) (s : st) (R : reach s) (j0 j1 n0 e g d : loc) (L : leads_to_graph rad (heap s) j0 j1 n0 e g d) (F : graph_fits (heap s) lim g).
  Notation h := (heap s).
  Lemma nested_ep : pendpoint h j1 = Ok g.
  Proof. destruct (lg_j1 _ _ _ _ _ _ _ _ L) as (K & E & _). by apply pendpoint_of; [|left]. Qed.
  Lemma nested_is : is_kinematic_graph h g = true.
  Proof. apply is_graph_true. apply (lg_graph _ _ _ _ _ _ _ _ L). Qed.
  Lemma nested_connect l prefix : exists x, connecting_joint rad h prefix d n0 e l x /\ connect_element rad s j0 j1 l prefix = Ok x.
  Proof.
    destruct (lg_joint _ _ _ _ _ _ _ _ L) as [Hd Hr]. destruct (joint_ready_xml rad h d n0 (xml_name prefix (name_of h e +:+ ".connect." +:+ name_of h l)) (name_of h e +:+ "." +:+ name_of h l) prefix Hr) as [x Hx].
    exists x. split; [done|]. destruct (lg_j1 _ _ _ _ _ _ _ _ L) as (_ & _ & He). destruct (lg_j0 _ _ _ _ _ _ _ _ L) as [K0 E0]. by apply (connect_enc rad s j0 j1 l prefix d n0 e).
  Qed.
  Lemma nested_prefix prefix : sub_prefix h j1 prefix = prefix +:+ name_of h e.
  Proof. unfold sub_prefix, edge_name. destruct (lg_j1 _ _ _ _ _ _ _ _ L) as (_ & _ & He). by rewrite pparent_of, He, pname_of. Qed.
  Lemma nested_can r : canonical_run lim s g r -> exists ls, r = Ok ls /\ NoDup ls /\ forall l, l ∈ ls <-> canonical h g l.
  Proof. apply q_canonical; [done|apply (lg_graph _ _ _ _ _ _ _ _ L)|done|apply (lg_ok _ _ _ _ _ _ _ _ L)]. Qed.
  Lemma nested_can_ex : exists ls, canonical_run lim s g (Ok ls) /\ forall l, l ∈ ls <-> canonical h g l.
  Proof.
    destruct (q_canonical lim s g R (proj1 (lg_graph _ _ _ _ _ _ _ _ L)) F (lg_ok _ _ _ _ _ _ _ _ L)) as [[r C] _]. destruct (nested_can r C) as (ls & -> & _ & H). by exists ls.
  Qed.
  Lemma nested_sub nm r : sub_query lim s g nm r -> exists els, r = Ok els /\ graph_elements h g els.
  Proof. intros Q. destruct (sub_query_spec lim s g nm R (proj1 (lg_graph _ _ _ _ _ _ _ _ L)) F) as [_ QA]. destruct (QA _ Q) as (ls & js & -> & H). eexists. split; [done|]. by exists ls, js. Qed.
  Lemma nested_sub_ex nm : exists els, sub_query lim s g nm (Ok els) /\ graph_elements h g els.
  Proof. destruct (sub_query_spec lim s g nm R (proj1 (lg_graph _ _ _ _ _ _ _ _ L)) F) as [[r Q] _]. destruct (nested_sub nm r Q) as (els & -> & H). by exists els. Qed.

  Lemma q_no_canonical ps prefix ic : (forall l, ~ canonical h g l) ->
    joints_run lim rad s ((j0, j1) :: ps) prefix ic (Exn KeyError) ic /\ forall r ic', joints_run lim rad s ((j0, j1) :: ps) prefix ic r ic' -> r = Exn KeyError /\ ic' = ic.
  Proof.
    intros N. split.
    - destruct nested_can_ex as (ls & C & H). destruct ls as [|l ls]; [|by destruct (N l (proj1 (H l) (elem_of_list_here _ _)))]. eapply jr_no_canonical; [apply nested_ep|apply nested_is|done].
    - intros r ic' J. pose proof nested_ep as EE. pose proof nested_is as EI.
      inversion J; subst; try congruence; repeat match goal with H : pendpoint h j1 = Ok ?m |- _ => rewrite EE in H; injection H as <- end; try congruence;
        match goal with H : canonical_run _ _ _ _ |- _ => destruct (nested_can _ H) as (ls' & E & _ & HH); try discriminate; try (by split) end;
        injection E as ->; match goal with H : ?y ∈ _ |- _ => by destruct (N y (proj1 (HH y) H)) end.
  Qed.
  Lemma q_nested_ok ps prefix ic ic' : joints_run lim rad s ((j0, j1) :: ps) prefix ic (Ok tt) ic' ->
    exists l x els ic1, canonical h g l /\ connecting_joint rad h prefix d n0 e l x /\ graph_elements h g els /\
      encode_run lim rad s els (prefix +:+ name_of h e) (put [x] ic) (Ok tt) ic1 /\ joints_run lim rad s ps prefix ic1 (Ok tt) ic'.
  Proof.
    intros J. pose proof nested_ep as EE. pose proof nested_is as EI.
    inversion J; subst; repeat match goal with H : pendpoint h j1 = Ok ?m |- _ => rewrite EE in H; injection H as <- end; try congruence.
    match goal with H : canonical_run _ _ _ _ |- _ => destruct (nested_can _ H) as (ls' & E & _ & HH) end. injection E as ->.
    match goal with H : sub_query _ _ _ _ _ |- _ => destruct (nested_sub _ _ H) as (els' & E & Hels) end. injection E as ->.
    match goal with H : encode_run _ _ _ _ _ _ _ _ |- _ => rewrite nested_prefix in H end.
    exists l, x, els', ic1. split; [by apply HH|]. split; [|done].
    destruct (nested_connect l prefix) as (x' & Hx' & Ex'). assert (x' = x) as -> by congruence. done.
  Qed.
  (** any canonical link may be chosen *)
  Lemma q_nested_any l x prefix ic : canonical h g l -> connecting_joint rad h prefix d n0 e l x ->
    exists els, graph_elements h g els /\ forall ps ic1 r ic', encode_run lim rad s els (prefix +:+ name_of h e) (put [x] ic) (Ok tt) ic1 -> joints_run lim rad s ps prefix ic1 r ic' ->
      joints_run lim rad s ((j0, j1) :: ps) prefix ic r ic'.
  Proof.
    intros Hl Hx. destruct (nested_sub_ex (pname h j1)) as (els & Q & Hels). exists els. split; [done|]. intros ps ic1 r ic' HE HJ.
    destruct nested_can_ex as (ls & C & H). eapply jr_graph; [apply nested_ep|apply nested_is|done|by apply H| |done|by rewrite nested_prefix|done].
    destruct (lg_joint _ _ _ _ _ _ _ _ L) as [Hd Hr]. destruct (lg_j1 _ _ _ _ _ _ _ _ L) as (_ & _ & He). destruct (lg_j0 _ _ _ _ _ _ _ _ L) as [K0 E0]. by apply (connect_enc rad s j0 j1 l prefix d n0 e).
  Qed.
End nested.

(** names *)
Lemma slen_app a b : String.length (a +:+ b) = String.length a + String.length b.
Proof. induction a as [|x a IH]; [done|]. change (String x a +:+ b) with (String x (a +:+ b)). cbn [String.length]. rewrite IH. lia. Qed.
Lemma slen0 a : String.length a = 0 -> a = "".
Proof. by destruct a. Qed.
Lemma q_child_names prefix e l : xml_name prefix (e +:+ "." +:+ l) = xml_name (prefix +:+ e) l <-> prefix = "" /\ e <> "".
Proof.
  unfold xml_name. destruct (decide (prefix = "")) as [->|Hp].
  - change ("" +:+ e) with e. destruct (decide (e = "")) as [->|He]; split; try tauto.
    intros H. apply (f_equal String.length) in H. rewrite !slen_app in H. simpl in H. lia.
  - split; [|tauto]. intros H. exfalso. destruct (decide (prefix +:+ e = "")) as [E|E].
    + apply (f_equal String.length) in E. rewrite slen_app in E. simpl in E. apply Hp. apply slen0. lia.
    + apply (f_equal String.length) in H. rewrite !slen_app in H. simpl in H. lia.
Qed.
Lemma q_dangling rad h prefix d n0 e l x y : connecting_joint rad h prefix d n0 e l x -> link_xml rad h (prefix +:+ name_of h e) l y ->
  exists c nm, joint_child x = [[PT c]] /\ xml_attr "name" y = Some nm /\ (c = nm <-> prefix = "" /\ name_of h e <> "").
Proof.
  intros (a & b & c & t & poses & _ & _ & _ & ->) (cont & f & gs & txt & _ & _ & _ & _ & _ & ->). eexists _, _. split; [|split; [reflexivity|apply q_child_names]].
  unfold joint_child. rewrite flat_map_app. cbn. induction poses as [|p ps IH]; [done|]. exact IH.
Qed.
