(** * Conversion: what is written for a pair *)
From stdpp Require Import relations.
From Verif Require Import Spec Hierarchy Elements Factory History PDict PPath PExec PMono PWF PReach QFac Traverse SpecTrav SpecTensor QueryEngine SpecQuery Factorization SpecFact QFact QFact2 QFact4 CogniLang SpecPhys SpecPhys2 SpecKin QPhys QPhys2 QKin Convert SpecSdf QSdf QSdf2 QCog QCog3 QCog8 QConv2 QConv3 SpecConv QConv4 QConv5 QConv6 QConv7 QConv8 QConv9 QConv10 SpecCogni.

Definition block_of (lim : nat) (rad : Qc) (s : st) (jj : loc * loc) (block : list xml) : Prop :=
  let h := heap s in exists n, pendpoint h jj.2 = Ok n /\
    ((is_kinematic_graph h n = false /\ exists x, block = [x] /\ joint_base_element h rad jj.1 jj.2 "" = Ok x) \/
     (is_kinematic_graph h n = true /\ exists links l x nested, canonical_run lim s n (Ok links) /\ l ∈ links /\ connect_element rad s jj.1 jj.2 l "" = Ok x /\ block = x :: nested)).
Lemma joints_blocks lim rad s ps ic ic' : reach s -> joints_run lim rad s ps "" ic (Ok tt) ic' -> exists blocks, Forall2 (block_of lim rad s) ps blocks /\ ic' = put (concat blocks) ic.
Proof.
  intros R. revert ic. induction ps as [|[j0 j1] ps IH]; intros ic J.
  - inversion J; subst. exists []. rewrite put_nil. split; [constructor|done].
  - inversion J as [| |? ? n ? ? ? x ? ? E1 E2 E3 J'| | | | | | |? ? n ? ? ? links l x els ic1 ? ? E1 E2 E3 Hl E4 Q ER J']; subst.
    + apply IH in J' as (bs & F & ->). exists ([x] :: bs). split; [|rewrite add_put, put_put; done]. constructor; [|done]. exists n. split; [done|]. left. split; [done|]. by exists x.
    + apply IH in J' as (bs & F & ->). destruct (run_puts lim rad s R) as [P _]. destruct (P _ _ _ _ _ ER (sub_query_kinds _ _ _ _ _ R (graph_exists _ _ E2) Q)) as [ys ->].
      exists ((x :: ys) :: bs). split; [|rewrite add_put, !put_put; done]. constructor; [|done]. exists n. split; [done|]. right. split; [done|]. by exists links, l, x, ys.
Qed.
(** A canonical link is a link in the graph. *)
Lemma drop_sub h js : forall links r x, drop_driven h js links = Ok r -> x ∈ r -> x ∈ links.
Proof.
  induction js as [|j js IH]; intros links r x H Hx; [by injection H as ->|]. cbn [drop_driven] in H. apply rbind_inv in H as (a & _ & H). apply rbind_inv in H as (b & _ & H). apply rbind_inv in H as (c & _ & H). apply rbind_inv in H as (d & _ & H).
  apply (IH _ _ x) in H; [|done]. rewrite List_filter_stdpp in H. by apply elem_of_list_filter in H as [_ H].
Qed.
Lemma through_up f h g x : through f h g x -> rtc (fun a b => parent_of h a = Some b) x g.
Proof. induction 1 as [y Hp _|y q _ IH Hp _]; [by eapply rtc_once|by eapply rtc_l]. Qed.
Lemma canonical_link lim s g links l : reach s -> exists_in (heap s) g -> canonical_run lim s g (Ok links) -> l ∈ links -> kind_of (heap s) l = Some (KSem SKinematicLink) /\ rtc (fun a b => parent_of (heap s) a = Some b) l g.
Proof.
  intros R Hx Hc Hl. inversion Hc as [|els Q Ed]; subst. apply (drop_sub _ _ _ _ l) in Ed; [|done]. apply (proj1 (elem_of_remove_dups _ _)) in Ed. rewrite of_class_sem in Ed. apply elem_of_list_filter in Ed as [K Hin]. split; [done|].
  destruct Q as (s' & qs' & E). destruct (engine_any s lim (two_names (pname (heap s) g)) (two_queries g) els s' qs' R) as (-> & parts & -> & F); [rewrite two_names_vals; repeat constructor; set_solver| |exact E|].
  { rewrite two_names_vals. intros i Hi. rewrite !elem_of_cons, elem_of_nil in Hi. destruct Hi as [->|[->|[]]]; eexists; (split; [reflexivity|]); (split; [exact Hx|done]). }
  rewrite two_names_vals in F. inversion F as [|? p0 ? ps P0 F1]; subst. inversion F1 as [|? p1 ? ps' P1 F2]; subst. inversion F2; subst. destruct P0 as (q0 & [= <-] & _ & P0). destruct P1 as (q1 & [= <-] & _ & P1).
  cbn in Hin. rewrite app_nil_r in Hin. apply elem_of_app in Hin as [Hin|Hin]; [apply P0 in Hin as [V _]|apply P1 in Hin as [V _]]; destruct V as [[-> _]|V]; try done; by eapply through_up.
Qed.
Section joint.
  Context (fl : string -> option Qc) (rad : Qc) (h : list obj) (W : WF0 h).
  Lemma joint_element_inv x r1 j0 j1 y0 name child z : rel_is fl rad h x r1 j1 -> ep_of h j0 = Some y0 -> kind_of h j0 = Some KRel -> joint_base_element_endpoint h rad j0 j1 name child "" = Ok z ->
    joint_element fl rad x.1.1 r1 name (name_of h y0) child z.
  Proof.
    intros H1 E0 K0 E. apply rel_is_inv in H1 as (d & w & y & dl & ts & _ & _ & _ & _ & _ & _ & Kd & V & ax & us & -> & Hax & Hus).
    unfold joint_base_element_endpoint in E. rewrite (pendpoint_of h j0 y0 E0 (or_introl K0)) in E. cbn [rbind] in E.
    assert (Ed : subs_of h (k_sem_is SKinematicJoint) j1 = [dl]). { rewrite subs_kids by done. rewrite Kd. cbn. apply view_labelled, labelled_kind in V. unfold kind_of in V. destruct (h !! dl) as [o|]; [|done]. cbn in V. injection V as ->. cbn. by rewrite bool_decide_true. }
    rewrite Ed in E. cbn [head r_opt rbind] in E. cbv zeta in E. pose proof (view_labelled _ _ _ V) as L. cbn [rt] in L.
    rewrite !(plain_sattr _ _ _ _ _ _ L) in E.
    assert (A : exists a b c, axis_numbers fl x.1.1 (jr_axis r1) = Some (a, b, c) /\ exists v, match default PNone (dget "axis" (("joint_type", PStr (jr_type r1)) :: ax)) with PNone => PList [PNum 0%Qc; PNum 0%Qc; PNum 1%Qc] | a => a end = v /\ py_sub v 0 = Ok (PNum a) /\ py_sub v 1 = Ok (PNum b) /\ py_sub v 2 = Ok (PNum c)).
    { apply rbind_inv in E as (a0 & A0 & E). apply rbind_inv in E as (a1 & A1 & E). apply rbind_inv in E as (a2 & A2 & E). unfold axis_attr in Hax. unfold axis_numbers. destruct (jr_axis r1) as [v|].
      - destruct (numbers fl x.1.1 v) as [q|]; [|done]. injection Hax as <-. change (default PNone (dget "axis" [("joint_type", PStr (jr_type r1)); ("axis", qlist q)])) with (qlist q) in *. unfold qlist in *. cbn in A0, A1, A2.
        destruct q as [|a [|b [|c q]]]; try discriminate. exists a, b, c. split; [done|]. eexists. split; [reflexivity|]. done.
      - injection Hax as <-. change (default PNone (dget "axis" [("joint_type", PStr (jr_type r1))])) with PNone in *. exists 0%Qc, 0%Qc, 1%Qc. split; [done|]. eexists. split; [reflexivity|]. done. }
    destruct A as (a & b & c & HA & v & Hv & A0 & A1 & A2). rewrite Hv, A0, A1, A2 in E. cbn [rbind] in E. apply rbind_inv in E as (poses & Ep & E). injection E as <-. apply r_map_inv in Ep.
    exists a, b, c, poses. split; [done|]. split.
    - pose proof (view_subs h (k_sem_is SRigidTransformation) dl _ us eq_refl V) as VS. destruct (jr_rigid r1) as [rg|].
      + destruct Hus as (q & Hq & ->). destruct q as [[tr rot] u]. assert (EL : of_lkind (k_sem_is SRigidTransformation) [rigid_tree (jt_name x.2 +:+ "." +:+ jr_ref r1) (tr, rot, u)] = [rigid_tree (jt_name x.2 +:+ "." +:+ jr_ref r1) (tr, rot, u)]) by reflexivity. rewrite EL in VS.
        apply Forall2_one in VS as (tl & Etl & Vt). rewrite Etl in Ep. inversion Ep as [|? p ? ps Hp Hps]; subst. inversion Hps; subst. apply rbind_inv in Hp as (txt & Ht & Hp). injection Hp as <-. exists txt. split; [by eapply pose_inv|]. by rewrite pname_of.
      + subst us. inversion VS as [EN|]; subst. rewrite <- EN in Ep. by inversion Ep.
    - rewrite pname_of. f_equal. f_equal. f_equal. f_equal. change (default PNone (dget "joint_type" (("joint_type", PStr (jr_type r1)) :: ax))) with (PStr (jr_type r1)). unfold encode_joint_type, is_text. cbn.
      destruct (decide (jr_type r1 = "fix")) as [E1|E1]; [rewrite bool_decide_true by done; rewrite decide_False by (rewrite E1; done); done|]. rewrite (bool_decide_false (jr_type r1 = "fix")) by done.
      destruct (decide (jr_type r1 = "rev")) as [E2|E2]; [by rewrite bool_decide_true|by rewrite bool_decide_false].
  Qed.
End joint.
