(** * Conversion: the pairs that the icon forms *)
From stdpp Require Import relations.
From Verif Require Import Spec Hierarchy Elements Factory History PDict PPath PExec PMono PWF PReach QFac Traverse SpecTrav SpecTensor QueryEngine SpecQuery Factorization SpecFact QFact QFact2 QFact4 CogniLang SpecPhys SpecPhys2 SpecKin QPhys QPhys2 QKin Convert SpecSdf QSdf QSdf2 QCog QCog3 QCog8 QNew QStamp QConv2 QConv3 SpecConv QConv4 QConv5 QConv6 QConv7 QConv8 QConv9 QConv10 SpecCogni.

Lemma sibling_uuid h e i o : WF0 h -> parent_of h i = Some e -> parent_of h o = Some e -> uuid_of h i = uuid_of h o -> i = o.
Proof.
  intros W Hi Ho E. unfold parent_of, uuid_of in *. destruct (h !! i) as [oi|] eqn:Ei; [|done]. destruct (h !! o) as [oo|] eqn:Eo; [|done]. cbn in *.
  destruct (wf_par _ W i oi e Ei Hi) as (op & Hp & Hsi). destruct (wf_par _ W o oo e Eo Ho) as (op' & Hp' & Hso). rewrite Hp in Hp'. injection Hp' as <-. rewrite E in Hsi.
  pose proof (wf_nd _ W e op Hp) as Nd. apply (dget_in_nodup _ _ _ Nd) in Hsi. apply (dget_in_nodup _ _ _ Nd) in Hso. congruence.
Qed.
Section pairs.
  Context (fl : string -> option Qc) (rad : Qc) (e : centity) (n0 : nat) (c : clockid) (s1 : st) (root : loc) (els N E : list loc).
  Notation h := (heap s1).
  Context (W : WF0 h) (D : deep n0 h) (Hroot : n0 <= root) (Kroot : kind_of h root = Some KNode) (St : stamped n0 c s1) (Hh : handed fl rad e h root els N E).
  Lemma edge_rels x : x ∈ E -> exists j, j ∈ top_joints e /\ labelled h x (LEdge (jt_name j.2)) /\ Forall2 (rel_is fl rad h j) (jt_rels j.2) (kids h x).
  Proof.
    intros Hx. pose proof (hd_joints _ _ _ _ _ _ _ _ Hh) as F. apply elem_of_list_lookup in Hx as [i Hi]. destruct (Forall2_lookup_r _ _ _ _ _ F Hi) as (j & Hj & Hs). exists j. split; [by eapply elem_of_list_lookup_2|]. by apply joint_rels_are in Hs.
  Qed.
  Lemma edge_kind x : x ∈ E -> kind_of h x = Some KEdge.
  Proof. intros Hx. destruct (edge_rels x Hx) as (j & _ & (o & Ho & Hk & _) & _). unfold kind_of. rewrite Ho. cbn. by rewrite Hk. Qed.
  Lemma rel_facts x r : x ∈ E -> r ∈ kids h x -> exists j cr, j ∈ top_joints e /\ cr ∈ jt_rels j.2 /\ rel_is fl rad h j cr r.
  Proof.
    intros Hx Hr. destruct (edge_rels x Hx) as (j & Hj & _ & F). apply elem_of_list_lookup in Hr as [i Hi]. destruct (Forall2_lookup_r _ _ _ _ _ F Hi) as (cr & Hc & Hs). exists j, cr. split; [done|]. split; [by eapply elem_of_list_lookup_2|done].
  Qed.
  Lemma rel_kind x r : x ∈ E -> r ∈ kids h x -> kind_of h r = Some KRel.
  Proof. intros Hx Hr. destruct (rel_facts x r Hx Hr) as (j & cr & _ & _ & R). apply rel_is_inv in R as (d & w & y & dl & ts & _ & _ & K & _). done. Qed.
  Lemma rel_kid x r : x ∈ E -> r ∈ kids h x -> exists dl, kids h r = [dl].
  Proof. intros Hx Hr. destruct (rel_facts x r Hx Hr) as (j & cr & _ & _ & R). apply rel_is_inv in R as (d & w & y & dl & ts & _ & _ & _ & _ & _ & _ & K & _). by exists dl. Qed.
  Lemma through_new f y : through f h root y -> n0 <= y.
  Proof. induction 1 as [y Hp _|y q _ IH Hp _]; by eapply (dp_new _ _ D). Qed.
  Lemma rel_new x r : x ∈ E -> r ∈ kids h x -> n0 <= x /\ n0 <= r.
  Proof.
    intros Hx Hr. destruct (rel_kid x r Hx Hr) as [dl Hk]. destruct (hd_below _ _ _ _ _ _ _ _ Hh dl) as [f Hf]. { apply first_kids_in. exists r. split; [apply all_kids_in; by exists x|]. by rewrite Hk. }
    pose proof (kid_parent h r dl W ltac:(rewrite Hk; left)) as P1. pose proof (kid_parent h x r W Hr) as P2.
    apply through_last in Hf as (_ & p & Hp & Hpp). rewrite P1 in Hp. injection Hp as <-. destruct Hpp as [->|Hpp]; [pose proof (rel_kind x root Hx Hr); congruence|].
    apply through_last in Hpp as (_ & p & Hp & Hpp). rewrite P2 in Hp. injection Hp as <-. assert (n0 <= x) by (destruct Hpp as [->|Hpp]; [done|by eapply through_new]). split; [done|]. by eapply (dp_new _ _ D).
  Qed.
  Lemma kids_parents R : (forall r, r ∈ R -> exists dl, kids h r = [dl]) -> omap (parent_of h) (first_kids h R) = R.
  Proof.
    induction R as [|r R IH]; intros H; [done|]. unfold first_kids in *. rewrite omap_cons. destruct (H r) as [dl Hd]; [left|]. rewrite Hd. cbn [head]. rewrite omap_cons, (kid_parent h r dl W) by (rewrite Hd; left). f_equal. apply IH. intros r' Hr'. apply H. by right.
  Qed.
  Lemma omap_perm {A B} (f : A -> option B) l l' : l ≡ₚ l' -> omap f l ≡ₚ omap f l'.
  Proof.
    induction 1 as [|x l l' _ IH|x y l|l1 l2 l3 _ IH1 _ IH2]; [done| | |by etrans].
    - rewrite !omap_cons. destruct (f x); [by constructor|done].
    - rewrite !omap_cons. destruct (f x), (f y); try done. constructor.
  Qed.
  Lemma selected_app k l l' : selected h k (l ++ l') = selected h k l ++ selected h k l'.
  Proof. unfold selected. by rewrite filter_app. Qed.
  Lemma selected_none k l : (forall x, x ∈ l -> kind_of h x <> Some k) -> selected h k l = [].
  Proof. unfold selected. induction l as [|x l IH]; intros H; [done|]. rewrite filter_cons_False by (apply H; left). apply IH. intros y Hy. apply H. by right. Qed.
  Lemma selected_all k l : (forall x, x ∈ l -> kind_of h x = Some k) -> selected h k l = l.
  Proof. unfold selected. induction l as [|x l IH]; intros H; [done|]. rewrite filter_cons_True by (apply H; left). f_equal. apply IH. intros y Hy. apply H. by right. Qed.
  Lemma link_kind x : x ∈ N -> kind_of h x = Some KNode.
  Proof.
    intros Hx. pose proof (hd_links _ _ _ _ _ _ _ _ Hh) as F. apply elem_of_list_lookup in Hx as [i Hi]. destruct (Forall2_lookup_r _ _ _ _ _ F Hi) as ([[env path] l] & _ & t & Ht & V). unfold link_entry in Ht. cbn in Ht.
    apply link_tree_inv in Ht as (hd & rest & -> & _). apply view_labelled in V as (o & Ho & Hk & _). unfold kind_of. rewrite Ho. cbn. by rewrite Hk.
  Qed.
  Lemma joint_rels_perm : joint_rels h els ≡ₚ all_kids h E.
  Proof.
    destruct (hd_els _ _ _ _ _ _ _ _ Hh) as (P0 & P1 & z & Eels & PP0 & PP1 & _ & Kz). destruct (hd_kinds _ _ _ _ _ _ _ _ Hh) as [K0 K1]. unfold joint_rels. rewrite Eels.
    assert (K0' : forall x, x ∈ P0 -> kind_of h x = Some (KSem SKinematicLink)) by (intros x Hx; apply K0; by rewrite <- PP0). assert (K1' : forall x, x ∈ P1 -> kind_of h x = Some (KSem SKinematicJoint)) by (intros x Hx; apply K1; by rewrite <- PP1).
    assert (Kz' : forall x, x ∈ [z] -> kind_of h x = Some (KSem SCognitiveEntity)) by (intros x Hx; apply elem_of_list_singleton in Hx; by subst).
    assert (EL : of_sem h SKinematicLink (P0 ++ P1 ++ [z]) = P0). { rewrite !of_sem_app, (of_sem_all _ SKinematicLink P0), (of_sem_none _ SKinematicLink SKinematicJoint P1), (of_sem_none _ SKinematicLink SCognitiveEntity [z]); try done. by rewrite !app_nil_r. }
    assert (EJ : of_sem h SKinematicJoint (P0 ++ P1 ++ [z]) = P1). { rewrite !of_sem_app, (of_sem_none _ SKinematicJoint SKinematicLink P0), (of_sem_all _ SKinematicJoint P1), (of_sem_none _ SKinematicJoint SCognitiveEntity [z]); try done. by rewrite !app_nil_r. }
    rewrite EL, EJ, selected_app, (selected_none KRel (omap (parent_of h) P0)).
    - cbn [app]. etrans; [unfold selected; apply filter_Permutation, omap_perm, PP1|]. rewrite kids_parents; [|intros r Hr; apply all_kids_in in Hr as (x & Hx & Hr); by eapply rel_kid]. fold (selected h KRel (all_kids h E)). rewrite selected_all; [done|]. intros r Hr. apply all_kids_in in Hr as (x & Hx & Hr). by eapply rel_kind.
    - intros x Hx. apply elem_of_list_omap in Hx as (y & Hy & Hp). rewrite PP0 in Hy. apply first_kids_in in Hy as (n & Hn & Hy). apply head_in, (kid_parent h _ _ W) in Hy. rewrite Hy in Hp. injection Hp as <-. rewrite (link_kind n Hn). congruence.
  Qed.
  Lemma joint_rels_in r : r ∈ joint_rels h els <-> exists x, x ∈ E /\ r ∈ kids h x.
  Proof. rewrite joint_rels_perm. apply all_kids_in. Qed.
  Lemma rels_nodup : NoDup (joint_rels h els).
  Proof. rewrite joint_rels_perm. apply all_kids_nodup; [done|]. apply Hh. Qed.
  Lemma complete : rels_complete h (joint_rels h els).
  Proof.
    intros r Hr _. apply joint_rels_in in Hr as (x & Hx & Hr). split; [rewrite (kid_parent h x r W Hr); by eexists|]. destruct (rel_facts x r Hx Hr) as (j & cr & _ & _ & R). apply rel_is_inv in R as (d & w & y & dl & ts & _ & _ & _ & _ & Hy & _). rewrite Hy. by eexists.
  Qed.
  Lemma same_edge x x' i o : x ∈ E -> x' ∈ E -> i ∈ kids h x -> o ∈ kids h x' -> puuid h i = puuid h o -> x = x'.
  Proof.
    intros Hx Hx' Hi Ho Eu. unfold puuid in Eu. rewrite (kid_parent h x i W Hi), (kid_parent h x' o W Ho) in Eu. destruct (rel_new x i Hx Hi) as [Nx _]. destruct (rel_new x' o Hx' Ho) as [Nx' _].
    pose proof (edge_kind x Hx) as Kx. pose proof (edge_kind x' Hx') as Kx'. unfold kind_of in Kx, Kx'. unfold uuid_of in Eu. destruct (h !! x) as [ox|] eqn:E1; [|done]. destruct (h !! x') as [ox'|] eqn:E2; [|done]. cbn in *.
    injection Kx as Kx. injection Kx' as Kx'. eapply (sp_uniq _ _ _ St x x' ox ox'); [done|done|split; [done|by rewrite Kx]|split; [done|by rewrite Kx']|done].
  Qed.
  (** Two relations of one edge lead to elements with different uuids. *)
  Lemma apart x i o : x ∈ E -> i ∈ kids h x -> o ∈ kids h x -> inward h i -> purely_out h o -> no_loop h false (i, o).
  Proof.
    intros Hx Hi Ho Di Do. assert (Hne : i <> o). { intros ->. unfold inward, purely_out in *. destruct Di; congruence. }
    assert (F : forall r, r ∈ kids h x -> exists y oy ox, ep_of h r = Some y /\ n0 <= y /\ hyper_at h y oy /\ h !! x = Some ox /\ uuid_of h r = sha s1 (elem_id_text (o_name ox) (o_name oy))).
    { intros r Hr. destruct (rel_facts x r Hx Hr) as (j & cr & _ & _ & R). apply rel_is_inv in R as (d & w & y & dl & ts & _ & _ & K & _ & Hy & _). pose proof (kid_parent h x r W Hr) as P. destruct (rel_new x r Hx Hr) as [_ Nr].
      unfold kind_of in K. unfold parent_of in P. unfold ep_of in Hy. unfold ep_of, uuid_of. destruct (h !! r) as [orr|] eqn:Er; [|done]. cbn in *. injection K as K. destruct (sp_rel _ _ _ St r orr x y Nr Er K P Hy) as (Ny & oy & ox & Hhy & Hox & Eu).
      exists y, oy, ox. done. }
    destruct (F i Hi) as (y & oy & ox & Ey & Ny & Hy & Hox & Eu). destruct (F o Ho) as (y' & oy' & ox' & Ey' & Ny' & Hy' & Hox' & Eu'). unfold no_loop. cbn [fst snd]. rewrite Ey, Ey'. right. intros X.
    assert (y = y') as <-. { eapply (sp_uniq _ _ _ St y y' oy oy'); try done. unfold uuid_of in X. destruct Hy as [Hy _], Hy' as [Hy' _]. by rewrite Hy, Hy' in X. }
    apply Hne. apply (sibling_uuid h x); [done|by apply kid_parent|by apply kid_parent|]. destruct Hy as [Hy _], Hy' as [Hy' _]. rewrite Eu, Eu'. congruence.
  Qed.
  Lemma pairs_perm : rel_pairs h false (joint_rels h els) ≡ₚ edge_pairs h E.
  Proof.
    apply NoDup_Permutation; [apply rel_pairs_nodup, rels_nodup|apply edge_pairs_nodup; [done|apply Hh]|]. intros [i o]. rewrite edge_pairs_in, (rel_pairs_in s1 false); [|intros r Hr; apply joint_rels_in in Hr as (x & Hx & Hr); by eapply rel_kind]. rewrite !joint_rels_in. split.
    - intros ((x & Hx & Hi) & (x' & Hx' & Ho) & Di & Do & Eu & _). assert (x = x') as <- by (by eapply same_edge). by exists x.
    - intros (x & Hx & Hi & Ho & Di & Do). split; [by exists x|]. split; [by exists x|]. split; [done|]. split; [done|]. split; [|by eapply apart]. unfold puuid. by rewrite (kid_parent h x i W Hi), (kid_parent h x o W Ho).
  Qed.
End pairs.
