(** * Conversion: the elements handed to the icon *)
From stdpp Require Import relations.
From Verif Require Import Spec Hierarchy Elements Factory History PDict PPath PExec PMono PWF PReach QFac Traverse SpecTrav QueryEngine SpecQuery CogniLang SpecCogni QCog QCog2 QCog3 QCog5 QCog8 Convert SpecSdf QSdf2 QConv QConv2 QConv3 SpecConv QConv4 QConv5 QConv6 SpecCogni.

(** the first sub-element *)
Definition first_kids (h : list obj) (N : list loc) : list loc := omap (fun x => head (kids h x)) N.
Lemma head_in {A} (l : list A) y : head l = Some y -> y ∈ l.
Proof. destruct l; [done|]. intros [= ->]. left. Qed.
Lemma kid_parent (h : list obj) x y : WF0 h -> y ∈ kids h x -> parent_of h y = Some x.
Proof. intros W Hy. by apply (QConv3.kid_iff h W) in Hy as [? _]. Qed.
Lemma first_kids_in h N y : y ∈ first_kids h N <-> exists x, x ∈ N /\ head (kids h x) = Some y.
Proof. unfold first_kids. by rewrite elem_of_list_omap. Qed.
Lemma first_kids_nodup h N : WF0 h -> NoDup N -> NoDup (first_kids h N).
Proof.
  intros W. induction 1 as [|x N Hx _ IH]; [constructor|]. unfold first_kids. rewrite omap_cons. destruct (head (kids h x)) as [y|] eqn:E; [|done]. apply NoDup_cons. split; [|done].
  intros Hy. apply first_kids_in in Hy as (x' & Hx' & E'). apply head_in, (kid_parent h x y W) in E. apply head_in, (kid_parent h x' y W) in E'. congruence.
Qed.
Definition all_kids (h : list obj) (E : list loc) : list loc := flat_map (kids h) E.
Lemma all_kids_in h E r : r ∈ all_kids h E <-> exists e, e ∈ E /\ r ∈ kids h e.
Proof. unfold all_kids. rewrite elem_of_list_In, in_flat_map. split; intros (e & H1 & H2); exists e; by rewrite ?elem_of_list_In in *. Qed.
Lemma all_kids_nodup h E : WF0 h -> NoDup E -> NoDup (all_kids h E).
Proof.
  intros W. induction 1 as [|x N Hx _ IH]; [constructor|]. cbn [all_kids flat_map]. apply NoDup_app. split; [apply NoDup_filter, (wf0_children_nd h W)|]. split; [|done].
  intros y Hy Hy'. apply all_kids_in in Hy' as (x' & Hx' & Hy'). apply (kid_parent h _ _ W) in Hy, Hy'. congruence.
Qed.
Lemma Forall2_join {A B C} (P : A -> B -> Prop) (Q : C -> B -> Prop) l m k : Forall2 P l m -> Forall2 Q k m -> Forall2 (fun a c => exists b, P a b /\ Q c b) l k.
Proof. intros F. revert k. induction F as [|a b l m H _ IH]; intros k FQ; inversion FQ; subst; constructor; eauto. Qed.
Lemma matches_kind s c start stmt x : q_matches s (new_query start (class_prep c) stmt) x <-> kind_of (heap s) x = Some (KSem c).
Proof.
  unfold q_matches, class_prep, of_kind. cbn [q_prep new_query]. unfold kind_of. destruct (heap s !! x) as [o|]; [|naive_solver]. simpl. destruct (o_kind o) as [| | | | | | |c']; simpl; try naive_solver.
  split; [intros [= H%bool_decide_eq_true]; by subst|intros [= ->]; f_equal; by apply bool_decide_eq_true].
Qed.
Lemma engine_vals : dvals converter_engine = [0; 1; 2].
Proof. reflexivity. Qed.
(** [n] is the element of an entry *)
Definition stands_for {A} (h : list obj) (R : entry A -> tree -> Prop) (x : entry A) (n : loc) : Prop := exists t, R x t /\ view h n t.
Record handed (fl : string -> option Qc) (rad : Qc) (e : centity) (h : list obj) (root : loc) (els N E : list loc) : Prop := {
  hd_nodup : NoDup N /\ NoDup E;
  hd_links : Forall2 (stands_for h (link_entry fl rad)) (top_links e) N;
  hd_joints : Forall2 (stands_for h (joint_entry fl rad)) (top_joints e) E;
  hd_els : exists P0 P1 z, els = P0 ++ P1 ++ [z] /\ P0 ≡ₚ first_kids h N /\ P1 ≡ₚ first_kids h (all_kids h E) /\ name_of h z = en_name e /\ kind_of h z = Some (KSem SCognitiveEntity);
  hd_kinds : (forall y, y ∈ first_kids h N -> kind_of h y = Some (KSem SKinematicLink)) /\ (forall y, y ∈ first_kids h (all_kids h E) -> kind_of h y = Some (KSem SKinematicJoint));
  hd_below : forall y, y ∈ first_kids h (all_kids h E) -> exists f, through f h root y
}.
Lemma engine_hands fl rad icon c e s d s1 root lim els s2 qs : clean s -> load fl rad icon c e s = (Ok d, s1) -> ld_root d = Some root ->
  engine_run lim converter_engine s1 (converter_queries root) (Ok els) s2 qs -> s2 = s1 /\ clean s1 /\ exists N E, handed fl rad e (heap s1) root els N E.
Proof.
  intros C El Hr Er. destruct (load_deep fl rad icon c e s d s1 root C El Hr) as (D & Hn & Hd). destruct (load_meaning fl rad icon c e s d s1 C El) as (root' & t & Hr' & M & Hnew & _ & V & _ & _ & _ & G & C'). rewrite Hr in Hr'. injection Hr' as <-.
  pose proof (clean_wf _ C') as W. destruct C' as [R1 N1]. destruct (meaning_shaped fl rad e t M) as (ts & Et & Gk).
  assert (Hex : exists_in (heap s1) root). { inversion V as [x' lb us (o & Ho & _) F]; subst. by exists o. }
  destruct (engine_any s1 lim converter_engine (converter_queries root) els s2 qs R1) as (-> & parts & -> & F); [rewrite engine_vals; repeat constructor; set_solver| |exact Er|].
  { rewrite engine_vals. intros i Hi. rewrite !elem_of_cons, elem_of_nil in Hi. destruct Hi as [->|[->|[->|[]]]]; eexists; (split; [reflexivity|]); (split; [exact Hex|done]). }
  rewrite engine_vals in F. inversion F as [|? p0 ? ? P0 F1]; subst. inversion F1 as [|? p1 ? ? P1 F2]; subst. inversion F2 as [|? p2 ? ? P2 F3]; subst. inversion F3; subst. clear F F1 F2 F3.
  destruct P0 as (q0 & Q0 & D0 & P0), P1 as (q1 & Q1 & D1 & P1), P2 as (q2 & Q2 & D2 & P2). cbn in Q0, Q1, Q2. injection Q0 as <-. injection Q1 as <-. injection Q2 as <-.
  split; [done|]. split; [done|].
  set (q0 := new_query root (class_prep SKinematicLink) (stmt_node_depth 2)) in *. set (q1 := new_query root (class_prep SKinematicJoint) (stmt_node_depth 1)) in *. set (q2 := new_query root (class_prep SCognitiveEntity) (fun _ _ => true)) in *.
  assert (Kr : kind_of (heap s1) root = Some KNode). { pose proof (root_labelled s1 root _ V (en_name e) ts eq_refl) as (o & Ho & Hk & _). unfold kind_of. rewrite Ho. cbn. by rewrite Hk. }
  assert (X : forall c0 stmt x, q_visits (heap s1) (new_query root (class_prep c0) stmt) x /\ q_matches s1 (new_query root (class_prep c0) stmt) x <->
     through (q_sees (new_query root (class_prep c0) stmt)) (heap s1) root x /\ kind_of (heap s1) x = Some (KSem c0)).
  { intros c0 stmt x. rewrite matches_kind. unfold q_visits. cbn [q_start new_query]. split; [|tauto]. intros [[[-> _]|H] K]; [congruence|done]. }
  assert (Dep : forall x lb n, is_lnode lb = false -> at_depth (heap s1) x lb n) by (intros x lb n Hl Hl'; congruence).
  set (t := T _ _) in V, M.
  destruct (loaded_collect s1 root (length (heap s)) t W D Hn Hd V (en_name e) ts eq_refl Gk q0 (acc_at 2) eq_refl (sees_at root _ 2 (heap s1))) as (l0 & Nd0 & L0 & V0).
  destruct (loaded_collect s1 root (length (heap s)) t W D Hn Hd V (en_name e) ts eq_refl Gk q1 (acc_at 1) eq_refl (sees_at root _ 1 (heap s1))) as (l1 & Nd1 & L1 & V1).
  destruct (loaded_collect s1 root (length (heap s)) t W D Hn Hd V (en_name e) ts eq_refl Gk q2 everywhere eq_refl (sees_all root _ (heap s1))) as (l2 & Nd2 & L2 & V2).
  destruct (links_found s1 root (length (heap s)) t W Hn V (en_name e) ts eq_refl Gk (q_sees q0) (acc_at 2) l0 L0 Nd0 V0) as (N & NdN & FN & KN).
  { intros x nm a L. unfold q0; rewrite (sees_at root SKinematicLink 2 _ _ _ 0 L); [done|by apply Dep]. }
  destruct (joints_found s1 root (length (heap s)) t W Hn V (en_name e) ts eq_refl Gk (q_sees q1) (acc_at 1) l1 L1 Nd1 V1) as (E & NdE & FE & KE).
  { intros x c0 nm a L. unfold q1; rewrite (sees_at root SKinematicJoint 1 _ _ _ 0 L); [done|by apply Dep]. } { intros x d0 w q L. unfold q1; rewrite (sees_at root SKinematicJoint 1 _ _ _ 0 L); [done|by apply Dep]. }
  destruct (entity_found s1 root (length (heap s)) t W Hn V (en_name e) ts eq_refl Gk (q_sees q2) everywhere l2 L2 V2) as (z & Hz & Kz).
  { intros x c0 nm a L. unfold q2; rewrite (sees_all root SCognitiveEntity _ _ _ 0 L); [done|by apply Dep]. }
  exists N, E. split.
  - done.
  - pose proof (meaning_links fl rad e t M) as ML. by eapply Forall2_join.
  - pose proof (meaning_joints fl rad e t M) as MJ. by eapply Forall2_join.
  - exists p0, p1, z. split; [|split; [|split; [|split; [done|by apply Kz]]]].
    + cbn. rewrite app_nil_r. do 2 f_equal. assert (Hp2 : forall y, y ∈ p2 <-> y = z). { intros y. rewrite P2. unfold q2. rewrite X. apply Kz. }
      destruct p2 as [|y p2]; [pose proof (proj2 (Hp2 z) eq_refl) as Hy; by apply elem_of_nil in Hy|]. assert (y = z) as -> by (apply Hp2; left). destruct p2 as [|y' p2]; [done|]. exfalso. apply NoDup_cons in D2 as [D2 _]. apply D2.
      assert (y' = z) as -> by (apply Hp2; right; left). left.
    + apply NoDup_Permutation; [done|by apply first_kids_nodup|]. intros y. rewrite P0, first_kids_in. unfold q0. rewrite X. apply KN.
    + apply NoDup_Permutation; [done|by apply first_kids_nodup, all_kids_nodup|]. intros y. rewrite P1, first_kids_in. unfold q1. rewrite X. eapply iff_trans; [apply (KE y)|]. split.
      * intros (e0 & r & H1 & H2 & H3). exists r. split; [|done]. apply all_kids_in. by exists e0.
      * intros (r & H1 & H2). apply all_kids_in in H1 as (e0 & H1 & H3). by exists e0, r.
  - split; intros y Hy; apply first_kids_in in Hy as (r & Hr1 & Hr2); [apply KN; eauto|]. apply all_kids_in in Hr1 as (e0 & H1 & H3). apply KE. eauto.
  - intros y Hy. apply first_kids_in in Hy as (r & Hr1 & Hr2). apply all_kids_in in Hr1 as (e0 & H1 & H3). exists (q_sees q1). apply KE. eauto.
Qed.
