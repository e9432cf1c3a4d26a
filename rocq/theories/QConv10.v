(** * Conversion: joints *)
From stdpp Require Import relations.
From Verif Require Import Spec Hierarchy Elements Factory History PDict PPath PExec PMono PWF PReach QFac Traverse SpecTrav SpecTensor QueryEngine SpecQuery Factorization SpecFact QFact QFact2 QFact4 CogniLang SpecPhys SpecPhys2 SpecKin QPhys QPhys2 QKin Convert SpecSdf QSdf QSdf2 QCog QCog3 QCog8 QConv2 QConv3 SpecConv QConv4 QConv5 QConv6 QConv7 QConv8 QConv9 SpecCogni.

(** ** Pairs of relations *)
Lemma all_pairs_in {A B} (xs : list A) (ys : list B) a b : (a, b) ∈ all_pairs xs ys <-> a ∈ xs /\ b ∈ ys.
Proof.
  unfold all_pairs. rewrite elem_of_list_In, in_flat_map. setoid_rewrite in_map_iff. setoid_rewrite <- elem_of_list_In. split.
  - intros (x & Hx & y & [= <- <-] & Hy). done.
  - intros [H1 H2]. exists a. split; [done|]. by exists b.
Qed.
Lemma all_pairs_nodup {A B} (xs : list A) (ys : list B) : NoDup xs -> NoDup ys -> NoDup (all_pairs xs ys).
Proof.
  intros Hx Hy. induction Hx as [|x xs Hx _ IH]; [constructor|]. cbn [all_pairs flat_map]. apply NoDup_app. split; [apply NoDup_fmap_2; [intros ? ? [= ->]; done|done]|]. split; [|done].
  intros [a b] H1 H2. apply (all_pairs_in xs ys a b) in H2 as [H2 _]. apply elem_of_list_fmap in H1 as (y & [= -> ->] & _). done.
Qed.
Lemma flat_map_nodup {A B} (f : A -> list B) l : NoDup l -> (forall a, a ∈ l -> NoDup (f a)) -> (forall a b x, a ∈ l -> b ∈ l -> x ∈ f a -> x ∈ f b -> a = b) -> NoDup (flat_map f l).
Proof.
  intros Hl. induction Hl as [|a l Ha _ IH]; intros H1 H2; [constructor|]. cbn [flat_map]. apply NoDup_app. split; [apply H1; left|]. split.
  - intros x Hx Hx'. rewrite elem_of_list_In, in_flat_map in Hx'. destruct Hx' as (b & Hb & Hxb). apply elem_of_list_In in Hb. apply elem_of_list_In in Hxb. assert (a = b) as <- by (eapply H2; [left|by right|done|done]). done.
  - apply IH; [intros; apply H1; by right|]. intros b c x Hb Hc. apply H2; by right.
Qed.
Lemma rel_pairs_nodup h b R : NoDup R -> NoDup (rel_pairs h b R).
Proof.
  intros HR. unfold rel_pairs. apply flat_map_nodup; [apply firsts_nodup|intros k _; apply NoDup_filter, all_pairs_nodup; by apply NoDup_filter|].
  intros k k' [i o] _ _ H1 H2. apply elem_of_list_filter in H1 as [_ H1]. apply elem_of_list_filter in H2 as [_ H2]. apply all_pairs_in in H1 as [H1 _]. apply all_pairs_in in H2 as [H2 _].
  apply elem_of_list_filter in H1 as [[_ H1] _]. apply elem_of_list_filter in H2 as [[_ H2] _]. congruence.
Qed.
Lemma rel_pairs_in s b R i o : let h := heap s in (forall r, r ∈ R -> kind_of h r = Some KRel) ->
  (i, o) ∈ rel_pairs h b R <-> i ∈ R /\ o ∈ R /\ inward h i /\ purely_out h o /\ puuid h i = puuid h o /\ no_loop h b (i, o).
Proof.
  intros h HR. assert (E : selected h KRel R = R). { unfold selected. clear i o. induction R as [|r R IH]; [done|]. rewrite filter_cons_True by (apply HR; left). f_equal. apply IH. intros x Hx. apply HR. by right. }
  pose proof (q_C39_pairs s b R i o) as P. fold h in P. rewrite E in P. exact P.
Qed.
(** The pairs edge by edge. *)
Definition edge_pairs (h : list obj) (E : list loc) : list (loc * loc) := flat_map (fun e => all_pairs (filter (inward h) (kids h e)) (filter (purely_out h) (kids h e))) E.
Lemma edge_pairs_in h E i o : (i, o) ∈ edge_pairs h E <-> exists e, e ∈ E /\ i ∈ kids h e /\ o ∈ kids h e /\ inward h i /\ purely_out h o.
Proof.
  unfold edge_pairs. rewrite elem_of_list_In, in_flat_map. setoid_rewrite <- elem_of_list_In. setoid_rewrite all_pairs_in. split.
  - intros (e & H1 & H2 & H3). apply elem_of_list_filter in H2 as [? ?]. apply elem_of_list_filter in H3 as [? ?]. by exists e.
  - intros (e & H1 & H2 & H3 & H4 & H5). exists e. split; [done|]. split; by apply elem_of_list_filter.
Qed.
Lemma edge_pairs_nodup h E : WF0 h -> NoDup E -> NoDup (edge_pairs h E).
Proof.
  intros W HE. apply flat_map_nodup; [done|intros e _; apply all_pairs_nodup; apply NoDup_filter, NoDup_filter, (wf0_children_nd h W)|].
  intros a b [i o] _ _ H1 H2. apply all_pairs_in in H1 as [H1 _]. apply all_pairs_in in H2 as [H2 _]. apply elem_of_list_filter in H1 as [_ H1]. apply elem_of_list_filter in H2 as [_ H2]. apply (kid_parent h _ _ W) in H1, H2. congruence.
Qed.

(** ** What the relations of a joint are *)
Section rels.
  Context (fl : string -> option Qc) (rad : Qc) (h : list obj).
  Definition rel_is (x : entry cjoint) (r : crel) (l : loc) : Prop := exists t, relation_tree fl rad x.1.1 x.1.2 (jt_name x.2) r = Some t /\ view h l t.
  Lemma joint_rels_are x e : stands_for h (joint_entry fl rad) x e -> labelled h e (LEdge (jt_name x.2)) /\ Forall2 (rel_is x) (jt_rels x.2) (kids h e).
  Proof.
    intros (t & Ht & V). unfold joint_entry in Ht. apply joint_tree_inv in Ht as (ts & -> & F). split; [by apply view_labelled in V|]. apply view_kids in V. cbn in V. clear -F V. revert V. generalize (kids h e). intros ks V. revert ks V.
    induction F as [|r t rs ts H _ IH]; intros ks V; inversion V; subst; constructor; [by exists t|by apply IH].
  Qed.
  Lemma rel_is_inv x r l : rel_is x r l -> exists d w y dl ts, relation_direction (jr_dir r) = Some d /\ dir_of h l = Some d /\ kind_of h l = Some KRel /\ o_weight <$> h !! l = Some w /\
    ep_of h l = Some y /\ full_name h y (endpoint_name x.1.2 (jr_ref r)) /\ kids h l = [dl] /\ view h dl ts /\
    exists ax us, ts = T (LSem SKinematicJoint (jt_name x.2 +:+ "." +:+ jr_ref r) (plain (("joint_type", PStr (jr_type r)) :: ax))) us /\ axis_attr fl x.1.1 r = Some ax /\
      match jr_rigid r with None => us = [] | Some rg => exists q, rigid fl x.1.1 rg = Some q /\ us = [rigid_tree (jt_name x.2 +:+ "." +:+ jr_ref r) q] end.
  Proof.
    intros (t & Ht & V). unfold relation_tree in Ht. cbv zeta in Ht. destruct (relation_direction (jr_dir r)) as [d|] eqn:Ed; [|done]. destruct (axis_attr fl x.1.1 r) as [ax|] eqn:Ea; [|done].
    assert (G : exists w ts, t = T (LRel d w (endpoint_name x.1.2 (jr_ref r))) [ts] /\ exists us, ts = T (LSem SKinematicJoint (jt_name x.2 +:+ "." +:+ jr_ref r) (plain (("joint_type", PStr (jr_type r)) :: ax))) us /\
      match jr_rigid r with None => us = [] | Some rg => exists q, rigid fl x.1.1 rg = Some q /\ us = [rigid_tree (jt_name x.2 +:+ "." +:+ jr_ref r) q] end).
    { destruct (jr_rigid r) as [rg|]; [destruct (rigid fl x.1.1 rg) as [[[t0 q0] u0]|] eqn:Er; [|done]|]; apply (inj Some) in Ht; subst t; eexists _, _; (split; [reflexivity|]); eexists; (split; [reflexivity|]); [|done]. by exists (t0, q0, u0). }
    clear Ht. destruct G as (w & ts & -> & us & Ets & Hus). pose proof (view_kids _ _ _ _ V) as K. cbn in K. apply Forall2_one in K as (dl & Ek & Vd). apply view_labelled in V. destruct V as (o & Ho & Hk & Hd & Hw & _ & y & Hy & Hn).
    exists d, w, y, dl, ts. split; [done|]. split; [unfold dir_of; rewrite Ho; cbn; by rewrite Hd|]. split; [unfold kind_of; rewrite Ho; cbn; by rewrite Hk|]. split; [rewrite Ho; cbn; by rewrite Hw|].
    split; [unfold ep_of; rewrite Ho; done|]. split; [done|]. split; [done|]. split; [done|]. by exists ax, us.
  Qed.
End rels.
