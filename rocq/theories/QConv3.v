(** * Conversion: the elements that a depth-limited query visits below a described element *)
From stdpp Require Import relations.
From Verif Require Import Spec Hierarchy Elements Factory History PDict PPath PExec PMono PWF PReach Traverse SpecTrav CogniLang SpecCogni QCog.

Definition rt (t : tree) : label := match t with T lb _ => lb end.
Definition subs (t : tree) : list tree := match t with T _ ts => ts end.
Definition is_lnode (lb : label) : bool := match lb with LNode _ => true | _ => false end.
(** The sub-trees below, [acc] accepting labels at a depth *)
Fixpoint visited (acc : nat -> label -> bool) (n : nat) (t : tree) : list tree :=
  match t with T _ ts => flat_map (fun t' => if acc (S n) (rt t') then t' :: visited acc (S n) t' else []) ts end.
(** Nodes occur in nodes only *)
Fixpoint nodes_ok (t : tree) : bool :=
  match t with T lb ts => forallb (fun t' => (is_lnode lb || negb (is_lnode (rt t'))) && nodes_ok t') ts end.
Lemma tree_ind' (P : tree -> Prop) : (forall lb ts, Forall P ts -> P (T lb ts)) -> forall t, P t.
Proof. intros H. fix IH 1. intros [lb ts]. apply H. induction ts as [|t ts IHts]; constructor; [apply IH|exact IHts]. Qed.

Record deep (n0 : nat) (h : list obj) : Prop := {
  dp_new : forall l p, n0 <= p -> parent_of h l = Some p -> n0 <= l;
  dp_dep : forall l o p op, n0 <= p -> h !! l = Some o -> o_kind o = KNode -> o_parent o = Some p -> h !! p = Some op -> o_kind op = KNode -> o_depth o = S (o_depth op)
}.
Definition at_depth (h : list obj) (x : loc) (lb : label) (n : nat) : Prop := is_lnode lb = true -> o_depth <$> h !! x = Some n.

Lemma through_first f h x y : through f h x y -> exists c, parent_of h c = Some x /\ accepts f h c = true /\ (y = c \/ through f h c y).
Proof.
  induction 1 as [y Hp Ha|y q Hq IH Hp Ha]; [exists y; auto|]. destruct IH as (c & H1 & H2 & H3). exists c. split; [done|]. split; [done|]. right.
  destruct H3 as [->|H3]; [by constructor|]. by eapply through_step.
Qed.
Lemma through_cons f h x c y : parent_of h c = Some x -> accepts f h c = true -> through f h c y -> through f h x y.
Proof. intros Hp Ha. induction 1 as [y Hy Hay|y q Hq IH Hy Hay]; [eapply through_step; [by constructor|done|done]|by eapply through_step]. Qed.
Lemma through_ancestor f h x y : through f h x y -> ancestor h x y.
Proof. induction 1 as [y Hp _|y q _ IH Hp _]; [by constructor|]. by eapply anc_up. Qed.
Lemma siblings h x c c' y : WF0 h -> parent_of h c = Some x -> parent_of h c' = Some x -> within h c y -> within h c' y -> exists_in h y -> c = c'.
Proof.
  intros W P P' Hc Hc' Hy. destruct (wf_acy _ W y Hy) as [ls Hl]. apply (path_within h y ls c Hl) in Hc. apply (path_within h y ls c' Hl) in Hc'.
  destruct (path_in _ _ _ _ Hl Hc) as (l1 & P1 & S1). destruct (path_in _ _ _ _ Hl Hc') as (l2 & P2 & S2).
  assert (E1 : exists lx, path h x lx /\ l1 = c :: lx) by (inversion P1; subst; [congruence|]; assert (q = x) as -> by congruence; eauto).
  assert (E2 : exists lx, path h x lx /\ l2 = c' :: lx) by (inversion P2; subst; [congruence|]; assert (q = x) as -> by congruence; eauto).
  destruct E1 as (lx & Q1 & ->), E2 as (lx' & Q2 & ->). pose proof (path_det _ _ _ _ Q1 Q2) as <-. destruct S1 as [k1 ->], S2 as [k2 E].
  apply app_inj_2 in E as [_ E]; [by injection E|done].
Qed.
Lemma labelled_node h x lb o : labelled h x lb -> h !! x = Some o -> is_lnode lb = true <-> o_kind o = KNode.
Proof. intros (o' & Ho' & H) Ho. rewrite Ho in Ho'. injection Ho' as <-. destruct lb; cbn; destruct H as (-> & _); (split; by intros). Qed.
Section collect.
  Context (h : list obj) (W : WF0 h) (n0 : nat) (D : deep n0 h) (f : loc -> obj -> bool) (acc : nat -> label -> bool).
  Context (Hport : forall x o, h !! x = Some o -> o_kind o = KPort -> f x o = false).
  Context (Hacc : forall x lb n, labelled h x lb -> at_depth h x lb n -> accepts f h x = acc n lb).
  Lemma kid_iff x c : c ∈ kids h x <-> parent_of h c = Some x /\ kind_of h c <> Some KPort.
  Proof.
    unfold kids. rewrite elem_of_list_filter. split.
    - intros [H1 H2]. split; [|done]. by apply (wf0_child h W).
    - intros [H1 H2]. split; [done|]. apply (wf0_parent h W); [|done]. unfold parent_of in H1. destruct (h !! c) as [o|] eqn:E; [by exists o|done].
  Qed.
  Lemma collect t : forall x n, view h x t -> nodes_ok t = true -> n0 <= x -> at_depth h x (rt t) n ->
    exists ls, NoDup ls /\ (forall y, y ∈ ls <-> through f h x y) /\ Forall2 (view h) ls (visited acc n t).
  Proof.
    induction t as [lb ts IH] using tree_ind'. intros x n V Hok Hx Hd. inversion V as [x' lb' ts' L F]; subst. clear V. cbn [visited]. cbn [rt] in Hd.
    assert (Hk : forall c, c ∈ kids h x -> parent_of h c = Some x) by (intros c Hc; by apply kid_iff in Hc as [? _]).
    assert (Hnd : NoDup (kids h x)) by (apply NoDup_filter, (wf0_children_nd h W)).
    assert (G : exists ls, NoDup ls /\ (forall y, y ∈ ls <-> exists c, c ∈ kids h x /\ accepts f h c = true /\ (y = c \/ through f h c y)) /\
      Forall2 (view h) ls (flat_map (fun t' => if acc (S n) (rt t') then t' :: visited acc (S n) t' else []) ts)).
    { revert Hk Hnd. cbn [nodes_ok] in Hok. revert IH Hok. induction F as [|c t cs ts Vc F IHF]; intros IH Hok Hk Hnd.
      - exists []. split; [constructor|]. split; [|constructor]. intros y. split; [by intros ?%elem_of_nil|]. by intros (c & ?%elem_of_nil & _).
      - apply Forall_cons in IH as [IHt IH]. cbn [forallb] in Hok. apply andb_true_iff in Hok as [Hok1 Hok]. apply andb_true_iff in Hok1 as [Hn1 Hok1]. apply NoDup_cons in Hnd as [Hnc Hnd].
        destruct (IHF IH Hok ltac:(intros; apply Hk; by right) Hnd) as (ls & N & M & V). pose proof (Hk c ltac:(left)) as Pc. cbn [flat_map].
        assert (Hdc : at_depth h c (rt t) (S n)).
        { intros Hl. assert (Hl0 : is_lnode lb = true) by (destruct (is_lnode lb); [done|]; by rewrite Hl in Hn1). specialize (Hd Hl0). destruct (h !! x) as [ox|] eqn:Ex; [|done]. cbn in Hd. injection Hd as Hd.
          unfold parent_of in Pc. destruct (h !! c) as [oc|] eqn:Ec; [|done]. cbn in Pc |- *. f_equal. rewrite <- Hd. inversion Vc as [c' lbc tsc Lc Fc]; subst. cbn [rt] in Hl.
          eapply (dp_dep _ _ D); [exact Hx|exact Ec| |exact Pc|exact Ex|]; [by apply (labelled_node h c lbc)|by apply (labelled_node h x lb)]. }
        assert (Lc : labelled h c (rt t)) by (by inversion Vc). pose proof (Hacc c (rt t) (S n) Lc Hdc) as Ea.
        assert (Hout : forall y, y ∈ ls -> ~ within h c y).
        { intros y Hy Hw. apply M in Hy as (c' & Hc' & Ha' & Hy). assert (Pc' : parent_of h c' = Some x) by (apply Hk; by right).
          assert (Hw' : within h c' y) by (destruct Hy as [->|Hy]; [by left|right; by eapply through_ancestor]).
          assert (Hay : accepts f h y = true) by (destruct Hy as [->|Hy]; [done|by destruct Hy]).
          assert (Hey : exists_in h y) by (unfold accepts in Hay; destruct (h !! y) as [o|] eqn:E; [by exists o|done]).
          pose proof (siblings h x c c' y W Pc Pc' Hw Hw' Hey) as <-. done. }
        destruct (acc (S n) (rt t)) eqn:Et.
        + destruct (IHt c (S n) Vc Hok1 (dp_new _ _ D c x Hx Pc) Hdc) as (lc & Nc & Mc & Vlc). exists (c :: lc ++ ls). split; [|split].
          * apply NoDup_cons. split.
            -- intros Hc. apply elem_of_app in Hc as [Hc|Hc]; [|by apply (Hout c Hc); left]. apply Mc, through_ancestor in Hc.
               assert (exists_in h c) as Hec. { destruct Lc as (o & Ho & _). by exists o. } destruct (wf_acy _ W c Hec) as [lp Hlp]. pose proof (path_nodup _ _ _ Hlp) as Hnp. apply (path_ancestor _ _ _ _ Hlp) in Hc.
               destruct (path_cons _ _ _ Hlp) as [lp' ->]. cbn in Hc. by apply NoDup_cons in Hnp as [? _].
            -- apply NoDup_app. split; [done|]. split; [|done]. intros y Hy Hy'. apply (Hout y Hy'). right. apply Mc in Hy. by eapply through_ancestor.
          * intros y. rewrite elem_of_cons, elem_of_app, Mc, M. split.
            -- intros [->|[H|(c' & H1 & H2 & H3)]]; [exists c; split; [left|auto]|exists c; split; [left|auto]|exists c'; split; [by right|auto]].
            -- intros (c' & H1 & H2 & H3). apply elem_of_cons in H1 as [->|H1]; [destruct H3 as [->|H3]; auto|]. right. right. eauto.
          * cbn [app]. constructor; [done|]. by apply Forall2_app.
        + exists ls. split; [done|]. split; [|done]. intros y. rewrite M. split.
          * intros (c' & H1 & H2). exists c'. split; [by right|done].
          * intros (c' & H1 & H2 & H3). apply elem_of_cons in H1 as [->|H1]; [congruence|eauto]. }
    destruct G as (ls & N & M & V). exists ls. split; [done|]. split; [|done]. intros y. rewrite M. split.
    - intros (c & Hc & Ha & [->|Hy]); [by constructor; auto|]. eapply through_cons; eauto.
    - intros Hy. apply through_first in Hy as (c & Hc & Ha & Hy). exists c. split; [|done]. apply kid_iff. split; [done|]. intros Hp. unfold kind_of in Hp. unfold accepts in Ha. destruct (h !! c) as [o|] eqn:Ec; [|done].
      cbn in Hp. injection Hp as Hp. by rewrite (Hport c o Ec Hp) in Ha.
  Qed.
End collect.
