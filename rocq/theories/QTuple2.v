(** * C81: tuples with semantic values *)
From stdpp Require Import relations.
From Verif Require Import Spec Hierarchy Elements Factory History PDict PPath PExec PBfs PWF PAdd PMono PStep PRemove PReach PPrim PHist QHier QHier2 QHier3 QHier4 QHier5 QHier6 QFac SpecFac QFac2 CogniLang SpecCogni QCog QCog2 QTuple.

Notation tup := (loc * direction * weight * option loc)%type.
Definition sems (ts : list tup) : list loc := omap snd ts.
(** What has become of the elements [h] when the values [svs] have moved and [e] has got the relations [rs]. *)
Record moved (h h' : list obj) (e : loc) (svs rs : list loc) : Prop := {
  md_len : length h <= length h';
  md_kept : kept h h';
  md_unmoved : forall l, exists_in h l -> l ∉ svs -> parent_of h' l = parent_of h l;
  md_kids : forall l, exists_in h l -> kids h' l = filter (fun x => x ∉ svs) (kids h l) ++ (if decide (l = e) then rs else [])
}.
Definition sem_ok (h : list obj) (e sv : loc) : Prop := exists osv, h !! sv = Some osv /\ is_hyperelement (o_kind osv) = false /\ o_kind osv <> KPort /\
  removable h sv /\ ~ within h sv e.
Definition made (h' : list obj) (e r : loc) (t : tup) : Prop := let '(n, d, w, sv) := t in
  relation h' r n w d sv /\ parent_of h' r = Some e /\ kids h' r = match sv with Some v => [v] | None => [] end /\ forall v, sv = Some v -> parent_of h' v = Some r.

Lemma filter_all (P : loc -> Prop) `{forall x, Decision (P x)} (l : list loc) : (forall x, x ∈ l -> P x) -> filter P l = l.
Proof. induction l as [|x l IH]; [done|]. intros Hl. rewrite filter_cons, decide_True by (apply Hl; left). f_equal. apply IH. intros. apply Hl. by right. Qed.
Lemma filter_ne_notin (v : loc) (l : list loc) : filter (fun x => x <> v) l = filter (fun x => x ∉ [v]) l.
Proof. apply list_filter_iff. intros x. rewrite elem_of_list_singleton. done. Qed.
Lemma one_step s e n d w sv r s' : reach s -> exists_in (heap s) e -> kind_of (heap s) e = Some KEdge -> exists_in (heap s) n -> n <> e -> (forall v, sv = Some v -> sem_ok (heap s) e v) ->
  unary_connect e n w d sv s = (Ok r, s') ->
  reach s' /\ r = length (heap s) /\ moved (heap s) (heap s') e (match sv with Some v => [v] | None => [] end) [r] /\ made (heap s') e r (n, d, w, sv).
Proof.
  intros R He Hk Hn Hne Hs E. pose proof (reach_wf s R) as W. destruct sv as [v|].
  - destruct (Hs v eq_refl) as (ov & Hv & H1 & H2 & H3 & H4). destruct (rel_sem0 s e n w d v r s' ov W He Hn Hne Hv H1 H2 H3 H4 E) as (V & Hr).
    split. { eapply (reach_void s _ (OUnary e n w d (Some v))); [done| |reflexivity|exact E]. split; [done|]. split; [done|]. split; [by eexists|]. done. }
    split; [apply V|]. split.
    + split; [apply V|apply V| |].
      * intros l Hl Hlv. apply V; [done|]. intros ->. apply Hlv. left.
      * intros l Hl. destruct (decide (l = e)) as [->|Hle].
        -- rewrite (mv_kids_e _ _ _ _ _ V). f_equal. symmetry. apply filter_all. intros x Hx ->%elem_of_list_singleton.
           apply kids_children, (wf0_child _ W) in Hx as [_ Hx]. destruct (H3 e Hx) as [H5 _]. by apply H5.
        -- rewrite (mv_kids _ _ _ _ _ V l Hl Hle), app_nil_r. apply filter_ne_notin.
    + split; [done|]. split; [apply V|]. split; [apply V|]. intros v' [= <-]. apply V.
  - destruct (unary_inv s e n w d r s' W He Hn Hne E) as (oe & on & c & Hoe & Hon & Hke & -> & _ & Cn & _).

    destruct (cn_fr _ _ _ _ _ _ _ _ Cn) as (F1 & F2 & F3 & F4). destruct (cn_fp _ _ _ _ _ _ _ _ Cn) as (P1 & P2 & P3 & P4).
    split. { eapply (reach_void s _ (OUnary e n w d None)); [done| |reflexivity|exact E]. done. }
    split; [done|]. split.
    + split; [rewrite (cn_len _ _ _ _ _ _ _ _ Cn); lia|apply Cn| |].
      * intros l Hl _. by apply Cn.
      * intros l Hl. rewrite (filter_all (fun x => x ∉ [])) by (intros x _; apply not_elem_of_nil). destruct (decide (l = e)) as [->|Hle].
        -- apply kids_snoc; [done|apply Cn|apply Cn|]. unfold kind_of. by rewrite (fixed_get o_kind _ _ _ (fun _ => eq_refl) F4).
        -- rewrite app_nil_r. destruct (decide (l = n)) as [->|Hln].
           ++ eapply kids_snoc_port; [done|apply Cn|apply Cn|]. unfold kind_of. by rewrite (fixed_get o_kind _ _ _ (fun _ => eq_refl) P4).
           ++ apply kids_same; [done|apply Cn|]. by apply (cn_other _ _ _ _ _ _ _ _ Cn).
    + split; [by eapply fixed_relation|]. split; [done|]. split; [by apply kids_nil|done].
Qed.
(** The later values are still fit to be moved. *)
Lemma sem_ok_moved h h' e svs rs v : moved h h' e svs rs -> exists_in h e -> WF0 h -> (forall x, x ∈ svs -> ~ within h x e) -> v ∉ svs -> sem_ok h e v -> sem_ok h' e v.
Proof.
  intros M He W Hx Hv (ov & H1 & H2 & H3 & H4 & H5). pose proof (md_kept _ _ _ _ _ M v ov H1) as Kv.
  pose proof (kept_attr o_kind _ _ v (fun _ => eq_refl) (md_kept _ _ _ _ _ M) ltac:(by eexists)) as Ka. rewrite H1 in Ka. destruct (h' !! v) as [ov'|] eqn:E; [|done].
  cbn in Ka. injection Ka as Ka. exists ov'. split; [done|]. rewrite Ka. split; [done|]. split; [done|]. split.
  - intros q Hq. rewrite (md_unmoved _ _ _ _ _ M) in Hq by (done || by eexists). destruct (H4 q Hq) as [N1 N2].
    assert (Hqe : exists_in h q). { destruct (wf_par _ W v ov q H1) as (oq & Hoq & _); [by rewrite (parent_of_lookup _ _ _ H1) in Hq|by eexists]. }
    pose proof (kept_attr o_kind _ _ q (fun _ => eq_refl) (md_kept _ _ _ _ _ M) Hqe) as Kq. unfold kind_of in *. by rewrite Kq.
  - intros Hw. apply H5. destruct Hw as [->|Hw]; [by left|right]. clear H5.
    assert (Hg : forall a l, ancestor h' a l -> exists_in h l -> (forall x, x ∈ svs -> ~ within h x l) -> ancestor h a l).
    { clear - M W. intros a l Ha. induction Ha as [a l Hp|a q l Hp Ha IH]; intros Hl Hx.
      - apply anc_parent. rewrite <- Hp. symmetry. apply (md_unmoved _ _ _ _ _ M); [done|]. intros Hin. apply (Hx l Hin). by left.
      - rewrite (md_unmoved _ _ _ _ _ M) in Hp; [|done|intros Hin; apply (Hx l Hin); by left]. apply (anc_up _ _ q); [done|]. apply IH.
        + destruct Hl as [ol Hl]. destruct (wf_par _ W l ol q Hl) as (oq & Hoq & _); [by rewrite (parent_of_lookup _ _ _ Hl) in Hp|by eexists].
        + intros x Hin Hw. apply (Hx x Hin). right. destruct Hw as [->|Hw]; [by apply anc_parent|by apply (anc_up _ _ q)]. }
    by apply Hg.
Qed.
Lemma moved_refl h e : moved h h e [] [].
Proof.
  split; [done|apply kept_refl|done|]. intros l _. rewrite (filter_all (fun x => x ∉ [])) by (intros x _; apply not_elem_of_nil). destruct (decide _); by rewrite app_nil_r.
Qed.
Lemma moved_app h h1 h2 e a b ra rb : WF0 h -> (forall x, x ∈ ra -> x ∉ b) -> moved h h1 e a ra -> moved h1 h2 e b rb -> moved h h2 e (a ++ b) (ra ++ rb).
Proof.
  intros W Hd [A1 A2 A3 A4] [B1 B2 B3 B4]. split; [lia|by eapply kept_trans| |].
  - intros l Hl Hn. rewrite B3, A3; [done|done| |by eapply kept_exists|]; intros Hin; apply Hn, elem_of_app; auto.
  - intros l Hl. rewrite B4 by (by eapply kept_exists). rewrite A4 by done. rewrite filter_app, list_filter_filter.
    assert (E : filter (fun x => x ∉ b) (if decide (l = e) then ra else []) = if decide (l = e) then ra else []) by (destruct (decide _); [by apply filter_all|done]).
    rewrite E, <- app_assoc. f_equal.
    + apply list_filter_iff. intros x. rewrite elem_of_app. tauto.
    + destruct (decide (l = e)); done.
Qed.
Lemma made_moved h h' e svs rs r t : moved h h' e svs rs -> exists_in h r -> r <> e -> r ∉ svs -> kids h r = match t.2 with Some v => [v] | None => [] end -> (forall v, t.2 = Some v -> exists_in h v /\ v ∉ svs) -> made h e r t -> made h' e r t.
Proof.
  intros M Hr Hre Hrs Hkr Hv H. destruct t as [[[n d] w] sv]. destruct H as (H1 & H2 & H3 & H4). cbn [snd] in *. split; [by eapply kept_relation; [apply M|]|]. split; [by rewrite (md_unmoved _ _ _ _ _ M)|].
  split.
  - rewrite (md_kids _ _ _ _ _ M r Hr), decide_False, app_nil_r, H3 by done. apply filter_all. intros x Hx. destruct sv as [v|]; [|by apply elem_of_nil in Hx].
    apply elem_of_list_singleton in Hx as ->. by apply Hv.
  - intros v Ev. destruct (Hv v Ev) as [Hv1 Hv2]. rewrite (md_unmoved _ _ _ _ _ M); auto.
Qed.

Lemma tuples_made e ts : forall s s', reach s -> exists_in (heap s) e -> kind_of (heap s) e = Some KEdge -> Forall (fun t : tup => exists_in (heap s) t.1.1.1 /\ t.1.1.1 <> e) ts ->
  NoDup (sems ts) -> (forall v, v ∈ sems ts -> sem_ok (heap s) e v) -> connect_tuples e ts s = (Ok tt, s') ->
  reach s' /\ exists rs, moved (heap s) (heap s') e (sems ts) rs /\ Forall2 (fun r t => ~ exists_in (heap s) r /\ made (heap s') e r t) rs ts.
Proof.
  induction ts as [|[[[n d] w] sv] ts IH]; intros s s' R He Hk Hts Hnd Hok E.
  { injection E as <-. split; [done|]. exists []. split; [apply moved_refl|constructor]. }
  apply Forall_cons in Hts as [[Hn Hne] Hts]. cbn [fst] in Hn, Hne. cbn [connect_tuples] in E. unfold bind in E. destruct (unary_connect e n w d sv s) as [[r|ex] s1] eqn:E1; [|done].
  assert (Es : sems ((n, d, w, sv) :: ts) = match sv with Some v => [v] | None => [] end ++ sems ts) by (unfold sems; by destruct sv). rewrite Es in *.
  set (vs := match sv with Some v => [v] | None => [] end) in *.
  assert (Hvs : forall v, sv = Some v <-> v ∈ vs) by (intros v; unfold vs; destruct sv as [v'|]; [rewrite elem_of_list_singleton; split; congruence|rewrite elem_of_nil; done]).
  destruct (one_step s e n d w sv r s1 R He Hk Hn Hne) as (R1 & Hr & M1 & D1); [intros v Hv; apply Hok, elem_of_app; left; by apply Hvs|done|]. fold vs in M1.
  pose proof (reach_wf s R) as W. apply NoDup_app in Hnd as (Hnd1 & Hdis & Hnd2).
  assert (Hr1 : exists_in (heap s1) r) by (destruct D1 as ((o & Ho & _) & _); by exists o).
  assert (Hsv : forall v, v ∈ sems ts -> exists_in (heap s) v). { intros v Hv. destruct (Hok v) as (ov & Hov & _); [apply elem_of_app; by right|by exists ov]. }
  assert (Hrn : ~ exists_in (heap s) r) by (intros [x Hx]; apply lookup_lt_Some in Hx; lia).
  destruct (IH s1 s' R1) as (R' & rs & M2 & F2); [by eapply kept_exists; [apply M1|]| | |done| |done|].
  { pose proof (kept_attr o_kind _ _ e (fun _ => eq_refl) (md_kept _ _ _ _ _ M1) He) as Ka. unfold kind_of in *. by rewrite Ka. }
  { eapply Forall_impl; [exact Hts|]. intros t [Ht1 Ht2]. split; [by eapply kept_exists; [apply M1|]|done]. }
  { intros v Hv. apply (sem_ok_moved (heap s) (heap s1) e vs [r]); [done|done|done| |intros Hin; by apply (Hdis v)|apply Hok, elem_of_app; by right].
    intros x Hx. destruct (Hok x) as (_ & _ & _ & _ & _ & X); [apply elem_of_app; by left|done]. }
  split; [done|]. exists (r :: rs). split.
  - apply (moved_app _ (heap s1) _ e vs (sems ts) [r] rs W); [|done|done]. intros x ->%elem_of_list_singleton Hx. by apply Hrn, Hsv.
  - constructor.
    + split; [done|]. apply (made_moved (heap s1) (heap s') e (sems ts) rs r _ M2 Hr1); [intros ->; done|intros Hx; by apply Hrn, Hsv| | |done].
      * destruct D1 as (_ & _ & D1 & _). done.
      * cbn [snd]. intros v Hv. split; [|intros Hin; apply Hvs in Hv; by apply (Hdis v)]. destruct (Hok v) as (ov & Hov & _); [apply elem_of_app; left; by apply Hvs|]. eapply kept_exists; [apply M1|by exists ov].
    + eapply Forall2_impl; [exact F2|]. intros r' t [N1 N2]. split; [|done]. intros Hx. apply N1. by eapply kept_exists; [apply M1|].
Qed.

Lemma q_C81_sem_tuples s f p nm (ts : list tup) e s' : reach s -> exists_in (heap s) p -> Forall (fun t : tup => exists_in (heap s) t.1.1.1) ts ->
  NoDup (omap snd ts) ->
  (forall v, v ∈ omap snd ts -> exists ov, heap s !! v = Some ov /\ is_hyperelement (o_kind ov) = false /\ o_kind ov <> KPort /\ removable (heap s) v /\ ~ within (heap s) v p) ->
  connect_tuple_nodes f p nm ts s = (Ok e, s') ->
  reach s' /\ ~ exists_in (heap s) e /\ kind_of (heap s') e = Some KEdge /\ name_of (heap s') e = nm /\ parent_of (heap s') e = Some p /\
  exists rs, kids (heap s') e = rs /\
    Forall2 (fun r t => let '(n, d, w, sv) := t in
      ~ exists_in (heap s) r /\ kind_of (heap s') r = Some KRel /\ attr_of o_endpoint (heap s') r = Some (Some n) /\ attr_of o_dir (heap s') r = Some d /\
      attr_of o_weight (heap s') r = Some w /\ attr_of o_sem (heap s') r = Some sv /\ parent_of (heap s') r = Some e /\
      kids (heap s') r = match sv with Some v => [v] | None => [] end /\ forall v, sv = Some v -> parent_of (heap s') v = Some r) rs ts /\
    (forall l, exists_in (heap s) l -> kids (heap s') l = filter (fun x => x ∉ omap snd ts) (kids (heap s) l) ++ (if decide (l = p) then [e] else [])) /\
    (forall l, exists_in (heap s) l -> l ∉ omap snd ts -> parent_of (heap s') l = parent_of (heap s) l) /\ kept (heap s) (heap s').
Proof.
  intros R Hpe Hts Hnd Hok E. pose proof Hpe as [op Hp]. pose proof (reach_wf s R) as W. unfold connect_tuple_nodes in E.
  destruct (hyperedge_cases s f p nm op W Hp) as [[_ (s1 & E1 & _)]|[_ [[_ (s1 & E1 & _)]|[_ (c & s1 & prog & _ & E1 & G & _)]]]];
    [by rewrite (bind_exn _ _ _ _ _ E1) in E..|]. rewrite (bind_ok _ _ _ _ _ E1) in E.
  unfold bind in E. destruct (connect_tuples (length (heap s)) ts s1) as [[[]|ex] s2] eqn:E3; [|done]. injection E as He Hs. subst s2. set (e0 := length (heap s)) in *. subst e.
  assert (R1 : reach s1). { eapply (reach_void s _ (OHyperedge f p nm)); [done| |reflexivity|exact E1]. by eexists. }
  destruct (QHier5.gr_fresh _ _ _ _ _ G) as (F1 & F2 & F3 & F4). pose proof (gr_kept _ _ _ _ _ G) as K. pose proof (reach_wf s1 R1) as W1.
  pose proof (grown_grows _ _ _ _ _ W G ltac:(done) Hpe) as Gr.
  assert (He1 : exists_in (heap s1) e0) by (destruct (heap s1 !! e0) eqn:X; [by eexists|done]).
  assert (Hk1 : kind_of (heap s1) e0 = Some KEdge) by (unfold kind_of; by rewrite (fixed_get o_kind _ _ _ (fun _ => eq_refl) F4)).
  assert (Hne : forall l, exists_in (heap s) l -> l <> e0) by (intros l Hl ->; done).
  destruct (tuples_made e0 ts s1 s' R1 He1 Hk1) as (R' & rs & M & F); [| |intros v Hv|done|].
  { eapply Forall_impl; [exact Hts|]. intros t Ht. split; [by eapply kept_exists|by apply Hne]. }
  { exact Hnd. }
  { destruct (Hok v Hv) as (ov & Hov & H1 & H2 & H3 & H4).
    pose proof (kept_attr o_kind _ _ v (fun _ => eq_refl) K ltac:(by eexists)) as Ka. rewrite Hov in Ka. destruct (heap s1 !! v) as [ov'|] eqn:Ev; [|done]. cbn in Ka. injection Ka as Ka.
    exists ov'. split; [done|]. rewrite Ka. split; [done|]. split; [done|]. split.
    - intros q Hq. rewrite (gr_unmoved _ _ _ _ _ G) in Hq by (by eexists). destruct (H3 q Hq) as [N1 N2].
      assert (Hqe : exists_in (heap s) q). { destruct (wf_par _ W v ov q Hov) as (oq & Hoq & _); [by rewrite (parent_of_lookup _ _ _ Hov) in Hq|by eexists]. }
      pose proof (kept_attr o_kind _ _ q (fun _ => eq_refl) K Hqe) as Kq. unfold kind_of in *. by rewrite Kq.
    - intros Hw. apply H4. destruct Hw as [Hw|Hw]; [exfalso; apply (Hne v); [by eexists|done]|].
      assert (Hg : forall a l, ancestor (heap s1) a l -> exists_in (heap s) l -> ancestor (heap s) a l).
      { clear - G W. intros a l Ha. induction Ha as [a l Hp|a q l Hp Ha IH]; intros Hl; rewrite (gr_unmoved _ _ _ _ _ G) in Hp by done; [by apply anc_parent|].
        apply (anc_up _ _ q); [done|]. apply IH. destruct Hl as [ol Hl]. destruct (wf_par _ W l ol q Hl) as (oq & Hoq & _); [by rewrite (parent_of_lookup _ _ _ Hl) in Hp|by eexists]. }
      inversion Hw as [a l Hpa|a q l Hpa Ha]; subst; rewrite F2 in Hpa; injection Hpa as <-; [by left|right; by apply Hg]. }
  pose proof (md_kept _ _ _ _ _ M) as K2. fold (sems ts). assert (Hse : e0 ∉ sems ts). { intros Hin. destruct (Hok e0 Hin) as (ov & Hov & _). apply F1. by exists ov. }
  split; [done|]. split; [done|]. split; [unfold kind_of; rewrite (kept_attr o_kind _ _ e0 (fun _ => eq_refl) K2 He1); exact Hk1|].
  split; [rewrite (kept_name _ _ _ K2 He1); unfold name_of; by rewrite (fixed_get o_name _ _ _ (fun _ => eq_refl) F4)|].
  split; [by rewrite (md_unmoved _ _ _ _ _ M)|]. exists rs. split; [|split; [|split; [|split]]].
  - rewrite (md_kids _ _ _ _ _ M e0 He1), decide_True by done. rewrite (kids_nil _ _ F3). done.
  - eapply Forall2_impl; [exact F|]. intros r [[[n d] w] sv] [N ((o & Ho & D1 & D2 & D3 & D4 & D5) & D6 & D7 & D8)]. unfold kind_of, attr_of. rewrite Ho. cbn [fmap option_fmap option_map].
    rewrite D1, D2, D3, D4, D5. split; [intros Hx; apply N; by eapply kept_exists|]. done.
  - intros l Hl. rewrite (md_kids _ _ _ _ _ M) by (by eapply kept_exists). rewrite (decide_False (P := l = e0)), app_nil_r by (by apply Hne).
    rewrite (gs_kids _ _ _ Gr l Hl), filter_app. f_equal. unfold only. destruct (decide (l = p)); [|done]. apply filter_all. by intros x ->%elem_of_list_singleton.
  - intros l Hl Hn. rewrite (md_unmoved _ _ _ _ _ M); [by apply (gr_unmoved _ _ _ _ _ G)|by eapply kept_exists|done].
  - by eapply kept_trans.
Qed.
