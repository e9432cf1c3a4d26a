(** * C81: proofs *)
From Verif Require Import PDict PExec PWF PMono PAdd PReach PPrim PHist Spec SpecFac QHier4 QHier5 QHier6 QFac QFac2 History SpecCogni QCog QCog2.

Definition no_sem (t : loc * direction * weight) : loc * direction * weight * option loc := (t, None).
Lemma connect_tuples_list e ts s : connect_tuples e (map no_sem ts) s = connect_list e ts s.
Proof.
  revert s. induction ts as [|[[n d] w] ts IH]; intros s; [done|]. cbn [map connect_tuples connect_list no_sem]. unfold bind.
  destruct (unary_connect e n w d None s) as [[r|ex] s1]; [apply IH|done].
Qed.
Lemma connect_list_reach e ts : forall s s', reach s -> exists_in (heap s) e -> Forall (fun t => exists_in (heap s) (tnode t)) ts -> connect_list e ts s = (Ok tt, s') -> reach s'.
Proof.
  induction ts as [|[[n d] w] ts IH]; intros s s' R He Hts E; [by injection E as <-|]. apply Forall_cons in Hts as [Hn Hts]. cbn [connect_list] in E. unfold bind in E.
  destruct (unary_connect e n w d None s) as [[r|ex] s1] eqn:E1; [|done].
  assert (R1 : reach s1). { eapply (reach_void s _ (OUnary e n w d None)); [done| |reflexivity|exact E1]. split; [done|]. split; [done|done]. }
  pose proof (pres_unary_connect e n w d None s) as M. rewrite E1 in M. cbn [snd] in M.
  apply (IH s1); [done|by eapply mono_exists| |done]. eapply Forall_impl; [exact Hts|]. intros t Ht. by eapply mono_exists.
Qed.
Lemma dirs_filter (P : loc * direction * weight -> Prop) `{!forall t, Decision (P t)} (Q : loc -> Prop) `{!forall r, Decision (Q r)} (h : list obj) rs ts :
  Forall2 (fun r t => (Q r <-> P t) /\ attr_of o_endpoint h r = Some (Some (tnode t))) rs ts ->
  map (attr_of o_endpoint h) (filter Q rs) = map (fun t => Some (Some (tnode t))) (filter P ts).
Proof.
  induction 1 as [|r t rs ts [H1 H2] _ IH]; [done|]. rewrite !filter_cons.
  destruct (decide (Q r)) as [q|q], (decide (P t)) as [p|p]; try tauto. cbn [map]. by rewrite H2, IH.
Qed.
Lemma q_C81 s f p nm ts e s' : reach s -> exists_in (heap s) p -> Forall (exists_in (heap s)) (map tnode ts) ->
  connect_tuple_nodes f p nm (map no_sem ts) s = (Ok e, s') ->
  reach s' /\ exists rs ins outs, edge_made s s' p e nm ts rs /\ sub_relations e s' = (Ok rs, s') /\ induced_subset e s' = (Ok (map (fun t => Some (tnode t)) ts), s') /\
    incoming_relations e s' = (Ok ins, s') /\ map (attr_of o_endpoint (heap s')) ins = map (fun t => Some (Some (tnode t))) (filter (fun t : loc * direction * weight => t.1.2 <> OUTWARDS) ts) /\
    outgoing_relations e s' = (Ok outs, s') /\ map (attr_of o_endpoint (heap s')) outs = map (fun t => Some (Some (tnode t))) (filter (fun t : loc * direction * weight => t.1.2 <> INWARDS) ts).
Proof.
  intros R [op Hp] Hns E. pose proof (reach_wf s R) as W. unfold connect_tuple_nodes in E.
  destruct (hyperedge_cases s f p nm op W Hp) as [[_ (s1 & E1 & _)]|[_ [[_ (s1 & E1 & _)]|[_ (c & s1 & prog & _ & E1 & G & M)]]]];
    [by rewrite (bind_exn _ _ _ _ _ E1) in E..|]. rewrite (bind_ok _ _ _ _ _ E1) in E.
  unfold bind in E. rewrite connect_tuples_list in E. destruct (connect_list (length (heap s)) ts s1) as [[[]|ex] s2] eqn:E3; [|done]. injection E as <- <-.
  destruct (edge_made_intro s s1 s2 p nm _ prog c ts op W Hp G M Hns E3) as [rs H].
  assert (R1 : reach s1). { eapply (reach_void s _ (OHyperedge f p nm)); [done| |reflexivity|exact E1]. by eexists. }
  split.
  { apply (connect_list_reach (length (heap s)) ts s1); [done| | |done].
    - destruct (QHier5.gr_fresh _ _ _ _ _ G) as (_ & _ & _ & F4). destruct (heap s1 !! length (heap s)) eqn:X; [by eexists|done].
    - apply Forall_forall. intros t Ht. apply (mono_exists s s1); [done|]. rewrite Forall_forall in Hns. apply Hns. by apply elem_of_list_fmap_1. }
  destruct (edge_made_relations _ _ _ _ _ _ _ H) as [H1 H2].
  pose proof (em_kind _ _ _ _ _ _ _ H) as Hk. unfold kind_of in Hk. destruct (heap s2 !! length (heap s)) as [oe|] eqn:Hoe; [|done].
  destruct (q_C19 s2 (length (heap s)) oe Hoe) as (rs' & ins & outs & A1 & A2 & A3 & A4 & A5 & _). rewrite H1 in A1. injection A1 as <-.
  exists rs, ins, outs. split; [done|]. split; [done|]. split; [done|]. split; [done|]. split; [|split; [done|]].
  - rewrite A4. apply dirs_filter.
    eapply Forall2_impl; [apply H|]. intros r [[n d] w] (_ & _ & _ & _ & B1 & B2 & _). rewrite B1, B2. split; [|done].
    destruct d; split; intros X; try done; try (by destruct X); by (left + right).
  - rewrite A5. apply dirs_filter.
    eapply Forall2_impl; [apply H|]. intros r [[n d] w] (_ & _ & _ & _ & B1 & B2 & _). rewrite B1, B2. split; [|done].
    destruct d; split; intros X; try done; try (by destruct X); by (left + right).
Qed.
Lemma q_C81_succeeds s f p nm ts op : reach s -> heap s !! p = Some op -> is_conceptual (o_kind op) = true -> p ∉ map tnode ts ->
  Forall (fun n => exists on, heap s !! n = Some on /\ is_hyperelement (o_kind on) = true /\ o_ready on = true) (map tnode ts) ->
  NoDup (map (fun t => name_of (heap s) (tnode t)) ts) ->
  (forall x, x ∈ children (heap s) p -> uuid_of (heap s) x <> sha s (uid_text (f_name f) nm (clk s (f_clock f) (tick s)))) ->
  (forall n n', n ∈ map tnode ts -> n' ∈ map tnode ts -> sha s (nm +:+ "/" +:+ name_of (heap s) n) = sha s (nm +:+ "/" +:+ name_of (heap s) n') ->
     name_of (heap s) n = name_of (heap s) n') ->
  (forall n x t, n ∈ map tnode ts -> x ∈ children (heap s) n ->
     uuid_of (heap s) x <> sha s (name_of (heap s) n +:+ "/" +:+ "rel" +:+ join "." [nm; name_of (heap s) n; str_of_Z t])) ->
  exists e s', connect_tuple_nodes f p nm (map no_sem ts) s = (Ok e, s').
Proof.
  intros R Hp Hk Hpn Hns Hnd Hu Hi Hpo. pose proof (reach_wf s R) as W. set (ns := map tnode ts) in *.
  destruct (hyperedge_cases s f p nm op W Hp) as [[Hk' _]|[_ [[(x & Hx & Hux) _]|[_ (c & s1 & prog & _ & E1 & G & M)]]]].
  { by rewrite Hk in Hk'. } { by destruct (Hu x Hx). }
  destruct (QHier5.gr_fresh _ _ _ _ _ G) as (F1 & F2 & F3 & F4). set (e := length (heap s)) in *. pose proof (gr_kept _ _ _ _ _ G) as K.
  assert (Hmt : forall t, t ∈ ts -> tnode t ∈ ns) by (intros t Ht; by apply elem_of_list_fmap_1).
  assert (Hex : forall n, n ∈ ns -> exists_in (heap s) n).
  { intros n Hn. rewrite Forall_forall in Hns. destruct (Hns n Hn) as (x & Hx & _). by eexists. }
  assert (Hnm : forall n, n ∈ ns -> name_of (heap s1) n = name_of (heap s) n) by (intros n Hn; apply kept_name; [done|by apply Hex]).
  destruct (heap s1 !! e) as [oe|] eqn:He; [|done]. cbn [fmap option_fmap option_map] in F4. apply (inj Some) in F4.
  destruct (connect_list_ok e nm c ts s1 oe) as [s' E].
  - apply G. - done.
  - change (o_kind (fixed_part oe) = KEdge). by rewrite F4. - change (o_ready (fixed_part oe) = true). by rewrite F4.
  - change (o_clock (fixed_part oe) = Some c). by rewrite F4. - change (o_name (fixed_part oe) = nm). by rewrite F4.
  - apply Forall_forall. intros t Ht. apply Hmt in Ht. rewrite Forall_forall in Hns. destruct (Hns _ Ht) as (on & Hon & H1 & H2).
    pose proof (kept_attr ident_part _ _ (tnode t) (fun _ => eq_refl) K ltac:(by eexists)) as Ha. rewrite Hon in Ha.
    destruct (heap s1 !! tnode t) as [o1|]; [|done]. cbn [fmap option_fmap option_map] in Ha. apply (inj Some) in Ha. exists o1. split; [done|].
    split; [change (is_hyperelement (o_kind (ident_part o1)) = true); by rewrite Ha|].
    split; [change (o_ready (ident_part o1) = true); by rewrite Ha|]. intros Heq. apply F1. rewrite <- Heq. by eexists.
  - erewrite map_ext_in; [exact Hnd|]. intros t Ht. apply elem_of_list_In in Ht. by apply Hnm, Hmt.
  - intros t t' Ht%Hmt Ht'%Hmt. rewrite (m_sha _ _ M), !Hnm by done. by apply Hi.
  - intros x t Hx. rewrite F3 in Hx. by apply elem_of_nil in Hx.
  - intros x t z Ht%Hmt Hx. rewrite (m_sha _ _ M), !Hnm by done. rewrite (gr_other _ _ _ _ _ G) in Hx; [|by apply Hex|by intros Heq; rewrite Heq in Ht].
    rewrite (kept_uuid _ _ _ K) by (by eapply wf_children_exist). by apply Hpo.
  - exists e, s'. unfold connect_tuple_nodes. rewrite (bind_ok _ _ _ _ _ E1). rewrite <- connect_tuples_list in E. by rewrite (bind_ok _ _ _ _ _ E).
Qed.
(** With a semantic value. *)
Lemma q_C81_sem s e n w d sv osv r s' : reach s -> exists_in (heap s) e -> exists_in (heap s) n -> n <> e -> heap s !! sv = Some osv ->
  is_hyperelement (o_kind osv) = false -> o_kind osv <> KPort -> removable (heap s) sv -> ~ within (heap s) sv e ->
  unary_connect e n w d (Some sv) s = (Ok r, s') ->
  reach s' /\ ~ exists_in (heap s) r /\ kind_of (heap s') r = Some KRel /\ attr_of o_endpoint (heap s') r = Some (Some n) /\ attr_of o_dir (heap s') r = Some d /\
  attr_of o_weight (heap s') r = Some w /\ attr_of o_sem (heap s') r = Some (Some sv) /\
  parent_of (heap s') r = Some e /\ parent_of (heap s') sv = Some r /\ kids (heap s') r = [sv] /\ kids (heap s') e = kids (heap s) e ++ [r] /\
  (forall l, exists_in (heap s) l -> l <> e -> kids (heap s') l = filter (fun x => x <> sv) (kids (heap s) l)) /\
  (forall l, exists_in (heap s) l -> l <> sv -> parent_of (heap s') l = parent_of (heap s) l) /\ kept (heap s) (heap s').
Proof.
  intros R He Hn Hne Hsv Hh Hp Hrm Hw E. pose proof (reach_wf s R) as W.
  destruct (rel_sem0 s e n w d sv r s' osv W He Hn Hne Hsv Hh Hp Hrm Hw E) as (V & o & Ho & K1 & K2 & K3 & K4 & K5).
  assert (R' : reach s'). { eapply (reach_void s _ (OUnary e n w d (Some sv))); [done| |reflexivity|exact E]. split; [done|]. split; [done|]. split; [by eexists|]. done. }
  split; [done|]. split; [rewrite (mv_r _ _ _ _ _ V); intros [x Hx]; apply lookup_lt_Some in Hx; lia|].
  unfold kind_of, attr_of. rewrite Ho. cbn [fmap option_fmap option_map]. rewrite K1, K2, K3, K4, K5.
  repeat (split; [reflexivity|]). split; [apply V|]. split; [apply V|]. split; [apply V|]. split; [apply V|]. split; [apply V|]. split; [apply V|apply V].
Qed.
