(** * C17 - C20 *)
From stdpp Require Import relations.
From Verif Require Import Spec Hierarchy Elements Factory History PDict PPath PExec PBfs PWF PAdd PMono PStep PRemove PReach PPrim PHist QHier QHier2 QHier3 QHier4 QHier5.

(** ** Reading sub-elements *)
Lemma subelements_ok p f s o (P : loc -> Prop) `{!forall c, Decision (P c)} : heap s !! p = Some o ->
  (forall c, c ∈ children (heap s) p -> match heap s !! c with Some oc => f c oc = true <-> P c | None => ~ P c end) ->
  get_subelements p f s = (Ok (filter P (children (heap s) p)), s).
Proof.
  intros Hp Hf. unfold get_subelements. rewrite Hp. f_equal. f_equal. unfold dvals. unfold children in *. rewrite Hp in *.
  induction (map snd (o_subs o)) as [|c l IH]; [done|].
  assert (Hl : forall x, x ∈ l -> match heap s !! x with Some oc => f x oc = true <-> P x | None => ~ P x end).
  { intros x Hx. apply Hf. by right. }
  specialize (IH Hl). specialize (Hf c ltac:(left)). rewrite filter_cons. cbn [List.filter]. rewrite IH.
  destruct (heap s !! c) as [oc|].
  - case_decide as HP; destruct (f c oc) eqn:Ef; try done; exfalso; [by apply Hf in HP|by apply HP, Hf].
  - by rewrite decide_False.
Qed.

Definition relations_of (h : list obj) (e : loc) : list loc := filter (fun c => kind_of h c = Some KRel) (children h e).
Lemma sub_relations_ok s e o : heap s !! e = Some o -> sub_relations e s = (Ok (relations_of (heap s) e), s).
Proof.
  intros He. unfold sub_relations, relations_of. eapply subelements_ok; [done|]. intros c _. unfold kind_of.
  destruct (heap s !! c) as [oc|]; [|done]. simpl. unfold is_kind. destruct (o_kind oc) eqn:E; simpl; split; congruence.
Qed.
Lemma map_m_ok {A B} (f : A -> M B) (g : A -> B) l s : (forall x, x ∈ l -> f x s = (Ok (g x), s)) ->
  map_m f l s = (Ok (map g l), s).
Proof.
  induction l as [|x l IH]; intros H; [done|]. cbn [map_m]. rewrite (bind_ok _ _ _ _ _ (H x ltac:(left))).
  rewrite (bind_ok _ _ s (map g l) s); [done|]. apply IH. intros y Hy. apply H. by right.
Qed.
Definition endpoints_of (h : list obj) (e : loc) : list (option loc) :=
  map (fun r => h !! r ≫= o_endpoint) (relations_of h e).
Lemma induced_subset_ok s e o : heap s !! e = Some o -> induced_subset e s = (Ok (endpoints_of (heap s) e), s).
Proof.
  intros He. unfold induced_subset. rewrite (bind_ok _ _ _ _ _ (sub_relations_ok _ _ _ He)).
  apply map_m_ok. intros r Hr. unfold relations_of in Hr. apply elem_of_list_filter in Hr as [Hk _].
  unfold kind_of in Hk. destruct (heap s !! r) as [o'|] eqn:E; [|done]. by rewrite (bind_ok _ _ _ _ _ (deref_ok _ _ _ E)).
Qed.

Lemma kept_filter_kind h h' k (l : list loc) : kept h h' -> (forall x, x ∈ l -> exists_in h x) ->
  filter (fun c => kind_of h' c = Some k) l = filter (fun c => kind_of h c = Some k) l.
Proof.
  intros K. induction l as [|x l IH]; intros Hl; [done|]. rewrite !filter_cons.
  rewrite (kept_kind _ _ _ K) by (apply Hl; left). rewrite IH; [done|]. intros y Hy. apply Hl. by right.
Qed.

(** ** C17 *)
Lemma q_C17 s e n oe on c w d : reach s -> heap s !! e = Some oe -> heap s !! n = Some on -> n <> e ->
  o_kind oe = KEdge -> o_ready oe = true -> o_clock oe = Some c ->
  is_hyperelement (o_kind on) = true -> o_ready on = true ->
  (forall x, x ∈ children (heap s) e -> uuid_of (heap s) x <> sha s (o_name oe +:+ "/" +:+ o_name on)) ->
  (forall x, x ∈ children (heap s) n ->
     uuid_of (heap s) x <> sha s (o_name on +:+ "/" +:+ "rel" +:+ join "." [o_name oe; o_name on; str_of_Z (clk s c (tick s))])) ->
  exists r pt s' rs eps, unary_connect e n w d None s = (Ok r, s') /\ reach s' /\
    sub_relations e s = (Ok rs, s) /\ sub_relations e s' = (Ok (rs ++ [r]), s') /\
    induced_subset e s = (Ok eps, s) /\ induced_subset e s' = (Ok (eps ++ [Some n]), s') /\
    attr_of o_endpoint (heap s') r = Some (Some n) /\ attr_of o_dir (heap s') r = Some d /\
    attr_of o_weight (heap s') r = Some w /\ parent_of (heap s') r = Some e /\ children (heap s') r = [] /\
    ~ exists_in (heap s) r /\ children (heap s') e = children (heap s) e ++ [r] /\
    ~ exists_in (heap s) pt /\ children (heap s') n = children (heap s) n ++ [pt] /\
    kind_of (heap s') pt = Some KPort /\ attr_of o_endpoint (heap s') pt = Some (Some r) /\ parent_of (heap s') pt = Some n /\
    (forall l, exists_in (heap s) l -> l <> e -> l <> n -> children (heap s') l = children (heap s) l) /\
    (forall l, exists_in (heap s') l -> exists_in (heap s) l \/ l = r \/ l = pt) /\
    kept (heap s) (heap s') /\ unmoved (heap s) (heap s').
Proof.
  intros R He Hn Hne Hk Hrd Hc Hkn Hrn Hu1 Hu2. pose proof (reach_wf s R) as W.
  destruct (unary_ok s e n oe on c w d W He Hn Hne Hk Hrd Hc Hkn Hrn Hu1 Hu2) as (s' & E & C & M & _).
  set (r := length (heap s)) in *. set (pt := S r) in *.
  assert (R' : reach s').
  { pose proof (reach_step s (OUnary e n w d None) R) as R'. cbn [exec] in R'. rewrite snd_void, E in R'. apply R'.
    split; [by eexists|]. split; [by eexists|done]. }
  destruct (cn_fr _ _ _ _ _ _ _ _ C) as (Hf1 & Hp1 & Hc1 & Ha1).
  destruct (cn_fp _ _ _ _ _ _ _ _ C) as (Hf2 & Hp2 & Hc2 & Ha2).
  pose proof (cn_kept _ _ _ _ _ _ _ _ C) as K.
  assert (Hat : forall {A} (f : obj -> A) l o, (forall o, f (fixed_part o) = f o) -> fixed_part <$> heap s' !! l = Some (fixed_part o) ->
    f <$> heap s' !! l = Some (f o)).
  { intros A f l o Hf H. destruct (heap s' !! l) as [o'|]; [|done]. cbn [fmap option_fmap option_map] in *. apply (inj Some) in H.
    f_equal. rewrite <- (Hf o'), <- (Hf o). by rewrite H. }
  destruct (kept_exists _ _ e K) as [oe' He']; [by eexists|].
  assert (Hkr : kind_of (heap s') r = Some KRel) by exact (Hat _ o_kind r _ (fun _ => eq_refl) Ha1).
  assert (Her : attr_of o_endpoint (heap s') r = Some (Some n)) by exact (Hat _ o_endpoint r _ (fun _ => eq_refl) Ha1).
  assert (Hrel : relations_of (heap s') e = relations_of (heap s) e ++ [r]).
  { unfold relations_of. rewrite (cn_e _ _ _ _ _ _ _ _ C), filter_app. f_equal.
    - apply kept_filter_kind; [done|]. intros x Hx. by eapply wf_children_exist.
    - by rewrite filter_cons, decide_True. }
  exists r, pt, s', (relations_of (heap s) e), (endpoints_of (heap s) e). split; [done|]. split; [done|].
  split; [by eapply sub_relations_ok|]. split; [rewrite <- Hrel; by eapply sub_relations_ok|].
  split; [by eapply induced_subset_ok|]. split.
  { rewrite (induced_subset_ok s' e oe' He'). f_equal. f_equal. unfold endpoints_of. rewrite Hrel, map_app. f_equal.
    - apply map_ext_in. intros x Hx. apply elem_of_list_In in Hx. unfold relations_of in Hx. apply elem_of_list_filter in Hx as [_ Hx].
      pose proof (kept_attr o_endpoint _ _ x (fun _ => eq_refl) K (wf_children_exist _ _ _ W Hx)) as Ha.
      destruct (heap s !! x), (heap s' !! x); simpl in *; congruence.
    - simpl. unfold attr_of in Her. destruct (heap s' !! r); simpl in *; congruence. }
  split; [done|].
  split; [exact (Hat _ o_dir r _ (fun _ => eq_refl) Ha1)|].
  split; [exact (Hat _ o_weight r _ (fun _ => eq_refl) Ha1)|].
  split; [done|]. split; [done|]. split; [done|]. split; [by apply C|]. split; [done|]. split; [by apply C|].
  split; [exact (Hat _ o_kind pt _ (fun _ => eq_refl) Ha2)|].
  split; [exact (Hat _ o_endpoint pt _ (fun _ => eq_refl) Ha2)|].
  split; [done|]. split; [by apply C|]. split; [|split; [done|by apply C]].
  intros l Hl. apply exists_in_lt in Hl. rewrite (cn_len _ _ _ _ _ _ _ _ C) in Hl. rewrite exists_in_lt.
  unfold pt, r. lia.
Qed.

(** ** C18 *)
Lemma q_C18 s e n oe on c w d x : reach s -> heap s !! e = Some oe -> heap s !! n = Some on -> n <> e ->
  o_kind oe = KEdge -> o_ready oe = true -> o_clock oe = Some c ->
  is_hyperelement (o_kind on) = true -> o_ready on = true ->
  x ∈ children (heap s) e -> uuid_of (heap s) x = sha s (o_name oe +:+ "/" +:+ o_name on) ->
  (forall y, y ∈ children (heap s) n ->
     uuid_of (heap s) y <> sha s (o_name on +:+ "/" +:+ "rel" +:+ join "." [o_name oe; o_name on; str_of_Z (clk s c (tick s))])) ->
  exists r pt s', unary_connect e n w d None s = (Exn ErrorDuplicateElement, s') /\ reach s' /\
    children (heap s') e = children (heap s) e /\
    ~ exists_in (heap s) pt /\ children (heap s') n = children (heap s) n ++ [pt] /\
    kind_of (heap s') pt = Some KPort /\ attr_of o_endpoint (heap s') pt = Some (Some r) /\
    kind_of (heap s') r = Some KRel /\ parent_of (heap s') r = None /\ attr_of o_endpoint (heap s') r = Some (Some n).
Proof.
  intros R He Hn Hne Hk Hrd Hclk Hkn Hrn Hx Hux Hu2. pose proof (reach_wf s R) as W.
  set (nm := rel_name (o_name oe) (o_name on) (clk s c (tick s))) in *.
  set (ur := sha s (elem_id_text (o_name oe) (o_name on))) in *.
  set (up := sha s (elem_id_text (o_name on) nm)).
  set (s1 := set_tick (S (tick s)) s). set (orel := rel_obj ur nm (join "/" [o_name oe; nm]) n w d None).
  set (s2 := set_heap (heap s1 ++ [orel]) s1). set (r := length (heap s)). set (pt := S r).
  assert (Hel : e < length (heap s)) by (by apply lookup_lt_Some in He).
  assert (Hnl : n < length (heap s)) by (by apply lookup_lt_Some in Hn).
  assert (W2 : WF0 (heap s2)).
  { unfold s2. cbn [heap set_heap]. apply alloc_wf0; try done. unfold orel. simpl. intros y [= <-]. by eexists. }
  assert (He2 : heap s2 !! e = Some oe) by (unfold s2; simpl; by rewrite lookup_app_l).
  assert (Hn2 : heap s2 !! n = Some on) by (unfold s2; simpl; by rewrite lookup_app_l).
  assert (Hr2 : heap s2 !! r = Some orel) by (unfold s2, r; simpl; by rewrite lookup_app_r, Nat.sub_diag by lia).
  assert (Hlen2 : length (heap s2) = pt) by (unfold s2, pt, r; simpl; rewrite app_length; simpl; lia).
  assert (Hch2 : forall l, exists_in (heap s) l -> children (heap s2) l = children (heap s) l).
  { intros l Hl. apply exists_in_lt in Hl. unfold children, s2. simpl. by rewrite lookup_app_l. }
  assert (Huu2 : forall l, exists_in (heap s) l -> uuid_of (heap s2) l = uuid_of (heap s) l).
  { intros l Hl. apply exists_in_lt in Hl. unfold uuid_of, s2. simpl. by rewrite lookup_app_l. }
  assert (Hex2 : forall l, exists_in (heap s) l -> exists_in (heap s2) l).
  { intros l Hl. apply exists_in_lt. apply exists_in_lt in Hl. rewrite Hlen2. unfold pt, r. lia. }
  destruct (connect_grown s2 n r on orel W2 Hn2 Hr2 Hkn Hrn) as (s3 & E3 & G3 & M3 & F3).
  { intros y Hy. rewrite Hch2 in Hy by (by eexists). rewrite Huu2 by (by eapply wf_children_exist). by apply Hu2. }
  change (sha s2 (elem_id_text (o_name on) (o_name orel))) with up in G3.
  change (port_name (o_name on) (o_name orel)) with (port_name (o_name on) nm) in G3. rewrite Hlen2 in G3.
  assert (Hre : r <> n) by (unfold r; lia). assert (Hre' : r <> e) by (unfold r; lia).
  pose proof (gr_wf _ _ _ _ _ G3) as W3.
  assert (Hche : children (heap s3) e = children (heap s) e).
  { rewrite (gr_other _ _ _ _ _ G3) by (done || by eexists). apply Hch2. by eexists. }
  destruct (kept_exists _ _ e (gr_kept _ _ _ _ _ G3)) as [oe3 He3]; [by eexists|].
  assert (Hke3 : o_kind oe3 = KEdge).
  { pose proof (kept_kind _ _ e (gr_kept _ _ _ _ _ G3)) as H. unfold kind_of in H. rewrite He3, He2 in H. simpl in H.
    rewrite Hk in H. assert (Some (o_kind oe3) = Some KEdge) by (apply H; by eexists). congruence. }
  destruct (kept_exists _ _ r (gr_kept _ _ _ _ _ G3)) as [or3 Hr3]; [by eexists|].
  assert (Hur3 : o_uuid or3 = ur).
  { pose proof (kept_uuid _ _ r (gr_kept _ _ _ _ _ G3)) as H. unfold uuid_of in H. rewrite Hr3, Hr2 in H. simpl in H.
    apply H. by eexists. }
  assert (Hdup : is_Some (dget ur (o_subs oe3))).
  { destruct (dget ur (o_subs oe3)) eqn:Ed; [by eexists|exfalso].
    apply (children_uuid_old _ e oe3 ur W3 He3 Ed x); [by rewrite Hche|].
    rewrite (kept_uuid _ _ _ (gr_kept _ _ _ _ _ G3)) by (apply Hex2; by eapply wf_children_exist).
    rewrite Huu2 by (by eapply wf_children_exist). done. }
  assert (E4 : add_element e r s3 = (Exn ErrorDuplicateElement, s3)).
  { unfold add_element. rewrite (bind_ok _ _ _ _ _ (deref_ok _ _ _ He3)), Hke3.
    assert (Eb : add_base e r s3 = (Exn ErrorDuplicateElement, s3)).
    { unfold add_base. rewrite decide_False by done. rewrite (bind_ok _ _ _ _ _ (deref_ok _ _ _ Hr3)), (bind_ok _ _ _ _ _ (deref_ok _ _ _ He3)).
      rewrite Hur3. by destruct Hdup as [z ->]. }
    by rewrite (bind_exn _ _ _ _ _ Eb). }
  assert (E : unary_connect e n w d None s = (Exn ErrorDuplicateElement, s3)).
  { unfold unary_connect. rewrite (bind_ok _ _ _ _ _ (deref_ok _ _ _ He)). rewrite (bind_ok _ _ _ _ _ (deref_ok _ _ _ Hn)).
    rewrite decide_True by done. rewrite Hclk. cbn [of_opt]. rewrite (bind_ok (ret c) _ s c s) by done.
    rewrite (bind_ok (now c) _ s (clk s c (tick s)) s1) by done. rewrite Hrd. fold nm.
    rewrite (bind_ok (hash _) _ s1 ur s1) by done. unfold new_rel. fold (rel_obj ur nm (join "/" [o_name oe; nm]) n w d None). fold orel.
    rewrite (bind_ok _ _ _ _ _ (alloc_state _ _)). fold s2. change (length (heap s1)) with r.
    rewrite (bind_ok _ _ _ _ _ E3). rewrite (bind_ok (ret tt) _ s3 tt s3) by done. by rewrite (bind_exn _ _ _ _ _ E4). }
  exists r, pt, s3. split; [done|]. split.
  { pose proof (reach_step s (OUnary e n w d None) R) as R'. cbn [exec] in R'. rewrite snd_void, E in R'. apply R'.
    split; [by eexists|]. split; [by eexists|done]. }
  split; [done|]. split; [rewrite exists_in_lt; unfold pt, r; lia|].
  split. { rewrite (gr_p _ _ _ _ _ G3). f_equal. apply Hch2. by eexists. }
  destruct (gr_fresh _ _ _ _ _ G3) as (_ & _ & _ & Hfpt).
  assert (Hat : forall {A} (f : obj -> A) l o, (forall o, f (fixed_part o) = f o) -> fixed_part <$> heap s3 !! l = Some (fixed_part o) ->
    f <$> heap s3 !! l = Some (f o)).
  { intros A f l o Hf H. destruct (heap s3 !! l) as [o'|]; [|done]. cbn [fmap option_fmap option_map] in *. apply (inj Some) in H.
    f_equal. rewrite <- (Hf o'), <- (Hf o). by rewrite H. }
  pose proof (F3 r ltac:(by eexists) Hre) as Hfr. rewrite Hr2 in Hfr.
  split; [exact (Hat _ o_kind pt _ (fun _ => eq_refl) Hfpt)|].
  split; [exact (Hat _ o_endpoint pt _ (fun _ => eq_refl) Hfpt)|].
  split; [exact (Hat _ o_kind r _ (fun _ => eq_refl) Hfr)|].
  split. { rewrite (gr_unmoved _ _ _ _ _ G3 r) by (by eexists). unfold parent_of. by rewrite Hr2. }
  exact (Hat _ o_endpoint r _ (fun _ => eq_refl) Hfr).
Qed.

(** update() changes names and time stamps only, in any state. *)
Lemma update_heq l s : heq (heap s) (heap (snd (update l s))).
Proof.
  assert (Hu : forall f s, (forall o, bare (f o) = bare o) -> heq (heap s) (heap (snd (upd l f s)))).
  { intros f s0 Hf. unfold upd. destruct (heap s0 !! l); [|done]. cbn. by apply heq_alter. }
  assert (Hr : forall s, heq (heap s) (heap (snd (refresh_qname l s)))).
  { intros s0. unfold refresh_qname, get_st. unfold bind at 1. destruct (names_up _ _ l); [|done]. by apply Hu. }
  unfold update. unfold bind at 1, deref. destruct (heap s !! l) as [o|] eqn:E; [|done]. destruct (is_conceptual (o_kind o)); [|apply Hr].
  unfold update_timestamp. unfold bind at 1. rewrite (bind_ok _ _ _ _ _ (deref_ok _ _ _ E)). destruct (o_clock o) as [c|]; [|done].
  rewrite (bind_ok (now c) _ s (clk s c (tick s)) (set_tick (S (tick s)) s)) by done.
  pose proof (Hu (s_time (clk s c (tick s))) (set_tick (S (tick s)) s) (fun _ => eq_refl)) as H1.
  destruct (upd l _ _) as [[[]|ex] s1]; [|exact H1]. cbn [snd] in H1. etrans; [exact H1|]. apply Hr.
Qed.
Lemma update_loop_heq fuel : forall q s, heq (heap s) (heap (snd (update_loop fuel q s))).
Proof.
  induction fuel as [|fuel IH]; intros [|x q] s; try done. cbn [update_loop].
  pose proof (update_heq x s) as H1. unfold bind at 1. destruct (update x s) as [[[]|ex] s1]; [|exact H1]. cbn [snd] in H1.
  unfold bind at 1, deref. destruct (heap s1 !! x); [|exact H1]. etrans; [exact H1|]. apply IH.
Qed.

Lemma add_parentless_child s p c oc s' : heap s !! c = Some oc -> o_parent oc = None ->
  add_base p c s = (Ok tt, s') -> c ∈ children (heap s') p.
Proof.
  intros Hc Hpar E. unfold add_base in E. case_decide as Hne; [done|].
  rewrite (bind_ok _ _ _ _ _ (deref_ok _ _ _ Hc)) in E. unfold bind at 1, deref in E. destruct (heap s !! p) as [op|] eqn:Hp; [|done].
  destruct (dget (o_uuid oc) (o_subs op)) eqn:Hg; [done|].
  rewrite (bind_ok _ _ _ _ _ (upd_ok _ _ _ _ Hp)) in E. rewrite Hpar in E. rewrite decide_False in E by done.
  set (s1 := set_heap _ s) in E.
  assert (H1 : heap s1 !! p = Some (s_subs (dset (o_uuid oc) c (o_subs op)) op)).
  { unfold s1. cbn [heap set_heap]. by rewrite list_lookup_alter, Hp. }
  rewrite (bind_ok _ _ _ _ _ (upd_ok _ _ _ _ H1)) in E. set (s2 := set_heap _ s1) in E.
  assert (H2 : exists o2, heap s2 !! p = Some o2 /\ o_subs o2 = dset (o_uuid oc) c (o_subs op)).
  { unfold s2. cbn [heap set_heap]. rewrite list_lookup_alter, H1. eexists. split; [done|]. done. }
  destruct H2 as (o2 & H2 & Hs2).
  assert (K : forall s3 A (f : obj -> obj) l (k : unit -> M A) r s4, (forall o, o_subs (f o) = o_subs o) ->
     (exists o3, heap s3 !! p = Some o3 /\ o_subs o3 = dset (o_uuid oc) c (o_subs op)) ->
     bind (upd l f) k s3 = (Ok r, s4) ->
     exists s5, (exists o5, heap s5 !! p = Some o5 /\ o_subs o5 = dset (o_uuid oc) c (o_subs op)) /\ k tt s5 = (Ok r, s4)).
  { intros s3 A f l k r s4 Hf (o3 & H3 & Hs3) Ek. unfold bind, upd in Ek. destruct (heap s3 !! l) as [ol|] eqn:El; [|done].
    eexists. split; [|exact Ek]. cbn [heap set_heap]. destruct (decide (l = p)) as [->|].
    - rewrite list_lookup_alter, H3. eexists. split; [done|]. by rewrite Hf.
    - rewrite list_lookup_alter_ne by done. by exists o3. }
  rewrite (bind_ok _ _ _ _ _ (deref_ok _ _ _ H2)) in E.
  apply K in E as (s3 & (o3 & H3 & Hs3) & E); [|done|by exists o2].
  rewrite (bind_ok (ret tt) _ s3 tt s3) in E by done.
  apply K in E as (s4 & (o4 & H4 & Hs4) & E); [|done|by exists o3].
  rewrite (bind_ok _ _ _ _ _ (deref_ok _ _ _ H4)) in E.
  apply K in E as (s5 & (o5 & H5 & Hs5) & E); [|done|by exists o4].
  apply K in E as (s6 & (o6 & H6 & Hs6) & E); [|done|by exists o5].
  apply K in E as (s7 & (o7 & H7 & Hs7) & E); [|done|by exists o6].
  unfold update_subtree, get_st in E. unfold bind at 1 in E.
  pose proof (update_loop_heq (length (heap s7)) [c] s7) as Hq. rewrite E in Hq. cbn [snd] in Hq.
  rewrite (heq_children _ _ p Hq). unfold children. rewrite H7, Hs7. rewrite (dset_new _ _ _ Hg), map_app. apply elem_of_app. right. left.
Qed.

Lemma unary_result s e n w d sem r s1 : WF0 (heap s) -> allowed (heap s) (OUnary e n w d sem) ->
  unary_connect e n w d sem s = (Ok r, s1) ->
  r ∈ children (heap s1) e /\ uuid_of (heap s1) r = sha s (name_of (heap s) e +:+ "/" +:+ name_of (heap s) n) /\
  kind_of (heap s) e = Some KEdge /\ ~ exists_in (heap s) r.
Proof.
  intros W ([oe He] & [on Hn] & Hsem) E.
  set (ur := sha s (elem_id_text (o_name oe) (o_name on))).
  unfold unary_connect in E. rewrite (bind_ok _ _ _ _ _ (deref_ok _ _ _ He)), (bind_ok _ _ _ _ _ (deref_ok _ _ _ Hn)) in E.
  case_decide as Hk; [|done]. destruct (o_clock oe) as [c|]; [|done]. cbn [of_opt] in E.
  rewrite (bind_ok (ret c) _ s c s) in E by done. rewrite (bind_ok (now c) _ s (clk s c (tick s)) (set_tick (S (tick s)) s)) in E by done.
  destruct (o_ready oe); [|done]. cbv zeta in E. rewrite (bind_ok (hash _) _ _ ur (set_tick (S (tick s)) s)) in E by done.
  unfold new_rel in E. rewrite (bind_ok _ _ _ _ _ (alloc_state _ _)) in E. set (sa := set_heap _ _) in E. set (ra := length _) in E.
  assert (Hra : exists oa, heap sa !! ra = Some oa /\ o_uuid oa = ur /\ o_parent oa = None).
  { unfold sa, ra. cbn [heap set_heap set_tick]. rewrite lookup_app_r, Nat.sub_diag by lia. eexists. split; [done|]. done. }
  destruct Hra as (oa & Hoa & Hua & Hpa).
  assert (Hna : exists_in (heap sa) n).
  { apply exists_in_lt. unfold sa. cbn [heap set_heap set_tick]. rewrite app_length. apply lookup_lt_Some in Hn. lia. }
  assert (Wa : WF0 (heap sa)).
  { unfold sa. cbn [heap set_heap set_tick]. apply alloc_wf0; try done. simpl. intros y [= <-]. by eexists. }
  assert (Ma : mono s sa) by (eapply mono_trans; [apply (pres_now c s)|]; by apply pres_alloc).
  pose proof (pres_connect n ra sa) as Mc.
  pose proof (connect_wf sa n ra Wa Hna ltac:(by eexists)) as Wb.
  pose proof (fun l => connect_parent sa n ra l Wa Hna ltac:(by eexists)) as Hpb.
  destruct (connect n ra sa) as [[[]|ex] sb] eqn:Ec; [|by rewrite (bind_exn _ _ _ _ _ Ec) in E].
  rewrite (bind_ok _ _ _ _ _ Ec) in E. cbn [snd] in Mc, Wb, Hpb.
  assert (Hrb : parent_of (heap sb) ra = None).
  { rewrite Hpb by (by eexists). unfold parent_of. by rewrite Hoa. }
  assert (Hsd : exists sd, mono sb sd /\ parent_of (heap sd) ra = None /\ bind (add_element e ra) (fun _ => ret ra) sd = (Ok r, s1)).
  { destruct sem as [sv|].
    - destruct Hsem as (Hsv & Hrem & Hnw).
      assert (Hok : add_ok (heap sb) ra sv).
      { assert (mono s sb) by (by eapply mono_trans).
        split; [eapply mono_exists; [exact Mc|by eexists]|]. split; [by eapply mono_exists|]. split.
        - intros Ha. inversion Ha; congruence.
        - eapply removable_keep; [exact W|done| |exact Hrem].
          rewrite Hpb by (by eapply mono_exists). unfold sa. cbn [heap set_heap set_tick]. by apply app_parent. }
      pose proof (pres_add_element ra sv sb) as Md.
      pose proof (add_element_parent sb ra sv ra Wb Hok ltac:(eapply mono_exists; [exact Mc|by eexists])) as Hpd.
      destruct (add_element ra sv sb) as [[[]|ex] sd] eqn:Ed; [|by rewrite (bind_exn _ _ _ _ _ Ed) in E].
      rewrite (bind_ok _ _ _ _ _ Ed) in E. exists sd. split; [done|]. split; [|done]. cbn [snd] in Hpd. rewrite Hpd; [done|].
      intros <-. apply exists_in_lt in Hsv. unfold ra in Hsv. cbn [heap set_tick] in Hsv. lia.
    - exists sb. split; [apply mono_refl|]. split; [done|]. exact E. }
  destruct Hsd as (sd & Md & Hpd & E').
  pose proof (pres_add_element e ra sd) as Mf.
  destruct (add_element e ra sd) as [[[]|ex] sf] eqn:Ef; [|by rewrite (bind_exn _ _ _ _ _ Ef) in E'].
  rewrite (bind_ok _ _ _ _ _ Ef) in E'. injection E' as <- <-. cbn [snd] in Mf.
  assert (Mall : mono sa sf) by (eapply mono_trans; [exact Mc|]; by eapply mono_trans).
  destruct (m_obj _ _ Mall ra oa Hoa) as (ofin & Hof & Mo).
  split; [|split; [|split]].
  - destruct (m_obj _ _ (mono_trans _ _ _ Mc Md) ra oa Hoa) as (od & Hod & _).
    assert (Me : mono s sd) by exact (mono_trans _ _ _ Ma (mono_trans _ _ _ Mc Md)).
    destruct (m_obj _ _ Me e oe He) as (oed & Hoed & Moe).
    unfold add_element in Ef. rewrite (bind_ok _ _ _ _ _ (deref_ok _ _ _ Hoed)) in Ef. rewrite (om_kind _ _ _ _ Moe), Hk in Ef.
    destruct (add_base e ra sd) as [[[]|ex] sg] eqn:Eb; [|by rewrite (bind_exn _ _ _ _ _ Eb) in Ef].
    assert (Hin : ra ∈ children (heap sg) e).
    { eapply add_parentless_child; [exact Hod| |exact Eb]. unfold parent_of in Hpd. by rewrite Hod in Hpd. }
    rewrite (bind_ok _ _ _ _ _ Eb) in Ef. unfold bind at 1, deref in Ef. destruct (heap sg !! ra) as [og|] eqn:Eg; [|done].
    destruct (o_kind og); try (injection Ef as <-; exact Hin).
    unfold bind at 1, deref in Ef. destruct (heap sg !! e) as [oeg|] eqn:Eeg; [|done]. destruct (o_ready oeg); [|done].
    unfold upd in Ef. rewrite Eeg in Ef. injection Ef as <-. cbn [heap set_heap]. unfold children in *.
    rewrite list_lookup_alter, Eeg. rewrite Eeg in Hin. exact Hin.
  - unfold uuid_of. rewrite Hof. cbn. rewrite (om_uuid _ _ _ _ Mo), Hua. unfold ur, elem_id_text, name_of. by rewrite He, Hn.
  - unfold kind_of. rewrite He. cbn. by rewrite Hk.
  - rewrite exists_in_lt. unfold ra. cbn [heap set_tick]. lia.
Qed.

(** Once e.unary_connect(n, ..) has succeeded, no later call connects e to an
    endpoint with the name of n. *)
Lemma q_C18_forever s e n w d sem r s1 s2 n2 w2 d2 sem2 : reach s -> allowed (heap s) (OUnary e n w d sem) ->
  unary_connect e n w d sem s = (Ok r, s1) -> history MAny s1 s2 ->
  allowed (heap s2) (OUnary e n2 w2 d2 sem2) -> name_of (heap s2) n2 = name_of (heap s) n ->
  exists ex s3, unary_connect e n2 w2 d2 sem2 s2 = (Exn ex, s3).
Proof.
  intros R Ha E H Ha2 Hnm. destruct (unary_connect e n2 w2 d2 sem2 s2) as [[r2|ex] s3] eqn:E2; [exfalso|by exists ex, s3].
  pose proof (reach_step s (OUnary e n w d sem) R Ha) as R1. cbn [exec] in R1. rewrite snd_void, E in R1. cbn [snd] in R1.
  pose proof (reach_wf s R) as W. pose proof (reach_wf s1 R1) as W1.
  pose proof (history_reach _ _ _ R1 H) as R2. pose proof (reach_wf s2 R2) as W2.
  pose proof (reach_step s2 _ R2 Ha2) as R3. cbn [exec] in R3. rewrite snd_void, E2 in R3. cbn [snd] in R3. pose proof (reach_wf s3 R3) as W3.
  destruct (unary_result _ _ _ _ _ _ _ _ W Ha E) as (Hr1 & Hu1 & Hk & _).
  destruct (unary_result _ _ _ _ _ _ _ _ W2 Ha2 E2) as (Hr2 & Hu2 & Hk2 & Hnew).
  pose proof (pres_unary_connect e n w d sem s) as M1. rewrite E in M1. cbn [snd] in M1.
  pose proof (pres_unary_connect e n2 w2 d2 sem2 s2) as M3. rewrite E2 in M3. cbn [snd] in M3.
  pose proof (history_mono _ _ _ H) as M2.
  assert (Hkind : forall s s' l, mono s s' -> exists_in (heap s) l -> kind_of (heap s') l = kind_of (heap s) l /\
     uuid_of (heap s') l = uuid_of (heap s) l /\ name_of (heap s') l = name_of (heap s) l).
  { intros sx sy l Mx [o Ho]. destruct (m_obj _ _ Mx l o Ho) as (o' & Ho' & Mo). unfold kind_of, uuid_of, name_of. rewrite Ho, Ho'. cbn.
    rewrite (om_kind _ _ _ _ Mo), (om_uuid _ _ _ _ Mo), (om_name _ _ _ _ Mo). done. }
  assert (Hee : exists_in (heap s) e) by apply Ha.
  destruct (Hkind _ _ e M1 Hee) as (Hk1 & _ & Hn1).
  assert (Hr : r ∈ children (heap s2) e). { eapply (history_edge MAny s1 s2 e W1 H); [by rewrite Hk1|done]. }
  assert (Hr' : r ∈ children (heap s3) e).
  { assert (P : prims MAny s2 s3).
    { pose proof (unary_connect_prims MAny s2 e n2 w2 d2 sem2 W2 Ha2) as P. rewrite E2 in P. apply P. by intros ?. }
    clear -P Hr Hk2. revert Hk2 Hr. induction P as [s|s s1 s' Hp _ IH]; intros Hk Hr; [done|].
    destruct (prim_edge MAny s s1 e Hp Hk) as [H1 H2]. apply IH; [done|by apply H2]. }
  assert (Hrx : exists_in (heap s1) r) by (by eapply wf_children_exist).
  assert (Hrx2 : exists_in (heap s2) r) by (by eapply wf_children_exist).
  destruct (Hkind _ _ r M2 Hrx) as (_ & Hu & _). destruct (Hkind _ _ r M3 Hrx2) as (_ & Hu' & _).
  destruct (Hkind _ _ e M2) as (_ & _ & Hn2). { by eapply mono_exists. }
  assert (Heq : uuid_of (heap s3) r = uuid_of (heap s3) r2).
  { rewrite Hu', Hu, Hu1, Hu2. rewrite Hnm, Hn2, Hn1. by rewrite (m_sha _ _ M2), (m_sha _ _ M1). }
  assert (Hne : r <> r2) by (intros ->; done).
  clear -W3 Hr' Hr2 Heq Hne. unfold children in *. destruct (heap s3 !! e) as [o|] eqn:Eo; [|inversion Hr2].
  apply elem_of_list_fmap in Hr' as [[u x] [-> H1]]. apply elem_of_list_fmap in Hr2 as [[u' y] [-> H2]]. cbn [snd] in *.
  destruct (wf_sub _ W3 e o u x Eo H1) as (ox & Hx & <- & _). destruct (wf_sub _ W3 e o u' y Eo H2) as (oy & Hy & <- & _).
  unfold uuid_of in Heq. rewrite Hx, Hy in Heq. cbn in Heq. apply Hne.
  pose proof (wf_nd _ W3 e o Eo) as Hnd.
  assert (D1 : dget (o_uuid ox) (o_subs o) = Some x) by (by apply dget_in_nodup).
  assert (D2 : dget (o_uuid oy) (o_subs o) = Some y) by (by apply dget_in_nodup).
  congruence.
Qed.

(** ** C19 *)
Lemma q_C19 s e o : heap s !! e = Some o ->
  exists rs ins outs, sub_relations e s = (Ok rs, s) /\ incoming_relations e s = (Ok ins, s) /\ outgoing_relations e s = (Ok outs, s) /\
    ins = filter (fun r => attr_of o_dir (heap s) r = Some INWARDS \/ attr_of o_dir (heap s) r = Some BIDIRECTIONAL) rs /\
    outs = filter (fun r => attr_of o_dir (heap s) r = Some OUTWARDS \/ attr_of o_dir (heap s) r = Some BIDIRECTIONAL) rs /\
    (forall r, r ∈ rs <-> r ∈ ins \/ r ∈ outs) /\
    (forall r, r ∈ ins /\ r ∈ outs <-> r ∈ rs /\ attr_of o_dir (heap s) r = Some BIDIRECTIONAL).
Proof.
  intros He.
  set (P := fun r => attr_of o_dir (heap s) r = Some INWARDS \/ attr_of o_dir (heap s) r = Some BIDIRECTIONAL).
  set (Q := fun r => attr_of o_dir (heap s) r = Some OUTWARDS \/ attr_of o_dir (heap s) r = Some BIDIRECTIONAL).
  exists (relations_of (heap s) e), (filter P (relations_of (heap s) e)), (filter Q (relations_of (heap s) e)).
  assert (Hrel : forall r, r ∈ relations_of (heap s) e -> exists d, attr_of o_dir (heap s) r = Some d).
  { intros r Hr. unfold relations_of in Hr. apply elem_of_list_filter in Hr as [Hk _]. unfold kind_of in Hk. unfold attr_of.
    destruct (heap s !! r) as [x|]; [|done]. by exists (o_dir x). }
  split; [by eapply sub_relations_ok|].
  assert (Hff : forall (A B : loc -> Prop) `{!forall x, Decision (A x)} `{!forall x, Decision (B x)} (l : list loc),
    filter A (filter B l) = filter (fun x => A x /\ B x) l).
  { intros A B ?? l. by rewrite list_filter_filter. }
  split; [|split].
  - unfold incoming_relations, relations_of. rewrite Hff. eapply subelements_ok; [done|]. intros c _. unfold P, attr_of, kind_of.
    destruct (heap s !! c) as [oc|]; [|by intros [_ ?]]. simpl. destruct (o_kind oc) eqn:Ek, (o_dir oc) eqn:Ed; simpl; naive_solver.
  - unfold outgoing_relations, relations_of. rewrite Hff. eapply subelements_ok; [done|]. intros c _. unfold Q, attr_of, kind_of.
    destruct (heap s !! c) as [oc|]; [|by intros [_ ?]]. simpl. destruct (o_kind oc) eqn:Ek, (o_dir oc) eqn:Ed; simpl; naive_solver.
  - split; [done|]. split; [done|]. split; intros r; rewrite !elem_of_list_filter; unfold P, Q.
    + split; [|naive_solver]. intros Hr. destruct (Hrel r Hr) as [[] Hd]; naive_solver.
    + split; [|naive_solver]. intros [[[H1|H1] Hr] [[H2|H2] _]]; split; try done; congruence.
Qed.

(** ** C20 *)
Lemma reach_timed s : reach s -> forall l o, heap s !! l = Some o -> is_conceptual (o_kind o) = true ->
    exists c n, n < tick s /\ o_time o = clk s c n.
Proof.
  intros R. induction R as [ck hf|s op R IH Ha]; intros l o Ho Hk; [done|].
  pose proof (pres_exec op s) as M. set (s' := snd (exec op s)) in *. pose proof (m_tick _ _ M). rewrite (m_clk _ _ M).
  destruct (heap s !! l) as [o0|] eqn:E0.
  - destruct (m_obj _ _ M l o0 E0) as (o1 & H1 & Mo). rewrite Ho in H1. injection H1 as <-.
    rewrite (om_kind _ _ _ _ Mo) in Hk. destruct (IH l o0 E0 Hk) as (c & n & Hn & Ht).
    destruct (om_time _ _ _ _ Mo) as [->|(c' & n' & Hn' & ->)]; [exists c, n|exists c', n']; split; try done; lia.
  - by apply (m_new _ _ M l o E0 Ho Hk).
Qed.
Lemma q_C20 s s' l o o' : (forall c c' n m, n <= m -> (clk s c n <= clk s c' m)%Z) -> reach s -> history MAny s s' ->
  heap s !! l = Some o -> heap s' !! l = Some o' -> is_conceptual (o_kind o) = true ->
  (o_time o <= o_time o')%Z /\ (forall c n, tick s' <= S n -> (o_time o' <= clk s' c n)%Z).
Proof.
  intros Hclk R H Ho Ho' Hk. pose proof (history_reach _ _ _ R H) as R'. pose proof (history_mono _ _ _ H) as M.
  destruct (m_obj _ _ M l o Ho) as (o1 & H1 & Mo). rewrite Ho' in H1. injection H1 as <-.
  destruct (reach_timed s R l o Ho Hk) as (c & n & Hn & Ht). split.
  - destruct (om_time _ _ _ _ Mo) as [->|(c' & n' & Hn' & ->)]; [done|]. rewrite Ht. apply Hclk. lia.
  - intros c2 n2 Hn2. destruct (reach_timed s' R' l o' Ho') as (c3 & n3 & Hn3 & ->); [by rewrite (om_kind _ _ _ _ Mo)|].
    rewrite (m_clk _ _ M). apply Hclk. lia.
Qed.
Lemma q_C20_no_clock k nm u prog p s : new_conceptual k nm u prog None p s = (Exn ErrorClockNotSet, s).
Proof. done. Qed.
Lemma q_C19_incidence d : (fst (incidence d) = 1%Qc <-> d <> OUTWARDS) /\ (fst (incidence d) = 0%Qc <-> d = OUTWARDS) /\
  (snd (incidence d) = 1%Qc <-> d <> INWARDS) /\ (snd (incidence d) = 0%Qc <-> d = INWARDS).
Proof. destruct d; simpl; repeat split; intros; try done. Qed.
