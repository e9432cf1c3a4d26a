(** * Proofs of the hierarchy properties C01 - C13 *)
From stdpp Require Import relations.
From Verif Require Import Spec Hierarchy Elements Factory History PDict PPath PExec PBfs PWF PAdd PMono PStep PRemove PReach PPrim PHist.
From Coq Require Import Sorting.Sorted.

(** ** C01 *)
Lemma get_all s p : WF0 (heap s) -> exists_in (heap s) p ->
  get_subelements p (fun _ _ => true) s = (Ok (children (heap s) p), s).
Proof.
  intros W [o Ho]. unfold get_subelements, children. rewrite Ho. f_equal. f_equal.
  assert (Hall : forall c, c ∈ dvals (o_subs o) -> exists_in (heap s) c).
  { intros c Hc. apply (wf0_child (heap s) W p). unfold children. by rewrite Ho. }
  change (map snd (o_subs o)) with (dvals (o_subs o)). revert Hall. generalize (dvals (o_subs o)) as l.
  induction l as [|x l IH]; intros Hall; [done|]. simpl. destruct (Hall x ltac:(left)) as [ox ->]. f_equal.
  apply IH. intros c Hc. apply Hall. by right.
Qed.
Lemma q_C01 s : reach s -> forall p, exists_in (heap s) p ->
  exists l, get_subelements p (fun _ _ => true) s = (Ok l, s) /\ NoDup l /\
    forall c, c ∈ l <-> parent_of (heap s) c = Some p.
Proof.
  intros R p Hp. pose proof (reach_wf s R) as W. exists (children (heap s) p). split; [by apply get_all|].
  split; [by apply wf0_children_nd|]. intros c. split.
  - intros Hc. by apply (wf0_child _ W).
  - intros Hc. apply wf0_parent; [done| |done]. apply parent_exists. by rewrite Hc.
Qed.

(** ** Strings *)
Lemma has_char_split c s : has_char c s = false -> split_on c s = [s].
Proof.
  induction s as [|a s IH]; simpl; [done|]. intros H. apply orb_false_iff in H as [H1 H2].
  apply bool_decide_eq_false in H1. rewrite decide_False by done. by rewrite IH.
Qed.
Lemma split_on_cons_ne c s : split_on c s <> [].
Proof. destruct s as [|a s]; simpl; [done|]. case_decide; [done|]. by destruct (split_on c s). Qed.
Lemma split_app c x s : has_char c x = false -> split_on c (x +:+ String c s) = x :: split_on c s.
Proof.
  induction x as [|a x IH]; intros H.
  - simpl. by rewrite decide_True.
  - cbn [has_char] in H. apply orb_false_iff in H as [H1 H2]. apply bool_decide_eq_false in H1.
    change (String a x +:+ String c s) with (String a (x +:+ String c s)). cbn [split_on].
    rewrite decide_False by done. by rewrite IH.
Qed.
(** [sep.join(l).split(sep) = l] *)
Lemma split_join c l : l <> [] -> Forall (fun x => has_char c x = false) l -> split_on c (join (String c "") l) = l.
Proof.
  induction l as [|x l IH]; intros Hne Hall; [done|]. apply Forall_cons in Hall as [Hx Hall].
  destruct l as [|y l]; [by apply has_char_split|]. change (join (String c "") (x :: y :: l)) with (x +:+ String c (join (String c "") (y :: l))).
  rewrite split_app by done. by rewrite IH.
Qed.
(** [sep.join(s.split(sep)) = s] *)
Lemma join_split c s : join (String c "") (split_on c s) = s.
Proof.
  induction s as [|a s IH]; [done|]. simpl. pose proof (split_on_cons_ne c s) as Hne. case_decide as H.
  - subst a. destruct (split_on c s) as [|y l]; [done|].
    change (join (String c "") ("" :: y :: l)) with (String c (join (String c "") (y :: l))). by rewrite IH.
  - destruct (split_on c s) as [|y l]; [done|]. destruct l as [|z l]; [simpl in *; by subst|].
    change (join (String c "") (String a y :: z :: l)) with (String a (join (String c "") (y :: z :: l))). by rewrite IH.
Qed.
Lemma split_parts c s : Forall (fun x => has_char c x = false) (split_on c s).
Proof.
  induction s as [|a s IH]; simpl; [by constructor|]. case_decide as H; [by constructor|].
  destruct (split_on c s) as [|y l].
  - constructor; [|done]. simpl. rewrite orb_false_r. by apply bool_decide_eq_false.
  - apply Forall_cons in IH as [H1 H2]. constructor; [|done]. simpl. rewrite H1, orb_false_r. by apply bool_decide_eq_false.
Qed.

(** ** C02 *)
Lemma q_C02 s p o n : reach s -> heap s !! p = Some o -> is_conceptual (o_kind o) = true -> has_char slash n = false ->
  get_element_by_id_name p n s = (Ok (filter (fun c => name_of (heap s) c = n) (children (heap s) p)), s).
Proof.
  intros R Hp Hk Hn. pose proof (reach_wf s R) as W. unfold get_element_by_id_name. rewrite has_char_split by done.
  cbn [get_by_tokens]. rewrite Hp, Hk. f_equal. f_equal. rewrite <- (dvals_filter_name _ p o n W Hp).
  by destruct (dget n (o_index o)).
Qed.

(** ** C03, C04 *)
Lemma q_C03 s p : reach s -> exists_in (heap s) p ->
  attr_of o_cnt (heap s) p = Some (Z.of_nat (length (children (heap s) p))).
Proof.
  intros R [o Ho]. pose proof (reach_wf s R) as W. unfold attr_of, children. rewrite Ho. simpl.
  rewrite map_length. f_equal. exact (wf_cnt _ W p o Ho).
Qed.
Lemma sorted_lookup {A} (f : A -> nat) (l : list A) n i j x y : StronglySorted lt (map f l ++ [n]) ->
  i < j -> l !! i = Some x -> l !! j = Some y -> f x < f y.
Proof.
  revert i j. induction l as [|a l IH]; intros i j Hs Hij Hi Hj; [done|]. simpl in Hs.
  apply StronglySorted_inv in Hs as [Hs Hall]. destruct i as [|i].
  - injection Hi as <-. destruct j as [|j]; [lia|]. simpl in Hj. apply elem_of_list_lookup_2 in Hj.
    rewrite Forall_app in Hall. destruct Hall as [Hall _]. rewrite Forall_forall in Hall. apply Hall.
    apply elem_of_list_fmap. by exists y.
  - destruct j as [|j]; [lia|]. simpl in *. eapply IH; [done| |done|done]. lia.
Qed.
Lemma q_C04 s p i j c d m n : reach s -> children (heap s) p !! i = Some c -> children (heap s) p !! j = Some d -> i < j ->
  attr_of o_cid (heap s) c = Some m -> attr_of o_cid (heap s) d = Some n -> m < n.
Proof.
  intros R Hi Hj Hij Hm Hn. pose proof (reach_wf s R) as W. unfold children in *.
  destruct (heap s !! p) as [o|] eqn:E; [|done].
  pose proof (sorted_lookup (cid_of (heap s)) _ _ i j c d (wf_cid _ W p o E) Hij Hi Hj) as H.
  unfold cid_of in H. unfold attr_of in *. rewrite Hm, Hn in H. exact H.
Qed.
Lemma q_C04_history g s s' p c c' m n : reach s -> history g s s' -> c ∈ children (heap s) p -> c' ∈ children (heap s') p ->
  attr_of o_cid (heap s) c = Some m -> attr_of o_cid (heap s') c' = Some n ->
  (c' ∈ children (heap s) p /\ attr_of o_cid (heap s) c' = Some n) \/ m < n.
Proof.
  intros R H Hc Hc' Hm Hn. pose proof (reach_wf s R) as W.
  destruct (history_cid g s s' p c c' W H Hc Hc') as [[H1 H2]|H1].
  - left. split; [done|]. destruct (wf0_child _ W p c' H1) as [[o Ho] _]. unfold attr_of, cid_of in *.
    rewrite Ho in *. rewrite Hn in H2. simpl in *. congruence.
  - right. unfold cid_of, attr_of in *. rewrite Hm, Hn in H1. exact H1.
Qed.

(** ** C05 *)
Definition renamed (c : loc) (s s' : st) : Prop :=
  (forall x, exists_in (heap s') x -> within (heap s') c x -> exists q, attr_of o_qname (heap s') x = Some q /\ full_name (heap s') x q) /\
  (forall x, exists_in (heap s) x -> ~ within (heap s') c x -> attr_of o_qname (heap s') x = attr_of o_qname (heap s) x).

Lemma added_renamed s s' p c op oc b T : heap s !! p = Some op -> heap s !! c = Some oc ->
  touch T (set_heap (added p c op oc b (heap s)) s) s' ->
  (forall x, exists_in (heap s) x -> x ∈ T <-> within (added p c op oc b (heap s)) c x) -> renamed c s s'.
Proof.
  intros Hp Hc TT HT. pose proof (touch_heq _ _ _ TT) as Hq. simpl in Hq. split.
  - intros x Hx Hw. apply (heq_within _ _ c x Hq) in Hw. apply (heq_exists _ _ x Hq) in Hx.
    pose proof Hx as [ox Hox]. destruct (t_obj _ _ _ TT x ox Hox) as (q & t & H1 & H2 & H3).
    assert (Hin : x ∈ T) by exact (proj2 (HT x (proj1 (added_exists _ _ _ _ _ _ _) Hx)) Hw).
    exists q. unfold attr_of. rewrite H1. split; [done|]. eapply heq_full_name; [exact Hq|]. by apply H3.
  - intros x Hx Hw. assert (Hnin : x ∉ T).
    { intros Hin. apply Hw. apply (heq_within _ _ c x Hq). by apply HT. }
    assert (Hx1 : exists_in (added p c op oc b (heap s)) x) by (by apply added_exists). destruct Hx1 as [ox Hox].
    destruct (t_obj _ _ _ TT x ox Hox) as (q & t & H1 & H2 & _). destruct (H2 Hnin) as [-> _].
    unfold attr_of. rewrite H1. simpl. change (Some (o_qname ox)) with (o_qname <$> Some ox). rewrite <- Hox.
    apply added_attr; done.
Qed.
Lemma alter_qname (f : obj -> obj) l (h : list obj) x : (forall o, o_qname (f o) = o_qname o) ->
  attr_of o_qname (alter f l h) x = attr_of o_qname h x.
Proof.
  intros Hf. unfold attr_of. destruct (decide (l = x)) as [->|]; [|by rewrite list_lookup_alter_ne].
  rewrite list_lookup_alter. destruct (h !! x); simpl; [by rewrite Hf|done].
Qed.
Lemma path_parents h h' l ls : (forall x, exists_in h x -> exists_in h' x) -> (forall x, exists_in h x -> parent_of h' x = parent_of h x) ->
  path h l ls -> path h' l ls.
Proof.
  intros H1 H2 Hp. apply path_ext with h; [done|]. intros x Hx. pose proof (path_in_exists _ _ _ _ Hp Hx). auto.
Qed.

(** connect adds a port below [x] and changes no other name. *)
Lemma connect_renamed s x r s' : WF0 (heap s) -> exists_in (heap s) x -> exists_in (heap s) r ->
  connect x r s = (Ok tt, s') ->
  (forall l, exists_in (heap s) l -> attr_of o_qname (heap s') l = attr_of o_qname (heap s) l /\ name_of (heap s') l = name_of (heap s) l
     /\ parent_of (heap s') l = parent_of (heap s) l /\ exists_in (heap s') l) /\
  (forall l, exists_in (heap s') l -> ~ exists_in (heap s) l ->
     exists q, attr_of o_qname (heap s') l = Some q /\ full_name (heap s') l q).
Proof.
  intros W [ox Hx] [oe Hr] E. pose proof (connect_cases s x r ox oe W Hx Hr) as Hc. cbv zeta in Hc.
  pose proof (pres_connect x r s) as Hm. rewrite E in Hm. simpl in Hm.
  pose proof (connect_parent s x r) as Hpar. rewrite E in Hpar. simpl in Hpar.
  destruct Hc as [[_ Hc]|(Hg & [[_ Hc]|(Hn & T & s1 & Hc & TT & HT)])]; rewrite Hc in E; try done. injection E as ->.
  set (u := sha s (elem_id_text (o_name ox) (o_name oe))) in *.
  set (pn := port_name (o_name ox) (o_name oe)) in *.
  set (po := port_obj u pn r) in *.
  set (h1 := pre_port x oe po (heap s)) in *.
  set (ox1 := s_ports (dset (o_uuid oe) (length (heap s)) (o_ports ox)) ox) in *.
  set (h2 := added x (length (heap s)) ox1 po false h1) in *.
  pose proof (touch_heq _ _ _ TT) as Hq. simpl in Hq.
  assert (Hlen : length h1 = S (length (heap s))) by (unfold h1, pre_port; rewrite alter_length, app_length; simpl; lia).
  split.
  - intros l Hl. pose proof Hl as Hll%exists_in_lt.
    assert (Hex1 : exists_in h1 l) by (rewrite exists_in_lt; lia).
    assert (Hex2 : exists_in h2 l) by (by apply added_exists).
    split; [|split; [|split; [by apply Hpar; try by eexists|by eapply mono_exists]]].
    + destruct Hex2 as [o2 Ho2]. destruct (t_obj _ _ _ TT l o2 Ho2) as (q & t & H1 & H2 & _).
      destruct H2 as [-> _]; [intros Hin; apply HT in Hin; [lia|done]|]. unfold attr_of. rewrite H1. simpl.
      change (Some (o_qname o2)) with (o_qname <$> Some o2). rewrite <- Ho2. unfold h2. rewrite added_attr by done.
      change (attr_of o_qname h1 l = attr_of o_qname (heap s) l). unfold h1, pre_port. rewrite alter_qname by done.
      unfold attr_of. by rewrite lookup_app_l.
    + rewrite (heq_name _ _ l Hq). unfold h2. rewrite added_name. unfold name_of, h1, pre_port.
      destruct (decide (x = l)) as [->|]; [|by rewrite list_lookup_alter_ne, lookup_app_l by done].
      rewrite list_lookup_alter, lookup_app_l by done. by destruct (heap s !! l).
  - intros l Hl Hnl. apply (heq_exists _ _ l Hq) in Hl. unfold h2 in Hl. rewrite added_exists in Hl.
    assert (Hll : l < length h1) by (by apply exists_in_lt). rewrite exists_in_lt in Hnl.
    assert (l = length (heap s)) as -> by lia.
    assert (Hex2 : exists_in h2 (length (heap s))) by (by apply added_exists). destruct Hex2 as [o2 Ho2].
    destruct (t_obj _ _ _ TT _ o2 Ho2) as (q & t & H1 & _ & H3). exists q. unfold attr_of. rewrite H1. split; [done|].
    eapply heq_full_name; [exact Hq|]. apply H3. by apply HT.
Qed.

Lemma ancestor_sub (h h' : list obj) a x : (forall y, exists_in h y -> parent_of h' y = parent_of h y) ->
  ancestor h a x -> ancestor h' a x.
Proof.
  intros H Ha. induction Ha as [a y Hpy|a z y Hpy _ IH].
  - apply anc_parent. rewrite H; [done|]. apply parent_exists. by rewrite Hpy.
  - eapply anc_up; [|exact IH]. rewrite H; [done|]. apply parent_exists. by rewrite Hpy.
Qed.
Lemma ancestor_sub_back (h h' : list obj) a x : (forall y, exists_in h y -> parent_of h' y = parent_of h y) ->
  (forall y q, parent_of h y = Some q -> exists_in h q) -> exists_in h x -> ancestor h' a x -> ancestor h a x.
Proof.
  intros H Hpar Hx Ha. induction Ha as [a y Hpy|a z y Hpy _ IH].
  - apply anc_parent. by rewrite <- H.
  - rewrite H in Hpy by done. eapply anc_up; [done|]. apply IH. by eapply Hpar.
Qed.
Lemma q_C05_wf s p c s' : WF0 (heap s) -> add_ok (heap s) p c -> add_element p c s = (Ok tt, s') ->
  (forall x, exists_in (heap s') x -> within (heap s') c x ->
     exists q, attr_of o_qname (heap s') x = Some q /\ full_name (heap s') x q) /\
  (forall x, exists_in (heap s) x -> ~ within (heap s') c x ->
     attr_of o_qname (heap s') x = attr_of o_qname (heap s) x).
Proof.
  intros W Hok E. change (renamed c s s').
  pose proof Hok as ([op Hp] & [oc Hc] & _).
  unfold add_element in E. rewrite (bind_ok _ _ _ _ _ (deref_ok _ _ _ Hp)) in E.
  destruct (add_base_cases s p c W Hok) as [[-> Eb]|(op' & oc' & Hne & Hp' & Hc' & [[_ Eb]|(Hn & T & s1 & Eb & TT & HT)])].
  { destruct (o_kind op); try (rewrite Eb in E; done); rewrite (bind_exn _ _ _ _ _ Eb) in E; done. }
  { destruct (o_kind op); try (rewrite Eb in E; done); rewrite (bind_exn _ _ _ _ _ Eb) in E; done. }
  assert (op' = op) as -> by congruence. assert (oc' = oc) as -> by congruence.
  pose proof (added_renamed s s1 p c op oc false T Hp Hc TT HT) as Hb.
  assert (Hbase : add_base p c s = (Ok tt, s') -> renamed c s s') by (rewrite Eb; intros [= <-]; exact Hb).
  destruct (o_kind op) eqn:Ek; try (by apply Hbase); rewrite (bind_ok _ _ _ _ _ Eb) in E.
  - (* edge *)
    unfold bind at 1, deref at 1 in E. destruct (heap s1 !! c) as [oc1|] eqn:Ec1; [|done].
    destruct (o_kind oc1); try (injection E as <-; exact Hb). unfold bind at 1, deref at 1 in E.
    destruct (heap s1 !! p) as [op1|] eqn:Ep1; [|done]. destruct (o_ready op1); [|done].
    rewrite (upd_ok _ _ _ _ Ep1) in E. injection E as <-.
    match goal with |- renamed c s (set_heap (alter ?f p (heap s1)) s1) => set (g := f) end.
    assert (Hpar : forall l, parent_of (alter g p (heap s1)) l = parent_of (heap s1) l).
    { intros l. unfold parent_of. destruct (decide (p = l)) as [->|]; [|by rewrite list_lookup_alter_ne].
      rewrite list_lookup_alter. by destruct (heap s1 !! l). }
    assert (Hnm : forall l, name_of (alter g p (heap s1)) l = name_of (heap s1) l).
    { intros l. unfold name_of. destruct (decide (p = l)) as [->|]; [|by rewrite list_lookup_alter_ne].
      rewrite list_lookup_alter. by destruct (heap s1 !! l). }
    assert (Hex : forall l, exists_in (alter g p (heap s1)) l <-> exists_in (heap s1) l).
    { intros l. rewrite !exists_in_lt. by rewrite alter_length. }
    assert (Hanc : forall l, within (alter g p (heap s1)) c l <-> within (heap s1) c l).
    { intros l. assert (Ha : forall hA hB a y, (forall z, parent_of hA z = parent_of hB z) -> ancestor hA a y -> ancestor hB a y).
      { intros hA hB a y HAB Ha. induction Ha; [apply anc_parent|eapply anc_up; [|done]]; by rewrite <- HAB. }
      unfold within. split; intros [->|H]; auto; right; eapply Ha; try exact H; intros; by rewrite Hpar. }
    destruct Hb as [Hb1 Hb2]. split; simpl.
    + intros x Hx Hw. destruct (Hb1 x) as (q & H1 & H2); [by apply Hex|by apply Hanc|]. exists q.
      rewrite alter_qname by done. split; [done|]. eapply full_name_ext; [exact H2|]. intros y Hy _.
      split; [by apply Hex|]. by rewrite Hpar, Hnm.
    + intros x Hx Hw. rewrite alter_qname by done. apply Hb2; [done|]. by rewrite <- Hanc.
  - (* relation *)
    unfold bind at 1, deref at 1 in E. destruct (heap s1 !! c) as [oc1|] eqn:Ec1; [|done].
    destruct (is_hyperelement (o_kind oc1)); [|injection E as <-; exact Hb].
    assert (W1 : WF0 (heap s1)).
    { eapply WF_heq; [exact (touch_heq _ _ _ TT)|]. simpl. apply added_wf; try done. congruence. }
    assert (Hp1 : exists_in (heap s1) p).
    { apply (heq_exists _ _ p (touch_heq _ _ _ TT)). simpl. apply added_exists. by eexists. }
    destruct (connect_renamed s1 c p s' W1 ltac:(by eexists) Hp1 E) as [Ho Hnew]. destruct Hb as [Hb1 Hb2].
    assert (Ha : forall l, exists_in (heap s1) l -> within (heap s1) c l <-> within (heap s') c l).
    { intros l Hl. unfold within. split; (intros [->|Ha]; [by left|right]).
      - apply (ancestor_sub (heap s1)); [|done]. intros y Hy. by destruct (Ho y Hy) as (_ & _ & -> & _).
      - apply (ancestor_sub_back (heap s1) (heap s') c l); try done.
        + intros y Hy. by destruct (Ho y Hy) as (_ & _ & -> & _).
        + intros y q Hq. eapply wf0_parent_exists; [exact W1|done]. }
    split.
    + intros x Hx Hw. destruct (decide (exists_in (heap s1) x)) as [Hx1|Hx1]; [|by apply Hnew].
      destruct (Hb1 x Hx1) as (q & H1 & H2); [by apply Ha|]. exists q. destruct (Ho x Hx1) as (-> & _).
      split; [done|]. eapply full_name_ext; [exact H2|]. intros y Hy _. destruct (Ho y Hy) as (_ & H3 & H4 & H5). done.
    + intros x Hx Hw. assert (Hx1 : exists_in (heap s1) x).
      { apply (heq_exists _ _ x (touch_heq _ _ _ TT)). simpl. by apply added_exists. }
      destruct (Ho x Hx1) as (-> & _). apply Hb2; [done|]. by rewrite (Ha x Hx1).
Qed.

Lemma q_C05 s p c s' : reach s -> add_ok (heap s) p c -> add_element p c s = (Ok tt, s') ->
  (forall x, exists_in (heap s') x -> within (heap s') c x ->
     exists q, attr_of o_qname (heap s') x = Some q /\ full_name (heap s') x q) /\
  (forall x, exists_in (heap s) x -> ~ within (heap s') c x ->
     attr_of o_qname (heap s') x = attr_of o_qname (heap s) x).
Proof. intros R Ho E. exact (q_C05_wf s p c s' (reach_wf s R) Ho E). Qed.

Lemma named_init ck hf : named (heap (init_st ck hf)).
Proof. intros l o H. done. Qed.
Lemma q_C05_history ck hf s l : history MKeep (init_st ck hf) s -> exists_in (heap s) l ->
  exists q, attr_of o_qname (heap s) l = Some q /\ full_name (heap s) l q.
Proof.
  intros H [o Ho]. exists (o_qname o). unfold attr_of. rewrite Ho. split; [done|].
  refine (history_named MKeep _ s ltac:(done) _ (named_init ck hf) H l o Ho).
  apply (reach_wf (init_st ck hf)). apply reach_init.
Qed.
