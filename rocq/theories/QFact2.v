(** * C39 *)
From Verif Require Import Spec Hierarchy Elements Factory History PDict PPath PExec PBfs PWF PMono PReach PHist Traverse SpecTrav QTrav QTrav2 SpecTensor Factorization SpecFact QFact.

Lemma firsts_in l x : x ∈ firsts l <-> x ∈ l.
Proof.
  induction l as [|y l IH]; cbn; [done|]. rewrite !elem_of_cons, elem_of_list_filter, IH. destruct (decide (x = y)); naive_solver.
Qed.
Lemma firsts_nodup l : NoDup (firsts l).
Proof.
  induction l as [|y l IH]; cbn; constructor; [rewrite elem_of_list_filter; naive_solver|by apply NoDup_filter].
Qed.
Lemma firsts_snoc l x : firsts (l ++ [x]) = firsts l ++ (if decide (x ∈ l) then [] else [x]).
Proof.
  induction l as [|y l IH]; [done|]. cbn. rewrite IH, filter_app. f_equal. f_equal.
  destruct (decide (x ∈ y :: l)) as [H|H].
  - apply elem_of_cons in H. destruct (decide (x ∈ l)); [done|]. destruct H as [->|H]; [|done]. rewrite filter_cons_False; [done|naive_solver].
  - apply not_elem_of_cons in H as [H1 H2]. rewrite decide_False by done. by rewrite filter_cons_True.
Qed.
Section grp.
  Context (f : loc -> uid).
  Definition group_of (rs : list loc) (k : uid) : list loc := filter (fun r => f r = k) rs.
  Definition groups (rs : list loc) : dict uid (list loc) := map (fun k => (k, group_of rs k)) (firsts (map f rs)).
  Lemma dget_map (g : uid -> list loc) ks k : dget k (map (fun k => (k, g k)) ks) = if decide (k ∈ ks) then Some (g k) else None.
  Proof.
    induction ks as [|k' ks IH]; [done|]. cbn. destruct (decide (k = k')) as [->|N].
    - rewrite decide_True; [done|left].
    - rewrite IH. destruct (decide (k ∈ ks)); [rewrite decide_True by (by right)|rewrite decide_False by (rewrite elem_of_cons; naive_solver)]; done.
  Qed.
  Lemma dset_map (g : uid -> list loc) ks k v : k ∈ ks -> NoDup ks -> dset k v (map (fun k => (k, g k)) ks) = map (fun k' => (k', if decide (k' = k) then v else g k')) ks.
  Proof.
    intros Hin Hnd. induction ks as [|k' ks IH]; [by apply elem_of_nil in Hin|]. apply NoDup_cons in Hnd as [H1 H2]. cbn. destruct (decide (k = k')) as [->|N].
    - rewrite decide_True by done. f_equal. apply map_ext_in. intros a Ha. apply elem_of_list_In in Ha. rewrite decide_False; [done|]. intros ->. done.
    - rewrite decide_False by congruence. f_equal. apply IH; [|done]. by apply elem_of_cons in Hin as [?|?].
  Qed.
  Lemma groups_get rs k : dget k (groups rs) = if decide (k ∈ map f rs) then Some (group_of rs k) else None.
  Proof.
    unfold groups. rewrite dget_map. destruct (decide (k ∈ map f rs)) as [H|H]; [rewrite decide_True|rewrite decide_False]; rewrite ?firsts_in; done.
  Qed.
  Lemma groups_snoc rs r : dappend (f r) r (groups rs) = groups (rs ++ [r]).
  Proof.
    unfold dappend. rewrite groups_get. unfold groups at 2. rewrite map_app. cbn [map]. rewrite firsts_snoc.
    assert (G : forall k, group_of (rs ++ [r]) k = if decide (k = f r) then group_of rs k ++ [r] else group_of rs k).
    { intros k. unfold group_of. rewrite filter_app. destruct (decide (k = f r)) as [->|N]; [by rewrite filter_cons_True|rewrite filter_cons_False by congruence; apply app_nil_r]. }
    destruct (decide (f r ∈ map f rs)) as [H|H].
    - cbn [default]. unfold groups. rewrite dset_map; [|by rewrite firsts_in|apply firsts_nodup]. rewrite app_nil_r. apply map_ext. intros k. f_equal. rewrite G.
      destruct (decide (k = f r)); by subst.
    - rewrite dset_new; [|rewrite groups_get; by rewrite decide_False]. rewrite map_app. cbn [map default]. unfold groups. f_equal.
      + apply map_ext_in. intros k Hk. apply elem_of_list_In in Hk. rewrite firsts_in in Hk. rewrite G. rewrite decide_False; [done|]. intros ->; done.
      + rewrite G, decide_True by done. f_equal. f_equal. unfold group_of. rewrite filter_none; [done|]. intros x Hx E. apply H. apply elem_of_list_In, in_map_iff. exists x. split; [done|by apply elem_of_list_In].
  Qed.
End grp.
Section s.
  Context (s : st) (W : WF0 (heap s)).
  Let h := heap s.
  Lemma parent_uuid_eq r : exists_in h r -> parent_uuid s r = match parent_of h r with Some _ => Ok (puuid h r) | None => Exn AttributeError end.
  Proof.
    intros [o Ho]. unfold parent_uuid, puuid, parent_of. fold h. rewrite Ho. cbn. destruct (o_parent o) as [p|] eqn:Ep; [|done].
    destruct (wf0_parent_exists (heap s) r p W) as [op Hop]; [unfold parent_of; fold h; by rewrite Ho|]. fold h in Hop. unfold uuid_of. by rewrite Hop.
  Qed.
  Lemma collect_eq rs : (forall r, r ∈ rs -> exists_in h r /\ is_Some (parent_of h r)) -> forall a b,
    collect s rs (groups (puuid h) a) (groups (puuid h) b) =
    Ok (groups (puuid h) (a ++ filter (inward h) rs), groups (puuid h) (b ++ filter (purely_out h) rs)).
  Proof.
    intros Hrs. induction rs as [|r rs IH]; intros a b; [cbn; by rewrite !app_nil_r|]. destruct (Hrs r ltac:(left)) as [He [p Hp]]. cbn [collect].
    rewrite parent_uuid_eq, Hp by done. destruct He as [o Ho]. fold h. rewrite Ho. rewrite !filter_cons.
    assert (D : dir_of h r = Some (o_dir o)) by (unfold dir_of; by rewrite Ho).
    assert (IH' := IH ltac:(intros; apply Hrs; by right)).
    destruct (o_dir o) eqn:Ed.
    - rewrite (decide_True (P:=inward h r)) by (unfold inward; rewrite D; auto). rewrite (decide_False (P:=purely_out h r)) by (unfold purely_out; by rewrite D).
      rewrite groups_snoc, IH'. by rewrite <- app_assoc.
    - rewrite (decide_False (P:=inward h r)) by (unfold inward; rewrite D; naive_solver). rewrite (decide_True (P:=purely_out h r)) by (unfold purely_out; by rewrite D).
      rewrite groups_snoc, IH'. by rewrite <- app_assoc.
    - rewrite (decide_True (P:=inward h r)) by (unfold inward; rewrite D; auto). rewrite (decide_False (P:=purely_out h r)) by (unfold purely_out; by rewrite D).
      rewrite groups_snoc, IH'. by rewrite <- app_assoc.
  Qed.
  (** a relation without container *)
  Lemma collect_orphan rs r : (forall r, r ∈ rs -> exists_in h r) -> r ∈ rs -> parent_of h r = None -> forall a b, collect s rs a b = Exn AttributeError.
  Proof.
    intros Hrs Hr Hp. induction rs as [|r' rs IH]; intros a b; [by apply elem_of_nil in Hr|]. cbn [collect].
    rewrite parent_uuid_eq by (apply Hrs; left). destruct (Hrs r' ltac:(left)) as [o Ho]. fold h. rewrite Ho.
    destruct (parent_of h r') eqn:E; [|done]. apply elem_of_cons in Hr as [->|Hr]; [congruence|].
    assert (IH' := IH ltac:(intros; apply Hrs; by right) Hr). destruct (o_dir o); apply IH'.
  Qed.
  Lemma rpair_key_eq b k ins os outs : (forall i, i ∈ ins -> is_Some (ep_of h i)) -> (forall o, o ∈ os -> is_Some (ep_of h o)) -> dget k outs = Some os ->
    rpair_key b s k ins outs = Ok (filter (no_loop h b) (all_pairs ins os)).
  Proof.
    intros Hi Ho Hk. induction ins as [|i ins IH]; [done|]. cbn [rpair_key all_pairs flat_map]. rewrite Hk.
    rewrite (proj2 (pair_with_eq s W b i os (Hi i ltac:(left)) Ho)). rewrite IH by (intros; apply Hi; by right). fold h. by rewrite filter_app.
  Qed.
  Lemma group_filter R (P : loc -> Prop) `{forall x, Decision (P x)} k : group_of (puuid h) (filter P R) k = filter (fun r => P r /\ puuid h r = k) R.
  Proof. unfold group_of. rewrite list_filter_filter. apply list_filter_iff. naive_solver. Qed.
  Lemma rpair_all_eq b R : (forall r, r ∈ R -> is_Some (ep_of h r)) ->
    forall ks, (forall k, k ∈ ks -> k ∈ map (puuid h) (filter (purely_out h) R)) ->
    rpair_all b s (map (fun k => (k, group_of (puuid h) (filter (inward h) R) k)) ks) (groups (puuid h) (filter (purely_out h) R)) =
    Ok (flat_map (fun k => filter (no_loop h b) (all_pairs (filter (fun r => inward h r /\ puuid h r = k) R) (filter (fun r => purely_out h r /\ puuid h r = k) R))) ks).
  Proof.
    intros HR ks. induction ks as [|k ks IH]; intros Hk; [done|]. cbn [map rpair_all flat_map].
    rewrite (rpair_key_eq b k _ (group_of (puuid h) (filter (purely_out h) R) k)).
    - rewrite IH by (intros; apply Hk; by right). by rewrite !group_filter.
    - intros i Hi. rewrite group_filter in Hi. apply elem_of_list_filter in Hi as [_ Hi]. by apply HR.
    - intros i Hi. rewrite group_filter in Hi. apply elem_of_list_filter in Hi as [_ Hi]. by apply HR.
    - rewrite groups_get, decide_True; [done|]. apply Hk; left.
  Qed.
  Lemma rpair_all_err b R : (forall r, r ∈ R -> is_Some (ep_of h r)) ->
    forall ks k, (forall k, k ∈ ks -> k ∈ map (puuid h) (filter (inward h) R)) -> k ∈ ks -> k ∉ map (puuid h) (filter (purely_out h) R) ->
    rpair_all b s (map (fun k => (k, group_of (puuid h) (filter (inward h) R) k)) ks) (groups (puuid h) (filter (purely_out h) R)) = Exn KeyError.
  Proof.
    intros HR ks k Hks Hk Hn. induction ks as [|k' ks IH]; [by apply elem_of_nil in Hk|]. cbn [map rpair_all].
    destruct (decide (k' ∈ map (puuid h) (filter (purely_out h) R))) as [Y|N].
    - rewrite (rpair_key_eq b k' _ (group_of (puuid h) (filter (purely_out h) R) k')).
      + rewrite IH; [done|intros; apply Hks; by right|]. apply elem_of_cons in Hk as [->|Hk]; done.
      + intros i Hi. rewrite group_filter in Hi. apply elem_of_list_filter in Hi as [_ Hi]. by apply HR.
      + intros i Hi. rewrite group_filter in Hi. apply elem_of_list_filter in Hi as [_ Hi]. by apply HR.
      + rewrite groups_get, decide_True; done.
    - assert (G : group_of (puuid h) (filter (inward h) R) k' <> []).
      { pose proof (Hks k' ltac:(left)) as I. apply elem_of_list_In, in_map_iff in I as (r & Er & Hr). apply elem_of_list_In in Hr.
        intros Z. assert (r ∈ group_of (puuid h) (filter (inward h) R) k') by (unfold group_of; by apply elem_of_list_filter). rewrite Z in *. by eapply elem_of_nil. }
      destruct (group_of (puuid h) (filter (inward h) R) k') as [|i is_] eqn:E; [done|]. cbn [rpair_key].
      rewrite groups_get, decide_False; done.
  Qed.
  Lemma in_puuids (P : loc -> Prop) `{forall x, Decision (P x)} R k : k ∈ map (puuid h) (filter P R) <-> exists r, r ∈ R /\ P r /\ puuid h r = k.
  Proof.
    rewrite elem_of_list_In, in_map_iff. split.
    - intros (r & E & Hr). apply elem_of_list_In, elem_of_list_filter in Hr. naive_solver.
    - intros (r & Hr & Hp & E). exists r. split; [done|]. apply elem_of_list_In, elem_of_list_filter. done.
  Qed.
  Lemma sel_rels sel : List.filter (of_kind k_rel s) sel = selected h KRel sel.
  Proof.
    apply filter_pred. intros x Hx. unfold of_kind, kind_of. fold h. destruct (h !! x) as [o|]; [|done]. cbn. destruct (o_kind o); naive_solver.
  Qed.
  Lemma sel_rel_exists sel r : r ∈ selected h KRel sel -> exists_in h r.
  Proof.
    intros H. apply elem_of_list_filter in H as [H _]. unfold kind_of in H. destruct (h !! r) as [o|] eqn:E; [by exists o|done].
  Qed.
  Lemma q_C39 b sel : rels_complete h sel ->
    (balanced h sel -> fact_relations b sel s = Ok (rel_pairs h b (selected h KRel sel))) /\
    (~ balanced h sel -> fact_relations b sel s = Exn KeyError).
  Proof.
    intros Hc. unfold fact_relations. rewrite sel_rels. set (R := selected h KRel sel).
    assert (HR : forall r, r ∈ R -> exists_in h r /\ is_Some (parent_of h r) /\ is_Some (ep_of h r)).
    { intros r Hr. pose proof (sel_rel_exists sel r Hr). apply elem_of_list_filter in Hr as [Hk Hr]. destruct (Hc r Hr Hk). done. }
    assert (E : collect s R [] [] = Ok (groups (puuid h) (filter (inward h) R), groups (puuid h) (filter (purely_out h) R))).
    { apply (collect_eq R) with (a := []) (b := []). intros r Hr; destruct (HR r Hr) as (? & ? & ?); done. }
    rewrite E. split; intros B.
    - unfold rel_pairs. apply (rpair_all_eq b R) with (ks := firsts (map (puuid h) (filter (inward h) R))); [intros r Hr; by apply HR|]. intros k Hk. apply firsts_in, in_puuids in Hk as (r & Hr & Hi & <-).
      apply in_puuids. destruct (B r Hr Hi) as (r' & ? & ? & ?). by exists r'.
    - assert (exists r, r ∈ R /\ inward h r /\ puuid h r ∉ map (puuid h) (filter (purely_out h) R)) as (r & Hr & Hi & Hn).
      { destruct (decide (Exists (fun r => inward h r /\ puuid h r ∉ map (puuid h) (filter (purely_out h) R)) R)) as [Y|N].
        - apply Exists_exists in Y. naive_solver.
        - destruct B. intros r Hr Hi. apply not_Exists_Forall in N; [|intros ?; apply _]. rewrite Forall_forall in N.
          destruct (decide (puuid h r ∈ map (puuid h) (filter (purely_out h) R))) as [Y'|N'].
          + apply in_puuids in Y' as (r' & ? & ? & ?). by exists r'.
          + exfalso. apply (N r Hr). split; [exact Hi|exact N']. }
      apply (rpair_all_err b R) with (k := puuid h r) (ks := firsts (map (puuid h) (filter (inward h) R))); [intros r' Hr'; by apply HR|intros k Hk; apply (proj1 (firsts_in _ _) Hk)|apply firsts_in, in_puuids; by exists r|done].
  Qed.
  Lemma q_C39_orphan b sel r : r ∈ sel -> kind_of h r = Some KRel -> parent_of h r = None -> fact_relations b sel s = Exn AttributeError.
  Proof.
    intros Hr Hk Hp. unfold fact_relations. rewrite sel_rels. rewrite (collect_orphan _ r); [done|apply sel_rel_exists| |done]. by apply elem_of_list_filter.
  Qed.
  Lemma q_C39_pairs b sel i o : (i, o) ∈ rel_pairs h b (selected h KRel sel) <->
    (i ∈ selected h KRel sel /\ o ∈ selected h KRel sel /\ inward h i /\ purely_out h o /\ puuid h i = puuid h o /\ no_loop h b (i, o)).
  Proof.
    unfold rel_pairs. rewrite elem_of_list_In, in_flat_map. setoid_rewrite <- elem_of_list_In. split.
    - intros (k & Hk & Hp). apply elem_of_list_filter in Hp as [Hn Hp]. unfold all_pairs in Hp.
      apply elem_of_list_In, in_flat_map in Hp as (i' & Hi & Hp). apply in_map_iff in Hp as (o' & Eo & Ho).
      apply elem_of_list_In, elem_of_list_filter in Hi. apply elem_of_list_In, elem_of_list_filter in Ho. simplify_eq. destruct Hi as [[? ?] ?], Ho as [[? ?] ?].
      split_and!; try done. congruence.
    - intros (Hi & Ho & Ii & Oo & E & Hn). exists (puuid h i). split; [apply firsts_in, in_puuids; by exists i|]. apply elem_of_list_filter. split; [done|].
      unfold all_pairs. apply elem_of_list_In, in_flat_map. exists i. split; [apply elem_of_list_In, elem_of_list_filter; done|].
      apply in_map_iff. exists o. split; [done|]. apply elem_of_list_In, elem_of_list_filter. done.
  Qed.
End s.
