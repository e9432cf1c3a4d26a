(** * C38, C39, C56 *)
From Verif Require Import Spec Hierarchy Elements Factory History PDict PPath PExec PBfs PWF PMono PReach PHist Traverse SpecTrav QTrav QTrav2 SpecTensor Factorization SpecFact.

Section s.
  Context (s : st) (W : WF0 (heap s)).
  Let h := heap s.
  Lemma filter_pred {A} (f : A -> bool) (P : A -> Prop) `{forall x, Decision (P x)} l : (forall x, x ∈ l -> f x = true <-> P x) -> List.filter f l = filter P l.
  Proof.
    rewrite filter_bool. induction l as [|x l IH]; intros Hx; [done|]. rewrite !filter_cons. rewrite IH by (intros; apply Hx; by right).
    pose proof (Hx x ltac:(left)) as E. destruct (decide (P x)), (decide (f x = true)); tauto || done.
  Qed.
  Lemma rels_exist e r : r ∈ rels_of h e -> exists o, h !! r = Some o /\ o_kind o = KRel.
  Proof.
    intros Hr. apply elem_of_list_filter in Hr as [Ha _]. unfold accepts, is_kind in Ha. destruct (h !! r) as [o|]; [|done]. exists o. split; [done|]. by destruct (o_kind o).
  Qed.
  Lemma subs_rel (e : loc) (g : direction -> bool) (P : loc -> Prop) `{forall x, Decision (P x)} : exists_in h e ->
    (forall r o, h !! r = Some o -> g (o_dir o) = true <-> P r) ->
    fst (get_subelements e (fun _ o => k_rel (o_kind o) && g (o_dir o)) s) = Ok (filter P (rels_of h e)).
  Proof.
    intros [o Ho] HP. unfold get_subelements. fold h. rewrite Ho. cbn [fst]. f_equal. unfold rels_of, fkids, children. rewrite Ho. unfold dvals.
    rewrite filter_bool. rewrite list_filter_filter. apply list_filter_iff. intros r. unfold accepts, is_kind. destruct (h !! r) as [or|] eqn:Er; [|naive_solver].
    rewrite andb_true_iff. rewrite (HP r or Er). tauto.
  Qed.
  Lemma in_rels e : exists_in h e -> fst (incoming_relations e s) = Ok (filter (inward h) (rels_of h e)).
  Proof.
    intros He. apply (subs_rel e d_in); [done|]. intros r o Ho. unfold inward, dir_of. rewrite Ho. cbn. destruct (o_dir o); cbn; naive_solver.
  Qed.
  Lemma out_rels e : exists_in h e -> fst (outgoing_relations e s) = Ok (filter (outward h) (rels_of h e)).
  Proof.
    intros He. apply (subs_rel e d_out); [done|]. intros r o Ho. unfold outward, dir_of. rewrite Ho. cbn. destruct (o_dir o); cbn; naive_solver.
  Qed.
  Lemma ep_uuid_eq r p : ep_of h r = Some p -> ep_uuid s r = Ok (uuid_of h p).
  Proof.
    unfold ep_of, ep_uuid. fold h. destruct (h !! r) as [o|] eqn:Er; [|done]. cbn. intros Hp. rewrite Hp. destruct (wf_ep _ W r o p Er Hp) as [op Hop].
    fold h in Hop. unfold uuid_of. by rewrite Hop.
  Qed.
  Lemma pair_with_eq b i outs : (is_Some (ep_of h i)) -> (forall o, o ∈ outs -> is_Some (ep_of h o)) ->
    pair_with b s i outs = Ok (filter (no_loop h b) (map (pair i) outs)) /\ rpair_with b s i outs = Ok (filter (no_loop h b) (map (pair i) outs)).
  Proof.
    intros [a Ha]. induction outs as [|o outs IH]; intros Ho; [done|]. destruct (Ho o ltac:(left)) as [c Hc]. cbn [pair_with rpair_with map].
    rewrite (ep_uuid_eq i a Ha), (ep_uuid_eq o c Hc). destruct IH as [-> ->]; [intros; apply Ho; by right|]. rewrite filter_cons.
    assert (E : negb (bool_decide (uuid_of h a = uuid_of h c)) || b = true <-> no_loop h b (i, o)).
    { unfold no_loop. cbn. rewrite Ha, Hc, orb_true_iff, negb_true_iff, bool_decide_eq_false. tauto. }
    assert (E' : negb (bool_decide (uuid_of h c = uuid_of h a)) || b = true <-> no_loop h b (i, o)).
    { unfold no_loop. cbn. rewrite Ha, Hc, orb_true_iff, negb_true_iff, bool_decide_eq_false. split; (intros [X|X]; [right|left]); auto. }
    destruct (decide (no_loop h b (i, o))) as [H|H].
    - by rewrite (proj2 E H), (proj2 E' H).
    - destruct (negb _ || b); [by destruct H; apply E|]. destruct (negb (bool_decide (uuid_of h c = _)) || b); [by destruct H; apply E'|done].
  Qed.
  Lemma pair_all_eq b ins outs : (forall i, i ∈ ins -> is_Some (ep_of h i)) -> (forall o, o ∈ outs -> is_Some (ep_of h o)) ->
    pair_all b s ins outs = Ok (filter (no_loop h b) (all_pairs ins outs)).
  Proof.
    intros Hi Ho. induction ins as [|i ins IH]; [done|]. cbn [pair_all all_pairs flat_map]. rewrite (proj1 (pair_with_eq b i outs (Hi i ltac:(left)) Ho)).
    rewrite IH by (intros; apply Hi; by right). by rewrite filter_app.
  Qed.
  Lemma all_pairs_filter {A B} (P : A -> Prop) (Q : B -> Prop) `{!forall x, Decision (P x)} `{!forall x, Decision (Q x)} xs ys :
    all_pairs (filter P xs) (filter Q ys) = filter (fun p => P p.1 /\ Q p.2) (all_pairs xs ys).
  Proof.
    unfold all_pairs. induction xs as [|x xs IH]; [done|]. cbn [flat_map]. rewrite filter_app, filter_cons. rewrite <- IH.
    assert (E : filter (fun p : A * B => P p.1 /\ Q p.2) (map (pair x) ys) = if decide (P x) then map (pair x) (filter Q ys) else []).
    { clear IH. induction ys as [|y ys IHy]; [by destruct (decide _)|]. cbn [map]. rewrite !filter_cons, IHy. cbn. destruct (decide (P x)) as [Hp|Hp].
      - destruct (decide (Q y)); [by rewrite decide_True|by rewrite decide_False by naive_solver].
      - by rewrite decide_False by naive_solver. }
    rewrite E. destruct (decide (P x)); done.
  Qed.
  Lemma ep_in_sel sel r : (forall l, l ∈ sel -> exists_in h l) -> ep_in s (List.filter (of_kind k_node s) sel) r = true <-> ep_selected h sel r.
  Proof.
    intros Hs. unfold ep_in, ep_selected, ep_of. fold h. destruct (h !! r) as [o|]; [|done]. cbn. destruct (o_endpoint o) as [p|]; [|done].
    rewrite bool_decide_eq_true, filter_bool, elem_of_list_filter. unfold of_kind, kind_of. fold h.
    destruct (h !! p) as [op|] eqn:Ep; cbn.
    - destruct (o_kind op); cbn; naive_solver.
    - naive_solver.
  Qed.
  Lemma q_C38 b sel : (forall l, l ∈ sel -> exists_in h l) ->
    fact_subset b sel s = Ok (flat_map (fun e => filter (admissible h sel b) (all_pairs (rels_of h e) (rels_of h e))) (selected h KEdge sel)).
  Proof.
    intros Hs. unfold fact_subset. assert (E : List.filter (of_kind k_edge s) sel = selected h KEdge sel).
    { apply filter_pred. intros x Hx. unfold of_kind, kind_of. fold h. destruct (h !! x) as [o|]; [|done]. cbn. destruct (o_kind o); naive_solver. }
    rewrite E. assert (He : forall e, e ∈ selected h KEdge sel -> exists_in h e) by (intros e H; apply elem_of_list_filter in H as [_ H]; by apply Hs).
    revert He. generalize (selected h KEdge sel). induction l as [|e es IH]; intros He; [done|]. cbn [fact_edges flat_map].
    rewrite in_rels, out_rels by (apply He; left).
    rewrite !(filter_pred (ep_in s _) (ep_selected h sel)) by (intros; by apply ep_in_sel).
    assert (Hep : forall r (l : list loc), r ∈ filter (ep_selected h sel) l -> is_Some (ep_of h r)).
    { intros r l Hr. apply elem_of_list_filter in Hr as [Hr _]. unfold ep_selected in Hr. by destruct (ep_of h r). }
    rewrite pair_all_eq by (intros; by eapply Hep). rewrite IH by (intros; apply He; by right). f_equal. f_equal.
    rewrite !list_filter_filter, all_pairs_filter, list_filter_filter. apply list_filter_iff. intros p. unfold admissible. tauto.
  Qed.
End s.
