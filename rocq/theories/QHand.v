(** * Proofs of C99: the total degree is a sum over edges *)
From Verif Require Import Spec Hierarchy Elements Factory History PDict PPath PExec PBfs PWF PMono PReach PHist Traverse SpecTrav QTrav QTrav2 QTrav3 Homomorphism SpecHom QHom HTraverse Tensor SpecTensor QTensor QTensor2 QTensor3 SpecLap QLap SpecEntropy QEntropy SpecIso QIso SpecPad QPad SpecWeight QWeight SpecHand.
Local Open Scope nat_scope.

Lemma qsum_list_cons q l : qsum_list (q :: l) = (q + qsum_list l)%Qc.
Proof. done. Qed.
Lemma qsum_list_plus {A} (F G : A -> Qc) l : qsum_list (map (fun a => (F a + G a)%Qc) l) = (qsum_list (map F l) + qsum_list (map G l))%Qc.
Proof. induction l as [|a l IH]; [change (0 = 0 + 0)%Qc; ring|]. cbn [map]. rewrite !qsum_list_cons, IH. ring. Qed.
Lemma qsum_list_swap {A B} (F : A -> B -> Qc) l l' :
  qsum_list (map (fun a => qsum_list (map (F a) l')) l) = qsum_list (map (fun b => qsum_list (map (fun a => F a b) l)) l').
Proof.
  induction l as [|a l IH].
  - cbn [map]. symmetry. by apply qsum_list_zero.
  - cbn [map]. rewrite qsum_list_cons, IH, <- qsum_list_plus. apply qsum_list_ext. intros b _. by rewrite qsum_list_cons.
Qed.
Lemma qsum_list_const {A} (P : A -> Prop) `{!forall x, Decision (P x)} w l :
  qsum_list (map (fun x => if decide (P x) then w else 0%Qc) l) = (qnat (length (filter P l)) * w)%Qc.
Proof.
  rewrite <- qsum_list_count. induction l as [|a l IH]; [change (0 = 0 * w)%Qc; ring|]. cbn [map]. rewrite !qsum_list_cons, IH.
  destruct (decide (P a)); ring.
Qed.
Lemma qnat_sum {A} (f : A -> nat) l : qnat (sum_list_with f l) = qsum_list (map (fun a => qnat (f a)) l).
Proof. induction l as [|a l IH]; [done|]. cbn [map sum_list_with]. by rewrite qnat_plus, qsum_list_cons, IH. Qed.
(** A set of nodes listed twice *)
Lemma count_members (n p : list loc) : NoDup n -> (forall a, a ∈ p -> a ∈ n) -> length (filter (fun a => a ∈ p) n) = length (remove_dups p).
Proof.
  intros N Hin. apply Permutation_length, NoDup_Permutation; [by apply NoDup_filter|apply NoDup_remove_dups|].
  intros a. rewrite elem_of_list_filter, elem_of_remove_dups. naive_solver.
Qed.

Section full.
  Context (s : st) (c lim : nat) (x : hom) (T : tensors) (R : reach s) (G : closed_graph (heap s) c) (Hl : work (heap s) c < lim) (HC : computes lim c s x T).
  Let D := full_D s c lim x T R G Hl HC.
  Let N := nodes_nodup (heap s) c (reach_wf s R).
  Let h := heap s.
  Lemma total_nodes (F : loc -> Qc) : (forall i a, nodes_of h c !! i = Some a -> degree_matrix T i = F a) -> total_deg T = qsum_list (map F (nodes_of h c)).
  Proof. intros K. unfold total_deg. rewrite (d_n h c T D). by apply qsum_index. Qed.
  Lemma full_handshake : undirected h c ->
    total_deg T = qsum_list (map (fun e => (qnat (arity h e) * edge_amount h e)%Qc) (connecting h c)).
  Proof.
    intros V. rewrite (total_nodes (fun a => qsum_list (map (edge_amount h) (proper_edges h c a)))).
    2: { intros i a Ha. by apply (full_wt_degree s c lim x T R G Hl HC V). }
    rewrite (qsum_list_ext _ (fun a => qsum_list (map (fun e => if decide (a ∈ endpoints h e /\ 2 <= arity h e) then edge_amount h e else 0%Qc) (edges_of h c)))).
    2: { intros a _. unfold proper_edges. symmetry. apply sum_filter. }
    rewrite qsum_list_swap. unfold connecting. rewrite <- (sum_filter (fun e => 2 <= arity h e) (fun e => (qnat (arity h e) * edge_amount h e)%Qc)).
    apply qsum_list_ext. intros e He. destruct (decide (2 <= arity h e)) as [K|K].
    - rewrite (qsum_list_ext _ (fun a => if decide (a ∈ endpoints h e) then edge_amount h e else 0%Qc)).
      + rewrite qsum_list_const, count_members; [done|exact N|]. intros a Ha. by apply (endpoints_nodes h c G e a).
      + intros a _. destruct (decide (_ /\ _)), (decide (a ∈ _)); try done; tauto.
    - apply qsum_list_zero. intros a _. rewrite decide_False; [done|]. tauto.
  Qed.
  Lemma full_handshake_plain : undirected h c -> unweighted h c -> total_deg T = qnat (sum_list_with (arity h) (connecting h c)).
  Proof.
    intros V U. rewrite (total_nodes (fun a => qnat (length (proper_edges h c a)))).
    2: { intros i a Ha. destruct (q_C34 h c G T D U V) as (_ & _ & K). by apply K. }
    rewrite (qsum_list_ext _ (fun a => qsum_list (map (fun e => if decide (a ∈ endpoints h e /\ 2 <= arity h e) then 1%Qc else 0%Qc) (edges_of h c)))).
    2: { intros a _. unfold proper_edges. symmetry. apply qsum_list_count. }
    rewrite qsum_list_swap, qnat_sum. unfold connecting. rewrite <- (sum_filter (fun e => 2 <= arity h e) (fun e => qnat (arity h e))).
    apply qsum_list_ext. intros e He. destruct (decide (2 <= arity h e)) as [K|K].
    - rewrite (qsum_list_ext _ (fun a => if decide (a ∈ endpoints h e) then 1%Qc else 0%Qc)).
      + rewrite qsum_list_const, count_members; [unfold arity; ring|exact N|]. intros a Ha. by apply (endpoints_nodes h c G e a).
      + intros a _. destruct (decide (_ /\ _)), (decide (a ∈ _)); try done; tauto.
    - apply qsum_list_zero. intros a _. rewrite decide_False; [done|]. tauto.
  Qed.
  Lemma full_one_way : unweighted h c -> one_way h c ->
    (forall i a, nodes_of h c !! i = Some a -> degree_matrix T i = qnat (leaving h c a + entering h c a)) /\
    total_deg T = qnat (sum_list_with (fun e => length (sources h c e) + length (sinks h c e)) (edges_of h c)).
  Proof.
    intros U O.
    assert (K : forall i a, nodes_of h c !! i = Some a -> degree_matrix T i = qnat (leaving h c a + entering h c a)).
    { intros i a Ha. rewrite (q_degree h c G T D U i a Ha). unfold node_degree. destruct (decide _) as [Fa|_]; [|done].
      rewrite Forall_forall in Fa.
      assert (X : forall e, e ∈ edges_of h c -> leads_to h c e a = [] /\ comes_from h c e a = []).
      { intros e He. destruct (leads_to h c e a) as [|b l] eqn:El.
        - split; [done|]. by apply Fa.
        - exfalso. assert (C : comes_from h c e a <> []) by (intros E; apply (Fa e He) in E; congruence).
          destruct (comes_from h c e a) as [|b' l'] eqn:Ec; [done|].
          assert (Hb : b ∈ leads_to h c e a) by (rewrite El; left). assert (Hb' : b' ∈ comes_from h c e a) by (rewrite Ec; left).
          apply elem_of_list_filter in Hb as [Hb _], Hb' as [Hb' _]. exact (O e a b b' He Hb Hb'). }
      unfold leaving, entering. rewrite !filter_none; [cbn; change (qnat 0) with 0%Qc; ring| |].
      - intros e He Y. apply Y. by apply X.
      - intros e He Y. apply Y. by apply X. }
    split; [exact K|]. rewrite (total_nodes _ K), qnat_sum.
    rewrite (qsum_list_ext _ (fun a => (qsum_list (map (fun e => if decide (leads_to h c e a <> []) then 1%Qc else 0%Qc) (edges_of h c)) +
       qsum_list (map (fun e => if decide (comes_from h c e a <> []) then 1%Qc else 0%Qc) (edges_of h c)))%Qc)).
    2: { intros a _. by rewrite qnat_plus, !qsum_list_count. }
    rewrite qsum_list_plus, (qsum_list_swap (fun a e => if decide (leads_to h c e a <> []) then 1%Qc else 0%Qc)), (qsum_list_swap (fun a e => if decide (comes_from h c e a <> []) then 1%Qc else 0%Qc)), <- qsum_list_plus. apply qsum_list_ext. intros e _. by rewrite qnat_plus, !qsum_list_count.
  Qed.
End full.
