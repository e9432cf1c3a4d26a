(** * C43, C57 *)
From Verif Require Import Spec Hierarchy Elements Factory History PDict PPath PWF PReach Traverse SpecTrav QTrav QTrav2 QTrav3 QueryEngine SpecQuery.

Section s.
  Context (s : st) (R : reach s).
  Let h := heap s.
  Lemma visit_all_q ls x : visit_all q_visitor s ls x = (Ok (map (fun _ => tt) ls), x ++ map (fun l => (l, false)) ls).
  Proof.
    revert x. induction ls as [|l ls IH]; intros x; [cbn; by rewrite app_nil_r|]. cbn [visit_all q_visitor map]. rewrite IH. by rewrite <- app_assoc.
  Qed.
  Definition vis (q : query) : list loc := map fst (execute_bfs (S (length h)) (q_trav q) q_visitor (q_start q) s []).2.
  Lemma vis_same q q' : same_def q q' -> vis q' = vis q.
  Proof. destruct q, q'. intros (E1 & E2 & E3). cbn in *. by subst. Qed.
  Lemma through_exists f a y : through f h a y -> exists_in h y.
  Proof. intros H. assert (accepts f h y = true) as Ha by (by destruct H). unfold accepts in Ha. destruct (h !! y) as [o|] eqn:E; [by exists o|done]. Qed.
  Lemma vis_spec q : exists_in h (q_start q) -> NoDup (vis q) /\ (forall x, x ∈ vis q <-> q_visits h q x) /\
    forall lim x, fits h lim q -> exists bs, execute_bfs lim (q_trav q) q_visitor (q_start q) s x = (Ok bs, s, x ++ map (fun l => (l, false)) (vis q)).
  Proof.
    intros He. destruct (q_C26 s (q_trav q) (q_start q) R He eq_refl) as (n & Hn & Hnd & Hin & Hex).
    set (order := level_order (fkids (t_filter (q_trav q)) (heap s)) n (fkids (t_filter (q_trav q)) (heap s) (q_start q))) in *.
    set (V := root_part (q_trav q) (heap s) (q_start q) ++ order).
    assert (Hlen : length order < S (length h)).
    { enough (length order <= length (seq 0 (length h))) by (rewrite seq_length in *; lia). apply submseteq_length, NoDup_submseteq; [by apply NoDup_cons in Hnd as [_ ?]|].
      intros x Hx. apply Hin, through_exists in Hx as [o Ho]. apply lookup_lt_Some in Ho. apply elem_of_seq. lia. }
    assert (EV : vis q = V).
    { unfold vis. rewrite (Hex _ _ q_visitor (S (length h)) [] _ _ Hlen (visit_all_q _ _)). cbn [snd app]. rewrite map_map. cbn. apply map_id. }
    assert (Hroot : forall x, x ∈ root_part (q_trav q) (heap s) (q_start q) <-> x = q_start q /\ accepts (q_filter q) h x = true).
    { intros x. unfold root_part. cbn. rewrite andb_true_r. fold h. destruct (accepts (q_filter q) h (q_start q)) eqn:E.
      - rewrite elem_of_list_singleton. naive_solver congruence.
      - split; [by intros ?%elem_of_nil|]. intros [-> ?]. congruence. }
    assert (HV : forall x, x ∈ V <-> q_visits h q x).
    { intros x. unfold V, q_visits. rewrite elem_of_app, Hroot, Hin. done. }
    assert (HVn : NoDup V).
    { unfold V, root_part. apply NoDup_cons in Hnd as [H1 H2]. destruct (accepts _ _ _ && _); [by constructor|done]. }
    rewrite EV. split; [done|]. split; [done|]. intros lim x Hf. eexists. apply (Hex _ _ q_visitor); [|apply visit_all_q].
    assert (length V < lim) by (apply Hf; [done|]; intros y Hy; by apply HV). unfold V in *. rewrite app_length in *. lia.
  Qed.

  (** running the tasks *)
  Definition out (qs : list query) (t : nat * nat) : list loc :=
    match qs !! t.1 with
    | Some q => match q_tasks q !! t.2 with Some (l, false) => if decide (q_matches s q l) then [l] else [] | _ => [] end
    | None => []
    end.
  Lemma run_task_eq qs t i q : qs !! i = Some q -> exists q', run_task s qs t !! i = Some q' /\ same_def q q' /\ length (q_tasks q') = length (q_tasks q) /\
    q_result q' = q_result q ++ (if decide (t.1 = i) then out qs t else []) /\
    forall p l d, q_tasks q !! p = Some (l, d) -> q_tasks q' !! p = Some (l, d || bool_decide (t = (i, p))).
  Proof.
    intros Hq. destruct t as [j p0]. unfold run_task, out. cbn [fst snd]. destruct (decide (j = i)) as [->|N].
    - rewrite Hq. destruct (q_tasks q !! p0) as [[l [|]]|] eqn:Ep.
      + exists q. split_and!; try done; [by rewrite app_nil_r|]. intros p l' d Hp. rewrite Hp. f_equal. f_equal. destruct d; [done|]. symmetry. apply bool_decide_eq_false. intros [= ->]. congruence.
      + assert (Hl : i < length qs) by (by eapply lookup_lt_Some).
        assert (G : forall p l' d, q_tasks q !! p = Some (l', d) -> <[p0:=(l, true)]> (q_tasks q) !! p = Some (l', d || bool_decide ((i, p0) = (i, p)))).
        { intros p l' d Hp. destruct (decide (p0 = p)) as [->|Np].
          - rewrite list_lookup_insert by (by eapply lookup_lt_Some). rewrite Ep in Hp. injection Hp as -> <-. by rewrite bool_decide_eq_true_2.
          - rewrite list_lookup_insert_ne by done. rewrite Hp. f_equal. f_equal. rewrite bool_decide_eq_false_2 by congruence. by rewrite orb_false_r. }
        destruct (decide (q_matches s q l)) as [M|M].
        * unfold q_matches in M. rewrite M. eexists. split; [by apply list_lookup_insert|]. split; [done|]. cbn. split; [by rewrite insert_length|]. split; [done|exact G].
        * assert (E : match q_prep q s l with Ok true => <[i := q_set_result (q_result q ++ [l]) (q_set_tasks (<[p0 := (l, true)]> (q_tasks q)) q)]> qs | _ => <[i := q_set_tasks (<[p0 := (l, true)]> (q_tasks q)) q]> qs end
            = <[i := q_set_tasks (<[p0 := (l, true)]> (q_tasks q)) q]> qs) by (unfold q_matches in M; destruct (q_prep q s l) as [[]|]; done).
          rewrite E. eexists. split; [by apply list_lookup_insert|]. split; [done|]. cbn. split; [by rewrite insert_length|]. split; [by rewrite app_nil_r|exact G].
      + exists q. split_and!; try done; [by rewrite app_nil_r|]. intros p l' d Hp. rewrite Hp. f_equal. f_equal. rewrite bool_decide_eq_false_2; [by rewrite orb_false_r|]. intros [= ->]. congruence.
    - exists q. split.
      { destruct (qs !! j) as [qj|]; [|done]. destruct (q_tasks qj !! p0) as [[l [|]]|]; [done| |done].
        destruct (q_prep qj s l) as [[]|]; by rewrite list_lookup_insert_ne. }
      split_and!; try done; [by rewrite app_nil_r|]. intros p l d Hp. rewrite Hp. rewrite bool_decide_eq_false_2 by congruence. by rewrite orb_false_r.
  Qed.
  Lemma run_task_length qs t : length (run_task s qs t) = length qs.
  Proof.
    unfold run_task. destruct (qs !! t.1) as [q|]; [|done]. destruct (q_tasks q !! t.2) as [[l [|]]|]; try done. destruct (q_prep q s l) as [[]|]; apply insert_length.
  Qed.
  Lemma out_ne qs t t' : t <> t' -> out (run_task s qs t) t' = out qs t'.
  Proof.
    intros N. unfold out. destruct (qs !! t'.1) as [q|] eqn:Eq.
    - destruct (run_task_eq qs t _ q Eq) as (q' & -> & (D1 & D2 & D3) & Hl & _ & Ht). destruct (q_tasks q !! t'.2) as [[l d]|] eqn:Ep.
      + rewrite (Ht _ _ _ Ep). rewrite bool_decide_eq_false_2 by (destruct t'; done). rewrite orb_false_r. destruct d; [done|].
        destruct (decide (q_matches s q' l)) as [M|M], (decide (q_matches s q l)) as [M'|M']; try done; unfold q_matches in *; congruence.
      + assert (q_tasks q' !! t'.2 = None) as ->; [|done]. apply lookup_ge_None. apply lookup_ge_None in Ep. lia.
    - assert (run_task s qs t !! t'.1 = None) as ->; [|done]. apply lookup_ge_None. rewrite run_task_length. by apply lookup_ge_None.
  Qed.
  Lemma run_eq sch : NoDup sch -> forall qs i q, qs !! i = Some q -> exists q', run_tasks s sch qs !! i = Some q' /\ same_def q q' /\ length (q_tasks q') = length (q_tasks q) /\
    q_result q' = q_result q ++ flat_map (out qs) (filter (fun t => t.1 = i) sch) /\
    forall p l d, q_tasks q !! p = Some (l, d) -> q_tasks q' !! p = Some (l, d || bool_decide ((i, p) ∈ sch)).
  Proof.
    induction 1 as [|t sch Hn Hnd IH]; intros qs i q Hq.
    - exists q. split; [done|]. split; [done|]. split; [done|]. cbn. rewrite app_nil_r. split; [done|]. intros p l d ->. by rewrite orb_false_r.
    - destruct (run_task_eq qs t i q Hq) as (q1 & Hq1 & D1 & L1 & R1 & T1). destruct (IH _ _ _ Hq1) as (q2 & Hq2 & D2 & L2 & R2 & T2).
      exists q2. split; [exact Hq2|]. split; [destruct D1 as (?&?&?), D2 as (?&?&?); split_and!; congruence|]. split; [lia|]. split.
      + rewrite R2, R1, <- app_assoc. f_equal. rewrite filter_cons. 
        assert (E : flat_map (out (run_task s qs t)) (filter (fun t => t.1 = i) sch) = flat_map (out qs) (filter (fun t => t.1 = i) sch)).
        { assert (G : forall t', t' ∈ filter (fun t => t.1 = i) sch -> t <> t') by (intros t' Ht' ->; apply elem_of_list_filter in Ht' as [_ ?]; done).
          clear R2 IH. induction (filter (fun t => t.1 = i) sch) as [|t' l IHl]; [done|]. cbn [flat_map]. rewrite IHl by (intros; apply G; by right). by rewrite out_ne by (apply G; left). }
        rewrite E. by destruct (decide (t.1 = i)).
      + intros p l d Hp. rewrite (T2 _ _ _ (T1 _ _ _ Hp)). f_equal. f_equal. rewrite <- orb_assoc. f_equal. rewrite <- bool_decide_or. apply bool_decide_ext. rewrite elem_of_cons. naive_solver.
  Qed.
  Lemma out_seq qs i q : qs !! i = Some q -> flat_map (out qs) (map (pair i) (seq 0 (length (q_tasks q)))) = filter (q_matches s q) (waiting q).
  Proof.
    intros Hq. unfold waiting. set (f := fun t : loc * bool => if t.2 then [] else if decide (q_matches s q t.1) then [t.1] else []).
    assert (E : forall ts k, (forall p, p < length ts -> q_tasks q !! (k + p) = ts !! p) -> flat_map (out qs) (map (pair i) (seq k (length ts))) = flat_map f ts).
    { induction ts as [|t ts IH]; intros k Hk; [done|]. cbn [length seq map flat_map]. rewrite IH.
      - f_equal. unfold out. cbn. rewrite Hq. specialize (Hk 0 ltac:(cbn; lia)). rewrite Nat.add_0_r in Hk. rewrite Hk. cbn. by destruct t as [l []].
      - intros p Hp. specialize (Hk (S p) ltac:(cbn; lia)). by rewrite Nat.add_succ_r in Hk. }
    rewrite (E (q_tasks q) 0) by done. clear E. induction (q_tasks q) as [|[l d] ts IH]; [done|]. cbn [flat_map]. rewrite filter_cons. cbn. rewrite IH. destruct d; [done|].
    rewrite decide_True by done. cbn [map fst]. rewrite filter_cons. unfold f. cbn [fst snd]. destruct (decide (q_matches s q l)); done.
  Qed.

  (** collecting the tasks *)
  Definition ready (lim : nat) (qs : list query) (is : list nat) : Prop :=
    forall i, i ∈ is -> exists q, qs !! i = Some q /\ exists_in h (q_start q) /\ fits h lim q.
  Definition fresh (ls : list loc) : list (loc * bool) := map (fun l => (l, false)) ls.
  Lemma fits_same lim q q' : same_def q q' -> fits h lim q -> fits h lim q'.
  Proof. destruct q, q'. intros (E1 & E2 & E3). cbn in *. by subst. Qed.
  Lemma prefilter_all_eq lim is : forall qs ts0, ready lim qs is -> exists ts qs1, prefilter_all lim is s qs ts0 = (Ok ts, s, qs1) /\
    (forall i q, qs !! i = Some q -> exists q1, qs1 !! i = Some q1 /\ same_def q q1 /\ q_result q1 = q_result q /\
       q_tasks q1 = q_tasks q ++ fresh (mjoin (replicate (times i is) (vis q)))) /\
    (forall t, t ∈ ts <-> t ∈ ts0 \/ (t.1 ∈ is /\ exists q1, qs1 !! t.1 = Some q1 /\ t.2 < length (q_tasks q1))).
  Proof.
    induction is as [|j is IH]; intros qs ts0 Hr.
    - exists ts0, qs. split; [done|]. split.
      + intros i q Hq. exists q. split_and!; try done. cbn. by rewrite app_nil_r.
      + intros t. split; [by left|]. intros [?|[?%elem_of_nil ?]]; done.
    - destruct (Hr j ltac:(left)) as (qj & Hj & Hex & Hfit). destruct (vis_spec qj Hex) as (_ & _ & Hbfs). destruct (Hbfs lim (q_tasks qj) Hfit) as [bs Ebfs].
      set (qj' := q_set_tasks (q_tasks qj ++ fresh (vis qj)) qj). assert (Dj : same_def qj qj') by done.
      assert (E : prefilter lim j s qs = (Ok (ids_of j qj'), s, <[j := qj']> qs)) by (unfold prefilter; rewrite Hj, Ebfs; done).
      assert (Lj : j < length qs) by (by eapply lookup_lt_Some).
      cbn [prefilter_all]. rewrite E. destruct (IH (<[j := qj']> qs) (ts0 ++ ids_of j qj')) as (ts & qs1 & E1 & H1 & H2).
      { intros i Hi. destruct (Hr i ltac:(by right)) as (qi & Hqi & Hexi & Hfi). destruct (decide (i = j)) as [->|N].
        - exists qj'. split; [by apply list_lookup_insert|]. split; [done|]. by apply (fits_same _ qj).
        - exists qi. by rewrite list_lookup_insert_ne. }
      exists ts, qs1. split; [done|]. split.
      + intros i q Hq. destruct (decide (i = j)) as [->|N].
        * rewrite Hj in Hq. injection Hq as <-. destruct (H1 j qj') as (q1 & Hq1 & D1 & R1 & T1); [by apply list_lookup_insert|]. exists q1. split; [done|]. split; [done|]. split; [done|].
          rewrite T1. unfold times. rewrite filter_cons_True by done. cbn [length replicate]. rewrite (vis_same _ _ Dj). cbn. rewrite <- app_assoc. f_equal. unfold fresh. by rewrite <- map_app.
        * destruct (H1 i q) as (q1 & Hq1 & D1 & R1 & T1); [by rewrite list_lookup_insert_ne|]. exists q1. split_and!; try done. rewrite T1. unfold times. by rewrite filter_cons_False by done.
      + intros t. rewrite H2, elem_of_app, elem_of_cons. destruct (H1 j qj') as (q1 & Hq1 & _ & _ & T1); [by apply list_lookup_insert|].
        assert (Hid : t ∈ ids_of j qj' <-> t.1 = j /\ t.2 < length (q_tasks qj')).
        { unfold ids_of. rewrite elem_of_list_In, in_map_iff. split.
          - intros (p & <- & Hp). apply in_seq in Hp. cbn. split; [done|]. cbn in Hp. lia.
          - intros [E' Hp]. exists t.2. split; [by destruct t; cbn in *; subst|]. apply in_seq. lia. }
        rewrite Hid. split.
        * intros [[?|[Et Hp]]|[Hi Hq]]; [by left| |right; split; [by right|done]]. right. split; [by left|]. exists q1. rewrite Et. split; [done|]. rewrite T1, app_length. lia.
        * intros [?|[[Et|Hi] Hq]]; [by left; left| |by right]. destruct (decide (j ∈ is)) as [Y|N]; [right; by rewrite Et at 1|].
          left; right. split; [done|]. destruct Hq as (q2 & Hq2 & Hp). rewrite Et in Hq2. rewrite Hq1 in Hq2. injection Hq2 as <-.
          assert (times j is = 0) as Z. { unfold times. rewrite filter_none; [done|]. intros x Hx ->. done. }
          rewrite T1, Z in Hp. cbn [replicate mjoin] in Hp. cbn in Hp. rewrite app_nil_r in Hp. done.
  Qed.
  (** draining *)
  Definition res_of (qs : list query) (i : nat) : list loc := match qs !! i with Some q => q_result q | None => [] end.
  Lemma drain_all_eq is : forall qs, exists rs qs2, drain_all is qs = (rs, qs2) /\
    (NoDup is -> rs = mjoin (map (res_of qs) is)) /\ rs ≡ₚ mjoin (map (res_of qs) (remove_dups is)) /\
    forall i q, qs !! i = Some q -> exists q2, qs2 !! i = Some q2 /\ same_def q q2 /\ q_tasks q2 = q_tasks q /\ (i ∈ is -> q_result q2 = []) /\ (i ∉ is -> q_result q2 = q_result q).
  Proof.
    induction is as [|j is IH]; intros qs.
    - exists [], qs. split; [done|]. split; [done|]. split; [done|]. intros i q Hq. exists q. split_and!; try done. by intros ?%elem_of_nil.
    - cbn [drain_all]. assert (exists qs1, drain j qs = (res_of qs j, qs1) /\ (forall i, res_of qs1 i = if decide (i = j) then [] else res_of qs i) /\
        forall i q, qs !! i = Some q -> exists q1, qs1 !! i = Some q1 /\ same_def q q1 /\ q_tasks q1 = q_tasks q /\ q_result q1 = if decide (i = j) then [] else q_result q) as (qs1 & E1 & R1 & H1).
      { unfold drain, res_of. destruct (qs !! j) as [q|] eqn:Ej.
        - assert (j < length qs) by (by eapply lookup_lt_Some). eexists. split; [done|]. split.
          + intros i. destruct (decide (i = j)) as [->|N]; [by rewrite list_lookup_insert|by rewrite list_lookup_insert_ne].
          + intros i q' Hq'. destruct (decide (i = j)) as [->|N]; [|exists q'; by rewrite list_lookup_insert_ne]. rewrite Ej in Hq'. injection Hq' as <-. eexists. split; [by apply list_lookup_insert|]. done.
        - exists qs. split; [done|]. split.
          + intros i. destruct (decide (i = j)) as [->|N]; [by rewrite Ej|done].
          + intros i q' Hq'. exists q'. rewrite decide_False by congruence. done. }
      rewrite E1. destruct (IH qs1) as (rs & qs2 & E2 & N2 & P2 & H2). rewrite E2. exists (res_of qs j ++ rs), qs2. split; [done|]. split; [|split].
      + intros Hnd. apply NoDup_cons in Hnd as [Hj Hnd]. cbn [map mjoin list_join]. rewrite (N2 Hnd). f_equal. f_equal. apply map_ext_in. intros i Hi. apply elem_of_list_In in Hi. rewrite R1, decide_False; [done|]. intros ->; done.
      + rewrite P2. cbn [remove_dups]. destruct (decide_rel elem_of j is) as [Y|N].
        * assert (Hin : j ∈ remove_dups is) by (by apply elem_of_remove_dups). apply elem_of_Permutation in Hin as [l Hl].
          assert (Hl' : j ∉ l). { intros Hx. pose proof (NoDup_remove_dups is) as Hnd. rewrite Hl in Hnd. apply NoDup_cons in Hnd as [? _]. done. }
          rewrite Hl. cbn [map mjoin list_join]. rewrite R1, decide_True by done. cbn [app].
          assert (Em : map (res_of qs1) l = map (res_of qs) l) by (apply map_ext_in; intros i Hi; apply elem_of_list_In in Hi; rewrite R1, decide_False; [done|]; intros ->; done).
          by rewrite Em.
        * assert (Em : map (res_of qs1) (remove_dups is) = map (res_of qs) (remove_dups is)) . { apply map_ext_in; intros i Hi. apply elem_of_list_In in Hi. apply (proj1 (elem_of_remove_dups _ _)) in Hi. rewrite R1, decide_False; [done|]. intros ->. exact (N Hi). }
          by rewrite Em.
      + intros i q Hq. destruct (H1 i q Hq) as (q1 & Hq1 & D1 & T1 & Z1). destruct (H2 i q1 Hq1) as (q2 & Hq2 & D2 & T2 & Z2 & Z2'). exists q2. split; [done|].
        split; [destruct D1 as (?&?&?), D2 as (?&?&?); split_and!; congruence|]. split; [congruence|]. split.
        * intros Hi. destruct (decide (i ∈ is)) as [Y|N]; [by apply Z2|]. rewrite (Z2' N), Z1. apply elem_of_cons in Hi as [->|Hi]; [|done]. by rewrite decide_True.
        * intros Hi. apply not_elem_of_cons in Hi as [Ni Hi]. rewrite (Z2' Hi), Z1. by rewrite decide_False.
  Qed.
End s.
