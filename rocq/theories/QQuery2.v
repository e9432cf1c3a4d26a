(** * C43, C57: outcomes *)
From Verif Require Import Spec Hierarchy Elements Factory History PDict PWF PReach Traverse SpecTrav QTrav QTrav3 QueryEngine SpecQuery QQuery.

Lemma fresh_waiting ls : map fst (filter (fun t : loc * bool => t.2 = false) (fresh ls)) = ls.
Proof. induction ls as [|l ls IH]; [done|]. cbn [fresh map]. rewrite filter_cons_True by done. cbn [map fst]. f_equal. exact IH. Qed.
Lemma fresh_nil_inv ls : fresh ls = [] -> ls = [].
Proof. by destruct ls. Qed.
Lemma times_pos i is : i ∈ is -> exists k, times i is = S k.
Proof.
  intros Hi. unfold times. assert (Hf : i ∈ filter (fun j => j = i) is) by (by apply elem_of_list_filter). destruct (filter _ is) as [|x l]; [by apply elem_of_nil in Hf|by exists (length l)].
Qed.
Lemma times_zero i is : i ∉ is -> times i is = 0.
Proof. intros Hi. unfold times. rewrite filter_none; [done|]. intros x Hx ->. done. Qed.

Lemma query_eq q q' : same_def q q' -> q_tasks q' = q_tasks q -> q_result q' = q_result q -> q' = q.
Proof. destruct q, q'. intros (E1 & E2 & E3) E4 E5. cbn in *. by subst. Qed.
Section s.
  Context (s : st) (R : reach s).
  Let h := heap s.
  Definition outcome (qs : list query) (is : list nat) (rs : list loc) (qs' : list query) : Prop := exists f,
    (forall i q, i ∈ is -> qs !! i = Some q -> f i ≡ₚ q_result q ++ filter (q_matches s q) (waiting q ++ mjoin (replicate (times i is) (vis s q)))) /\
    (NoDup is -> rs = mjoin (map f is)) /\ rs ≡ₚ mjoin (map f (remove_dups is)) /\
    (forall i q, qs !! i = Some q -> exists q', qs' !! i = Some q' /\ same_def q q' /\ (i ∈ is -> idle q') /\ (i ∉ is -> q' = q)).
  Lemma finish lim qs is ts qs1 sch : ready s lim qs is ->
    (forall i q, qs !! i = Some q -> exists q1, qs1 !! i = Some q1 /\ same_def q q1 /\ q_result q1 = q_result q /\ q_tasks q1 = q_tasks q ++ fresh (mjoin (replicate (times i is) (vis s q)))) ->
    (forall t, t ∈ ts <-> (t.1 ∈ is /\ exists q1, qs1 !! t.1 = Some q1 /\ t.2 < length (q_tasks q1))) ->
    sch ≡ₚ remove_dups ts -> exists rs qs2, drain_all is (run_tasks s sch qs1) = (rs, qs2) /\ outcome qs is rs qs2.
  Proof.
    intros Hr H1 H2 Hs. assert (Hnd : NoDup sch) by (rewrite Hs; apply NoDup_remove_dups).
    assert (Hin : forall t, t ∈ sch <-> (t.1 ∈ is /\ exists q1, qs1 !! t.1 = Some q1 /\ t.2 < length (q_tasks q1))) by (intros t; by rewrite Hs, elem_of_remove_dups).
    destruct (drain_all_eq is (run_tasks s sch qs1)) as (rs & qs2 & E & N & P & D). exists rs, qs2. split; [done|].
    exists (res_of (run_tasks s sch qs1)). split; [|split; [done|split; [done|]]].
    - intros i q Hi Hq. destruct (H1 i q Hq) as (q1 & Hq1 & D1 & R1 & T1). destruct (run_eq s sch Hnd qs1 i q1 Hq1) as (q2 & Hq2 & D2 & L2 & R2 & T2).
      unfold res_of. rewrite Hq2, R2, R1. apply Permutation_app_head.
      assert (Ef : filter (fun t => t.1 = i) sch ≡ₚ map (pair i) (seq 0 (length (q_tasks q1)))).
      { apply NoDup_Permutation; [by apply NoDup_filter|apply NoDup_fmap; [by intros ?? [=]|apply NoDup_seq]|]. intros [j p]. rewrite elem_of_list_filter, Hin. cbn.
        setoid_rewrite elem_of_list_fmap. split.
        - intros (-> & _ & q1' & Hq1' & Hp). rewrite Hq1 in Hq1'. injection Hq1' as <-. exists p. split; [done|]. apply elem_of_seq. lia.
        - intros (p' & [= -> ->] & Hp). apply elem_of_seq in Hp. split; [done|]. split; [done|]. exists q1. split; [done|lia]. }
      rewrite Ef. rewrite (out_seq s qs1 i q1 Hq1). unfold waiting. rewrite T1, filter_app, map_app, fresh_waiting. apply Permutation_refl'. apply list_filter_iff.
      intros x. unfold q_matches. by destruct D1 as (_ & -> & _).
    - intros i q Hq. destruct (H1 i q Hq) as (q1 & Hq1 & D1 & R1 & T1). destruct (run_eq s sch Hnd qs1 i q1 Hq1) as (q2 & Hq2 & D2 & L2 & R2 & T2).
      destruct (D i q2 Hq2) as (q3 & Hq3 & D3 & T3 & Z3 & Z3'). exists q3. split; [done|]. assert (DD : same_def q q3) by (destruct D1 as (?&?&?), D2 as (?&?&?), D3 as (?&?&?); split_and!; congruence).
      split; [done|]. split.
      + intros Hi. split; [|by apply Z3]. intros [l d] Ht. rewrite T3 in Ht. apply elem_of_list_lookup in Ht as [p Hp]. assert (Hp' : p < length (q_tasks q1)) by (rewrite <- L2; by eapply lookup_lt_Some).
        destruct (lookup_lt_is_Some_2 _ _ Hp') as [[l1 d1] Hl1]. rewrite (T2 _ _ _ Hl1) in Hp. rewrite bool_decide_eq_true_2, orb_true_r in Hp; [by injection Hp as _ <-|].
        apply Hin. cbn. split; [done|]. by exists q1.
      + intros Hi. rewrite times_zero in T1 by done. cbn in T1. rewrite app_nil_r in T1.
        assert (ET : q_tasks q3 = q_tasks q).
        { rewrite T3, <- T1. apply list_eq. intros p. destruct (q_tasks q1 !! p) as [[l d]|] eqn:Ep.
          - rewrite (T2 _ _ _ Ep). rewrite bool_decide_eq_false_2; [by rewrite orb_false_r|]. rewrite Hin. naive_solver.
          - apply lookup_ge_None. apply lookup_ge_None in Ep. lia. }
        assert (ER : q_result q3 = q_result q).
        { rewrite (Z3' Hi), R2, <- R1. rewrite filter_none; [cbn; by rewrite app_nil_r|]. intros t Ht Et. apply Hin in Ht as [Ht _]. by subst. }
        by apply query_eq.
  Qed.
  Lemma run_cases lim e qs : ready s lim qs (dvals e) ->
    ((exists i q, i ∈ dvals e /\ qs !! i = Some q /\ (q_tasks q <> [] \/ exists x, q_visits h q x)) ->
      (exists r s' qs', engine_run lim e s qs r s' qs') /\
      forall r s' qs', engine_run lim e s qs r s' qs' -> s' = s /\ exists rs, r = Ok rs /\ outcome qs (dvals e) rs qs') /\
    ((forall i q, i ∈ dvals e -> qs !! i = Some q -> q_tasks q = [] /\ forall x, ~ q_visits h q x) ->
      (exists r s' qs', engine_run lim e s qs r s' qs') /\
      forall r s' qs', engine_run lim e s qs r s' qs' -> s' = s /\ r = Exn ValueError).
  Proof.
    intros Hr. destruct (prefilter_all_eq s R lim (dvals e) qs [] Hr) as (ts & qs1 & E & H1 & H2).
    assert (H2' : forall t, t ∈ ts <-> (t.1 ∈ dvals e /\ exists q1, qs1 !! t.1 = Some q1 /\ t.2 < length (q_tasks q1))).
    { intros t. rewrite H2. split; [intros [?%elem_of_nil|?]; done|by right]. }
    split.
    - intros (i & q & Hi & Hq & Hne). assert (Hts : ts <> []).
      { destruct (H1 i q Hq) as (q1 & Hq1 & D1 & R1 & T1). intros ->. assert (Hl : (i, 0) ∈ @nil (nat * nat)); [|by apply elem_of_nil in Hl]. apply H2'. cbn. split; [done|]. exists q1. split; [done|].
        rewrite T1, app_length. destruct Hne as [Hne|[x Hx]]; [destruct (q_tasks q); [done|cbn; lia]|].
        destruct (Hr i Hi) as (q' & Hq' & Hex & _). rewrite Hq in Hq'. injection Hq' as <-. apply (vis_spec s R q Hex) in Hx. destruct (times_pos i _ Hi) as [k ->].
        cbn [replicate]. unfold fresh. rewrite map_length. cbn. rewrite app_length. destruct (vis s q); [by apply elem_of_nil in Hx|cbn; lia]. }
      split.
      + destruct (finish lim qs _ ts qs1 (remove_dups ts) Hr H1 H2') as (rs & qs2 & E2 & O); [done|]. eexists _, _, _. by eapply run_done.
      + intros r s' qs' Hrun. inversion Hrun as [x s0 q0 E0|s0 q0 E0|ts' s0 qs0 sch rs qs2 E0 Hne0 Hs0 Ed]; subst; rewrite E in E0; [done|by injection E0|].
        injection E0 as -> <- <-. split; [done|]. exists rs. split; [done|]. destruct (finish lim qs _ ts' qs1 sch Hr H1 H2' Hs0) as (rs' & qs2' & E2 & O). rewrite Ed in E2. by injection E2 as -> ->.
    - intros Hno. assert (Hts : ts = []).
      { destruct ts as [|t ts]; [done|]. destruct (proj1 (H2' t) ltac:(left)) as (Hi & q1 & Hq1 & Hp). destruct (Hr _ Hi) as (q & Hq & Hex & _).
        destruct (H1 _ _ Hq) as (q1' & Hq1' & _ & _ & T1). rewrite Hq1 in Hq1'. injection Hq1' as <-. destruct (Hno _ _ Hi Hq) as [Z1 Z2]. rewrite T1, Z1 in Hp.
        assert (vis s q = []) as Z. { destruct (vis s q) as [|x l] eqn:Ev; [done|]. destruct (Z2 x). apply (vis_spec s R q Hex). rewrite Ev. left. }
        rewrite Z in Hp. exfalso. clear -Hp. induction (times t.1 (dvals e)) as [|k IH]; cbn in Hp; [lia|]. apply IH. done. }
      subst ts. split.
      + eexists _, _, _. by eapply run_empty.
      + intros r s' qs' Hrun. inversion Hrun as [x s0 q0 E0|s0 q0 E0|ts' s0 qs0 sch rs qs2 E0 Hne0 Hs0 Ed]; subst; rewrite E in E0; [done|by injection E0|]. injection E0 as <- <- <-. done.
  Qed.
  Lemma idle_waiting q : idle q -> waiting q = [].
  Proof. intros [H _]. unfold waiting. rewrite filter_none; [done|]. intros t Ht E. specialize (H t Ht). congruence. Qed.
  Lemma q_C43 lim e qs : NoDup (dvals e) -> (forall i, i ∈ dvals e -> exists q, qs !! i = Some q /\ exists_in h (q_start q) /\ fits h lim q /\ idle q) ->
    ((exists i q x, i ∈ dvals e /\ qs !! i = Some q /\ q_visits h q x) ->
      (exists r s' qs', engine_run lim e s qs r s' qs') /\
      forall r s' qs', engine_run lim e s qs r s' qs' -> s' = s /\
        (exists parts, r = Ok (mjoin parts) /\ Forall2 (part_of s qs) (dvals e) parts) /\
        (forall i q, qs !! i = Some q -> exists q', qs' !! i = Some q' /\ same_def q q' /\ (idle q -> idle q'))) /\
    ((forall i q, i ∈ dvals e -> qs !! i = Some q -> q_tasks q = [] /\ forall x, ~ q_visits h q x) ->
      (exists r s' qs', engine_run lim e s qs r s' qs') /\
      forall r s' qs', engine_run lim e s qs r s' qs' -> s' = s /\ r = Exn ValueError).
  Proof.
    intros Hnd Hr. destruct (run_cases lim e qs) as [C1 C2].
    { intros i Hi. destruct (Hr i Hi) as (q & ? & ? & ? & ?). by exists q. }
    split; [|exact C2]. intros (i0 & q0 & x0 & Hi0 & Hq0 & Hx0). destruct C1 as [Ex Hall].
    { exists i0, q0. split; [done|]. split; [done|]. right. by exists x0. }
    split; [done|]. intros r s' qs' Hrun. destruct (Hall _ _ _ Hrun) as (-> & rs & -> & f & Hf & HN & _ & Hq'). split; [done|]. split.
    - exists (map f (dvals e)). split; [by rewrite HN|]. apply Forall2_fmap_r. apply Forall_Forall2_diag. apply Forall_forall. intros i Hi. destruct (Hr i Hi) as (q & Hq & Hex & _ & Hid).
      exists q. split; [done|]. specialize (Hf i q Hi Hq). rewrite (idle_waiting q Hid), (proj2 Hid) in Hf. cbn [app] in Hf.
      assert (Ht : times i (dvals e) = 1).
      { unfold times. assert (NoDup (filter (fun j => j = i) (dvals e))) by (by apply NoDup_filter). assert (Hin : i ∈ filter (fun j => j = i) (dvals e)) by (by apply elem_of_list_filter).
        destruct (filter (fun j => j = i) (dvals e)) as [|a [|b l]] eqn:El; [by apply elem_of_nil in Hin|done|]. exfalso.
        assert (a = i) by (assert (a ∈ filter (fun j => j = i) (dvals e)) as Ha by (rewrite El; left); by apply elem_of_list_filter in Ha as [? _]).
        assert (b = i) by (assert (b ∈ filter (fun j => j = i) (dvals e)) as Ha by (rewrite El; right; left); by apply elem_of_list_filter in Ha as [? _]).
        subst. inversion H as [|? ? Hn _]; subst. apply Hn. left. }
      rewrite Ht in Hf. cbn [replicate] in Hf. cbn in Hf. rewrite app_nil_r in Hf. destruct (vis_spec s R q Hex) as (V1 & V2 & _). split.
      + rewrite Hf. by apply NoDup_filter.
      + intros x. rewrite Hf, elem_of_list_filter, V2. fold h. tauto.
    - intros i q Hq. destruct (Hq' i q Hq) as (q' & E' & D' & I1 & I2). exists q'. split; [done|]. split; [done|]. intros Hid. destruct (decide (i ∈ dvals e)) as [Y|N]; [by apply I1|]. by rewrite I2.
  Qed.
  (** one query under several names *)
  Lemma q_C57 lim e qs i q : qs !! i = Some q -> exists_in h (q_start q) -> fits h lim q -> idle q -> (forall j, j ∈ dvals e -> j = i) -> (exists x, q_visits h q x) -> dvals e <> [] ->
    (exists r s' qs', engine_run lim e s qs r s' qs') /\
    forall r s' qs', engine_run lim e s qs r s' qs' -> exists rs, r = Ok rs /\ exists part, part_of s qs i part /\ rs ≡ₚ mjoin (replicate (length e) part).
  Proof.
    intros Hq Hex Hfit Hid Hall [x0 Hx0] Hne. destruct (run_cases lim e qs) as [C1 _].
    { intros j Hj. rewrite (Hall j Hj). by exists q. }
    assert (Hin : i ∈ dvals e). { destruct (dvals e) as [|j l]; [done|]. rewrite <- (Hall j ltac:(left)). left. }
    destruct C1 as [Ex Hr]. { exists i, q. split; [done|]. split; [done|]. right. by exists x0. }
    split; [done|]. intros r s' qs' Hrun. destruct (Hr _ _ _ Hrun) as (-> & rs & -> & f & Hf & _ & HP & _). exists rs. split; [done|].
    destruct (vis_spec s R q Hex) as (V1 & V2 & _). exists (filter (q_matches s q) (vis s q)). split.
    - exists q. split; [done|]. split; [by apply NoDup_filter|]. intros x. rewrite elem_of_list_filter, V2. fold h. tauto.
    - rewrite HP. assert (Er : remove_dups (dvals e) ≡ₚ [i]).
      { apply NoDup_Permutation; [apply NoDup_remove_dups|apply NoDup_singleton|]. intros j. rewrite elem_of_remove_dups, elem_of_list_singleton. split; [apply Hall|by intros ->]. }
      rewrite Er. cbn [map]. cbn. rewrite app_nil_r, (Hf i q Hin Hq), (idle_waiting q Hid), (proj2 Hid). cbn [app].
      assert (Ht : times i (dvals e) = length e).
      { unfold times. rewrite filter_all; [unfold dvals; by rewrite map_length|]. intros j Hj. by apply Hall. }
      rewrite Ht. clear. induction (length e) as [|k IH]; [done|]. cbn [replicate mjoin]. cbn. rewrite filter_app. by apply Permutation_app_head.
  Qed.
End s.
