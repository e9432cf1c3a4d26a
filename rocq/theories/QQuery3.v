(** * C83: a query execution after one that failed *)
From Verif Require Import Spec Hierarchy Elements Factory History PDict PBfs PWF PReach Traverse SpecTrav QTrav QTrav2 QTrav3 QueryEngine SpecQuery QQuery QQuery2.

(** ** A breadth-first traversal interrupted after [k] items *)
Section split.
  Context {A : Type} (ik : A -> list A).
  Lemma level_add n j q : level ik n (level ik j q) = level ik (j + n) q.
  Proof. induction n as [|n IH]; [by rewrite Nat.add_0_r|]. rewrite Nat.add_succ_r. cbn [level]. by rewrite IH. Qed.
  Lemma level_sub n xs ys : (forall y, y ∈ ys -> y ∈ xs) -> level ik n xs = [] -> level ik n ys = [].
  Proof.
    intros Hs. rewrite level_each, (level_each ik n ys). intros H. induction ys as [|y ys IH]; [done|]. cbn [flat_map]. rewrite IH by (intros; apply Hs; by right). rewrite app_nil_r.
    specialize (Hs y ltac:(left)). clear -H Hs. induction xs as [|x xs IHx]; [by apply elem_of_nil in Hs|]. cbn [flat_map] in H. apply app_eq_nil in H as [H1 H2].
    apply elem_of_cons in Hs as [->|Hs]; [done|by apply IHx].
  Qed.
  Lemma level_order_in n q y : y ∈ level_order ik n q -> exists j, y ∈ level ik j q.
  Proof.
    unfold level_order. intros Hy. apply elem_of_list_In, in_flat_map in Hy as (j & _ & Hy). exists j. by apply elem_of_list_In.
  Qed.
  Lemma fifo_total k q : qvis ik false k q ++ qrest ik false k q = q ++ flat_map ik (qvis ik false k q).
  Proof.
    revert q. induction k as [|k IH]; intros q; [cbn; by rewrite app_nil_r|]. destruct q as [|i r]; [done|]. cbn [qvis qrest flat_map]. unfold push. cbn [app]. f_equal.
    rewrite IH. by rewrite <- app_assoc.
  Qed.
  Lemma bfs_split n k q : level ik n q = [] -> k <= length (level_order ik n q) ->
    let rest := drop k (q ++ flat_map ik (take k (level_order ik n q))) in
    level ik n rest = [] /\ level_order ik n q = take k (level_order ik n q) ++ level_order ik n rest /\
    take k (level_order ik n q) ++ rest = q ++ flat_map ik (take k (level_order ik n q)).
  Proof.
    intros Hn Hk. set (O := level_order ik n q) in *. intros rest. destruct (bfs_levels ik n q Hn) as [V1 V2]. fold O in V1, V2.
    assert (Vk : qvis ik false k q = take k O) by (rewrite (qvis_prefix ik _ k (length O)) by lia; by rewrite V1).
    assert (Er : qrest ik false k q = rest).
    { rewrite qrest_fifo by (rewrite Vk, take_length; lia). by rewrite Vk. }
    assert (Hrest : level ik n rest = []).
    { assert (G : forall y, y ∈ rest -> level ik n [y] = []).
      { intros y Hy. assert (Hj : exists j, y ∈ level ik j q).
        { assert (Hy' : y ∈ q ++ flat_map ik (take k O)) by (rewrite <- (take_drop k (q ++ _)); apply elem_of_app; by right).
          apply elem_of_app in Hy' as [Hy'|Hy']; [by exists 0|]. apply elem_of_list_In, in_flat_map in Hy' as (z & Hz & Hyz).
          assert (z ∈ O) as HzO by (rewrite <- (take_drop k O); apply elem_of_app; left; by apply elem_of_list_In).
          apply level_order_in in HzO as [j Hj]. exists (S j). cbn [level]. apply elem_of_list_In, in_flat_map. exists z. split; [by apply elem_of_list_In|done]. }
        destruct Hj as [j Hj]. apply (level_sub n (level ik j q)); [by intros ? ->%elem_of_list_singleton|]. rewrite level_add, Nat.add_comm. by apply level_zero_mono. }
      rewrite level_each. clear -G. induction rest as [|y r IH]; [done|]. cbn [flat_map]. rewrite (G y ltac:(left)). apply IH. intros; apply G. by right. }
    split; [done|]. split; [|rewrite <- Er, <- Vk; apply fifo_total]. destruct (bfs_levels ik n rest Hrest) as [W1 W2].
    rewrite <- V1 at 1. replace (length O) with (k + (length O - k)) by lia. rewrite qvis_add, Vk. f_equal. rewrite Er.
    rewrite <- V1 in V2 at 1. assert (V2' : qrest ik false (length O - k) rest = []).
    { rewrite <- Er, <- qrest_add. replace (k + (length O - k)) with (length O) by lia. by destruct (bfs_levels ik n q Hn). }
    rewrite <- W1. set (a := length O - k) in *. set (b := length (level_order ik n rest)) in *. destruct (Nat.le_ge_cases a b) as [L|L].
    - replace b with (a + (b - a)) by lia. by rewrite qvis_add, V2', qvis_nil, app_nil_r.
    - replace a with (b + (a - b)) by lia. by rewrite qvis_add, W2, qvis_nil, app_nil_r.
  Qed.
  Lemma level_order_app n xs ys : level_order ik n (xs ++ ys) ≡ₚ level_order ik n xs ++ level_order ik n ys.
  Proof. rewrite (level_order_each ik n (xs ++ ys)), (level_order_each ik n xs), (level_order_each ik n ys). by rewrite flat_map_app. Qed.
  Lemma level_app n xs ys : level ik n (xs ++ ys) = level ik n xs ++ level ik n ys.
  Proof. rewrite level_each, (level_each ik n xs), (level_each ik n ys). by rewrite flat_map_app. Qed.
End split.

(** ** One query, one run *)
Lemma single_run s s' lim e qs i q q1 : dvals e = [i] -> qs !! i = Some q ->
  prefilter lim i s qs = (Ok (ids_of i q1), s', <[i := q1]> qs) -> same_def q q1 -> q_tasks q1 <> [] ->
  (exists r s2 qs2, engine_run lim e s qs r s2 qs2) /\
  forall r s2 qs2, engine_run lim e s qs r s2 qs2 -> s2 = s' /\ exists rs, r = Ok rs /\ rs ≡ₚ q_result q1 ++ filter (q_matches s' q) (waiting q1) /\
    (exists q2, qs2 !! i = Some q2 /\ same_def q q2 /\ idle q2) /\ forall j, j <> i -> qs2 !! j = qs !! j.
Proof.
  intros He Hq Hp Hd Hne. assert (Hlt : i < length qs) by (by eapply lookup_lt_Some).
  assert (Hpa : prefilter_all lim (dvals e) s qs [] = (Ok (ids_of i q1), s', <[i := q1]> qs)) by (rewrite He; cbn [prefilter_all]; by rewrite Hp).
  assert (Hids : ids_of i q1 <> []) by (unfold ids_of; destruct (q_tasks q1); done).
  assert (Hnd : NoDup (ids_of i q1)) by (unfold ids_of; apply NoDup_fmap; [by intros ?? [=]|apply NoDup_seq]).
  assert (Hq1 : <[i := q1]> qs !! i = Some q1) by (by apply list_lookup_insert).
  assert (G : forall sch, sch ≡ₚ ids_of i q1 -> exists q2 qs2, drain_all (dvals e) (run_tasks s' sch (<[i := q1]> qs)) = (q_result q2, qs2) /\
    q_result q2 ≡ₚ q_result q1 ++ filter (q_matches s' q) (waiting q1) /\ (exists q3, qs2 !! i = Some q3 /\ same_def q q3 /\ idle q3) /\ forall j, j <> i -> qs2 !! j = qs !! j).
  { intros sch Hs. assert (Hn' : NoDup sch) by (by rewrite Hs).
    destruct (run_eq s' sch Hn' _ i q1 Hq1) as (q2 & Hq2 & D2 & L2 & R2 & T2). exists q2.
    set (qs2 := <[i := q_set_result [] q2]> (run_tasks s' sch (<[i := q1]> qs))). exists qs2.
    assert (Hlen : length (run_tasks s' sch (<[i := q1]> qs)) = length qs).
    { rewrite <- (insert_length qs i q1). generalize (<[i := q1]> qs). clear. unfold run_tasks. induction sch as [|t sch IH]; intros qs; [done|]. cbn [fold_left]. by rewrite IH, run_task_length. }
    split; [rewrite He; cbn [drain_all]; unfold drain; rewrite Hq2; fold qs2; by rewrite app_nil_r|]. split; [|split].
    - rewrite R2. apply Permutation_app_head. assert (Ef : filter (fun t => t.1 = i) sch = sch).
      { apply filter_all. intros t Ht. assert (t ∈ ids_of i q1) as Hi by (by rewrite <- Hs). unfold ids_of in Hi. by apply elem_of_list_fmap in Hi as (p & -> & _). }
      rewrite Ef, Hs. unfold ids_of. rewrite (out_seq s' _ i q1 Hq1). apply Permutation_refl'. apply list_filter_iff. intros x. unfold q_matches. by destruct Hd as (_ & -> & _).
    - exists (q_set_result [] q2). split; [apply list_lookup_insert; lia|]. split; [destruct Hd as (?&?&?), D2 as (?&?&?); split_and!; cbn; congruence|]. split; [|done].
      cbn. intros [l d] Ht. apply elem_of_list_lookup in Ht as [p Hp']. assert (Hlp : p < length (q_tasks q1)) by (rewrite <- L2; by eapply lookup_lt_Some).
      destruct (lookup_lt_is_Some_2 _ _ Hlp) as [[l1 d1] Hl1]. rewrite (T2 _ _ _ Hl1) in Hp'. rewrite bool_decide_eq_true_2, orb_true_r in Hp'; [by injection Hp' as _ <-|].
      rewrite Hs. unfold ids_of. apply elem_of_list_fmap. exists p. split; [done|]. apply elem_of_seq. lia.
    - intros j Hj. unfold qs2. rewrite list_lookup_insert_ne by done.
      assert (Gj : forall sch qs0, (forall t, t ∈ sch -> t.1 = i) -> run_tasks s' sch qs0 !! j = qs0 !! j).
      { clear -Hj. unfold run_tasks. induction sch as [|t sch IH]; intros qs0 Ht; [done|]. cbn [fold_left]. rewrite IH by (intros; apply Ht; by right). unfold run_task.
        specialize (Ht t ltac:(left)). destruct (qs0 !! t.1) as [q|]; [|done]. destruct (q_tasks q !! t.2) as [[l []]|]; [done| |done]. destruct (q_prep q s' l) as [[]|]; rewrite list_lookup_insert_ne by congruence; done. }
      rewrite Gj; [by rewrite list_lookup_insert_ne|]. intros t Ht. assert (t ∈ ids_of i q1) as Hi by (by rewrite <- Hs). unfold ids_of in Hi. by apply elem_of_list_fmap in Hi as (p & -> & _). }
  split.
  - destruct (G (ids_of i q1)) as (q2 & qs2 & E & _); [done|]. eexists _, _, _. eapply run_done; [exact Hpa|exact Hids| |exact E].
    apply NoDup_Permutation; [done|apply NoDup_remove_dups|]. intros t. by rewrite elem_of_remove_dups.
  - intros r s2 qs2 Hrun. inversion Hrun as [x s0 q0 E0|s0 q0 E0|ts' s0 qs0 sch rs qs2' E0 Hne0 Hs0 Ed]; subst; rewrite Hpa in E0; [done|by injection E0|].
    injection E0 as <- <- <-. split; [done|]. exists rs. split; [done|].
    assert (Hs : sch ≡ₚ ids_of i q1). { rewrite Hs0. apply NoDup_Permutation; [apply NoDup_remove_dups|done|]. intros t. by rewrite elem_of_remove_dups. }
    destruct (G sch Hs) as (q2 & qs3 & E & P & D & F). rewrite Ed in E. by injection E as -> ->.
Qed.

(** ** The failing run, and the next *)
Section s.
  Context (s : st) (R : reach s).
  Let h := heap s.
  Lemma below_list q : exists_in h (q_start q) -> exists n, let kids := fkids (q_filter q) h in let order := level_order kids n (kids (q_start q)) in
    level kids n (kids (q_start q)) = [] /\ NoDup order /\ (forall x, x ∈ order <-> through (q_sees q) h (q_start q) x) /\
    (forall lim x, lim <= length order -> exists fr, execute_bfs lim (q_trav q) q_visitor (q_start q) s x =
      (Exn RecursionError, set_fr_hier fr s, x ++ fresh (root_part (q_trav q) h (q_start q) ++ take lim order)) /\
      map fst fr = drop lim (kids (q_start q) ++ flat_map kids (take lim order))).
  Proof.
    intros He. destruct (q_C55 s (q_trav q) (q_start q) R He eq_refl) as (n & Hn & Hx). exists n. cbn zeta. change (t_filter (q_trav q)) with (q_filter q) in *.
    split; [done|]. pose proof (fkids_nodup (heap s) (reach_wf s R) (q_filter q) n (q_start q) He) as Hnd. apply NoDup_cons in Hnd as [_ Hnd]. split; [done|].
    split; [intros x; by apply order_through; [apply (reach_wf s R)|]|].
    intros lim x Hl. destruct (Hx _ _ q_visitor lim x _ _ Hl (visit_all_q s _ x)) as (s1 & E & E1 & E2). exists (fr_hier s1). split; [|done]. by rewrite <- E1.
  Qed.
  Lemma second_bfs q fr n lim x : exists_in h (q_start q) -> (forall i, i ∈ fr -> exists_in h i.1) ->
    let kids := fkids (q_filter q) h in let Q := map fst fr ++ kids (q_start q) in
    level kids n Q = [] -> length (level_order kids n Q) < lim ->
    exists bs, execute_bfs lim (q_trav q) q_visitor (q_start q) (set_fr_hier fr s) x = (Ok bs, s, x ++ fresh (root_part (q_trav q) h (q_start q) ++ level_order kids n Q)).
  Proof.
    intros He Hfr kids Q Hn Hl. eexists.
    rewrite (q_C29_next_order (set_fr_hier fr s) (q_trav q) (q_start q) n _ _ q_visitor lim x _ _ He Hfr eq_refl Hn Hl (visit_all_q _ _ x)).
    f_equal. f_equal. rewrite <- (set_fr_same s) at 2; [by destruct s|]. by apply reach_fr.
  Qed.
  Lemma waiting_app ts xs q : waiting (q_set_tasks (ts ++ fresh xs) q) = waiting (q_set_tasks ts q) ++ xs.
  Proof. unfold waiting. cbn. by rewrite filter_app, map_app, fresh_waiting. Qed.
  Lemma fail_run lim e qs i q : qs !! i = Some q -> exists_in h (q_start q) -> idle q -> dvals e = [i] -> too_big h lim q ->
    exists n fr, let kids := fkids (q_filter q) h in let order := level_order kids n (kids (q_start q)) in
      let q1 := q_set_tasks (q_tasks q ++ fresh (root_part (q_trav q) h (q_start q) ++ take lim order)) q in
      level kids n (kids (q_start q)) = [] /\ NoDup order /\ lim <= length order /\ (forall x, x ∈ order <-> through (q_sees q) h (q_start q) x) /\
      map fst fr = drop lim (kids (q_start q) ++ flat_map kids (take lim order)) /\
      (exists r s1 qs1, engine_run lim e s qs r s1 qs1) /\
      forall r s1 qs1, engine_run lim e s qs r s1 qs1 -> r = Exn RecursionError /\ s1 = set_fr_hier fr s /\ qs1 = <[i := q1]> qs.
  Proof.
    intros Hq He Hid Hd (ls & Hnd & Hlen & Hls). destruct (below_list q He) as (n & Hn & Hno & Ho & Hx). set (kids := fkids (q_filter q) h) in *.
    set (order := level_order kids n (kids (q_start q))) in *.
    assert (Hl : lim <= length order). { etrans; [exact Hlen|]. apply submseteq_length, NoDup_submseteq; [done|]. intros x Hx'. by apply Ho, Hls. }
    destruct (Hx lim (q_tasks q) Hl) as (fr & Eb & Hfr). exists n, fr. cbn zeta. fold kids. fold order. split_and!; try done.
    - eexists _, _, _. apply run_fails. rewrite Hd. cbn [prefilter_all]. unfold prefilter. rewrite Hq, Eb. done.
    - intros r s1 qs1 Hrun. assert (Ep : prefilter_all lim (dvals e) s qs [] = (Exn RecursionError, set_fr_hier fr s, <[i := q_set_tasks (q_tasks q ++ fresh (root_part (q_trav q) h (q_start q) ++ take lim order)) q]> qs)).
      { rewrite Hd. cbn [prefilter_all]. unfold prefilter. by rewrite Hq, Eb. }
      inversion Hrun as [x s0 q0 E0|s0 q0 E0|ts' s0 qs0 sch rs qs2' E0 Hne0 Hs0 Ed]; subst; rewrite Ep in E0; [|done|done]. by injection E0 as <- <- <-.
  Qed.
  Lemma order_bound n q : exists_in h (q_start q) -> length (level_order (fkids (q_filter q) h) n (fkids (q_filter q) h (q_start q))) < length h.
  Proof.
    intros He. pose proof (fkids_nodup h (reach_wf s R) (q_filter q) n (q_start q) He) as Hnd.
    assert (length (q_start q :: level_order (fkids (q_filter q) h) n (fkids (q_filter q) h (q_start q))) <= length (seq 0 (length h))); [|rewrite seq_length in *; cbn in *; lia].
    apply submseteq_length, NoDup_submseteq; [done|]. intros x Hx. apply elem_of_seq. split; [lia|]. cbn. apply elem_of_cons in Hx as [->|Hx].
    - destruct He as [o Ho]. by eapply lookup_lt_Some.
    - apply level_order_in in Hx as [j Hx]. apply level_through in Hx; [|apply (reach_wf s R)]. apply through_exists in Hx as [o Ho]. by eapply lookup_lt_Some.
  Qed.
  Lemma root_waits q : waiting q = [] -> forall xs, waiting (q_set_tasks (q_tasks q ++ fresh xs) q) = xs.
  Proof. intros H xs. rewrite waiting_app. unfold waiting in *. cbn. by rewrite H. Qed.

  Lemma q_C83_retry lim e qs i q : qs !! i = Some q -> exists_in h (q_start q) -> idle q -> dvals e = [i] -> 0 < lim -> too_big h lim q ->
    (exists r s1 qs1, engine_run lim e s qs r s1 qs1) /\
    forall r s1 qs1, engine_run lim e s qs r s1 qs1 -> r = Exn RecursionError /\ heap s1 = h /\
      forall lim2 e2, dvals e2 = [i] -> 2 * length h < lim2 ->
        (exists r2 s2 qs2, engine_run lim2 e2 s1 qs1 r2 s2 qs2) /\
        forall r2 s2 qs2, engine_run lim2 e2 s1 qs1 r2 s2 qs2 -> s2 = s /\ exists rs part, r2 = Ok rs /\ part_of s qs i part /\ rs ≡ₚ part ++ part /\
          exists q2, qs2 !! i = Some q2 /\ same_def q q2 /\ idle q2.
  Proof.
    intros Hq He Hid Hd Hpos Hbig. assert (Hlt : i < length qs) by (by eapply lookup_lt_Some).
    destruct (fail_run lim e qs i q Hq He Hid Hd Hbig) as (n & fr & Hn & Hnd & Hl & Ho & Hfr & Hex & Hall).
    set (kids := fkids (q_filter q) h) in *. set (order := level_order kids n (kids (q_start q))) in *. set (root := root_part (q_trav q) h (q_start q)) in *.
    split; [done|]. intros r s1 qs1 Hrun. destruct (Hall _ _ _ Hrun) as (-> & -> & ->). split; [done|]. split; [done|]. intros lim2 e2 Hd2 Hl2.
    set (q1 := q_set_tasks (q_tasks q ++ fresh (root ++ take lim order)) q) in *.
    destruct (bfs_split kids n lim (kids (q_start q)) Hn Hl) as (Hr1 & Hr2 & _). fold order in Hr1, Hr2. rewrite <- Hfr in Hr1, Hr2.
    assert (Hob : length order < length h) by (by apply order_bound).
    set (second := level_order kids n (map fst fr ++ kids (q_start q))).
    assert (Ps : second ≡ₚ level_order kids n (map fst fr) ++ order) by apply level_order_app.
    assert (Hls : length second < lim2). { rewrite Ps, app_length. assert (length order = length (take lim order) + length (level_order kids n (map fst fr))) by (rewrite <- app_length; by rewrite <- Hr2). lia. }
    destruct (second_bfs q1 fr n lim2 (q_tasks q1)) as [bs Eb].
    { done. }
    { intros j Hj. assert (Hm : j.1 ∈ map fst fr) by (by apply elem_of_list_fmap_1). rewrite Hfr in Hm.
      assert (Hm' : j.1 ∈ kids (q_start q) ++ flat_map kids (take lim order)) by (rewrite <- (take_drop lim); apply elem_of_app; by right).
      assert (G : forall a b, b ∈ kids a -> exists_in h b).
      { intros a b Hb. unfold kids, fkids in Hb. apply elem_of_list_filter in Hb as [Hb _]. unfold accepts in Hb. destruct (h !! b) as [o|] eqn:Eo; [by exists o|done]. }
      apply elem_of_app in Hm' as [Hm'|Hm']; [by eapply G|]. apply elem_of_list_In, in_flat_map in Hm' as (z & _ & Hz). apply elem_of_list_In in Hz. by eapply G. }
    { change (fkids (q_filter q1) h) with kids. change (q_start q1) with (q_start q). rewrite level_app, Hr1, Hn. done. }
    { exact Hls. }
    change (fkids (q_filter q1) h) with kids in Eb. change (q_start q1) with (q_start q) in Eb. change (q_trav q1) with (q_trav q) in Eb. fold second in Eb. fold root in Eb.
    set (q2 := q_set_tasks (q_tasks q1 ++ fresh (root ++ second)) q).
    assert (Ep : prefilter lim2 i (set_fr_hier fr s) (<[i := q1]> qs) = (Ok (ids_of i q2), s, <[i := q2]> (<[i := q1]> qs))).
    { unfold prefilter. rewrite list_lookup_insert by done. change (q_start q1) with (q_start q). change (q_trav q1) with (q_trav q). rewrite Eb. done. }
    destruct (single_run _ s lim2 e2 (<[i := q1]> qs) i q1 q2 Hd2 ltac:(by apply list_lookup_insert) Ep) as [Hex2 Hall2]; [done| |].
    { cbn. assert (order <> []) by (destruct order; [cbn in Hl; lia|done]). assert (second <> []). { intros Z. rewrite Z in Ps. apply Permutation_nil in Ps. apply app_eq_nil in Ps as [_ ?]. done. }
      destruct second; [done|]. unfold fresh. rewrite map_app. destruct (q_tasks q); [|done]. destruct root; [|done]. destruct (take lim order); done. }
    split; [done|]. intros r2 s2 qs2 Hrun2. destruct (Hall2 _ _ _ Hrun2) as (-> & rs & -> & Hrs & (q3 & Hq3 & D3 & I3) & _). split; [done|].
    exists rs, (filter (q_matches s q) (root ++ order)). split; [done|]. split; [|split].
    - exists q. split; [done|]. assert (Hroot : forall x, x ∈ root <-> x = q_start q /\ accepts (q_sees q) h x = true).
      { intros x. unfold root, root_part. cbn. rewrite andb_true_r. change (q_sees q) with (q_filter q). destruct (accepts (q_filter q) h (q_start q)) eqn:E.
        - rewrite elem_of_list_singleton. naive_solver congruence.
        - split; [by intros ?%elem_of_nil|]. intros [-> ?]. congruence. }
      split.
      + apply NoDup_filter. pose proof (fkids_nodup h (reach_wf s R) (q_filter q) n (q_start q) He) as Hn2. fold kids in Hn2. fold order in Hn2. apply NoDup_cons in Hn2 as [Hn2 Hn3].
        unfold root, root_part. destruct (accepts _ _ _ && _); [by constructor|done].
      + intros x. rewrite elem_of_list_filter, elem_of_app, Hroot, Ho. unfold q_visits. fold h. tauto.
    - rewrite Hrs. assert (Hw : waiting q2 = (root ++ take lim order) ++ root ++ second).
      { unfold q2. rewrite waiting_app. f_equal. change (q_set_tasks (q_tasks q1) q) with (q_set_tasks (q_tasks q ++ fresh (root ++ take lim order)) q). rewrite root_waits; [done|]. by apply idle_waiting. }
      rewrite Hw. change (q_result q2) with (q_result q). rewrite (proj2 Hid). cbn [app]. rewrite <- filter_app.
      assert (Hp : (root ++ take lim order) ++ root ++ second ≡ₚ (root ++ order) ++ root ++ order).
      { rewrite Ps. assert (G : forall rt tk lo od : list loc, od = tk ++ lo -> (rt ++ tk) ++ rt ++ lo ++ od ≡ₚ (rt ++ od) ++ rt ++ od) by (intros rt tk lo od ->; solve_Permutation).
        by apply G. }
      rewrite Hp. apply Permutation_refl'. apply list_filter_iff. done.
    - exists q3. split; [done|]. split; [|done]. exact D3.
  Qed.
  (** another query after the failure *)
  Lemma below_bound f n l : exists_in h l -> length (level_order (fkids f h) n [l]) <= length h.
  Proof.
    intros He. destruct n as [|n]; [cbn; lia|]. rewrite level_order_S_in. cbn [flat_map]. rewrite app_nil_r.
    pose proof (fkids_nodup h (reach_wf s R) f n l He) as Hnd.
    etrans; [|apply Nat.eq_le_incl, (seq_length (length h) 0)].
    apply submseteq_length, NoDup_submseteq; [done|]. intros x Hx. apply elem_of_seq. split; [lia|]. cbn. apply elem_of_cons in Hx as [->|Hx].
    - destruct He as [o Ho]. by eapply lookup_lt_Some.
    - apply level_order_in in Hx as [j Hx]. apply level_through in Hx; [|apply (reach_wf s R)]. apply through_exists in Hx as [o Ho]. by eapply lookup_lt_Some.
  Qed.
  Lemma all_empty f xs : (forall x, x ∈ xs -> exists_in h x) -> exists n, level (fkids f h) n xs = [].
  Proof.
    induction xs as [|x xs IH]; intros Hx; [by exists 0|]. destruct IH as [n Hn]; [intros; apply Hx; by right|].
    destruct (fkids_empty h (reach_wf s R) f x (Hx x ltac:(left))) as [m Hm]. exists (S m + n). change (x :: xs) with ([x] ++ xs). rewrite level_app.
    rewrite (level_zero_mono _ (S m) n [x]); [|rewrite level_S_in; cbn [flat_map]; by rewrite app_nil_r]. rewrite Nat.add_comm. by rewrite (level_zero_mono _ n (S m) xs).
  Qed.
  Lemma kid_through f a b : b ∈ fkids f h a <-> parent_of h b = Some a /\ accepts f h b = true.
  Proof.
    unfold fkids. rewrite elem_of_list_filter. split.
    - intros [Ha Hb]. split; [|done]. by apply (fkids_kid h (reach_wf s R) f a b), elem_of_list_filter.
    - intros [Hp Ha]. split; [done|]. apply (fo_par _ (wf0_forest h (reach_wf s R))); [|done]. unfold accepts in Ha. destruct (h !! b) as [o|] eqn:E; [by exists o|done].
  Qed.
  Lemma q_C83_other lim e qs i q : qs !! i = Some q -> exists_in h (q_start q) -> idle q -> dvals e = [i] -> too_big h lim q ->
    exists seen, NoDup seen /\ length seen = lim /\ (forall x, x ∈ seen -> through (q_sees q) h (q_start q) x) /\
    forall r s1 qs1, engine_run lim e s qs r s1 qs1 -> r = Exn RecursionError /\ heap s1 = h /\
      forall lim2 e2 i2 q2, dvals e2 = [i2] -> i2 <> i -> qs !! i2 = Some q2 -> exists_in h (q_start q2) -> idle q2 -> (exists x, q_visits h q2 x) ->
        length h * S (length h) < lim2 ->
        (exists r2 s2 qs2, engine_run lim2 e2 s1 qs1 r2 s2 qs2) /\
        forall r2 s2 qs2, engine_run lim2 e2 s1 qs1 r2 s2 qs2 -> s2 = s /\ exists rs, r2 = Ok rs /\
          forall x, x ∈ rs <-> q_matches s q2 x /\ (q_visits h q2 x \/ exists l, pending h q seen l /\ (x = l \/ through (q_sees q2) h l x)).
  Proof.
    intros Hq He Hid Hd Hbig. assert (Hlt : i < length qs) by (by eapply lookup_lt_Some).
    destruct (fail_run lim e qs i q Hq He Hid Hd Hbig) as (n & fr & Hn & Hnd & Hl & Ho & Hfr & Hex & Hall).
    set (kids := fkids (q_filter q) h) in *. set (order := level_order kids n (kids (q_start q))) in *. set (root := root_part (q_trav q) h (q_start q)) in *.
    exists (take lim order). split; [rewrite <- (take_drop lim order) in Hnd; by apply NoDup_app in Hnd as [? _]|]. split; [rewrite take_length; lia|].
    split. { intros x Hx. apply Ho. rewrite <- (take_drop lim order). apply elem_of_app. by left. }
    intros r s1 qs1 Hrun. destruct (Hall _ _ _ Hrun) as (-> & -> & ->). split; [done|]. split; [done|].
    set (q1 := q_set_tasks (q_tasks q ++ fresh (root ++ take lim order)) q) in *.
    destruct (bfs_split kids n lim (kids (q_start q)) Hn Hl) as (Hr1 & Hr2 & Hr3). fold order in Hr1, Hr2, Hr3. rewrite <- Hfr in Hr1, Hr2, Hr3.
    intros lim2 e2 i2 q2 Hd2 Hne Hq2 He2 Hid2 [x0 Hx0] Hl2.
    assert (Hpend : forall l, l ∈ map fst fr <-> pending h q (take lim order) l).
    { assert (Hnt : NoDup (take lim order ++ level_order kids n (map fst fr))) by (by rewrite <- Hr2). apply NoDup_app in Hnt as (_ & Hnt & _).
      assert (Hsub : forall l, l ∈ map fst fr -> l ∈ level_order kids n (map fst fr)).
      { intros l Hl'. destruct n as [|n]; [cbn in Hr1; rewrite Hr1 in Hl'; by apply elem_of_nil in Hl'|]. rewrite level_order_S_in. apply elem_of_app. by left. }
      intros l. unfold pending. rewrite <- Ho. split.
      - intros Hl'. split; [rewrite Hr2; apply elem_of_app; right; by apply Hsub|]. split; [intros Hx; by apply (Hnt l Hx), Hsub|].
        assert (Hw : l ∈ take lim order ++ map fst fr) by (apply elem_of_app; by right). rewrite Hr3 in Hw. apply elem_of_app in Hw as [Hw|Hw].
        + apply kid_through in Hw as [Hw _]. exists (q_start q). split; [done|by left].
        + apply elem_of_list_In, in_flat_map in Hw as (p & Hp & Hw). apply elem_of_list_In in Hw, Hp. apply kid_through in Hw as [Hw _]. exists p. split; [done|by right].
      - intros (Hlo & Hns & p & Hp & Hps). assert (Ha : accepts (q_filter q) h l = true) by (apply Ho in Hlo; by destruct Hlo).
        assert (Hw : l ∈ take lim order ++ map fst fr); [|by apply elem_of_app in Hw as [?|?]]. rewrite Hr3. destruct Hps as [->|Hps].
        + apply elem_of_app. left. by apply kid_through.
        + apply elem_of_app. right. apply elem_of_list_In, in_flat_map. exists p. split; apply elem_of_list_In; [done|]. by apply kid_through. }
    assert (Hfe : forall l, l ∈ map fst fr -> exists_in h l). { intros l Hl'. apply Hpend in Hl' as [Hl' _]. by apply through_exists in Hl'. }
    set (kids2 := fkids (q_filter q2) h). destruct (all_empty (q_filter q2) (map fst fr ++ kids2 (q_start q2))) as [m Hm].
    { intros x Hx. apply elem_of_app in Hx as [Hx|Hx]; [by apply Hfe|]. apply kid_through in Hx as [_ Hx]. unfold accepts in Hx. destruct (h !! x) as [o|] eqn:E; [by exists o|done]. }
    fold kids2 in Hm. set (second := level_order kids2 m (map fst fr ++ kids2 (q_start q2))).
    assert (Ps : second ≡ₚ level_order kids2 m (map fst fr) ++ level_order kids2 m (kids2 (q_start q2))) by apply level_order_app.
    assert (Hlf : length (map fst fr) <= length order).
    { rewrite Hr2, app_length. destruct n as [|n]; [cbn in Hr1; rewrite Hr1; cbn; lia|]. rewrite level_order_S_in, app_length. lia. }
    assert (Hob : length order < length h) by (by apply order_bound).
    assert (Hls : length second < lim2).
    { rewrite Ps, app_length. assert (length (level_order kids2 m (kids2 (q_start q2))) < length h) by (by apply order_bound).
      assert (G : forall xs, (forall x, x ∈ xs -> exists_in h x) -> length (level_order kids2 m xs) <= length xs * length h).
      { clear -R. intros xs Hx. rewrite level_order_each. induction xs as [|x xs IH]; [cbn; lia|]. cbn [flat_map length]. rewrite app_length.
        pose proof (below_bound (q_filter q2) m x (Hx x ltac:(left))) as Hb. change (fkids (q_filter q2) h) with kids2 in Hb. specialize (IH ltac:(intros; apply Hx; by right)). rewrite Nat.mul_succ_l. lia. }
      specialize (G _ Hfe). nia. }
    destruct (second_bfs q2 fr m lim2 (q_tasks q2) He2) as [bs Eb]; [|exact Hm|exact Hls|].
    { intros j Hj. apply Hfe. by apply elem_of_list_fmap_1. }
    fold kids2 in Eb. fold second in Eb. set (root2 := root_part (q_trav q2) h (q_start q2)) in *.
    set (q3 := q_set_tasks (q_tasks q2 ++ fresh (root2 ++ second)) q2).
    assert (Hq2' : <[i := q1]> qs !! i2 = Some q2) by (by rewrite list_lookup_insert_ne).
    assert (Ep : prefilter lim2 i2 (set_fr_hier fr s) (<[i := q1]> qs) = (Ok (ids_of i2 q3), s, <[i2 := q3]> (<[i := q1]> qs))).
    { unfold prefilter. rewrite Hq2', Eb. done. }
    assert (Hroot : forall x, x ∈ root2 <-> x = q_start q2 /\ accepts (q_sees q2) h x = true).
    { intros x. unfold root2, root_part. cbn. rewrite andb_true_r. change (q_sees q2) with (q_filter q2). destruct (accepts (q_filter q2) h (q_start q2)) eqn:E.
      - rewrite elem_of_list_singleton. naive_solver congruence.
      - split; [by intros ?%elem_of_nil|]. intros [-> ?]. congruence. }
    assert (Hn1 : level kids2 m (map fst fr) = [] /\ level kids2 m (kids2 (q_start q2)) = []) by (by apply app_eq_nil; rewrite <- level_app).
    destruct Hn1 as [Hn1 Hn2].
    assert (Hvis : forall x, x ∈ root2 ++ second <-> q_visits h q2 x \/ exists l, l ∈ map fst fr /\ (x = l \/ through (q_sees q2) h l x)).
    { intros x. rewrite elem_of_app, Ps, elem_of_app, Hroot. change (q_sees q2) with (q_filter q2).
      assert (G1 : x ∈ level_order kids2 m (kids2 (q_start q2)) <-> through (q_filter q2) h (q_start q2) x) by (by apply order_through; [apply (reach_wf s R)|]).
      assert (G2 : x ∈ level_order kids2 m (map fst fr) <-> exists l, l ∈ map fst fr /\ (x = l \/ through (q_filter q2) h l x)).
      { rewrite level_order_each, elem_of_list_In, in_flat_map.
        assert (G3 : forall l, l ∈ map fst fr -> x ∈ level_order kids2 m [l] <-> x = l \/ through (q_filter q2) h l x).
        { intros l Hl'. assert (Hlm : level kids2 m [l] = []) by (apply (level_sub kids2 m (map fst fr)); [by intros ? ->%elem_of_list_singleton|done]).
          destruct m as [|m]; [done|]. rewrite level_order_S_in, elem_of_app, elem_of_list_singleton. cbn [flat_map]. rewrite app_nil_r.
          rewrite level_S_in in Hlm. cbn [flat_map] in Hlm. rewrite app_nil_r in Hlm. pose proof (order_through h (reach_wf s R) (q_filter q2) m l x Hlm) as Hot. change (fkids (q_filter q2) h) with kids2 in Hot. by rewrite Hot. }
        split.
        - intros (l & Hl1 & Hl2'). apply elem_of_list_In in Hl1, Hl2'. exists l. split; [done|]. by apply G3.
        - intros (l & Hl1 & Hl2'). exists l. split; apply elem_of_list_In; [done|]. by apply G3. }
      rewrite G1, G2. unfold q_visits. change (q_sees q2) with (q_filter q2). tauto. }
    destruct (single_run _ s lim2 e2 (<[i := q1]> qs) i2 q2 q3 Hd2 Hq2' Ep) as [Hex2 Hall2]; [done| |].
    { cbn. assert (Hin : x0 ∈ root2 ++ second) by (apply Hvis; by left). destruct (root2 ++ second); [by apply elem_of_nil in Hin|]. by destruct (q_tasks q2). }
    split; [done|]. intros r2 s2 qs2 Hrun2. destruct (Hall2 _ _ _ Hrun2) as (-> & rs & -> & Hrs & _ & _). split; [done|]. exists rs. split; [done|].
    intros x. rewrite Hrs. unfold q3. rewrite root_waits by (by apply idle_waiting). cbn [q_result q_set_tasks]. rewrite (proj2 Hid2). cbn [app]. rewrite elem_of_list_filter, Hvis.
    split; (intros [? [?|(l & Hl1 & Hl2')]]; split; [done|by left|done|]; right; exists l; split; [by apply Hpend|done]).
  Qed.
End s.
