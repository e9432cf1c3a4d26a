(** * C56 *)
From stdpp Require Import relations.
From Verif Require Import Spec Hierarchy Elements Factory History PDict PPath PExec PBfs PWF PMono PReach PHist Traverse SpecTrav QTrav QTrav2 SpecTensor Factorization SpecFact QFact.

Section lv.
  Context {A : Type} (kids : A -> list A).
  Lemma bfs_upto n q : qvis kids false (length (level_order kids n q)) q = level_order kids n q /\ qrest kids false (length (level_order kids n q)) q = level kids n q.
  Proof.
    revert q. induction n as [|n IH]; intros q; [done|].
    rewrite level_S_in. rewrite level_order_S_in, app_length, qvis_add, qrest_add.
    destruct (bfs_block kids q []) as [E1 E2]. rewrite app_nil_r in E1, E2. rewrite E1, E2. cbn [app].
    destruct (IH (flat_map kids q)) as [-> ->]. done.
  Qed.
  Lemma level_app n xs ys : level kids n (xs ++ ys) = level kids n xs ++ level kids n ys.
  Proof. induction n as [|n IH]; [done|]. cbn [level]. by rewrite IH, flat_map_app'. Qed.
  Lemma level_mono n m xs : level kids n xs = [] -> n <= m -> level kids m xs = [].
  Proof. intros H Hm. induction Hm as [|m Hm IH]; [done|]. cbn [level]. by rewrite IH. Qed.
  Lemma level_inf x : (forall n, level kids n [x] <> []) -> forall n, n <= length (level_order kids n [x]).
  Proof.
    intros H n. induction n as [|n IH]; [cbn; lia|]. rewrite level_order_S, app_length. specialize (H n). destruct (level kids n [x]); [done|cbn; lia].
  Qed.
  Lemma level_step n x y q : y ∈ level kids n q -> x ∈ kids y -> x ∈ level kids (S n) q.
  Proof. intros Hy Hx. cbn [level]. apply elem_of_list_In, in_flat_map. exists y. by rewrite <- !elem_of_list_In. Qed.
  Lemma level_nsteps n x y : nsteps (fun a b => b ∈ kids a) n x y -> y ∈ level kids n [x].
  Proof.
    revert y. induction n as [|n IH]; intros y H.
    - inversion H; subst. left.
    - apply nsteps_inv_r in H as (z & Hz & Hy). eapply level_step; [by apply IH|done].
  Qed.
End lv.
Section s.
  Context (s : st) (W : WF0 (heap s)).
  Let h := heap s.
  Let K := walk_next h.
  Definition item_ok (i : option loc) : Prop := match i with Some l => exists_in h l | None => True end.
  Lemma f2_step_eq i : item_ok i -> f2_step s i = Ok (contributes h i, walk_next h i).
  Proof.
    destruct i as [l|]; [|done]. intros [o Ho]. unfold f2_step, contributes, walk_next, kind_of. fold h. rewrite Ho. cbn [option_map fmap option_fmap].
    destruct (o_kind o) eqn:Ek; try done.
    - assert (E : fst (sub_edges l s) = Ok (edges_of h l)).
      { unfold sub_edges, get_subelements. fold h. rewrite Ho. cbn [fst]. unfold edges_of, fkids, children. rewrite Ho. unfold dvals. by rewrite filter_bool. }
      by rewrite E.
    - rewrite in_rels, out_rels by (by exists o). done.
  Qed.
  Lemma walk_ok i j : item_ok i -> j ∈ walk_next h i -> item_ok j.
  Proof.
    destruct i as [l|]; [|intros _ H; by apply elem_of_nil in H]. intros [o Ho]. unfold walk_next, kind_of. rewrite Ho. cbn.
    destruct (o_kind o) eqn:Ek; try (by intros H%elem_of_nil); intros H; apply elem_of_list_In, in_map_iff in H as (r & <- & Hr); apply elem_of_list_In in Hr.
    - apply elem_of_list_filter in Hr as [Ha _]. unfold accepts in Ha. destruct (h !! r) as [orr|] eqn:Er; [|done]. by exists orr.
    - unfold ep_of. destruct (h !! r) as [orr|] eqn:Er; [|done]. cbn. destruct (o_endpoint orr) as [p|] eqn:Ep; [|done]. apply (wf_ep _ W r orr p Er Ep).
  Qed.
  Lemma f2_steps k lim q acc : Forall item_ok q -> length (qvis K false k q) = k ->
    f2_traverse (k + lim) s q acc = f2_traverse lim s (qrest K false k q) (acc ++ flat_map (contributes h) (qvis K false k q)).
  Proof.
    revert q acc. induction k as [|k IH]; intros q acc Hq Hk; [cbn; by rewrite app_nil_r|]. destruct q as [|i r]; [done|].
    apply Forall_cons in Hq as [Hi Hr]. cbn [Nat.add f2_traverse qvis qrest flat_map] in *. rewrite f2_step_eq by done. unfold push in *. 
    rewrite IH.
    - by rewrite <- app_assoc.
    - apply Forall_app. split; [done|]. apply Forall_forall. intros j Hj. by eapply walk_ok.
    - cbn in Hk. by injection Hk.
  Qed.
  Lemma q_C56_done start n lim : exists_in h start -> level K n [Some start] = [] -> length (level_order K n [Some start]) < lim ->
    fact2 lim start s = Ok (flat_map (contributes h) (level_order K n [Some start])).
  Proof.
    intros He Hn Hl. destruct (bfs_upto K n [Some start]) as [E1 E2]. unfold fact2. replace lim with (length (level_order K n [Some start]) + S (lim - length (level_order K n [Some start]) - 1)) by lia.
    rewrite f2_steps; [|by repeat constructor|by rewrite E1]. rewrite E1, E2, Hn. done.
  Qed.
  Lemma q_C56_limit start n lim : exists_in h start -> lim <= length (level_order K n [Some start]) -> fact2 lim start s = Exn RecursionError.
  Proof.
    intros He Hl. destruct (bfs_upto K n [Some start]) as [E1 E2].
    assert (E : qvis K false lim [Some start] = take lim (level_order K n [Some start])) by (rewrite <- E1 at 1; by apply qvis_prefix).
    unfold fact2. replace lim with (lim + 0) by lia. rewrite f2_steps; [done|by repeat constructor|]. rewrite E, take_length. lia.
  Qed.
  Lemma q_C56_cycle start i lim : exists_in h start -> rtc (walk_step h) (Some start) i -> tc (walk_step h) i i -> fact2 lim start s = Exn RecursionError.
  Proof.
    intros He Hi Hc. assert (Hinf : forall n, level K n [Some start] <> []).
    { assert (forall n, exists m j, n <= m /\ nsteps (walk_step h) m (Some start) j /\ j = i) as Hp.
      { apply rtc_nsteps in Hi as [m0 Hm0]. apply tc_nsteps in Hc as (k & Hk & Hc). induction n as [|n IH]; [exists m0, i; split_and!; [lia|done|done]|].
        destruct IH as (m & j & Hm & Hj & ->). exists (m + k), i. split_and!; [lia| |done]. by eapply nsteps_trans. }
      intros n E. destruct (Hp n) as (m & j & Hm & Hj & ->). apply level_nsteps in Hj. fold K in Hj. rewrite (level_mono K n m) in Hj; [by apply elem_of_nil in Hj|done|done]. }
    apply (q_C56_limit start lim); [done|]. by apply level_inf.
  Qed.
  Lemma q_C56_acyclic start : exists_in h start -> (forall i, rtc (walk_step h) (Some start) i -> ~ tc (walk_step h) i i) -> exists n, level K n [Some start] = [].
  Proof.
    intros He Hc. set (R := fun a b => rtc (walk_step h) (Some start) a /\ walk_step h a b).
    assert (HR : forall a b, tc R a b -> rtc (walk_step h) (Some start) a /\ tc (walk_step h) a b).
    { intros a b H. induction H as [a b [H1 H2]|a c b [H1 H2] H3 [IH1 IH2]]; (split; [done|]); [by apply tc_once|by eapply tc_l]. }
    assert (Hsn : sn R (Some start)).
    { apply tc_finite_sn.
      - intros a Ha. destruct (HR a a Ha). by eapply Hc.
      - exists (None :: map Some (seq 0 (length h))). intros i Hi. destruct (HR _ _ Hi) as [_ Hi']. assert (item_ok i) as Hok.
        { apply tc_rtc in Hi'. clear -Hi' He W. assert (H0 : item_ok (Some start)) by done. revert H0. generalize dependent (Some start). intros o Ho. induction Ho as [|a b c Hab Hbc IH]; [done|]. intros Ha. apply IH. by eapply walk_ok. }
        destruct i as [l|]; [|left]. right. destruct Hok as [o Ho]. apply elem_of_list_fmap. exists l. split; [done|]. apply elem_of_seq. apply lookup_lt_Some in Ho. lia. }
    assert (G : forall i, rtc (walk_step h) (Some start) i -> sn R i -> exists n, level K n [i] = []).
    { intros i Hr Hi. induction Hi as [i _ IH]. assert (exists n, level K n (K i) = []) as [n Hn].
      { assert (Hk : forall y, y ∈ K i -> exists n, level K n [y] = []).
        { intros y Hy. apply IH; [by split|]. eapply rtc_r; [exact Hr|exact Hy]. }
        clear IH. induction (K i) as [|y ys IH]; [by exists 0|]. destruct (Hk y ltac:(left)) as [n1 H1]. destruct IH as [n2 H2]; [intros; apply Hk; by right|].
        exists (n1 `max` n2). change (y :: ys) with ([y] ++ ys). rewrite level_app. rewrite (level_mono K n1), (level_mono K n2); [done|done|lia|done|lia]. }
      exists (S n). rewrite level_S_in. cbn [flat_map]. by rewrite app_nil_r. }
    apply G; [apply rtc_refl|done].
  Qed.
End s.
