(** * C40, C41 *)
From Verif Require Import Spec Hierarchy Elements Factory History PDict PPath PExec PBfs PWF PMono PReach PHist Traverse SpecTrav QTrav QTrav2 Search SpecSearch.

Lemma qname_lookup h l o : h !! l = Some o -> qname_of h l = o_qname o.
Proof. intros H. unfold qname_of. by rewrite H. Qed.
Lemma subs_all s l : WF0 (heap s) -> exists_in (heap s) l -> fst (get_subelements l (fun _ _ => true) s) = Ok (children (heap s) l).
Proof.
  intros W [o Ho]. unfold get_subelements. rewrite Ho. cbn [fst]. f_equal. rewrite filter_bool. unfold children. rewrite Ho. fold (dvals (o_subs o)).
  assert (H : forall c, c ∈ dvals (o_subs o) -> exists_in (heap s) c).
  { intros c Hc. apply (wf0_child (heap s) W l). unfold children. by rewrite Ho. }
  revert H. generalize (dvals (o_subs o)). induction l0 as [|c cs IH]; intros H; [done|]. rewrite filter_cons.
  destruct (H c ltac:(left)) as [oc Hc]. rewrite Hc. rewrite decide_True by done. f_equal. apply IH. intros; apply H; by right.
Qed.
Lemma sub_succ s o l x : WF0 (heap s) -> exists_in (heap s) l -> successors SubElement s o l x = Ok (children (heap s) l).
Proof. intros W H. unfold successors. by rewrite subs_all. Qed.

Section sub.
  Context (s : st) (W : WF0 (heap s)).
  Let K := children (heap s).
  Definition ex_all (q : list loc) : Prop := forall l, l ∈ q -> exists_in (heap s) l.
  Lemma ex_push r l : ex_all (l :: r) -> ex_all (r ++ K l).
  Proof. intros H y Hy. apply elem_of_app in Hy as [Hy|Hy]; [apply H; by right|]. by apply (wf0_child _ W l). Qed.

  (** [k] steps without a match *)
  Lemma sub_steps k lim q x : ex_all q -> length (qvis K false k q) = k ->
    (forall z, z ∈ qvis K false k q -> qname_of (heap s) z <> sr_def x) ->
    search SubElement (k + lim) s q x = search SubElement lim s (qrest K false k q) x.
  Proof.
    revert q. induction k as [|k IH]; intros q He Hl Hn; [done|]. destruct q as [|l r]; [done|]. cbn [qvis push] in Hl, Hn.
    cbn [Nat.add search qrest push]. destruct (He l ltac:(left)) as [o Ho]. rewrite Ho. cbn [mark].
    rewrite decide_False by (rewrite <- (qname_lookup _ _ _ Ho); apply Hn; left). rewrite sub_succ by (done || by eexists).
    apply IH; [by apply ex_push|by injection Hl|]. intros z Hz. apply Hn. by right.
  Qed.
  Lemma sub_none k lim q x : ex_all q -> length (qvis K false k q) = k -> qrest K false k q = [] -> k < lim ->
    (forall z, z ∈ qvis K false k q -> qname_of (heap s) z <> sr_def x) ->
    search SubElement lim s q x = (Ok tt, [], x).
  Proof.
    intros He Hl Hr Hk Hn. replace lim with (k + S (lim - k - 1)) by lia. rewrite sub_steps by done. by rewrite Hr.
  Qed.
  Lemma sub_found k lim q x y r o : ex_all q -> length (qvis K false k q) = k -> qrest K false k q = y :: r -> k < lim ->
    (forall z, z ∈ qvis K false k q -> qname_of (heap s) z <> sr_def x) -> heap s !! y = Some o -> o_qname o = sr_def x ->
    search SubElement lim s q x = (Ok tt, r, found y o x).
  Proof.
    intros He Hl Hr Hk Hn Ho Hq. replace lim with (k + S (lim - k - 1)) by lia. rewrite sub_steps by done. rewrite Hr.
    cbn [search]. rewrite Ho. cbn [mark]. by rewrite decide_True.
  Qed.
End sub.

Section order.
  Context (h : list obj) (W : WF0 h).
  Lemma kid_ex p c : c ∈ children h p -> exists_in h c /\ parent_of h c = Some p.
  Proof. apply (fo_kid _ (wf0_forest h W)). Qed.
  Lemma kid_nd p : NoDup (children h p).
  Proof. apply (wf0_forest h W). Qed.
  Lemma level_ex n l x : exists_in h l -> x ∈ level (children h) n [l] -> exists_in h x /\ within h l x.
  Proof.
    intros Hl Hx. destruct (wf_acy _ W l Hl) as [ll Hll]. destruct (level_path h (children h) kid_ex l ll n x Hll Hx) as (lx & Hlx & _ & Hin).
    split; [by eapply path_exists|]. by eapply path_within.
  Qed.
  Lemma order_within n l x : exists_in h l -> level (children h) n [l] = [] -> x ∈ level_order (children h) n [l] <-> within h l x.
  Proof.
    intros Hl Hn. split.
    - intros Hx. apply elem_of_level_order in Hx as (k & _ & Hx). by eapply level_ex.
    - intros Hx. assert (Hex : exists_in h x).
      { destruct Hx as [->|Ha]; [done|]. destruct (h !! x) as [ox|] eqn:E; [by eexists|]. destruct Ha as [? ? Ha|? ? ? Ha]; unfold parent_of in Ha; by rewrite E in Ha. }
      destruct (within_level h l x) as [k Hk]; [intros p c; by apply wf0_parent|apply W|done|done|]. apply elem_of_level_order. exists k. split; [|done].
      destruct (decide (k < n)) as [|Hge]; [done|]. exfalso. replace k with (n + (k - n)) in Hk by lia. rewrite level_zero_mono in Hk by done. inversion Hk.
  Qed.
  Lemma order_exists l : exists_in h l -> exists ls, subtree_order h l ls.
  Proof.
    intros Hl. destruct (wf_acy _ W l Hl) as [ll Hll]. exists (level_order (children h) (length h) [l]).
    exists (length h). split; [|done]. apply (level_empty h _ kid_ex kid_nd l ll Hll).
  Qed.
  Lemma order_props l ls : exists_in h l -> subtree_order h l ls -> NoDup ls /\ (forall x, x ∈ ls <-> within h l x) /\
    qvis (children h) false (length ls) [l] = ls /\ qrest (children h) false (length ls) [l] = [].
  Proof.
    intros Hl (n & Hn & ->). destruct (wf_acy _ W l Hl) as [ll Hll]. split; [by apply (level_order_nodup h _ kid_ex kid_nd _ _ ll)|].
    split; [intros x; by apply order_within|]. by apply bfs_levels.
  Qed.
  Lemma order_det l ls ls' : subtree_order h l ls -> subtree_order h l ls' -> ls = ls'.
  Proof.
    intros (n & Hn & ->) (m & Hm & ->). destruct (Nat.le_ge_cases n m) as [Hle|Hle].
    - replace m with (n + (m - n)) by lia. symmetry. by apply level_order_stable.
    - replace n with (m + (n - m)) by lia. by apply level_order_stable.
  Qed.
End order.

Lemma set_frq_same s : fr_query s = [] -> set_fr_query [] s = s.
Proof. destruct s; cbn. by intros ->. Qed.

Lemma fifo_all {A} (K : A -> list A) k q : length (qvis K false k q) = k -> qvis K false k q ++ qrest K false k q = q ++ flat_map K (qvis K false k q).
Proof.
  revert q. induction k as [|k IH]; intros q H; [cbn; by rewrite app_nil_r|]. destruct q as [|i r]; [done|]. cbn [qvis qrest push] in *.
  injection H as H. cbn [app flat_map]. f_equal. rewrite IH by done. by rewrite app_assoc.
Qed.

Section exec.
  Context (s : st) (R : reach s) (start : loc) (He : exists_in (heap s) start) (ls : list loc) (HO : subtree_order (heap s) start ls).
  Let h := heap s.
  Let W := reach_wf s R.
  Let K := children h.
  Lemma ex_start : ex_all s [start].
  Proof. intros l Hl. by apply elem_of_list_singleton in Hl as ->. Qed.
  Lemma order_vis k : k <= length ls -> qvis K false k [start] = take k ls.
  Proof. intros Hk. destruct (order_props h W start ls He HO) as (_ & _ & Hv & _). rewrite (qvis_prefix K false k (length ls) [start]) by done. fold K in Hv. by rewrite Hv. Qed.
  Lemma order_rest k y l2 : drop k ls = y :: l2 -> exists r, qrest K false k [start] = y :: r.
  Proof.
    intros Hd. assert (Hlen : k < length ls).
    { assert (H : length (drop k ls) = S (length l2)) by (by rewrite Hd). rewrite drop_length in H. lia. }
    pose proof (order_vis (S k) ltac:(lia)) as H1. replace (S k) with (k + 1) in H1 by lia. rewrite qvis_add, (order_vis k) in H1 by lia.
    assert (Ht : take (k + 1) ls = take k ls ++ [y]).
    { rewrite <- (take_drop k ls) at 1. rewrite Hd. rewrite take_app_ge by (rewrite take_length; lia). rewrite take_length. replace (k + 1 - k `min` length ls) with 1 by lia. done. }
    rewrite Ht in H1. apply app_inv_head in H1. destruct (qrest K false k [start]) as [|i r]; [done|]. cbn in H1. injection H1 as ->. by exists r.
  Qed.

  Lemma q_C40_none d lim : length ls < lim -> (forall z, z ∈ ls -> qname_of h z <> d) ->
    search_execute SubElement lim start s (new_searcher d) = (Ok [], s, new_searcher d).
  Proof.
    intros Hl Hn. destruct (reach_fr s R) as (_ & _ & Hq). unfold search_execute, new_searcher. cbn [sr_def sr_cache sr_visited dget]. rewrite Hq. cbn [app].
    destruct (order_props h W start ls He HO) as (_ & _ & Hv & Hr). fold K in Hv, Hr.
    rewrite (sub_none s W (length ls)); [by rewrite set_frq_same|apply ex_start|fold h K; by rewrite Hv|done|done|].
    intros z Hz. fold h K in Hz. rewrite Hv in Hz. by apply Hn.
  Qed.
  Lemma q_C40_found d lim l1 y l2 : length l1 < lim -> first_match h d ls l1 y l2 ->
    exists r, search_execute SubElement lim start s (new_searcher d) = (Ok [], set_fr_query r s, mkSearch d [y] [(d, y)] []) /\
      qrest K false (length l1) [start] = y :: r.
  Proof.
    intros Hl (E & Hy & Hn). destruct (reach_fr s R) as (_ & _ & Hq). unfold search_execute, new_searcher. cbn [sr_def sr_cache sr_visited dget]. rewrite Hq. cbn [app].
    assert (Hd : drop (length l1) ls = y :: l2) by (rewrite E; apply drop_app). destruct (order_rest _ _ _ Hd) as [r Hr]. exists r.
    assert (Ht : take (length l1) ls = l1) by (rewrite E; apply take_app). assert (Hlen : length l1 <= length ls) by (rewrite E, app_length; lia).
    pose proof (order_vis (length l1) Hlen) as Hv. rewrite Ht in Hv.
    assert (Hyx : exists_in h y).
    { destruct HO as (n & Hlv & E'). assert (Hin : y ∈ level_order (children h) n [start]) by (unfold h; rewrite <- E', E; apply elem_of_app; right; left).
      apply elem_of_level_order in Hin as (k & _ & Hin). by eapply (level_ex h W). }
    destruct Hyx as [oy Hoy]. split; [|done].
    rewrite (sub_found s W (length l1) lim [start] _ y r oy); [|apply ex_start|fold h K; by rewrite Hv|done|done| |done|by rewrite <- (qname_lookup _ _ _ Hoy)].
    - unfold found. cbn. rewrite <- (qname_lookup _ _ _ Hoy), Hy. done.
    - intros z Hz. fold h K in Hz. rewrite Hv in Hz. by apply Hn.
  Qed.
  (** What is left in the queue. *)
  Lemma q_leftover l1 y l2 r : ls = l1 ++ y :: l2 -> qrest K false (length l1) [start] = y :: r ->
    (exists t, l2 = r ++ t) /\ forall z, z ∈ r <-> z ∈ l2 /\ exists p, p ∈ l1 /\ parent_of h z = Some p.
  Proof.
    intros E Hr. destruct (order_props h W start ls He HO) as (Hnd & Hin & Hv & Hvr). fold K in Hv, Hvr.
    assert (Hlen : length l1 <= length ls) by (rewrite E, app_length; lia).
    assert (Ht : take (length l1) ls = l1) by (rewrite E; apply take_app).
    pose proof (order_vis (length l1) Hlen) as Hv1. rewrite Ht in Hv1.
    assert (Hpre : forall k q, exists t, qvis K false (length q + k) q = q ++ t).
    { intros k q. rewrite qvis_add. destruct (bfs_block K q []) as [B1 B2]. rewrite app_nil_r in B1, B2. rewrite B1. by eexists. }
    assert (Hsuf : qvis K false (length ls - length l1) (y :: r) = y :: l2).
    { assert (H1 : qvis K false (length l1 + (length ls - length l1)) [start] = ls) by (replace (length l1 + (length ls - length l1)) with (length ls) by lia; done).
      rewrite qvis_add, Hv1, Hr in H1. rewrite E in H1 at 2. by apply app_inv_head in H1. }
    assert (Hrl : length (y :: r) <= length ls - length l1).
    { destruct (Nat.le_gt_cases (length (y :: r)) (length ls - length l1)) as [|Hgt]; [done|]. exfalso.
      replace (length ls) with (length l1 + (length ls - length l1)) in Hvr by lia. rewrite qrest_add, Hr in Hvr.
      revert Hgt Hvr. generalize (length ls - length l1). generalize (y :: r). intros q n Hgt Hvr.
      destruct (bfs_block K (take n q) (drop n q)) as [_ B]. rewrite take_drop, take_length in B. replace (n `min` length q) with n in B by lia.
      rewrite Hvr in B. symmetry in B. apply app_eq_nil in B as [B _]. apply (f_equal length) in B. rewrite drop_length in B. cbn [length] in B. lia. }
    assert (Hall : l1 ++ y :: r = start :: flat_map K l1).
    { rewrite <- Hr. rewrite <- Hv1 at 1. rewrite fifo_all by (rewrite Hv1; done). by rewrite Hv1. }
    destruct (Hpre (length ls - length l1 - length (y :: r)) (y :: r)) as [t Ht'].
    replace (length (y :: r) + (length ls - length l1 - length (y :: r))) with (length ls - length l1) in Ht' by lia.
    rewrite Hsuf in Ht'. injection Ht' as Ht'. rewrite E in Hnd. apply NoDup_app in Hnd as (_ & Hdis & Hnd). apply NoDup_cons in Hnd as [Hy2 _].
    split; [by exists t|]. intros z. split.
    - intros Hz. assert (Hz2 : z ∈ l2) by (rewrite Ht'; apply elem_of_app; by left). split; [done|].
      assert (Hzz : z ∈ start :: flat_map K l1) by (rewrite <- Hall; apply elem_of_app; right; by right). apply elem_of_cons in Hzz as [->|Hzz].
      + exfalso. destruct l1 as [|a l1']; cbn in Hall; injection Hall; intros; subst; [done|]. apply (Hdis start); [left|by right].
      + apply elem_of_flat_map in Hzz as (p & Hp & Hzp). exists p. split; [done|]. by apply (kid_ex h W).
    - intros (Hz2 & p & Hp & Hpar). assert (Hzz : z ∈ l1 ++ y :: r).
      { rewrite Hall. right. apply elem_of_flat_map. exists p. split; [done|]. apply (wf0_parent h W); [|done].
        unfold parent_of in Hpar. destruct (h !! z) eqn:Ez; [by eexists|done]. }
      apply elem_of_app in Hzz as [Hzz|Hzz]; [destruct (Hdis z Hzz); by right|]. apply elem_of_cons in Hzz as [->|Hzz]; done.
  Qed.
End exec.

Lemma q_C40 s start : reach s -> exists_in (heap s) start -> exists ls,
  subtree_order (heap s) start ls /\ NoDup ls /\ (forall x, x ∈ ls <-> within (heap s) start x) /\
  forall d lim, length ls < lim -> exists s' x', search_execute SubElement lim start s (new_searcher d) = (Ok [], s', x') /\ heap s' = heap s /\
    (forall l1 y l2, first_match (heap s) d ls l1 y l2 -> sr_result x' = [y]) /\
    ((forall z, z ∈ ls -> qname_of (heap s) z <> d) -> sr_result x' = [] /\ s' = s).
Proof.
  intros R He. pose proof (reach_wf s R) as W. destruct (order_exists _ W start He) as [ls HO]. exists ls.
  destruct (order_props _ W start ls He HO) as (Hnd & Hin & _). split; [done|]. split; [done|]. split; [done|]. intros d lim Hl.
  destruct (decide (Exists (fun z => qname_of (heap s) z = d) ls)) as [Hex|Hno].
  - assert (Hfm : exists l1 y l2, first_match (heap s) d ls l1 y l2).
    { clear -Hex. induction ls as [|z l IH]; [inversion Hex|]. destruct (decide (qname_of (heap s) z = d)) as [E|Hne].
      - exists [], z, l. split; [done|]. split; [done|]. intros ? H. inversion H.
      - inversion Hex as [? ? E|? ? E]; [done|subst]. destruct (IH E) as (l1 & y & l2 & E1 & E2 & E3). exists (z :: l1), y, l2. split; [by rewrite E1|].
        split; [done|]. intros z' Hz'. apply elem_of_cons in Hz' as [->|Hz']; [done|by apply E3]. }
    destruct Hfm as (l1 & y & l2 & Hfm). assert (Hll : length l1 < lim) by (destruct Hfm as [-> _]; rewrite app_length in Hl; cbn in Hl; lia).
    destruct (q_C40_found s R start He ls HO d lim l1 y l2 Hll Hfm) as (r & Hr & _). eexists _, _. split; [exact Hr|]. split; [done|]. cbn [sr_result]. split.
    + intros l1' y' l2' Hfm'. f_equal. destruct Hfm as (E1 & E2 & E3), Hfm' as (F1 & F2 & F3). clear -E1 E2 E3 F1 F2 F3.
      revert ls l1' E1 F1 F3. induction l1 as [|a l1 IH]; intros ls [|a' l1'] E1 F1 F3; cbn in *.
      * congruence.
      * exfalso. assert (a' = y) as -> by congruence. apply (F3 y); [left|done].
      * exfalso. assert (a = y') as -> by congruence. apply (E3 y'); [left|done].
      * eapply IH; [intros; apply E3; by right|reflexivity| |intros; apply F3; by right]. congruence.
    + intros Hno. exfalso. destruct Hfm as (-> & E2 & _). apply (Hno y); [apply elem_of_app; right; left|done].
  - assert (Hno' : forall z, z ∈ ls -> qname_of (heap s) z <> d).
    { intros z Hz E. apply Hno. apply Exists_exists. by exists z. }
    eexists _, _. split; [by apply (q_C40_none s R start He ls HO)|]. split; [done|]. split; [|done].
    intros l1 y l2 (-> & E2 & _). destruct (Hno' y); [apply elem_of_app; right; left|done].
Qed.

Lemma q_C41_leftover s start ls d lim l1 y l2 : reach s -> exists_in (heap s) start -> subtree_order (heap s) start ls ->
  first_match (heap s) d ls l1 y l2 -> length l1 < lim ->
  exists s' x', search_execute SubElement lim start s (new_searcher d) = (Ok [], s', x') /\ sr_result x' = [y] /\ heap s' = heap s /\
    (exists t, l2 = fr_query s' ++ t) /\
    forall z, z ∈ fr_query s' <-> z ∈ l2 /\ exists p, p ∈ l1 /\ parent_of (heap s) z = Some p.
Proof.
  intros R He HO Hfm Hl. destruct (q_C40_found s R start He ls HO d lim l1 y l2 Hl Hfm) as (r & Hr & Hrest). eexists _, _. split; [exact Hr|].
  split; [done|]. split; [by destruct s|]. assert (E : fr_query (set_fr_query r s) = r) by (by destruct s). rewrite E. destruct Hfm as [E1 _].
  exact (q_leftover s R start He ls HO l1 y l2 r E1 Hrest).
Qed.
Lemma q_C41_leak s z q k lim start : fr_query s = z :: q -> exists_in (heap s) z ->
  exists x', search_execute k (S lim) start s (new_searcher (qname_of (heap s) z)) = (Ok [], set_fr_query (q ++ [start]) s, x') /\ sr_result x' = [z].
Proof.
  intros Hq [o Ho]. unfold search_execute, new_searcher. cbn [sr_def sr_cache sr_visited dget]. rewrite Hq. cbn [app search]. rewrite Ho. cbn [sr_def].
  rewrite decide_True by (by rewrite (qname_lookup _ _ _ Ho)). eexists. split; [reflexivity|]. by destruct k.
Qed.
Lemma q_C41_cache k lim start s x r s1 x1 y k' lim' start' s' : search_execute k lim start s x = (Ok r, s1, x1) -> sr_result x1 = [y] ->
  exists x2, search_execute k' lim' start' s' x1 = (Ok [], s', x2) /\ sr_result x2 = [y].
Proof.
  intros H Hy.
  assert (G : forall lim q x, sr_result x = [] -> forall r q' x', search k lim s q x = (Ok r, q', x') ->
    sr_def x' = sr_def x /\ (sr_result x' = [] \/ exists y, sr_result x' = [y] /\ dget (sr_def x) (sr_cache x') = Some y)).
  { clear. induction lim as [|lim IH]; intros q x Hr r q' x' H; [done|]. destruct q as [|l q]; cbn [search] in H.
    - injection H as _ _ <-. by split; [|left].
    - destruct (heap s !! l) as [o|] eqn:Eo; [|done].
      assert (Hm : sr_result (mark k (o_uuid o) x) = [] /\ sr_def (mark k (o_uuid o) x) = sr_def x) by (by destruct k).
      destruct Hm as (M2 & M3). destruct (decide _) as [Hd|Hd].
      + injection H as _ _ <-. unfold found. cbn [sr_def sr_result sr_cache]. split; [done|]. right. exists l. rewrite M2. split; [done|].
        rewrite Hd. by rewrite dget_dset, decide_True.
      + destruct (successors _ _ _ _ _) as [new|e]; [|done]. destruct (IH _ _ M2 _ _ _ H) as [E1 E2]. rewrite M3 in *. done. }
  assert (E : dget (sr_def x1) (sr_cache x1) = Some y).
  { unfold search_execute in H. destruct (dget (sr_def x) (sr_cache x)) as [e|] eqn:Ed.
    - injection H as _ _ <-. cbn in *. congruence.
    - destruct (search k lim s _ _) as [[[[]|e] q'] x'] eqn:Es; [|done]. injection H as _ _ ->.
      apply G in Es; [|reflexivity]. destruct Es as [E1 [E2|(y' & E2 & E3)]]; [congruence|]. cbn [sr_def] in E1, E3. congruence. }
  unfold search_execute. rewrite E. eexists. split; [reflexivity|]. done.
Qed.
