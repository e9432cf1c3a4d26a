(** * C26 - C29 *)
From Verif Require Import Spec Hierarchy Elements Factory History PPath PExec PBfs PWF PMono PReach PHist Traverse SpecTrav QTrav.

Section forest.
  Context (h : list obj) (W : WF0 h) (f : loc -> obj -> bool).
  Let kids := fkids f h.
  Lemma fkids_kid p c : c ∈ kids p -> exists_in h c /\ parent_of h c = Some p.
  Proof. intros H. apply elem_of_list_filter in H as [_ H]. by apply (fo_kid _ (wf0_forest h W)). Qed.
  Lemma fkids_nd p : NoDup (kids p).
  Proof. apply NoDup_filter. apply (wf0_forest h W). Qed.
  Lemma fkids_acy l : exists_in h l -> exists ls, path h l ls.
  Proof. apply W. Qed.
  Lemma fkids_empty l : exists_in h l -> exists n, level kids n (kids l) = [].
  Proof.
    intros Hl. destruct (fkids_acy l Hl) as [ls Hls].
    pose proof (level_empty h kids fkids_kid fkids_nd l ls Hls) as H.
    exists (length h). assert (H' : level kids (S (length h)) [l] = []) by (cbn [level]; by rewrite H).
    rewrite level_S_in in H'. cbn [flat_map] in H'. by rewrite app_nil_r in H'.
  Qed.
  Lemma fkids_nodup n l : exists_in h l -> NoDup (l :: level_order kids n (kids l)).
  Proof.
    intros Hl. destruct (fkids_acy l Hl) as [ls Hls].
    pose proof (level_order_nodup h kids fkids_kid fkids_nd (S n) l ls Hls) as H.
    rewrite level_order_S_in in H. cbn [flat_map app] in H. by rewrite app_nil_r in H.
  Qed.
  Lemma level_through l k y : y ∈ level kids k (kids l) -> through f h l y.
  Proof.
    revert y. induction k as [|k IH]; intros y Hy; cbn [level] in Hy.
    - pose proof (fkids_kid _ _ Hy) as [_ Hp]. apply elem_of_list_filter in Hy as [Ha _]. by apply through_kid.
    - apply elem_of_flat_map in Hy as (q & Hq & Hy). pose proof (fkids_kid _ _ Hy) as [_ Hp].
      apply elem_of_list_filter in Hy as [Ha _]. by apply (through_step f h l y q); [apply IH| |].
  Qed.
  Lemma through_level l y : through f h l y -> exists k, y ∈ level kids k (kids l).
  Proof.
    assert (Hk : forall q y, parent_of h y = Some q -> accepts f h y = true -> y ∈ kids q).
    { intros q z Hp Ha. apply elem_of_list_filter. split; [done|]. apply (fo_par _ (wf0_forest h W)); [|done].
      unfold accepts in Ha. destruct (h !! z) eqn:E; [by eexists|done]. }
    induction 1 as [y Hp Ha|y q Hq [k IH] Hp Ha].
    - exists 0. by apply Hk.
    - exists (S k). cbn [level]. apply elem_of_flat_map. exists q. split; [done|by apply Hk].
  Qed.
  Lemma order_through n l y : level kids n (kids l) = [] -> y ∈ level_order kids n (kids l) <-> through f h l y.
  Proof.
    intros Hn. rewrite elem_of_level_order. split.
    - intros (k & _ & Hy). by eapply level_through.
    - intros Hy. destruct (through_level l y Hy) as [k Hk]. exists k. split; [|done].
      destruct (decide (k < n)) as [|Hge]; [done|]. replace k with (n + (k - n)) in Hk by lia. rewrite level_zero_mono in Hk by done. inversion Hk.
  Qed.
  (** distances are unique *)
  Lemma near_iff m l k y : exists_in h l -> y ∈ level kids k [l] -> near kids m l y <-> k <= m.
  Proof.
    intros Hl Hy. destruct (fkids_acy l Hl) as [ls Hls]. unfold near. rewrite elem_of_level_order. split.
    - intros (j & Hj & Hy'). destruct (level_path h kids fkids_kid l ls k y Hls Hy) as (l1 & P1 & L1 & _).
      destruct (level_path h kids fkids_kid l ls j y Hls Hy') as (l2 & P2 & L2 & _). rewrite (path_det _ _ _ _ P1 P2) in L1. lia.
    - intros Hk. exists k. split; [lia|done].
  Qed.
  Lemma bfs_near m n l : exists_in h l -> level kids n (kids l) = [] ->
    level_order kids m (kids l) = filter (near kids m l) (level_order kids n (kids l)).
  Proof.
    intros Hl Hn.
    assert (Hle : forall j, j <= m -> filter (near kids m l) (level_order kids j (kids l)) = level_order kids j (kids l)).
    { intros j Hj. assert (G : forall y, y ∈ level_order kids j (kids l) -> near kids m l y).
      { intros y Hy. apply elem_of_level_order in Hy as (k & Hk & Hy). apply (near_iff m l (S k) y Hl); [|lia].
        rewrite level_S_in. cbn [flat_map]. by rewrite app_nil_r. }
      induction (level_order kids j (kids l)) as [|z zs IHz]; [done|]. rewrite filter_cons, decide_True by (apply G; left).
      rewrite IHz; [done|]. intros. apply G. by right. }
    destruct (decide (m <= n)) as [Hmn|Hmn].
    - replace n with (m + (n - m)) by lia. generalize (n - m). intros j. induction j as [|j IH].
      + rewrite Nat.add_0_r, Hle; [done|lia].
      + rewrite Nat.add_succ_r, level_order_S, filter_app, <- IH.
        assert (E : filter (near kids m l) (level kids (m + j) (kids l)) = []); [|by rewrite E, app_nil_r].
        assert (G : forall y, y ∈ level kids (m + j) (kids l) -> ~ near kids m l y).
        { intros y Hy Hnr. apply (near_iff m l (S (m + j)) y Hl) in Hnr; [lia|]. rewrite level_S_in. cbn [flat_map]. by rewrite app_nil_r. }
        induction (level kids (m + j) (kids l)) as [|z zs IHz]; [done|]. rewrite filter_cons, decide_False by (apply G; left).
        apply IHz. intros. apply G. by right.
    - rewrite Hle by lia. replace m with (n + (m - n)) by lia. by apply level_order_stable.
  Qed.
  Lemma filter_flat_map {A B} (P : B -> Prop) `{forall x, Decision (P x)} (g : A -> list B) xs :
    filter P (flat_map g xs) = flat_map (fun x => filter P (g x)) xs.
  Proof. induction xs as [|x xs IH]; [done|]. cbn [flat_map]. by rewrite filter_app, IH. Qed.
  Lemma dfs_near_pre m l0 n : exists_in h l0 -> forall l k, l ∈ level kids k [l0] ->
    filter (near kids m l0) (pre kids n l) = if decide (k <= m) then pre kids (Nat.min n (m - k)) l else [].
  Proof.
    intros Hl0. induction n as [|n IH]; intros l k Hl.
    - cbn [pre]. rewrite filter_cons, filter_nil. pose proof (near_iff m l0 k l Hl0 Hl) as Hn.
      destruct (decide (k <= m)) as [Hk|Hk]; [rewrite decide_True by (by apply Hn)|rewrite decide_False by tauto]; done.
    - cbn [pre]. rewrite filter_cons. pose proof (near_iff m l0 k l Hl0 Hl) as Hn. rewrite filter_flat_map.
      assert (E : flat_map (fun x => filter (near kids m l0) (pre kids n x)) (rev (kids l)) =
                  flat_map (fun x => if decide (S k <= m) then pre kids (Nat.min n (m - S k)) x else []) (rev (kids l))).
      { apply flat_map_ext_in. intros x Hx. apply IH. cbn [level]. apply elem_of_flat_map. exists l. split; [done|].
        by apply elem_of_list_In, in_rev, elem_of_list_In in Hx. }
      rewrite E. clear E IH. destruct (decide (k <= m)) as [Hk|Hk].
      + rewrite decide_True by (by apply Hn). destruct (decide (S k <= m)) as [Hk'|Hk'].
        * replace (Nat.min (S n) (m - k)) with (S (Nat.min n (m - S k))) by lia. done.
        * replace (Nat.min (S n) (m - k)) with 0 by lia. cbn [pre]. f_equal. by induction (rev (kids l)).
      + rewrite decide_False by tauto. destruct (decide (S k <= m)); [lia|]. by induction (rev (kids l)).
  Qed.
  Lemma pre_split {A} (ks : A -> list A) n l : pre ks n l = l :: pre_below ks n l.
  Proof. by destruct n. Qed.
  Lemma dfs_near m n l : exists_in h l -> level kids n (kids l) = [] ->
    pre_below kids m l = filter (near kids m l) (pre_below kids n l).
  Proof.
    intros Hl Hn. pose proof (dfs_near_pre m l n Hl l 0 ltac:(left)) as H. rewrite decide_True in H by lia. rewrite Nat.sub_0_r in H.
    assert (Hn' : level kids (S n) [l] = []) by (rewrite level_S_in; cbn [flat_map]; by rewrite app_nil_r).
    assert (E : pre kids (Nat.min n m) l = pre kids m l).
    { destruct (decide (n <= m)); [|by replace (Nat.min n m) with m by lia]. rewrite Nat.min_l by done.
      replace m with (n + (m - n)) by lia. by rewrite pre_stable. }
    rewrite E, !pre_split, filter_cons, decide_True in H; [|apply (near_iff m l 0 l Hl); [left|lia]].
    by injection H as H.
  Qed.
End forest.

Lemma set_fr_same s : fr_hier s = [] -> set_fr_hier [] s = s.
Proof. destruct s. simpl. by intros ->. Qed.
Lemma reach_fr s : reach s -> fr_hier s = [] /\ fr_hyper s = [] /\ fr_query s = [].
Proof.
  induction 1 as [ck hf|s o R (IH1 & IH2 & IH3) Ha]; [done|]. pose proof (pres_exec o s) as M.
  by rewrite (m_f1 _ _ M), (m_f2 _ _ M), (m_f3 _ _ M).
Qed.

(** the condition under which [n] levels are what a traversal visits *)
Definition enough (t : trav) (h : list obj) (start : loc) (n : nat) : Prop :=
  match t_max t with None => level (fkids (t_filter t) h) n (fkids (t_filter t) h start) = [] | Some m => n = m end.

Section exec.
  Context {X B : Type} (t : trav) (v : visitor X B) (s : st) (start : loc).
  Context (Hs : exists_in (heap s) start).
  Let h := heap s.
  Let kids := fkids (t_filter t) h.

  Lemma all_exist_start q : all_exist s q -> all_exist s (q ++ ik t h (start, 0)).
  Proof. intros H i Hi. apply elem_of_app in Hi as [Hi|Hi]; [by apply H|by eapply ik_exists]. Qed.

  Lemma bfs_exec_ok lim q L x bs x' : fr_hier s = q -> all_exist s q ->
    qvis (ik t h) false (length L) (q ++ ik t h (start, 0)) = L -> qrest (ik t h) false (length L) (q ++ ik t h (start, 0)) = [] ->
    length L < lim -> visit_all v s (root_part t h start ++ map fst L) x = (Ok bs, x') ->
    execute_bfs lim t v start s x = (Ok bs, set_fr_hier [] s, x').
  Proof.
    intros Hf Hq HL HR Hl Hv. unfold execute_bfs. rewrite visit_root_eq by done. fold h.
    rewrite visit_all_app in Hv. destruct (visit_all v s (root_part t h start) x) as [[b0|e] x0]; [|done].
    rewrite fill_eq by done. fold h. rewrite Hf.
    destruct (visit_all v s (map fst L) x0) as [[b1|e] x1] eqn:E; [|done]. injection Hv as <- <-.
    rewrite (traverse_done t v s false lim L _ b0 x0 b1 x1); [done|by apply all_exist_start|done..].
  Qed.
  Lemma bfs_exec_limit lim q x bs x' : fr_hier s = q -> all_exist s q ->
    let Q := q ++ ik t h (start, 0) in
    length (qvis (ik t h) false lim Q) = lim ->
    visit_all v s (root_part t h start ++ map fst (qvis (ik t h) false lim Q)) x = (Ok bs, x') ->
    execute_bfs lim t v start s x = (Exn RecursionError, set_fr_hier (qrest (ik t h) false lim Q) s, x').
  Proof.
    intros Hf Hq Q Hl Hv. unfold execute_bfs. rewrite visit_root_eq by done. fold h.
    rewrite visit_all_app in Hv. destruct (visit_all v s (root_part t h start) x) as [[b0|e] x0]; [|done].
    rewrite fill_eq by done. fold h. rewrite Hf. fold Q.
    destruct (visit_all v s (map fst (qvis _ _ _ Q)) x0) as [[b1|e] x1] eqn:E; [|done]. injection Hv as <- <-.
    by rewrite (traverse_limit t v s false lim Q b0 x0 b1 x1); [|by apply all_exist_start|..].
  Qed.
  Lemma bfs_exec_fail lim q k x bs x1 i r e x2 : fr_hier s = q -> all_exist s q ->
    let Q := q ++ ik t h (start, 0) in
    length (qvis (ik t h) false k Q) = k -> qrest (ik t h) false k Q = i :: r ->
    visit_all v s (root_part t h start ++ map fst (qvis (ik t h) false k Q)) x = (Ok bs, x1) ->
    v s i.1 x1 = (Exn e, x2) -> k < lim ->
    execute_bfs lim t v start s x = (Exn e, set_fr_hier (qrest (ik t h) false (S k) Q) s, x2).
  Proof.
    intros Hf Hq Q Hl Hr Hv He Hlim. unfold execute_bfs. rewrite visit_root_eq by done. fold h.
    rewrite visit_all_app in Hv. destruct (visit_all v s (root_part t h start) x) as [[b0|e0] x0]; [|done].
    rewrite fill_eq by done. fold h. rewrite Hf. fold Q.
    destruct (visit_all v s (map fst (qvis _ _ _ Q)) x0) as [[b1|e1] x1'] eqn:E; [|done]. injection Hv as <- <-.
    by rewrite (traverse_fail t v s false k lim Q b0 x0 b1 x1' i r e x2); [|by apply all_exist_start|..].
  Qed.
  Lemma dfs_exec_ok lim n x bs x' : enough t h start n ->
    length (pre_below kids n start) < lim -> visit_all v s (root_part t h start ++ pre_below kids n start) x = (Ok bs, x') ->
    execute_dfs lim t v start s x = (Ok bs, s, x').
  Proof.
    intros Hn Hl Hv. destruct (dfs_items t h start n Hn) as [H1 H2]. fold kids in H2. unfold execute_dfs. rewrite visit_root_eq by done. fold h.
    rewrite visit_all_app in Hv. destruct (visit_all v s (root_part t h start) x) as [[b0|e] x0]; [|done].
    rewrite fill_eq by done. fold h. rewrite <- H2 in Hv.
    destruct (visit_all v s (map fst _) x0) as [[b1|e] x1] eqn:E; [|done]. injection Hv as <- <-.
    set (L := pre_below (ik t h) n (start, 0)) in *.
    assert (HL : qvis (ik t h) true (length L) (rev (ik t h (start, 0))) = L /\ qrest (ik t h) true (length L) (rev (ik t h (start, 0))) = []).
    { destruct n as [|n].
      - simpl in H1. rewrite app_nil_r in H1. unfold L. rewrite H1. done.
      - destruct (dfs_block (ik t h) n (rev (ik t h (start, 0))) []) as [E1 E2].
        { intros y Hy. apply elem_of_list_In, in_rev, elem_of_list_In in Hy. rewrite level_S_in in H1. cbn [flat_map] in H1.
          rewrite app_nil_r, level_each in H1. clear -H1 Hy. induction (ik t h (start, 0)) as [|z zs IHz]; [inversion Hy|]. cbn [flat_map] in H1.
          apply app_eq_nil in H1 as [Ha Hb]. apply elem_of_cons in Hy as [->|Hy]; [done|by apply IHz]. }
        rewrite app_nil_r in E1, E2. exact (conj E1 E2). }
    rewrite (traverse_done t v s true lim L _ b0 x0 b1 x1); [done| |by apply HL|by apply HL| |done].
    - intros i Hi. apply elem_of_list_In, in_rev, elem_of_list_In in Hi. by eapply ik_exists.
    - apply (f_equal length) in H2. rewrite map_length in H2. by rewrite H2.
  Qed.
End exec.

Lemma all_exist_nil s : all_exist s [].
Proof. intros i Hi. inversion Hi. Qed.

(** Main lemmas, for a reachable state *)
Section main.
  Context (s : st) (R : reach s) (t : trav) (start : loc) (Hs : exists_in (heap s) start).
  Let h := heap s.
  Let kids := fkids (t_filter t) h.

  Lemma enough_exists : exists n, enough t h start n.
  Proof.
    unfold enough. destruct (t_max t) as [m|]; [by exists m|]. apply fkids_empty; [by apply reach_wf|done].
  Qed.
  Lemma q_bfs n : enough t h start n -> let order := level_order kids n (kids start) in
    forall X B (v : visitor X B) lim x bs x', length order < lim ->
    visit_all v s (root_part t h start ++ order) x = (Ok bs, x') -> execute_bfs lim t v start s x = (Ok bs, s, x').
  Proof.
    intros Hn order X B v lim x bs x' Hl Hv. destruct (bfs_items t h start n Hn) as [H1 H2]. fold kids in H2. fold order in H2.
    pose proof (bfs_levels (ik t h) n _ H1) as [H3 H4]. destruct (reach_fr s R) as [Hf _].
    rewrite (bfs_exec_ok t v s start Hs lim [] (level_order (ik t h) n (ik t h (start, 0))) x bs x' Hf (all_exist_nil s)); [by rewrite set_fr_same|done|done| |].
    - apply (f_equal length) in H2. rewrite map_length in H2. by rewrite H2.
    - fold h. by rewrite H2.
  Qed.
  Lemma q_bfs_limit n : enough t h start n -> let order := level_order kids n (kids start) in
    forall X B (v : visitor X B) lim x bs x', lim <= length order ->
    visit_all v s (root_part t h start ++ take lim order) x = (Ok bs, x') ->
    exists q, execute_bfs lim t v start s x = (Exn RecursionError, set_fr_hier q s, x') /\
      (t_max t = None -> map fst q = drop lim (kids start ++ flat_map kids (take lim order))).
  Proof.
    intros Hn order X B v lim x bs x' Hl Hv. destruct (bfs_items t h start n Hn) as [H1 H2]. fold kids in H2. fold order in H2.
    pose proof (bfs_levels (ik t h) n _ H1) as [H3 H4]. destruct (reach_fr s R) as [Hf _].
    set (L := level_order (ik t h) n (ik t h (start, 0))) in *.
    assert (HLo : length L = length order) by (apply (f_equal length) in H2; by rewrite map_length in H2).
    assert (Hq : qvis (ik t h) false lim (ik t h (start, 0)) = take lim L) by (rewrite (qvis_prefix _ _ lim (length L)) by lia; by rewrite H3).
    eexists. split.
    - apply (bfs_exec_limit t v s start Hs lim [] x bs x' Hf (all_exist_nil s)); fold h; cbn [app].
      + rewrite Hq, take_length. lia.
      + rewrite Hq. rewrite <- firstn_map. by rewrite H2.
    - intros Hm. assert (Hb : forall d, below_max t d = true) by (intros; unfold below_max; by rewrite Hm). cbn [app].
      fold h. rewrite qrest_fifo by (rewrite Hq, take_length; lia). fold h. rewrite Hq.
      rewrite <- skipn_map, map_app. f_equal. f_equal.
      + by apply ik_locs.
      + rewrite map_flat_map.
        rewrite <- H2. rewrite firstn_map. clear -Hb.
        induction (take lim L) as [|[l d] zs IHz]; [done|]. cbn [flat_map map fst]. rewrite IHz. f_equal. by apply ik_locs.
  Qed.
  Lemma q_bfs_fail n : enough t h start n -> t_max t = None -> let order := level_order kids n (kids start) in
    forall X B (v : visitor X B) lim k l x bs x1 e x2, k < lim -> order !! k = Some l ->
    visit_all v s (root_part t h start ++ take k order) x = (Ok bs, x1) -> v s l x1 = (Exn e, x2) ->
    exists q, execute_bfs lim t v start s x = (Exn e, set_fr_hier q s, x2) /\ all_exist s q /\
      map fst q = drop (S k) (kids start ++ flat_map kids (take (S k) order)).
  Proof.
    intros Hn Hm order X B v lim k l x bs x1 e x2 Hl Ho Hv He. destruct (bfs_items t h start n Hn) as [H1 H2]. fold kids in H2. fold order in H2.
    pose proof (bfs_levels (ik t h) n _ H1) as [H3 H4]. destruct (reach_fr s R) as [Hf _].
    set (L := level_order (ik t h) n (ik t h (start, 0))) in *.
    assert (HLo : length L = length order) by (apply (f_equal length) in H2; by rewrite map_length in H2).
    assert (Hk : k < length L) by (apply lookup_lt_Some in Ho; lia).
    assert (Hq : forall j, j <= length L -> qvis (ik t h) false j (ik t h (start, 0)) = take j L) by (intros j Hj; rewrite (qvis_prefix _ _ j (length L)) by lia; by rewrite H3).
    assert (Hi : exists d r, qrest (ik t h) false k (ik t h (start, 0)) = (l, d) :: r).
    { pose proof (Hq (S k) ltac:(lia)) as Hq1. replace (S k) with (k + 1) in Hq1 by lia. rewrite qvis_add in Hq1.
      rewrite Hq in Hq1 by lia. destruct (lookup_lt_is_Some_2 L k Hk) as [[l' d] Hld].
      replace (k + 1) with (S k) in Hq1 by lia. rewrite (take_S_r _ _ _ Hld) in Hq1. apply app_inv_head in Hq1.
      destruct (qrest (ik t h) false k (ik t h (start, 0))) as [|i r]; [done|]. cbn [qvis] in Hq1. injection Hq1 as ->.
      exists d, r. f_equal. f_equal. rewrite <- H2 in Ho. change (map fst L) with (fst <$> L) in Ho. rewrite list_lookup_fmap, Hld in Ho. by injection Ho. }
    destruct Hi as (d & r & Hi). eexists. split; [|split].
    - apply (bfs_exec_fail t v s start Hs lim [] k x bs x1 (l, d) r e x2 Hf (all_exist_nil s)); fold h; cbn [app]; try done.
      + rewrite Hq, take_length by lia. lia.
      + rewrite Hq by lia. rewrite <- firstn_map. by rewrite H2.
    - apply all_exist_rest. apply all_exist_start. apply all_exist_nil.
    - assert (Hb : forall d, below_max t d = true) by (intros; unfold below_max; by rewrite Hm). cbn [app].
      fold h. rewrite qrest_fifo by (rewrite Hq, take_length by lia; lia). rewrite Hq by lia.
      rewrite <- skipn_map, map_app. f_equal. f_equal.
      + by apply ik_locs.
      + rewrite map_flat_map.
        rewrite <- H2. rewrite firstn_map. clear -Hb.
        induction (take (S k) L) as [|[l' d'] zs IHz]; [done|]. cbn [flat_map map fst]. rewrite IHz. f_equal. by apply ik_locs.
  Qed.
End main.
