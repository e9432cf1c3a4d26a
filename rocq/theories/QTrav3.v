(** * C26 - C29, C55: final forms *)
From Verif Require Import Spec Hierarchy Elements Factory History PPath PExec PBfs PWF PMono PReach PHist Traverse SpecTrav QTrav QTrav2.

Lemma q_C26 s t start : reach s -> exists_in (heap s) start -> t_max t = None ->
  let kids := fkids (t_filter t) (heap s) in
  exists n, level kids n (kids start) = [] /\
    let order := level_order kids n (kids start) in
    NoDup (start :: order) /\ (forall y, y ∈ order <-> through (t_filter t) (heap s) start y) /\
    forall X B (v : visitor X B) lim x bs x', length order < lim ->
      visit_all v s (root_part t (heap s) start ++ order) x = (Ok bs, x') ->
      execute_bfs lim t v start s x = (Ok bs, s, x').
Proof.
  intros R Hs Hm kids. destruct (fkids_empty (heap s) (reach_wf s R) (t_filter t) start Hs) as [n Hn]. exists n. split; [done|].
  intros order. split; [by apply fkids_nodup; [apply reach_wf|]|]. split; [intros y; by apply order_through; [apply reach_wf|]|].
  apply q_bfs; [done|done|]. unfold enough. by rewrite Hm.
Qed.
Lemma q_C27 s t start : reach s -> exists_in (heap s) start -> t_max t = None ->
  let kids := fkids (t_filter t) (heap s) in
  exists n, level kids n (kids start) = [] /\
    let order := pre_below kids n start in
    NoDup (start :: order) /\ (forall y, y ∈ order <-> through (t_filter t) (heap s) start y) /\
    order ≡ₚ level_order kids n (kids start) /\
    forall X B (v : visitor X B) lim x bs x', length order < lim ->
      visit_all v s (root_part t (heap s) start ++ order) x = (Ok bs, x') ->
      execute_dfs lim t v start s x = (Ok bs, s, x').
Proof.
  intros R Hs Hm kids. destruct (fkids_empty (heap s) (reach_wf s R) (t_filter t) start Hs) as [n Hn]. exists n. split; [done|].
  intros order. assert (P : order ≡ₚ level_order kids n (kids start)) by apply pre_below_perm.
  split; [rewrite P; by apply fkids_nodup; [apply reach_wf|]|]. split; [intros y; rewrite P; by apply order_through; [apply reach_wf|]|].
  split; [done|]. intros X B v lim x bs x' Hl Hv. eapply dfs_exec_ok; [done| |exact Hl|exact Hv]. unfold enough. by rewrite Hm.
Qed.
Lemma q_C28 s t start m : reach s -> exists_in (heap s) start -> t_max t = Some m ->
  let kids := fkids (t_filter t) (heap s) in
  (forall X B (v : visitor X B) lim x bs x', length (level_order kids m (kids start)) < lim ->
     visit_all v s (root_part t (heap s) start ++ level_order kids m (kids start)) x = (Ok bs, x') ->
     execute_bfs lim t v start s x = (Ok bs, s, x')) /\
  (forall X B (v : visitor X B) lim x bs x', length (pre_below kids m start) < lim ->
     visit_all v s (root_part t (heap s) start ++ pre_below kids m start) x = (Ok bs, x') ->
     execute_dfs lim t v start s x = (Ok bs, s, x')) /\
  (forall n, level kids n (kids start) = [] ->
     level_order kids m (kids start) = filter (near kids m start) (level_order kids n (kids start)) /\
     pre_below kids m start = filter (near kids m start) (pre_below kids n start)).
Proof.
  intros R Hs Hm kids. assert (En : enough t (heap s) start m) by (unfold enough; by rewrite Hm). split; [|split].
  - by apply q_bfs.
  - intros X B v lim x bs x' Hl Hv. by eapply dfs_exec_ok.
  - intros n Hn. pose proof (reach_wf s R) as W. split; [by apply bfs_near|by apply dfs_near].
Qed.

(** ** Completed traversals *)
Lemma traverse_ok_empty {X B} b lim t (v : visitor X B) s q tasks x r q' x' :
  traverse b lim t v s q tasks x = (Ok r, q', x') -> q' = [].
Proof.
  revert q tasks x. induction lim as [|lim IH]; intros q tasks x; [done|]. cbn [traverse]. destruct q as [|[l d] rest]; [by intros [= _ <- _]|].
  destruct (fill_fringe t s l d) as [new|e]; [|done]. destruct (v s l x) as [[c|e] x1]; [|done]. apply IH.
Qed.
Lemma q_C29_ok {X B} lim t (v : visitor X B) start s x r s' x' :
  execute_bfs lim t v start s x = (Ok r, s', x') -> s' = set_fr_hier [] s.
Proof.
  unfold execute_bfs. destruct (visit_root t v s start x) as [[tk|e] x1]; [|done]. destruct (fill_fringe t s start 0) as [new|e]; [|done].
  destruct (traverse false lim t v s (fr_hier s ++ new) tk x1) as [[r' q] x2] eqn:E. intros [= -> <- _].
  by rewrite (traverse_ok_empty _ _ _ _ _ _ _ _ _ _ _ E).
Qed.
Lemma q_C29_session s : session s -> reach s /\ fr_hier s = [].
Proof.
  assert (G : session s -> reach s).
  { induction 1 as [ck hf|s o H IH Ha|X B s lim t v start x r s' x' H IH E|X B s lim t v start x r s' x' H IH E].
    - apply reach_init. - by apply reach_step.
    - apply q_C29_ok in E as ->. rewrite set_fr_same; [done|]. by apply reach_fr.
    - unfold execute_dfs in E. destruct (visit_root t v s start x) as [[tk|e] x1]; [|by injection E as _ <- _].
      destruct (fill_fringe t s start 0) as [new|e]; [|by injection E as _ <- _].
      destruct (traverse true lim t v s (rev new) tk x1) as [[r' q] x2]. by injection E as _ <- _. }
  intros H. split; [by apply G|]. apply reach_fr. by apply G.
Qed.

(** A visitor that raises at the element number [k] below the start. *)
Lemma q_C29_leak s t start n X B (v : visitor X B) lim k l x bs x1 e x2 : reach s -> exists_in (heap s) start -> t_max t = None ->
  let kids := fkids (t_filter t) (heap s) in
  level kids n (kids start) = [] ->
  let order := level_order kids n (kids start) in
  k < lim -> order !! k = Some l -> visit_all v s (root_part t (heap s) start ++ take k order) x = (Ok bs, x1) -> v s l x1 = (Exn e, x2) ->
  exists s', execute_bfs lim t v start s x = (Exn e, s', x2) /\ s' = set_fr_hier (fr_hier s') s /\
    map fst (fr_hier s') = drop (S k) (kids start ++ flat_map kids (take (S k) order)).
Proof.
  intros R Hs Hm kids Hn order Hk Ho Hv He.
  destruct (q_bfs_fail s R t start Hs n) with (X := X) (B := B) (v := v) (lim := lim) (k := k) (l := l) (x := x) (bs := bs) (x1 := x1) (e := e) (x2 := x2)
    as (q & E & Hq & Hd); try done.
  { unfold enough. by rewrite Hm. }
  exists (set_fr_hier q s). split; [done|]. split; [by destruct s|]. exact Hd.
Qed.
(** The next breadth-first traversal, of whatever kind, starts with the left-over elements. *)
Lemma visit_record s ls x : visit_all recorder s ls x = (Ok (map (fun _ => tt) ls), x ++ ls).
Proof.
  revert x. induction ls as [|l ls IH]; intros x; cbn [visit_all]; [by rewrite app_nil_r|]. unfold recorder at 1. rewrite IH. by rewrite <- app_assoc.
Qed.
Lemma traverse_record b lim t s q tasks x : exists rest, (traverse b lim t recorder s q tasks x).2 = x ++ rest.
Proof.
  revert q tasks x. induction lim as [|lim IH]; intros q tasks x; [exists []; by rewrite app_nil_r|]. cbn [traverse].
  destruct q as [|[l d] r]; [exists []; by rewrite app_nil_r|]. destruct (fill_fringe t s l d) as [new|e]; [|exists []; by rewrite app_nil_r].
  cbn [recorder]. match goal with |- exists rest, (traverse _ _ _ _ _ ?q' ?tk' ?x').2 = _ => destruct (IH q' tk' x') as [rest ->] end.
  exists (l :: rest). by rewrite <- app_assoc.
Qed.
Lemma q_C29_next s t start lim : exists_in (heap s) start -> (forall i, i ∈ fr_hier s -> exists_in (heap s) i.1) -> length (fr_hier s) <= lim ->
  exists rest, (execute_bfs lim t recorder start s []).2 = root_part t (heap s) start ++ map fst (fr_hier s) ++ rest.
Proof.
  intros Hs Hq Hl. unfold execute_bfs. rewrite visit_root_eq by done. rewrite visit_record. cbn [app].
  rewrite fill_eq by done. set (Q := fr_hier s ++ ik t (heap s) (start, 0)).
  destruct (bfs_block (ik t (heap s)) (fr_hier s) (ik t (heap s) (start, 0))) as [E1 E2]. fold Q in E1, E2.
  assert (HQ : all_exist s Q) by (by apply all_exist_start).
  replace lim with (length (fr_hier s) + (lim - length (fr_hier s))) by lia.
  rewrite (traverse_steps t recorder s false (length (fr_hier s)) _ Q _ _ _ _ HQ (f_equal length E1) (visit_record _ _ _)).
  rewrite E1. match goal with |- context [traverse false ?n t recorder s ?q' ?tk' ?x'] => destruct (traverse_record false n t s q' tk' x') as [rest Hr];
    destruct (traverse false n t recorder s q' tk' x') as [[r' q2] x2] end.
  cbn [snd] in *. exists rest. by rewrite Hr, app_assoc.
Qed.
(** Exactly which elements, for a traversal without depth limit. *)
Lemma level_order_locs t h n q : t_max t = None ->
  map fst (level_order (ik t h) n q) = level_order (fkids (t_filter t) h) n (map fst q) /\
  map fst (level (ik t h) n q) = level (fkids (t_filter t) h) n (map fst q).
Proof.
  intros Hm. assert (Hb : forall d, below_max t d = true) by (intros; unfold below_max; by rewrite Hm).
  assert (G : forall n, map fst (level (ik t h) n q) = level (fkids (t_filter t) h) n (map fst q)).
  { induction n0 as [|n0 IH]; [done|]. cbn [level]. rewrite <- IH, map_flat_map. clear IH.
    induction (level (ik t h) n0 q) as [|[l d] zs IHz]; [done|]. cbn [flat_map map fst]. rewrite IHz. f_equal. by apply ik_locs. }
  split; [|apply G]. unfold level_order. rewrite map_flat_map. by apply flat_map_ext_in.
Qed.
Lemma q_C29_next_order s t start n X B (v : visitor X B) lim x bs x' :
  exists_in (heap s) start -> (forall i, i ∈ fr_hier s -> exists_in (heap s) i.1) -> t_max t = None ->
  let kids := fkids (t_filter t) (heap s) in let q := map fst (fr_hier s) ++ kids start in
  level kids n q = [] -> length (level_order kids n q) < lim ->
  visit_all v s (root_part t (heap s) start ++ level_order kids n q) x = (Ok bs, x') ->
  execute_bfs lim t v start s x = (Ok bs, set_fr_hier [] s, x').
Proof.
  intros Hs Hq Hm kids q Hn Hl Hv. set (Q := fr_hier s ++ ik t (heap s) (start, 0)).
  assert (EQ : map fst Q = q).
  { unfold Q, q. rewrite map_app. f_equal. apply ik_locs. unfold below_max. by rewrite Hm. }
  destruct (level_order_locs t (heap s) n Q Hm) as [E1 E2]. rewrite EQ in E1, E2. fold kids in E1, E2.
  rewrite Hn in E2. apply map_eq_nil in E2. destruct (bfs_levels (ik t (heap s)) n Q E2) as [E3 E4].
  eapply (bfs_exec_ok t v s start Hs lim (fr_hier s)); [done|done|exact E3|exact E4| |by rewrite E1].
  apply (f_equal length) in E1. rewrite map_length in E1. lia.
Qed.

(** ** C55: the recursion limit *)
Lemma q_C55 s t start : reach s -> exists_in (heap s) start -> t_max t = None ->
  let kids := fkids (t_filter t) (heap s) in
  exists n, level kids n (kids start) = [] /\
    let order := level_order kids n (kids start) in
    forall X B (v : visitor X B) lim x bs x', lim <= length order ->
      visit_all v s (root_part t (heap s) start ++ take lim order) x = (Ok bs, x') ->
      exists s', execute_bfs lim t v start s x = (Exn RecursionError, s', x') /\ s' = set_fr_hier (fr_hier s') s /\
        map fst (fr_hier s') = drop lim (kids start ++ flat_map kids (take lim order)).
Proof.
  intros R Hs Hm kids. destruct (fkids_empty (heap s) (reach_wf s R) (t_filter t) start Hs) as [n Hn]. exists n. split; [done|].
  intros order X B v lim x bs x' Hl Hv. destruct (q_bfs_limit s R t start Hs n) with (X := X) (B := B) (v := v) (lim := lim) (x := x) (bs := bs) (x' := x')
    as (q & E & Hd); try done.
  { unfold enough. by rewrite Hm. }
  exists (set_fr_hier q s). split; [done|]. split; [by destruct s|]. by apply Hd.
Qed.
