(** * Property theorems C26 - C29, C55: hierarchical traversals

    [lim] is the number of nested calls the interpreter allows; it is arbitrary. *)
From Verif Require Import Spec SpecTrav Hierarchy Elements Factory History Traverse QTrav3.

(** C26 *)
Theorem C26_breadth_first s t start : reach s -> exists_in (heap s) start -> t_max t = None ->
  let kids := fkids (t_filter t) (heap s) in
  exists n, level kids n (kids start) = [] /\
    let order := level_order kids n (kids start) in
    NoDup (start :: order) /\ (forall y, y ∈ order <-> through (t_filter t) (heap s) start y) /\
    forall X B (v : visitor X B) lim x bs x', length order < lim ->
      visit_all v s (root_part t (heap s) start ++ order) x = (Ok bs, x') ->
      execute_bfs lim t v start s x = (Ok bs, s, x').
Proof. exact (q_C26 s t start). Qed.
Print Assumptions C26_breadth_first.

(** C27 *)
Theorem C27_depth_first s t start : reach s -> exists_in (heap s) start -> t_max t = None ->
  let kids := fkids (t_filter t) (heap s) in
  exists n, level kids n (kids start) = [] /\
    let order := pre_below kids n start in
    NoDup (start :: order) /\ (forall y, y ∈ order <-> through (t_filter t) (heap s) start y) /\
    order ≡ₚ level_order kids n (kids start) /\
    forall X B (v : visitor X B) lim x bs x', length order < lim ->
      visit_all v s (root_part t (heap s) start ++ order) x = (Ok bs, x') ->
      execute_dfs lim t v start s x = (Ok bs, s, x').
Proof. exact (q_C27 s t start). Qed.
Print Assumptions C27_depth_first.

(** C28 *)
Theorem C28_depth_limited s t start m : reach s -> exists_in (heap s) start -> t_max t = Some m ->
  let kids := fkids (t_filter t) (heap s) in
  (forall X B (v : visitor X B) lim x bs x', length (level_order kids m (kids start)) < lim ->
     visit_all v s (root_part t (heap s) start ++ level_order kids m (kids start)) x = (Ok bs, x') ->
     execute_bfs lim t v start s x = (Ok bs, s, x')) /\
  (forall X B (v : visitor X B) lim x bs x', length (pre_below kids m start) < lim ->
     visit_all v s (root_part t (heap s) start ++ pre_below kids m start) x = (Ok bs, x') ->
     execute_dfs lim t v start s x = (Ok bs, s, x')) /\
  (forall n, level kids n (kids start) = [] ->
     level_order kids m (kids start) = filter (near kids m start) (level_order kids n (kids start)) /\
     pre_below kids m start = filter (near kids m start) (pre_below kids n start)).
Proof. exact (q_C28 s t start m). Qed.
Print Assumptions C28_depth_limited.

(** C29: a completed traversal leaves the queue empty, whatever it was before. *)
Theorem C29_completed {X B} lim t (v : visitor X B) start s x r s' x' :
  execute_bfs lim t v start s x = (Ok r, s', x') -> s' = set_fr_hier [] s.
Proof. exact (q_C29_ok lim t v start s x r s' x'). Qed.
Print Assumptions C29_completed.
(** Hence C26 - C28 apply throughout every session without failing traversals. *)
Theorem C29_sessions s : session s -> reach s /\ fr_hier s = [].
Proof. exact (q_C29_session s). Qed.
Print Assumptions C29_sessions.
(** A visitor raises at the element [order !! k]: what remains in the queue. *)
Theorem C29_leftover s t start n X B (v : visitor X B) lim k l x bs x1 e x2 : reach s -> exists_in (heap s) start -> t_max t = None ->
  let kids := fkids (t_filter t) (heap s) in
  level kids n (kids start) = [] ->
  let order := level_order kids n (kids start) in
  k < lim -> order !! k = Some l -> visit_all v s (root_part t (heap s) start ++ take k order) x = (Ok bs, x1) -> v s l x1 = (Exn e, x2) ->
  exists s', execute_bfs lim t v start s x = (Exn e, s', x2) /\ s' = set_fr_hier (fr_hier s') s /\
    map fst (fr_hier s') = drop (S k) (kids start ++ flat_map kids (take (S k) order)).
Proof. exact (q_C29_leak s t start n X B v lim k l x bs x1 e x2). Qed.
Print Assumptions C29_leftover.
(** The next breadth-first traversal visits the left-over elements, wherever it starts and whatever it filters. *)
Theorem C29_isolation_refuted s t start lim : exists_in (heap s) start -> (forall i, i ∈ fr_hier s -> exists_in (heap s) i.1) -> length (fr_hier s) <= lim ->
  exists rest, (execute_bfs lim t recorder start s []).2 = root_part t (heap s) start ++ map fst (fr_hier s) ++ rest.
Proof. exact (q_C29_next s t start lim). Qed.
Print Assumptions C29_isolation_refuted.
Theorem C29_next_order s t start n X B (v : visitor X B) lim x bs x' :
  exists_in (heap s) start -> (forall i, i ∈ fr_hier s -> exists_in (heap s) i.1) -> t_max t = None ->
  let kids := fkids (t_filter t) (heap s) in let q := map fst (fr_hier s) ++ kids start in
  level kids n q = [] -> length (level_order kids n q) < lim ->
  visit_all v s (root_part t (heap s) start ++ level_order kids n q) x = (Ok bs, x') ->
  execute_bfs lim t v start s x = (Ok bs, set_fr_hier [] s, x').
Proof. exact (q_C29_next_order s t start n X B v lim x bs x'). Qed.
Print Assumptions C29_next_order.

(** C55: more elements than the recursion limit allows *)
Theorem C55_recursion_limit s t start : reach s -> exists_in (heap s) start -> t_max t = None ->
  let kids := fkids (t_filter t) (heap s) in
  exists n, level kids n (kids start) = [] /\
    let order := level_order kids n (kids start) in
    forall X B (v : visitor X B) lim x bs x', lim <= length order ->
      visit_all v s (root_part t (heap s) start ++ take lim order) x = (Ok bs, x') ->
      exists s', execute_bfs lim t v start s x = (Exn RecursionError, s', x') /\ s' = set_fr_hier (fr_hier s') s /\
        map fst (fr_hier s') = drop lim (kids start ++ flat_map kids (take lim order)).
Proof. exact (q_C55 s t start). Qed.
Print Assumptions C55_recursion_limit.
