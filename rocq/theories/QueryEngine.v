(** * Query engine

    framework_python/rei/query/query_engine.py *)
From Verif Require Export Traverse Elements.

(** HierarchicalPrepositionQuery, lines 14-27.  [q_prep] may raise, [q_stmt] does not
    (simplification).  [q_tasks] is __prefilter: the coroutines add_to_result(x),
    each with the flag whether it was started before; [q_result] is the queue. *)
Record query := mkQuery {
  q_start : loc;
  q_prep : st -> loc -> res bool;
  q_stmt : loc -> obj -> bool;
  q_tasks : list (loc * bool);
  q_result : list loc
}.
Definition new_query (start : loc) (prep : st -> loc -> res bool) (stmt : loc -> obj -> bool) : query := mkQuery start prep stmt [] [].
Definition q_set_tasks (t : list (loc * bool)) (q : query) : query := mkQuery (q_start q) (q_prep q) (q_stmt q) t (q_result q).
Definition q_set_result (r : list loc) (q : query) : query := mkQuery (q_start q) (q_prep q) (q_stmt q) (q_tasks q) r.

(** The filter of lines 26-27: isinstance(x, HypergraphNode | HypergraphRelation |
    HypergraphEdge | SemanticValueNode) and traversal_statement(x) *)
Definition q_kinds (k : kind) : bool := match k with KNode | KRel | KEdge | KSem _ => true | _ => false end.
Definition q_filter (q : query) (l : loc) (o : obj) : bool := q_kinds (o_kind o) && q_stmt q l o.
Definition q_trav (q : query) : trav := mkTrav (q_filter q) None false.
(** The visitor of line 25: creates a coroutine, does not run it *)
Definition q_visitor : visitor (list (loc * bool)) unit := fun _ l x => (Ok tt, x ++ [(l, false)]).

(** The objects: query objects are shared between engines and names, so they live in a store. *)
Notation qstore := (list query).
(** The identity of a coroutine: its query object and its number in __prefilter *)
Notation taskid := (nat * nat)%type.
Definition ids_of (i : nat) (q : query) : list taskid := map (pair i) (seq 0 (length (q_tasks q))).

(** prefilter, lines 29-31 *)
Definition prefilter (lim : nat) (i : nat) (s : st) (qs : qstore) : res (list taskid) * st * qstore :=
  match qs !! i with
  | None => (Exn BadRef, s, qs)
  | Some q =>
      let '(r, s', tasks) := execute_bfs lim (q_trav q) q_visitor (q_start q) s (q_tasks q) in
      let q' := q_set_tasks tasks q in
      match r with
      | Ok _ => (Ok (ids_of i q'), s', <[i := q']> qs)
      | Exn e => (Exn e, s', <[i := q']> qs)
      end
  end.
(** add_to_result, lines 33-36, run as a task: a coroutine that was started before
    raises RuntimeError inside the task, an exception of the preposition also stays in
    the task; asyncio.wait reports neither.  Queue.put does not suspend (unbounded). *)
Definition run_task (s : st) (qs : qstore) (t : taskid) : qstore :=
  match qs !! t.1 with
  | None => qs
  | Some q =>
      match q_tasks q !! t.2 with
      | None | Some (_, true) => qs
      | Some (l, false) =>
          let q1 := q_set_tasks (<[t.2 := (l, true)]> (q_tasks q)) q in
          match q_prep q s l with
          | Ok true => <[t.1 := q_set_result (q_result q ++ [l]) q1]> qs
          | _ => <[t.1 := q1]> qs
          end
      end
  end.
Definition run_tasks (s : st) (sch : list taskid) (qs : qstore) : qstore := fold_left (run_task s) sch qs.
(** execute / get_list_results, lines 38-46: empties the queue *)
Definition drain (i : nat) (qs : qstore) : list loc * qstore :=
  match qs !! i with None => ([], qs) | Some q => (q_result q, <[i := q_set_result [] q]> qs) end.

(** ** HypergraphQueryEngine, lines 49-96.  The engine itself: __queries *)
Notation qengine := (dict string nat).
(** add_query, lines 56-57; clear, 59-60 *)
Definition add_query (nm : string) (i : nat) (e : qengine) : qengine := dset nm i e.
Definition clear_queries (e : qengine) : qengine := [].
(** execute, lines 75-78 (execute_all_queries, 89-91) *)
Fixpoint prefilter_all (lim : nat) (is : list nat) (s : st) (qs : qstore) (tasks : list taskid) : res (list taskid) * st * qstore :=
  match is with
  | [] => (Ok tasks, s, qs)
  | i :: is' =>
      match prefilter lim i s qs with
      | (Ok ids, s', qs') => prefilter_all lim is' s' qs' (tasks ++ ids)
      | (Exn e, s', qs') => (Exn e, s', qs')
      end
  end.
(** lines 80-83 (93-95) *)
Fixpoint drain_all (is : list nat) (qs : qstore) : list loc * qstore :=
  match is with
  | [] => ([], qs)
  | i :: is' => let '(r, qs1) := drain i qs in let '(rs, qs2) := drain_all is' qs1 in (r ++ rs, qs2)
  end.
(** execute, lines 74-84, and execute_all_queries, 86-96: asyncio.wait makes a set of
    the coroutines (ValueError if it is empty) and starts them in an order that depends
    on the hashes of the coroutine objects: any permutation. *)
Inductive engine_run (lim : nat) (e : qengine) (s : st) (qs : qstore) : res (list loc) -> st -> qstore -> Prop :=
| run_fails x s' qs' : prefilter_all lim (dvals e) s qs [] = (Exn x, s', qs') -> engine_run lim e s qs (Exn x) s' qs'
| run_empty s' qs' : prefilter_all lim (dvals e) s qs [] = (Ok [], s', qs') -> engine_run lim e s qs (Exn ValueError) s' qs'
| run_done tasks s' qs1 sch rs qs2 :
    prefilter_all lim (dvals e) s qs [] = (Ok tasks, s', qs1) -> tasks <> [] -> sch ≡ₚ remove_dups tasks ->
    drain_all (dvals e) (run_tasks s' sch qs1) = (rs, qs2) -> engine_run lim e s qs (Ok rs) s' qs2.
