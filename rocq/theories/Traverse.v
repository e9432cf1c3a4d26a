(** * Hierarchical traversals

    framework_python/rei/foundations/hierarchical_traversal_strategies.py *)
From Verif Require Export Heap Hierarchy.

(** The arguments of a HierarchicalTraversal (lines 15-19, 67-70, 81-84).
    [t_max = None] is math.inf.  A filter is a predicate on the element; it does
    not raise (simplification). *)
Record trav := mkTrav {
  t_filter : loc -> obj -> bool;
  t_max : option nat;
  t_ignore : bool (* ignore_root *)
}.

(** The visitor function reads the graph, works on data [X] of its own (which the
    caller can inspect afterwards), returns a [B] or raises.  It does not change
    the graph (true of every visitor in the repository).  The task list contains
    asyncio.coroutine(result) for each call; it is modelled as the list of results. *)
Definition visitor (X B : Type) := st -> loc -> X -> res B * X.

Definition below_max (t : trav) (d : nat) : bool :=
  match t_max t with None => true | Some m => d <? m end.

(** _fill_visit_fringe, lines 32-36: the items that are put *)
Definition fill_fringe (t : trav) (s : st) (l : loc) (d : nat) : res (list (loc * nat)) :=
  if below_max t d then
    match fst (get_subelements l (t_filter t) s) with
    | Ok cs => Ok (map (fun c => (c, S d)) cs)
    | Exn e => Exn e
    end
  else Ok [].

(** _traverse, lines 38-44.  [lim] is the number of nested calls that the
    interpreter's recursion limit allows: _traverse awaits itself once per
    element.  A Queue is served from the front, a LifoQueue from the back (here:
    the list is kept with the next item first). *)
Fixpoint traverse {X B} (lifo : bool) (lim : nat) (t : trav) (v : visitor X B) (s : st)
    (q : list (loc * nat)) (tasks : list B) (x : X) : res (list B) * list (loc * nat) * X :=
  match lim with
  | 0 => (Exn RecursionError, q, x)
  | S lim' =>
      match q with
      | [] => (Ok tasks, [], x)
      | (l, d) :: rest =>
          match fill_fringe t s l d with
          | Exn e => (Exn e, rest, x)
          | Ok new =>
              let q' := if lifo then rev new ++ rest else rest ++ new in
              match v s l x with
              | (Exn e, x') => (Exn e, q', x')
              | (Ok b, x') => traverse lifo lim' t v s q' (tasks ++ [b]) x'
              end
          end
      end
  end.

(** _setup_visit_algorithm, lines 21-30: the visit of the root *)
Definition visit_root {X B} (t : trav) (v : visitor X B) (s : st) (start : loc) (x : X) : res (list B) * X :=
  match heap s !! start with
  | None => (Exn BadRef, x)
  | Some o =>
      if t_filter t start o && negb (t_ignore t) then
        match v s start x with
        | (Ok b, x') => (Ok [b], x')
        | (Exn e, x') => (Exn e, x')
        end
      else (Ok [], x)
  end.

(** BreadthFirstHierarchicalTraversal.execute (49-53) and
    DepthLimitedBreadthVisitChildren.execute (86-90): the fringe is the default
    argument of line 22, evaluated once; copy.copy (line 25) shares its deque, so
    all breadth-first traversals work on [fr_hier]. *)
Definition execute_bfs {X B} (lim : nat) (t : trav) (v : visitor X B) (start : loc) (s : st) (x : X) : res (list B) * st * X :=
  match visit_root t v s start x with
  | (Exn e, x') => (Exn e, s, x')
  | (Ok tasks, x') =>
      match fill_fringe t s start 0 with
      | Exn e => (Exn e, s, x')
      | Ok new =>
          let '(r, q, x'') := traverse false lim t v s (fr_hier s ++ new) tasks x' in
          (r, set_fr_hier q s, x'')
      end
  end.

(** DepthFirstHierarchicalTraversal.execute (58-62) and
    DepthLimitedDepthVisitChildren.execute (72-76): a LifoQueue of its own *)
Definition execute_dfs {X B} (lim : nat) (t : trav) (v : visitor X B) (start : loc) (s : st) (x : X) : res (list B) * st * X :=
  match visit_root t v s start x with
  | (Exn e, x') => (Exn e, s, x')
  | (Ok tasks, x') =>
      match fill_fringe t s start 0 with
      | Exn e => (Exn e, s, x')
      | Ok new =>
          let '(r, q, x'') := traverse true lim t v s (rev new) tasks x' in
          (r, s, x'')
      end
  end.

(** direction_to_text, lines 97-104 *)
Definition direction_to_text (d : direction) : string :=
  match d with OUTWARDS => "->" | INWARDS => "<-" | BIDIRECTIONAL => "--" end.
