(** * C79, C80: printing a hierarchy; bulk operations *)
From Verif Require Import Spec SpecTrav SpecPrint Hierarchy Elements Print SpecBulk QPrint QBulk.
Local Open Scope nat_scope.

(** C79: print_graph_hierarchy prints every element of the tree below the start once, level by
    level, and changes nothing; *)
Theorem C79_print s start : reach s -> exists_in (heap s) start ->
  exists n, level (children (heap s)) n (children (heap s) start) = [] /\
    let order := start :: level_order (children (heap s)) n (children (heap s) start) in
    NoDup order /\ (forall y, y ∈ order <-> within (heap s) start y) /\
    (forall lim out, length order <= lim -> ~ loose_edge (heap s) start ->
      exists r xs, print_graph_hierarchy lim start s out = (Ok r, s, out ++ concat xs) /\ Forall2 (shows (heap s)) order xs).
Proof. exact (fun R => q_C79 s R start). Qed.
Print Assumptions C79_print.
(** from an edge that is in no element nothing is printed, but AttributeError raised. *)
Theorem C79_loose_edge_refuted s start : loose_edge (heap s) start -> forall lim out, print_graph_hierarchy lim start s out = (Exn AttributeError, s, out).
Proof. exact (q_C79_loose s start). Qed.
Print Assumptions C79_loose_edge_refuted.
(** Every relation that there ever is has an endpoint, so that no relation is printed without one. *)
Theorem C79_endpoints s r : reach s -> kind_of (heap s) r = Some KRel -> exists n, attr_of o_endpoint (heap s) r = Some (Some n) /\ exists_in (heap s) n.
Proof. exact (q_C79_endpoints s r). Qed.
Print Assumptions C79_endpoints.

(** C80: the bulk operations.  What [await (await p.add_elements(xs))] does is adding one
    element after the other until one is refused; *)
Theorem C80_add_awaited p xs s : add_elements_awaited p xs s = one_by_one p xs s.
Proof. exact (q_C80_awaited p xs s). Qed.
Print Assumptions C80_add_awaited.
(** elements that can all be put into [p] are, in order, and leave the elements they were in; *)
Theorem C80_add_all s p op xs : reach s -> heap s !! p = Some op -> is_conceptual (o_kind op) = true -> o_ready op = true -> can_join (heap s) p xs ->
  exists s', add_elements_awaited p xs s = (Ok tt, s') /\ reach s' /\
    children (heap s') p = children (heap s) p ++ xs /\
    (forall x, x ∈ xs -> parent_of (heap s') x = Some p) /\
    (forall q, q <> p -> children (heap s') q = filter (fun x => x ∉ xs) (children (heap s) q)) /\
    (forall l, l ∉ xs -> parent_of (heap s') l = parent_of (heap s) l) /\
    same_fixed (heap s) (heap s').
Proof. exact (q_C80_all s p op xs). Qed.
Print Assumptions C80_add_all.
(** a duplicate ends the operation: those before it stay added, those after it are not; *)
Theorem C80_add_refused s p op xs x ys : reach s -> heap s !! p = Some op -> is_conceptual (o_kind op) = true -> o_ready op = true -> can_join (heap s) p xs ->
  exists_in (heap s) x -> x <> p -> uuid_of (heap s) x ∈ map (uuid_of (heap s)) (children (heap s) p ++ xs) ->
  exists s', add_elements_awaited p xs s = (Ok tt, s') /\ add_elements_awaited p (xs ++ x :: ys) s = (Exn ErrorDuplicateElement, s').
Proof. exact (q_C80_refused s p op xs x ys). Qed.
Print Assumptions C80_add_refused.
(** [asyncio.run(p.add_elements(xs))], which does not await the future it gets, adds only the
    first element, and does not say if that was refused; *)
Theorem C80_add_run_refuted p x xs s : add_elements_run p [] s = (Ok tt, s) /\ add_elements_run p (x :: xs) s = (Ok tt, snd (add_element p x s)).
Proof. exact (q_C80_run p x xs s). Qed.
Print Assumptions C80_add_run_refuted.
(** whatever other tasks do between the rounds of add_elements, the state stays one that single
    operations lead to, so that all invariants hold; *)
Theorem C80_interleaved p t s t' s' : reach s -> interleaved p t s t' s' -> reach s' /\ history MAny s s'.
Proof. exact (q_C80_interleaved p t s t' s'). Qed.
Print Assumptions C80_interleaved.
(** remove_elements removes the elements given by their uuid, and yet awaiting it raises RuntimeError; *)
Theorem C80_remove_refuted s p op cs args : reach s -> heap s !! p = Some op -> o_kind op <> KEdge -> o_kind op <> KRel ->
  NoDup cs -> (forall c, c ∈ cs -> c ∈ children (heap s) p) -> cs <> [] ->
  Forall2 (fun c a => snd a = Some (uuid_of (heap s) c) /\ (fst a = "" \/ fst a = name_of (heap s) c)) cs args ->
  exists s', remove_elements_awaited p args s = (Exn RuntimeError, s') /\ remove_elements_run p args s = (Ok tt, s') /\ reach s' /\
    children (heap s') p = filter (fun c => c ∉ cs) (children (heap s) p) /\
    (forall c, c ∈ cs -> parent_of (heap s') c = None) /\
    (forall q, q <> p -> children (heap s') q = children (heap s) q) /\
    (forall l, l ∉ cs -> parent_of (heap s') l = parent_of (heap s) l) /\
    same_fixed (heap s) (heap s').
Proof. exact (q_C80_remove s p op cs args). Qed.
Print Assumptions C80_remove_refuted.
(** given a name, it removes only the first element of that name, and the others are no longer found by it. *)
Theorem C80_remove_name_refuted s p op n : reach s -> heap s !! p = Some op -> is_conceptual (o_kind op) = true -> o_kind op <> KEdge -> n <> "" ->
  forall c ms, filter (fun c => name_of (heap s) c = n) (children (heap s) p) = c :: ms ->
  exists s', remove_elements_awaited p [(n, None)] s = (Exn RuntimeError, s') /\ remove_elements_run p [(n, None)] s = (Ok tt, s') /\
    children (heap s') p = filter (fun x => x <> c) (children (heap s) p) /\ parent_of (heap s') c = None /\
    (forall x, x ∈ ms -> x ∈ children (heap s') p /\ parent_of (heap s') x = Some p) /\
    (has_char slash n = false -> get_element_by_id_name p n s' = (Ok [], s')).
Proof. exact (q_C80_remove_name s p op n). Qed.
Print Assumptions C80_remove_name_refuted.
