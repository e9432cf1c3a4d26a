(** * Element searches

    framework_python/rei/foundations/query/search_elements.py *)
From Verif Require Export Heap Hierarchy.

(** The two concrete classes, lines 51-66 and 69-94. *)
Inductive skind := SubElement | WholeTree.
(** Attributes of a GraphQuery object, lines 12-16; visited_set, line 73 (used by
    QuerySearchElement only). *)
Record searcher := mkSearch {
  sr_def : string; (* query_def, lines 23-29 *)
  sr_result : list loc; (* query_result, lines 31-33 *)
  sr_cache : dict string loc; (* _element_cache *)
  sr_visited : list uid (* visited_set *) }.
(** A new object whose query_def has been assigned. *)
Definition new_searcher (d : string) : searcher := mkSearch d [] [] [].

Definition mark (k : skind) (u : uid) (x : searcher) : searcher :=
  match k with
  | SubElement => x
  | WholeTree => mkSearch (sr_def x) (sr_result x) (sr_cache x) (sr_visited x ++ [u])
  end.
(** lines 59-62, 79-82 *)
Definition found (l : loc) (o : obj) (x : searcher) : searcher :=
  mkSearch (sr_def x) (sr_result x ++ [l]) (dset (o_qname o) l (sr_cache x)) (sr_visited x).
(** The elements put into the queue: lines 63-65; lines 83-89 *)
Definition successors (k : skind) (s : st) (o : obj) (l : loc) (x : searcher) : res (list loc) :=
  match fst (get_subelements l (fun _ _ => true) s) with
  | Exn e => Exn e
  | Ok cs =>
      match k with
      | SubElement => Ok cs
      | WholeTree =>
          Ok (List.filter (fun c => match heap s !! c with Some oc => bool_decide (o_uuid oc ∉ sr_visited x) | None => false end) cs ++
              match o_parent o with Some p => [p] | None => [] end)
      end
  end.
(** _traverse, lines 56-66 and 75-90; one nested call per element, [lim] as in
    Traverse.v *)
Fixpoint search (k : skind) (lim : nat) (s : st) (q : list loc) (x : searcher) : res unit * list loc * searcher :=
  match lim with
  | 0 => (Exn RecursionError, q, x)
  | S lim' =>
      match q with
      | [] => (Ok tt, [], x)
      | l :: rest =>
          match heap s !! l with
          | None => (Exn BadRef, rest, x)
          | Some o =>
              let x1 := mark k (o_uuid o) x in
              if decide (o_qname o = sr_def x) then (Ok tt, rest, found l o x1)
              else match successors k s o l x1 with
                   | Exn e => (Exn e, rest, x1)
                   | Ok new => search k lim' s (rest ++ new) x1
                   end
          end
      end
  end.
(** execute, lines 39-48 and 92-94 (the set of visited elements is replaced).  The
    queue is the default argument of _setup_query (lines 18-21), evaluated once;
    copy.copy shares its deque, so all objects of both classes work on [fr_query]. *)
Definition search_execute (k : skind) (lim : nat) (start : loc) (s : st) (x : searcher) : res (list unit) * st * searcher :=
  let vis := match k with SubElement => sr_visited x | WholeTree => [] end in
  match dget (sr_def x) (sr_cache x) with
  | Some e => (Ok [], s, mkSearch (sr_def x) [e] (sr_cache x) vis)
  | None =>
      match search k lim s (fr_query s ++ [start]) (mkSearch (sr_def x) [] (sr_cache x) vis) with
      | (Ok _, q, x') => (Ok [], set_fr_query q s, x')
      | (Exn e, q, x') => (Exn e, set_fr_query q s, x')
      end
  end.
