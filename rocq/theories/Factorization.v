(** * Factorisations

    framework_python/rei/hypergraph/factorization_operations.py *)
From Verif Require Export Elements.

Definition rel_in (_ : loc) (o : obj) : bool := k_rel (o_kind o) && d_in (o_dir o).
Definition rel_out (_ : loc) (o : obj) : bool := k_rel (o_kind o) && d_out (o_dir o).
(** [filter(lambda x: isinstance(x, ..), start)] *)
Definition of_kind (k : kind -> bool) (s : st) (l : loc) : bool := match heap s !! l with Some o => k (o_kind o) | None => false end.

(** ** Factorization2Operation, lines 9-43 *)

(** The queue can hold None (a relation without endpoint), which no case matches. *)
Definition f2_step (s : st) (i : option loc) : res (list (loc * list loc) * list (option loc)) :=
  match i with
  | None => Ok ([], [])
  | Some l =>
      match heap s !! l with
      | None => Exn BadRef
      | Some o =>
          match o_kind o with
          | KNode => match fst (sub_edges l s) with Ok es => Ok ([], map Some es) | Exn e => Exn e end (* lines 19-23 *)
          | KEdge => (* lines 24-32 *)
              match fst (incoming_relations l s), fst (outgoing_relations l s) with
              | Ok ins, Ok outs =>
                  Ok (map (fun i => (i, outs)) ins,
                      map (fun r => match heap s !! r with Some orr => o_endpoint orr | None => None end) outs)
              | Exn e, _ => Exn e
              | _, Exn e => Exn e
              end
          | _ => Ok ([], [])
          end
      end
  end.
(** __traverse, lines 15-35: nested once per item *)
Fixpoint f2_traverse (lim : nat) (s : st) (q : list (option loc)) (acc : list (loc * list loc)) : res (list (loc * list loc)) :=
  match lim with
  | 0 => Exn RecursionError
  | S lim' =>
      match q with
      | [] => Ok acc
      | i :: rest =>
          match f2_step s i with
          | Exn e => Exn e
          | Ok (out, new) => f2_traverse lim' s (rest ++ new) (acc ++ out)
          end
      end
  end.
(** execute, lines 37-43: a queue of its own *)
Definition fact2 (lim : nat) (start : loc) (s : st) : res (list (loc * list loc)) := f2_traverse lim s [Some start] [].

(** ** Factorization2SubsetOperation, lines 46-64.  [start] is a list (a generator
    would be exhausted by line 55). *)
Definition ep_in (s : st) (ns : list loc) (r : loc) : bool :=
  match heap s !! r with
  | Some o => match o_endpoint o with Some p => bool_decide (p ∈ ns) | None => false end
  | None => false
  end.
Definition ep_uuid (s : st) (r : loc) : res uid :=
  match heap s !! r with
  | Some o => match o_endpoint o with
              | Some p => match heap s !! p with Some op => Ok (o_uuid op) | None => Exn BadRef end
              | None => Exn AttributeError
              end
  | None => Exn BadRef
  end.
(** lines 61-63 *)
Fixpoint pair_with (self_loop : bool) (s : st) (e : loc) (outs : list loc) : res (list (loc * loc)) :=
  match outs with
  | [] => Ok []
  | e1 :: outs' =>
      match ep_uuid s e, ep_uuid s e1 with
      | Ok u, Ok u1 =>
          match pair_with self_loop s e outs' with
          | Ok ps => Ok (if negb (bool_decide (u = u1)) || self_loop then (e, e1) :: ps else ps)
          | Exn x => Exn x
          end
      | Exn x, _ => Exn x
      | _, Exn x => Exn x
      end
  end.
Fixpoint pair_all (self_loop : bool) (s : st) (ins outs : list loc) : res (list (loc * loc)) :=
  match ins with
  | [] => Ok []
  | i :: ins' =>
      match pair_with self_loop s i outs with
      | Exn e => Exn e
      | Ok ps => match pair_all self_loop s ins' outs with Ok ps' => Ok (ps ++ ps') | Exn e => Exn e end
      end
  end.
Fixpoint fact_edges (self_loop : bool) (s : st) (ns es : list loc) : res (list (loc * loc)) :=
  match es with
  | [] => Ok []
  | e :: es' =>
      match fst (incoming_relations e s), fst (outgoing_relations e s) with
      | Ok ins, Ok outs =>
          match pair_all self_loop s (List.filter (ep_in s ns) ins) (List.filter (ep_in s ns) outs) with
          | Exn x => Exn x
          | Ok ps => match fact_edges self_loop s ns es' with Ok ps' => Ok (ps ++ ps') | Exn x => Exn x end
          end
      | Exn x, _ => Exn x
      | _, Exn x => Exn x
      end
  end.
Definition fact_subset (self_loop : bool) (sel : list loc) (s : st) : res (list (loc * loc)) :=
  fact_edges self_loop s (List.filter (of_kind k_node s) sel) (List.filter (of_kind k_edge s) sel).

(** ** RelationFactorization2SubsetOperation, lines 67-97 *)
Definition parent_uuid (s : st) (r : loc) : res uid :=
  match heap s !! r with
  | Some o => match o_parent o with
              | Some p => match heap s !! p with Some op => Ok (o_uuid op) | None => Exn BadRef end
              | None => Exn AttributeError
              end
  | None => Exn BadRef
  end.
Definition dappend (k : uid) (r : loc) (d : dict uid (list loc)) : dict uid (list loc) :=
  dset k (default [] (dget k d) ++ [r]) d.
(** lines 80-89: note the [elif] *)
Fixpoint collect (s : st) (rs : list loc) (ins outs : dict uid (list loc)) : res (dict uid (list loc) * dict uid (list loc)) :=
  match rs with
  | [] => Ok (ins, outs)
  | r :: rs' =>
      match heap s !! r with
      | None => Exn BadRef
      | Some o =>
          match parent_uuid s r with
          | Exn e => Exn e
          | Ok k => match o_dir o with
                    | INWARDS | BIDIRECTIONAL => collect s rs' (dappend k r ins) outs
                    | OUTWARDS => collect s rs' ins (dappend k r outs)
                    end
          end
      end
  end.
(** lines 93-95; the uuid of [o_e]'s endpoint is read first *)
Fixpoint rpair_with (self_loop : bool) (s : st) (i : loc) (outs : list loc) : res (list (loc * loc)) :=
  match outs with
  | [] => Ok []
  | o :: outs' =>
      match ep_uuid s o, ep_uuid s i with
      | Ok uo, Ok ui =>
          match rpair_with self_loop s i outs' with
          | Ok ps => Ok (if negb (bool_decide (uo = ui)) || self_loop then (i, o) :: ps else ps)
          | Exn x => Exn x
          end
      | Exn x, _ => Exn x
      | _, Exn x => Exn x
      end
  end.
Fixpoint rpair_key (self_loop : bool) (s : st) (k : uid) (ins : list loc) (outs : dict uid (list loc)) : res (list (loc * loc)) :=
  match ins with
  | [] => Ok []
  | i :: ins' =>
      match dget k outs with
      | None => Exn KeyError
      | Some os =>
          match rpair_with self_loop s i os with
          | Exn e => Exn e
          | Ok ps => match rpair_key self_loop s k ins' outs with Ok ps' => Ok (ps ++ ps') | Exn e => Exn e end
          end
      end
  end.
Fixpoint rpair_all (self_loop : bool) (s : st) (ins : dict uid (list loc)) (outs : dict uid (list loc)) : res (list (loc * loc)) :=
  match ins with
  | [] => Ok []
  | (k, is_) :: ins' =>
      match rpair_key self_loop s k is_ outs with
      | Exn e => Exn e
      | Ok ps => match rpair_all self_loop s ins' outs with Ok ps' => Ok (ps ++ ps') | Exn e => Exn e end
      end
  end.
Definition fact_relations (self_loop : bool) (sel : list loc) (s : st) : res (list (loc * loc)) :=
  match collect s (List.filter (of_kind k_rel s) sel) [] [] with
  | Exn e => Exn e
  | Ok (ins, outs) => rpair_all self_loop s ins outs
  end.
(** MapFactorizationToFactorGraph.execute, lines 106-107, consumed completely, with
    a mapping function that does not raise *)
Definition fact_map {A B} (f : A -> B) (l : list A) : list B := map f l.
