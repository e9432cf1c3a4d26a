(** * Hypergraph traversal

    framework_python/rei/foundations/hypergraph_traversal_strategies.py,
    framework_python/rei/hypergraph/norm/norm_functions.py *)
From Verif Require Export Homomorphism.

(** The numbers of a list of values; None if an entry is not a number (numpy
    raises a TypeError then; nested lists are not modelled). *)
Fixpoint numbers (l : list pyval) : option (list Qc) :=
  match l with
  | [] => Some []
  | PNum q :: l' => match numbers l' with Some qs => Some (q :: qs) | None => None end
  | _ => None
  end.
Definition qsum_list (l : list Qc) : Qc := foldr Qcplus 0%Qc l.
(** SumNorm.norm, norm_functions.py:21-24; ProdNorm.norm (27-30): inner product
    of a vector with itself *)
Definition sum_norm (l : list pyval) : res Qc := match numbers l with Some qs => Ok (qsum_list qs) | None => Exn TypeError end.
Definition prod_norm (l : list pyval) : res Qc := match numbers l with Some qs => Ok (qsum_list (map (fun q => (q * q)%Qc) qs)) | None => Exn TypeError end.

(** norm_weight, lines 77-87: a pair (array) or a number *)
Inductive nweight := NPair (a b : Qc) | NScalar (c : Qc).
(** [_next.weight.val]: only value nodes have [val] (value_node.py:42-44) *)
Definition norm_weight (nf : list pyval -> res Qc) (s : st) (o : obj) : res nweight :=
  match o_weight o with
  | WNone => Ok (match o_dir o with
                 | BIDIRECTIONAL => NPair 1%Qc 1%Qc
                 | INWARDS => NPair 1%Qc 0%Qc
                 | OUTWARDS => NPair 0%Qc 1%Qc
                 end)
  | WVal v =>
      match heap s !! v with
      | None => Exn BadRef
      | Some ov => if k_value (o_kind ov) then match nf (o_vals ov) with Ok c => Ok (NScalar c) | Exn e => Exn e end
                   else Exn AttributeError
      end
  | WOther _ => Exn AttributeError
  end.
(** line 89: np.multiply(relation_incidence_value, norm_weight) *)
Definition rel_weights (d : direction) (n : nweight) : Qc * Qc :=
  let '(a, b) := incidence d in
  match n with
  | NPair x y => ((a * x)%Qc, (b * y)%Qc)
  | NScalar c => ((a * c)%Qc, (b * c)%Qc)
  end.

(** How nodes and edges are identified (lines 26-34, 91-94): by index, or by uuid
    if no homomorphism is given (then the bytes object belongs to its element).
    [i_same] is the identity test [is] of lines 52 and 58: the indices are
    objects of the one dictionary of the homomorphism. *)
Record ident (I : Type) := mkIdent { i_node : loc -> obj -> res I; i_edge : loc -> obj -> res I; i_same : I -> I -> bool }.
Arguments mkIdent {I} _ _ _.
Arguments i_node {I} _ _ _.
Arguments i_edge {I} _ _ _.
Arguments i_same {I} _ _ _.
Definition ident_hom (x : hom) : ident nat :=
  mkIdent (fun _ o => hom_node x (o_uuid o)) (fun _ o => hom_edge x (o_uuid o)) Nat.eqb.
Definition ident_uuid : ident (loc * uid) :=
  mkIdent (fun l o => Ok (l, o_uuid o)) (fun l o => Ok (l, o_uuid o)) (fun a b => fst a =? fst b).

(** The tuple (first node, second node, edge, weight, norm_weight) of lines 51, 57 *)
Record htuple (I : Type) := mkTup { tu_0 : I; tu_1 : I; tu_e : I; tu_w : Qc; tu_n : nweight }.
Arguments mkTup {I} _ _ _ _ _.
Arguments tu_0 {I} _.
Arguments tu_1 {I} _.
Arguments tu_e {I} _.
Arguments tu_w {I} _.
Arguments tu_n {I} _.

(** The visitor gets a list of tuples; it does not change the graph. *)
Definition hvisitor (I X B : Type) := list (htuple I) -> X -> res B * X.

(** get_node_identification, lines 26-29 *)
Fixpoint res_map {A B} (f : A -> res B) (l : list A) : res (list B) :=
  match l with
  | [] => Ok []
  | a :: l' => match f a with
               | Exn e => Exn e
               | Ok b => match res_map f l' with Ok bs => Ok (b :: bs) | Exn e => Exn e end
               end
  end.
Definition endpoint_ids {I} (idf : ident I) (s : st) (e : loc) (oe : obj) : res (list I) :=
  if k_edge (o_kind oe) then
    match fst (induced_subset e s) with
    | Exn x => Exn x
    | Ok eps => res_map (fun ep => match ep with
                                   | None => Exn AttributeError
                                   | Some p => match heap s !! p with Some op => i_node idf p op | None => Exn BadRef end
                                   end) eps
    end
  else Exn AttributeError.

(** __fill_relations, lines 48-59 *)
Definition fill_one {I X B} (idf : ident I) (v : hvisitor I X B) (s : st) (w : Qc) (mk : I -> htuple I)
    (epid : I) (e : loc) (oe : obj) (tasks : list B) (x : X) : res (list B) * X :=
  if decide (w = 0%Qc) then (Ok tasks, x)
  else match endpoint_ids idf s e oe with
       | Exn ex => (Exn ex, x)
       | Ok ids => match v (map mk (List.filter (fun y => negb (i_same idf y epid)) ids)) x with
                   | (Exn ex, x') => (Exn ex, x')
                   | (Ok b, x') => (Ok (tasks ++ [b]), x')
                   end
       end.
Definition fill_relations {I X B} (idf : ident I) (v : hvisitor I X B) (s : st) (w : Qc * Qc) (epid eid : I)
    (n : nweight) (e : loc) (oe : obj) (tasks : list B) (x : X) : res (list B) * X :=
  match fill_one idf v s w.1 (fun y => mkTup epid y eid w.1 n) epid e oe tasks x with
  | (Exn ex, x') => (Exn ex, x')
  | (Ok tasks', x') => fill_one idf v s w.2 (fun y => mkTup y epid eid w.2 n) epid e oe tasks' x'
  end.

(** The case HypergraphRelation() of _traverse, lines 72-100: tasks and new items *)
Definition h_relation {I X B} (idf : ident I) (nf : list pyval -> res Qc) (mx : option nat) (v : hvisitor I X B)
    (s : st) (o : obj) (d : nat) (tasks : list B) (x : X) : res (list B * list (loc * nat)) * X :=
  match o_parent o with
  | None => (Exn AttributeError, x)
  | Some e =>
      match heap s !! e with
      | None => (Exn BadRef, x)
      | Some oe =>
          match i_edge idf e oe with
          | Exn ex => (Exn ex, x)
          | Ok eid =>
              match norm_weight nf s o with
              | Exn ex => (Exn ex, x)
              | Ok n =>
                  match o_endpoint o with
                  | None => (Exn AttributeError, x)
                  | Some ep =>
                      match heap s !! ep with
                      | None => (Exn BadRef, x)
                      | Some oep =>
                          match i_node idf ep oep with
                          | Exn ex => (Exn ex, x)
                          | Ok epid =>
                              match fill_relations idf v s (rel_weights (o_dir o) n) epid eid n e oe tasks x with
                              | (Exn ex, x') => (Exn ex, x')
                              | (Ok tasks', x') =>
                                  (Ok (tasks', if match mx with None => true | Some m => d + 1 <? m end then [(ep, d + 1)] else []), x')
                              end
                          end
                      end
                  end
              end
          end
      end
  end.

(** One round of _traverse, lines 62-100, with __fill_edge (36-39) and __fill_node
    (41-46; ports are only printed). *)
Definition h_item {I X B} (idf : ident I) (nf : list pyval -> res Qc) (mx : option nat) (v : hvisitor I X B)
    (s : st) (l : loc) (d : nat) (tasks : list B) (x : X) : res (list B * list (loc * nat)) * X :=
  match heap s !! l with
  | None => (Exn BadRef, x)
  | Some o =>
      match o_kind o with
      | KNode => match fst (sub_edges l s) with
                 | Ok es => (Ok (tasks, map (fun e => (e, d)) es), x)
                 | Exn ex => (Exn ex, x)
                 end
      | KEdge => match fst (sub_relations l s) with
                 | Ok rs => (Ok (tasks, map (fun r => (r, d)) rs), x)
                 | Exn ex => (Exn ex, x)
                 end
      | KRel => h_relation idf nf mx v s o d tasks x
      | _ => (Ok (tasks, []), x)
      end
  end.

(** _traverse, lines 62-101; [lim]: nested calls, as in Traverse.v *)
Fixpoint htraverse {I X B} (lim : nat) (idf : ident I) (nf : list pyval -> res Qc) (mx : option nat) (v : hvisitor I X B)
    (s : st) (q : list (loc * nat)) (tasks : list B) (x : X) : res (list B) * list (loc * nat) * X :=
  match lim with
  | 0 => (Exn RecursionError, q, x)
  | S lim' =>
      match q with
      | [] => (Ok tasks, [], x)
      | (l, d) :: rest =>
          match h_item idf nf mx v s l d tasks x with
          | (Exn e, x') => (Exn e, rest, x')
          | (Ok (tasks', new), x') => htraverse lim' idf nf mx v s (rest ++ new) tasks' x'
          end
      end
  end.

(** _setup and execute, lines 103-114: one queue for all objects of the class *)
Definition h_execute {I X B} (lim : nat) (idf : ident I) (nf : list pyval -> res Qc) (mx : option nat) (v : hvisitor I X B)
    (start : loc) (s : st) (x : X) : res (list B) * st * X :=
  let '(r, q, x') := htraverse lim idf nf mx v s (fr_hyper s ++ [(start, 0)]) [] x in
  (r, set_fr_hyper q s, x').
