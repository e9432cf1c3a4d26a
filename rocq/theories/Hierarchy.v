(** * The hierarchy core

    framework_python/rei/foundations/conceptual_item.py and the overriding
    methods of framework_python/rei/hypergraph/base_elements.py. *)
From Verif Require Export Heap.

(** HierarchicalElement.update_qualified_name, conceptual_item.py:63-66: the
    names from the element up to its root.  The nested generators recurse once
    per ancestor; a cyclic parent chain overflows the stack (RecursionError).
    Fuel is the number of existing objects, which every acyclic chain respects. *)
Fixpoint names_up (h : list obj) (fuel : nat) (l : loc) : res (list string) :=
  match fuel with
  | 0 => Exn RecursionError
  | S fuel' =>
      match h !! l with
      | None => Exn BadRef
      | Some o =>
          match o_parent o with
          | None => Ok [o_name o]
          | Some q =>
              match names_up h fuel' q with
              | Ok ns => Ok (o_name o :: ns)
              | Exn e => Exn e
              end
          end
      end
  end.

(** ConceptualItem._update_timestamp, conceptual_item.py:204-208 *)
Definition update_timestamp (l : loc) : M unit :=
  let! o := deref l in
  match o_clock o with
  | Some c => let! t := now c in upd l (s_time t)
  | None => raise ErrorClockNotSet
  end.

(** [self._qualified_name = '/'.join(list(self.update_qualified_name())[::-1])],
    conceptual_item.py:69, 234, base_elements.py:110 *)
Definition refresh_qname (l : loc) : M unit :=
  let! s := get_st in
  match names_up (heap s) (length (heap s)) l with
  | Ok ns => upd l (s_qname (join "/" (rev ns)))
  | Exn e => raise e
  end.

(** [x.update()]: HierarchicalElement.update (conceptual_item.py:68-69),
    ConceptualItem.update (232-234), HypergraphRelation.update
    (base_elements.py:109-110). *)
Definition update (l : loc) : M unit :=
  let! o := deref l in
  if is_conceptual (o_kind o) then update_timestamp l ;; refresh_qname l
  else refresh_qname l.

(** HierarchicalElement.__update_element, conceptual_item.py:157-165: the loop
    over the queue.  Fuel exhaustion stands for an endless loop. *)
Fixpoint update_loop (fuel : nat) (fringe : list loc) : M unit :=
  match fringe with
  | [] => ret tt
  | x :: rest =>
      match fuel with
      | 0 => raise Diverges
      | S fuel' =>
          update x ;;
          let! o := deref x in
          update_loop fuel' (rest ++ dvals (o_subs o))
      end
  end.

Definition update_subtree (l : loc) : M unit :=
  let! s := get_st in update_loop (length (heap s)) [l].

(** ** remove_element: a generator, hence a small state machine

    [GNew]: created, nothing executed yet (calling remove_element runs no code).
    [GLoop p vs]: suspended at the [yield] of line 141, [vs] still to come.
    [GEnd]: finished. *)
Inductive gen :=
| GNew (p : loc) (nm : string) (u : option uid)
| GLoop (p : loc) (vs : list loc)
| GEnd.

(** One iteration of the loop conceptual_item.py:132-141. *)
Definition remove_one (p v : loc) : M loc :=
  let! ov := deref v in
  let! op := deref p in
  let! el := of_opt KeyError (dget (o_uuid ov) (o_subs op)) in
  upd p (fun o => s_subs (ddel (o_uuid ov) (o_subs o)) o) ;;
  upd el (s_parent None) ;;
  update el ;;
  upd p (fun o => s_cnt (o_cnt o - 1)%Z o) ;;
  ret el.

(** The branches with a uuid, conceptual_item.py:119-127 and 144-153; [nm] is
    the name under which the index entry is dropped ([None]: el.id_name). *)
Definition remove_uuid (p : loc) (nm : option string) (u : uid) : M loc :=
  let! op := deref p in
  let! el := of_opt KeyError (dget u (o_subs op)) in
  upd p (fun o => s_subs (ddel u (o_subs o)) o) ;;
  let! oel := deref el in
  let n := default (o_name oel) nm in
  let! op' := deref p in
  let! d := of_opt KeyError (dget n (o_index op')) in
  let! _ := of_opt KeyError (dget u d) in
  upd p (fun o => s_index (dset n (ddel u d) (o_index o)) o) ;;
  upd el (s_parent None) ;;
  update el ;;
  upd p (fun o => s_cnt (o_cnt o - 1)%Z o) ;;
  ret el.

(** HierarchicalElement.remove_element, conceptual_item.py:116-155, up to the
    next yield. *)
Definition base_next (g : gen) : M (option loc * gen) :=
  match g with
  | GNew p nm u =>
      if decide (nm = "") then
        match u with
        | Some u => let! el := remove_uuid p None u in ret (Some el, GEnd)
        | None => raise ErrorInvalidQuery
        end
      else
        match u with
        | Some u => let! el := remove_uuid p (Some nm) u in ret (Some el, GEnd)
        | None =>
            let! op := deref p in
            let! d := of_opt KeyError (dget nm (o_index op)) in
            upd p (fun o => s_index (dset nm [] (o_index o)) o) ;;
            match dvals d with
            | [] => ret (None, GEnd)
            | v :: vs => let! el := remove_one p v in ret (Some el, GLoop p vs)
            end
        end
  | GLoop p [] => ret (None, GEnd)
  | GLoop p (v :: vs) => let! el := remove_one p v in ret (Some el, GLoop p vs)
  | GEnd => ret (None, GEnd)
  end.

(** HypergraphRelation.remove_element, base_elements.py:118-121: the arguments
    are ignored. *)
Definition rel_next (p : loc) : M (option loc * gen) :=
  let! op := deref p in
  let! ep := of_opt AttributeError (o_endpoint op) in
  let! oep := deref ep in
  let! el := of_opt KeyError (dget (o_uuid oep) (o_subs op)) in
  upd p (fun o => s_subs (ddel (o_uuid oep) (o_subs o)) o) ;;
  upd p (s_endpoint None) ;;
  ret (Some el, GEnd).

(** HypergraphEdge.remove_element, base_elements.py:152-155: after the base
    generator yields v, [yield from self._sub_relations.pop(v.cid)] raises
    KeyError when there is no such relation and TypeError otherwise (a relation
    is not iterable).  [_sub_relations] is missing when the constructor of the
    edge was aborted. *)
Definition edge_next (p : loc) (nm : string) (u : option uid) : M (option loc * gen) :=
  let! r := base_next (GNew p nm u) in
  match r.1 with
  | None => ret (None, GEnd)
  | Some v =>
      let! op := deref p in
      if o_ready op then
        let! ov := deref v in
        let! _ := of_opt KeyError (dget (o_cid ov) (o_rels op)) in
        upd p (fun o => s_rels (ddel (o_cid ov) (o_rels o)) o) ;;
        raise TypeError
      else raise AttributeError
  end.

(** [next(g)] for g = p.remove_element(nm, u): dispatch on the class of p. *)
Definition gen_next (g : gen) : M (option loc * gen) :=
  match g with
  | GNew p nm u =>
      let! op := deref p in
      match o_kind op with
      | KRel => rel_next p
      | KEdge => edge_next p nm u
      | _ => base_next g
      end
  | _ => base_next g
  end.

(** [for e in p.remove_element(..): body(e)] after the first element. *)
Fixpoint gen_loop (body : loc -> M unit) (p : loc) (vs : list loc) : M unit :=
  match vs with
  | [] => ret tt
  | v :: vs' => let! el := remove_one p v in body el ;; gen_loop body p vs'
  end.

Definition for_gen (body : loc -> M unit) (g : gen) : M unit :=
  let! r := gen_next g in
  match r.1 with
  | None => ret tt
  | Some v =>
      body v ;;
      match r.2 with
      | GLoop p vs => gen_loop body p vs
      | _ => ret tt
      end
  end.

(** ** add_element *)

(** HierarchicalElement.add_element, conceptual_item.py:86-114. *)
Definition add_base (p c : loc) : M unit :=
  if decide (c = p) then raise ErrorRecursiveHierarchy else
  let! oc := deref c in
  let! op := deref p in
  match dget (o_uuid oc) (o_subs op) with
  | Some _ => raise ErrorDuplicateElement
  | None =>
      upd p (fun o => s_subs (dset (o_uuid oc) c (o_subs o)) o) ;;
      if decide (o_parent oc = Some p) then ret tt
      else
        upd p (fun o => s_index
                 (dset (o_name oc)
                    (dset (o_uuid oc) c (default [] (dget (o_name oc) (o_index o))))
                    (o_index o)) o) ;;
        let! op1 := deref p in
        upd c (s_cid (o_hist op1)) ;;
        match o_parent oc with
        | None => ret tt
        | Some q => for_gen update (GNew q "" (Some (o_uuid oc)))
        end ;;
        upd c (s_parent (Some p)) ;;
        let! op2 := deref p in
        upd c (s_depth (o_depth op2 + 1)) ;;
        upd p (fun o => s_cnt (o_cnt o + 1)%Z o) ;;
        upd p (fun o => s_hist (o_hist o + 1) o) ;;
        update_subtree c
  end.

(** A freshly created object before any relation to others:
    HierarchicalElement.__init__, conceptual_item.py:36-53, and
    IdentifiableItem.__init__, abstract_items.py:6-12. *)
Definition blank (k : kind) (u : uid) (nm prog : string) : obj :=
  mkObj k u nm prog nm None 0 0 0%Z 0 [] [] None 0%Z true [] [] None
        BIDIRECTIONAL WNone None [] 0 [].

(** HypergraphElement.connect, base_elements.py:45-50.  An aborted constructor
    leaves no [_id_generation] (AttributeError); objects of other classes have
    no [connect].  [self.add_element(p)] on a HypergraphElement with a port as
    argument is HierarchicalElement.add_element (HypergraphEdge.add_element
    adds nothing for a port, base_elements.py:146-150). *)
Definition port_name (x y : string) : string := join "." [x; "port"; y].
(** HypergraphElement.identification_generation, base_elements.py:42-43 *)
Definition elem_id_text (x y : string) : string := x +:+ "/" +:+ y.

Definition connect (x el : loc) : M unit :=
  let! ox := deref x in
  let! oe := deref el in
  if is_hyperelement (o_kind ox) && o_ready ox then
    let! u := hash (elem_id_text (o_name ox) (o_name oe)) in
    let pn := port_name (o_name ox) (o_name oe) in
    let! pt := alloc (s_endpoint (Some el) (blank KPort u pn pn)) in
    upd x (fun o => s_ports (dset (o_uuid oe) pt (o_ports o)) o) ;;
    add_base x pt
  else raise AttributeError.

(** [p.add_element(c)]: HypergraphRelation.add_element (base_elements.py:112-116),
    HypergraphEdge.add_element (146-150), otherwise the base method. *)
Definition add_element (p c : loc) : M unit :=
  let! op := deref p in
  match o_kind op with
  | KRel =>
      add_base p c ;;
      let! oc := deref c in
      if is_hyperelement (o_kind oc) then connect c p else ret tt
  | KEdge =>
      add_base p c ;;
      let! oc := deref c in
      match o_kind oc with
      | KRel =>
          let! op' := deref p in
          if o_ready op' then upd p (fun o => s_rels (dset (o_cid oc) c (o_rels o)) o)
          else raise AttributeError
      | _ => ret tt
      end
  | _ => add_base p c
  end.

(** HypergraphElement.disconnect, base_elements.py:52-54: the generator
    returned by remove_element is dropped without being started. *)
Definition disconnect (x el : loc) : M unit :=
  let! ox := deref x in
  let! oe := deref el in
  if is_hyperelement (o_kind ox) && o_ready ox then
    let! _ := of_opt KeyError (dget (o_uuid oe) (o_ports ox)) in
    upd x (fun o => s_ports (ddel (o_uuid oe) (o_ports o)) o)
  else raise AttributeError.

(** HypergraphElement.deregister, base_elements.py:60-63 *)
Definition deregister (x : loc) : M unit :=
  let! ox := deref x in
  if is_hyperelement (o_kind ox) then
    match o_parent ox with
    | None => ret tt
    | Some q => for_gen update (GNew q "" (Some (o_uuid ox)))
    end
  else raise AttributeError.

(** HypergraphElement.register, base_elements.py:65-66 *)
Definition register (x p : loc) : M unit :=
  let! ox := deref x in
  if is_hyperelement (o_kind ox) then add_element p x else raise AttributeError.

(** Drain remove_element with a loop body that does nothing:
    [list(p.remove_element(..))], returning the yielded elements. *)
Fixpoint gen_list_loop (p : loc) (vs : list loc) : M (list loc) :=
  match vs with
  | [] => ret []
  | v :: vs' =>
      let! el := remove_one p v in
      let! r := gen_list_loop p vs' in
      ret (el :: r)
  end.

Definition remove_all (p : loc) (nm : string) (u : option uid) : M (list loc) :=
  let! r := gen_next (GNew p nm u) in
  match r.1 with
  | None => ret []
  | Some v =>
      match r.2 with
      | GLoop p' vs => let! l := gen_list_loop p' vs in ret (v :: l)
      | _ => ret [v]
      end
  end.

(** Draw at most j elements from a generator. *)
Fixpoint gen_take (j : nat) (g : gen) : M (list loc) :=
  match j with
  | 0 => ret []
  | S j' =>
      let! r := gen_next g in
      match r.1 with
      | None => ret []
      | Some v => let! l := gen_take j' r.2 in ret (v :: l)
      end
  end.

(** ** Reading *)

(** HierarchicalElement.get_subelements, conceptual_item.py:83-84 *)
Definition get_subelements (p : loc) (f : loc -> obj -> bool) : M (list loc) :=
  fun s => match heap s !! p with
           | None => (Exn BadRef, s)
           | Some o =>
               (Ok (List.filter (fun c => match heap s !! c with
                                     | Some oc => f c oc
                                     | None => false
                                     end) (dvals (o_subs o))), s)
           end.

(** ConceptualItem.get_element_by_id_name, conceptual_item.py:218-230, as
    [list(..)].  The recursion passes '/'.join(tokens[1:]), whose split is
    tokens[1:] again, so the tokens are passed.  [str.split] with a separator
    never returns the empty list (line 220-221 is unreachable).  Elements that
    are not ConceptualItems have no such method. *)
Fixpoint get_by_tokens (h : list obj) (tokens : list string) (p : loc) : res (list loc) :=
  match h !! p with
  | None => Exn BadRef
  | Some o =>
      if is_conceptual (o_kind o) then
        match tokens with
        | [] => Exn InvalidQueryName
        | [t] => Ok (match dget t (o_index o) with Some d => dvals d | None => [] end)
        | t :: tokens' =>
            match dget t (o_index o) with
            | None => Exn KeyError
            | Some d =>
                (fix go (vs : list loc) : res (list loc) :=
                   match vs with
                   | [] => Ok []
                   | v :: vs' =>
                       match get_by_tokens h tokens' v with
                       | Exn e => Exn e
                       | Ok r => match go vs' with
                                 | Exn e => Exn e
                                 | Ok r' => Ok (r ++ r')
                                 end
                       end
                   end) (dvals d)
            end
        end
      else Exn AttributeError
  end.

Definition get_element_by_id_name (p : loc) (nm : string) : M (list loc) :=
  fun s => (get_by_tokens (heap s) (split_on slash nm) p, s).
