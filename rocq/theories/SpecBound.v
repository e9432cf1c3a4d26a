(** * What every accepted description satisfies

    The same walk as in [SpecScope]: from top to bottom, with the elements of the
    container so far, the entries so far and the targets so far.  The functions below are
    about parse trees alone. *)
From Verif Require Export SpecScope.

(** A tree for a node or an edge: what a relation can lead to. *)
Definition connectable (t : tree) : Prop := match t with T (LNode _) _ | T (LEdge _) _ => True | _ => False end.
(** The name of the element a reference leads to. *)
Definition short_name (ref : string) : string := default "" (last (split_on slash ref)).
(** A reference of a joint is "world", or leads further down (it has a slash), or is the
    name of an element that comes before the joint in the same container; the first such
    element is a node or an edge. *)
Definition reference_bound (ts : list tree) (ref : string) : Prop :=
  ref = "world" \/ has_char slash ref = true \/ exists t, head (filter (fun t => tree_name t = ref) ts) = Some t /\ connectable t.
(** No two references of a joint lead to elements with the same name. *)
Definition joint_bound (ts : list tree) (j : cjoint) : Prop :=
  NoDup (map (fun r => short_name (jr_ref r)) (jt_rels j)) /\ Forall (fun r => reference_bound ts (jr_ref r)) (jt_rels j).

Section bound.
  Context (fl : string -> option Qc) (rad : Qc) (env : list (string * string)).

  (** The geometries of a link are bound in the sense of [part_found]: the target of a
      reference is a node that has been entered before, and no namesake of the
      geometry's own node; or it is a target that has been referred to before. *)
  Fixpoint kitem_bound (path : list string) (ts : list tree) (es : entries) (seen : list string) (it : kitem) : Prop :=
    match it with
    | KiLink l => link_found path es seen l
    | KiJoint j => joint_bound ts j
    | KiKin nm its => let here := path ++ [nm] in
        in_turn (kitem_trees fl rad env here) (kitem_entries here) (kitem_bound here) [sem_leaf SKinematicGraph nm [("name", PStr nm)]] (es ++ [node_entry path nm]) seen its
    | KiOther => True
    end.
  Fixpoint aitem_bound (path : list string) (ts : list tree) (es : entries) (seen : list string) (it : aitem) : Prop :=
    match it with
    | AiSensor _ | AiActuator _ | AiOther => True
    | AiAmbient nm its => let here := path ++ [nm] in
        in_turn (aitem_trees fl rad env here) (aitem_entries here) (aitem_bound here) [] (es ++ [node_entry path nm]) seen its
    | AiKin nm its => kitem_bound path ts es seen (KiKin nm its)
    end.
  Definition eitem_bound (path : list string) (ts : list tree) (es : entries) (seen : list string) (it : eitem) : Prop :=
    match it with
    | EiJoint j => kitem_bound path ts es seen (KiJoint j)
    | EiAmbient nm its => aitem_bound path ts es seen (AiAmbient nm its)
    | EiKin nm its => kitem_bound path ts es seen (KiKin nm its)
    | EiParams _ | EiOther => True
    end.
End bound.

Fixpoint items_bound (fl : string -> option Qc) (rad : Qc) (path : list string) (env : list (string * string)) (ts : list tree) (es : entries) (seen : list string) (its : list eitem) : Prop :=
  match its with
  | [] => True
  | it :: its' =>
      eitem_bound fl rad env path ts es seen it /\
      match eitem_trees fl rad env path seen it with
      | Some (ts', seen') => items_bound fl rad path (env ++ item_params it) (ts ++ ts') (es ++ eitem_entries path it) seen' its'
      | None => False
      end
  end.
(** All references of the description lead somewhere, and all its numbers, directions
    and geometries can be read. *)
Definition bound (fl : string -> option Qc) (rad : Qc) (e : centity) : Prop :=
  let nm := en_name e in
  items_bound fl rad [nm] [] [sem_leaf SCognitiveEntity nm [("name", PStr nm)]] [("world", Some "world"); (nm, Some nm)] [] (en_items e).
(** A description in which the references of joints are plain: the world, or a name
    without slashes and dots that is not the name of an edge (edges are named after the
    joints; those for the references of geometries begin with "ref_"). *)
Definition entity_joints (e : centity) : list cjoint := flat_map eitem_joints (en_items e).
Definition plain_reference (names : list string) (ref : string) : Prop :=
  ref = "world" \/ has_char slash ref = false /\ has_char dot ref = false /\ ref ∉ names /\ forall t, ref <> "ref_" +:+ t.
Definition plainly (e : centity) : Prop :=
  Forall (fun j => Forall (fun r => plain_reference (map jt_name (entity_joints e)) (jr_ref r)) (jt_rels j)) (entity_joints e).
