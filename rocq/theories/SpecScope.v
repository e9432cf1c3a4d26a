(** * Descriptions whose references can be resolved

    A description is read from top to bottom.  A joint refers to elements of its own
    container that come before it, a geometry to any node that comes before it.  The
    functions below are about parse trees alone. *)
From Verif Require Export SpecCogni.

(** What can be referred to by a geometry: the qualified name of an element, and the name
    of the element if it is a node ([None]: it is a semantic value).  The last entry for
    a qualified name counts. *)
Notation entries := (list (string * option string)).
Definition entry (es : entries) (q : string) : option (option string) := snd <$> last (filter (fun x => fst x = q) es).

(** ** What the parts of a description enter, in order *)

(** [path]: the names down to the link *)
Definition geometry_entries (here : list string) (nm : string) (g : cgeom) : entries :=
  match g with GOwn _ _ => [(join "/" (here ++ [nm; nm]), None)] | GRef _ => [] end ++ [(join "/" (here ++ [nm]), Some nm)].
Definition part_entry (path : list string) (p : cpart) : string * option string := (join "/" (path ++ [part_name path p]), Some (part_name path p)).
Definition part_entries (path : list string) (p : cpart) : entries :=
  let here := path ++ [part_name path p] in
  part_entry path p :: geometry_entries here ("geom_" +:+ part_name path p) (part_geometry p) ++
    match p with CVisual _ _ _ => [(join "/" (here ++ ["material_" +:+ part_name path p]), None)] | CCollision _ _ => [] end.
(** [path]: the names down to the container *)
Definition link_entry (path : list string) (l : clink) : entries :=
  match lk_pose l with Some _ => [(join "/" (path ++ [lk_name l; lk_name l; lk_name l +:+ "_transformation"]), None)] | None => [] end ++
  [(join "/" (path ++ [lk_name l]), Some (lk_name l))].
Definition link_entries (path : list string) (l : clink) : entries := link_entry path l ++ flat_map (part_entries (path ++ [lk_name l])) (link_parts l).
Definition relation_entries (path : list string) (joint : string) (r : crel) : entries :=
  let nm := joint +:+ "." +:+ jr_ref r in
  match jr_rigid r with Some _ => [(join "/" (path ++ [nm; nm +:+ "_transformation"]), None)] | None => [] end.
Definition node_entry (path : list string) (nm : string) : string * option string := (join "/" (path ++ [nm]), Some nm).
Fixpoint kitem_entries (path : list string) (it : kitem) : entries :=
  match it with
  | KiLink l => link_entries path l
  | KiJoint j => flat_map (relation_entries path (jt_name j)) (jt_rels j)
  | KiKin nm its => node_entry path nm :: flat_map (kitem_entries (path ++ [nm])) its
  | KiOther => []
  end.
Fixpoint aitem_entries (path : list string) (it : aitem) : entries :=
  match it with
  | AiSensor nm | AiActuator nm => [node_entry path nm]
  | AiAmbient nm its => node_entry path nm :: flat_map (aitem_entries (path ++ [nm])) its
  | AiKin nm its => kitem_entries path (KiKin nm its)
  | AiOther => []
  end.
Definition eitem_entries (path : list string) (it : eitem) : entries :=
  match it with
  | EiJoint j => kitem_entries path (KiJoint j)
  | EiAmbient nm its => aitem_entries path (AiAmbient nm its)
  | EiKin nm its => kitem_entries path (KiKin nm its)
  | EiParams _ | EiOther => []
  end.

(** ** References *)

(** The name of a tree that stands for an element of a container. *)
Definition tree_name (t : tree) : string :=
  match t with T (LNode nm) _ | T (LEdge nm) _ | T (LSem _ nm _) _ | T (LValue nm _) _ => nm | T (LRel _ _ _) _ => "" end.
(** A joint: [ts]: the elements of the container so far.  The first element with the name
    is a node. *)
Definition reference_found (ts : list tree) (ref : string) : Prop :=
  ref = "world" \/
  has_char slash ref = false /\ has_char dot ref = false /\ exists sub, head (filter (fun t => tree_name t = ref) ts) = Some (T (LNode ref) sub).
Definition joint_found (ts : list tree) (j : cjoint) : Prop := NoDup (map jr_ref (jt_rels j)) /\ Forall (fun r => reference_found ts (jr_ref r)) (jt_rels j).
(** A geometry: the target is a node, and is not a namesake of the geometry's own node.
    Targets that have been referred to before are not looked at again. *)
Definition part_found (path : list string) (es : entries) (seen : list string) (p : cpart) : Prop :=
  match part_geometry p with
  | GOwn _ _ => True
  | GRef ref => target path p ref ∈ seen \/ exists nm, entry es (target path p ref) = Some (Some nm) /\ nm <> "geom_" +:+ part_name path p
  end.

(** Each in its turn: [ts] the elements of the container so far, [es] the entries so far,
    [seen] the targets so far. *)
Definition in_turn {A} (tr : list string -> A -> option (list tree * list string)) (en : A -> entries) (ok : list tree -> entries -> list string -> A -> Prop) :
    list tree -> entries -> list string -> list A -> Prop :=
  fix go ts es seen l := match l with
                         | [] => True
                         | x :: l' => ok ts es seen x /\ match tr seen x with Some (ts', seen') => go (ts ++ ts') (es ++ en x) seen' l' | None => False end
                         end.

Section found.
  Context (fl : string -> option Qc) (rad : Qc) (env : list (string * string)).

  Definition link_found (path : list string) (es : entries) (seen : list string) (l : clink) : Prop :=
    let here := path ++ [lk_name l] in
    in_turn (reference_tree here) (part_entries here) (fun _ es seen p => part_found here (es ++ [part_entry here p]) seen p) [] (es ++ link_entry path l) seen (link_parts l).
  Fixpoint kitem_found (path : list string) (ts : list tree) (es : entries) (seen : list string) (it : kitem) : Prop :=
    match it with
    | KiLink l => link_found path es seen l
    | KiJoint j => joint_found ts j
    | KiKin nm its => let here := path ++ [nm] in
        in_turn (kitem_trees fl rad env here) (kitem_entries here) (kitem_found here) [sem_leaf SKinematicGraph nm [("name", PStr nm)]] (es ++ [node_entry path nm]) seen its
    | KiOther => True
    end.
  Fixpoint aitem_found (path : list string) (ts : list tree) (es : entries) (seen : list string) (it : aitem) : Prop :=
    match it with
    | AiSensor _ | AiActuator _ | AiOther => True
    | AiAmbient nm its => let here := path ++ [nm] in
        in_turn (aitem_trees fl rad env here) (aitem_entries here) (aitem_found here) [] (es ++ [node_entry path nm]) seen its
    | AiKin nm its => kitem_found path ts es seen (KiKin nm its)
    end.
  Definition eitem_found (path : list string) (ts : list tree) (es : entries) (seen : list string) (it : eitem) : Prop :=
    match it with
    | EiJoint j => kitem_found path ts es seen (KiJoint j)
    | EiAmbient nm its => aitem_found path ts es seen (AiAmbient nm its)
    | EiKin nm its => kitem_found path ts es seen (KiKin nm its)
    | EiParams _ | EiOther => True
    end.
End found.

Fixpoint items_found (fl : string -> option Qc) (rad : Qc) (path : list string) (env : list (string * string)) (ts : list tree) (es : entries) (seen : list string) (its : list eitem) : Prop :=
  match its with
  | [] => True
  | it :: its' =>
      eitem_found fl rad env path ts es seen it /\
      match eitem_trees fl rad env path seen it with
      | Some (ts', seen') => items_found fl rad path (env ++ item_params it) (ts ++ ts') (es ++ eitem_entries path it) seen' its'
      | None => False
      end
  end.
(** All references of the description can be resolved, and all its numbers, directions
    and geometries can be read. *)
Definition resolvable (fl : string -> option Qc) (rad : Qc) (e : centity) : Prop :=
  let nm := en_name e in
  items_found fl rad [nm] [] [sem_leaf SCognitiveEntity nm [("name", PStr nm)]] [("world", Some "world"); (nm, Some nm)] [] (en_items e).
