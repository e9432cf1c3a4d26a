(** * Vocabulary for C79 *)
From Verif Require Export Spec.

(** How a direction is shown. *)
Definition arrow (d : direction) : string :=
  match d with OUTWARDS => "->" | INWARDS => "<-" | BIDIRECTIONAL => "--" end.
(** What is printed for an element: a text, for a relation followed by its weight. *)
Inductive shows (h : list obj) (l : loc) : list (string * option weight) -> Prop :=
| shows_root o : h !! l = Some o -> o_kind o = KNode -> parent_of h l = None ->
    shows h l [("node " +:+ o_qname o +:+ ": " +:+ name_of h l, None)]
| shows_node o p : h !! l = Some o -> o_kind o = KNode -> parent_of h l = Some p ->
    shows h l [("node " +:+ o_qname o +:+ ": " +:+ name_of h l +:+ " <- " +:+ name_of h p, None)]
| shows_edge o p : h !! l = Some o -> o_kind o = KEdge -> parent_of h l = Some p ->
    shows h l [("edge " +:+ o_qname o +:+ ": " +:+ name_of h l +:+ " " +:+ str_of_Z (Z.of_nat (length (children h l))) +:+ " <- " +:+ name_of h p, None)]
| shows_rel o e : h !! l = Some o -> o_kind o = KRel -> o_endpoint o = Some e ->
    shows h l [("relation " +:+ o_qname o +:+ ": " +:+ arrow (o_dir o) +:+ " " +:+ name_of h e +:+ ":: ", Some (o_weight o))]
| shows_nothing o : h !! l = Some o -> o_kind o <> KNode -> o_kind o <> KEdge -> o_kind o <> KRel -> shows h l [].
(** The only elements that cannot be printed: edges that are in no element. *)
Definition loose_edge (h : list obj) (l : loc) : Prop := kind_of h l = Some KEdge /\ parent_of h l = None.
Global Instance loose_edge_dec h l : Decision (loose_edge h l).
Proof. unfold loose_edge. apply _. Defined.
