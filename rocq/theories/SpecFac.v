(** * Vocabulary for the factory properties *)
From Verif Require Export Spec Elements Factory.

(** The text that identifies a generated node: the path of names below the parent. *)
Definition node_text (h : list obj) (nm : string) (parent : option loc) : string :=
  match parent with Some p => default "" (o_qname <$> h !! p) +:+ "/" +:+ nm | None => nm end.

(** (endpoint, direction, weight) of one relation *)
Definition tnode (t : loc * direction * weight) : loc := t.1.1.

(** The weights given to [k] nodes: the list [values], or None for each. *)
Definition weights_of (k : nat) (vs : option (list weight)) : list weight :=
  match vs with None => repeat WNone k | Some l => l end.
(** Every node with its weight, all in the direction [d]. *)
Definition triples (d : direction) (ns : list loc) (ws : list weight) : list (loc * direction * weight) :=
  map (fun x => (x.1, d, x.2)) (zip ns ws).

(** The result of creating an edge [e] in [p] with one relation for each element of [ts]. *)
Record edge_made (s s' : st) (p e : loc) (nm : string) (ts : list (loc * direction * weight)) (rs : list loc) : Prop := {
  em_new : ~ exists_in (heap s) e;
  em_kind : kind_of (heap s') e = Some KEdge;
  em_name : name_of (heap s') e = nm;
  em_parent : parent_of (heap s') e = Some p;
  em_rels : children (heap s') e = rs;
  em_made : Forall2 (fun r t => let '(n, d, w) := t in
     ~ exists_in (heap s) r /\ kind_of (heap s') r = Some KRel /\ parent_of (heap s') r = Some e /\ children (heap s') r = [] /\
     attr_of o_endpoint (heap s') r = Some (Some n) /\ attr_of o_dir (heap s') r = Some d /\ attr_of o_weight (heap s') r = Some w /\
     exists pt, ~ exists_in (heap s) pt /\ children (heap s') n = (children (heap s) n ++ (if decide (n = p) then [e] else [])) ++ [pt] /\
       kind_of (heap s') pt = Some KPort /\ attr_of o_endpoint (heap s') pt = Some (Some r)) rs ts;
  em_nodup : NoDup (map tnode ts);
  em_edges : exists es, sub_edges p s = (Ok es, s) /\ sub_edges p s' = (Ok (es ++ [e]), s');
  em_p : p ∉ map tnode ts -> children (heap s') p = children (heap s) p ++ [e];
  em_other : forall l, exists_in (heap s) l -> l <> p -> l ∉ map tnode ts -> children (heap s') l = children (heap s) l;
  em_kept : kept (heap s) (heap s');
  em_unmoved : unmoved (heap s) (heap s')
}.


(** The factory methods that make an edge, a value or a semantic element inside a container. *)
Inductive maker :=
| MkEdge
| MkValue (vs : option (list pyval))
| MkSem (raw : string) (attr : dict string pyval) (vs : option pyval).
Definition make (m : maker) (f : factory) (p : loc) (nm : string) : M loc :=
  match m with
  | MkEdge => create_hyperedge f p nm
  | MkValue vs => create_value f (Some p) nm vs
  | MkSem raw attr vs => generate_semantic_element f raw nm p attr vs
  end.
