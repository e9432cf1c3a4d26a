(** * Vocabulary: sending a graph on *)
From Verif Require Export SpecEnc.

(** A program makes a new icon for [c], updates its context and calls full_msg: [m] is
    sent ([lim] is the recursion limit). *)
Definition sends (lim : nat) (s : st) (c : loc) (m : message) : Prop :=
  exists ck r s' g g', update_context lim c s (new_icon ck c) = (Ok r, s', g) /\ full_msg s' g = (Ok m, g').
(** A program in any state, with any icon, decodes [m] and sends the result on as [m']. *)
Definition relayed (m m' : message) : Prop :=
  exists s g root x s' g' lim, reach s /\ create_graph m s g = (Ok (Some root, x), s', g') /\ sends lim s' root m'.
(** [n] times, one program after the other. *)
Inductive relayed_n : nat -> message -> message -> Prop :=
| relayed_0 m : relayed_n 0 m m
| relayed_S n m m1 m2 : relayed_n n m m1 -> relayed m1 m2 -> relayed_n (S n) m m2.

(** The standard form of the message about [c] and its direct sub-elements: indices are
    positions (of the nodes from 1, the context has 0), qualified names are made of the
    names, directions are BIDIRECTIONAL, there are no tensor entries. *)
Definition slash (a b : string) : string := String.append a (String.append "/" b).
Definition standard (h : list obj) (c : loc) : message :=
  let sub l := slash (name_of h c) (name_of h l) in
  mkMsg
    (mkMN (uuid_of h c) (name_of h c) 0 None (name_of h c) ::
     imap (fun i l => mkMN (uuid_of h l) (name_of h l) (S i) (Some (uuid_of h c)) (sub l)) (nodes_of h c))
    (imap (fun i e => mkME (uuid_of h e) (name_of h e) i (uuid_of h c) (sub e)) (edges_of h c))
    (flat_map (fun e => map (fun r => mkMR (uuid_of h r) (name_of h r) (slash (name_of h c) (slash (name_of h e) (name_of h r))) (direction_number BIDIRECTIONAL)
       (default "" (ep_uuid_of h r)) (uuid_of h e)) (rels_of h e)) (edges_of h c))
    (imap (fun i v => mkMV (uuid_of h v) (name_of h v) i (uuid_of h c) (sub v) (vals_of h v)) (values_of h c))
    [] [] [].

(** The elements of kind [k] below [c], and [c], have different uuids. *)
Definition distinct_uuids (k : kind -> bool) (h : list obj) (c : loc) : Prop :=
  forall a b, within h c a -> within h c b -> k <$> kind_of h a = Some true -> k <$> kind_of h b = Some true ->
    uuid_of h a = uuid_of h b -> a = b.
(** Nothing that a message cannot tell: all relations are BIDIRECTIONAL, the qualified
    names are up to date, nodes, edges and value nodes have different uuids each. *)
Record regular (h : list obj) (c : loc) : Prop := {
  rg_dirs : forall e r, e ∈ edges_of h c -> r ∈ rels_of h e -> dir_of h r = Some BIDIRECTIONAL;
  rg_names : forall y, within h c y -> full_name h y (qualified_of h y);
  rg_uuids : distinct_uuids k_node h c /\ distinct_uuids k_edge h c /\ distinct_uuids k_value h c }.
