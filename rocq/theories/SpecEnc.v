(** * Vocabulary for the message properties *)
From Verif Require Export SpecTensor Encode.

(** The direct value nodes of [c], in insertion order. *)
Definition values_of (h : list obj) (c : loc) : list loc := fkids (is_kind k_value) h c.
Definition vals_of (h : list obj) (v : loc) : list pyval := default [] (o_vals <$> h !! v).
(** The uuid of the endpoint of a relation. *)
Definition ep_uuid_of (h : list obj) (r : loc) : option uid := uuid_of h <$> ep_of h r.

(** The graphs that can be sent: the context is a root node; no direct sub-node or
    sub-edge has its uuid; relations of its edges have an endpoint with the uuid of
    the context or of a direct sub-node or sub-edge; values can be encoded. *)
Record sendable (h : list obj) (c : loc) : Prop := {
  sd_node : kind_of h c = Some KNode;
  sd_root : parent_of h c = None;
  sd_uuid : forall x, x ∈ nodes_of h c ++ edges_of h c -> uuid_of h x <> uuid_of h c;
  sd_ep : forall e r, e ∈ edges_of h c -> r ∈ rels_of h e ->
    exists p y, ep_of h r = Some p /\ y ∈ c :: nodes_of h c ++ edges_of h c /\ uuid_of h p = uuid_of h y;
  sd_vals : forall v, v ∈ values_of h c -> forallb encodable (vals_of h v) = true }.

(** [x'] in [h'] is a copy of [x] in [h]: same class, uuid and name. *)
Definition copy_of (h h' : list obj) (x x' : loc) : Prop :=
  kind_of h' x' = kind_of h x /\ uuid_of h' x' = uuid_of h x /\ name_of h' x' = name_of h x.
(** What decoding should produce: [h0] is the heap before, [h'] the heap after. *)
Record decoded (h : list obj) (c : loc) (h0 h' : list obj) (root : loc) : Prop := {
  de_old : forall l, exists_in h0 l -> h' !! l = h0 !! l; (* nothing that existed is touched *)
  de_new : forall l, ~ exists_in h0 l -> exists_in h' l -> within h' root l; (* nothing else is created *)
  de_root : ~ exists_in h0 root /\ copy_of h h' c root /\ parent_of h' root = None;
  de_children : children h' root = nodes_of h' root ++ edges_of h' root ++ values_of h' root;
  de_nodes : Forall2 (fun n n' => copy_of h h' n n' /\ children h' n' = []) (nodes_of h c) (nodes_of h' root);
  de_edges : Forall2 (fun e e' => copy_of h h' e e' /\ children h' e' = rels_of h' e' /\
      Forall2 (fun r r' => copy_of h h' r r' /\ ep_uuid_of h' r' = ep_uuid_of h r /\ children h' r' = [] /\
         exists p, ep_of h' r' = Some p /\ p ∈ root :: nodes_of h' root ++ edges_of h' root) (rels_of h e) (rels_of h' e'))
      (edges_of h c) (edges_of h' root);
  de_values : Forall2 (fun v v' => copy_of h h' v v' /\ vals_of h' v' = vals_of h v /\ children h' v' = []) (values_of h c) (values_of h' root) }.

Definition is_ok {A} (r : res A) : Prop := exists a, r = Ok a.
(** The homomorphism [x'] is [x] restricted to the elements that were sent. *)
Definition sent_indices (us : list uid) (index index' : uid -> res nat) (at_' : nat -> res uid) (cnt' : nat) : Prop :=
  cnt' = length us /\ (forall u, u ∈ us -> is_ok (index u) /\ index' u = index u) /\
  (forall u i, index' u = Ok i <-> at_' i = Ok u) /\ (forall u, u ∉ us -> index' u = Exn KeyError).
Definition decoded_indices (h : list obj) (c : loc) (x x' : hom) : Prop :=
  sent_indices (map (uuid_of h) (c :: nodes_of h c)) (hom_node x) (hom_node x') (hom_dim x') (cnt_node x') /\
  sent_indices (map (uuid_of h) (edges_of h c)) (hom_edge x) (hom_edge x') (hom_depth x') (cnt_edges x') /\
  sent_indices (map (uuid_of h) (values_of h c)) (hom_val x) (hom_val x') (hom_ival x') (cnt_values x').
(** The icon after [n] full messages of the same state. *)
Fixpoint after_msgs (n : nat) (s : st) (g : icon) : icon :=
  match n with 0 => g | S n' => after_msgs n' s (snd (full_msg s g)) end.

(** What a message says about the graph below [c]: identity, name and qualified name of
    everything, the parents, the endpoints, the directions by number, the values. *)
Definition qualified_of (h : list obj) (l : loc) : string := default "" (o_qname <$> h !! l).
Definition direction_number (d : direction) : nat := match d with INWARDS => 0 | OUTWARDS => 1 | BIDIRECTIONAL => 2 end.
Record tells (h : list obj) (c : loc) (m : message) : Prop := {
  te_nodes : map (fun n => (mn_uuid n, mn_name n, mn_qname n, mn_parent n)) (m_nodes m) =
    (uuid_of h c, name_of h c, qualified_of h c, None) :: map (fun l => (uuid_of h l, name_of h l, qualified_of h l, Some (uuid_of h c))) (nodes_of h c);
  te_edges : map (fun e => (me_uuid e, me_name e, me_qname e, me_parent e)) (m_edges m) =
    map (fun l => (uuid_of h l, name_of h l, qualified_of h l, uuid_of h c)) (edges_of h c);
  te_rels : map (fun r => (mr_uuid r, mr_name r, mr_qname r, mr_parent r)) (m_rels m) =
    flat_map (fun e => map (fun l => (uuid_of h l, name_of h l, qualified_of h l, uuid_of h e)) (rels_of h e)) (edges_of h c);
  te_ends : map (fun r => Some (mr_ep r)) (m_rels m) = flat_map (fun e => map (ep_uuid_of h) (rels_of h e)) (edges_of h c);
  te_dirs : map (fun r => Some (mr_dir r)) (m_rels m) = flat_map (fun e => map (fun l => direction_number <$> dir_of h l) (rels_of h e)) (edges_of h c);
  te_values : map (fun v => (mv_uuid v, mv_name v, mv_qname v, mv_parent v, mv_vals v)) (m_values m) =
    map (fun l => (uuid_of h l, name_of h l, qualified_of h l, uuid_of h c, vals_of h l)) (values_of h c) }.
