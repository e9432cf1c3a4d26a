(** * Vocabulary: what a message describes *)
From stdpp Require Import sorting.
From Verif Require Export SpecEnc.

(** A message is a list of items: nodes, edges, relations, value nodes. *)
Record item := mkItem {
  it_kind : kind; it_uuid : uid; it_name : string;
  it_parent : option uid; (* the uuid given for the parent *)
  it_end : option uid; (* the uuid given for the endpoint *)
  it_vals : list pyval }.
Definition items (m : message) : list item :=
  map (fun n => mkItem KNode (mn_uuid n) (mn_name n) (mn_parent n) None []) (m_nodes m) ++
  map (fun e => mkItem KEdge (me_uuid e) (me_name e) (Some (me_parent e)) None []) (m_edges m) ++
  map (fun r => mkItem KRel (mr_uuid r) (mr_name r) (Some (mr_parent r)) (Some (mr_ep r)) []) (m_rels m) ++
  map (fun v => mkItem KValue (mv_uuid v) (mv_name v) (Some (mv_parent v)) None (mv_vals v)) (m_values m).

(** Nodes and edges can be referred to. *)
Definition hub (t : item) : Prop := it_kind t = KNode \/ it_kind t = KEdge.
(** What the uuid [u] means to item [n]: item [j], the last node or edge before [n] that has it. *)
Definition latest (L : list item) (n : nat) (u : uid) (j : nat) : Prop :=
  j < n /\ (exists t, L !! j = Some t /\ hub t /\ it_uuid t = u) /\
  forall k t, j < k -> k < n -> L !! k = Some t -> hub t -> it_uuid t <> u.

(** Every uuid means something; no node is its own parent; items with the same parent
    have different uuids. *)
Record acceptable (L : list item) : Prop := {
  ac_parent : forall i t u, L !! i = Some t -> it_parent t = Some u -> exists j, latest L i u j;
  ac_end : forall i t u, L !! i = Some t -> it_end t = Some u -> exists j, latest L i u j;
  ac_self : forall i t, L !! i = Some t -> it_kind t = KNode -> it_parent t <> Some (it_uuid t);
  ac_unique : forall i i' t t' u u' j, i < i' -> L !! i = Some t -> L !! i' = Some t' ->
    it_parent t = Some u -> it_parent t' = Some u' -> latest L i u j -> latest L i' u' j -> it_uuid t <> it_uuid t' }.

(** [h'] is [h0] with exactly the items of [m], item [i] at [length h0 + i]. *)
Record built (m : message) (h0 h' : list obj) : Prop := {
  bu_old : forall l, exists_in h0 l -> h' !! l = h0 !! l;
  bu_len : length h' = length h0 + length (items m);
  bu_item : forall i t, items m !! i = Some t ->
    kind_of h' (length h0 + i) = Some (it_kind t) /\ uuid_of h' (length h0 + i) = it_uuid t /\ name_of h' (length h0 + i) = it_name t /\
    vals_of h' (length h0 + i) = it_vals t /\ dir_of h' (length h0 + i) = Some BIDIRECTIONAL /\ weight_of h' (length h0 + i) = WNone;
  bu_parent : forall i t p, items m !! i = Some t ->
    parent_of h' (length h0 + i) = Some p <-> exists u j, it_parent t = Some u /\ latest (items m) i u j /\ p = length h0 + j;
  bu_end : forall i t p, items m !! i = Some t ->
    ep_of h' (length h0 + i) = Some p <-> exists u j, it_end t = Some u /\ latest (items m) i u j /\ p = length h0 + j;
  (* sub-elements are in the order of the message *)
  bu_order : forall l, ~ exists_in h0 l -> StronglySorted lt (children h' l);
  (* qualified names are those of the new hierarchy *)
  bu_names : forall l, ~ exists_in h0 l -> exists_in h' l -> exists q, attr_of o_qname h' l = Some q /\ full_name h' l q }.

(** The result of decoding: the last node without a parent. *)
Definition last_root (m : message) (n0 : nat) (root : option loc) : Prop :=
  match root with
  | None => forall n, n ∈ m_nodes m -> mn_parent n <> None
  | Some l => exists i n, l = n0 + i /\ m_nodes m !! i = Some n /\ mn_parent n = None /\
                forall i' n', i < i' -> m_nodes m !! i' = Some n' -> mn_parent n' <> None
  end.

(** [a] is the last element of [l] with [f a = b]. *)
Definition last_with {A B} (f : A -> B) (l : list A) (b : B) (a : A) : Prop :=
  exists j, l !! j = Some a /\ f a = b /\ forall k a', j < k -> l !! k = Some a' -> f a' <> b.
(** The index tables after decoding [m]: what the message says, and the last entry for
    each uuid and each index if it says several things. *)
Record tables (m : message) (x : hom) : Prop := {
  ta_node : forall u i, hom_node x u = Ok i <-> exists n, last_with mn_uuid (m_nodes m) u n /\ mn_index n = i;
  ta_dim : forall i u, hom_dim x i = Ok u <-> exists n, last_with mn_index (m_nodes m) i n /\ mn_uuid n = u;
  ta_edge : forall u i, hom_edge x u = Ok i <-> exists e, last_with me_uuid (m_edges m) u e /\ me_index e = i;
  ta_depth : forall i u, hom_depth x i = Ok u <-> exists e, last_with me_index (m_edges m) i e /\ me_uuid e = u;
  ta_val : forall u i, hom_val x u = Ok i <-> exists v, last_with mv_uuid (m_values m) u v /\ mv_index v = i;
  ta_ival : forall i u, hom_ival x i = Ok u <-> exists v, last_with mv_index (m_values m) i v /\ mv_uuid v = u;
  ta_counts : cnt_node x = length (m_nodes m) /\ cnt_edges x = length (m_edges m) /\ cnt_values x = length (m_values m) }.
