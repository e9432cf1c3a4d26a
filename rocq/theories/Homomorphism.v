(** * Index homomorphism

    framework_python/rei/hypergraph/homomorphism_functions.py *)
From Verif Require Export Traverse Elements.

(** One of the three families of maps: counter, uuid to index, index to uuid
    (lines 16-27) *)
Record table := mkTable { tb_cnt : nat; tb_fwd : dict uid nat; tb_bwd : dict nat uid }.
Definition table0 : table := mkTable 0 [] [].
(** The arguments of the constructor (line 11); [hc_depth = None] is math.inf *)
Record homconf := mkHC { hc_ignore : bool; hc_depth : option nat }.
Record hom := mkHom { h_nodes : table; h_edges : table; h_vals : table }.

(** reset_homology, lines 83-95; also the state after __init__, lines 16-27 *)
Definition hom0 : hom := mkHom table0 table0 table0.

(** the body of add_edge_homology (56-63), add_node_homology (65-72) and
    add_value_homology (74-81) *)
Definition add_homology (u : uid) (t : table) : table :=
  let i := tb_cnt t in mkTable (i + 1) (dset u i (tb_fwd t)) (dset i u (tb_bwd t)).
Definition add_node_homology : visitor hom unit := fun s l x =>
  match heap s !! l with
  | Some o => (Ok tt, mkHom (add_homology (o_uuid o) (h_nodes x)) (h_edges x) (h_vals x))
  | None => (Exn BadRef, x)
  end.
Definition add_edge_homology : visitor hom unit := fun s l x =>
  match heap s !! l with
  | Some o => (Ok tt, mkHom (h_nodes x) (add_homology (o_uuid o) (h_edges x)) (h_vals x))
  | None => (Exn BadRef, x)
  end.
Definition add_value_homology : visitor hom unit := fun s l x =>
  match heap s !! l with
  | Some o => (Ok tt, mkHom (h_nodes x) (h_edges x) (add_homology (o_uuid o) (h_vals x)))
  | None => (Exn BadRef, x)
  end.

(** nodes_bfs, edges_bfs, values_bfs, lines 30-36 *)
Definition hom_trav (k : kind -> bool) (cf : homconf) : trav :=
  mkTrav (is_kind k) (hc_depth cf) (hc_ignore cf).

(** execute, lines 97-101, on the object with the maps [x] *)
Definition hom_execute (lim : nat) (cf : homconf) (start : loc) (s : st) (x : hom) : res (list unit) * st * hom :=
  let x := hom0 in
  match execute_bfs lim (hom_trav k_node cf) add_node_homology start s x with
  | (Exn e, s, x) => (Exn e, s, x)
  | (Ok r1, s, x) =>
      match execute_bfs lim (hom_trav k_edge cf) add_edge_homology start s x with
      | (Exn e, s, x) => (Exn e, s, x)
      | (Ok r2, s, x) =>
          match execute_bfs lim (hom_trav k_value cf) add_value_homology start s x with
          | (Exn e, s, x) => (Exn e, s, x)
          | (Ok r3, s, x) => (Ok (r1 ++ r2 ++ r3), s, x)
          end
      end
  end.

(** reset_from_bijection, lines 38-54 *)
Definition put_pair (t : table) (p : uid * nat) : table :=
  mkTable (tb_cnt t + 1) (dset p.1 p.2 (tb_fwd t)) (dset p.2 p.1 (tb_bwd t)).
Definition reset_from_bijection (nodes edges values : list (uid * nat)) (x : hom) : hom :=
  let x := hom0 in
  mkHom (foldl put_pair (h_nodes x) nodes) (foldl put_pair (h_edges x) edges) (foldl put_pair (h_vals x) values).

(** node / edge / val (103, 109, 115) and dim / depth / ival (106, 112, 118) *)
Definition index_of (t : table) (u : uid) : res nat := match dget u (tb_fwd t) with Some i => Ok i | None => Exn KeyError end.
Definition uid_at (t : table) (i : nat) : res uid := match dget i (tb_bwd t) with Some u => Ok u | None => Exn KeyError end.
Definition hom_node (x : hom) := index_of (h_nodes x).
Definition hom_dim (x : hom) := uid_at (h_nodes x).
Definition hom_edge (x : hom) := index_of (h_edges x).
Definition hom_depth (x : hom) := uid_at (h_edges x).
Definition hom_val (x : hom) := index_of (h_vals x).
Definition hom_ival (x : hom) := uid_at (h_vals x).
(** cnt_node, cnt_edges, lines 121-127 *)
Definition cnt_node (x : hom) := tb_cnt (h_nodes x).
Definition cnt_edges (x : hom) := tb_cnt (h_edges x).
Definition cnt_values (x : hom) := tb_cnt (h_vals x).
