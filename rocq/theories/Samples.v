(** * The sample graph

    framework_python/rei/hypergraph/sample_graphs/fano_graph.py *)
From Verif Require Export Factory.

(** [for n in __node_list: assert n.uuid not in __uuid_set; __uuid_set.add(n.uuid)],
    fano_graph.py:10-13 *)
Fixpoint check_uuids (seen : list uid) (ns : list loc) : M unit :=
  match ns with
  | [] => ret tt
  | n :: ns' =>
      let! o := deref n in
      if decide (o_uuid o ∈ seen) then raise AssertionError else check_uuids (o_uuid o :: seen) ns'
  end.

(** [__factory.connect_nodes(__n0, nm, [__node_list[i] for i in is])]: default direction
    and values, foundation_factory.py:38-40 *)
Definition connect_line (f : factory) (n0 : loc) (ns : list loc) (l : string * list nat) : M loc :=
  let! xs := map_m (fun i => of_opt IndexError (ns !! i)) (snd l) in
  connect_nodes f n0 (fst l) xs BIDIRECTIONAL None.

(** fano_graph.py:15-21 *)
Definition fano_lines : list (string * list nat) :=
  [("e012", [0; 1; 2]); ("e234", [2; 3; 4]); ("e146", [1; 4; 6]); ("e036", [0; 3; 6]); ("e256", [2; 5; 6]); ("e135", [1; 3; 5]); ("e045", [0; 4; 5])].

(** create_fano_graph, fano_graph.py:5-22.  The factory is part of the result. *)
Definition create_fano_graph (context_name : string) (c : clockid) : M (factory * loc * list loc * list loc) :=
  let f := mkFactory context_name c in
  let! n0 := generate_node f context_name None in
  let! ns := generate_list_nodes f (map (fun x => str_of_Z (Z.of_nat x)) (seq 0 7)) (Some n0) in
  check_uuids [] ns ;;
  let! es := map_m (connect_line f n0 ns) fano_lines in
  ret (f, n0, ns, es).
