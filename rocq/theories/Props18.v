(** * Property theorems C74, C75: building whole graphs *)
From Verif Require Import Spec Hierarchy Elements Factory History Samples SpecSample QSample QSample2 QSample3.

(** C74: [lines] are the edges (name, indices of the nodes they join).  If different texts
    have different hashes, then for every clock, even one that stands still, the graph is
    built as described. *)
Theorem C74_graph_built f root nms lines s : reach s -> (forall a b, sha s a = sha s b -> a = b) ->
  NoDup nms -> NoDup (map fst lines) ->
  Forall (fun l => has_char slash (fst l) = false /\ NoDup (snd l) /\ Forall (fun i => i < length nms) (snd l)) lines ->
  exists p ns es s', build_graph f root nms lines s = (Ok (p, ns, es), s') /\ reach s' /\
    ~ exists_in (heap s) p /\ parent_of (heap s') p = None /\ kind_of (heap s') p = Some KNode /\ name_of (heap s') p = root /\
    graph_is (heap s') p nms lines ns es /\
    kept (heap s) (heap s') /\ unmoved (heap s) (heap s') /\ forall l, exists_in (heap s) l -> children (heap s') l = children (heap s) l.
Proof. intros R Hi H1 H2 H3. exact (build_go f root nms lines s R Hi (conj H1 (conj H2 H3))). Qed.
Print Assumptions C74_graph_built.
(** Whatever the names, the hash and the clock: a duplicate identifier is the only way to fail. *)
Theorem C74_only_duplicates f root nms lines s : reach s -> Forall (fun l => Forall (fun i => i < length nms) (snd l)) lines ->
  (exists a s', build_graph f root nms lines s = (Ok a, s')) \/ (exists s', build_graph f root nms lines s = (Exn ErrorDuplicateElement, s')).
Proof. exact (build_cases f root nms lines s). Qed.
Print Assumptions C74_only_duplicates.

(** C75: two of the seven nodes are joined by exactly one of the seven edges, two edges
    meet in exactly one node. *)
Theorem C75_fano_plane ctx c s : reach s -> (forall a b, sha s a = sha s b -> a = b) ->
  exists p ns es s', create_fano_graph ctx c s = (Ok (mkFactory ctx c, p, ns, es), s') /\ reach s' /\
    ~ exists_in (heap s) p /\ parent_of (heap s') p = None /\ kind_of (heap s') p = Some KNode /\ name_of (heap s') p = ctx /\
    graph_is (heap s') p ["0"; "1"; "2"; "3"; "4"; "5"; "6"]
      [("e012", [0; 1; 2]); ("e234", [2; 3; 4]); ("e146", [1; 4; 6]); ("e036", [0; 3; 6]); ("e256", [2; 5; 6]); ("e135", [1; 3; 5]); ("e045", [0; 4; 5])] ns es /\
    projective (heap s') ns es /\
    kept (heap s) (heap s') /\ unmoved (heap s) (heap s') /\ forall l, exists_in (heap s) l -> children (heap s') l = children (heap s) l.
Proof. exact (fano_go ctx c s). Qed.
Print Assumptions C75_fano_plane.
(** The assertion never fails, whatever the hash and the clock. *)
Theorem C75_never_asserts ctx c s : reach s ->
  (exists a s', create_fano_graph ctx c s = (Ok a, s')) \/ (exists s', create_fano_graph ctx c s = (Exn ErrorDuplicateElement, s')).
Proof. exact (fano_cases ctx c s). Qed.
Print Assumptions C75_never_asserts.
