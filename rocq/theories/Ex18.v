(** * Non-vacuity of C74, C75 *)
From Verif Require Import Spec Hierarchy Elements Factory History Samples SpecSample PReach ExBase Ex1 Ex3 Props18.
Local Open Scope nat_scope.

(** C74: a triangle with a loop-free hyperedge, in the state of Ex1, with a clock that stands still *)
Definition lines18 : list (string * list nat) := [("ab", [0; 1]); ("bc", [1; 2]); ("all", [2; 0; 1]); ("none", [])].
Example ex_built : exists p ns es s', build_graph (mkFactory "g" 7) "triangle" ["a"; "b"; "c"] lines18 s1 = (Ok (p, ns, es), s') /\ graph_is (heap s') p ["a"; "b"; "c"] lines18 ns es.
Proof.
  destruct (C74_graph_built (mkFactory "g" 7) "triangle" ["a"; "b"; "c"] lines18 s1 s1_reach c21_hyp) as (p & ns & es & s' & E & _ & _ & _ & _ & _ & G & _).
  - apply (bool_decide_eq_true_1 _). vm_compute. reflexivity.
  - apply (bool_decide_eq_true_1 _). vm_compute. reflexivity.
  - repeat (constructor; [split; [vm_compute; reflexivity|split; [apply (bool_decide_eq_true_1 _); vm_compute; reflexivity|repeat (constructor; [cbn; lia|]); constructor]]|]). constructor.
  - exists p, ns, es, s'. exact (conj E G).
Qed.
(** ... and a failure: two edges with one name while the clock stands still *)
Definition sc18 : st := init_st (fun _ _ => 0%Z) (fun x => x).
Example ex_dup : fst (build_graph (mkFactory "g" 7) "r" ["a"; "b"] [("e", [0]); ("e", [1])] sc18) = Exn ErrorDuplicateElement.
Proof. vm_compute. reflexivity. Qed.
(** C75 *)
Example ex_fano : exists p ns es s', create_fano_graph "fano" 7 s1 = (Ok (mkFactory "fano" 7, p, ns, es), s') /\ projective (heap s') ns es.
Proof. destruct (C75_fano_plane "fano" 7 s1 s1_reach c21_hyp) as (p & ns & es & s' & E & _ & _ & _ & _ & _ & _ & G & _). exists p, ns, es, s'. exact (conj E G). Qed.
(** a hash that maps everything to one identifier *)
Example ex_fano_collision : fst (create_fano_graph "fano" 7 (init_st (fun _ n => Z.of_nat n) (fun _ => ""))) = Exn ErrorDuplicateElement.
Proof. vm_compute. reflexivity. Qed.
