(** * Non-vacuity of C26 - C29, C55 (the graph [s1] of Ex1.v) *)
From Verif Require Import Spec SpecTrav Hierarchy Elements Factory History Traverse ExBase Ex1.

Definition any : loc -> obj -> bool := fun _ _ => true.
Definition only_nodes : loc -> obj -> bool := fun _ o => bool_decide (o_kind o = KNode).
Example c26_run : (execute_bfs 50 (mkTrav any None false) recorder 0 s1 []).2 = [0; 1; 2; 5; 3; 7; 6; 8; 4; 9; 10] /\
  (execute_bfs 50 (mkTrav only_nodes None true) recorder 0 s1 []).2 = [1; 2; 3; 4].
Proof. vm_compute. repeat split. Qed.
Example c27_run : (execute_dfs 50 (mkTrav any None false) recorder 0 s1 []).2 = [0; 5; 8; 6; 2; 1; 7; 3; 9; 4; 10].
Proof. vm_compute. reflexivity. Qed.
Example c28_run : (execute_bfs 50 (mkTrav any (Some 2) true) recorder 0 s1 []).2 = [1; 2; 5; 3; 7; 6; 8] /\
  (execute_dfs 50 (mkTrav any (Some 2) true) recorder 0 s1 []).2 = [5; 8; 6; 2; 1; 7; 3].
Proof. vm_compute. repeat split. Qed.
(** C29: the visitor raises at 5 *)
Definition failing : visitor (list loc) unit := fun _ l x => if decide (l = 5) then (Exn (UserError 0), x) else (Ok tt, x ++ [l]).
Definition sf : st := (execute_bfs 50 (mkTrav any None false) failing 0 s1 []).1.2.
Example c29_run : (execute_bfs 50 (mkTrav any None false) failing 0 s1 []).1.1 = Exn (UserError 0) /\ map fst (fr_hier sf) = [3; 7; 6; 8].
Proof. vm_compute. repeat split. Qed.
(** a traversal that starts at 4, for nodes only, and only one level deep *)
Example c29_next : (execute_bfs 50 (mkTrav only_nodes (Some 1) true) recorder 4 sf []).2 = [3; 7; 6; 8] /\
  (execute_bfs 50 (mkTrav only_nodes (Some 1) true) recorder 4 s1 []).2 = [].
Proof. vm_compute. repeat split. Qed.
Example c29_hyp : forallb (fun i => i.1 <? length (heap sf)) (fr_hier sf) = true.
Proof. vm_compute. reflexivity. Qed.
(** C55: room for four calls *)
Example c55_run : let r := execute_bfs 4 (mkTrav any None false) recorder 0 s1 [] in
  r.1.1 = Exn RecursionError /\ r.2 = [0; 1; 2; 5; 3] /\ map fst (fr_hier r.1.2) = [7; 6; 8; 4; 9].
Proof. vm_compute. repeat split. Qed.
