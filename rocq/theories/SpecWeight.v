(** * Vocabulary: undirected graphs with weights *)
From Verif Require Export SpecTensor SpecRecv SpecLap SpecEntropy.

(** The amount of the last relation of [e], among those that satisfy [P], whose amount is not 0. *)
Definition last_amount (h : list obj) (e : loc) (P : loc -> Prop) `{!forall r, Decision (P r)} : Qc :=
  default 0%Qc (last (filter (fun q => q <> 0%Qc) (map (amount h) (filter P (rels_of h e))))).
(** Of all relations *)
Definition edge_amount (h : list obj) (e : loc) : Qc := last_amount h e (fun _ => True).
(** Of the relations to [a] or [b] *)
Definition pair_amount (h : list obj) (e a b : loc) : Qc := last_amount h e (fun r => ep_of h r = Some a \/ ep_of h r = Some b).
