(** * Vocabulary: representations that are used again *)
From Verif Require Export SpecTensor Reuse.

(** A representation after any number of uses, also failed ones, with any depths, in any
    states. *)
Inductive used : rep -> Prop :=
| used_new : used rep_new
| used_run lim d c s p r s' p' : used p -> reach s -> rep_run lim d c s p = (r, s', p') -> used p'.
(** Numbers of direct sub-nodes and sub-edges. *)
Definition sizes (h : list obj) (c : loc) : nat * nat := (length (nodes_of h c), length (edges_of h c)).
(** [T] has the entries that the relations of [c] give, except that where they give 0 it
    has what [T0] has. *)
Definition over (q old : Qc) : Qc := if decide (q = 0%Qc) then old else q.
Definition overlaid (h : list obj) (c : loc) (T0 T : tensors) : Prop :=
  te_E T = length (edges_of h c) /\ te_n T = length (nodes_of h c) /\
  (forall k e i a j b, edges_of h c !! k = Some e -> nodes_of h c !! i = Some a -> nodes_of h c !! j = Some b ->
     te_W T k i j = over (entry_W h e a b) (te_W T0 k i j)) /\
  (forall k e i a, edges_of h c !! k = Some e -> nodes_of h c !! i = Some a ->
     te_Io T k i = over (entry_Io h e a) (te_Io T0 k i) /\ te_Ii T k i = over (entry_Ii h e a) (te_Ii T0 k i)).
(** Where the relations of [c] give 0, [T0] has 0. *)
Definition no_more (h : list obj) (c : loc) (T0 : tensors) : Prop :=
  (forall k e i a j b, edges_of h c !! k = Some e -> nodes_of h c !! i = Some a -> nodes_of h c !! j = Some b ->
     entry_W h e a b = 0%Qc -> te_W T0 k i j = 0%Qc) /\
  (forall k e i a, edges_of h c !! k = Some e -> nodes_of h c !! i = Some a ->
     (entry_Io h e a = 0%Qc -> te_Io T0 k i = 0%Qc) /\ (entry_Ii h e a = 0%Qc -> te_Ii T0 k i = 0%Qc)).

(** Successful uses one after the other, for the graphs of the list. *)
Inductive uses (lim : nat) : rep -> list (st * loc) -> rep -> Prop :=
| uses_none p : uses lim p [] p
| uses_one p l p1 s c r s' p2 : uses lim p l p1 -> reach s -> closed_graph (heap s) c -> work (heap s) c < lim ->
    rep_run lim (Some 1) c s p1 = (Ok r, s', p2) -> uses lim p (l ++ [(s, c)]) p2.
(** The entry by positions. *)
Definition at_W (g : st * loc) (k i j : nat) : Qc :=
  let h := heap (fst g) in
  match edges_of h (snd g) !! k, nodes_of h (snd g) !! i, nodes_of h (snd g) !! j with
  | Some e, Some a, Some b => entry_W h e a b | _, _, _ => 0%Qc end.
Definition last_nonzero (l : list Qc) : Qc := default 0%Qc (last (filter (fun q => q <> 0%Qc) l)).
