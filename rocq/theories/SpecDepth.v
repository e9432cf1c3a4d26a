(** * Vocabulary: tensors after a failed traversal *)
From Verif Require Export SpecCoo.

(** The state after [n] calls of the transformer on [c], whatever they return. *)
Fixpoint after_transforms (n lim : nat) (mx : option nat) (c : loc) (s : st) : st :=
  match n with 0 => s | S n' => after_transforms n' lim mx c (snd (fst (transform lim mx c s))) end.
(** A relation of an edge whose uuid is not that of an edge of [c]. *)
Definition foreign (h : list obj) (c r : loc) : Prop :=
  exists e, r ∈ rels_of h e /\ forall y, y ∈ edges_of h c -> uuid_of h y <> uuid_of h e.
(** Equal arrays. *)
Definition same_arrays (T T' : option tensors) : Prop :=
  match T, T' with
  | None, None => True
  | Some t, Some t' => te_E t = te_E t' /\ te_n t = te_n t' /\ (forall k i j, te_W t k i j = te_W t' k i j) /\
      (forall k i, te_Io t k i = te_Io t' k i) /\ (forall k i, te_Ii t k i = te_Ii t' k i)
  | _, _ => False
  end.
