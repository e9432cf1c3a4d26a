(** * Vocabulary: messages that fail *)
From Verif Require Export SpecEnc.

(** The two heaps agree in everything but the contents of value nodes. *)
Definition same_but_values (h h' : list obj) : Prop := forall l, s_vals [] <$> h' !! l = s_vals [] <$> h !! l.
(** All values of [c] can be encoded. *)
Definition encodable_values (h : list obj) (c : loc) : Prop := forall v, v ∈ values_of h c -> forallb encodable (vals_of h v) = true.
(** The icon after calls of full_msg in these states, whether they succeed or fail. *)
Fixpoint after_calls (ss : list st) (g : icon) : icon :=
  match ss with [] => g | s :: ss' => after_calls ss' (snd (full_msg s g)) end.
