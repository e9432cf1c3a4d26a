(** * Property theorems C77, C78: what is not changed *)
From stdpp Require Import relations.
From Verif Require Import Spec Hierarchy Elements Factory History CogniLang Encode Convert SpecFrame QFrame QFrame2.

(** C77: an operation, in any state, allowed or not, successful or not, leaves every element
    that is not in the tree of one of its targets exactly as it was. *)
Theorem C77_other_trees s o l : exists_in (heap s) l -> (forall a, a ∈ targets o -> ~ same_tree (heap s) a l) -> heap (snd (exec o s)) !! l = heap s !! l.
Proof. exact (q_other_trees s o l). Qed.
Print Assumptions C77_other_trees.

(** The same for a generator of removals that is not exhausted ... *)
Theorem C77_generators s p nm u j l : exists_in (heap s) l -> ~ same_tree (heap s) p l -> heap (snd (gen_take j (GNew p nm u) s)) !! l = heap s !! l.
Proof. exact (q_other_trees_gen s p nm u j l). Qed.
Print Assumptions C77_generators.

(** ... for connect_tuple_nodes ... *)
Theorem C77_tuples s f p nm ts l : exists_in (heap s) l -> ~ same_tree (heap s) p l ->
  (forall n d w sv, (n, d, w, sv) ∈ ts -> ~ same_tree (heap s) n l /\ forall x, sv = Some x -> ~ same_tree (heap s) x l) ->
  heap (snd (connect_tuple_nodes f p nm ts s)) !! l = heap s !! l.
Proof. exact (q_other_trees_tuples s f p nm ts l). Qed.
Print Assumptions C77_tuples.

(** ... and for sequences of calls: whole trees [R] and what is created on the way are
    separated from the rest. *)
Theorem C77_histories (R : loc -> Prop) s s' l : (forall a b, R a -> same_tree (heap s) a b -> R b) -> confined R s s' ->
  exists_in (heap s) l -> ~ R l -> heap s' !! l = heap s !! l.
Proof. exact (q_confined R s s' l). Qed.
Print Assumptions C77_histories.

(** C78: reading a description, whether it succeeds or not, leaves every existing element
    exactly as it was; so do the converter ... *)
Theorem C78_load fl rad icon c e s l : exists_in (heap s) l -> heap (snd (load fl rad icon c e s)) !! l = heap s !! l.
Proof. exact (q_load_frame fl rad icon c e s l). Qed.
Print Assumptions C78_load.
Theorem C78_convert fl rad lim c e s r s' l : exists_in (heap s) l -> convert_run fl rad lim c e s r s' -> heap s' !! l = heap s !! l.
Proof. exact (q_convert_frame fl rad lim c e s r s' l). Qed.
Print Assumptions C78_convert.
(** ... and the decoder on any message; *)
Theorem C78_decode m s g r s' g' l : exists_in (heap s) l -> create_graph m s g = (r, s', g') -> heap s' !! l = heap s !! l.
Proof. exact (q_decode_frame m s g r s' g' l). Qed.
Print Assumptions C78_decode.
(** any value message changes only direct sub-elements of the graph decoded last. *)
Theorem C78_updates g us s l : (forall c, ic_context g = Some c -> l ∉ children (heap s) c) -> heap (snd (apply_updates g us s)) !! l = heap s !! l.
Proof. exact (q_updates_frame g us s l). Qed.
Print Assumptions C78_updates.
