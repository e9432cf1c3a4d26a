(** * Property theorems C49, C50, C52: value nodes, semantic elements, directions *)
From Verif Require Import Spec SpecTrav Hierarchy Elements Factory History Traverse Mapping SpecVal QVal QVal2.

(** C49: reading, for every state and index *)
Theorem C49_reading s v o i : heap s !! v = Some o ->
  (forall k x, designates (length (o_vals o)) i k -> o_vals o !! k = Some x -> get_value v i s = (Ok x, s)) /\
  ((forall k, ~ designates (length (o_vals o)) i k) -> get_value v i s = (Exn IndexError, s)) /\
  get_values v s = (Ok (o_vals o), s).
Proof. exact (q_C49_read s v o i). Qed.
Print Assumptions C49_reading.
(** ... writing *)
Theorem C49_writing s v o i x : heap s !! v = Some o ->
  (forall k, designates (length (o_vals o)) i k -> exists l' s', update_value v i x s = (Ok tt, s') /\ exchanged (o_vals o) l' k x /\ only_values s s' v l') /\
  ((forall k, ~ designates (length (o_vals o)) i k) -> update_value v i x s = (Exn IndexError, s)) /\
  (forall l', exists s', update_values v l' s = (Ok tt, s') /\ only_values s s' v l').
Proof. exact (q_C49_write s v o i x). Qed.
Print Assumptions C49_writing.
(** ... no other call changes values or attributes of existing elements *)
Theorem C49_only_writes s o l : exists_in (heap s) l -> touches o <> Some l ->
  vals_of (heap (snd (exec o s))) l = vals_of (heap s) l /\ attr_of o_attr (heap (snd (exec o s))) l = attr_of o_attr (heap s) l.
Proof. exact (q_C49_only s o l). Qed.
Print Assumptions C49_only_writes.
(** ... iteration, after any history *)
Theorem C49_iteration s vals v s1 s2 : born s vals v s1 -> history MAny s1 s2 ->
  let d := length (default [] vals) in
  get_values v s1 = (Ok (default [] vals), s1) /\
  exists l, get_values v s2 = (Ok l, s2) /\
    (length l = d -> iter_values v s2 = (Ok l, s2)) /\
    (length l < d -> iter_values v s2 = (Exn IndexError, s2)) /\
    (d < length l -> iter_values v s2 = (Ok (take d l), s2)).
Proof. exact (q_C49_iter s vals v s1 s2). Qed.
Print Assumptions C49_iteration.

(** C50 *)
Theorem C50_known_type f raw nm p attr vs s t c : reach s -> exists_in (heap s) p -> attr <> [] -> (t, c) ∈ type_names -> typed_as raw t ->
  let u := sha s (uid_text (f_name f) nm (clk s (f_clock f) (tick s))) in
  ((forall x, x ∈ children (heap s) p -> uuid_of (heap s) x <> u) /\
     exists el s', generate_semantic_element f raw nm p attr vs s = (Ok el, s') /\ reach s' /\ sem_made s s' p el c nm attr vs) \/
  ((exists x, x ∈ children (heap s) p /\ uuid_of (heap s) x = u) /\
     exists s', generate_semantic_element f raw nm p attr vs s = (Exn ErrorDuplicateElement, s') /\ forall l, exists_in (heap s) l -> heap s' !! l = heap s !! l).
Proof. exact (q_C50_made f raw nm p attr vs s t c). Qed.
Print Assumptions C50_known_type.
(** only the clock is read *)
Theorem C50_unknown_type f raw nm p attr vs s : attr <> [] -> (forall t c, (t, c) ∈ type_names -> ~ typed_as raw t) ->
  generate_semantic_element f raw nm p attr vs s = (Exn InvalidSemanticType, set_tick (S (tick s)) s).
Proof. exact (q_C50_other f raw nm p attr vs s). Qed.
Print Assumptions C50_unknown_type.
Theorem C50_no_attributes f raw nm p vs s : generate_semantic_element f raw nm p [] vs s = (Exn ErrorInsufficientValues, s).
Proof. exact (q_C50_empty f raw nm p vs s). Qed.
Print Assumptions C50_no_attributes.

(** C52 *)
Theorem C52_directions : (forall d, dir_enum_relation (direction_to_text d) = Ok d) /\
  (forall t d, dir_enum_relation t = Ok d <-> t = direction_to_text d) /\
  (forall t, (forall d, t <> direction_to_text d) -> dir_enum_relation t = Exn ErrorInvalidDirection).
Proof. exact q_C52. Qed.
Print Assumptions C52_directions.
