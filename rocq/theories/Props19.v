(** * Property theorem C76: descriptions that are converted *)
From stdpp Require Import relations.
From Verif Require Import Spec Hierarchy Elements Factory History CogniLang Convert PHist QCog QExp6 SpecExport SpecCogni.

(** C76: if different texts have different hashes, no two readings of the clock are equal
    and the recursion limit exceeds the number of elements, every exportable description
    is converted: there is a run, and every run ends with the files. *)
Theorem C76_exportable_converted fl rad lim c e s : reach s -> (forall l o, heap s !! l = Some o -> full_name (heap s) l (o_qname o)) ->
  (forall a b, sha s a = sha s b -> a = b) -> (forall k k', clk s c k = clk s c k' -> k = k') ->
  exportable fl rad e -> (forall d s1, load fl rad "cogni_lang_file" c e s = (Ok d, s1) -> length (heap s1) < lim) ->
  (exists files s', convert_run fl rad lim c e s (Ok files) s') /\ forall r s', convert_run fl rad lim c e s r s' -> exists files, r = Ok files.
Proof. intros R N. exact (exportable_converted fl rad lim c e s (conj R N)). Qed.
Print Assumptions C76_exportable_converted.
