(** * Property theorems C88: nothing dangling is accepted *)
From stdpp Require Import relations.
From Verif Require Import Spec Hierarchy Elements Factory History CogniLang PHist QCog QCog8 QGo6 QBound3 QBound4 SpecCogni SpecScope SpecBound.

(** C88: every description that is accepted has all its references bound, whatever the
    clocks, hashes and the elements that exist already. *)
Theorem C88_accepted_bound fl rad icon c e s d s' : reach s -> (forall l o, heap s !! l = Some o -> full_name (heap s) l (o_qname o)) ->
  load fl rad icon c e s = (Ok d, s') -> bound fl rad e.
Proof. intros R N E. exact (load_bound fl rad icon c e s d s' (conj R N) E). Qed.
(** ... so a description with a dangling reference, or with two references of a joint to
    namesakes, raises. *)
Theorem C88_dangling_rejected fl rad icon c e s : reach s -> (forall l o, heap s !! l = Some o -> full_name (heap s) l (o_qname o)) ->
  ~ bound fl rad e -> exists ex s', load fl rad icon c e s = (Exn ex, s').
Proof.
  intros R N Hb. destruct (load fl rad icon c e s) as [[d|ex] s'] eqn:E; [|exists ex, s'; reflexivity].
  destruct (Hb (load_bound fl rad icon c e s d s' (conj R N) E)).
Qed.
(** For descriptions with plain references the two directions meet: if different texts
    have different hashes and no two readings of the clock are equal, exactly the
    resolvable descriptions are accepted. *)
Theorem C88_exactly_resolvable fl rad icon c e s : reach s -> (forall l o, heap s !! l = Some o -> full_name (heap s) l (o_qname o)) ->
  (forall a b, sha s a = sha s b -> a = b) -> (forall k k', clk s c k = clk s c k' -> k = k') -> plainly e ->
  (exists d s', load fl rad icon c e s = (Ok d, s')) <-> resolvable fl rad e.
Proof.
  intros R N H1 H2 P. split.
  - intros (d & s' & E). exact (plainly_resolvable fl rad e P (load_bound fl rad icon c e s d s' (conj R N) E)).
  - intros Hr. destruct (load_go fl rad icon c e s (conj R N) H1 H2 Hr) as (d & s' & E & _). exists d, s'. exact E.
Qed.
Print Assumptions C88_accepted_bound.
Print Assumptions C88_dangling_rejected.
Print Assumptions C88_exactly_resolvable.
