(** * Property theorem C73: descriptions that are accepted *)
From stdpp Require Import relations.
From Verif Require Import Spec Hierarchy Elements Factory History CogniLang PHist QCog QCog8 QGo6 SpecCogni SpecScope.

(** C73: if different texts have different hashes and no two readings of the clock are
    equal, every description whose numbers can be read and whose references can be
    resolved in the order of the text is accepted; a new root element shows its meaning. *)
Theorem C73_resolvable_accepted fl rad icon c e s : reach s -> (forall l o, heap s !! l = Some o -> full_name (heap s) l (o_qname o)) ->
  (forall a b, sha s a = sha s b -> a = b) -> (forall k k', clk s c k = clk s c k' -> k = k') -> resolvable fl rad e ->
  exists d s' root t, load fl rad icon c e s = (Ok d, s') /\ ld_root d = Some root /\ meaning fl rad e = Some t /\
    ~ exists_in (heap s) root /\ parent_of (heap s') root = None /\ view (heap s') root t.
Proof.
  intros R N H1 H2 Hr. destruct (load_go fl rad icon c e s (conj R N) H1 H2 Hr) as (d & s' & E & _).
  destruct (load_meaning fl rad icon c e s d s' (conj R N) E) as (root & t & X1 & X2 & X3 & X4 & X5 & _). exists d, s', root, t. exact (conj E (conj X1 (conj X2 (conj X3 (conj X4 X5))))).
Qed.
Print Assumptions C73_resolvable_accepted.
