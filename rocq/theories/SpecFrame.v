(** * What an operation may change

    Vocabulary of C77 and C78. *)
From stdpp Require Import relations.
From Verif Require Export History.

(** [a] is the parent or a sub-element of [b]. *)
Definition holds (h : list obj) (a b : loc) : Prop := parent_of h a = Some b \/ b ∈ children h a.
(** Two elements of the same tree: a path of such steps in either direction. *)
Definition same_tree (h : list obj) : loc -> loc -> Prop := rtsc (holds h).

Definition olist {A} (x : option A) : list A := match x with Some a => [a] | None => [] end.
(** The elements an operation is asked to change: the receiver, and the arguments that are
    put somewhere or connected.  (The endpoint of a new relation or port and the element
    that [connect] and [disconnect] name are not among them.) *)
Definition targets (o : op) : list loc :=
  match o with
  | ONew _ _ _ _ _ parent => olist parent
  | ONewRel _ _ _ _ _ _ _ | ONewPort _ _ _ _ | ONewValue _ _ _ _ | ONewSem _ _ _ _ _ => []
  | OAdd p c => [p; c]
  | ORemove p _ _ => [p]
  | ORegister x p => [p; x]
  | ODeregister x => [x]
  | OConnect x _ => [x]
  | ODisconnect x _ => [x]
  | OUnary e n _ _ sem => e :: n :: olist sem
  | OUpdate x | OSetClock x _ | OSetValue x _ _ | OSetValues x _ | OSetAttr x _ _ | ODelAttr x _ => [x]
  | OGenNode _ _ p | OGenNodes _ _ p | OCreateValue _ p _ _ => olist p
  | OHyperedge _ p _ | OSemantic _ _ _ p _ _ => [p]
  | OConnectNodes _ p _ ns _ _ => p :: ns
  | OConnect2 _ p _ ins outs _ _ => p :: ins ++ outs
  end.

(** A sequence of calls (allowed or not, successful or not) whose targets are in [R] or
    were created on the way. *)
Inductive confined (R : loc -> Prop) (s : st) : st -> Prop :=
| cf_nil : confined R s s
| cf_step s1 o : confined R s s1 -> Forall (fun x => R x \/ length (heap s) <= x) (targets o) -> confined R s (snd (exec o s1)).
