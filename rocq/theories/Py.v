(** * Python runtime fragments used by the model

    Exceptions as values, insertion-ordered dictionaries, the few string
    functions the code calls. *)
From Coq Require Export String Ascii QArith.Qcanon.
From stdpp Require Export prelude pretty strings list.
Global Open Scope string_scope.
Global Open Scope list_scope.
Global Open Scope nat_scope.

(** Exceptions that the modelled functions can raise.
    framework_python/rei/foundations/common_errors.py:1-22,
    framework_python/rei/format/mapping/cognilang_mapping_errors.py,
    framework_python/rei/factories/foundation_factory.py,
    and the builtin ones.  [BadRef] (a dangling location) and [Diverges]
    (an endless loop) exist in the model only. *)
Inductive exn :=
| ErrorRecursiveHierarchy | ErrorDuplicateElement | ErrorInvalidQuery
| ErrorClockNotSet | InvalidQueryName
| ErrorInsufficientValues | InvalidSemanticType | ErrorInvalidDirection
| ErrorParentNotSet
| KeyError | AttributeError | TypeError | ValueError | IndexError
| ZeroDivisionError | RecursionError | RuntimeError | StopIteration
| AssertionError | UserError (n : nat)
| BadRef | Diverges.

Global Instance exn_eq_dec : EqDecision exn.
Proof. solve_decision. Defined.

Inductive res (A : Type) := Ok (a : A) | Exn (e : exn).
Arguments Ok {A} a.
Arguments Exn {A} e.

(** ** Ordered dictionaries (CPython [dict])

    Association lists in insertion order.  [dset] on a present key keeps the
    position, on a new key appends; [ddel] removes. *)
Notation dict K V := (list (K * V)) (only parsing).

Section dict.
  Context {K V : Type} `{EqDecision K}.

  Fixpoint dget (k : K) (d : list (K * V)) : option V :=
    match d with
    | [] => None
    | (k', v) :: d' => if decide (k = k') then Some v else dget k d'
    end.

  Fixpoint dset (k : K) (v : V) (d : list (K * V)) : list (K * V) :=
    match d with
    | [] => [(k, v)]
    | (k', v') :: d' =>
        if decide (k = k') then (k', v) :: d' else (k', v') :: dset k v d'
    end.

  Fixpoint ddel (k : K) (d : list (K * V)) : list (K * V) :=
    match d with
    | [] => []
    | (k', v') :: d' =>
        if decide (k = k') then d' else (k', v') :: ddel k d'
    end.

  Definition dkeys (d : list (K * V)) : list K := map fst d.
  Definition dvals (d : list (K * V)) : list V := map snd d.
End dict.

(** ** Strings *)

(** ['sep'.join(l)] *)
Fixpoint join (sep : string) (l : list string) : string :=
  match l with
  | [] => ""
  | [x] => x
  | x :: l' => x +:+ sep +:+ join sep l'
  end.

(** [s.split(c)] for a one-character separator; never returns []. *)
Fixpoint split_on (c : ascii) (s : string) : list string :=
  match s with
  | EmptyString => [""]
  | String a s' =>
      if decide (a = c) then "" :: split_on c s'
      else match split_on c s' with
           | [] => [String a ""]
           | x :: l => String a x :: l
           end
  end.

(** [c in s] for one character *)
Fixpoint has_char (c : ascii) (s : string) : bool :=
  match s with
  | EmptyString => false
  | String a s' => bool_decide (a = c) || has_char c s'
  end.

Definition slash : ascii := "/"%char.
Definition dot : ascii := "."%char.
Definition underscore : ascii := "_"%char.

(** [str(n)] for an [int] *)
Definition str_of_Z (z : Z) : string := pretty z.
