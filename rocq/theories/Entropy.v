(** * Model of the projected entropy
    framework_python/rei/tensor/tensor_representation.py, lines 50-55. *)
From Verif Require Export Tensor.
Local Open Scope nat_scope.

(** numpy.linalg.eig raises LinAlgError for a matrix with an entry that is infinite or not a number. *)
Inductive linalg (A : Type) := LinAlgError | Value (a : A).
Arguments LinAlgError {A}.
Arguments Value {A} a.
(** A number, or nan *)
Notation fnum := (option Qc).
Definition fadd (a b : fnum) : fnum := match a, b with Some x, Some y => Some (x + y)%Qc | _, _ => None end.

(** entropy_projected_vector, lines 50-52.  [eigs] stands for the absolute values of what
    numpy.linalg.eig(...)[0] returns, [lg] for log2 of positive numbers.  A matrix with
    entries that is divided by 0 has only entries that are infinite or nan; log2(0) is -inf,
    and 0 * -inf is nan.  Simplification: exact numbers. *)
Definition entropy_projected_vector (eigs : nat -> (nat -> nat -> Qc) -> list Qc) (lg : Qc -> Qc) (T : tensors) : linalg (list fnum) :=
  if decide (te_n T <> 0 /\ total_deg T = 0%Qc) then LinAlgError
  else Value (map (fun v => if decide (v = 0%Qc) then None else Some (- v * lg v)%Qc)
                  (eigs (te_n T) (fun i j => (projected_laplacian T i j / total_deg T)%Qc))).
(** entropy_projected, lines 54-55 *)
Definition entropy_projected (eigs : nat -> (nat -> nat -> Qc) -> list Qc) (lg : Qc -> Qc) (T : tensors) : linalg fnum :=
  match entropy_projected_vector eigs lg T with
  | LinAlgError => LinAlgError
  | Value v => Value (foldr fadd (Some 0%Qc) v)
  end.
