(** * Tensor representation

    framework_python/rei/tensor/tensor_representation.py,
    framework_python/rei/hypergraph/representation/abstract_representations.py

    Simplifications: exact rational numbers instead of floats; an array is its
    dimensions and a function on indices; [np.float] is taken to exist. *)
From Coq Require Import QArith.
From Verif Require Export HTraverse.
Local Open Scope nat_scope.

Record tensors := mkTen {
  te_E : nat; te_n : nat; (* shapes (E, n, n) and (E, n) *)
  te_W : nat -> nat -> nat -> Qc;
  te_Io : nat -> nat -> Qc;
  te_Ii : nat -> nat -> Qc }.
(** lines 74-76 *)
Definition zeros (E n : nat) : tensors := mkTen E n (fun _ _ _ => 0%Qc) (fun _ _ => 0%Qc) (fun _ _ => 0%Qc).

(** synchronize_structure_dimensions on a fresh object, lines 57-76: no arrays if
    both counts are 0 *)
Definition synchronize (x : hom) : option tensors :=
  if decide (cnt_node x = 0 /\ cnt_edges x = 0) then None else Some (zeros (cnt_edges x) (cnt_node x)).

(** fill_tensors, lines 78-82, called from fill_weights, 84-89, with [i_n1] and
    [i_n0] exchanged: the entry is W[e, tuple[0], tuple[1]] *)
Definition fill_tensors (T : tensors) (tu : htuple nat) : res tensors :=
  let e := tu_e tu in let a := tu_0 tu in let b := tu_1 tu in let w := tu_w tu in
  if (e <? te_E T) && (a <? te_n T) && (b <? te_n T) then
    Ok (mkTen (te_E T) (te_n T)
         (fun e' i j => if decide (e' = e /\ i = a /\ j = b) then w else te_W T e' i j)
         (fun e' i => if decide (e' = e /\ i = a) then w else te_Io T e' i)
         (fun e' j => if decide (e' = e /\ j = b) then w else te_Ii T e' j))
  else Exn IndexError.
(** fill_weights, lines 84-89: drain the queue of batches *)
Fixpoint fill_all (T : tensors) (l : list (htuple nat)) : res tensors :=
  match l with
  | [] => Ok T
  | t :: l' => match fill_tensors T t with Ok T' => fill_all T' l' | Exn e => Exn e end
  end.
Definition fill_weights (T : option tensors) (batches : list (list (htuple nat))) : res (option tensors) :=
  match concat batches, T with
  | [], _ => Ok T
  | _, None => Exn TypeError
  | l, Some T' => match fill_all T' l with Ok T'' => Ok (Some T'') | Exn e => Exn e end
  end.

(** the visitor [lambda x: q.put(x)], line 105 *)
Definition collector : hvisitor nat (list (list (htuple nat))) unit := fun b q => (Ok tt, q ++ [b]).
Definition tensor_conf : homconf := mkHC true (Some 1).
(** NumpyHypergraphTensorTransformer.execute, lines 99-108 (repr_depth: 94-97): the representation
    that the object has afterwards is the last component (None: never assigned).
    A representation whose filling failed is not described further. *)
Definition transform (lim : nat) (repr_depth : option nat) (start : loc) (s : st) : res (list unit) * st * option (hom * option tensors) :=
  match hom_execute lim tensor_conf start s hom0 with
  | (Exn e, s1, _) => (Exn e, s1, None)
  | (Ok tasks, s1, x) =>
      let T := synchronize x in
      match h_execute lim (ident_hom x) sum_norm repr_depth collector start s1 [] with
      | (Exn e, s2, _) => (Exn e, s2, Some (x, T))
      | (Ok _, s2, q) =>
          match fill_weights T q with
          | Ok T' => (Ok tasks, s2, Some (x, T'))
          | Exn e => (Exn e, s2, Some (x, T))
          end
      end
  end.

(** ** Derived quantities *)
Definition qsum (n : nat) (f : nat -> Qc) : Qc := qsum_list (map f (seq 0 n)).
Definition b2q (b : bool) : Qc := if b then 1%Qc else 0%Qc.
(** degree_matrix, lines 17-19 *)
Definition degree_matrix (T : tensors) (i : nat) : Qc :=
  let coeff := (1 / (b2q (forallb (fun e => bool_decide (te_Io T e i = te_Ii T e i)) (seq 0 (te_E T))) + 1))%Qc in
  ((qsum (te_E T) (fun e => te_Io T e i) + qsum (te_E T) (fun e => te_Ii T e i)) * coeff)%Qc.
Definition qdiag (f : nat -> Qc) (i j : nat) : Qc := if decide (i = j) then f i else 0%Qc.
(** diag_degree_matrix, lines 21-22 *)
Definition diag_degree_matrix (T : tensors) : nat -> nat -> Qc := qdiag (degree_matrix T).
(** calc_total_deg, lines 24-25 *)
Definition total_deg (T : tensors) : Qc := qsum (te_n T) (degree_matrix T).
(** calc_projected_laplacian, lines 30-31 *)
Definition projected_laplacian (T : tensors) (i j : nat) : Qc :=
  (diag_degree_matrix T i j - qsum (te_E T) (fun e => te_W T e i j))%Qc.
(** diag_degree_tensor, lines 33-37; apply_along_axis refuses an empty first axis *)
Definition col_sum (T : tensors) (e j : nat) : Qc := qsum (te_n T) (fun i => te_W T e i j).
Definition row_sum (T : tensors) (e i : nat) : Qc := qsum (te_n T) (fun j => te_W T e i j).
Definition diag_degree_tensor (T : tensors) : res (nat -> nat -> nat -> Qc) :=
  if te_E T =? 0 then Exn ValueError
  else
    let coeff e := qdiag (fun j => (1 / (b2q (bool_decide (col_sum T e j = row_sum T e j)) + 1))%Qc) in
    let dd e := qdiag (col_sum T e) in
    Ok (fun e i j => qsum (te_n T) (fun k => (dd e i k * coeff e k j)%Qc)).
(** calc_laplacian, lines 27-28 *)
Definition laplacian (T : tensors) : res (nat -> nat -> nat -> Qc) :=
  match diag_degree_tensor T with
  | Ok DD => Ok (fun e i j => (DD e i j - te_W T e i j)%Qc)
  | Exn e => Exn e
  end.
(** calc_normalized_laplacian, lines 39-41, for an arbitrary square root function
    (division by a vector works along the last axis) *)
Definition normalized_laplacian (sqrt : Qc -> Qc) (T : tensors) : res (nat -> nat -> nat -> Qc) :=
  if te_E T =? 1 then Exn ZeroDivisionError
  else match laplacian T with
       | Exn e => Exn e
       | Ok L => Ok (fun e i j => (1 / (Q2Qc (inject_Z (Z.of_nat (te_E T) - 1))) * L e i j / sqrt (degree_matrix T j + 1))%Qc)
       end.
(** entropy_vector, lines 43-45, for an arbitrary function d |-> nan_to_num(log2 d) *)
Definition entropy_vector (sqrt lg : Qc -> Qc) (T : tensors) : res (nat -> nat -> Qc) :=
  match normalized_laplacian sqrt T with
  | Exn e => Exn e
  | Ok N => Ok (fun e i => (- N e i i * lg (N e i i))%Qc)
  end.
(** entropy, lines 47-48 *)
Definition entropy (sqrt lg : Qc -> Qc) (T : tensors) : res Qc :=
  match entropy_vector sqrt lg T with
  | Exn e => Exn e
  | Ok V => Ok (qsum (te_E T) (fun e => qsum (te_n T) (V e)))
  end.
