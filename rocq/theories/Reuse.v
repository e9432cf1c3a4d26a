(** * Model of a tensor representation object that is used several times
    framework_python/rei/tensor/tensor_representation.py, lines 57-89;
    framework_python/rei/hypergraph/representation/abstract_representations.py, lines 8-12. *)
From Verif Require Export Tensor.
Local Open Scope nat_scope.

(** The fields of a NumpyTensorRepresentation: cnt_node and cnt_edges of
    _current_homomorphism (of the copy only these are read), the three arrays.
    abstract_representations.py, lines 8-12 *)
Record rep := mkRep { rp_cnt : option (nat * nat); rp_T : option tensors }.
Definition rep_new : rep := mkRep None None.

(** synchronize_structure_dimensions, tensor_representation.py lines 57-76: new arrays
    only if one of the counts is not what it was (0 at first) *)
Definition rep_synchronize (p : rep) (x : hom) : rep :=
  let cur := default (0, 0) (rp_cnt p) in
  mkRep (Some (cnt_node x, cnt_edges x))
    (if decide (cnt_node x <> fst cur \/ cnt_edges x <> snd cur) then Some (zeros (cnt_edges x) (cnt_node x)) else rp_T p).

(** fill_weights, lines 84-89, with the arrays as they are when fill_tensors raises *)
Fixpoint fill_some (T : tensors) (l : list (htuple nat)) : res unit * tensors :=
  match l with
  | [] => (Ok tt, T)
  | t :: l' => match fill_tensors T t with Ok T' => fill_some T' l' | Exn e => (Exn e, T) end
  end.
Definition rep_fill (p : rep) (batches : list (list (htuple nat))) : res unit * rep :=
  match concat batches, rp_T p with
  | [], _ => (Ok tt, p)
  | _, None => (Exn TypeError, p)
  | l, Some T => let '(r, T') := fill_some T l in (r, mkRep (rp_cnt p) (Some T'))
  end.

(** A program that does what NumpyHypergraphTensorTransformer.execute does (lines 99-108)
    with a representation [p] that it keeps, instead of a new one (line 102). *)
Definition rep_run (lim : nat) (repr_depth : option nat) (start : loc) (s : st) (p : rep) : res (list unit) * st * rep :=
  match hom_execute lim tensor_conf start s hom0 with
  | (Exn e, s1, _) => (Exn e, s1, p)
  | (Ok tasks, s1, x) =>
      let p1 := rep_synchronize p x in
      match h_execute lim (ident_hom x) sum_norm repr_depth collector start s1 [] with
      | (Exn e, s2, _) => (Exn e, s2, p1)
      | (Ok _, s2, q) =>
          match rep_fill p1 q with
          | (Ok _, p2) => (Ok tasks, s2, p2)
          | (Exn e, p2) => (Exn e, s2, p2)
          end
      end
  end.
