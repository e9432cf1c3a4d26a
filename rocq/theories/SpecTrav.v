(** * Vocabulary for the traversal properties *)
From Verif Require Export Spec Traverse History.

(** The element exists and the filter accepts it. *)
Definition accepts (f : loc -> obj -> bool) (h : list obj) (l : loc) : bool :=
  match h !! l with Some o => f l o | None => false end.
(** The accepted sub-elements, in insertion order. *)
Definition fkids (f : loc -> obj -> bool) (h : list obj) (l : loc) : list loc :=
  filter (fun c => accepts f h c = true) (children h l).
(** [y] is below [a], and it and everything in between is accepted. *)
Inductive through (f : loc -> obj -> bool) (h : list obj) (a : loc) : loc -> Prop :=
| through_kid y : parent_of h y = Some a -> accepts f h y = true -> through f h a y
| through_step y q : through f h a q -> parent_of h y = Some q -> accepts f h y = true -> through f h a y.

(** Pre-order, sub-elements from last to first, down to [n] levels below. *)
Fixpoint pre {A} (kids : A -> list A) (n : nat) (l : A) : list A :=
  l :: match n with 0 => [] | S n' => flat_map (pre kids n') (rev (kids l)) end.
(** The same without [l] itself: levels 1 to [n] below [l]. *)
Definition pre_below {A} (kids : A -> list A) (n : nat) (l : A) : list A := tail (pre kids n l).

(** [y] is at most [n] steps below [l]. *)
Definition near (kids : loc -> list loc) (n : nat) (l y : loc) : Prop := y ∈ level_order kids (S n) [l].
Global Instance near_dec kids n l y : Decision (near kids n l y).
Proof. unfold near. apply _. Defined.

(** Calling the visitor on the elements of a list, one after the other, until it raises. *)
Fixpoint visit_all {X B} (v : visitor X B) (s : st) (ls : list loc) (x : X) : res (list B) * X :=
  match ls with
  | [] => (Ok [], x)
  | l :: ls' =>
      match v s l x with
      | (Exn e, x') => (Exn e, x')
      | (Ok b, x') => match visit_all v s ls' x' with
                      | (Ok bs, x'') => (Ok (b :: bs), x'')
                      | (Exn e, x'') => (Exn e, x'')
                      end
      end
  end.
(** The start element is visited iff the filter accepts it and the root is not ignored. *)
Definition root_part (t : trav) (h : list obj) (start : loc) : list loc :=
  if accepts (t_filter t) h start && negb (t_ignore t) then [start] else [].
(** The visitor that records the order of the visits. *)
Definition recorder : visitor (list loc) unit := fun _ l x => (Ok tt, x ++ [l]).

(** Histories with completed traversals of any kind. *)
Inductive session : st -> Prop :=
| ses_init ck hf : session (init_st ck hf)
| ses_op s o : session s -> allowed (heap s) o -> session (snd (exec o s))
| ses_bfs X B s lim t (v : visitor X B) start x r s' x' : session s ->
    execute_bfs lim t v start s x = (Ok r, s', x') -> session s'
| ses_dfs X B s lim t (v : visitor X B) start x r s' x' : session s ->
    execute_dfs lim t v start s x = (r, s', x') -> session s'.
