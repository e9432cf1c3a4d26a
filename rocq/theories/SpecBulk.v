(** * Vocabulary for C80 *)
From Verif Require Export Spec Hierarchy Bulk History.

(** Adding one element after the other, until one is refused. *)
Fixpoint one_by_one (p : loc) (xs : list loc) (s : st) : res unit * st :=
  match xs with
  | [] => (Ok tt, s)
  | x :: xs' => match add_element p x s with
                | (Ok _, s') => one_by_one p xs' s'
                | r => r
                end
  end.
(** The elements can be put into [p]: they exist, none contains [p], none is in an edge or a
    relation, and no two of them, nor one of them and a sub-element of [p], have the same uuid. *)
Definition can_join (h : list obj) (p : loc) (xs : list loc) : Prop :=
  (forall x, x ∈ xs -> exists_in h x /\ ~ within h x p /\ removable h x) /\
  NoDup (map (uuid_of h) (children h p ++ xs)).
(** Rounds of the task of add_elements with any operations of other tasks before, between and
    after them; the added elements are allowed arguments at the time of the round. *)
Inductive interleaved (p : loc) : add_task -> st -> add_task -> st -> Prop :=
| il_end t s : interleaved p t s t s
| il_other t s s1 t' s' : history MAny s s1 -> interleaved p t s1 t' s' -> interleaved p t s t' s'
| il_round t s t1 s1 t' s' : (forall x xs, t = AtPending (x :: xs) -> add_ok (heap s) p x) ->
    add_round p t s = (t1, s1) -> interleaved p t1 s1 t' s' -> interleaved p t s t' s'.
