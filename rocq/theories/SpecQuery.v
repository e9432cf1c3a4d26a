(** * Vocabulary for the query engine *)
From Verif Require Export SpecTrav QueryEngine.

(** What a query looks at: nodes, edges, relations and semantic values (no ports, no
    plain values) that its traversal statement accepts *)
Definition q_sees (q : query) (x : loc) (o : obj) : bool :=
  match o_kind o with KNode | KEdge | KRel | KSem _ => true | KItem | KElem | KValue | KPort => false end && q_stmt q x o.
Lemma q_sees_filter q : q_sees q = q_filter q.
Proof. reflexivity. Qed.
(** [x] is the start or below it, it and everything in between looked at *)
Definition q_visits (h : list obj) (q : query) (x : loc) : Prop :=
  (x = q_start q /\ accepts (q_sees q) h x = true) \/ through (q_sees q) h (q_start q) x.
Definition q_matches (s : st) (q : query) (x : loc) : Prop := q_prep q s x = Ok true.
Global Instance q_matches_dec s q x : Decision (q_matches s q x).
Proof. unfold q_matches. destruct (q_prep q s x) as [[]|]; [left|right|right]; done. Defined.
(** Nothing is waiting: all coroutines ran, the result was fetched *)
Definition idle (q : query) : Prop := (forall t, t ∈ q_tasks q -> t.2 = true) /\ q_result q = [].
Definition same_def (q q' : query) : Prop := q_start q' = q_start q /\ q_prep q' = q_prep q /\ q_stmt q' = q_stmt q.
(** The recursion limit allows the traversal *)
Definition fits (h : list obj) (lim : nat) (q : query) : Prop :=
  forall ls, NoDup ls -> (forall x, x ∈ ls -> q_visits h q x) -> length ls < lim.
(** The coroutines that did not run yet *)
Definition waiting (q : query) : list loc := map fst (filter (fun t => t.2 = false) (q_tasks q)).
(** how often a query occurs in the engine *)
Definition times (i : nat) (is : list nat) : nat := length (filter (fun j => j = i) is).
(** [part] lists, each once, the elements visited by query [i] that satisfy its preposition *)
Definition part_of (s : st) (qs : list query) (i : nat) (part : list loc) : Prop :=
  exists q, qs !! i = Some q /\ NoDup part /\ forall x, x ∈ part <-> q_visits (heap s) q x /\ q_matches s q x.
(** More elements below the start than the interpreter has calls: the execution cannot finish *)
Definition too_big (h : list obj) (lim : nat) (q : query) : Prop :=
  exists ls, NoDup ls /\ lim <= length ls /\ forall x, x ∈ ls -> through (q_sees q) h (q_start q) x.
(** What an execution that failed after visiting [seen] has put into the queue and not visited *)
Definition pending (h : list obj) (q : query) (seen : list loc) (l : loc) : Prop :=
  through (q_sees q) h (q_start q) l /\ l ∉ seen /\ exists p, parent_of h l = Some p /\ (p = q_start q \/ p ∈ seen).
