(** * Vocabulary for the factorisations *)
From stdpp Require Export relations.
From Verif Require Export SpecTensor Factorization.

(** All pairs, in lexicographic order. *)
Definition all_pairs {A B} (xs : list A) (ys : list B) : list (A * B) := flat_map (fun x => map (pair x) ys) xs.
(** Keep the first occurrence of every entry. *)
Fixpoint firsts (l : list uid) : list uid :=
  match l with [] => [] | x :: l' => x :: filter (fun y => y <> x) (firsts l') end.

(** The endpoints exist and their uuids differ, unless self loops are wanted. *)
Definition no_loop (h : list obj) (self_loop : bool) (p : loc * loc) : Prop :=
  match ep_of h p.1, ep_of h p.2 with
  | Some a, Some b => self_loop = true \/ uuid_of h a <> uuid_of h b
  | _, _ => False
  end.
(** The endpoint of [r] is a selected node. *)
Definition ep_selected (h : list obj) (sel : list loc) (r : loc) : Prop :=
  match ep_of h r with Some a => a ∈ sel /\ kind_of h a = Some KNode | None => False end.
Global Instance no_loop_dec h b p : Decision (no_loop h b p).
Proof. unfold no_loop. destruct (ep_of h p.1), (ep_of h p.2); apply _. Defined.
Global Instance ep_selected_dec h sel r : Decision (ep_selected h sel r).
Proof. unfold ep_selected. destruct (ep_of h r); apply _. Defined.
Global Instance inward_dec h r : Decision (inward h r).
Proof. unfold inward. apply _. Defined.
Global Instance outward_dec h r : Decision (outward h r).
Proof. unfold outward. apply _. Defined.
(** C38: an incoming and an outgoing relation. *)
Definition admissible (h : list obj) (sel : list loc) (self_loop : bool) (p : loc * loc) : Prop :=
  inward h p.1 /\ outward h p.2 /\ ep_selected h sel p.1 /\ ep_selected h sel p.2 /\ no_loop h self_loop p.
Global Instance admissible_dec h sel b p : Decision (admissible h sel b p).
Proof. unfold admissible. apply _. Defined.
Definition selected (h : list obj) (k : kind) (sel : list loc) : list loc := filter (fun l => kind_of h l = Some k) sel.

(** C39: the uuid of the container; every selected relation has a container and an endpoint. *)
Definition puuid (h : list obj) (r : loc) : uid := match parent_of h r with Some p => uuid_of h p | None => "" end.
Definition rels_complete (h : list obj) (sel : list loc) : Prop :=
  forall r, r ∈ sel -> kind_of h r = Some KRel -> is_Some (parent_of h r) /\ is_Some (ep_of h r).
Definition purely_out (h : list obj) (r : loc) : Prop := dir_of h r = Some OUTWARDS.
Global Instance purely_out_dec h r : Decision (purely_out h r).
Proof. unfold purely_out. apply _. Defined.
(** Every container with a selected incoming relation has a selected OUTWARDS one. *)
Definition balanced (h : list obj) (sel : list loc) : Prop :=
  forall r, r ∈ selected h KRel sel -> inward h r -> exists r', r' ∈ selected h KRel sel /\ purely_out h r' /\ puuid h r' = puuid h r.

(** The pairs, container by container in the order of their first incoming relation. *)
Definition rel_pairs (h : list obj) (b : bool) (R : list loc) : list (loc * loc) :=
  flat_map (fun k => filter (no_loop h b) (all_pairs (filter (fun r => inward h r /\ puuid h r = k) R) (filter (fun r => purely_out h r /\ puuid h r = k) R)))
    (firsts (map (puuid h) (filter (inward h) R))).

(** C56: where a walk goes next: from a node to its sub-edges, from an edge to the
    endpoints of its outgoing relations. *)
Definition walk_next (h : list obj) (i : option loc) : list (option loc) :=
  match i with
  | None => []
  | Some l =>
      match kind_of h l with
      | Some KNode => map Some (edges_of h l)
      | Some KEdge => map (ep_of h) (filter (outward h) (rels_of h l))
      | _ => []
      end
  end.
(** What the visit of an item contributes. *)
Definition contributes (h : list obj) (i : option loc) : list (loc * list loc) :=
  match i with
  | Some l => match kind_of h l with
              | Some KEdge => map (fun r => (r, filter (outward h) (rels_of h l))) (filter (inward h) (rels_of h l))
              | _ => []
              end
  | None => []
  end.
(** The item [j] can be reached from [i] in one or more steps. *)
Definition walk_step (h : list obj) (i j : option loc) : Prop := j ∈ walk_next h i.
