(** * Vocabulary of the property statements

    Nothing here refers to the operations of the model: only to the attributes a
    user can read ([parent], sub-elements, names). *)
From Verif Require Export Heap.

(** Readable attributes of the element at [l]. *)
Definition attr_of {A} (f : obj -> A) (h : list obj) (l : loc) : option A := f <$> h !! l.
Definition parent_of (h : list obj) (l : loc) : option loc := h !! l ≫= o_parent.
Definition name_of (h : list obj) (l : loc) : string := default "" (o_name <$> h !! l).
Definition uuid_of (h : list obj) (l : loc) : uid := default "" (o_uuid <$> h !! l).
Definition kind_of (h : list obj) (l : loc) : option kind := o_kind <$> h !! l.
Definition exists_in (h : list obj) (l : loc) : Prop := is_Some (h !! l).
(** The sub-elements in insertion order. *)
Definition children (h : list obj) (l : loc) : list loc :=
  match h !! l with Some o => map snd (o_subs o) | None => [] end.

(** [a] is a proper ancestor of [l]. *)
Inductive ancestor (h : list obj) : loc -> loc -> Prop :=
| anc_parent a l : parent_of h l = Some a -> ancestor h a l
| anc_up a q l : parent_of h l = Some q -> ancestor h a q -> ancestor h a l.

(** [x] lies in the subtree of [a] (including [a] itself). *)
Definition within (h : list obj) (a x : loc) : Prop := x = a \/ ancestor h a x.

(** [ls] is the chain [l; parent; grandparent; ...; root]. *)
Inductive path (h : list obj) : loc -> list loc -> Prop :=
| path_root l : exists_in h l -> parent_of h l = None -> path h l [l]
| path_step l q ls : exists_in h l -> parent_of h l = Some q -> path h q ls -> path h l (l :: ls).

(** The qualified name an element should have: names from the root, joined by '/'. *)
Definition full_name (h : list obj) (l : loc) (q : string) : Prop :=
  exists ls, path h l ls /\ q = join "/" (rev (map (name_of h) ls)).

(** Everything except the two attributes that [update()] recomputes. *)
Definition bare (o : obj) : obj := s_qname "" (s_time 0%Z o).

(** ** Level order

    [level kids n xs]: the elements [n] steps below [xs], siblings in order;
    [level_order kids n xs]: levels [0 .. n-1] one after the other. *)
Fixpoint level {A} (kids : A -> list A) (n : nat) (xs : list A) : list A :=
  match n with
  | 0 => xs
  | S n' => flat_map kids (level kids n' xs)
  end.
Definition level_order {A} (kids : A -> list A) (n : nat) (xs : list A) : list A :=
  flat_map (fun k => level kids k xs) (seq 0 n).

(** The attributes that moving or removing elements never changes: class, uuid,
    names, clock, ports, endpoint, direction, weight, semantic value, values,
    attribute dictionary. *)
Definition fixed_part (o : obj) : obj :=
  mkObj (o_kind o) (o_uuid o) (o_name o) (o_prog o) "" None 0 0 0%Z 0 [] [] (o_clock o) 0%Z
        (o_ready o) (o_ports o) [] (o_endpoint o) (o_dir o) (o_weight o) (o_sem o) (o_vals o)
        (o_dim o) (o_attr o).
Definition same_fixed (h h' : list obj) : Prop :=
  forall l, fixed_part <$> h !! l = fixed_part <$> h' !! l.

(** The elements reached from [p] through sub-elements with the given names. *)
Fixpoint follow (h : list obj) (names : list string) (p : loc) : list loc :=
  match names with
  | [] => [p]
  | n :: names' => flat_map (follow h names') (filter (fun c => name_of h c = n) (children h p))
  end.

(** [c] fits the arguments of remove_element(nm, u); the empty name and a missing
    uuid are wildcards. *)
Definition matches (h : list obj) (nm : string) (u : option uid) (c : loc) : Prop :=
  (nm = "" \/ name_of h c = nm) /\ (match u with Some u => uuid_of h c = u | None => True end).
Global Instance matches_dec h nm u c : Decision (matches h nm u c).
Proof. unfold matches. destruct u; apply _. Defined.


(** The name table of [p] has an entry for [n].  Every name that a sub-element of
    [p] has, or ever had, is known; entries never disappear. *)
Definition known (h : list obj) (p : loc) (n : string) : Prop :=
  match h !! p with Some o => is_Some (dget n (o_index o)) | None => False end.
Global Instance known_dec h p n : Decision (known h p n).
Proof. unfold known. destruct (h !! p); apply _. Defined.


(** depth is the number of proper ancestors. *)
Definition right_depth (h : list obj) (l : loc) : Prop :=
  exists ls, path h l ls /\ attr_of o_depth h l = Some (length ls - 1).


(** ** Growth

    [kept h h']: every element of [h] is still there with the same class, uuid,
    names, clock, endpoint, direction, weight, values and attributes (ports,
    place in the hierarchy and counters may differ). *)
Definition ident_part (o : obj) : obj := s_ports [] (fixed_part o).
Definition kept (h h' : list obj) : Prop :=
  forall l o, h !! l = Some o -> ident_part <$> h' !! l = Some (ident_part o).
(** No element of [h] has been moved. *)
Definition unmoved (h h' : list obj) : Prop :=
  forall l, exists_in h l -> parent_of h' l = parent_of h l.
(** [h'] gives [p] the new, childless element [c], which has the attributes of [oc];
    apart from that nothing is added to or taken from any element. *)
Definition fresh_child (h h' : list obj) (p c : loc) (oc : obj) : Prop :=
  ~ exists_in h c /\ parent_of h' c = Some p /\ children h' c = [] /\
  fixed_part <$> h' !! c = Some (fixed_part oc).
