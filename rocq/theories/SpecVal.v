(** * Vocabulary for value nodes and text conversions *)
From Verif Require Export Spec SpecTrav SpecEnc History.

(** The position that the index [i] means in a Python list of [n] elements:
    from the front, or, for a negative index, from the end. *)
Definition designates (n : nat) (i : Z) (k : nat) : Prop :=
  k < n /\ (i = Z.of_nat k \/ i = Z.of_nat k - Z.of_nat n)%Z.

(** The list with the element at position [k] exchanged. *)
Definition exchanged {A} (l l' : list A) (k : nat) (x : A) : Prop :=
  length l' = length l /\ l' !! k = Some x /\ forall j, j <> k -> l' !! j = l !! j.

(** [s'] is [s] with the values of [v] replaced by [l']; nothing else differs. *)
Definition only_values (s s' : st) (v : loc) (l' : list pyval) : Prop :=
  s' = set_heap (heap s') s /\
  (forall x, x <> v -> heap s' !! x = heap s !! x) /\
  exists o, heap s !! v = Some o /\ heap s' !! v = Some (s_vals l' o).

(** The calls that may change values or attributes, and of which element. *)
Definition touches (o : op) : option loc :=
  match o with
  | OSetValue v _ _ | OSetValues v _ => Some v
  | OSetAttr x _ _ | ODelAttr x _ => Some x
  | _ => None
  end.

(** [v] is the value node just made from [vals], by the constructor or by a factory. *)
Inductive born (s : st) (vals : option (list pyval)) (v : loc) (s1 : st) : Prop :=
| born_new u nm prog : new_value u nm prog vals s = (Ok v, s1) -> born s vals v s1
| born_made f p nm : ex_opt (heap s) p -> create_value f p nm vals s = (Ok v, s1) -> born s vals v s1.

(** ** Spelling of type names *)

(** white space in ASCII text: tab, line feed, vertical tab, form feed, carriage
    return, the four separators and the blank *)
Definition blank_char (a : ascii) : Prop := nat_of_ascii a ∈ [9; 10; 11; 12; 13; 28; 29; 30; 31; 32].
Fixpoint all_blank (t : string) : Prop :=
  match t with EmptyString => True | String a t' => blank_char a /\ all_blank t' end.
(** [b] is [a], or [a] is a capital letter (65 - 90) and [b] the small one *)
Definition same_letter (a b : ascii) : Prop :=
  a = b \/ (65 <= nat_of_ascii a <= 90 /\ nat_of_ascii b = nat_of_ascii a + 32).
(** [t], with any letters capitalised and any underscores inserted *)
Inductive spelled : string -> string -> Prop :=
| sp_nil : spelled "" ""
| sp_underscore c t : spelled c t -> spelled (String "_" c) t
| sp_letter a b c t : same_letter a b -> spelled c t -> spelled (String a c) (String b t).
Definition typed_as (raw t : string) : Prop :=
  exists w1 core w2, raw = w1 +:+ core +:+ w2 /\ all_blank w1 /\ all_blank w2 /\ spelled core t.

(** The ten names and their classes. *)
Definition type_names : list (string * sclass) :=
  [ ("cognitiveentity", SCognitiveEntity); ("kinematicgraph", SKinematicGraph); ("kinematiclink", SKinematicLink);
    ("kinematicjoint", SKinematicJoint); ("cylindergeometry", SCylinderGeometry); ("polyhedrongeometry", SPolyhedronGeometry);
    ("ellipsoidgeometry", SEllipsoidGeometry); ("material", SVisualMaterial); ("rigidtransformation", SRigidTransformation);
    ("inertiaelement", SInertiaElement) ].

(** [el] is a new element of class [c] at the end of [p], with the attributes [attr]
    and, if given, [vs] under "values". *)
Record sem_made (s s' : st) (p el : loc) (c : sclass) (nm : string) (attr : dict string pyval) (vs : option pyval) : Prop := {
  sm_new : ~ exists_in (heap s) el;
  sm_kind : kind_of (heap s') el = Some (KSem c);
  sm_name : name_of (heap s') el = nm;
  sm_parent : parent_of (heap s') el = Some p;
  sm_children : children (heap s') el = [];
  sm_last : children (heap s') p = children (heap s) p ++ [el];
  sm_attr : forall k v, get_attribute el k s' = (Ok v, s') <->
     v = (if decide (k = "values") then default (default PNone (dget k attr)) vs else default PNone (dget k attr));
  sm_other : forall l, exists_in (heap s) l -> l <> p -> heap s' !! l = heap s !! l;
  sm_p : fixed_part <$> heap s' !! p = fixed_part <$> heap s !! p
}.
