(** * Property theorems C01 - C09 *)
From Verif Require Import Spec Hierarchy Elements Factory History QHier QHier2.

(** C01 *)
Theorem C01_parent_child_agreement s : reach s -> forall p, exists_in (heap s) p ->
  exists l, get_subelements p (fun _ _ => true) s = (Ok l, s) /\ NoDup l /\
    forall c, c ∈ l <-> parent_of (heap s) c = Some p.
Proof. exact (q_C01 s). Qed.
Print Assumptions C01_parent_child_agreement.

(** C02 *)
Theorem C02_lookup_by_simple_name s p o n : reach s -> heap s !! p = Some o ->
  is_conceptual (o_kind o) = true -> has_char slash n = false ->
  get_element_by_id_name p n s =
    (Ok (filter (fun c => name_of (heap s) c = n) (children (heap s) p)), s).
Proof. exact (q_C02 s p o n). Qed.
Print Assumptions C02_lookup_by_simple_name.

(** C03 *)
Theorem C03_cnt_subelements s p : reach s -> exists_in (heap s) p ->
  attr_of o_cnt (heap s) p = Some (Z.of_nat (length (children (heap s) p))).
Proof. exact (q_C03 s p). Qed.
Print Assumptions C03_cnt_subelements.

(** C04 *)
Theorem C04_cids_increase s p i j c d m n : reach s ->
  children (heap s) p !! i = Some c -> children (heap s) p !! j = Some d -> i < j ->
  attr_of o_cid (heap s) c = Some m -> attr_of o_cid (heap s) d = Some n -> m < n.
Proof. exact (q_C04 s p i j c d m n). Qed.
Print Assumptions C04_cids_increase.

(** A sub-element at a later time either already was one, with the same cid, or
    has a larger cid than every earlier sub-element. *)
Theorem C04_cids_never_reused g s s' p c c' m n : reach s -> history g s s' ->
  c ∈ children (heap s) p -> c' ∈ children (heap s') p ->
  attr_of o_cid (heap s) c = Some m -> attr_of o_cid (heap s') c' = Some n ->
  (c' ∈ children (heap s) p /\ attr_of o_cid (heap s) c' = Some n) \/ m < n.
Proof. exact (q_C04_history g s s' p c c' m n). Qed.
Print Assumptions C04_cids_never_reused.

(** C05 *)
Theorem C05_add_refreshes_names s p c s' : reach s -> add_ok (heap s) p c ->
  add_element p c s = (Ok tt, s') ->
  (forall x, exists_in (heap s') x -> within (heap s') c x ->
     exists q, attr_of o_qname (heap s') x = Some q /\ full_name (heap s') x q) /\
  (forall x, exists_in (heap s) x -> ~ within (heap s') c x ->
     attr_of o_qname (heap s') x = attr_of o_qname (heap s) x).
Proof. exact (q_C05 s p c s'). Qed.
Print Assumptions C05_add_refreshes_names.

Theorem C05_names_are_paths_without_removal ck hf s l :
  history MKeep (init_st ck hf) s -> exists_in (heap s) l ->
  exists q, attr_of o_qname (heap s) l = Some q /\ full_name (heap s) l q.
Proof. exact (q_C05_history ck hf s l). Qed.
Print Assumptions C05_names_are_paths_without_removal.

(** C06: every proper descendant of a removed element keeps a name that no longer
    is its path. *)
Theorem C06_stale_names_refuted s p nm u vs s' c d q : reach s ->
  allowed (heap s) (ORemove p nm u) -> remove_all p nm u s = (Ok vs, s') ->
  c ∈ vs -> ancestor (heap s) c d ->
  attr_of o_qname (heap s) d = Some q -> full_name (heap s) d q ->
  attr_of o_qname (heap s') d = Some q /\ ~ full_name (heap s') d q.
Proof. exact (q_C06 s p nm u vs s' c d q). Qed.
Print Assumptions C06_stale_names_refuted.

(** C07 *)
Theorem C07_self_rejected s p : exists_in (heap s) p ->
  add_element p p s = (Exn ErrorRecursiveHierarchy, s).
Proof. exact (q_C07_self s p). Qed.
Print Assumptions C07_self_rejected.

Theorem C07_duplicate_rejected s p c op oc x : heap s !! p = Some op -> heap s !! c = Some oc ->
  c <> p -> (o_uuid oc, x) ∈ o_subs op -> add_element p c s = (Exn ErrorDuplicateElement, s).
Proof. exact (q_C07_dup s p c op oc x). Qed.
Print Assumptions C07_duplicate_rejected.

(** C08 *)
Theorem C08_move s p c op oc : reach s -> heap s !! p = Some op -> heap s !! c = Some oc -> c <> p ->
  ~ ancestor (heap s) c p -> removable (heap s) c ->
  (forall x, x ∈ children (heap s) p -> uuid_of (heap s) x <> o_uuid oc) ->
  (o_kind op = KRel -> is_hyperelement (o_kind oc) = false) ->
  (o_kind op = KEdge -> o_kind oc = KRel -> o_ready op = true) ->
  exists s', add_element p c s = (Ok tt, s') /\
    parent_of (heap s') c = Some p /\
    children (heap s') p = children (heap s) p ++ [c] /\
    (forall q, q <> p -> children (heap s') q = filter (fun x => x <> c) (children (heap s) q)) /\
    (forall l, l <> c -> parent_of (heap s') l = parent_of (heap s) l) /\
    same_fixed (heap s) (heap s').
Proof. exact (q_C08 s p c op oc). Qed.
Print Assumptions C08_move.

(** C09 *)
Theorem C09_remove s p nm u vs : reach s -> allowed (heap s) (ORemove p nm u) ->
  vs = filter (matches (heap s) nm u) (children (heap s) p) -> vs <> [] -> ~ (nm = "" /\ u = None) ->
  exists s', remove_all p nm u s = (Ok vs, s') /\
    (forall c, c ∈ vs -> parent_of (heap s') c = None /\
                         attr_of o_qname (heap s') c = attr_of o_name (heap s') c) /\
    children (heap s') p = filter (fun c => c ∉ vs) (children (heap s) p) /\
    (forall q, q <> p -> children (heap s') q = children (heap s) q) /\
    (forall l, l ∉ vs -> parent_of (heap s') l = parent_of (heap s) l) /\
    same_fixed (heap s) (heap s').
Proof. exact (q_C09 s p nm u vs). Qed.
Print Assumptions C09_remove.

Theorem C09_nothing_to_remove s p nm u : reach s -> allowed (heap s) (ORemove p nm u) ->
  (forall c, c ∈ children (heap s) p -> ~ matches (heap s) nm u c) -> nm <> "" \/ u <> None ->
  (remove_all p nm u s = (Exn KeyError, s) /\ (u = None -> ~ known (heap s) p nm)) \/
  (exists s', remove_all p nm u s = (Ok [], s') /\ heap s' = heap s /\ u = None /\ known (heap s) p nm).
Proof. exact (q_C09_nothing s p nm u). Qed.
Print Assumptions C09_nothing_to_remove.

Theorem C09_no_argument s p op : heap s !! p = Some op -> o_kind op <> KEdge -> o_kind op <> KRel ->
  remove_all p "" None s = (Exn ErrorInvalidQuery, s).
Proof. exact (q_C09_invalid s p op). Qed.
Print Assumptions C09_no_argument.
