(** * Property theorems C100: failed messages *)
From stdpp Require Import relations.
From Verif Require Import Spec Hierarchy Elements Factory History PReach Encode SpecEnc QEnc3 QEnc5 QEnc6 SpecFail QFail QFail2.

(** With values that cannot be encoded full_msg fails, otherwise it succeeds, whatever calls there were. *)
Theorem C100_fails s c lim g r s1 g1 ss s' : reach s -> sendable (heap s) c -> co_context (ic_coo g) = c ->
  update_context lim c s g = (Ok r, s1, g1) ->
  Forall (fun t => same_but_values (heap s) (heap t)) ss -> same_but_values (heap s) (heap s') ->
  (encodable_values (heap s') c -> exists m, fst (full_msg s' (after_calls ss g1)) = Ok m) /\
  (~ encodable_values (heap s') c -> fst (full_msg s' (after_calls ss g1)) = Exn TypeError).
Proof. exact (full_fails s c lim g r s1 g1 ss s'). Qed.
Print Assumptions C100_fails.
(** Expected: a message that could not be sent leaves nothing behind.  Refuted: every call, failed
    or not, adds the relations once more, and no decoder accepts the next message. *)
Theorem C100_clean_refuted s c lim g r s1 g1 m1 g2 ss : reach s -> sendable (heap s) c -> co_context (ic_coo g) = c -> co_rels (ic_coo g) = [] ->
  update_context lim c s g = (Ok r, s1, g1) -> full_msg s g1 = (Ok m1, g2) ->
  (exists e, e ∈ edges_of (heap s) c /\ rels_of (heap s) e <> []) ->
  Forall (fun t => same_but_values (heap s) (heap t)) ss -> ss <> [] ->
  exists m g3, full_msg s (after_calls ss g1) = (Ok m, g3) /\ m_rels m = concat (repeat (m_rels m1) (S (length ss))) /\ m <> m1 /\
    forall s2 g', reach s2 -> exists s3, create_graph m s2 g' = (Exn ErrorDuplicateElement, s3, g').
Proof. exact (full_spoiled s c lim g r s1 g1 m1 g2 ss). Qed.
Print Assumptions C100_clean_refuted.
