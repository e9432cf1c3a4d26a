(** * Proofs of C100, assembled *)
From stdpp Require Import relations.
From Verif Require Import Spec Hierarchy Elements Factory History PReach Encode SpecEnc QEnc3 QEnc5 QEnc6 SpecFail QFail.

Lemma full_fails s c lim g r s1 g1 ss s' : reach s -> sendable (heap s) c -> co_context (ic_coo g) = c ->
  update_context lim c s g = (Ok r, s1, g1) ->
  Forall (fun t => same_but_values (heap s) (heap t)) ss -> same_but_values (heap s) (heap s') ->
  (encodable_values (heap s') c -> exists m, fst (full_msg s' (after_calls ss g1)) = Ok m) /\
  (~ encodable_values (heap s') c -> fst (full_msg s' (after_calls ss g1)) = Exn TypeError).
Proof.
  intros R G Hc U F B. apply context_update in U as (x & U & ->).
  destruct (hom_sent s c lim hom0 r s1 x R G U) as (-> & Hn & He & Hv & _). pose proof (reach_wf s R) as W.
  match goal with |- context [after_calls ss ?a] => set (g1 := a) end.
  assert (Hc1 : co_context (ic_coo g1) = c) by done. assert (Hx1 : co_hom (ic_coo g1) = Some x) by done.
  rewrite (after_calls_state s c x W G Hn He Hv ss g1 F Hc1 Hx1).
  destruct (after_msgs_state s c x W G Hn He Hv (length ss) g1 Hc1 Hx1) as (A1 & A2 & _).
  exact (proj2 (full_msg_any s s' c x _ W G Hn He Hv B A1 A2)).
Qed.
Lemma full_spoiled s c lim g r s1 g1 m1 g2 ss : reach s -> sendable (heap s) c -> co_context (ic_coo g) = c -> co_rels (ic_coo g) = [] ->
  update_context lim c s g = (Ok r, s1, g1) -> full_msg s g1 = (Ok m1, g2) ->
  (exists e, e ∈ edges_of (heap s) c /\ rels_of (heap s) e <> []) ->
  Forall (fun t => same_but_values (heap s) (heap t)) ss -> ss <> [] ->
  exists m g3, full_msg s (after_calls ss g1) = (Ok m, g3) /\ m_rels m = concat (repeat (m_rels m1) (S (length ss))) /\ m <> m1 /\
    forall s2 g', reach s2 -> exists s3, create_graph m s2 g' = (Exn ErrorDuplicateElement, s3, g').
Proof.
  intros R G Hc Hr U F1 He0 F Hne.
  destruct (q_C47 s c lim g r s1 g1 m1 g2 R G Hc Hr U F1 He0) as (_ & K). destruct (K (length ss)) as (m & g3 & K1 & K2 & K3).
  assert (E : after_calls ss g1 = after_msgs (length ss) s g1).
  { apply context_update in U as (x & U & ->).
    destruct (hom_sent s c lim hom0 r s1 x R G U) as (-> & Hn & He & Hv & _).
    by apply (after_calls_state s c x (reach_wf s R) G Hn He Hv). }
  rewrite E. exists m, g3. split; [exact K1|]. split; [by rewrite K2|]. apply K3. destruct ss; [done|cbn; lia].
Qed.
