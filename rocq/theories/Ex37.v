(** * Non-vacuity of C100 *)
From Coq Require Import QArith.
From Verif Require Import Spec SpecTrav Hierarchy Elements Factory History Traverse Homomorphism SpecHom HTraverse Tensor SpecTensor Encode SpecEnc SpecFail ExBase Ex1 Ex6 Ex10 Props10 Props37.
Local Open Scope nat_scope.

Lemma same_ok h h' : map (s_vals []) h' = map (s_vals []) h -> same_but_values h h'.
Proof. intros E l. rewrite <- !list_lookup_fmap. exact (f_equal (fun k => k !! l) E). Qed.
(** s10, in which a value was set to an element *)
Definition s37 : st := run (ops10 ++ [OSetValues 9 [PRef 1]]) s0.
Lemma s37_reach : reach s37.
Proof. apply run_reach; [apply reach_init|]. vm_compute. reflexivity. Qed.
Lemma s37_same : same_but_values (heap s10) (heap s37).
Proof. apply same_ok. vm_compute. reflexivity. Qed.
Lemma s37_bad : ~ encodable_values (heap s37) 0.
Proof.
  intros K. assert (V : values_of (heap s37) 0 = [9; 10]) by (vm_compute; reflexivity). assert (H9 : 9 ∈ values_of (heap s37) 0) by (rewrite V; left).
  specialize (K 9 H9). assert (E : forallb encodable (vals_of (heap s37) 9) = false) by (vm_compute; reflexivity). rewrite E in K. discriminate K.
Qed.
(** The call in s37 fails; after the value has been corrected the message has every relation
    twice, and cannot be decoded. *)
Example spoiled37 : exists r g1 m g3, update_context 100 0 s10 (new_icon 0 0) = (Ok r, s10, g1) /\ fst (full_msg s37 g1) = Exn TypeError /\
  full_msg s10 (after_calls [s37] g1) = (Ok m, g3) /\ exists s3, create_graph m s1 (new_icon 1 0) = (Exn ErrorDuplicateElement, s3, new_icon 1 0).
Proof.
  destruct upd10_ok as (r & g1 & E).
  destruct (C44_round_trip s10 0 100 (new_icon 0 0) r s10 g1 s10_reach s10_sendable eq_refl eq_refl E) as (x & m1 & g2 & _ & _ & F & _).
  destruct (C100_fails s10 0 100 (new_icon 0 0) r s10 g1 [] s37 s10_reach s10_sendable eq_refl E (Forall_nil_2 _) s37_same) as [_ K].
  destruct (C100_clean_refuted s10 0 100 (new_icon 0 0) r s10 g1 m1 g2 [s37] s10_reach s10_sendable eq_refl eq_refl E F rels10 (Forall_cons_2 (fun t => same_but_values (heap s10) (heap t)) s37 [] s37_same (Forall_nil_2 _)) ltac:(discriminate)) as (m & g3 & M1 & _ & _ & M2).
  exists r, g1, m, g3. split; [exact E|]. split; [exact (K s37_bad)|]. split; [exact M1|]. exact (M2 s1 (new_icon 1 0) s1_reach).
Qed.
