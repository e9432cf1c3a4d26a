(** * Non-vacuity of C93 *)
From stdpp Require Import relations.
From Verif Require Import Spec SpecTrav Hierarchy Elements Factory History Traverse Homomorphism HTraverse Tensor SpecTensor Reuse SpecReuse ExBase Ex1 Ex6 Props30.
Local Open Scope nat_scope.

(** an edge with three endpoints; then it is replaced by one with two endpoints *)
Definition s30 : st := run (three ++ [OHyperedge fac 0 "e"; OUnary 4 1 WNone BIDIRECTIONAL None; OUnary 4 2 WNone BIDIRECTIONAL None; OUnary 4 3 WNone BIDIRECTIONAL None]) s0.
Lemma s30_reach : reach s30.
Proof. apply run_reach; [apply reach_init|]. vm_compute. reflexivity. Qed.
Definition e2 := Eval vm_compute in length (heap s30).
Definition s30b : st := run [ODeregister 4; OHyperedge fac 0 "e2"; OUnary e2 1 WNone BIDIRECTIONAL None; OUnary e2 2 WNone BIDIRECTIONAL None] s30.
Lemma s30b_reach : reach s30b.
Proof. apply run_reach; [exact s30_reach|]. vm_compute. reflexivity. Qed.
Lemma ends30 : endpoints (heap s30) 4 = [1; 2; 3] /\ edges_of (heap s30b) 0 = [e2] /\ endpoints (heap s30b) e2 = [1; 2].
Proof. repeat split; vm_compute; reflexivity. Qed.
Lemma hyp30 : closed_graph (heap s30) 0 /\ work (heap s30) 0 < 100 /\ sizes (heap s30) 0 = (3, 1).
Proof. split; [apply closedb_ok; vm_compute; reflexivity|]. split; [apply Nat.ltb_lt; vm_compute; reflexivity|]. vm_compute. reflexivity. Qed.
Lemma hyp30b : closed_graph (heap s30b) 0 /\ work (heap s30b) 0 < 100 /\ sizes (heap s30b) 0 = (3, 1).
Proof. split; [apply closedb_ok; vm_compute; reflexivity|]. split; [apply Nat.ltb_lt; vm_compute; reflexivity|]. vm_compute. reflexivity. Qed.
Lemma entry30 : at_W (s30, 0) 0 0 2 = 1%Qc /\ at_W (s30b, 0) 0 0 2 = 0%Qc.
Proof. split; vm_compute; reflexivity. Qed.

(** two graphs of the same sizes, one representation: the entry of the first stays *)
Lemma stale s c s' c' n E k i j lim : reach s -> closed_graph (heap s) c -> work (heap s) c < lim -> sizes (heap s) c = (n, E) ->
  reach s' -> closed_graph (heap s') c' -> work (heap s') c' < lim -> sizes (heap s') c' = (n, E) -> (n, E) <> (0, 0) ->
  k < E -> i < n -> j < n -> at_W (s, c) k i j = 1%Qc -> at_W (s', c') k i j = 0%Qc ->
  exists p p', uses lim rep_new [(s, c)] p /\ uses lim rep_new [(s, c); (s', c')] p' /\
    (exists T0 T, rp_T p = Some T0 /\ rp_T p' = Some T /\ describes (heap s) c T0 /\ overlaid (heap s') c' T0 T /\
       te_W T0 k i j = 1%Qc /\ te_W T k i j = 1%Qc /\ ~ describes (heap s') c' T).
Proof.
  intros R G L Z R' G' L' Z' N0 Hk Hi Hj A A'.
  destruct (C93_reused s c lim rep_new used_new R G L) as (t & p & E1 & U & C & H1 & _). rewrite Z in C, H1.
  destruct (H1 ltac:(discriminate) N0) as (T0 & ET0 & D0).
  destruct (C93_reused s' c' lim p U R' G' L') as (t' & p' & E2 & U' & C' & _ & H2). rewrite Z' in H2.
  destruct (H2 T0 C ET0) as (T & ET & O). exists p, p'.
  assert (X1 : uses lim rep_new [(s, c)] p) by (apply (uses_one lim rep_new [] rep_new s c t s p); [constructor|exact R|exact G|exact L|exact E1]).
  assert (X2 : uses lim rep_new [(s, c); (s', c')] p') by (apply (uses_one lim rep_new [(s, c)] p s' c' t' s' p'); [exact X1|exact R'|exact G'|exact L'|exact E2]).
  split; [exact X1|]. split; [exact X2|]. exists T0, T. split; [exact ET0|]. split; [exact ET|]. split; [exact D0|]. split; [exact O|].
  destruct (C93_last_nonzero lim rep_new [(s, c)] p n E used_new X1 ltac:(discriminate) N0) as (_ & T1 & E3 & _ & _ & W1).
  { intros g Hg. apply elem_of_list_singleton in Hg as ->. exact Z. }
  { discriminate. }
  destruct (C93_last_nonzero lim rep_new [(s, c); (s', c')] p' n E used_new X2 ltac:(discriminate) N0) as (_ & T2 & E4 & _ & _ & W2).
  { intros g Hg. apply elem_of_cons in Hg as [->|Hg]; [exact Z|]. apply elem_of_list_singleton in Hg as ->. exact Z'. }
  { discriminate. }
  assert (T1 = T0) by congruence. assert (T2 = T) by congruence. subst T1 T2.
  specialize (W1 k i j Hk Hi Hj). specialize (W2 k i j Hk Hi Hj). cbn [map] in W1, W2. rewrite A in W1. rewrite A, A' in W2.
  assert (V1 : last_nonzero [1%Qc] = 1%Qc) by (vm_compute; reflexivity). assert (V2 : last_nonzero [1%Qc; 0%Qc] = 1%Qc) by (vm_compute; reflexivity).
  rewrite V1 in W1. rewrite V2 in W2. split; [exact W1|]. split; [exact W2|]. intros D.
  unfold sizes in Z'. injection Z' as Z1 Z2. rewrite <- Z2 in Hk. rewrite <- Z1 in Hi, Hj.
  apply lookup_lt_is_Some in Hk as [e He], Hi as [a Ha], Hj as [b Hb]. destruct D as (_ & _ & D & _). rewrite (D _ _ _ _ _ _ He Ha Hb) in W2.
  unfold at_W in A'. cbn [fst snd] in A'. rewrite He, Ha, Hb in A'. rewrite A' in W2. discriminate W2.
Qed.
Example stale30 : exists p p', uses 100 rep_new [(s30, 0)] p /\ uses 100 rep_new [(s30, 0); (s30b, 0)] p' /\
    (exists T0 T, rp_T p = Some T0 /\ rp_T p' = Some T /\ describes (heap s30) 0 T0 /\ overlaid (heap s30b) 0 T0 T /\
       te_W T0 0 0 2 = 1%Qc /\ te_W T 0 0 2 = 1%Qc /\ ~ describes (heap s30b) 0 T).
Proof.
  destruct hyp30 as (G & L & Z). destruct hyp30b as (G' & L' & Z'). destruct entry30 as [A A'].
  exact (stale s30 0 s30b 0 3 1 0 0 2 100 s30_reach G L Z s30b_reach G' L' Z' ltac:(discriminate) (le_n 1) (Nat.lt_0_succ 2) (le_n 3) A A').
Qed.
