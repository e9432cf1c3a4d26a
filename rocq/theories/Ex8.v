(** * Non-vacuity of C38, C39, C56 *)
From stdpp Require Import relations.
From Verif Require Import Spec SpecTrav Hierarchy Elements Factory History SpecTensor Factorization SpecFact ExBase Ex1 Props8.

Definition ops8 : list op :=
  [ OGenNode fac "root" None; OGenNode fac "a" (Some 0); OGenNode fac "b" (Some 0); OGenNode fac "c" (Some 0); (* 0 1 2 3 *)
    OHyperedge fac 0 "e"; (* 4 *)
    OUnary 4 1 WNone INWARDS None; OUnary 4 2 WNone OUTWARDS None; OUnary 4 3 WNone BIDIRECTIONAL None; (* relations 5 7 9, ports 6 8 10 *)
    OHyperedge fac 2 "f"; OUnary 11 3 WNone INWARDS None (* 11; 12 13 *) ].
Definition s8 : st := run ops8 s0.
Lemma s8_reach : reach s8.
Proof. apply run_reach; [apply reach_init|]. vm_compute. reflexivity. Qed.
Example s8_shape : map (children (heap s8)) (seq 0 14) = [[1; 2; 3; 4]; [6]; [8; 11]; [10; 13]; [5; 7; 9]; []; []; []; []; []; []; [12]; []; []].
Proof. vm_compute. reflexivity. Qed.
Lemma all_exist8 (sel : list loc) s : forallb (fun l => match heap s !! l with Some _ => true | None => false end) sel = true -> forall l, l ∈ sel -> exists_in (heap s) l.
Proof.
  intros H l Hl. pose proof (proj1 (forallb_forall _ _) H l ltac:(by apply elem_of_list_In)) as X. cbv beta in X. destruct (heap s !! l) as [o|] eqn:E; [by exists o|done].
Qed.
(** C38: with and without self loops, and with a smaller selection *)
Example c38_hyp : reach s8 /\ forall l, l ∈ [0; 1; 2; 3; 4; 11] -> exists_in (heap s8) l.
Proof. split; [apply s8_reach|]. apply all_exist8. vm_compute. reflexivity. Qed.
Example c38_value : fact_subset false [0; 1; 2; 3; 4; 11] s8 = Ok [(5, 7); (5, 9); (9, 7)] /\ fact_subset true [0; 1; 2; 3; 4] s8 = Ok [(5, 7); (5, 9); (9, 7); (9, 9)] /\
  fact_subset false [2; 4; 3] s8 = Ok [(9, 7)].
Proof. vm_compute. repeat split. Qed.
(** C39: balanced, and not balanced *)
Definition completeb (s : st) (sel : list loc) : bool := forallb (fun r => match parent_of (heap s) r, ep_of (heap s) r with Some _, Some _ => true | _, _ => false end) sel.
Lemma completeb_ok s sel : completeb s sel = true -> rels_complete (heap s) sel.
Proof.
  intros H r Hr _. pose proof (proj1 (forallb_forall _ _) H r ltac:(by apply elem_of_list_In)) as X. cbv beta in X.
  destruct (parent_of (heap s) r) as [p|]; [|done]. destruct (ep_of (heap s) r) as [q|]; [|done]. split; by eexists.
Qed.
Example c39_hyp : rels_complete (heap s8) [9; 7; 5] /\ rels_complete (heap s8) [9; 7; 5; 12].
Proof. split; apply completeb_ok; vm_compute; reflexivity. Qed.
Example c39_balanced : balanced (heap s8) [9; 7; 5].
Proof.
  intros r Hr _. assert (E : selected (heap s8) KRel [9; 7; 5] = [9; 7; 5]) by (vm_compute; reflexivity). rewrite E in *. exists 7. split; [right; left|]. split; [vm_compute; reflexivity|].
  assert (U : forallb (fun r => String.eqb (puuid (heap s8) 7) (puuid (heap s8) r)) [9; 7; 5] = true) by (vm_compute; reflexivity).
  pose proof (proj1 (forallb_forall _ _) U r ltac:(by apply elem_of_list_In)) as X. cbv beta in X. by apply String.eqb_eq in X.
Qed.
Example c39_not_balanced : ~ balanced (heap s8) [9; 7; 5; 12].
Proof.
  intros B. assert (E : selected (heap s8) KRel [9; 7; 5; 12] = [9; 7; 5; 12]) by (vm_compute; reflexivity).
  destruct (B 12) as (r & Hr & Ho & Eu); [rewrite E; by do 3 right; left|left; vm_compute; reflexivity|]. rewrite E in Hr.
  assert (U : forallb (fun r => negb (String.eqb (puuid (heap s8) r) (puuid (heap s8) 12)) || negb (bool_decide (purely_out (heap s8) r))) [9; 7; 5; 12] = true) by (vm_compute; reflexivity).
  pose proof (proj1 (forallb_forall _ _) U r ltac:(by apply elem_of_list_In)) as X. cbv beta in X. rewrite Eu, String.eqb_refl in X. apply orb_true_iff in X as [X|X]; [discriminate X|].
  apply negb_true_iff, bool_decide_eq_false in X. exact (X Ho).
Qed.
Example c39_values : fact_relations false [9; 7; 5] s8 = Ok [(9, 7); (5, 7)] /\ fact_relations false [9; 7; 5; 12] s8 = Exn KeyError.
Proof. vm_compute. split; reflexivity. Qed.
(** a relation outside any edge *)
Definition s8o : st := run [ONewRel "u" "r" "r" 1 WNone INWARDS None] s8.
Lemma s8o_reach : reach s8o.
Proof. apply run_reach; [apply s8_reach|]. vm_compute. reflexivity. Qed.
Example c39_orphan_hyp : kind_of (heap s8o) 14 = Some KRel /\ parent_of (heap s8o) 14 = None /\ fact_relations true [7; 14; 5] s8o = Exn AttributeError.
Proof. vm_compute. repeat split. Qed.
(** C56: the walk from the root is finite; the second edge is visited as the endpoint of relation 7 contains it *)
Example c56_finite : level (walk_next (heap s8)) 5 [Some 0] = [] /\ level_order (walk_next (heap s8)) 5 [Some 0] = [Some 0; Some 4; Some 2; Some 3; Some 11] /\
  fact2 6 0 s8 = Ok [(5, [7; 9]); (9, [7; 9]); (12, [])] /\ fact2 5 0 s8 = Exn RecursionError.
Proof. vm_compute. repeat split. Qed.
Example c56_acyclic : forall i, rtc (walk_step (heap s8)) (Some 0) i -> ~ tc (walk_step (heap s8)) i i.
Proof.
  assert (E : level (walk_next (heap s8)) 5 [Some 0] = []) by (vm_compute; reflexivity).
  intros i Hi Hc. assert (forall n, exists m, n <= m /\ nsteps (walk_step (heap s8)) m (Some 0) i) as Hp.
  { apply rtc_nsteps in Hi as [m0 Hm0]. apply tc_nsteps in Hc as (k & Hk & Hc). induction n as [|n IH]; [exists m0; split; [lia|done]|].
    destruct IH as (m & Hm & Hj). exists (m + k). split; [lia|]. by eapply nsteps_trans. }
  destruct (Hp 5) as (m & Hm & Hn). apply QFact3.level_nsteps in Hn. rewrite (QFact3.level_mono _ 5 m) in Hn; [by apply elem_of_nil in Hn|exact E|exact Hm].
Qed.
(** an edge that leads back to its own container *)
Definition s8c : st := run [OUnary 11 2 WNone OUTWARDS None] s8.
Lemma s8c_reach : reach s8c.
Proof. apply run_reach; [apply s8_reach|]. vm_compute. reflexivity. Qed.
Example c56_cycle : tc (walk_step (heap s8c)) (Some 2) (Some 2) /\ fact2 1000 0 s8c = Exn RecursionError.
Proof.
  split; [|vm_compute; reflexivity]. apply (tc_l _ _ (Some 11)); [|apply tc_once].
  - assert (E : walk_next (heap s8c) (Some 2) = [Some 11]) by (vm_compute; reflexivity). unfold walk_step. rewrite E. left.
  - assert (E : walk_next (heap s8c) (Some 11) = [Some 2]) by (vm_compute; reflexivity). unfold walk_step. rewrite E. left.
Qed.
