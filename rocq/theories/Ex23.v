(** * Non-vacuity of C83, C84 *)
From Verif Require Import Spec SpecTrav Hierarchy Elements Factory History QueryEngine SpecQuery PReach ExBase Ex1 Ex8 Ex9 Props23.

(** The query "nodes" of Ex9 visits 0 and nine elements below it; with three calls it fails. *)
Definition q23 : query := new_query 0 is_node (fun _ _ => true).
Lemma nd (l : list nat) : bool_decide (NoDup l) = true -> NoDup l.
Proof. apply bool_decide_eq_true_1. Qed.
Lemma len8 : length (heap s8) = 14.
Proof. vm_compute. reflexivity. Qed.
Example c83_hyp : reach s8 /\ qs9 !! 0 = Some q23 /\ exists_in (heap s8) (q_start q23) /\ idle q23 /\ dvals [("nodes", 0)] = [0] /\ too_big (heap s8) 3 q23 /\ 2 * length (heap s8) < 50.
Proof.
  split; [apply s8_reach|]. split; [reflexivity|]. split; [apply existsb_in_ok; vm_compute; reflexivity|]. split; [split; [intros t Ht; by apply elem_of_nil in Ht|reflexivity]|].
  split; [reflexivity|]. split; [|rewrite len8; lia]. exists [1; 2; 3]. split; [apply nd; vm_compute; reflexivity|]. split; [cbn; lia|].
  intros x Hx. assert (Hp : parent_of (heap s8) x = Some 0 /\ accepts (q_sees q23) (heap s8) x = true).
  { apply elem_of_cons in Hx as [->|Hx]; [split; vm_compute; reflexivity|]. apply elem_of_cons in Hx as [->|Hx]; [split; vm_compute; reflexivity|].
    apply elem_of_cons in Hx as [->|Hx]; [split; vm_compute; reflexivity|]. by apply elem_of_nil in Hx. }
  destruct Hp as [Hp Ha]. by apply through_kid.
Qed.
(** The failing run, and what the second one returns: 0, 1 and 2 twice (for 3 the preposition raises) *)
Definition fail23 := prefilter_all 3 [0] s8 qs9 [].
Example c83_fails : (fail23.1).1 = Exn RecursionError /\ map fst (fr_hier (fail23.1).2) = [4; 11].
Proof. split; vm_compute; reflexivity. Qed.
Definition retry23 := let '(_, s1, qs1) := fail23 in prefilter_all 50 [0] s1 qs1 [].
Example c83_twice : match retry23 with (Ok ts, s2, qs2) => (drain_all [0] (run_tasks s2 ts qs2)).1 = [0; 1; 2; 0; 1; 2] | _ => False end.
Proof. vm_compute. reflexivity. Qed.
(** The query "rels" starts at the edge 4; started at node 3 it sees no relation, but returns those of the edges 4 and 11 left over by the other query *)
Definition qs23 : list query := [q23; new_query 3 is_rel (fun _ _ => true)].
Example c83_alone : match prefilter_all 300 [1] s8 qs23 [] with (Ok ts, s2, qs2) => (drain_all [1] (run_tasks s2 ts qs2)).1 = [] | _ => False end.
Proof. vm_compute. reflexivity. Qed.
Example c83_polluted : let '(_, s1, qs1) := prefilter_all 3 [0] s8 qs23 [] in
  match prefilter_all 300 [1] s1 qs1 [] with (Ok ts, s2, qs2) => (drain_all [1] (run_tasks s2 ts qs2)).1 = [5; 7; 9; 12] | _ => False end.
Proof. vm_compute. reflexivity. Qed.
Example c83_other_hyp : 1 <> 0 /\ qs23 !! 1 = Some (new_query 3 is_rel (fun _ _ => true)) /\ exists_in (heap s8) 3 /\ (exists x, q_visits (heap s8) (new_query 3 is_rel (fun _ _ => true)) x) /\
  length (heap s8) * S (length (heap s8)) < 300.
Proof.
  split; [lia|]. split; [reflexivity|]. split; [apply existsb_in_ok; vm_compute; reflexivity|]. split; [|rewrite len8; lia].
  exists 3. left. split; [reflexivity|vm_compute; reflexivity].
Qed.
(** C84: an order that is neither the breadth-first one nor its reverse *)
Example c84_hyp : Forall2 (part_of s8 qs9) (dvals e9) [[1; 0; 2]; [9; 5; 7]].
Proof.
  assert (L : length (heap s8) < 50) by (rewrite len8; lia).
  destruct c43_hyp as (R & Hnd & Hr & Hx). destruct c43_runs as (qs1 & qs2 & Hrun & _).
  destruct (Props9.C43_any_schedule s8 50 e9 qs9 R Hnd Hr) as [H _]. destruct (H Hx) as [_ Hall]. destruct (Hall _ _ _ Hrun) as (_ & (parts & Ep & HF) & _).
  change (dvals e9) with [0; 1] in *. inversion HF as [|i0 p0 is0 ps0 H0 HF1]; subst. inversion HF1 as [|i1 p1 is1 ps1 H1 HF2]; subst. inversion HF2; subst.
  injection Ep as Ep. cbn in Ep. rewrite app_nil_r in Ep.
  assert (K : forall p0 p1 : list loc, [0; 1; 2; 5; 7; 9] = p0 ++ p1 -> (forall x, x ∈ p0 -> x < 3) -> (forall x, x ∈ p1 -> 3 <= x) -> p0 = [0; 1; 2] /\ p1 = [5; 7; 9]).
  { clear. intros p0 p1 E H0 H1. destruct p0 as [|a p0]; cbn in E; [subst; specialize (H1 0 ltac:(left)); lia|]. injection E as <- E.
    destruct p0 as [|a p0]; cbn in E; [subst; specialize (H1 1 ltac:(left)); lia|]. injection E as <- E.
    destruct p0 as [|a p0]; cbn in E; [subst; specialize (H1 2 ltac:(left)); lia|]. injection E as <- E.
    destruct p0 as [|a p0]; cbn in E; [by subst|]. injection E as <- E. specialize (H0 5 ltac:(right; right; right; left)). lia. }
  assert (B0 : forall x, is_node s8 x = Ok true -> x ∈ [0; 1; 2; 3; 4; 5; 6; 7; 8; 9; 10; 11; 12; 13] -> x < 3).
  { intros x Hm Hin. repeat (apply elem_of_cons in Hin as [->|Hin]; [first [lia | exfalso; vm_compute in Hm; discriminate Hm]|]). destruct (not_elem_of_nil _ Hin). }
  assert (B1 : forall x, is_rel s8 x = Ok true -> x ∈ [0; 1; 2; 3; 4; 5; 6; 7; 8; 9; 10; 11; 12; 13] -> 3 <= x).
  { intros x Hm Hin. repeat (apply elem_of_cons in Hin as [->|Hin]; [first [lia | exfalso; vm_compute in Hm; discriminate Hm]|]). destruct (not_elem_of_nil _ Hin). }
  assert (B : forall q x, q_visits (heap s8) q x -> x ∈ [0; 1; 2; 3; 4; 5; 6; 7; 8; 9; 10; 11; 12; 13]).
  { intros q x Hv. apply visits_bound in Hv. rewrite len8 in Hv. change [0; 1; 2; 3; 4; 5; 6; 7; 8; 9; 10; 11; 12; 13] with (seq 0 14). apply elem_of_seq. lia. }
  destruct H0 as (q0 & Hq0 & N0 & M0), H1 as (q1 & Hq1 & N1 & M1). injection Hq0 as <-. injection Hq1 as <-.
  destruct (K p0 p1 Ep) as [-> ->].
  { intros x Hx'. apply M0 in Hx' as [Hv Hm]. apply (B0 x Hm), (B _ _ Hv). }
  { intros x Hx'. apply M1 in Hx' as [Hv Hm]. apply (B1 x Hm), (B _ _ Hv). }
  constructor; [|constructor; [|constructor]].
  - eexists. split; [reflexivity|]. split; [apply nd; vm_compute; reflexivity|]. intros x. rewrite <- M0. rewrite !elem_of_cons. tauto.
  - eexists. split; [reflexivity|]. split; [apply nd; vm_compute; reflexivity|]. intros x. rewrite <- M1. rewrite !elem_of_cons. tauto.
Qed.
