(** * Non-vacuity of C43, C57 *)
From Verif Require Import Spec SpecTrav Hierarchy Elements Factory History QueryEngine SpecQuery PReach ExBase Ex1 Ex8 Props9.

(** Nodes below the root of [s8], and relations; the preposition of the first query raises for element 3. *)
Definition is_node (s : st) (l : loc) : res bool := if decide (l = 3) then Exn (UserError 1) else Ok (match kind_of (heap s) l with Some KNode => true | _ => false end).
Definition is_rel (s : st) (l : loc) : res bool := Ok (match kind_of (heap s) l with Some KRel => true | _ => false end).
Definition qs9 : list query := [new_query 0 is_node (fun _ _ => true); new_query 4 is_rel (fun _ _ => true)].
Definition e9 : list (string * nat) := add_query "rels" 1 (add_query "nodes" 0 []).

Lemma visits_bound s q x : q_visits (heap s) q x -> x < length (heap s).
Proof.
  intros [[-> Ha]|Ht].
  - unfold accepts in Ha. destruct (heap s !! q_start q) as [o|] eqn:E; [by eapply lookup_lt_Some|done].
  - assert (accepts (q_filter q) (heap s) x = true) as Ha by (by destruct Ht). unfold accepts in Ha. destruct (heap s !! x) as [o|] eqn:E; [by eapply lookup_lt_Some|done].
Qed.
Lemma fits_length s q lim : length (heap s) < lim -> fits (heap s) lim q.
Proof.
  intros Hl ls Hnd Hv. assert (length ls <= length (seq 0 (length (heap s)))); [|rewrite seq_length in *; lia].
  apply submseteq_length, NoDup_submseteq; [done|]. intros x Hx. apply elem_of_seq. pose proof (visits_bound s q x (Hv x Hx)). lia.
Qed.
Example c43_hyp : reach s8 /\ NoDup (dvals e9) /\
  (forall i, i ∈ dvals e9 -> exists q, qs9 !! i = Some q /\ exists_in (heap s8) (q_start q) /\ fits (heap s8) 50 q /\ idle q) /\
  (exists i q x, i ∈ dvals e9 /\ qs9 !! i = Some q /\ q_visits (heap s8) q x).
Proof.
  assert (L : length (heap s8) < 50) by (assert (E : length (heap s8) = 14) by (vm_compute; reflexivity); rewrite E; lia).
  split; [apply s8_reach|]. split; [repeat constructor; intros X; repeat (apply elem_of_cons in X as [X|X]; [discriminate X|]); by apply elem_of_nil in X|]. split.
  - intros i Hi. change (dvals e9) with [0; 1] in Hi. apply elem_of_cons in Hi as [->|Hi]; [|apply elem_of_list_singleton in Hi as ->].
    + eexists. split; [reflexivity|]. split; [apply existsb_in_ok; vm_compute; reflexivity|]. split; [by apply fits_length|]. split; [intros t Ht; by apply elem_of_nil in Ht|reflexivity].
    + eexists. split; [reflexivity|]. split; [apply existsb_in_ok; vm_compute; reflexivity|]. split; [by apply fits_length|]. split; [intros t Ht; by apply elem_of_nil in Ht|reflexivity].
  - exists 0, (new_query 0 is_node (fun _ _ => true)), 0. split; [left|]. split; [reflexivity|]. left. split; [reflexivity|vm_compute; reflexivity].
Qed.
(** What the tasks are, and the results under two schedules: the order within a query differs *)
Definition ids9 : list (nat * nat) := match prefilter_all 50 (dvals e9) s8 qs9 [] with (Ok ts, _, _) => ts | _ => [] end.
Definition store9 : list query := (prefilter_all 50 (dvals e9) s8 qs9 []).2.
Example c43_tasks : ids9 = map (pair 0) (seq 0 10) ++ map (pair 1) (seq 0 4).
Proof. vm_compute. reflexivity. Qed.
Example c43_forward : (drain_all (dvals e9) (run_tasks s8 ids9 store9)).1 = [0; 1; 2; 5; 7; 9].
Proof. vm_compute. reflexivity. Qed.
Example c43_backward : (drain_all (dvals e9) (run_tasks s8 (rev ids9) store9)).1 = [2; 1; 0; 9; 7; 5].
Proof. vm_compute. reflexivity. Qed.
Example c43_runs : exists qs1 qs2, engine_run 50 e9 s8 qs9 (Ok [0; 1; 2; 5; 7; 9]) s8 qs1 /\ engine_run 50 e9 s8 qs9 (Ok [2; 1; 0; 9; 7; 5]) s8 qs2.
Proof.
  assert (E : prefilter_all 50 (dvals e9) s8 qs9 [] = (Ok ids9, s8, store9)).
  { assert (E1 : (prefilter_all 50 (dvals e9) s8 qs9 []).1.1 = Ok ids9) by (vm_compute; reflexivity).
    pose proof s8_reach as R. destruct c43_hyp as (_ & _ & Hr & _). destruct (QQuery.prefilter_all_eq s8 R 50 (dvals e9) qs9 []) as (ts & qs1 & E2 & _).
    - intros i Hi. destruct (Hr i Hi) as (q & ? & ? & ? & ?). exists q. auto.
    - unfold ids9, store9. rewrite E2. reflexivity. }
  assert (N : ids9 <> []) by (rewrite c43_tasks; discriminate).
  assert (D : remove_dups ids9 = ids9) by (vm_compute; reflexivity).
  exists (drain_all (dvals e9) (run_tasks s8 ids9 store9)).2, (drain_all (dvals e9) (run_tasks s8 (rev ids9) store9)).2. split.
  - eapply run_done; [exact E|exact N|rewrite D; reflexivity|]. rewrite <- c43_forward. apply surjective_pairing.
  - eapply run_done; [exact E|exact N|rewrite D; symmetry; apply Permutation_rev|]. rewrite <- c43_backward. apply surjective_pairing.
Qed.
(** C57: twice the same query *)
Example c57_twice : let e := add_query "b" 1 (add_query "a" 1 []) in
  match prefilter_all 50 (dvals e) s8 qs9 [] with
  | (Ok ts, _, qs1) => (drain_all (dvals e) (run_tasks s8 (remove_dups ts) qs1)).1 = [5; 7; 9; 5; 7; 9]
  | _ => False
  end.
Proof. vm_compute. reflexivity. Qed.
(** the second case of C43: a start that is neither accepted nor has accepted sub-elements (a port) *)
Example c43_nothing : prefilter_all 50 [0] s8 [new_query 6 is_rel (fun _ _ => true)] [] = (Ok [], s8, [new_query 6 is_rel (fun _ _ => true)]).
Proof.
  assert (E : execute_bfs 50 (q_trav (new_query 6 is_rel (fun _ _ => true))) q_visitor 6 s8 [] = (Ok [], set_fr_hier [] s8, [])) by (vm_compute; reflexivity).
  cbn [prefilter_all]. unfold prefilter. change ([new_query 6 is_rel (fun _ _ => true)] !! 0) with (Some (new_query 6 is_rel (fun _ _ => true))).
  cbn [q_start q_tasks new_query]. unfold new_query in E at 1. change (q_trav (new_query 6 is_rel (fun _ _ => true))) with (q_trav (mkQuery 6 is_rel (fun _ _ => true) [] [])) in *. 
  rewrite E. rewrite (QTrav2.set_fr_same s8 (proj1 (QTrav2.reach_fr s8 s8_reach))). reflexivity.
Qed.
