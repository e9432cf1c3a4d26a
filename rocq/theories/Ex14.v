(** * Non-vacuity of C69, C70 *)
From Coq Require Import QArith.
From Verif Require Import Spec SpecTrav Hierarchy Elements Factory History Traverse Homomorphism SpecHom HTraverse Tensor SpecTensor SpecHTrav ExBase Ex1 Ex6 Props14.
Local Open Scope nat_scope.

(** A root with two nodes and an edge; the first node has a node and an edge of its own. *)
Definition ops14 : list op :=
  [ OGenNode fac "r" None; OGenNode fac "a" (Some 0); OGenNode fac "b" (Some 0); OGenNode fac "c" (Some 1);
    OConnectNodes fac 0 "e" [1; 2] INWARDS None; OConnectNodes fac 1 "f" [3; 2] BIDIRECTIONAL None ].
Definition s14 : st := run ops14 s0.
(** The same with an edge back to the root. *)
Definition s14c : st := run (ops14 ++ [OConnectNodes fac 1 "back" [0; 3] OUTWARDS None]) s0.
Lemma s14_reach : reach s14.
Proof. apply run_reach; [apply reach_init|]. vm_compute. reflexivity. Qed.
Lemma s14c_reach : reach s14c.
Proof. apply run_reach; [apply reach_init|]. vm_compute. reflexivity. Qed.
Definition h14 := Eval vm_compute in heap s14.
Definition h14c := Eval vm_compute in heap s14c.
Lemma h14_eq : heap s14 = h14.
Proof. vm_compute. reflexivity. Qed.
Lemma h14c_eq : heap s14c = h14c.
Proof. vm_compute. reflexivity. Qed.

Definition followb (nf : list pyval -> res Qc) (h : list obj) (r : loc) : bool :=
  match norm_of nf h r, ep_of h r with
  | Some _, Some p => match kind_of h p with Some KEdge | Some KRel | None => false | Some _ => true end
  | _, _ => false
  end.
Lemma followb_ok nf h r : followb nf h r = true -> followable nf h r.
Proof.
  unfold followb, followable. destruct (norm_of nf h r) as [n|]; [|done]. destruct (ep_of h r) as [p|] eqn:Ep; [|done].
  destruct (kind_of h p) as [k|] eqn:Ek; [|done]. intros H. split; [by exists n|]. exists p, k. split; [done|]. split; [done|]. by destruct k.
Qed.
Lemma follow_all nf h l : forallb (followb nf h) l = true -> forall r, r ∈ l -> followable nf h r.
Proof. intros H r Hr. apply followb_ok. by apply (proj1 (forallb_forall _ _) H), elem_of_list_In. Qed.

(** The visitor records its arguments. *)
Definition note : hvisitor (loc * uid) (list (list (htuple (loc * uid)))) unit := fun c x => (Ok tt, x ++ [c]).
Definition brief (cs : list (list (htuple (loc * uid)))) : list (list (loc * loc * loc)) :=
  map (map (fun t => (fst (tu_0 t), fst (tu_1 t), fst (tu_e t)))) cs.
Example e14_levels : met h14 0 1 = [0] /\ met h14 0 2 = [0; 1; 2] /\ met h14 0 3 = [0; 1; 2; 3; 2] /\
  level (neighbours h14) 3 [0] = [] /\ htrav_work h14 0 3 = 11.
Proof. vm_compute. repeat split. Qed.
Lemma feed_note cs x : feed note cs x = (Ok (map (fun _ => tt) cs), x ++ cs).
Proof. revert x. induction cs as [|c cs IH]; intros x; cbn [feed map]; [by rewrite app_nil_r|]. unfold note at 1. rewrite IH. by rewrite <- app_assoc. Qed.
(** Depth 1: the root's relations only; unlimited: also those of the edge in 1. *)
Definition out1 : list (list (htuple (loc * uid))) := Eval vm_compute in flat_map (rel_calls sum_norm h14) (met_rels h14 0 1).
Definition out3 : list (list (htuple (loc * uid))) := Eval vm_compute in flat_map (rel_calls sum_norm h14) (met_rels h14 0 3).
Example e14_out : brief out1 = [[(1, 2, 4)]; [(2, 1, 4)]] /\
  brief out3 = [[(1, 2, 4)]; [(2, 1, 4)]; [(3, 2, 9)]; [(2, 3, 9)]; [(2, 3, 9)]; [(3, 2, 9)]].
Proof. vm_compute. split; reflexivity. Qed.
Example e14_depth1 : h_execute 100 ident_uuid sum_norm (Some 1) note 0 s14 [] = (Ok [tt; tt], s14, out1).
Proof.
  apply (C69_any_depth s14 0 sum_norm (Some 1) 1 _ _ note 100 [] [tt; tt] out1 s14_reach); rewrite ?h14_eq.
  - vm_compute. reflexivity.
  - vm_compute. reflexivity.
  - apply follow_all. vm_compute. reflexivity.
  - vm_compute. lia.
  - rewrite feed_note. vm_compute. reflexivity.
Qed.
Example e14_unlimited : h_execute 100 ident_uuid sum_norm None note 0 s14 [] = (Ok (repeat tt 6), s14, out3).
Proof.
  apply (C69_any_depth s14 0 sum_norm None 3 _ _ note 100 [] (repeat tt 6) out3 s14_reach); rewrite ?h14_eq.
  - vm_compute. reflexivity.
  - vm_compute. reflexivity.
  - apply follow_all. vm_compute. reflexivity.
  - vm_compute. lia.
  - rewrite feed_note. vm_compute. reflexivity.
Qed.
(** A visitor that refuses the third call *)
Definition picky : hvisitor (loc * uid) nat unit := fun _ n => if n =? 2 then (Exn ValueError, n) else (Ok tt, S n).
Example e14_fails : exists s', h_execute 100 ident_uuid sum_norm None picky 0 s14 0 = (Exn ValueError, s', 2) /\ heap s' = heap s14.
Proof.
  apply (C69_visitor_fails s14 0 sum_norm None 3 _ _ picky 100 0 ValueError 2 s14_reach); rewrite ?h14_eq.
  - vm_compute. reflexivity.
  - vm_compute. reflexivity.
  - apply follow_all. vm_compute. reflexivity.
  - vm_compute. lia.
  - vm_compute. reflexivity.
Qed.
(** The cycle root - a - root *)
Example e14_cycle_edges : neighbours h14c 0 = [1; 2] /\ neighbours h14c 1 = [3; 2; 0; 3] /\ neighbours h14c 2 = [] /\ neighbours h14c 3 = [].
Proof. vm_compute. repeat split. Qed.
Lemma met14c m x : x ∈ met h14c 0 m -> x ∈ [0; 1; 2; 3].
Proof.
  assert (H : forall k y, y ∈ level (neighbours h14c) k [0] -> y ∈ [0; 1; 2; 3]).
  { destruct e14_cycle_edges as (N0 & N1 & N2 & N3). induction k as [|k IH]; intros y Hy.
    - apply elem_of_list_singleton in Hy as ->. left.
    - cbn [level] in Hy. apply elem_of_list_In, in_flat_map in Hy as (z & Hz & Hy). apply elem_of_list_In in Hz, Hy. apply IH in Hz.
      set_unfold in Hz. destruct Hz as [->|[->|[->|[->|[]]]]]; rewrite ?N0, ?N1, ?N2, ?N3 in Hy; set_unfold; tauto. }
  unfold met, level_order. intros Hx. apply elem_of_list_In, in_flat_map in Hx as (k & _ & Hx). apply elem_of_list_In in Hx. by eapply H.
Qed.
Example e14_cycle lim : exists s' x', h_execute lim ident_uuid sum_norm None note 0 s14c [] = (Exn RecursionError, s', x') /\
  heap s' = heap s14c /\ fr_hyper s' <> [].
Proof.
  destruct e14_cycle_edges as (N0 & N1 & _).
  assert (L1 : leads h14c 0 1) by (apply leads_one; rewrite N0; left).
  assert (L2 : leads h14c 0 0) by (eapply leads_more; [exact L1|]; rewrite N1; right; right; left).
  apply (C70_cycle_fails s14c 0 0 sum_norm _ _ note lim [] s14c_reach); rewrite ?h14c_eq.
  - vm_compute. reflexivity.
  - by right.
  - exact L2.
  - intros m r Hr. unfold met_rels in Hr. apply elem_of_list_In, in_flat_map in Hr as (x & Hx & Hr). apply elem_of_list_In in Hx, Hr.
    apply met14c in Hx. apply (follow_all sum_norm h14c (flat_map (out_rels h14c) [0; 1; 2; 3])); [vm_compute; reflexivity|].
    apply elem_of_list_In, in_flat_map. exists x. split; by apply elem_of_list_In.
  - intros c x. by eexists _, _.
Qed.
