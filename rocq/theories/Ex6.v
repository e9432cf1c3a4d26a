(** * Non-vacuity of C32 - C37 *)
From Coq Require Import QArith.
From Verif Require Import Spec SpecTrav Hierarchy Elements Factory History Traverse Homomorphism SpecHom HTraverse Tensor SpecTensor ExBase Ex1 Props6.
Local Open Scope nat_scope.

(** Deciding [closed_graph] *)
Definition weightb (h : list obj) (r : loc) : bool :=
  match weight_of h r with
  | WNone => true
  | WVal v => match h !! v with
              | Some ov => match o_kind ov, numbers (o_vals ov) with KValue, Some _ => true | _, _ => false end
              | None => false
              end
  | WOther _ => false
  end.
Definition relb (h : list obj) (c : loc) (r : loc) : bool :=
  match ep_of h r with Some p => bool_decide (p ∈ nodes_of h c) | None => false end.
Definition all_rels (h : list obj) (c : loc) : list loc := flat_map (rels_of h) (edges_of h c).
Definition closedb (h : list obj) (c : loc) : bool :=
  match kind_of h c with Some KNode => forallb (fun r => relb h c r && weightb h r) (all_rels h c) | _ => false end.
Lemma all_rels_in h c e r : e ∈ edges_of h c -> r ∈ rels_of h e -> In r (all_rels h c).
Proof. intros H1 H2. apply in_flat_map. exists e. split; by apply elem_of_list_In. Qed.
Lemma closedb_ok h c : closedb h c = true -> closed_graph h c.
Proof.
  unfold closedb. destruct (kind_of h c) as [[]|] eqn:Ek; try done. intros H. pose proof (proj1 (forallb_forall _ _) H) as H'. split; [done| |].
  - intros e r H1 H2. pose proof (H' r (all_rels_in h c e r H1 H2)) as Hr. apply andb_true_iff in Hr as [Hr _]. unfold relb in Hr.
    destruct (ep_of h r) as [p|]; [|done]. exists p. split; [done|]. by apply bool_decide_eq_true in Hr.
  - intros e r H1 H2. pose proof (H' r (all_rels_in h c e r H1 H2)) as Hr. apply andb_true_iff in Hr as [_ Hr]. unfold weightb, weight_ok in *.
    destruct (weight_of h r) as [|v|]; try done. destruct (h !! v) as [ov|]; [|done]. destruct (o_kind ov) eqn:Eo; try done.
    destruct (numbers (o_vals ov)) as [qs|] eqn:Eq; [|done]. by exists ov, qs.
Qed.
Definition unwb (h : list obj) (c : loc) : bool := forallb (fun r => match weight_of h r with WNone => true | _ => false end) (all_rels h c).
Lemma unwb_ok h c : unwb h c = true -> unweighted h c.
Proof.
  intros H e r H1 H2. pose proof (proj1 (forallb_forall _ _) H r (all_rels_in h c e r H1 H2)) as X. cbv beta in X. by destruct (weight_of h r).
Qed.
Definition undb (h : list obj) (c : loc) : bool := forallb (fun r => match dir_of h r with Some BIDIRECTIONAL => true | _ => false end) (all_rels h c).
Lemma undb_ok h c : undb h c = true -> undirected h c.
Proof.
  intros H e r H1 H2. pose proof (proj1 (forallb_forall _ _) H r (all_rels_in h c e r H1 H2)) as X. cbv beta in X. by destruct (dir_of h r) as [[]|].
Qed.

(** The result as nested lists *)
Definition tensors_of (r : res (list unit) * st * option (hom * option tensors)) : option tensors :=
  match r.2 with Some (_, T) => T | None => None end.
Definition tab2 (n m : nat) (f : nat -> nat -> Qc) : list (list Q) := map (fun i => map (fun j => this (f i j)) (seq 0 m)) (seq 0 n).
Definition tab3 (e n : nat) (f : nat -> nat -> nat -> Qc) : list (list (list Q)) := map (fun k => tab2 n n (f k)) (seq 0 e).
Definition show (s : st) (c : loc) : option (list (list (list Q)) * list (list Q) * list (list Q)) :=
  match tensors_of (transform 100 (Some 1) c s) with
  | Some T => Some (tab3 (te_E T) (te_n T) (te_W T), tab2 (te_E T) (te_n T) (te_Io T), tab2 (te_E T) (te_n T) (te_Ii T))
  | None => None
  end.
Lemma computes_some s c tasks s' x T : transform 100 (Some 1) c s = (Ok tasks, s', Some (x, Some T)) -> computes 100 c s x T.
Proof. intros H. by exists tasks, s'. Qed.

(** simple_directed_graph_creation of the repository's tests *)
Definition three := [OGenNode fac "n" None; OGenNode fac "n0" (Some 0); OGenNode fac "n1" (Some 0); OGenNode fac "n2" (Some 0)].
Definition s_dir : st := run (three ++ [OHyperedge fac 0 "e12"; OUnary 4 1 WNone INWARDS None; OUnary 4 2 WNone OUTWARDS None;
  OHyperedge fac 0 "e23"; OUnary 9 1 WNone INWARDS None; OUnary 9 3 WNone OUTWARDS None]) s0.
Lemma s_dir_reach : reach s_dir.
Proof. apply run_reach; [apply reach_init|]. vm_compute. reflexivity. Qed.
Example s_dir_hyp : closed_graph (heap s_dir) 0 /\ unweighted (heap s_dir) 0 /\ work (heap s_dir) 0 < 100.
Proof. split; [apply closedb_ok; vm_compute; reflexivity|]. split; [apply unwb_ok; vm_compute; reflexivity|]. apply Nat.ltb_lt. vm_compute. reflexivity. Qed.
(** test_simple_directed_graph_representation, _degree *)
Example s_dir_tensors : show s_dir 0 =
  Some ([[[0; 1; 0]; [0; 0; 0]; [0; 0; 0]]; [[0; 0; 1]; [0; 0; 0]; [0; 0; 0]]], [[1; 0; 0]; [1; 0; 0]], [[0; 1; 0]; [0; 0; 1]])%Q.
Proof. vm_compute. reflexivity. Qed.
Example s_dir_deg : (fun T => (map (fun i => this (degree_matrix T i)) [0; 1; 2], this (total_deg T))) <$> tensors_of (transform 100 (Some 1) 0 s_dir) =
  Some ([2; 1; 1], 4)%Q.
Proof. vm_compute. reflexivity. Qed.

(** Two undirected edges with three endpoints each *)
Definition s_three : st := run (three ++ [OGenNode fac "n3" (Some 0); OConnectNodes fac 0 "e" [1; 2; 3] BIDIRECTIONAL None;
  OConnectNodes fac 0 "f" [4; 2; 3] BIDIRECTIONAL None]) s0.
Lemma s_three_reach : reach s_three.
Proof. apply run_reach; [apply reach_init|]. vm_compute. reflexivity. Qed.
Example s_three_hyp : closed_graph (heap s_three) 0 /\ unweighted (heap s_three) 0 /\ undirected (heap s_three) 0 /\ work (heap s_three) 0 < 100 /\
  map (arity (heap s_three)) (edges_of (heap s_three) 0) = [3; 3].
Proof.
  split; [apply closedb_ok; vm_compute; reflexivity|]. split; [apply unwb_ok; vm_compute; reflexivity|]. split; [apply undb_ok; vm_compute; reflexivity|].
  split; [apply Nat.ltb_lt; vm_compute; reflexivity|]. vm_compute. reflexivity.
Qed.
Definition lap_sum (T : tensors) : option (list (list Q)) :=
  match laplacian T with Ok L => Some (tab2 (te_n T) (te_n T) (fun i j => qsum (te_E T) (fun k => L k i j))) | Exn _ => None end.
Example s_three_laplacians :
  (fun T => (lap_sum T, tab2 (te_n T) (te_n T) (projected_laplacian T))) <$> tensors_of (transform 100 (Some 1) 0 s_three) =
  let M := [[1; -1; -1; 0]; [-1; 2; -2; -1]; [-1; -2; 2; -1]; [0; -1; -1; 1]]%Q in Some (Some M, M).
Proof. vm_compute. reflexivity. Qed.

(** One undirected edge with two endpoints: C35's sums differ, C37's error *)
Definition s_two : st := run (three ++ [OConnectNodes fac 0 "e" [1; 2] BIDIRECTIONAL None]) s0.
Lemma s_two_reach : reach s_two.
Proof. apply run_reach; [apply reach_init|]. vm_compute. reflexivity. Qed.
Example s_two_hyp : closed_graph (heap s_two) 0 /\ unweighted (heap s_two) 0 /\ undirected (heap s_two) 0 /\ work (heap s_two) 0 < 100 /\
  edges_of (heap s_two) 0 = [4] /\ arity (heap s_two) 4 = 2.
Proof.
  split; [apply closedb_ok; vm_compute; reflexivity|]. split; [apply unwb_ok; vm_compute; reflexivity|]. split; [apply undb_ok; vm_compute; reflexivity|].
  split; [apply Nat.ltb_lt; vm_compute; reflexivity|]. vm_compute. split; reflexivity.
Qed.
Example s_two_laplacians :
  (fun T => (lap_sum T, tab2 (te_n T) (te_n T) (projected_laplacian T))) <$> tensors_of (transform 100 (Some 1) 0 s_two) =
  Some (Some [[1#2; -1; 0]; [-1; 1#2; 0]; [0; 0; 0]], [[1; -1; 0]; [-1; 1; 0]; [0; 0; 0]])%Q.
Proof. vm_compute. reflexivity. Qed.
Example s_two_entropy : (fun T => normalized_laplacian (fun x => x) T) <$> tensors_of (transform 100 (Some 1) 0 s_two) = Some (Exn ZeroDivisionError).
Proof. vm_compute. reflexivity. Qed.

(** C32: 1 and 2 INWARDS on the same edge: W[1][2] and W[2][1] are 1 *)
Definition s_inin : st := run (three ++ [OHyperedge fac 0 "e"; OUnary 4 1 WNone INWARDS None; OUnary 4 2 WNone INWARDS None; OUnary 4 3 WNone OUTWARDS None]) s0.
Lemma s_inin_reach : reach s_inin.
Proof. apply run_reach; [apply reach_init|]. vm_compute. reflexivity. Qed.
Example s_inin_hyp : closed_graph (heap s_inin) 0 /\ unweighted (heap s_inin) 0 /\ work (heap s_inin) 0 < 100.
Proof. split; [apply closedb_ok; vm_compute; reflexivity|]. split; [apply unwb_ok; vm_compute; reflexivity|]. apply Nat.ltb_lt. vm_compute. reflexivity. Qed.
Example s_inin_tensors : show s_inin 0 = Some ([[[0; 1; 1]; [1; 0; 1]; [0; 0; 0]]], [[1; 1; 0]], [[1; 1; 1]])%Q.
Proof. vm_compute. reflexivity. Qed.

(** C36: weights 2+3, 7 and 1-1 *)
Definition s_w : st := run (three ++ [OCreateValue fac None "v" (Some [PNum (Q2Qc (inject_Z 2)); PNum (Q2Qc (inject_Z 3))]); OCreateValue fac None "w" (Some [PNum (Q2Qc (inject_Z 7))]);
  OCreateValue fac None "z" (Some [PNum (Q2Qc (inject_Z 1)); PNum (Q2Qc (inject_Z (-1)))]);
  OConnectNodes fac 0 "e" [1; 2; 3] BIDIRECTIONAL (Some [WVal 4; WVal 5; WVal 6])]) s0.
Lemma s_w_reach : reach s_w.
Proof. apply run_reach; [apply reach_init|]. vm_compute. reflexivity. Qed.
Example s_w_hyp : closed_graph (heap s_w) 0 /\ work (heap s_w) 0 < 100.
Proof. split; [apply closedb_ok; vm_compute; reflexivity|]. apply Nat.ltb_lt. vm_compute. reflexivity. Qed.
Example s_w_tensors : show s_w 0 = Some ([[[0; 7; 5]; [7; 0; 7]; [5; 7; 0]]], [[7; 7; 7]], [[7; 7; 7]])%Q.
Proof. vm_compute. reflexivity. Qed.
