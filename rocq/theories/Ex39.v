(** * Non-vacuity of C102 *)
From stdpp Require Import relations.
From Verif Require Import Spec SpecTrav Hierarchy Elements Factory History Traverse Homomorphism HTraverse Tensor SpecTensor Factorization SpecFact SpecFact3 ExBase Ex1 Ex6 Ex30 Ex31 Props6 Props39.
Local Open Scope nat_scope.

(** Edge 4 leads from node 1 to node 2; edge [f39] is entered from nodes 1 and 3, and never left. *)
Definition ops39 : list op := three ++ [OHyperedge fac 0 "e"; OUnary 4 1 WNone INWARDS None; OUnary 4 2 WNone OUTWARDS None].
Definition f39 := Eval vm_compute in length (heap (run ops39 s0)).
Definition s39 : st := run (ops39 ++ [OHyperedge fac 0 "f"; OUnary f39 1 WNone INWARDS None; OUnary f39 3 WNone INWARDS None]) s0.
Lemma s39_reach : reach s39.
Proof. apply run_reach; [apply reach_init|]. vm_compute. reflexivity. Qed.
Lemma hyp39 : closed_graph (heap s39) 0 /\ work (heap s39) 0 < 100 /\ unweighted (heap s39) 0.
Proof. split; [apply closedb_ok; vm_compute; reflexivity|]. split; [apply Nat.ltb_lt; vm_compute; reflexivity|]. apply unwb_ok; vm_compute; reflexivity. Qed.
Definition sel39 : list loc := [f39; 3; 1; 4; 2].
Lemma all_ok h c n e f a b d : nodes_of h c = [a; b; d] -> edges_of h c = [e; f] -> n = [f; d; a; e; b] -> all_of h c n.
Proof. intros E1 E2 -> l. rewrite E1, E2, !elem_of_cons, elem_of_nil. tauto. Qed.
Lemma sel39_all : all_of (heap s39) 0 sel39.
Proof. apply (all_ok _ _ _ 4 f39 1 2 3); vm_compute; reflexivity. Qed.
Example shape39 : rels_of (heap s39) 4 = [5; 7] /\ rels_of (heap s39) f39 = [10; 12] /\ endpoints (heap s39) f39 = [1; 3] /\ edges_of (heap s39) 0 = [4; f39] /\ nodes_of (heap s39) 0 = [1; 2; 3] /\
  dir_of (heap s39) 5 = Some INWARDS /\ dir_of (heap s39) 7 = Some OUTWARDS /\ fact_subset false sel39 s39 = Ok [(5, 7)].
Proof. vm_compute. repeat split. Qed.
Lemma dirs39 : forallb (fun r => match dir_of (heap s39) r with Some INWARDS => true | _ => false end) (rels_of (heap s39) f39) = true.
Proof. vm_compute. reflexivity. Qed.
Lemma all_in h e : forallb (fun r => match dir_of h r with Some INWARDS => true | _ => false end) (rels_of h e) = true -> forall r, r ∈ rels_of h e -> dir_of h r = Some INWARDS.
Proof.
  intros H r Hr. apply elem_of_list_In in Hr. pose proof (proj1 (forallb_forall _ _) H r Hr) as K. cbv beta in K. destruct (dir_of h r) as [[]|]; try discriminate K. reflexivity.
Qed.
(** All theorems apply. *)
Lemma applies s c sel lim e f r r' a b d ps : reach s -> closed_graph (heap s) c -> work (heap s) c < lim -> unweighted (heap s) c -> all_of (heap s) c sel ->
  edges_of (heap s) c = [e; f] -> nodes_of (heap s) c = [a; b; d] -> rels_of (heap s) e = [r; r'] -> dir_of (heap s) r = Some INWARDS -> dir_of (heap s) r' = Some OUTWARDS ->
  endpoints (heap s) f = [a; d] -> a <> d -> (forall q, q ∈ rels_of (heap s) f -> dir_of (heap s) q = Some INWARDS) -> fact_subset false sel s = Ok ps ->
  exists x T, computes lim c s x T /\ (te_W T 0 0 1 <> 0%Qc <-> exists p, p ∈ ps /\ pair_through (heap s) e a b p) /\
    (forall p, p ∈ ps -> exists k e i a j b, edges_of (heap s) c !! k = Some e /\ nodes_of (heap s) c !! i = Some a /\ nodes_of (heap s) c !! j = Some b /\ pair_through (heap s) e a b p /\ te_W T k i j = 1%Qc) /\
    te_W T 1 0 2 = 1%Qc /\ te_W T 1 2 0 = 1%Qc /\ forall p, p ∈ ps -> p.1 ∉ rels_of (heap s) f.
Proof.
  intros R C L U A He Hn Hr D D' Hf Had Hd E. destruct (computed s c lim R C L ltac:(rewrite He; discriminate)) as (x & T & HC). exists x, T. split; [exact HC|]. split; [|split].
  - apply (C102_agree s c sel lim x T ps 0 e 0 a 1 b R C A L HC U E); [by rewrite He|by rewrite Hn|by rewrite Hn|]. right. exists r, r'. by rewrite Hr.
  - intros p Hp. exact (C102_pairs_have_entries s c sel lim x T ps p R C A L HC U E Hp).
  - apply (C102_entries_refuted s c sel lim x T ps 1 f 0 a 2 d R C A L HC U E); [by rewrite He|by rewrite Hn|by rewrite Hn|exact Had|rewrite Hf; left|rewrite Hf; right; left|exact Hd].
Qed.
Lemma dirs39' : forall r, r ∈ rels_of (heap s39) f39 -> dir_of (heap s39) r = Some INWARDS.
Proof. exact (all_in (heap s39) f39 dirs39). Qed.
Lemma ne13 : 1 <> 3.
Proof. discriminate. Qed.
Lemma short s c lim e f a b (ps : list (loc * loc)) : (exists x T, computes lim c s x T /\ (te_W T 0 0 1 <> 0%Qc <-> exists p, p ∈ ps /\ pair_through (heap s) e a b p) /\
    (forall p, p ∈ ps -> exists k e i a j b, edges_of (heap s) c !! k = Some e /\ nodes_of (heap s) c !! i = Some a /\ nodes_of (heap s) c !! j = Some b /\ pair_through (heap s) e a b p /\ te_W T k i j = 1%Qc) /\
    te_W T 1 0 2 = 1%Qc /\ te_W T 1 2 0 = 1%Qc /\ forall p, p ∈ ps -> p.1 ∉ rels_of (heap s) f) ->
  exists x T, computes lim c s x T /\ (te_W T 0 0 1 <> 0%Qc <-> exists p, p ∈ ps /\ pair_through (heap s) e a b p) /\ te_W T 1 0 2 = 1%Qc /\ te_W T 1 2 0 = 1%Qc.
Proof. intros (x & T & H1 & H2 & _ & H3 & H4 & _). exists x, T. tauto. Qed.
Example c102_applies : exists x T, computes 100 0 s39 x T /\ (te_W T 0 0 1 <> 0%Qc <-> exists p, p ∈ [(5, 7)] /\ pair_through (heap s39) 4 1 2 p) /\
    te_W T 1 0 2 = 1%Qc /\ te_W T 1 2 0 = 1%Qc.
Proof.
  destruct hyp39 as (C & L & U). destruct shape39 as (E1 & E2 & E3 & E4 & E5 & E6 & E7 & E8).
  apply (short s39 0 100 4 f39 1 2 [(5, 7)]).
  apply (applies s39 0 sel39 100 4 f39 5 7 1 2 3 [(5, 7)]); [exact s39_reach|exact C|exact L|exact U|exact sel39_all|exact E4|exact E5|exact E1|exact E6|exact E7|exact E3|exact ne13|exact dirs39'|exact E8].
Qed.
(** undirected: C102_agree applies to the graph of Ex30 *)
Example c102_undirected : undirected (heap s30) 0 /\ closed_graph (heap s30) 0.
Proof. exact (conj (proj2 (proj1 hyp31)) (proj1 hyp30)). Qed.
