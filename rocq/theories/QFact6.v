(** * Factor pairs and tensor entries *)
From stdpp Require Import relations.
From Verif Require Import Spec Hierarchy Elements Factory History PDict PPath PExec PMono PWF PReach QHier2 SpecTrav SpecHom Traverse Homomorphism HTraverse Tensor SpecTensor QTensor3 Factorization SpecFact QFact4 QConv10 SpecFact3 SpecIso Props6.
Local Open Scope nat_scope.

Section s.
  Context (s : st) (R : reach s) (c : loc) (C : closed_graph (heap s) c) (sel : list loc) (A : all_of (heap s) c sel).
  Let h := heap s.
  Let W : WF0 h := reach_wf s R.
  Lemma kid_kind (f : kind -> bool) l : l ∈ fkids (is_kind f) h c -> l ∈ children h c /\ exists k, kind_of h l = Some k /\ f k = true.
  Proof.
    unfold fkids. rewrite elem_of_list_filter. unfold accepts, is_kind, kind_of. intros [H1 H2]. split; [done|]. destruct (h !! l) as [o|]; [|done]. by exists (o_kind o).
  Qed.
  Lemma node_kid l : l ∈ nodes_of h c -> l ∈ children h c /\ kind_of h l = Some KNode.
  Proof. intros H. apply kid_kind in H as (H & k & Hk & E). split; [done|]. by destruct k. Qed.
  Lemma edge_kid l : l ∈ edges_of h c -> l ∈ children h c /\ kind_of h l = Some KEdge.
  Proof. intros H. apply kid_kind in H as (H & k & Hk & E). split; [done|]. by destruct k. Qed.
  Lemma sel_exists l : l ∈ sel -> exists_in h l.
  Proof. intros H. apply A in H as [H|H]; [apply node_kid in H as [H _]|apply edge_kid in H as [H _]]; apply (wf0_child h W c l H). Qed.
  Lemma sel_edges e : e ∈ selected h KEdge sel <-> e ∈ edges_of h c.
  Proof.
    unfold selected. rewrite elem_of_list_filter, (A e). fold h. split.
    - intros [Hk [H|H]]; [|done]. apply node_kid in H as [_ H]. rewrite H in Hk. discriminate Hk.
    - intros H. split; [apply (edge_kid e H)|by right].
  Qed.
  Lemma ep_sel e r a : e ∈ edges_of h c -> r ∈ rels_of h e -> ep_of h r = Some a -> ep_selected h sel r.
  Proof.
    intros He Hr Ha. destruct (cg_ep _ _ C e r He Hr) as (p & Hp & Hn). fold h in Hp, Hn. rewrite Ha in Hp. injection Hp as <-. unfold ep_selected. rewrite Ha. split; [apply A; by left|]. apply (node_kid a Hn).
  Qed.
  Definition graph_pairs : list (loc * loc) := flat_map (fun e => filter (admissible h sel false) (all_pairs (rels_of h e) (rels_of h e))) (selected h KEdge sel).
  Lemma graph_pairs_eq : fact_subset false sel s = Ok graph_pairs.
  Proof. apply (r_C38 false sel s R). apply sel_exists. Qed.
  Lemma graph_pairs_in i o : (i, o) ∈ graph_pairs <-> exists e, e ∈ edges_of h c /\ i ∈ rels_of h e /\ o ∈ rels_of h e /\ admissible h sel false (i, o).
  Proof.
    unfold graph_pairs. rewrite elem_of_list_In, in_flat_map. split.
    - intros (e & He & Hp). apply elem_of_list_In, sel_edges in He. apply elem_of_list_In, elem_of_list_filter in Hp as [Ha Hp]. apply all_pairs_in in Hp as [H1 H2]. by exists e.
    - intros (e & He & H1 & H2 & Ha). exists e. split; [by apply elem_of_list_In, sel_edges|]. apply elem_of_list_In, elem_of_list_filter. split; [done|]. by apply all_pairs_in.
  Qed.
  Lemma kid_kind' e r : r ∈ rels_of h e -> parent_of h r = Some e.
  Proof. intros H. unfold rels_of, fkids in H. apply elem_of_list_filter in H as [_ H]. apply (wf0_child h W e r H). Qed.
  Lemma pair_nodes e a b p : e ∈ edges_of h c -> pair_through h e a b p -> p ∈ graph_pairs -> a <> b /\ in_and_out h e a b.
  Proof.
    destruct p as [i o]. intros He (H1 & H2 & H3 & H4) Hp. cbn in H1, H2, H3, H4. apply graph_pairs_in in Hp as (e' & _ & _ & _ & Ha). destruct Ha as (A1 & A2 & _ & _ & A5). cbn in A1, A2. split.
    - intros ->. unfold no_loop in A5. cbn in A5. rewrite H3, H4 in A5. by destruct A5.
    - split; [by exists i|by exists o].
  Qed.
  Lemma pair_exists e a b : e ∈ edges_of h c -> ((exists p, p ∈ graph_pairs /\ pair_through h e a b p) <-> a <> b /\ in_and_out h e a b).
  Proof.
    intros He. split; [intros (p & Hp & Ht); by eapply pair_nodes|]. intros (Hab & (i & Hi & Ea & Ii) & (o & Ho & Eb & Oo)). exists (i, o). split; [|done].
    apply graph_pairs_in. exists e. split; [done|]. split; [done|]. split; [done|]. split; [done|]. split; [done|]. split; [by eapply ep_sel|]. split; [by eapply ep_sel|].
    unfold no_loop. cbn. rewrite Ea, Eb. right. intros E. apply Hab.
    destruct (cg_ep _ _ C e i He Hi) as (p & Hp & Hn). destruct (cg_ep _ _ C e o He Ho) as (q & Hq & Hm). fold h in Hp, Hn, Hq, Hm. rewrite Ea in Hp. rewrite Eb in Hq. injection Hp as <-. injection Hq as <-.
    apply (uuid_unique h c a b W); [apply (node_kid a Hn)|apply (node_kid b Hm)|done].
  Qed.
  Lemma every_pair p : p ∈ graph_pairs -> exists e a b, e ∈ edges_of h c /\ a ∈ nodes_of h c /\ b ∈ nodes_of h c /\ pair_through h e a b p.
  Proof.
    destruct p as [i o]. intros Hp. apply graph_pairs_in in Hp as (e & He & H1 & H2 & _). destruct (cg_ep _ _ C e i He H1) as (a & Ha & Hn). destruct (cg_ep _ _ C e o He H2) as (b & Hb & Hm). by exists e, a, b.
  Qed.
  Lemma in_endpoints e r a : r ∈ rels_of h e -> ep_of h r = Some a -> a ∈ endpoints h e.
  Proof. intros Hr Ha. unfold endpoints. apply elem_of_list_omap. by exists r. Qed.
  Lemma io_adjacent e a b : a <> b -> in_and_out h e a b -> adjacent h e a b.
  Proof.
    intros Hab ((r & Hr & Ea & Ir) & (r' & Hr' & Eb & Or)). split; [done|]. split; [exact (in_endpoints e r a Hr Ea)|]. split; [exact (in_endpoints e r' b Hr' Eb)|]. exists r. split; [done|]. by left.
  Qed.
  Lemma undirected_io e a b : undirected h c -> e ∈ edges_of h c -> adjacent h e a b -> a <> b /\ in_and_out h e a b.
  Proof.
    intros U He (Hab & Ha & Hb & _). split; [done|]. unfold endpoints in Ha, Hb. apply elem_of_list_omap in Ha as (r & Hr & Ea). apply elem_of_list_omap in Hb as (r' & Hr' & Eb).
    split; [exists r|exists r']; (split; [done|]; split; [done|]); right; by apply (U e).
  Qed.
  Lemma two_rel_io e a b ri ro x y : rels_of h e ≡ₚ [ri; ro] -> dir_of h ri = Some INWARDS -> dir_of h ro = Some OUTWARDS -> ep_of h ri = Some x -> ep_of h ro = Some y ->
    adjacent h e a b -> a <> b /\ in_and_out h e a b.
  Proof.
    intros P Di Do Ex Ey (Hab & Ha & Hb & r & Hr & Hd). split; [done|].
    assert (Hi : ri ∈ rels_of h e) by (rewrite P; left). assert (Ho : ro ∈ rels_of h e) by (rewrite P; right; left).
    assert (K : forall z, z ∈ endpoints h e -> z = x \/ z = y).
    { intros z Hz. unfold endpoints in Hz. apply elem_of_list_omap in Hz as (q & Hq & Ez). rewrite P in Hq. apply elem_of_cons in Hq as [->|Hq]; [left; congruence|]. apply elem_of_list_singleton in Hq as ->. right; congruence. }
    assert (G : a = x /\ b = y).
    { rewrite P in Hr. apply elem_of_cons in Hr as [->|Hr]; [|apply elem_of_list_singleton in Hr as ->].
      - destruct Hd as [[E _]|[_ [E|E]]]; [|rewrite Di in E; discriminate E..]. rewrite Ex in E. injection E as <-. split; [done|]. destruct (K b Hb) as [->| ->]; done.
      - destruct Hd as [[_ [E|E]]|[E _]]; [rewrite Do in E; discriminate E..|]. rewrite Ey in E. injection E as <-. split; [|done]. destruct (K a Ha) as [->| ->]; done. }
    destruct G as [-> ->]. split; [exists ri|exists ro]; (split; [done|]; split; [done|]); by left.
  Qed.

  Context (lim : nat) (Hlim : work h c < lim) (x : hom) (T0 : tensors) (HT : computes lim c s x T0) (U : unweighted h c).
  Lemma entry_iff k e i a j b : edges_of h c !! k = Some e -> nodes_of h c !! i = Some a -> nodes_of h c !! j = Some b ->
    (adjacent h e a b -> te_W T0 k i j = 1%Qc) /\ (~ adjacent h e a b -> te_W T0 k i j = 0%Qc).
  Proof. apply (proj1 (C32_entries_adjacency s c lim x T0 R C Hlim HT U)). Qed.
  Lemma one_not_zero : (1 <> 0)%Qc.
  Proof. discriminate. Qed.
  Definition has_pair e a b : Prop := exists p, p ∈ graph_pairs /\ pair_through h e a b p.
  Lemma pair_entry k e i a j b : edges_of h c !! k = Some e -> nodes_of h c !! i = Some a -> nodes_of h c !! j = Some b ->
    has_pair e a b -> te_W T0 k i j = 1%Qc.
  Proof.
    intros He Ha Hb Hp. apply (pair_exists e a b (elem_of_list_lookup_2 _ _ _ He)) in Hp as [Hab Hio]. apply (entry_iff k e i a j b He Ha Hb). by apply io_adjacent.
  Qed.
  Lemma entry_adjacent k e i a j b : edges_of h c !! k = Some e -> nodes_of h c !! i = Some a -> nodes_of h c !! j = Some b ->
    te_W T0 k i j <> 0%Qc -> adjacent h e a b.
  Proof. intros He Ha Hb Hw. destruct (decide (adjacent h e a b)) as [K|K]; [done|]. destruct Hw. by apply (entry_iff k e i a j b He Ha Hb). Qed.
  Lemma agree k e i a j b : edges_of h c !! k = Some e -> nodes_of h c !! i = Some a -> nodes_of h c !! j = Some b ->
    (adjacent h e a b -> a <> b /\ in_and_out h e a b) -> (te_W T0 k i j <> 0%Qc <-> has_pair e a b).
  Proof.
    intros He Ha Hb K. split.
    - intros Hw. apply (pair_exists e a b (elem_of_list_lookup_2 _ _ _ He)). apply K. by eapply entry_adjacent.
    - intros Hp. rewrite (pair_entry k e i a j b He Ha Hb Hp). apply one_not_zero.
  Qed.
  Lemma pairs_have_entries p : p ∈ graph_pairs -> exists k e i a j b, edges_of h c !! k = Some e /\ nodes_of h c !! i = Some a /\ nodes_of h c !! j = Some b /\
    pair_through h e a b p /\ te_W T0 k i j = 1%Qc.
  Proof.
    intros Hp. destruct (every_pair p Hp) as (e & a & b & He & Ha & Hb & Ht). apply elem_of_list_lookup in He as [k He]. apply elem_of_list_lookup in Ha as [i Ha]. apply elem_of_list_lookup in Hb as [j Hb].
    exists k, e, i, a, j, b. split; [done|]. split; [done|]. split; [done|]. split; [done|]. apply (pair_entry k e i a j b He Ha Hb). by exists p.
  Qed.
  Lemma entries_without_pair k e i a j b : edges_of h c !! k = Some e -> nodes_of h c !! i = Some a -> nodes_of h c !! j = Some b ->
    a <> b -> a ∈ endpoints h e -> b ∈ endpoints h e -> (forall r, r ∈ rels_of h e -> dir_of h r = Some INWARDS) ->
    te_W T0 k i j = 1%Qc /\ te_W T0 k j i = 1%Qc /\ forall p, p ∈ graph_pairs -> p.1 ∉ rels_of h e.
  Proof.
    intros He Ha Hb Hab Ea Eb D. assert (Heh : e ∈ edges_of h c) by (by eapply elem_of_list_lookup_2).
    assert (K : forall a b, a <> b -> a ∈ endpoints h e -> b ∈ endpoints h e -> adjacent h e a b).
    { intros u v Huv Hu Hv. split; [done|]. split; [done|]. split; [done|]. pose proof Hu as Hu'. unfold endpoints in Hu'. apply elem_of_list_omap in Hu' as (r & Hr & Er). exists r. split; [done|]. left. split; [done|]. left. by apply D. }
    split; [apply (entry_iff k e i a j b He Ha Hb); by apply K|]. split; [apply (entry_iff k e j b i a He Hb Ha); by apply K|].
    intros [r o] Hp Hr. cbn in Hr. apply graph_pairs_in in Hp as (e' & _ & H1 & H2 & Ad). destruct Ad as (_ & A2 & _). cbn in A2.
    assert (e' = e) as ->.
    { apply kid_kind' in Hr. apply kid_kind' in H1. rewrite Hr in H1. by injection H1. }
    pose proof (D o H2) as Do. destruct A2 as [A2|A2]; rewrite Do in A2; discriminate A2.
  Qed.
End s.
