(** * The two factorisations of one selection *)
From stdpp Require Import relations.
From Verif Require Import Spec Hierarchy Elements Factory History PDict PPath PExec PMono PWF PReach SpecTrav SpecTensor Factorization SpecFact QFact QFact2 QFact3 QFact4 QConv10 SpecFact2.

Section s.
  Context (s : st) (R : reach s) (sel : list loc) (Hsel : whole_selection (heap s) sel).
  Let h := heap s.
  Let W : WF0 h := reach_wf s R.
  Lemma rels_in e r : r ∈ rels_of h e <-> r ∈ children h e /\ kind_of h r = Some KRel.
  Proof.
    unfold rels_of, fkids. rewrite elem_of_list_filter. unfold accepts, is_kind, kind_of. destruct (h !! r) as [o|]; cbn; [|naive_solver].
    destruct (o_kind o); cbn; naive_solver.
  Qed.
  Lemma rels_parent e r : r ∈ rels_of h e -> parent_of h r = Some e.
  Proof. intros H. apply rels_in in H as [H _]. apply (wf0_child h W e r H). Qed.
  Lemma rels_puuid e r : r ∈ rels_of h e -> puuid h r = uuid_of h e.
  Proof. intros H. unfold puuid. by rewrite (rels_parent e r H). Qed.
  Lemma sel_in k l : l ∈ selected h k sel <-> l ∈ sel /\ kind_of h l = Some k.
  Proof. unfold selected. rewrite elem_of_list_filter. tauto. Qed.
  Lemma w_complete : rels_complete h sel.
  Proof.
    intros r Hr Hk. destruct Hsel as (_ & H2 & _). destruct (proj1 (H2 r) (conj Hr Hk)) as (e & _ & _ & He & Hp). split; [exists e; by apply rels_parent|].
    fold h in Hp. unfold ep_selected in Hp. destruct (ep_of h r) as [a|]; [by exists a|done].
  Qed.
  Lemma same_edge r r' : r ∈ selected h KRel sel -> r' ∈ selected h KRel sel -> puuid h r = puuid h r' ->
    exists e, e ∈ sel /\ kind_of h e = Some KEdge /\ r ∈ rels_of h e /\ r' ∈ rels_of h e /\ ep_selected h sel r /\ ep_selected h sel r'.
  Proof.
    intros Hr Hr' E. destruct Hsel as (_ & H2 & H3). apply sel_in, H2 in Hr as (e & He & Hk & Hre & Hp). apply sel_in, H2 in Hr' as (e' & He' & Hk' & Hre' & Hp').
    fold h in Hre, Hre', Hp, Hp'. rewrite (rels_puuid e r Hre), (rels_puuid e' r' Hre') in E. assert (e = e') as <- by (by apply H3). by exists e.
  Qed.
  Lemma bal_iff : edges_balanced h sel <-> balanced h sel.
  Proof.
    destruct Hsel as (_ & H2 & H3). split.
    - intros B r Hr Hi. pose proof Hr as Hr0. apply sel_in in Hr as [Hr Hk]. destruct (proj1 (H2 r) (conj Hr Hk)) as (e & He & Hke & Hre & _). fold h in Hke, Hre.
      destruct (B e r He Hke Hr Hre Hi) as (r' & Hs & Hr' & Hd). exists r'. split; [apply sel_in; split; [done|]; exact (proj2 (proj1 (rels_in e r') Hr'))|]. split; [done|].
      by rewrite (rels_puuid e r Hre), (rels_puuid e r' Hr').
    - intros B e r He Hk Hr Hre Hi. assert (Hkr : kind_of h r = Some KRel) by (exact (proj2 (proj1 (rels_in e r) Hre))). assert (Hr0 : r ∈ selected h KRel sel) by (by apply sel_in).
      destruct (B r Hr0 Hi) as (r' & Hs & Hd & E). destruct (same_edge r r' Hr0 Hs (eq_sym E)) as (e' & _ & _ & A1 & A2 & _). exists r'. split; [exact (proj1 (proj1 (sel_in KRel r') Hs))|]. split; [|done].
      pose proof (rels_parent e r Hre) as P1. pose proof (rels_parent e' r A1) as P2. rewrite P1 in P2. apply (inj Some) in P2. by subst e'.
  Qed.
  Definition subset_pairs (b : bool) : list (loc * loc) := flat_map (fun e => filter (admissible h sel b) (all_pairs (rels_of h e) (rels_of h e))) (selected h KEdge sel).
  Lemma subset_pairs_in b i o : (i, o) ∈ subset_pairs b <-> exists e, e ∈ selected h KEdge sel /\ i ∈ rels_of h e /\ o ∈ rels_of h e /\ admissible h sel b (i, o).
  Proof.
    unfold subset_pairs. rewrite elem_of_list_In, in_flat_map. split.
    - intros (e & He & Hp). apply elem_of_list_In in He. apply elem_of_list_In, elem_of_list_filter in Hp as [Ha Hp]. apply all_pairs_in in Hp as [H1 H2]. by exists e.
    - intros (e & He & H1 & H2 & Ha). exists e. split; [by apply elem_of_list_In|]. apply elem_of_list_In, elem_of_list_filter. split; [done|]. by apply all_pairs_in.
  Qed.
  Lemma pairs_iff b i o : (i, o) ∈ rel_pairs h b (selected h KRel sel) <-> (i, o) ∈ subset_pairs b /\ dir_of h o <> Some BIDIRECTIONAL.
  Proof.
    destruct (r_C39 b sel s R w_complete) as (_ & _ & P). fold h in P. rewrite P, subset_pairs_in. split.
    - intros (Hi & Ho & Hin & Hout & E & Hn). destruct (same_edge i o Hi Ho E) as (e & He & Hk & H1 & H2 & H3 & H4).
      unfold purely_out in Hout. split; [|by rewrite Hout]. exists e. split; [by apply sel_in|]. split; [done|]. split; [done|]. split; [done|]. split; [by left|]. by split_and!.
    - intros [(e & He & H1 & H2 & Ha) Hd]. destruct Ha as (A1 & A2 & A3 & A4 & A5). cbn in A1, A2, A3, A4. apply sel_in in He as [He Hk]. destruct Hsel as (_ & S2 & _).
      split; [apply sel_in, S2; by exists e|]. split; [apply sel_in, S2; by exists e|]. split; [done|]. split; [destruct A2 as [A2|A2]; [done|by destruct Hd]|].
      split; [by rewrite (rels_puuid e i H1), (rels_puuid e o H2)|done].
  Qed.
  Lemma subset_pairs_nodup b : NoDup sel -> NoDup (subset_pairs b).
  Proof.
    intros N. unfold subset_pairs. apply flat_map_nodup; [by apply NoDup_filter| |].
    - intros e _. apply NoDup_filter, all_pairs_nodup; apply NoDup_filter, (wf0_children_nd h W).
    - intros e e' [i o] _ _ H1 H2. apply elem_of_list_filter in H1 as [_ H1]. apply elem_of_list_filter in H2 as [_ H2]. apply all_pairs_in in H1 as [H1 _]. apply all_pairs_in in H2 as [H2 _].
      apply rels_parent in H1, H2. rewrite H1 in H2. by apply (inj Some) in H2.
  Qed.
  Lemma two_balanced b : edges_balanced h sel -> exists ps qs, fact_subset b sel s = Ok ps /\ fact_relations b sel s = Ok qs /\
    (forall i o, (i, o) ∈ qs <-> (i, o) ∈ ps /\ dir_of h o <> Some BIDIRECTIONAL) /\ (NoDup sel -> NoDup ps /\ NoDup qs).
  Proof.
    intros B. exists (subset_pairs b), (rel_pairs h b (selected h KRel sel)). split; [by apply r_C38, Hsel|].
    split; [apply (r_C39 b sel s R w_complete); by apply bal_iff|]. split; [apply pairs_iff|]. intros N. split; [by apply subset_pairs_nodup|]. apply rel_pairs_nodup. by apply NoDup_filter.
  Qed.
  Lemma two_unbalanced b : ~ edges_balanced h sel -> (exists ps, fact_subset b sel s = Ok ps) /\ fact_relations b sel s = Exn KeyError.
  Proof.
    intros B. split; [exists (subset_pairs b); by apply r_C38, Hsel|]. apply (r_C39 b sel s R w_complete). intros B'. apply B. by apply bal_iff.
  Qed.
  Lemma two_agree b : edges_balanced h sel -> one_way h sel -> NoDup sel -> exists ps qs, fact_subset b sel s = Ok ps /\ fact_relations b sel s = Ok qs /\ ps ≡ₚ qs.
  Proof.
    intros B O N. destruct (two_balanced b B) as (ps & qs & E1 & E2 & P & Hn). destruct (Hn N) as [N1 N2]. exists ps, qs. split; [done|]. split; [done|]. apply NoDup_Permutation; [done|done|].
    intros [i o]. rewrite P. split; [|tauto]. intros Hp. split; [done|]. apply (O o).
    - pose proof (r_C38 b sel s R (proj1 Hsel)) as E. rewrite E1 in E. injection E as ->. apply (subset_pairs_in b i o) in Hp as (e & He & H1 & H2 & _ & _ & _ & A4 & _). cbn in A4.
      destruct Hsel as (_ & S2 & _). apply sel_in in He as [He Hk]. apply (proj2 (S2 o)). by exists e.
    - pose proof (r_C38 b sel s R (proj1 Hsel)) as E. rewrite E1 in E. injection E as ->. apply (subset_pairs_in b i o) in Hp as (e & He & H1 & H2 & _). exact (proj2 (proj1 (rels_in e o) H2)).
  Qed.
  Lemma two_differ r : edges_balanced h sel -> r ∈ sel -> kind_of h r = Some KRel -> dir_of h r = Some BIDIRECTIONAL ->
    exists ps qs, fact_subset true sel s = Ok ps /\ fact_relations true sel s = Ok qs /\ (r, r) ∈ ps /\ (r, r) ∉ qs.
  Proof.
    intros B Hr Hk Hd. exists (subset_pairs true), (rel_pairs h true (selected h KRel sel)). split; [by apply r_C38, Hsel|].
    split; [apply (r_C39 true sel s R w_complete); by apply bal_iff|]. split; [|rewrite pairs_iff; tauto].
    pose proof Hsel as (_ & S2 & _). destruct (proj1 (S2 r) (conj Hr Hk)) as (e & He & Hke & Hre & Hp). fold h in Hke, Hre, Hp. apply subset_pairs_in.
    exists e. split; [by apply sel_in|]. split; [done|]. split; [done|]. split; [by right|]. split; [by right|]. split; [done|]. split; [done|].
    unfold no_loop. cbn. unfold ep_selected in Hp. destruct (ep_of h r); [by left|done].
  Qed.
End s.
