(** * Non-vacuity of C90, C91 *)
From stdpp Require Import relations.
From Verif Require Import Spec SpecTrav Hierarchy Elements Factory History Traverse Homomorphism HTraverse Tensor SpecTensor Encode SpecEnc ExBase Ex1 Ex6 Ex10 Props10 Props28 SpecRelay SpecCtx.
Local Open Scope nat_scope.

Lemma sends_pick lim s c : match update_context lim c s (new_icon 0 c) with
    | (Ok _, s', g) => match full_msg s' g with (Ok _, _) => true | _ => false end | _ => false end = true ->
  exists m, sends lim s c m.
Proof.
  destruct (update_context lim c s (new_icon 0 c)) as [[[r|e] s'] g] eqn:U; [|discriminate]. destruct (full_msg s' g) as [[m|e] g'] eqn:F; [|discriminate].
  intros _. exists m, 0, r, s', g, g'. split; [exact U|exact F].
Qed.
(** the graph of Ex10: its message has directions 0, 1, 2; after two hops all are 2 *)
Example relay10 : exists m m', sends 100 s10 0 m /\ relayed_n 2 m m' /\ m' = standard (heap s10) 0 /\ m <> m'.
Proof.
  destruct (sends_pick 100 s10 0 ltac:(vm_compute; reflexivity)) as (m & Hm).
  destruct (C90_possible s10 0 100 m s10_reach s10_sendable Hm 2) as (m' & H). exists m, m'. split; [exact Hm|]. split; [exact H|].
  pose proof (C90_any_number s10 0 100 m 1 m' s10_reach s10_sendable Hm H) as E. split; [exact E|].
  rewrite E. intros Em. destruct Hm as (ck & r & s' & g & g' & U & F).
  destruct (C44_round_trip s10 0 100 (new_icon ck 0) r s' g s10_reach s10_sendable eq_refl eq_refl U) as (x & m1 & g2 & Es & _). rewrite Es in U, F.
  pose proof (C44_contents s10 0 100 (new_icon ck 0) r s10 g m g' s10_reach s10_sendable eq_refl eq_refl U F) as T0.
  pose proof (te_dirs _ _ _ T0) as Hd. rewrite Em in Hd. revert Hd. vm_compute. discriminate.
Qed.

(** Deciding [regular] *)
Fixpoint chain (n : nat) (h : list obj) (l : loc) : list loc :=
  match n with 0 => [] | S n' => l :: match parent_of h l with Some p => chain n' h p | None => [] end end.
Fixpoint chain_ok (n : nat) (h : list obj) (l : loc) : bool :=
  match n with 0 => false | S n' => match h !! l with Some _ => true | None => false end && match parent_of h l with Some p => chain_ok n' h p | None => true end end.
Lemma chain_path n h l : chain_ok n h l = true -> path h l (chain n h l).
Proof.
  revert l. induction n as [|n IH]; intros l H; [discriminate|]. cbn [chain chain_ok] in *. apply andb_true_iff in H as [H1 H2].
  assert (He : exists_in h l) by (destruct (h !! l) as [o|] eqn:E; [by exists o|discriminate]).
  destruct (parent_of h l) as [p|] eqn:Hp; [apply (path_step h l p); auto|by apply path_root].
Qed.
Definition distinctb (k : kind -> bool) (h : list obj) : bool :=
  let ls := filter (fun l => k <$> kind_of h l = Some true) (seq 0 (length h)) in
  forallb (fun a => forallb (fun b => implb (bool_decide (uuid_of h a = uuid_of h b)) (bool_decide (a = b))) ls) ls.
Lemma distinctb_ok k h c : distinctb k h = true -> distinct_uuids k h c.
Proof.
  intros H a b _ _ Ka Kb Hu. unfold distinctb in H. cbv zeta in H. pose proof (proj1 (forallb_forall _ _) H) as H1.
  assert (In0 : forall y, k <$> kind_of h y = Some true -> In y (filter (fun l => k <$> kind_of h l = Some true) (seq 0 (length h)))).
  { intros y Hy. apply elem_of_list_In, elem_of_list_filter. split; [exact Hy|]. apply elem_of_seq. split; [lia|]. unfold kind_of in Hy.
    destruct (h !! y) eqn:E; [|discriminate Hy]. apply lookup_lt_Some in E. lia. }
  pose proof (proj1 (forallb_forall _ _) (H1 a (In0 a Ka)) b (In0 b Kb)) as H2. cbv beta in H2. rewrite bool_decide_eq_true_2 in H2 by exact Hu. cbn in H2. by apply bool_decide_eq_true in H2.
Qed.
Definition regularb (h : list obj) (c : loc) : bool :=
  forallb (fun r => bool_decide (dir_of h r = Some BIDIRECTIONAL)) (all_rels h c) &&
  forallb (fun y => chain_ok (length h) h y && bool_decide (qualified_of h y = join "/" (rev (map (name_of h) (chain (length h) h y))))) (seq 0 (length h)) &&
  (distinctb k_node h && distinctb k_edge h && distinctb k_value h).
Lemma regularb_ok h c : exists_in h c -> regularb h c = true -> regular h c.
Proof.
  intros Hc H. unfold regularb in H. apply andb_true_iff in H as [H H3]. apply andb_true_iff in H as [H1 H2]. apply andb_true_iff in H3 as [H3 H6]. apply andb_true_iff in H3 as [H4 H5].
  pose proof (proj1 (forallb_forall _ _) H1) as K1. pose proof (proj1 (forallb_forall _ _) H2) as K2. split.
  - intros e r He Hr. specialize (K1 r (all_rels_in h c e r He Hr)). by apply bool_decide_eq_true in K1.
  - intros y Hw. assert (Hy : In y (seq 0 (length h))).
    { apply in_seq. split; [lia|]. destruct Hw as [->|A]; [destruct Hc as [o Ho]; by apply lookup_lt_Some in Ho|].
      assert (He : exists p, parent_of h y = Some p) by (destruct A; by eexists). destruct He as [p Hp]. unfold parent_of in Hp. destruct (h !! y) eqn:E; [|discriminate Hp]. by apply lookup_lt_Some in E. }
    specialize (K2 y Hy). cbv beta in K2. apply andb_true_iff in K2 as [A B]. apply bool_decide_eq_true in B. exists (chain (length h) h y). split; [by apply chain_path|exact B].
  - split; [|split]; by apply distinctb_ok.
Qed.
(** an undirected edge and values: nothing is lost, whoever sends it on *)
Definition ops28 := three ++ [OHyperedge fac 0 "e12"; OUnary 4 1 WNone BIDIRECTIONAL None; OUnary 4 2 WNone BIDIRECTIONAL None;
  OCreateValue fac (Some 0) "mass" (Some [PNum 1%Qc; PStr "kg"])].
Definition s28 : st := run ops28 s0.
Lemma s28_reach : reach s28.
Proof. apply run_reach; [apply reach_init|]. vm_compute. reflexivity. Qed.
Lemma s28_sendable : sendable (heap s28) 0.
Proof. apply sendableb_ok. vm_compute. reflexivity. Qed.
Lemma s28_regular : regular (heap s28) 0.
Proof. apply regularb_ok; [apply lookup_lt_is_Some; vm_compute; lia|]. vm_compute. reflexivity. Qed.
Example relay28 : exists m m', sends 100 s28 0 m /\ relayed_n 5 m m' /\ m' = m.
Proof.
  destruct (sends_pick 100 s28 0 ltac:(vm_compute; reflexivity)) as (m & Hm).
  destruct (C90_possible s28 0 100 m s28_reach s28_sendable Hm 5) as (m' & H). exists m, m'. split; [exact Hm|]. split; [exact H|].
  rewrite (C90_any_number s28 0 100 m 4 m' s28_reach s28_sendable Hm H). symmetry. exact (C90_unchanged s28 0 100 m s28_reach s28_sendable s28_regular Hm).
Qed.

(** an icon for the root of Ex10, updated with its first sub-node: no message *)
Lemma elsewhere_ok h a c : parent_of h c = None -> a <> c ->
  forallb (fun y => implb (bool_decide (kind_of h y = Some KNode)) (implb (bool_decide (uuid_of h y = uuid_of h c)) (bool_decide (y = c)))) (seq 0 (length h)) = true ->
  forall z, within h a z -> kind_of h z = Some KNode -> uuid_of h z <> uuid_of h c.
Proof.
  intros Hp Ha H z Hw Hk Hu. assert (Hz : In z (seq 0 (length h))).
  { apply in_seq. split; [lia|]. unfold kind_of in Hk. destruct (h !! z) eqn:E; [|discriminate Hk]. apply lookup_lt_Some in E. lia. }
  pose proof (proj1 (forallb_forall _ _) H z Hz) as K. cbv beta in K. rewrite (bool_decide_eq_true_2 _ Hk), (bool_decide_eq_true_2 _ Hu) in K. cbn in K. apply bool_decide_eq_true in K as ->.
  destruct Hw as [Hw|A]; [congruence|]. inversion A; congruence.
Qed.
Lemma upd28 : exists r s1 g1, update_context 100 1 s10 (new_icon 0 0) = (Ok r, s1, g1).
Proof.
  assert (H : match update_context 100 1 s10 (new_icon 0 0) with (Ok _, _, _) => true | _ => false end = true) by (vm_compute; reflexivity).
  destruct (update_context 100 1 s10 (new_icon 0 0)) as [[[r|e] s1] g1]; [by exists r, s1, g1|discriminate H].
Qed.
Example elsewhere10 : exists r s1 g1 g2, update_context 100 1 s10 (new_icon 0 0) = (Ok r, s1, g1) /\ full_msg s1 g1 = (Exn KeyError, g2) /\ ~ known (heap s10) 1 0.
Proof.
  destruct upd28 as (r & s1 & g1 & U). exists r, s1, g1.
  assert (H1 : exists_in (heap s10) 1) by (apply lookup_lt_is_Some; vm_compute; lia).
  destruct (C91_context_fixed s10 1 0 100 (new_icon 0 0) r s1 g1 s10_reach s10_sendable H1 eq_refl U) as (_ & K & _).
  destruct (C91_elsewhere s10 1 0 100 (new_icon 0 0) r s1 g1 s10_reach s10_sendable H1 eq_refl U) as (g2 & F).
  - apply (elsewhere_ok (heap s10) 1 0); [vm_compute; reflexivity|discriminate|vm_compute; reflexivity].
  - exists g2. split; [exact U|]. split; [exact F|]. intros Hk. destruct (proj2 K Hk) as [m Hm]. rewrite F in Hm. discriminate Hm.
Qed.
(** ... and updated with the root itself *)
Example known10 : known (heap s10) 0 0.
Proof.
  destruct upd10_ok as (r & g1 & U). assert (H1 : exists_in (heap s10) 0) by (apply lookup_lt_is_Some; vm_compute; lia).
  destruct (C91_context_fixed s10 0 0 100 (new_icon 0 0) r s10 g1 s10_reach s10_sendable H1 eq_refl U) as (_ & K & _). apply (proj1 K).
  destruct (C44_round_trip s10 0 100 (new_icon 0 0) r s10 g1 s10_reach s10_sendable eq_refl eq_refl U) as (x & m & g2 & _ & _ & F & _). rewrite F. exact (ex_intro _ m eq_refl).
Qed.
