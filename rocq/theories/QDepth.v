(** * C86: the depth of the tensor representation *)
From stdpp Require Import relations.
From Verif Require Import Spec Hierarchy Elements Factory History PReach PWF PBfs QTrav QTrav2 Homomorphism SpecHom QHom HTraverse Tensor SpecTensor QTensor QTensor2 QTensor3 SpecHTrav QHTrav Encode SpecEnc QEnc3 QEnc5 QFac2 SpecCoo QCoo QCoo2 QCoo3 QCoo4.

Section flat.
  Context (s : st) (R : reach s) (c : loc).
  Let h := heap s.
  Lemma none_flat {B} (f : loc -> list B) l : (forall p, p ∈ l -> f p = []) -> flat_map f l = [].
  Proof. induction l as [|p l IH]; intros Hl; [done|]. cbn [flat_map]. rewrite IH by (intros; apply Hl; by right). by rewrite (Hl p) by left. Qed.
  Context (F : flat h c).
  Lemma no_neighbours : flat_map (neighbours h) (neighbours h c) = [].
  Proof. apply none_flat. intros p Hp. unfold neighbours. by rewrite (F p Hp). Qed.
  Lemma order_nil {A} (kids : A -> list A) m : level_order kids m [] = [].
  Proof. induction m as [|m IH]; [done|]. rewrite (level_order_S_in kids). cbn [flat_map app]. exact IH. Qed.
  Lemma met_flat m : 2 <= m -> met h c m = met h c 2.
  Proof.
    intros Hm. destruct m as [|[|m]]; [lia|lia|]. unfold met. rewrite !level_order_S_in, (flat_one (neighbours h)), no_neighbours, !order_nil. done.
  Qed.
  Lemma flat_any mx : exists m, covers h c mx m /\ met_rels h c m = out_rels h c /\ htrav_work h c m <= htrav_work h c 2.
  Proof.
    destruct mx as [d|].
    - exists (Nat.max 1 d). split; [done|]. destruct (decide (2 <= Nat.max 1 d)) as [Hd|Hd].
      + unfold met_rels, htrav_work, met_rels. rewrite (met_flat _ Hd). split; [|done]. apply (flat_met s c F).
      + assert (E : Nat.max 1 d = 1) by lia. rewrite E. split.
        * unfold met_rels, met. rewrite level_order_1. apply flat_one.
        * unfold htrav_work, met_rels, met. rewrite level_order_1, level_order_S_in, !flat_map_app, !app_length. lia.
    - exists 2. split; [by apply (flat_covers s c)|]. split; [apply (flat_met s c F)|done].
  Qed.
End flat.

Lemma depth1_indices s c lim x r : reach s -> closed_graph (heap s) c -> length (children (heap s) c) < lim -> hom_execute lim tensor_conf c s hom0 = (Ok r, s, x) ->
  (forall u w i, hom_node x u = Ok i -> hom_node x w = Ok i -> u = w) /\
  (forall e p, e ∈ edges_of (heap s) c -> p ∈ endpoints (heap s) e -> is_ok (hom_node x (uuid_of (heap s) p))) /\
  (forall e, e ∈ edges_of (heap s) c -> is_ok (hom_edge x (uuid_of (heap s) e))) /\
  (forall u, (forall y, y ∈ edges_of (heap s) c -> uuid_of (heap s) y <> u) -> hom_edge x u = Exn KeyError).
Proof.
  intros R G Hl E. assert (Hc : exists_in (heap s) c). { pose proof (cg_node _ _ G) as Hk. unfold kind_of in Hk. destruct (heap s !! c) eqn:Ec; [by eexists|done]. }
  destruct (q_C30_depth1 s c lim hom0 R Hc Hl) as (r' & x' & E' & (A1 & A2 & A3) & N1 & N2 & _). change (mkHC true (Some 1)) with tensor_conf in E'.
  assert (x' = x) as -> by congruence. split; [by eapply indexes_inj|]. split; [|split].
  - intros e p He Hp. eapply indexes_ok; [exact A1|]. apply elem_of_list_fmap_1. apply elem_of_list_omap in Hp as (r0 & Hr & Hp).
    destruct (cg_ep _ _ G e r0 He Hr) as (p' & Hp' & Hin). assert (p' = p) as -> by congruence. exact Hin.
  - intros e He. eapply indexes_ok; [exact A2|]. by apply elem_of_list_fmap_1.
  - intros u Hu. destruct A2 as (_ & _ & _ & A2). apply A2. intros Hin. apply elem_of_list_fmap in Hin as (y & -> & Hy). by apply (Hu y).
Qed.

Lemma traverse_flat s c x mx lim : reach s -> inner_graph (heap s) c -> flat (heap s) c ->
  (forall u w i, hom_node x u = Ok i -> hom_node x w = Ok i -> u = w) ->
  (forall e p, e ∈ edges_of (heap s) c -> p ∈ endpoints (heap s) e -> is_ok (hom_node x (uuid_of (heap s) p))) ->
  (forall e, e ∈ edges_of (heap s) c -> is_ok (hom_edge x (uuid_of (heap s) e))) -> htrav_work (heap s) c 2 < lim ->
  let calls := flat_map (rel_calls sum_norm (heap s)) (out_rels (heap s) c) in
  h_execute lim (ident_hom x) sum_norm mx collector c s [] = (Ok (map (fun _ => tt) calls), s, map (map (trt x)) calls).
Proof.
  intros R G F Inj Xp Xe Hl calls. change collector with (@coo_collector nat). rewrite (sim_c s R c G x Inj Xp Xe mx coo_collector lim [] F).
  destruct (flat_any s c F mx) as (m & Hm & Er & Hw).
  apply (q_C69 s c sum_norm mx m _ _ (vt x coo_collector) lim [] _ _ R (ig_node _ _ G) Hm).
  - intros r Hr. rewrite Er in Hr. apply (out_rels_c s c G) in Hr as (e & He & Hr). by apply (followable_c s R c G e r).
  - lia.
  - rewrite Er. apply feed_collector_vt.
Qed.

Lemma children_hier s c lim : length (children (heap s) c) < lim -> exists_in (heap s) c -> reach s -> exists r x, hom_execute lim tensor_conf c s hom0 = (Ok r, s, x).
Proof. intros Hl Hc R. destruct (q_C30_depth1 s c lim hom0 R Hc Hl) as (r & x & E & _). by exists r, x. Qed.
Lemma kind_exists h c k : kind_of h c = Some k -> exists_in h c.
Proof. unfold kind_of. destruct (h !! c) eqn:E; [by eexists|done]. Qed.

Lemma q_C86_flat s c lim mx : reach s -> closed_graph (heap s) c -> flat (heap s) c -> length (children (heap s) c) < lim -> htrav_work (heap s) c 2 < lim ->
  transform lim mx c s = transform lim (Some 1) c s.
Proof.
  intros R G F Hl1 Hl2. destruct (children_hier s c lim Hl1 (kind_exists _ _ _ (cg_node _ _ G)) R) as (r & x & E).
  destruct (depth1_indices s c lim x r R G Hl1 E) as (Inj & Xp & Xe & _).
  pose proof (closed_inner s c R G) as G'. unfold transform. rewrite E.
  by rewrite (traverse_flat s c x mx lim R G' F Inj Xp Xe Hl2), (traverse_flat s c x (Some 1) lim R G' F Inj Xp Xe Hl2).
Qed.

Lemma q_C86_nested s c lim mx p e : reach s -> closed_graph (heap s) c -> (forall d, mx = Some d -> 2 <= d) ->
  p ∈ neighbours (heap s) c -> e ∈ edges_of (heap s) p -> rels_of (heap s) e <> [] ->
  (forall p' e' y, p' ∈ neighbours (heap s) c -> e' ∈ edges_of (heap s) p' -> y ∈ edges_of (heap s) c -> uuid_of (heap s) y <> uuid_of (heap s) e') ->
  length (children (heap s) c) < lim -> htrav_work (heap s) c 2 < lim ->
  exists x, transform lim mx c s = (Exn KeyError, set_fr_hyper (map (fun r => (r, 1)) (tail (flat_map (out_rels (heap s)) (neighbours (heap s) c)))) s, Some (x, synchronize x)).
Proof.
  intros R G Hd Hp He Hr Hu Hl1 Hl2. pose proof (closed_inner s c R G) as G'.
  destruct (children_hier s c lim Hl1 (kind_exists _ _ _ (cg_node _ _ G)) R) as (r & x & E).
  destruct (depth1_indices s c lim x r R G Hl1 E) as (Inj & Xp & Xe & Xk).
  destruct (flat_map (out_rels (heap s)) (neighbours (heap s) c)) as [|r0 rest] eqn:El.
  { exfalso. destruct (rels_of (heap s) e) as [|r1 rs] eqn:Er; [done|]. assert (Hin : r1 ∈ flat_map (out_rels (heap s)) (neighbours (heap s) c)).
    { apply elem_of_flat_map. exists p. split; [done|]. unfold out_rels, out_edges. rewrite decide_True by (by apply (nbr_node s c G')). apply elem_of_flat_map. exists e. split; [done|]. rewrite Er. left. }
    rewrite El in Hin. inversion Hin. }
  destruct (nested_fails s R c G' x Inj Xp mx Xe lim r0 rest El) as (y & H); [| |done|].
  { intros p' e' Hp' He' _. apply Xk. intros z Hz. by apply (Hu p' e' z). }
  { destruct mx as [d|]; [|done]. specialize (Hd d eq_refl). by destruct d as [|[|d]]; [lia|lia|]. }
  exists x. unfold transform. cbn [tail]. change (map (fun r => (r, 1)) rest) with (tag 1 rest). rewrite E. change collector with (@coo_collector nat). by rewrite H.
Qed.
