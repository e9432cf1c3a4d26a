(** * C85: nested graphs *)
From stdpp Require Import relations.
From Verif Require Import Spec Hierarchy Elements Factory History PReach PWF PBfs QTrav QTrav2 Homomorphism SpecHom QHom HTraverse Tensor SpecTensor QTensor QTensor2 QTensor3 SpecHTrav QHTrav Encode SpecEnc QEnc3 QEnc5 SpecCoo QCoo.

Section nested.
  Context (s : st) (R : reach s) (c : loc).
  Let h := heap s.
  Context (G : inner_graph h c).
  Context (x : hom) (Inj : forall u w i, hom_node x u = Ok i -> hom_node x w = Ok i -> u = w).
  Context (Xp : forall e p, e ∈ edges_of h c -> p ∈ endpoints h e -> is_ok (hom_node x (uuid_of h p))).
  Context (mx : option nat).
  Context (Xe : forall e, e ∈ edges_of h c -> is_ok (hom_edge x (uuid_of h e))).
  Notation Kx := (K s mx).
  Definition fine (i : loc * nat) : Prop := forall tasks y, exists tasks' y',
    h_item (ident_hom x) sum_norm mx coo_collector s i.1 i.2 tasks y = (Ok (tasks', Kx i), y').
  Lemma fine_item i : (kind_of h i.1 = Some KRel -> known s x i.1) -> good s sum_norm i -> fine i.
  Proof.
    intros Hk Hg tasks y. rewrite (h_item_sim s R x Inj coo_collector mx sum_norm i.1 i.2 tasks y Hk).
    rewrite (h_item_ok s R sum_norm mx (vt x coo_collector) i tasks y _ _ Hg (feed_collector_vt x _ y)). by eexists _, _.
  Qed.
  Lemma prefix lim a b tasks y : (forall i, i ∈ a -> fine i) -> exists tasks' y',
    htraverse (length a + lim) (ident_hom x) sum_norm mx coo_collector s (a ++ b) tasks y =
    htraverse lim (ident_hom x) sum_norm mx coo_collector s (b ++ flat_map Kx a) tasks' y'.
  Proof.
    revert b tasks y. induction a as [|[l d] a IH]; intros b tasks y Ha; [exists tasks, y; cbn; by rewrite app_nil_r|].
    destruct (Ha (l, d) ltac:(left) tasks y) as (t1 & y1 & E). cbn [fst snd] in E. cbn [length Nat.add app htraverse]. rewrite E, <- app_assoc.
    destruct (IH (b ++ Kx (l, d)) t1 y1) as (t2 & y2 & ->); [intros; apply Ha; by right|]. exists t2, y2. cbn [flat_map]. by rewrite <- app_assoc.
  Qed.
  Lemma level_fine lim a tasks y : (forall i, i ∈ a -> fine i) -> exists tasks' y',
    htraverse (length a + lim) (ident_hom x) sum_norm mx coo_collector s a tasks y = htraverse lim (ident_hom x) sum_norm mx coo_collector s (flat_map Kx a) tasks' y'.
  Proof. intros Ha. destruct (prefix lim a [] tasks y Ha) as (t & y' & E). rewrite app_nil_r in E. cbn [app] in E. by exists t, y'. Qed.

  Lemma fine_plain y d k : kind_of h y = Some k -> k <> KRel -> fine (y, d).
  Proof.
    intros Hk Hn. apply fine_item; cbn [fst]; [congruence|]. unfold kind_of in Hk. destruct (h !! y) as [o|] eqn:E; [|done]. exists o. split; [done|]. intros Hr. cbn in Hk. congruence.
  Qed.
  Lemma fine_rel e r d : e ∈ edges_of h c -> r ∈ rels_of h e -> fine (r, d).
  Proof.
    intros He Hr. apply fine_item; cbn [fst]; [intros _; by apply (known_c s R c G x Xp Xe e r)|]. destruct (rel_of s R r e Hr) as (o & Ho & _ & Hp). exists o. split; [done|].
    intros _. exists e. cbn [fst]. split; [unfold parent_of; by rewrite Ho|]. split; [|intros r' Hr'; by apply (followable_c s R c G e r')].
    destruct (edge_of_c s c e He) as (oe & Hoe & Hke). unfold kind_of. rewrite Hoe. cbn. by rewrite Hke.
  Qed.
  Lemma nbr_node p : p ∈ neighbours h c -> kind_of h p = Some KNode.
  Proof. intros Hp. apply (neighbours_c s c G) in Hp as (e & r & He & Hr & Hp). by apply (ep_node s c G e r). Qed.

  Lemma nested_fails lim r rest : flat_map (out_rels h) (neighbours h c) = r :: rest ->
    (forall p e, p ∈ neighbours h c -> e ∈ edges_of h p -> rels_of h e <> [] -> hom_edge x (uuid_of h e) = Exn KeyError) ->
    deeper mx 0 = true -> htrav_work h c 2 < lim -> exists y, h_execute lim (ident_hom x) sum_norm mx coo_collector c s [] = (Exn KeyError, set_fr_hyper (tag 1 rest) s, y).
  Proof.
    intros Hr Hx Hd Hl. destruct (reach_fr s R) as (_ & F & _). unfold h_execute. rewrite F. cbn [app].
    assert (Em : met h c 2 = c :: neighbours h c).
    { unfold met. change (level_order (neighbours h) 2 [c]) with ([c] ++ (flat_map (neighbours h) [c] ++ [])). by rewrite app_nil_r, (flat_one (neighbours h)). }
    unfold htrav_work, met_rels in Hl. rewrite Em in Hl. cbn [flat_map length] in Hl. rewrite !app_length, Hr in Hl. cbn [length] in Hl.
    pose proof (ig_node _ _ G) as Hkc. change [(c, 0)] with (tag 0 [c]).
    replace lim with (length (tag 0 [c]) + (length (tag 0 (out_edges h c)) + (length (tag 0 (out_rels h c)) + (length (tag 1 (neighbours h c)) +
      (length (tag 1 (flat_map (out_edges h) (neighbours h c))) + S (lim - S (S (length (out_edges h c) + length (out_rels h c) + length (neighbours h c) + length (flat_map (out_edges h) (neighbours h c)))))))))).
    2:{ rewrite !tag_len. cbn [length]. lia. }
    assert (Pn : forall y, kind_of h y = Some KNode -> plain s y) by (intros y Hy; by exists KNode).
    destruct (level_fine (length (tag 0 (out_edges h c)) + (length (tag 0 (out_rels h c)) + (length (tag 1 (neighbours h c)) +
      (length (tag 1 (flat_map (out_edges h) (neighbours h c))) + S (lim - S (S (length (out_edges h c) + length (out_rels h c) + length (neighbours h c) + length (flat_map (out_edges h) (neighbours h c))))))))) (tag 0 [c]) [] []) as (t1 & y1 & ->).
    { intros i Hi. apply elem_of_list_singleton in Hi as ->. by apply (fine_plain c 0 KNode). }
    replace (flat_map Kx (tag 0 [c])) with (tag 0 (out_edges h c)).
    2:{ change (flat_map Kx (tag 0 [c])) with (Kx (c, 0) ++ []). rewrite app_nil_r. symmetry. by apply (plain_K s), Pn. }
    destruct (level_fine (length (tag 0 (out_rels h c)) + (length (tag 1 (neighbours h c)) +
      (length (tag 1 (flat_map (out_edges h) (neighbours h c))) + S (lim - S (S (length (out_edges h c) + length (out_rels h c) + length (neighbours h c) + length (flat_map (out_edges h) (neighbours h c)))))))) (tag 0 (out_edges h c)) t1 y1) as (t2 & y2 & ->).
    { intros i Hi. apply elem_of_list_fmap in Hi as (e & -> & He). apply (fine_plain e 0 KEdge); [by eapply (edges_kind s)|done]. }
    rewrite (flat_K s mx 0 (out_edges h c) (rels_of h)) by (intros e He; apply (edge_K s); by eapply (edges_kind s)).
    change (flat_map (rels_of h) (out_edges h c)) with (out_rels h c).
    destruct (level_fine (length (tag 1 (neighbours h c)) +
      (length (tag 1 (flat_map (out_edges h) (neighbours h c))) + S (lim - S (S (length (out_edges h c) + length (out_rels h c) + length (neighbours h c) + length (flat_map (out_edges h) (neighbours h c))))))) (tag 0 (out_rels h c)) t2 y2) as (t3 & y3 & ->).
    { intros i Hi. apply elem_of_list_fmap in Hi as (r0 & -> & Hr0). apply (out_rels_c s c G) in Hr0 as (e & He & Hr0). by apply (fine_rel e r0). }
    rewrite (flat_K_rels s R sum_norm mx 0 (out_rels h c)).
    2:{ intros r0 Hr0. apply (out_rels_c s c G) in Hr0 as (e & He & Hr0). split; [by apply (followable_c s R c G e r0)|by exists e]. }
    rewrite Hd. cbn [Nat.add]. change (omap (ep_of (heap s)) (out_rels h c)) with (neighbours h c).
    destruct (level_fine (length (tag 1 (flat_map (out_edges h) (neighbours h c))) + S (lim - S (S (length (out_edges h c) + length (out_rels h c) + length (neighbours h c) + length (flat_map (out_edges h) (neighbours h c)))))) (tag 1 (neighbours h c)) t3 y3) as (t4 & y4 & ->).
    { intros i Hi. apply elem_of_list_fmap in Hi as (p & -> & Hp). apply (fine_plain p 1 KNode); [by apply nbr_node|done]. }
    rewrite (flat_K s mx 1 (neighbours h c) (out_edges h)) by (intros p Hp; apply (plain_K s), Pn, nbr_node; done).
    destruct (level_fine (S (lim - S (S (length (out_edges h c) + length (out_rels h c) + length (neighbours h c) + length (flat_map (out_edges h) (neighbours h c)))))) (tag 1 (flat_map (out_edges h) (neighbours h c))) t4 y4) as (t5 & y5 & ->).
    { intros i Hi. apply elem_of_list_fmap in Hi as (e & -> & He). apply elem_of_flat_map in He as (p & _ & He). apply (fine_plain e 1 KEdge); [by eapply (edges_kind s)|done]. }
    rewrite (flat_K s mx 1 _ (rels_of h)) by (intros e He; apply elem_of_flat_map in He as (p & _ & He); apply (edge_K s); by eapply (edges_kind s)).
    pose proof (rels_split s (neighbours h c)) as Rs. fold h in Rs. rewrite Rs, Hr. cbn [tag map htraverse].
    assert (Hin : r ∈ flat_map (out_rels h) (neighbours h c)) by (rewrite Hr; left). apply elem_of_flat_map in Hin as (p & Hp & Hin).
    unfold out_rels, out_edges in Hin. rewrite decide_True in Hin by (by apply nbr_node). apply elem_of_flat_map in Hin as (e & He & Hre).
    destruct (rel_of s R r e Hre) as (o & Ho & Hk & Hpe). unfold h_item. rewrite Ho, Hk. unfold h_relation. rewrite Hpe.
    unfold out_edges in He. apply elem_of_list_filter in He as He'. destruct He' as [Ha _]. unfold accepts in Ha. destruct (h !! e) as [oe|] eqn:Hoe; [|done].
    pose proof (Hx p e Hp He ltac:(intros E; rewrite E in Hre; inversion Hre)) as Hxe. unfold uuid_of in Hxe. rewrite Hoe in Hxe. cbn in Hxe.
    unfold h in Hoe. rewrite Hoe. cbn [i_edge ident_hom]. rewrite Hxe. by exists y5.
  Qed.
End nested.

Lemma q_C85_nested s c lim lim2 g r s1 g1 p e : reach s -> inner_graph (heap s) c -> co_context (ic_coo g) = c ->
  update_context lim c s g = (Ok r, s1, g1) -> p ∈ neighbours (heap s) c -> e ∈ edges_of (heap s) p -> rels_of (heap s) e <> [] ->
  (forall p' e' y, p' ∈ neighbours (heap s) c -> e' ∈ edges_of (heap s) p' -> through (is_kind k_edge) (heap s) c y -> uuid_of (heap s) y <> uuid_of (heap s) e') ->
  htrav_work (heap s) c 2 < lim2 ->
  exists q, update_coo lim2 s g1 = (Exn KeyError, set_fr_hyper q s, g1).
Proof.
  intros R G Hc U Hp He Hr Hu Hl. destruct (context_indices s c lim g r s1 g1 R (ig_node _ _ G) U) as (-> & x & -> & Xn & Xe & Inj & Xk).
  destruct (flat_map (out_rels (heap s)) (neighbours (heap s) c)) as [|r0 rest] eqn:E.
  { exfalso. destruct (rels_of (heap s) e) as [|r1 rs] eqn:Er; [done|]. assert (Hin : r1 ∈ flat_map (out_rels (heap s)) (neighbours (heap s) c)).
    { apply elem_of_flat_map. exists p. split; [done|]. unfold out_rels, out_edges. rewrite decide_True by (by apply (nbr_node s c G)). apply elem_of_flat_map. exists e. split; [done|]. rewrite Er. left. }
    rewrite E in Hin. inversion Hin. }
  destruct (nested_fails s R c G x Inj (fun e0 p0 He0 Hp0 => Xn p0 (ep_through s c G e0 p0 He0 Hp0)) None Xe lim2 r0 rest E) as (y & H); [|done|done|].
  { intros p' e' Hp' He' _. apply Xk. intros z Hz. by apply (Hu p' e' z). }
  exists (tag 1 rest). unfold update_coo, coo_execute. cbn [ic_coo ic_set_coo co_set_hom co_hom co_context]. rewrite Hc, H. done.
Qed.
