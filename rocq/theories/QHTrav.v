(** * Hypergraph traversals of any depth *)
From Verif Require Import Spec Hierarchy Elements Factory History PDict PPath PExec PBfs PWF PMono PReach PHist Traverse SpecTrav QTrav QTrav2 QTrav3 Homomorphism SpecHom QHom HTraverse Tensor SpecTensor QTensor SpecHTrav.

Lemma feed_app {I X B} (v : hvisitor I X B) a b x : feed v (a ++ b) x =
  match feed v a x with
  | (Exn e, x') => (Exn e, x')
  | (Ok bs, x') => match feed v b x' with (Ok cs, x'') => (Ok (bs ++ cs), x'') | (Exn e, x'') => (Exn e, x'') end
  end.
Proof.
  revert x. induction a as [|c a IH]; intros x; cbn [app feed]; [by destruct (feed v b x) as [[]]|].
  destruct (v c x) as [[y|e] x']; [|done]. rewrite IH. destruct (feed v a x') as [[bs|e] x'']; [|done].
  by destruct (feed v b x'') as [[]].
Qed.
Lemma feed_app_ok {I X B} (v : hvisitor I X B) a b x rs x2 : feed v (a ++ b) x = (Ok rs, x2) ->
  exists bs x1 cs, feed v a x = (Ok bs, x1) /\ feed v b x1 = (Ok cs, x2) /\ rs = bs ++ cs.
Proof.
  rewrite feed_app. destruct (feed v a x) as [[bs|e] x1] eqn:E1; [|done]. destruct (feed v b x1) as [[cs|e] x1'] eqn:E2; [|done].
  intros [= <- <-]. by exists bs, x1, cs.
Qed.
Lemma feed_total {I X B} (v : hvisitor I X B) cs x : total v -> exists bs x', feed v cs x = (Ok bs, x').
Proof.
  intros T. revert x. induction cs as [|c cs IH]; intros x; cbn [feed]; [by eexists _, _|].
  destruct (T c x) as (b & x1 & ->). destruct (IH x1) as (bs & x2 & ->). by eexists _, _.
Qed.

Section trav.
  Context (s : st) (R : reach s) (nf : list pyval -> res Qc) (mx : option nat).
  Let h := heap s.
  Definition deeper (d : nat) : bool := match mx with None => true | Some m => d + 1 <? m end.
  Definition K (i : loc * nat) : list (loc * nat) :=
    match kind_of h i.1 with
    | Some KNode => map (fun e => (e, i.2)) (edges_of h i.1)
    | Some KEdge => map (fun r => (r, i.2)) (rels_of h i.1)
    | Some KRel => if deeper i.2 then match ep_of h i.1 with Some p => [(p, i.2 + 1)] | None => [] end else []
    | _ => []
    end.
  Definition C (i : loc * nat) : list (list (htuple (loc * uid))) :=
    match kind_of h i.1 with Some KRel => rel_calls nf h i.1 | _ => [] end.
  Definition good (i : loc * nat) : Prop :=
    exists o, h !! i.1 = Some o /\
      (o_kind o = KRel -> exists e, parent_of h i.1 = Some e /\ kind_of h e = Some KEdge /\ forall r, r ∈ rels_of h e -> followable nf h r).

  Lemma rel_of r e : r ∈ rels_of h e -> exists o, h !! r = Some o /\ o_kind o = KRel /\ o_parent o = Some e.
  Proof.
    intros Hp. apply elem_of_list_filter in Hp as [Ha Hp]. unfold accepts in Ha. destruct (h !! r) as [o|] eqn:E; [|done]. exists o.
    split; [done|]. split; [unfold is_kind, k_rel in Ha; by destruct (o_kind o)|]. pose proof (reach_wf s R) as W.
    apply (wf0_child _ W) in Hp as [_ Hp]. fold h in Hp. by rewrite (parent_of_lookup _ _ _ E) in Hp.
  Qed.
  Lemma of_rel r o e : h !! r = Some o -> o_kind o = KRel -> o_parent o = Some e -> r ∈ rels_of h e.
  Proof.
    intros H1 H2 H3. apply elem_of_list_filter. split; [unfold accepts; rewrite H1; unfold is_kind; by rewrite H2|].
    pose proof (reach_wf s R) as W. destruct (wf_par _ W r o e H1 H3) as (oe & He & Hin). unfold children. fold h in He. rewrite He. unfold dvals. apply elem_of_list_fmap. by exists (o_uuid o, r).
  Qed.
  Lemma ident_eps e oe : h !! e = Some oe -> o_kind oe = KEdge -> (forall r, r ∈ rels_of h e -> followable nf h r) ->
    endpoint_ids ident_uuid s e oe = Ok (map (ref_of h) (endpoints h e)).
  Proof.
    intros Ho Hk Hf. unfold endpoint_ids. rewrite Hk. cbn [k_edge].
    unfold induced_subset, bind at 1. pose proof (fkids_get s k_rel e) as F. fold h in F. rewrite Ho in F. unfold sub_relations.
    assert (Es : snd (get_subelements e (is_kind k_rel) s) = s).
    { unfold get_subelements, bind, deref, ret. fold h. rewrite Ho. done. }
    destruct (get_subelements e (is_kind k_rel) s) as [[rs|ex] s'] eqn:E; cbn [fst snd] in F, Es; [|done]. injection F as ->. subst s'. fold (rels_of h e).
    rewrite (map_m_pure s _ (fun r => ep_of h r)).
    - cbn [fst]. match goal with |- res_map ?F _ = _ => set (f := F) end.
      assert (Hf1 : forall p, exists_in h p -> f (Some p) = Ok (ref_of h p)).
      { intros p [op Hop]. unfold f. fold h. rewrite Hop. unfold ident_uuid. cbn [i_node]. unfold ref_of, uuid_of. by rewrite Hop. }
      clearbody f. unfold endpoints. revert Hf. generalize (rels_of h e). intros l Hf. induction l as [|r rs IH]; [done|].
      destruct (Hf r ltac:(left)) as (_ & p & k & Hp & Hpk & _). cbn [map res_map].
      assert (He : exists_in h p) by (unfold kind_of in Hpk; destruct (h !! p) as [op|] eqn:Eo; [by exists op|done]).
      rewrite Hp, (Hf1 p He), IH by (intros; apply Hf; by right).
      change (omap (ep_of h) (r :: rs)) with (match ep_of h r with Some q => q :: omap (ep_of h) rs | None => omap (ep_of h) rs end). by rewrite Hp.
    - intros r Hr. destruct (rel_of r e Hr) as (o & Hro & _). unfold bind, deref, ret. fold h. rewrite Hro. unfold ep_of. by rewrite Hro.
  Qed.
  Lemma filter_refs e p : List.filter (fun y => negb (i_same ident_uuid y (ref_of h p))) (map (ref_of h) (endpoints h e)) = map (ref_of h) (others h e p).
  Proof.
    unfold others. generalize (endpoints h e). intros l. induction l as [|q l IH]; [done|]. cbn [map List.filter]. rewrite IH. rewrite filter_cons.
    unfold ident_uuid, ref_of. cbn [i_same fst]. destruct (Nat.eqb_spec q p) as [->|Hne].
    - rewrite decide_False by (intros H; by apply H). done.
    - rewrite decide_True by done. done.
  Qed.
  Lemma rel_weights_eq r o n : h !! r = Some o -> norm_of nf h r = Some n ->
    norm_weight nf s o = Ok n /\ rel_weights (o_dir o) n = (weight_in (o_dir o) n, weight_out (o_dir o) n).
  Proof.
    intros Hr Hn. unfold norm_of in Hn. rewrite Hr in Hn. unfold norm_weight. destruct (o_weight o) as [|v|l]; [| |done].
    - injection Hn as <-. split; [by destruct (o_dir o)|]. destruct (o_dir o); vm_compute; reflexivity.
    - fold h. destruct (h !! v) as [ov|]; [|done]. destruct (k_value (o_kind ov)); [|done]. destruct (nf (o_vals ov)) as [c|]; [|done].
      injection Hn as <-. split; [done|]. unfold rel_weights. destruct (o_dir o); cbn [incidence weight_in weight_out magnitude]; f_equal; ring.
  Qed.

  Context {X B : Type} (v : hvisitor (loc * uid) X B).
  Lemma fill_one_feed w mk p e oe tasks x bs x' : h !! e = Some oe -> o_kind oe = KEdge -> (forall r, r ∈ rels_of h e -> followable nf h r) ->
    feed v (if decide (w = 0%Qc) then [] else [map (fun q => mk (ref_of h q)) (others h e p)]) x = (Ok bs, x') ->
    fill_one ident_uuid v s w mk (ref_of h p) e oe tasks x = (Ok (tasks ++ bs), x').
  Proof.
    intros He Hk Hf. unfold fill_one. destruct (decide (w = 0%Qc)); [intros [= <- <-]; by rewrite app_nil_r|].
    rewrite (ident_eps e oe He Hk Hf), filter_refs, map_map. cbn [feed]. destruct (v _ x) as [[b|ex] x1]; [|done]. by intros [= <- <-].
  Qed.
  Lemma h_item_ok i tasks x bs x' : good i -> feed v (C i) x = (Ok bs, x') ->
    h_item ident_uuid nf mx v s i.1 i.2 tasks x = (Ok (tasks ++ bs, K i), x').
  Proof.
    destruct i as [l d]. intros (o & Ho & Hg) Hv. cbn [fst snd] in *. unfold h_item. fold h. rewrite Ho. unfold C, K in *. cbn [fst snd] in *.
    assert (Ek : kind_of h l = Some (o_kind o)) by (unfold kind_of; by rewrite Ho). rewrite Ek in *.
    destruct (o_kind o) eqn:Eo; try (injection Hv as <- <-; by rewrite app_nil_r).
    - injection Hv as <- <-. pose proof (fkids_get s k_edge l) as F. fold h in F. rewrite Ho in F. unfold sub_edges. rewrite F. by rewrite app_nil_r.
    - injection Hv as <- <-. pose proof (fkids_get s k_rel l) as F. fold h in F. rewrite Ho in F. unfold sub_relations. rewrite F. by rewrite app_nil_r.
    - destruct (Hg eq_refl) as (e & Hp & Hke & Hf). unfold h_relation.
      assert (Hin : l ∈ rels_of h e). { apply (of_rel l o e Ho Eo). unfold parent_of in Hp. rewrite Ho in Hp. done. }
      destruct (Hf l Hin) as ((n & Hn) & p & kp & Hep & Hkp & _).
      unfold rel_calls in Hv. rewrite Hp, Hep, Hn in Hv. unfold dir_of in Hv. rewrite Ho in Hv. cbn [fmap option_fmap option_map] in Hv.
      unfold parent_of in Hp. rewrite Ho in Hp. cbn in Hp. rewrite Hp.
      unfold kind_of in Hke. destruct (h !! e) as [oe|] eqn:He; [|done]. injection Hke as Hke. fold h. rewrite He. cbn [i_edge ident_uuid].
      destruct (rel_weights_eq l o n Ho Hn) as [-> ->]. rewrite Hep. unfold ep_of in Hep. rewrite Ho in Hep. cbn in Hep. rewrite Hep.
      unfold kind_of in Hkp. destruct (h !! p) as [op|] eqn:Hop; [|done]. cbn [i_node ident_uuid].
      assert (Rp : (p, o_uuid op) = ref_of h p) by (unfold ref_of, uuid_of; by rewrite Hop).
      assert (Re : (e, o_uuid oe) = ref_of h e) by (unfold ref_of, uuid_of; by rewrite He). rewrite Rp, Re.
      unfold fill_relations. cbn [fst snd]. apply feed_app_ok in Hv as (b1 & x1 & b2 & V1 & V2 & ->).
      rewrite (fill_one_feed _ (fun y => mkTup (ref_of h p) y (ref_of h e) (weight_in (o_dir o) n) n) p e oe tasks x b1 x1 He Hke Hf V1).
      rewrite (fill_one_feed _ (fun y => mkTup y (ref_of h p) (ref_of h e) (weight_out (o_dir o) n) n) p e oe (tasks ++ b1) x1 b2 x' He Hke Hf V2).
      rewrite <- app_assoc. done.
  Qed.
  Lemma htraverse_steps k lim q tasks x bs x' : length (qvis K false k q) = k -> (forall i, i ∈ qvis K false k q -> good i) ->
    feed v (flat_map C (qvis K false k q)) x = (Ok bs, x') ->
    htraverse (k + lim) ident_uuid nf mx v s q tasks x = htraverse lim ident_uuid nf mx v s (qrest K false k q) (tasks ++ bs) x'.
  Proof.
    revert q tasks x bs. induction k as [|k IH]; intros q tasks x bs Hl Hg Hv.
    - injection Hv as <- <-. by rewrite app_nil_r.
    - destruct q as [|[l d] q]; [done|]. cbn [qvis qrest] in *. cbn [Nat.add htraverse]. injection Hl as Hl. cbn [flat_map] in Hv.
      apply feed_app_ok in Hv as (b1 & x1 & b2 & V1 & V2 & ->).
      pose proof (h_item_ok (l, d) tasks x b1 x1 ltac:(apply Hg; left) V1) as E. cbn [fst snd] in E. rewrite E.
      unfold push in *. rewrite app_assoc. apply (IH _ (tasks ++ b1) x1 b2 Hl); [|done]. intros i Hi. apply Hg. by right.
  Qed.

  (** ** One level *)
  Definition tag (d : nat) (xs : list loc) : list (loc * nat) := map (fun x => (x, d)) xs.
  Definition plain (x : loc) : Prop := exists k, kind_of h x = Some k /\ k <> KEdge /\ k <> KRel.
  Lemma plain_K x d : plain x -> K (x, d) = tag d (out_edges h x).
  Proof.
    intros (k & Hk & N1 & N2). unfold K, out_edges, tag. cbn [fst snd]. rewrite Hk. destruct (decide (Some k = Some KNode)) as [E|E]; [injection E as ->; done|]. by destruct k.
  Qed.
  Lemma edges_kind x e : e ∈ out_edges h x -> kind_of h e = Some KEdge.
  Proof.
    unfold out_edges. destruct (decide _); [|intros H; inversion H]. intros H. apply elem_of_list_filter in H as [Ha _]. unfold accepts, kind_of in *.
    destruct (h !! e) as [o|]; [|done]. unfold is_kind, k_edge in Ha. destruct o as [[]]; try discriminate Ha; reflexivity.
  Qed.
  Lemma edge_K e d : kind_of h e = Some KEdge -> K (e, d) = tag d (rels_of h e).
  Proof. intros Hk. unfold K. cbn [fst snd]. by rewrite Hk. Qed.
  Lemma rel_K r d e : r ∈ rels_of h e -> followable nf h r -> K (r, d) = if deeper d then tag (d + 1) (omap (ep_of h) [r]) else [].
  Proof.
    intros Hr (_ & p & k & Hp & _). destruct (rel_of r e Hr) as (o & Ho & Hk & _). unfold K. cbn [fst snd].
    assert (kind_of h r = Some KRel) as -> by (unfold kind_of; rewrite Ho; cbn; by rewrite Hk). unfold omap, list_omap. rewrite Hp. done.
  Qed.
  Lemma flat_K d xs ys : (forall x, x ∈ xs -> K (x, d) = tag d (ys x)) -> flat_map K (tag d xs) = tag d (flat_map ys xs).
  Proof.
    intros Hx. induction xs as [|x xs IH]; [done|]. unfold tag in *. cbn [map flat_map]. rewrite Hx by left. rewrite IH by (intros; apply Hx; by right).
    by rewrite map_app.
  Qed.
  Lemma omap_app_l {A D} (f : A -> option D) (a b : list A) : omap f (a ++ b) = omap f a ++ omap f b.
  Proof. induction a as [|x a IH]; [done|]. change (match f x with Some y => y :: omap f (a ++ b) | None => omap f (a ++ b) end = match f x with Some y => y :: omap f a | None => omap f a end ++ omap f b). rewrite IH. by destruct (f x). Qed.
  Lemma flat_K_rels d rs : (forall r, r ∈ rs -> followable nf h r /\ exists e, r ∈ rels_of h e) ->
    flat_map K (tag d rs) = if deeper d then tag (d + 1) (omap (ep_of h) rs) else [].
  Proof.
    intros Hx. induction rs as [|r rs IH]; [by destruct (deeper d)|]. unfold tag in *. cbn [map flat_map].
    destruct (Hx r ltac:(left)) as (Hf & e & He). rewrite (rel_K r d e He Hf). rewrite IH by (intros; apply Hx; by right).
    destruct (deeper d); [|done]. change (r :: rs) with ([r] ++ rs). rewrite omap_app_l. unfold tag. by rewrite map_app.
  Qed.
  Lemma flat_nbr xs : omap (ep_of h) (flat_map (out_rels h) xs) = flat_map (neighbours h) xs.
  Proof. induction xs as [|x xs IH]; [done|]. cbn [flat_map]. by rewrite omap_app_l, IH. Qed.
  Lemma flat_map_flat_map {A D E} (f : A -> list D) (g : D -> list E) l : flat_map g (flat_map f l) = flat_map (fun x => flat_map g (f x)) l.
  Proof. induction l as [|x l IH]; [done|]. cbn [flat_map]. by rewrite flat_map_app', IH. Qed.
  Lemma rels_split xs : flat_map (rels_of h) (flat_map (out_edges h) xs) = flat_map (out_rels h) xs.
  Proof. apply flat_map_flat_map. Qed.
  Definition lwork (xs : list loc) : nat := length xs + length (flat_map (out_edges h) xs) + length (flat_map (out_rels h) xs).

  Lemma tag_len d xs : length (tag d xs) = length xs.
  Proof. apply map_length. Qed.
  Lemma flat_C d xs : flat_map C (tag d xs) = flat_map (fun x => C (x, d)) xs.
  Proof. induction xs as [|x xs IH]; [done|]. unfold tag in *. cbn [map flat_map]. by rewrite IH. Qed.
  Lemma flat_nil {A D} (f : A -> list D) l : (forall x, x ∈ l -> f x = []) -> flat_map f l = [].
  Proof. induction l as [|x l IH]; [done|]. intros H. cbn [flat_map]. rewrite (H x) by left. apply IH. intros y Hy. apply H. by right. Qed.

  Lemma bfs_level n q : qvis K false (length (level_order K n q)) q = level_order K n q /\ qrest K false (length (level_order K n q)) q = level K n q.
  Proof.
    revert q. induction n as [|n IH]; intros q; [done|].
    rewrite level_S_in, level_order_S_in, app_length, qvis_add, qrest_add.
    destruct (bfs_block K q []) as [E1 E2]. rewrite app_nil_r in E1, E2. rewrite E1, E2. cbn [app].
    destruct (IH (flat_map K q)) as [-> ->]. done.
  Qed.
  (** [3] rounds: elements, edges, relations *)
  Lemma level3 d xs : (forall x, x ∈ xs -> plain x) -> (forall r, r ∈ flat_map (out_rels h) xs -> followable nf h r) ->
    level_order K 3 (tag d xs) = tag d xs ++ tag d (flat_map (out_edges h) xs) ++ tag d (flat_map (out_rels h) xs) /\
    level K 3 (tag d xs) = (if deeper d then tag (d + 1) (flat_map (neighbours h) xs) else []) /\
    flat_map C (level_order K 3 (tag d xs)) = flat_map (rel_calls nf h) (flat_map (out_rels h) xs) /\
    (forall i, i ∈ level_order K 3 (tag d xs) -> good i) /\
    length (level_order K 3 (tag d xs)) = lwork xs.
  Proof.
    intros Hx Hr.
    assert (E1 : flat_map K (tag d xs) = tag d (flat_map (out_edges h) xs)) by (apply flat_K; intros x H; apply plain_K; auto).
    assert (He : forall e, e ∈ flat_map (out_edges h) xs -> kind_of h e = Some KEdge).
    { intros e He. apply elem_of_list_In, in_flat_map in He as (x & _ & He). apply elem_of_list_In in He. by eapply edges_kind. }
    assert (E2 : flat_map K (tag d (flat_map (out_edges h) xs)) = tag d (flat_map (out_rels h) xs)).
    { rewrite <- rels_split. apply flat_K. intros e H. apply edge_K. auto. }
    assert (Hr2 : forall r, r ∈ flat_map (out_rels h) xs -> exists e, r ∈ rels_of h e /\ e ∈ flat_map (out_edges h) xs).
    { intros r H. rewrite <- rels_split in H. apply elem_of_list_In, in_flat_map in H as (e & H1 & H2). exists e. split; by apply elem_of_list_In. }
    assert (E3 : flat_map K (tag d (flat_map (out_rels h) xs)) = if deeper d then tag (d + 1) (flat_map (neighbours h) xs) else []).
    { rewrite <- flat_nbr. apply flat_K_rels. intros r H. split; [auto|]. destruct (Hr2 r H) as (e & H1 & _). by exists e. }
    assert (L : level_order K 3 (tag d xs) = tag d xs ++ tag d (flat_map (out_edges h) xs) ++ tag d (flat_map (out_rels h) xs)).
    { rewrite !level_order_S_in, E1, E2. cbn [level_order]. by rewrite app_nil_r. }
    split; [done|]. split; [by rewrite !level_S_in, E1, E2, E3|]. rewrite L. split; [|split].
    - rewrite !flat_map_app', !flat_C. rewrite (flat_nil _ xs), (flat_nil _ (flat_map (out_edges h) xs)).
      + cbn [app]. apply flat_map_ext_in. intros r H. destruct (Hr2 r H) as (e & H1 & _). destruct (rel_of r e H1) as (o & Ho & Hk & _).
        unfold C, kind_of. cbn [fst]. rewrite Ho. cbn. by rewrite Hk.
      + intros e H. unfold C. cbn [fst]. by rewrite (He e H).
      + intros x H. destruct (Hx x H) as (k & Hk & N1 & N2). unfold C. cbn [fst]. rewrite Hk. by destruct k.
    - intros i Hi. rewrite !elem_of_app in Hi. destruct Hi as [Hi|[Hi|Hi]]; apply elem_of_list_fmap in Hi as (x & -> & Hi).
      + destruct (Hx x Hi) as (k & Hk & N1 & N2). unfold kind_of in Hk. unfold good. cbn [fst]. destruct (h !! x) as [o|]; [|done].
        exists o. split; [done|]. injection Hk as Hk. intros; congruence.
      + pose proof (He x Hi) as Hk. unfold kind_of in Hk. unfold good. cbn [fst]. destruct (h !! x) as [o|]; [|done].
        exists o. split; [done|]. injection Hk as Hk. intros; congruence.
      + destruct (Hr2 x Hi) as (e & H1 & H2). destruct (rel_of x e H1) as (o & Ho & Hk & Hpar). exists o. split; [done|]. intros _. exists e.
        cbn [fst]. rewrite (parent_of_lookup _ _ _ Ho). split; [done|]. split; [by apply He|]. intros r' Hr'. apply Hr. rewrite <- rels_split.
        apply elem_of_list_In, in_flat_map. exists e. split; by apply elem_of_list_In.
    - rewrite !app_length, !tag_len. unfold lwork. lia.
  Qed.
  Lemma plain_next xs : (forall r, r ∈ flat_map (out_rels h) xs -> followable nf h r) -> forall x, x ∈ flat_map (neighbours h) xs -> plain x.
  Proof.
    intros Hr x Hx. rewrite <- flat_nbr in Hx. apply elem_of_list_omap in Hx as (r & Hin & Hp). destruct (Hr r Hin) as (_ & p & k & Hp' & Hk).
    assert (p = x) as -> by congruence. by exists k.
  Qed.

  Definition lsum (m : nat) (xs : list loc) : nat := lwork (level_order (neighbours h) m xs).
  Lemma lwork_app a b : lwork (a ++ b) = lwork a + lwork b.
  Proof. unfold lwork. rewrite !flat_map_app', !app_length. lia. Qed.
  (** [m] rounds of three *)
  Lemma rounds m d xs :
    (forall j, j + 1 < m -> deeper (d + j) = true) -> (forall y, y ∈ xs -> plain y) ->
    (forall r, r ∈ flat_map (out_rels h) (level_order (neighbours h) m xs) -> followable nf h r) ->
    length (qvis K false (lsum m xs) (tag d xs)) = lsum m xs /\ (forall i, i ∈ qvis K false (lsum m xs) (tag d xs) -> good i) /\
    flat_map C (qvis K false (lsum m xs) (tag d xs)) = flat_map (rel_calls nf h) (flat_map (out_rels h) (level_order (neighbours h) m xs)) /\
    qrest K false (lsum m xs) (tag d xs) =
      (match m with 0 => tag d xs | S m' => if deeper (d + m') then tag (d + m) (level (neighbours h) m xs) else [] end).
  Proof.
    revert d xs. induction m as [|m IH]; intros d xs Hd Hx Hr.
    - split; [done|]. split; [intros i Hi; inversion Hi|]. done.
    - unfold lsum in *. rewrite level_order_S_in in *. rewrite lwork_app. rewrite !flat_map_app'. rewrite flat_map_app' in Hr.
      destruct (level3 d xs Hx ltac:(intros r H; apply Hr, elem_of_app; by left)) as (E1 & E2 & E3 & G & Len).
      destruct (bfs_level 3 (tag d xs)) as [Q1 Q2]. rewrite Len in Q1, Q2. rewrite qvis_add, qrest_add, Q1, Q2, app_length, Len, flat_map_app', E3, E2.
      destruct m as [|m].
      + cbn [level_order flat_map]. cbn [lwork Nat.add length flat_map]. change (lwork []) with 0. cbn [qvis qrest length flat_map].
        rewrite !app_nil_r. split; [done|]. split; [done|]. split; [done|]. rewrite level_S_in. cbn [level]. by rewrite Nat.add_0_r.
      + assert (D0 : deeper d = true) by (rewrite <- (Nat.add_0_r d); apply Hd; lia). rewrite D0.
        destruct (IH (d + 1) (flat_map (neighbours h) xs)) as (I1 & I2 & I3 & I4).
        * intros j H2. replace (d + 1 + j) with (d + S j) by lia. apply Hd; lia.
        * apply plain_next. intros r H. apply Hr, elem_of_app. by left.
        * intros r H. apply Hr, elem_of_app. by right.
        * rewrite I1, I3, I4. split; [done|]. split; [|split; [done|]].
          -- intros i Hi. apply elem_of_app in Hi as [Hi|Hi]; auto.
          -- replace (d + 1 + m) with (d + S m) by lia. replace (d + 1 + S m) with (d + S (S m)) by lia. by rewrite <- level_S_in.
  Qed.

  (** ** Failures *)
  Lemma fill_one_exn w mk p e oe tasks x ex x' : h !! e = Some oe -> o_kind oe = KEdge -> (forall r, r ∈ rels_of h e -> followable nf h r) ->
    feed v (if decide (w = 0%Qc) then [] else [map (fun q => mk (ref_of h q)) (others h e p)]) x = (Exn ex, x') ->
    fill_one ident_uuid v s w mk (ref_of h p) e oe tasks x = (Exn ex, x').
  Proof.
    intros He Hk Hf. unfold fill_one. destruct (decide (w = 0%Qc)); [done|].
    rewrite (ident_eps e oe He Hk Hf), filter_refs, map_map. cbn [feed]. destruct (v _ x) as [[b|ex'] x1]; [done|]. by intros [= <- <-].
  Qed.
  Lemma h_item_exn i tasks x ex x' : good i -> feed v (C i) x = (Exn ex, x') ->
    h_item ident_uuid nf mx v s i.1 i.2 tasks x = (Exn ex, x').
  Proof.
    destruct i as [l d]. intros (o & Ho & Hg) Hv. cbn [fst snd] in *. unfold h_item. fold h. rewrite Ho. unfold C in *. cbn [fst snd] in *.
    assert (Ek : kind_of h l = Some (o_kind o)) by (unfold kind_of; by rewrite Ho). rewrite Ek in *.
    destruct (o_kind o) eqn:Eo; try discriminate Hv.
    destruct (Hg eq_refl) as (e & Hp & Hke & Hf). unfold h_relation.
    assert (Hin : l ∈ rels_of h e). { apply (of_rel l o e Ho Eo). unfold parent_of in Hp. rewrite Ho in Hp. done. }
    destruct (Hf l Hin) as ((n & Hn) & p & kp & Hep & Hkp & _).
    unfold rel_calls in Hv. rewrite Hp, Hep, Hn in Hv. unfold dir_of in Hv. rewrite Ho in Hv. cbn [fmap option_fmap option_map] in Hv.
    unfold parent_of in Hp. rewrite Ho in Hp. cbn in Hp. rewrite Hp.
    unfold kind_of in Hke. destruct (h !! e) as [oe|] eqn:He; [|done]. injection Hke as Hke. fold h. rewrite He. cbn [i_edge ident_uuid].
    destruct (rel_weights_eq l o n Ho Hn) as [-> ->]. unfold ep_of in Hep. rewrite Ho in Hep. cbn in Hep. rewrite Hep.
    unfold kind_of in Hkp. destruct (h !! p) as [op|] eqn:Hop; [|done]. cbn [i_node ident_uuid].
    assert (Rp : (p, o_uuid op) = ref_of h p) by (unfold ref_of, uuid_of; by rewrite Hop).
    assert (Re : (e, o_uuid oe) = ref_of h e) by (unfold ref_of, uuid_of; by rewrite He). rewrite Rp, Re.
    unfold fill_relations. cbn [fst snd]. rewrite feed_app in Hv.
    destruct (feed v (calls_in h l e p n (weight_in (o_dir o) n)) x) as [[b1|e1] x1] eqn:V1.
    - rewrite (fill_one_feed _ (fun y => mkTup (ref_of h p) y (ref_of h e) (weight_in (o_dir o) n) n) p e oe tasks x b1 x1 He Hke Hf V1).
      destruct (feed v (calls_out h l e p n (weight_out (o_dir o) n)) x1) as [[b2|e2] x2] eqn:V2; [done|]. injection Hv as <- <-.
      by rewrite (fill_one_exn _ (fun y => mkTup y (ref_of h p) (ref_of h e) (weight_out (o_dir o) n) n) p e oe (tasks ++ b1) x1 e2 x2 He Hke Hf V2).
    - injection Hv as <- <-.
      by rewrite (fill_one_exn _ (fun y => mkTup (ref_of h p) y (ref_of h e) (weight_in (o_dir o) n) n) p e oe tasks x e1 x1 He Hke Hf V1).
  Qed.
  Lemma htraverse_exn k lim q tasks x ex x' : length (qvis K false k q) = k -> (forall i, i ∈ qvis K false k q -> good i) ->
    feed v (flat_map C (qvis K false k q)) x = (Exn ex, x') ->
    exists j, j < k /\ htraverse (k + lim) ident_uuid nf mx v s q tasks x = (Exn ex, tail (qrest K false j q), x').
  Proof.
    revert q tasks x. induction k as [|k IH]; intros q tasks x Hl Hg Hv; [done|].
    destruct q as [|[l d] q]; [done|]. cbn [qvis qrest] in *. cbn [Nat.add htraverse]. injection Hl as Hl. cbn [flat_map] in Hv.
    rewrite feed_app in Hv. destruct (feed v (C (l, d)) x) as [[b1|e1] x1] eqn:V1.
    - pose proof (h_item_ok (l, d) tasks x b1 x1 ltac:(apply Hg; left) V1) as E. cbn [fst snd] in E. rewrite E.
      destruct (feed v (flat_map C (qvis K false k (push false q (K (l, d))))) x1) as [[b2|e2] x2] eqn:V2; [done|]. injection Hv as <- <-.
      destruct (IH (push false q (K (l, d))) (tasks ++ b1) x1 Hl ltac:(intros i Hi; apply Hg; by right) V2) as (j & Hj & E').
      exists (S j). split; [lia|]. cbn [qrest]. exact E'.
    - injection Hv as <- <-. pose proof (h_item_exn (l, d) tasks x e1 x1 ltac:(apply Hg; left) V1) as E. cbn [fst snd] in E. rewrite E.
      exists 0. split; [lia|]. done.
  Qed.
End trav.

(** ** Results *)
Lemma deeper_rounds mx m j : (match mx with Some d => m = Nat.max 1 d | None => True end) -> j + 1 < m -> deeper mx (0 + j) = true.
Proof. destruct mx as [d|]; [|done]. intros -> H. apply Nat.ltb_lt. lia. Qed.
Lemma plain_start s start : kind_of (heap s) start = Some KNode -> forall y, y ∈ [start] -> plain s y.
Proof. intros Hk y Hy. apply elem_of_list_singleton in Hy as ->. by exists KNode. Qed.

Lemma q_C69 s start nf mx m X B (v : hvisitor (loc * uid) X B) lim x bs x' : reach s -> kind_of (heap s) start = Some KNode ->
  covers (heap s) start mx m -> (forall r, r ∈ met_rels (heap s) start m -> followable nf (heap s) r) ->
  htrav_work (heap s) start m < lim ->
  feed v (flat_map (rel_calls nf (heap s)) (met_rels (heap s) start m)) x = (Ok bs, x') ->
  h_execute lim ident_uuid nf mx v start s x = (Ok bs, s, x').
Proof.
  intros R Hk Hc Hf Hl Hv. destruct (reach_fr s R) as (_ & F & _). unfold h_execute. rewrite F. cbn [app].
  destruct (rounds s R nf mx m 0 [start]) as (Q1 & Q2 & Q3 & Q4).
  { intros j Hj. apply (deeper_rounds mx m); [|done]. by destruct mx. }
  { by apply plain_start. }
  { exact Hf. }
  change [(start, 0)] with (tag 0 [start]). change (htrav_work (heap s) start m) with (lsum s m [start]) in Hl.
  replace lim with (lsum s m [start] + (lim - lsum s m [start])) by lia.
  rewrite (htraverse_steps s R nf mx v (lsum s m [start]) _ (tag 0 [start]) [] x bs x' Q1 Q2).
  2: by rewrite Q3.
  rewrite Q4. assert (E : match m with 0 => tag 0 [start] | S m' => if deeper mx (0 + m') then tag (0 + m) (level (neighbours (heap s)) m [start]) else [] end = []).
  { destruct mx as [d|]; cbn [covers] in Hc.
    - destruct m as [|m]; [lia|]. assert (deeper (Some d) (0 + m) = false) as -> by (apply Nat.ltb_ge; lia). done.
    - destruct m as [|m]; [done|]. rewrite Hc. by destruct (deeper None (0 + m)). }
  rewrite E. destruct (lim - lsum s m [start]) as [|k] eqn:Ek; [lia|]. cbn [htraverse app]. by rewrite set_frh_same.
Qed.

Lemma q_C69_fails s start nf mx m X B (v : hvisitor (loc * uid) X B) lim x ex x' : reach s -> kind_of (heap s) start = Some KNode ->
  covers (heap s) start mx m -> (forall r, r ∈ met_rels (heap s) start m -> followable nf (heap s) r) ->
  htrav_work (heap s) start m < lim ->
  feed v (flat_map (rel_calls nf (heap s)) (met_rels (heap s) start m)) x = (Exn ex, x') ->
  exists s', h_execute lim ident_uuid nf mx v start s x = (Exn ex, s', x') /\ heap s' = heap s.
Proof.
  intros R Hk Hc Hf Hl Hv. destruct (reach_fr s R) as (_ & F & _). unfold h_execute. rewrite F. cbn [app].
  destruct (rounds s R nf mx m 0 [start]) as (Q1 & Q2 & Q3 & Q4).
  { intros j Hj. apply (deeper_rounds mx m); [|done]. by destruct mx. }
  { by apply plain_start. }
  { exact Hf. }
  change [(start, 0)] with (tag 0 [start]). change (htrav_work (heap s) start m) with (lsum s m [start]) in Hl.
  replace lim with (lsum s m [start] + (lim - lsum s m [start])) by lia.
  destruct (htraverse_exn s R nf mx v (lsum s m [start]) (lim - lsum s m [start]) (tag 0 [start]) [] x ex x' Q1 Q2) as (j & Hj & E).
  { by rewrite Q3. }
  rewrite E. by eexists.
Qed.

Lemma qvis_full {A} (ik : A -> list A) k q : qrest ik false k q <> [] -> length (qvis ik false k q) = k.
Proof.
  revert q. induction k as [|k IH]; intros q H; [done|]. destruct q as [|i r]; [done|]. cbn [qvis qrest length] in *. by rewrite IH.
Qed.
Lemma level_zero_from {A} (ik : A -> list A) n j xs : level ik n xs = [] -> level ik (n + j) xs = [].
Proof. apply level_zero_mono. Qed.
Lemma level_order_long {A} (ik : A -> list A) n xs : (forall k, level ik k xs <> []) -> n <= length (level_order ik n xs).
Proof.
  revert xs. induction n as [|n IH]; intros xs H; [lia|]. rewrite level_order_S_in, app_length.
  assert (xs <> []) by exact (H 0). destruct xs as [|x xs]; [done|]. cbn [length].
  assert (n <= length (level_order ik n (flat_map ik (x :: xs)))); [|lia]. apply IH. intros k. rewrite <- level_S_in. apply H.
Qed.
Lemma q_C70 s start nf X B (v : hvisitor (loc * uid) X B) lim x : reach s -> kind_of (heap s) start = Some KNode ->
  (forall k, level (neighbours (heap s)) k [start] <> []) ->
  (forall m r, r ∈ met_rels (heap s) start m -> followable nf (heap s) r) -> total v ->
  exists s' x', h_execute lim ident_uuid nf None v start s x = (Exn RecursionError, s', x') /\
    heap s' = heap s /\ fr_hyper s' <> [].
Proof.
  intros R Hk Hc Hf Tv. destruct (reach_fr s R) as (_ & F & _). unfold h_execute. rewrite F. cbn [app].
  destruct (rounds s R nf None lim 0 [start]) as (Q1 & Q2 & Q3 & Q4).
  { done. }
  { by apply plain_start. }
  { apply Hf. }
  change [(start, 0)] with (tag 0 [start]).
  assert (Hge : lim <= lsum s lim [start]).
  { unfold lsum, lwork. pose proof (level_order_long (neighbours (heap s)) lim [start] Hc). lia. }
  assert (Ne : qrest (K s None) false (lsum s lim [start]) (tag 0 [start]) <> []).
  { rewrite Q4. destruct lim as [|l]; [done|]. cbn [deeper]. intros E. apply map_eq_nil in E. by apply (Hc (S l)). }
  assert (Nl : qrest (K s None) false lim (tag 0 [start]) <> []).
  { intros E. apply Ne. replace (lsum s lim [start]) with (lim + (lsum s lim [start] - lim)) by lia. rewrite qrest_add, E. apply qrest_nil. }
  destruct (feed_total v (flat_map (C s nf) (qvis (K s None) false lim (tag 0 [start]))) x Tv) as (bs & x' & E).
  pose proof (htraverse_steps s R nf None v lim 0 (tag 0 [start]) [] x bs x' (qvis_full _ _ _ Nl)) as H.
  rewrite Nat.add_0_r in H. rewrite H; [|..|done].
  - cbn [htraverse]. exists (set_fr_hyper (qrest (K s None) false lim (tag 0 [start])) s), x'. split; [done|]. split; [done|]. exact Nl.
  - intros i Hi. apply Q2. rewrite (qvis_prefix (K s None) false lim (lsum s lim [start])) in Hi by done. 
    apply elem_of_list_lookup in Hi as [j Hj]. apply lookup_take_Some in Hj as [Hj _]. by eapply elem_of_list_lookup_2.
Qed.

(** A cycle keeps every level non-empty. *)
Lemma level_snoc {A} (ik : A -> list A) k xs a b : a ∈ level ik k xs -> b ∈ ik a -> b ∈ level ik (S k) xs.
Proof. intros H1 H2. cbn [level]. apply elem_of_list_In, in_flat_map. exists a. split; by apply elem_of_list_In. Qed.
Lemma leads_level h a b : leads h a b -> exists k, forall xs j, a ∈ level (neighbours h) j xs -> b ∈ level (neighbours h) (S k + j) xs.
Proof.
  induction 1 as [b Hb|b c Hl [k IH] Hc].
  - exists 0. intros xs j Hj. by eapply level_snoc.
  - exists (S k). intros xs j Hj. change (S (S k) + j) with (S (S k + j)). eapply level_snoc; [by apply IH|done].
Qed.
Lemma q_cycle h a b : leads h a b \/ a = b -> leads h b b -> forall k, level (neighbours h) k [a] <> [].
Proof.
  intros Hab Hbb k E. assert (H0 : exists j, b ∈ level (neighbours h) j [a]).
  { destruct Hab as [Hab| ->]; [|exists 0; left]. destruct (leads_level _ _ _ Hab) as [i Hi]. exists (S i + 0). apply Hi. cbn. left. }
  destruct H0 as [j0 H0]. destruct (leads_level _ _ _ Hbb) as [i Hi].
  assert (Hall : forall n, exists j, n <= j /\ b ∈ level (neighbours h) j [a]).
  { induction n as [|n (j & H1 & H2)]; [exists j0; split; [lia|done]|]. exists (S i + j). split; [lia|]. by apply Hi. }
  destruct (Hall k) as (j & H1 & H2). replace j with (k + (j - k)) in H2 by lia. rewrite level_zero_from in H2 by done. inversion H2.
Qed.
