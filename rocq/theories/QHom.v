(** * C30, C31: proofs *)
From Verif Require Import Spec Hierarchy Elements Factory History PDict PPath PExec PBfs PWF PMono PReach PHist Traverse SpecTrav QTrav QTrav2 QTrav3 Homomorphism SpecHom.

(** the table that lists [us] *)
Definition table_of (us : list uid) : table := foldl (fun t u => add_homology u t) table0 us.
Lemma table_of_snoc us u : table_of (us ++ [u]) = add_homology u (table_of us).
Proof. unfold table_of. by rewrite foldl_app. Qed.
Lemma table_cnt us : tb_cnt (table_of us) = length us.
Proof. induction us as [|u us IH] using rev_ind; [done|]. rewrite table_of_snoc, app_length. simpl. lia. Qed.
Lemma table_indexes us : indexes us (index_of (table_of us)) (uid_at (table_of us)) (tb_cnt (table_of us)).
Proof.
  split; [apply table_cnt|]. induction us as [|u us IH] using rev_ind.
  - split; [done|]. split; [|done]. intros u i. split; [done|]. intros [H _]. done.
  - destruct IH as (I1 & I2 & I3). rewrite table_of_snoc. unfold add_homology, index_of, uid_at in *. cbn [tb_fwd tb_bwd tb_cnt].
    rewrite table_cnt. split; [|split].
    + intros i. rewrite dget_dset. destruct (decide (i = length us)) as [->|Hi].
      * rewrite lookup_app_r by done. by rewrite Nat.sub_diag.
      * rewrite I1. destruct (decide (i < length us)).
        -- by rewrite lookup_app_l.
        -- rewrite lookup_ge_None_2 by lia. rewrite lookup_ge_None_2 by (rewrite app_length; simpl; lia). done.
    + intros w i. rewrite dget_dset. destruct (decide (w = u)) as [->|Hw].
      * split.
        -- intros [= <-]. split; [rewrite lookup_app_r by done; by rewrite Nat.sub_diag|].
           intros j Hj. apply lookup_lt_Some in Hj. rewrite app_length in Hj. simpl in Hj. lia.
        -- intros [H1 H2]. f_equal. specialize (H2 (length us)). rewrite lookup_app_r in H2 by done. rewrite Nat.sub_diag in H2.
           specialize (H2 eq_refl). apply lookup_lt_Some in H1. rewrite app_length in H1. simpl in H1. lia.
      * rewrite I2. assert (HH : forall j, (us ++ [u]) !! j = Some w <-> us !! j = Some w).
        { intros j. rewrite lookup_app_Some. split; [|by left]. intros [H|[H1 H2]]; [done|]. apply list_lookup_singleton_Some in H2 as [_ H2]. congruence. }
        rewrite HH. split; intros [H1 H2]; (split; [done|]); intros j Hj; apply H2; by apply HH.
    + intros w Hw. apply not_elem_of_app in Hw as [H1 H2]. rewrite dget_dset, decide_False; [by apply I3|]. intros ->. apply H2. left.
Qed.
Lemma indexes_bijective us ix at_ cnt : indexes us ix at_ cnt -> NoDup us -> bijective ix at_ cnt.
Proof.
  intros (-> & H1 & H2 & H3) Hnd. split.
  - intros u i. rewrite H1, H2. split.
    + intros [-> _]. done.
    + destruct (us !! i) as [u'|] eqn:E; [|done]. intros [= ->]. split; [done|]. intros j Hj.
      by rewrite (NoDup_lookup us i j u Hnd E Hj).
  - intros i. rewrite H1. split.
    + intros Hi. destruct (lookup_lt_is_Some_2 us i Hi) as [u ->]. by exists u.
    + intros [u Hu]. destruct (us !! i) eqn:E; [|done]. by apply lookup_lt_Some in E.
Qed.

(** visiting a list *)
Lemma visit_nodes s ls us x : (forall l, l ∈ ls -> exists_in (heap s) l) -> h_nodes x = table_of us ->
  visit_all add_node_homology s ls x = (Ok (map (fun _ => tt) ls), mkHom (table_of (us ++ map (uuid_of (heap s)) ls)) (h_edges x) (h_vals x)).
Proof.
  revert us x. induction ls as [|l ls IH]; intros us x Hl Hx.
  - cbn [visit_all map]. rewrite app_nil_r, <- Hx. by destruct x.
  - cbn [visit_all]. destruct (Hl l ltac:(left)) as [o Ho]. unfold add_node_homology at 1. rewrite Ho.
    rewrite (IH (us ++ [o_uuid o])).
    + cbn [h_edges h_vals map]. rewrite <- app_assoc. unfold uuid_of at 2. rewrite Ho. done.
    + intros y Hy. apply Hl. by right.
    + cbn [h_nodes]. by rewrite table_of_snoc, Hx.
Qed.
Lemma visit_edges s ls us x : (forall l, l ∈ ls -> exists_in (heap s) l) -> h_edges x = table_of us ->
  visit_all add_edge_homology s ls x = (Ok (map (fun _ => tt) ls), mkHom (h_nodes x) (table_of (us ++ map (uuid_of (heap s)) ls)) (h_vals x)).
Proof.
  revert us x. induction ls as [|l ls IH]; intros us x Hl Hx.
  - cbn [visit_all map]. rewrite app_nil_r, <- Hx. by destruct x.
  - cbn [visit_all]. destruct (Hl l ltac:(left)) as [o Ho]. unfold add_edge_homology at 1. rewrite Ho.
    rewrite (IH (us ++ [o_uuid o])).
    + cbn [h_nodes h_vals map]. rewrite <- app_assoc. unfold uuid_of at 2. rewrite Ho. done.
    + intros y Hy. apply Hl. by right.
    + cbn [h_edges]. by rewrite table_of_snoc, Hx.
Qed.
Lemma visit_values s ls us x : (forall l, l ∈ ls -> exists_in (heap s) l) -> h_vals x = table_of us ->
  visit_all add_value_homology s ls x = (Ok (map (fun _ => tt) ls), mkHom (h_nodes x) (h_edges x) (table_of (us ++ map (uuid_of (heap s)) ls))).
Proof.
  revert us x. induction ls as [|l ls IH]; intros us x Hl Hx.
  - cbn [visit_all map]. rewrite app_nil_r, <- Hx. by destruct x.
  - cbn [visit_all]. destruct (Hl l ltac:(left)) as [o Ho]. unfold add_value_homology at 1. rewrite Ho.
    rewrite (IH (us ++ [o_uuid o])).
    + cbn [h_nodes h_edges map]. rewrite <- app_assoc. unfold uuid_of at 2. rewrite Ho. done.
    + intros y Hy. apply Hl. by right.
    + cbn [h_vals]. by rewrite table_of_snoc, Hx.
Qed.

Lemma fkids_exists f h a c : WF0 h -> c ∈ fkids f h a -> exists_in h c.
Proof. intros W Hc. apply elem_of_list_filter in Hc as [_ Hc]. by apply (wf0_child h W a). Qed.
Lemma level_exists f h n xs : WF0 h -> (forall x, x ∈ xs -> exists_in h x) -> forall y, y ∈ level (fkids f h) n xs -> exists_in h y.
Proof.
  intros W Hx. induction n as [|n IH]; intros y Hy; [by apply Hx|]. cbn [level] in Hy.
  apply elem_of_flat_map in Hy as (z & _ & Hy). by eapply fkids_exists.
Qed.
Lemma bfs_order_exists t h start ls : WF0 h -> exists_in h start -> bfs_order t h start ls -> forall y, y ∈ ls -> exists_in h y.
Proof.
  intros W Hs (n & _ & ->) y Hy. apply elem_of_app in Hy as [Hy|Hy].
  - unfold root_part in Hy. destruct (_ && _); [|inversion Hy]. apply elem_of_list_singleton in Hy. by subst.
  - apply elem_of_level_order in Hy as (k & _ & Hy). eapply level_exists; [done| |exact Hy]. intros x Hx. by eapply fkids_exists.
Qed.
Lemma bfs_order_exec s t start ls : reach s -> exists_in (heap s) start -> bfs_order t (heap s) start ls ->
  forall X B (v : visitor X B) lim x bs x', length ls < lim -> visit_all v s ls x = (Ok bs, x') ->
  execute_bfs lim t v start s x = (Ok bs, s, x').
Proof.
  intros R Hs (n & Hn & ->) X B v lim x bs x' Hl Hv. apply (q_bfs s R t start Hs n); [|rewrite app_length in Hl; lia|done].
  unfold enough. by destruct (t_max t).
Qed.
Lemma bfs_order_ex s t start : reach s -> exists_in (heap s) start -> exists ls, bfs_order t (heap s) start ls.
Proof.
  intros R Hs. destruct (enough_exists s R t start Hs) as [n Hn]. eexists. exists n. split; [|reflexivity].
  unfold enough in Hn. by destruct (t_max t).
Qed.
Lemma bfs_order_fun t h start l1 l2 : bfs_order t h start l1 -> bfs_order t h start l2 -> l1 = l2.
Proof.
  intros (n1 & H1 & ->) (n2 & H2 & ->). destruct (t_max t); [congruence|]. f_equal.
  destruct (Nat.le_ge_cases n1 n2).
  - replace n2 with (n1 + (n2 - n1)) by lia. by rewrite level_order_stable.
  - replace n1 with (n2 + (n1 - n2)) by lia. by rewrite level_order_stable.
Qed.

Lemma hom_run s cf start lim x0 ns es vs : reach s -> exists_in (heap s) start ->
  bfs_order (hom_trav k_node cf) (heap s) start ns -> bfs_order (hom_trav k_edge cf) (heap s) start es ->
  bfs_order (hom_trav k_value cf) (heap s) start vs ->
  length ns < lim -> length es < lim -> length vs < lim ->
  hom_execute lim cf start s x0 = (Ok (map (fun _ => tt) (ns ++ es ++ vs)), s,
    mkHom (table_of (map (uuid_of (heap s)) ns)) (table_of (map (uuid_of (heap s)) es)) (table_of (map (uuid_of (heap s)) vs))).
Proof.
  intros R Hs Hn He Hv Ln Le Lv. pose proof (reach_wf s R) as W. unfold hom_execute.
  assert (E1 := visit_nodes s ns [] hom0 (bfs_order_exists _ _ _ _ W Hs Hn) eq_refl).
  rewrite (bfs_order_exec s _ start ns R Hs Hn _ _ _ lim _ _ _ Ln E1). cbn [app h_nodes h_edges h_vals hom0].
  match goal with |- context [execute_bfs _ (hom_trav k_edge cf) _ _ _ ?x] => set (x1 := x) end.
  assert (E2 := visit_edges s es [] x1 (bfs_order_exists _ _ _ _ W Hs He) eq_refl).
  rewrite (bfs_order_exec s _ start es R Hs He _ _ _ lim _ _ _ Le E2). cbn [app h_nodes h_edges h_vals x1].
  match goal with |- context [execute_bfs _ (hom_trav k_value cf) _ _ _ ?x] => set (x2 := x) end.
  assert (E3 := visit_values s vs [] x2 (bfs_order_exists _ _ _ _ W Hs Hv) eq_refl).
  rewrite (bfs_order_exec s _ start vs R Hs Hv _ _ _ lim _ _ _ Lv E3). cbn [app h_nodes h_edges h_vals x2].
  by rewrite !map_app.
Qed.

(** ** C30 *)
Lemma q_C30 s cf start : reach s -> exists_in (heap s) start ->
  exists ns es vs,
    bfs_order (hom_trav k_node cf) (heap s) start ns /\
    bfs_order (hom_trav k_edge cf) (heap s) start es /\
    bfs_order (hom_trav k_value cf) (heap s) start vs /\
    forall lim x0, length ns < lim -> length es < lim -> length vs < lim ->
    exists r x, hom_execute lim cf start s x0 = (Ok r, s, x) /\
      all_indexes x (map (uuid_of (heap s)) ns) (map (uuid_of (heap s)) es) (map (uuid_of (heap s)) vs).
Proof.
  intros R Hs. destruct (bfs_order_ex s (hom_trav k_node cf) start R Hs) as [ns Hn].
  destruct (bfs_order_ex s (hom_trav k_edge cf) start R Hs) as [es He].
  destruct (bfs_order_ex s (hom_trav k_value cf) start R Hs) as [vs Hv].
  exists ns, es, vs. repeat (split; [done|]). intros lim x0 L1 L2 L3. eexists _, _.
  split; [by apply hom_run|]. split; [apply table_indexes|]. split; apply table_indexes.
Qed.
Lemma q_C30_bij x ns es vs : all_indexes x ns es vs ->
  (NoDup ns -> bijective (hom_node x) (hom_dim x) (cnt_node x)) /\
  (NoDup es -> bijective (hom_edge x) (hom_depth x) (cnt_edges x)) /\
  (NoDup vs -> bijective (hom_val x) (hom_ival x) (cnt_values x)).
Proof. intros (H1 & H2 & H3). split; [|split]; intros; by eapply indexes_bijective. Qed.

Lemma level_order_1 {A} (kids : A -> list A) xs : level_order kids 1 xs = xs.
Proof. unfold level_order. simpl. by rewrite app_nil_r. Qed.
Lemma order_depth1 k h start : bfs_order (hom_trav k (mkHC true (Some 1))) h start (fkids (is_kind k) h start).
Proof.
  exists 1. split; [done|]. unfold root_part. cbn [hom_trav t_ignore t_filter hc_ignore negb]. rewrite andb_false_r.
  by rewrite level_order_1.
Qed.
Lemma child_uuids_nodup h p : WF0 h -> NoDup (map (uuid_of h) (children h p)).
Proof.
  intros W. unfold children. destruct (h !! p) as [o|] eqn:E; [|constructor].
  assert (Hm : map (uuid_of h) (map snd (o_subs o)) = dkeys (o_subs o)).
  { unfold dkeys. rewrite map_map. apply map_ext_in. intros [u c] Hin. apply elem_of_list_In in Hin.
    destruct (wf_sub _ W p o u c E Hin) as (oc & H1 & H2 & _). cbn [snd fst]. unfold uuid_of. by rewrite H1. }
  rewrite Hm. exact (wf_nd _ W p o E).
Qed.
Lemma map_filter_nodup {A B} (g : A -> B) (P : A -> Prop) {HP : forall x, Decision (P x)} l : NoDup (map g l) -> NoDup (map g (filter P l)).
Proof.
  induction l as [|x l IH]; [done|]. cbn [map]. intros H. apply NoDup_cons in H as [H1 H2]. rewrite filter_cons.
  destruct (decide (P x)); [|by apply IH]. cbn [map]. apply NoDup_cons. split; [|by apply IH].
  intros Hx. apply H1. apply elem_of_list_fmap in Hx as (y & Hy & Hin). apply elem_of_list_filter in Hin as [_ Hin].
  apply elem_of_list_fmap. by exists y.
Qed.
Lemma q_C30_depth1 s start lim x0 : reach s -> exists_in (heap s) start ->
  let sub k := map (uuid_of (heap s)) (fkids (is_kind k) (heap s) start) in
  length (children (heap s) start) < lim ->
  exists r x, hom_execute lim (mkHC true (Some 1)) start s x0 = (Ok r, s, x) /\
    all_indexes x (sub k_node) (sub k_edge) (sub k_value) /\
    NoDup (sub k_node) /\ NoDup (sub k_edge) /\ NoDup (sub k_value) /\
    bijective (hom_node x) (hom_dim x) (cnt_node x) /\
    bijective (hom_edge x) (hom_depth x) (cnt_edges x) /\
    bijective (hom_val x) (hom_ival x) (cnt_values x).
Proof.
  intros R Hs sub Hl. pose proof (reach_wf s R) as W.
  assert (Hlen : forall k, length (fkids (is_kind k) (heap s) start) < lim).
  { intros k. unfold fkids. eapply Nat.le_lt_trans; [apply filter_length|done]. }
  assert (Hnd : forall k, NoDup (sub k)) by (intros k; unfold sub, fkids; by apply map_filter_nodup, child_uuids_nodup).
  eexists _, _. split; [apply (hom_run s (mkHC true (Some 1)) start lim x0 _ _ _ R Hs (order_depth1 _ _ _) (order_depth1 _ _ _) (order_depth1 _ _ _)); apply Hlen|].
  match goal with |- all_indexes ?x _ _ _ /\ _ => assert (A : all_indexes x (sub k_node) (sub k_edge) (sub k_value)) end.
  { split; [apply table_indexes|]. split; apply table_indexes. }
  split; [done|]. destruct (q_C30_bij _ _ _ _ A) as (B1 & B2 & B3). repeat (split; [by auto|]). by auto.
Qed.
(** equal uuids: the forward map misses an index *)
Lemma q_C30_refuted ix at_ cnt us i j u : indexes us ix at_ cnt -> i < j -> us !! i = Some u -> us !! j = Some u ->
  at_ i = Ok u /\ (forall w, ix w <> Ok i) /\ ~ bijective ix at_ cnt.
Proof.
  intros (-> & H1 & H2 & H3) Hij Hi Hj. assert (A : at_ i = Ok u) by (rewrite H1, Hi; done).
  assert (N : forall w, ix w <> Ok i).
  { intros w Hw. apply H2 in Hw as [Hw1 Hw2]. assert (w = u) as -> by congruence. specialize (Hw2 j Hj). lia. }
  split; [done|]. split; [done|]. intros [B1 _]. apply (N u). by apply B1.
Qed.

(** ** C31 *)
Lemma q_C31 lim cf start s x y : hom_execute lim cf start s x = hom_execute lim cf start s y.
Proof. done. Qed.
Lemma hom_execute_ok lim cf start s x r s' x' : fr_hier s = [] -> hom_execute lim cf start s x = (Ok r, s', x') -> s' = s.
Proof.
  intros Hf. unfold hom_execute.
  destruct (execute_bfs lim (hom_trav k_node cf) _ start s hom0) as [[[r1|e1] s1] x1] eqn:E1; [|done].
  apply q_C29_ok in E1 as ->. rewrite set_fr_same by done.
  destruct (execute_bfs lim (hom_trav k_edge cf) _ start s x1) as [[[r2|e2] s2] x2] eqn:E2; [|done].
  apply q_C29_ok in E2 as ->. rewrite set_fr_same by done.
  destruct (execute_bfs lim (hom_trav k_value cf) _ start s x2) as [[[r3|e3] s3] x3] eqn:E3; [|done].
  apply q_C29_ok in E3 as ->. rewrite set_fr_same by done. by intros [= _ <- _].
Qed.

Lemma q_C31_again lim cf start lim0 cf0 start0 s x r s' x' : reach s ->
  hom_execute lim0 cf0 start0 s x = (Ok r, s', x') ->
  s' = s /\ hom_execute lim cf start s' x' = hom_execute lim cf start s hom0.
Proof. intros R H. destruct (reach_fr s R) as [Hf _]. apply hom_execute_ok in H; [|done]. subst. done. Qed.

Lemma pairs_ok (l : list (uid * nat)) : NoDup (map fst l) -> NoDup (map snd l) ->
  let t := foldl put_pair table0 l in
  pairs_hold l (index_of t) (uid_at t) (tb_cnt t).
Proof.
  intros N1 N2. unfold pairs_hold. induction l as [|[u i] l IH] using rev_ind.
  - cbn. split; [done|]. split; intros; (split; [done|]); intros H; inversion H.
  - rewrite map_app in N1, N2. apply NoDup_app in N1 as (N1 & D1 & _). apply NoDup_app in N2 as (N2 & D2 & _).
    destruct (IH N1 N2) as (I0 & I1 & I2). cbn zeta in *. rewrite foldl_app. cbn [foldl put_pair]. unfold put_pair at 1 3 5. cbn [tb_cnt tb_fwd tb_bwd fst snd].
    rewrite app_length. cbn [length]. split; [lia|]. unfold index_of, uid_at in *. cbn [tb_fwd tb_bwd].
    assert (D1' : u ∉ map fst l) by (intros H; apply (D1 u H); left).
    assert (D2' : i ∉ map snd l) by (intros H; apply (D2 i H); left).
    split; intros w k; rewrite dget_dset, elem_of_app, elem_of_list_singleton.
    + destruct (decide (w = u)) as [->|Hw].
      * split; [intros [= <-]; by right|]. intros [H|[= <-]]; [|done]. destruct D1'. apply elem_of_list_fmap. by exists (u, k).
      * rewrite I1. split; [by left|]. intros [H|[= H _]]; done.
    + destruct (decide (k = i)) as [->|Hk].
      * split; [intros [= <-]; by right|]. intros [H|[= <-]]; [|done]. destruct D2'. apply elem_of_list_fmap. by exists (w, i).
      * rewrite I2. split; [by left|]. intros [H|[= _ H]]; done.
Qed.
Lemma q_C31_pairs ns es vs x : NoDup (map fst ns) -> NoDup (map snd ns) -> NoDup (map fst es) -> NoDup (map snd es) ->
  NoDup (map fst vs) -> NoDup (map snd vs) ->
  let y := reset_from_bijection ns es vs x in
  pairs_hold ns (hom_node y) (hom_dim y) (cnt_node y) /\
  pairs_hold es (hom_edge y) (hom_depth y) (cnt_edges y) /\
  pairs_hold vs (hom_val y) (hom_ival y) (cnt_values y).
Proof. intros. repeat split; try (intros; by apply pairs_ok). all: by apply pairs_ok. Qed.
