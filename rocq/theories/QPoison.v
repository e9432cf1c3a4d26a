(** * C87: tensors after a failed traversal *)
From stdpp Require Import relations.
From Verif Require Import Spec Hierarchy Elements Factory History PExec PReach PWF PBfs Traverse QTrav QTrav2 Homomorphism SpecHom QHom HTraverse Tensor SpecTensor QTensor QTensor2 QTensor3 SpecHTrav QHTrav Encode SpecEnc QEnc3 QEnc5 QFac2 SpecCoo QCoo QCoo2 QCoo3 QCoo4 QDepth SpecDepth.

(** ** The hierarchical traversals do not depend on the other queue *)
Lemma traverse_fr {X B} lifo lim t (v : visitor X B) q0 s q tasks x : (forall l x, v (set_fr_hyper q0 s) l x = v s l x) ->
  traverse lifo lim t v (set_fr_hyper q0 s) q tasks x = traverse lifo lim t v s q tasks x.
Proof.
  intros Hv. revert q tasks x. induction lim as [|lim IH]; intros q tasks x; [done|]. cbn [traverse]. destruct q as [|[l d] rest]; [done|].
  assert (Ef : fill_fringe t (set_fr_hyper q0 s) l d = fill_fringe t s l d).
  { unfold fill_fringe, get_subelements, bind, deref, ret. cbn [heap set_fr_hyper]. by destruct (below_max t d); [destruct (heap s !! l)|]. }
  rewrite Ef. destruct (fill_fringe t s l d) as [new|]; [|done]. rewrite Hv. destruct (v s l x) as [[b|e] x']; [apply IH|done].
Qed.
Lemma execute_fr {X B} lim t (v : visitor X B) q0 start s x : (forall l x, v (set_fr_hyper q0 s) l x = v s l x) ->
  execute_bfs lim t v start (set_fr_hyper q0 s) x = let '(r, s1, x1) := execute_bfs lim t v start s x in (r, set_fr_hyper q0 s1, x1).
Proof.
  intros Hv. unfold execute_bfs.
  assert (Er : visit_root t v (set_fr_hyper q0 s) start x = visit_root t v s start x).
  { unfold visit_root. cbn [heap set_fr_hyper]. destruct (heap s !! start); [|done]. by rewrite Hv. }
  rewrite Er. destruct (visit_root t v s start x) as [[r|e] x1]; [|done].
  assert (Ef : fill_fringe t (set_fr_hyper q0 s) start 0 = fill_fringe t s start 0).
  { unfold fill_fringe, get_subelements, bind, deref, ret. cbn [heap set_fr_hyper]. by destruct (below_max t 0); [destruct (heap s !! start)|]. }
  rewrite Ef. destruct (fill_fringe t s start 0) as [new|]; [|done]. rewrite (traverse_fr false lim t v q0 s) by done.
  change (fr_hier (set_fr_hyper q0 s)) with (fr_hier s). by destruct (traverse false lim t v s (fr_hier s ++ new) r x1) as [[r' q] x'].
Qed.
Lemma hom_fr lim cf q0 start s x : hom_execute lim cf start (set_fr_hyper q0 s) x = let '(r, s1, x1) := hom_execute lim cf start s x in (r, set_fr_hyper q0 s1, x1).
Proof.
  unfold hom_execute. rewrite (execute_fr lim _ add_node_homology q0) by done.
  destruct (execute_bfs lim _ add_node_homology start s hom0) as [[[r1|e1] s1] x1]; [|done].
  rewrite (execute_fr lim _ add_edge_homology q0) by done.
  destruct (execute_bfs lim _ add_edge_homology start s1 x1) as [[[r2|e2] s2] x2]; [|done].
  rewrite (execute_fr lim _ add_value_homology q0) by done.
  by destruct (execute_bfs lim _ add_value_homology start s2 x2) as [[[r3|e3] s3] x3].
Qed.
Definition ep_step (r : loc) : M (option loc) := let! o := deref r in ret (o_endpoint o).
Lemma ep_step_run r s : ep_step r s = (match heap s !! r with Some o => Ok (o_endpoint o) | None => Exn BadRef end, s).
Proof. unfold ep_step, bind, deref, ret. by destruct (heap s !! r). Qed.
Lemma map_ep_fr q0 s rs : exists r, map_m ep_step rs s = (r, s) /\ map_m ep_step rs (set_fr_hyper q0 s) = (r, set_fr_hyper q0 s).
Proof.
  induction rs as [|r rs IH]; [by exists (Ok [])|]. cbn [map_m]. pose proof (ep_step_run r s) as E1. pose proof (ep_step_run r (set_fr_hyper q0 s)) as E2. cbn [heap set_fr_hyper] in E2.
  destruct IH as (l & F1 & F2). destruct (heap s !! r) as [o|].
  - rewrite (bind_ok _ _ _ _ _ E1), (bind_ok _ _ _ _ _ E2). destruct l as [l|e].
    + rewrite (bind_ok _ _ _ _ _ F1), (bind_ok _ _ _ _ _ F2). by eexists.
    + rewrite (bind_exn _ _ _ _ _ F1), (bind_exn _ _ _ _ _ F2). by eexists.
  - rewrite (bind_exn _ _ _ _ _ E1), (bind_exn _ _ _ _ _ E2). by eexists.
Qed.
Lemma eps_fr {I} (idf : ident I) q0 s e oe : endpoint_ids idf (set_fr_hyper q0 s) e oe = endpoint_ids idf s e oe.
Proof.
  unfold endpoint_ids. destruct (k_edge (o_kind oe)); [|done].
  assert (E : fst (induced_subset e (set_fr_hyper q0 s)) = fst (induced_subset e s)).
  { unfold induced_subset. fold ep_step. assert (Es : forall s', sub_relations e s' = (match heap s' !! e with Some o => Ok (filter (fun c => accepts (is_kind k_rel) (heap s') c = true) (dvals (o_subs o))) | None => Exn BadRef end, s')).
    { intros s'. pose proof (fkids_get s' k_rel e) as F. unfold sub_relations. unfold get_subelements, bind, deref, ret in *. destruct (heap s' !! e) eqn:Eo; [|done]. f_equal. cbn [fst] in F. rewrite F. unfold fkids, children. by rewrite Eo. }
    pose proof (Es s) as E1. pose proof (Es (set_fr_hyper q0 s)) as E2. cbn [heap set_fr_hyper] in E2. destruct (heap s !! e) as [o|].
    - rewrite (bind_ok _ _ _ _ _ E1), (bind_ok _ _ _ _ _ E2). match goal with |- fst (map_m _ ?l _) = _ => destruct (map_ep_fr q0 s l) as (r & F1 & F2) end.
      change (fst (map_m ep_step (filter (fun c => accepts (is_kind k_rel) (heap s) c = true) (dvals (o_subs o))) (set_fr_hyper q0 s)) = fst (map_m ep_step (filter (fun c => accepts (is_kind k_rel) (heap s) c = true) (dvals (o_subs o))) s)). by rewrite F1, F2.
    - rewrite (bind_exn _ _ _ _ _ E1), (bind_exn _ _ _ _ _ E2). done. }
  by rewrite E.
Qed.
Lemma fill_one_fr {I X B} (idf : ident I) (v : hvisitor I X B) q0 s w mk ep e oe tasks y :
  fill_one idf v (set_fr_hyper q0 s) w mk ep e oe tasks y = fill_one idf v s w mk ep e oe tasks y.
Proof. unfold fill_one. by rewrite eps_fr. Qed.
Lemma h_relation_fr {I X B} (idf : ident I) nf mx (v : hvisitor I X B) q0 s o d tasks y :
  h_relation idf nf mx v (set_fr_hyper q0 s) o d tasks y = h_relation idf nf mx v s o d tasks y.
Proof.
  unfold h_relation, fill_relations. cbn [heap set_fr_hyper]. destruct (o_parent o); [|done]. destruct (heap s !! _); [|done]. destruct (i_edge _ _ _); [|done].
  change (norm_weight nf (set_fr_hyper q0 s) o) with (norm_weight nf s o). destruct (norm_weight nf s o); [|done]. destruct (o_endpoint o); [|done].
  destruct (heap s !! _); [|done]. destruct (i_node _ _ _); [|done]. rewrite fill_one_fr. destruct (fill_one _ _ s _ _ _ _ _ _ _) as [[]]; [|done]. by rewrite fill_one_fr.
Qed.
Lemma htraverse_fr {I X B} lim (idf : ident I) nf mx (v : hvisitor I X B) q0 s q tasks y :
  htraverse lim idf nf mx v (set_fr_hyper q0 s) q tasks y = htraverse lim idf nf mx v s q tasks y.
Proof.
  revert q tasks y. induction lim as [|lim IH]; intros q tasks y; [done|]. cbn [htraverse]. destruct q as [|[l d] rest]; [done|].
  assert (E : h_item idf nf mx v (set_fr_hyper q0 s) l d tasks y = h_item idf nf mx v s l d tasks y).
  { unfold h_item, sub_edges, sub_relations, get_subelements, bind, deref, ret. cbn [heap set_fr_hyper]. destruct (heap s !! l) as [o|]; [|done]. rewrite h_relation_fr. destruct (o_kind o); try done. }
  rewrite E. destruct (h_item idf nf mx v s l d tasks y) as [[[t new]|e] y']; [apply IH|done].
Qed.

(** ** A relation left in the queue *)
Lemma foreign_item s c x r d mx tasks y : reach s -> foreign (heap s) c r ->
  (forall u, (forall y, y ∈ edges_of (heap s) c -> uuid_of (heap s) y <> u) -> hom_edge x u = Exn KeyError) ->
  h_item (ident_hom x) sum_norm mx collector s r d tasks y = (Exn KeyError, y).
Proof.
  intros R (e & Hr & Hu) Xk. destruct (rel_of s R r e Hr) as (o & Ho & Hk & Hp). unfold h_item. rewrite Ho, Hk. unfold h_relation. rewrite Hp.
  pose proof (Xk _ Hu) as E. unfold uuid_of in E. destruct (heap s !! e) as [oe|] eqn:He.
  - cbn [i_edge ident_hom]. cbn in E. by rewrite E.
  - exfalso. pose proof (reach_wf s R) as W. destruct (wf_par _ W r o e Ho Hp) as (oe & He' & _). congruence.
Qed.
Lemma transform_foreign s c lim mx r d q : reach s -> closed_graph (heap s) c -> length (children (heap s) c) < lim -> foreign (heap s) c r ->
  exists x, transform lim mx c (set_fr_hyper ((r, d) :: q) s) = (Exn KeyError, set_fr_hyper (q ++ [(c, 0)]) s, Some (x, synchronize x)).
Proof.
  intros R G Hl F. destruct (children_hier s c lim Hl (kind_exists _ _ _ (cg_node _ _ G)) R) as (t & x & E).
  destruct (depth1_indices s c lim x t R G Hl E) as (_ & _ & _ & Xk). exists x. unfold transform. rewrite hom_fr, E. unfold h_execute. rewrite htraverse_fr.
  change (fr_hyper (set_fr_hyper ((r, d) :: q) s)) with ((r, d) :: q). destruct lim as [|lim]; [lia|]. cbn [app htraverse]. by rewrite (foreign_item s c x r d mx [] [] R F Xk).
Qed.
Lemma after_foreign s c lim mx q n : reach s -> closed_graph (heap s) c -> length (children (heap s) c) < lim -> (forall i, i ∈ q -> foreign (heap s) c i.1) ->
  n <= length q -> forall m, after_transforms n lim mx c (set_fr_hyper (q ++ repeat (c, 0) m) s) = set_fr_hyper (drop n q ++ repeat (c, 0) (m + n)) s.
Proof.
  intros R G Hl. revert q. induction n as [|n IH]; intros q F Hn m; [by rewrite Nat.add_0_r|].
  destruct q as [|[r d] q]; [cbn in Hn; lia|]. cbn [after_transforms drop app].
  destruct (transform_foreign s c lim mx r d (q ++ repeat (c, 0) m) R G Hl (F (r, d) ltac:(left))) as (x & ->). cbn [fst snd].
  rewrite <- app_assoc. replace (repeat (c, 0) m ++ [(c, 0)]) with (repeat (c, 0) (S m)).
  2:{ clear. induction m as [|m IH]; [done|]. cbn [repeat app]. by rewrite <- IH. }
  rewrite IH; [by rewrite Nat.add_succ_r|intros; apply F; by right|cbn in Hn; lia].
Qed.
Lemma q_C87_poisoned s c lim mx q n : reach s -> closed_graph (heap s) c -> length (children (heap s) c) < lim -> (forall i, i ∈ q -> foreign (heap s) c i.1) ->
  n < length q -> exists x, transform lim mx c (after_transforms n lim mx c (set_fr_hyper q s)) =
    (Exn KeyError, set_fr_hyper (drop (S n) q ++ repeat (c, 0) (S n)) s, Some (x, synchronize x)).
Proof.
  intros R G Hl F Hn. pose proof (after_foreign s c lim mx q n R G Hl F ltac:(lia) 0) as E. cbn [repeat] in E. rewrite app_nil_r in E. rewrite E. cbn [Nat.add].
  destruct (lookup_lt_is_Some_2 q n Hn) as ([r d] & Hi). rewrite (drop_S _ _ _ Hi). cbn [app].
  destruct (transform_foreign s c lim mx r d (drop (S n) q ++ repeat (c, 0) n) R G Hl) as (x & Ex).
  - apply (F (r, d)). by eapply elem_of_list_lookup_2.
  - exists x. rewrite Ex. rewrite <- app_assoc. do 4 f_equal. clear. induction n as [|n IH]; [done|]. cbn [repeat app]. by rewrite IH.
Qed.

(** ** The call after the last of them *)
Section again.
  Context (s : st) (R : reach s) (c : loc).
  Let h := heap s.
  Context (G : closed_graph h c) (x : hom) (Inj : forall u w i, hom_node x u = Ok i -> hom_node x w = Ok i -> u = w).
  Context (Xp : forall e p, e ∈ edges_of h c -> p ∈ endpoints h e -> is_ok (hom_node x (uuid_of h p))).
  Context (Xe : forall e, e ∈ edges_of h c -> is_ok (hom_edge x (uuid_of h e))).
  Definition top (i : loc * nat) : Prop := i.1 = c \/ i.1 ∈ edges_of h c \/ i.1 ∈ out_rels h c.
  Lemma edge_kind n e : e ∈ edges_of h n -> kind_of h e = Some KEdge.
  Proof. intros He. apply elem_of_list_filter in He as [Ha _]. unfold accepts in Ha. unfold kind_of. destruct (h !! e) as [oe|]; [|done]. cbn. unfold is_kind in Ha. by destruct (o_kind oe). Qed.
  Lemma sim_top {X B} (v : hvisitor nat X B) lim q tasks y : (forall i, i ∈ q -> top i) ->
    htraverse lim (ident_hom x) sum_norm (Some 1) v s q tasks y = htraverse lim ident_uuid sum_norm (Some 1) (vt x v) s q tasks y.
  Proof.
    pose proof (closed_inner s c R G) as G'. pose proof (cg_node _ _ G) as Hkc.
    assert (Kr : forall r, r ∈ out_rels h c -> kind_of h r = Some KRel).
    { intros r Hr. apply (out_rels_c s c G') in Hr as (e & He & Hr). destruct (rel_of s R r e Hr) as (o & Ho & Hk & _). unfold kind_of, h. by rewrite Ho, <- Hk. }
    apply (htraverse_sim s R x Inj (Some 1) top).
    - intros r d Ht Hk; unfold top in *; cbn [fst] in *; destruct Ht as [->|[H|H]]; change (heap s) with h in Hk; [congruence|rewrite (edge_kind _ _ H) in Hk; done|].
      apply (out_rels_c s c G') in H as (e & He & Hr). by apply (known_c s R c G' x Xp Xe e r).
    - intros n d e Ht Hk He; unfold top in *; cbn [fst] in *; destruct Ht as [->|[H|H]]; change (heap s) with h in Hk, He; [right; by left|rewrite (edge_kind _ _ H) in Hk; done|rewrite (Kr _ H) in Hk; done].
    - intros e d r Ht Hk Hr; unfold top in *; cbn [fst] in *; destruct Ht as [->|[H|H]]; change (heap s) with h in Hk, Hr; [congruence| |rewrite (Kr _ H) in Hk; done].
      right. right. apply (out_rels_c s c G'). by exists e.
    - intros r d p _ _ _ Hd. unfold deeper in Hd. apply Nat.ltb_lt in Hd. lia.
  Qed.
  Definition calls1 := flat_map (rel_calls sum_norm h) (out_rels h c).
  Lemma repeat_flat {A B} (f : A -> list B) a k : flat_map f (repeat a k) = concat (repeat (f a) k).
  Proof. induction k as [|k IH]; [done|]. cbn [repeat flat_map concat]. by rewrite IH. Qed.
  Lemma repeat_len {A} (l : list A) k : length (concat (repeat l k)) = k * length l.
  Proof. induction k as [|k IH]; [done|]. cbn [repeat concat]. rewrite app_length, IH. lia. Qed.
  Lemma flat_concat {A B} (f : A -> list B) l k : flat_map f (concat (repeat l k)) = concat (repeat (flat_map f l) k).
  Proof. induction k as [|k IH]; [done|]. cbn [repeat concat]. by rewrite flat_map_app, IH. Qed.
  Lemma map_concat {A B} (f : A -> B) l k : map f (concat (repeat l k)) = concat (repeat (map f l) k).
  Proof. induction k as [|k IH]; [done|]. cbn [repeat concat]. by rewrite map_app, IH. Qed.
  Lemma again lim k : k * htrav_work h c 1 < lim -> exists ts,
    htraverse lim (ident_hom x) sum_norm (Some 1) collector s (repeat (c, 0) k) [] [] = (Ok ts, [], concat (repeat (map (map (trt x)) calls1) k)).
  Proof.
    intros Hl. pose proof (closed_inner s c R G) as G'. change collector with (@coo_collector nat).
    rewrite (sim_top coo_collector).
    2:{ intros i Hi. left. apply elem_of_list_In, repeat_spec in Hi. by subst. }
    assert (Eq : repeat (c, 0) k = tag 0 (repeat c k)).
    { clear. induction k as [|k IH]; [done|]. cbn. by rewrite IH. }
    rewrite Eq. destruct (rounds s R sum_norm (Some 1) 1 0 (repeat c k)) as (Q1 & Q2 & Q3 & Q4).
    { intros j Hj. lia. }
    { intros y Hy. apply elem_of_list_In, repeat_spec in Hy as ->. exists KNode. split; [exact (cg_node _ _ G)|done]. }
    { intros r Hr. rewrite level_order_1 in Hr. apply elem_of_flat_map in Hr as (y & Hy & Hr). apply elem_of_list_In, repeat_spec in Hy as ->.
      apply (out_rels_c s c G') in Hr as (e & He & Hr). by apply (followable_c s R c G' e r). }
    assert (Ew : lsum s 1 (repeat c k) = k * htrav_work h c 1).
    { unfold lsum, lwork, htrav_work, met_rels, met. rewrite !level_order_1, repeat_length. cbn [length]. rewrite !flat_one. rewrite !repeat_flat, !repeat_len. change (heap s) with h. lia. }
    replace lim with (lsum s 1 (repeat c k) + S (lim - lsum s 1 (repeat c k) - 1)) by lia.
    pose proof (feed_collector_vt x (flat_map (C s sum_norm) (qvis (K s (Some 1)) false (lsum s 1 (repeat c k)) (tag 0 (repeat c k)))) []) as Fv.
    rewrite (htraverse_steps s R sum_norm (Some 1) (vt x coo_collector) _ _ (tag 0 (repeat c k)) [] [] _ _ Q1 Q2 Fv). rewrite Q3.
    rewrite Q4. cbn [deeper Nat.add Nat.ltb Nat.leb htraverse]. eexists. f_equal. cbn [app]. rewrite level_order_1, repeat_flat, flat_concat, map_concat. done.
  Qed.
End again.
Lemma last_repeat {A} (l : list A) k : last (concat (repeat l (S k))) = last l.
Proof.
  induction k as [|k IH]; [cbn [repeat concat]; by rewrite app_nil_r|]. cbn [repeat concat]. cbn [repeat concat] in IH. rewrite last_app, IH. by destruct (last l).
Qed.
Lemma filter_concat {A} (P : A -> Prop) `{forall a, Decision (P a)} l k : filter P (concat (repeat l k)) = concat (repeat (filter P l) k).
Proof. induction k as [|k IH]; [done|]. cbn [repeat concat]. by rewrite filter_app, IH. Qed.
Lemma concat_twice {A} (l : list (list A)) k : concat (concat (repeat l k)) = concat (repeat (concat l) k).
Proof. induction k as [|k IH]; [done|]. cbn [repeat concat]. by rewrite concat_app, IH. Qed.

Lemma fill_all_bounds l T T' : fill_all T l = Ok T' -> forall t, t ∈ l -> in_bounds T t.
Proof.
  revert T. induction l as [|t0 l IH]; intros T H t Ht; [inversion Ht|]. cbn [fill_all] in H. unfold fill_tensors in H.
  destruct ((tu_e t0 <? te_E T) && (tu_0 t0 <? te_n T) && (tu_1 t0 <? te_n T)) eqn:E; [|done].
  apply elem_of_cons in Ht as [->|Ht]; [|exact (IH _ H t Ht)].
  apply andb_prop in E as [E E3]. apply andb_prop in E as [E1 E2]. split; [by apply Nat.ltb_lt|]. split; by apply Nat.ltb_lt.
Qed.

Lemma q_C87_recovers s c lim q : reach s -> closed_graph (heap s) c -> (forall i, i ∈ q -> foreign (heap s) c i.1) ->
  S (length q) * work (heap s) c < lim ->
  exists tasks x T T', transform lim (Some 1) c s = (Ok tasks, s, Some (x, T)) /\
    transform lim (Some 1) c (after_transforms (length q) lim (Some 1) c (set_fr_hyper q s)) = (Ok tasks, s, Some (x, T')) /\ same_arrays T T'.
Proof.
  intros R G F Hl.
  assert (Hl1 : work (heap s) c < lim) by (rewrite Nat.mul_succ_l in Hl; lia).
  assert (Hl0 : length (children (heap s) c) < lim) by (unfold work in Hl1; lia).
  pose proof (after_foreign s c lim (Some 1) q (length q) R G Hl0 F ltac:(lia) 0) as E. cbn [repeat] in E. rewrite app_nil_r in E. rewrite E. cbn [Nat.add]. clear E.
  rewrite drop_all. cbn [app].
  destruct (q_tensor s c lim R G Hl1) as (tasks & x & T0 & Ht & Hix & _).
  destruct (children_hier s c lim Hl0 (kind_exists _ _ _ (cg_node _ _ G)) R) as (t & x' & E).
  assert (x' = x /\ t = tasks) as [-> ->].
  { clear Hix. unfold transform in Ht. rewrite E in Ht. destruct (h_execute _ _ _ _ _ _ _ _) as [[[]]]; [|done]. destruct (fill_weights _ _); [|done]. injection Ht. auto. }
  destruct (depth1_indices s c lim x tasks R G Hl0 E) as (Inj & Xp & Xe & _).
  assert (Hw : htrav_work (heap s) c 1 <= work (heap s) c).
  { unfold htrav_work, met_rels, met, work. rewrite level_order_1, !flat_one. unfold out_rels, out_edges. rewrite decide_True by (apply (cg_node _ _ G)). cbn [length].
    assert (length (edges_of (heap s) c) <= length (children (heap s) c)) by apply filter_length. lia. }
  destruct (again s R c G x Inj Xp Xe lim (S (length q))) as (ts & A); [nia|].
  destruct (again s R c G x Inj Xp Xe lim 1) as (ts1 & A1); [lia|]. cbn [repeat concat] in A1. rewrite app_nil_r in A1.
  set (L := map (map (trt x)) (calls1 s c)) in *.
  destruct (reach_fr s R) as (_ & Hf & _). unfold transform in Ht |- *. rewrite E in Ht |- *. rewrite hom_fr, E. unfold h_execute in Ht |- *. rewrite htraverse_fr.
  change (fr_hyper (set_fr_hyper (repeat (c, 0) (length q)) s)) with (repeat (c, 0) (length q)). rewrite Hf in Ht |- *. cbn [app] in Ht |- *.
  replace (repeat (c, 0) (length q) ++ [(c, 0)]) with (repeat (c, 0) (S (length q))).
  2:{ clear. generalize (length q). intros m. induction m as [|m IH]; [done|]. cbn [repeat app]. by rewrite <- IH. }
  rewrite A. rewrite A1 in Ht |- *. change (set_fr_hyper [] (set_fr_hyper (repeat (c, 0) (length q)) s)) with (set_fr_hyper [] s).
  assert (Es : set_fr_hyper [] s = s) by (by rewrite <- Hf; destruct s). rewrite Es in Ht |- *.
  assert (Hc : concat (concat (repeat L (S (length q)))) = concat (repeat (concat L) (S (length q)))) by apply concat_twice.
  unfold fill_weights in Ht |- *. rewrite Hc. clear Hc.
  destruct (concat L) as [|t0 l0] eqn:EL.
  - exists tasks, x, (synchronize x), (synchronize x). split; [done|]. assert (En : forall m, concat (repeat (@nil (htuple nat)) m) = []) by (intros m; induction m; done).
    rewrite En. split; [done|]. unfold same_arrays. by destruct (synchronize x).
  - destruct (synchronize x) as [T1|] eqn:ET; [|done].
    assert (Hb : forall t, t ∈ t0 :: l0 -> in_bounds T1 t).
    { destruct (fill_all T1 (t0 :: l0)) as [Tx|] eqn:Ex; [|done]. by apply (fill_all_bounds _ _ _ Ex). }
    destruct (fill_all_ok (t0 :: l0) T1 Hb) as (Ta & Fa & a1 & a2 & a3 & a4 & a5).
    destruct (fill_all_ok (concat (repeat (t0 :: l0) (S (length q)))) T1) as (Tb & Fb & b1 & b2 & b3 & b4 & b5).
    { intros t Hin. apply Hb. revert Hin. generalize (S (length q)). intros m. induction m as [|m IH]; cbn [repeat concat]; intros Hin; [inversion Hin|].
      apply elem_of_app in Hin as [Hin|Hin]; auto. }
    rewrite Fa. exists tasks, x, (Some Ta), (Some Tb). split; [done|]. split.
    + clear -Fb. destruct (concat (repeat (t0 :: l0) (S (length q)))) as [|ta la] eqn:EM; [done|]. by rewrite Fb.
    + cbn [same_arrays]. split; [congruence|]. split; [congruence|]. split; [|split].
      * intros k i j. rewrite a3, b3, filter_concat, map_concat, last_repeat. done.
      * intros k i. rewrite a4, b4, filter_concat, map_concat, last_repeat. done.
      * intros k i. rewrite a5, b5, filter_concat, map_concat, last_repeat. done.
Qed.

Lemma q_C87_after_nested s c c2 lim mx p e n : reach s -> closed_graph (heap s) c -> closed_graph (heap s) c2 -> (forall d, mx = Some d -> 2 <= d) ->
  p ∈ neighbours (heap s) c -> e ∈ edges_of (heap s) p -> rels_of (heap s) e <> [] ->
  (forall p' e' y, p' ∈ neighbours (heap s) c -> e' ∈ edges_of (heap s) p' -> y ∈ edges_of (heap s) c \/ y ∈ edges_of (heap s) c2 -> uuid_of (heap s) y <> uuid_of (heap s) e') ->
  length (children (heap s) c) < lim -> htrav_work (heap s) c 2 < lim -> length (flat_map (out_rels (heap s)) (neighbours (heap s) c)) * work (heap s) c2 < lim ->
  let s1 := snd (fst (transform lim mx c s)) in
  let s2 := after_transforms n lim (Some 1) c2 s1 in
  let left := length (flat_map (out_rels (heap s)) (neighbours (heap s) c)) - 1 in
  fst (fst (transform lim mx c s)) = Exn KeyError /\
  (n < left -> fst (fst (transform lim (Some 1) c2 s2)) = Exn KeyError) /\
  (n = left -> exists tasks x T T', transform lim (Some 1) c2 s = (Ok tasks, s, Some (x, T)) /\ transform lim (Some 1) c2 s2 = (Ok tasks, s, Some (x, T')) /\ same_arrays T T').
Proof.
  intros R G G2 Hd Hp He Hr Hu Hl1 Hl2 Hl3 s1 s2 left. unfold s1 in s2.
  destruct (q_C86_nested s c lim mx p e R G Hd Hp He Hr) as (x & E); [intros p' e' y H1 H2 H3; apply (Hu p' e' y); auto|done|done|].
  pose proof (closed_inner s c R G) as G'. set (rs := flat_map (out_rels (heap s)) (neighbours (heap s) c)) in *.
  assert (Hrs : length rs <> 0).
  { destruct (rels_of (heap s) e) as [|r1 l1] eqn:Er; [done|]. assert (Hin : r1 ∈ rs).
    { apply elem_of_flat_map. exists p. split; [done|]. unfold out_rels, out_edges. rewrite decide_True by (by apply (nbr_node s c G')). apply elem_of_flat_map. exists e. split; [done|]. rewrite Er. left. }
    intros H0. apply nil_length_inv in H0. rewrite H0 in Hin. inversion Hin. }
  split; [by rewrite E|]. unfold s2. rewrite E. cbn [fst snd].
  set (q := map (fun r => (r, 1)) (tail rs)). assert (Lq : length q = left). { unfold q, left. rewrite map_length. destruct rs; [done|]. cbn. lia. }
  assert (F : forall i, i ∈ q -> foreign (heap s) c2 i.1).
  { intros i Hi. apply elem_of_list_fmap in Hi as (r & -> & Hi). cbn [fst]. assert (Hin : r ∈ rs) by (destruct rs; [inversion Hi|by right]).
    apply elem_of_flat_map in Hin as (p' & Hp' & Hin). unfold out_rels, out_edges in Hin. rewrite decide_True in Hin by (by apply (nbr_node s c G')).
    apply elem_of_flat_map in Hin as (e' & He' & Hin). exists e'. split; [done|]. intros y Hy. apply (Hu p' e' y); auto. }
  assert (Hk : S (length q) * work (heap s) c2 < lim) by (replace (S (length q)) with (length rs) by (unfold left in Lq; lia); done).
  assert (Hc2 : length (children (heap s) c2) < lim) by (rewrite Nat.mul_succ_l in Hk; unfold work in Hk; lia). split.
  - intros Hn. rewrite <- Lq in Hn. destruct (q_C87_poisoned s c2 lim (Some 1) q n R G2 Hc2 F Hn) as (x2 & E2). by rewrite E2.
  - intros ->. rewrite <- Lq. by apply q_C87_recovers.
Qed.
