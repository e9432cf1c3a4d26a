(** * C85: the sparse tensors of a message: results *)
From stdpp Require Import relations.
From Verif Require Import Spec Hierarchy Elements Factory History PReach PWF PBfs QTrav QTrav2 Homomorphism SpecHom QHom HTraverse Tensor SpecTensor QTensor QTensor2 QTensor3 SpecHTrav QHTrav Encode SpecEnc QEnc3 QEnc5 SpecCoo QCoo.

(** ** The entries added by one call *)
Lemma appended_fill {I} (f : I -> mid) (ts : list (htuple I)) g :
  appended g (ic_set_coo (foldl (coo_fill f) (ic_coo g) ts) g) (map (fun t => (f (tu_e t), f (tu_0 t), f (tu_1 t), tu_w t)) ts).
Proof. rewrite foldl_fill. unfold appended. cbn. rewrite !map_map. done. Qed.

Lemma coo_uuid s c lim g : reach s -> inner_graph (heap s) c -> flat (heap s) c -> co_context (ic_coo g) = c -> co_hom (ic_coo g) = None ->
  htrav_work (heap s) c 2 < lim ->
  exists g', update_coo lim s g = (Ok tt, s, g') /\ appended g g' (map (by_uuid (heap s)) (sparse (heap s) c)).
Proof.
  intros R G F Hc Hh Hl. unfold update_coo, coo_execute. rewrite Hh, Hc.
  rewrite (q_C69 s c sum_norm None 2 _ _ coo_collector lim [] _ _ R (ig_node _ _ G) (flat_covers s c F) (flat_follow s R c G F) Hl (feed_collector _ _)).
  eexists. split; [reflexivity|]. rewrite (flat_met s c F). cbn [app].
  destruct (calls_sparse s R c G) as (ns & F2 & E). rewrite <- E, map_map.
  match goal with |- appended _ (ic_set_coo (foldl (coo_fill ?f) _ ?l) _) ?ts => pose proof (appended_fill f l g) as A; assert (Et : ts = map (fun t => (f (tu_e t), f (tu_0 t), f (tu_1 t), tu_w t)) l) end.
  { clear A E. revert F2. generalize (concat (flat_map (rel_calls sum_norm (heap s)) (out_rels (heap s) c))). intros l F2. induction F2 as [|t n ts ns Ht F2 IH]; [done|]. cbn [map]. rewrite IH. f_equal. subst t. by destruct n as [n [[[e a] b] w]]. }
  rewrite Et. exact A.
Qed.

Lemma coo_index s c x lim g : reach s -> inner_graph (heap s) c -> flat (heap s) c -> co_context (ic_coo g) = c -> co_hom (ic_coo g) = Some x ->
  (forall u w i, hom_node x u = Ok i -> hom_node x w = Ok i -> u = w) ->
  (forall y, through (is_kind k_node) (heap s) c y -> is_ok (hom_node x (uuid_of (heap s) y))) ->
  (forall e, e ∈ edges_of (heap s) c -> is_ok (hom_edge x (uuid_of (heap s) e))) ->
  htrav_work (heap s) c 2 < lim ->
  exists g' ts, update_coo lim s g = (Ok tt, s, g') /\ appended g g' ts /\ Forall2 (by_index (heap s) x) (sparse (heap s) c) ts.
Proof.
  intros R G F Hc Hh Inj Xn Xe Hl. unfold update_coo, coo_execute. rewrite Hh, Hc. rewrite (sim_c s R c G x Inj (fun e p He Hp => Xn p (ep_through s c G e p He Hp)) Xe None coo_collector lim [] F).
  rewrite (q_C69 s c sum_norm None 2 _ _ (vt x coo_collector) lim [] _ _ R (ig_node _ _ G) (flat_covers s c F) (flat_follow s R c G F) Hl (feed_collector_vt x _ _)).
  do 2 eexists. split; [reflexivity|]. rewrite (flat_met s c F). cbn [app]. split; [apply appended_fill|].
  destruct (calls_sparse s R c G) as (ns & F2 & E). rewrite <- concat_map. rewrite map_map.
  assert (Hin : forall n, n ∈ map snd ns -> n ∈ sparse (heap s) c) by (intros n; by rewrite E). rewrite <- E. clear E.
  induction F2 as [|t n ts ns Ht F2 IH]; [constructor|]. cbn [map]. constructor; [|apply IH; intros; apply Hin; by right]. subst t.
  destruct n as [n [[[e a] b] w]]. pose proof (Hin (e, a, b, w) ltac:(left)) as Hs. apply (sparse_in s c) in Hs as (He & Ha & Hb & _).
  cbn [fst snd tuple_of trt tu_0 tu_1 tu_e tu_w ref_of by_index].
  exists (ei x (uuid_of (heap s) e)), (nx x (uuid_of (heap s) a)), (nx x (uuid_of (heap s) b)).
  split; [by apply ok_ex, Xe|]. split; [apply ok_nx, Xn, (ep_through s c G e a He Ha)|]. split; [apply ok_nx, Xn, (ep_through s c G e b He Hb)|done].
Qed.

Lemma q_C85_contents s c lim lim2 g r s1 g1 : reach s -> inner_graph (heap s) c -> flat (heap s) c -> co_context (ic_coo g) = c ->
  update_context lim c s g = (Ok r, s1, g1) -> htrav_work (heap s) c 2 < lim2 ->
  exists x g2 ts, s1 = s /\ co_hom (ic_coo g1) = Some x /\ update_coo lim2 s g1 = (Ok tt, s, g2) /\ appended g1 g2 ts /\ Forall2 (by_index (heap s) x) (sparse (heap s) c) ts.
Proof.
  intros R G F Hc U Hl. destruct (context_indices s c lim g r s1 g1 R (ig_node _ _ G) U) as (-> & x & -> & Xn & Xe & Inj & _).
  destruct (coo_index s c x lim2 (ic_set_coo (co_set_hom (Some x) (ic_coo g)) g) R G F Hc eq_refl Inj Xn Xe Hl) as (g2 & ts & E & A & B).
  exists x, g2, ts. done.
Qed.

(** ** Repeated calls *)
Lemma appended_trans g1 g2 g3 a b : appended g1 g2 a -> appended g2 g3 b -> appended g1 g3 (a ++ b).
Proof.
  unfold appended. intros (A1 & A2 & A3 & A4 & A5 & A6 & A7 & A8 & A9) (B1 & B2 & B3 & B4 & B5 & B6 & B7 & B8 & B9).
  rewrite B1, B2, B3, B4, B5, B6, B7, B8, B9, A1, A2, A3, !map_app, <- !app_assoc. done.
Qed.
Lemma appended_nil g : appended g g [].
Proof. unfold appended. cbn [map]. by rewrite !app_nil_r. Qed.
Lemma indexed_eq h x l ts ts' : Forall2 (by_index h x) l ts -> Forall2 (by_index h x) l ts' -> ts = ts'.
Proof.
  intros F. revert ts'. induction F as [|n t l ts H F IH]; intros ts' F'; [by inversion F'|]. apply Forall2_cons_inv_l in F' as (t' & l' & H' & F' & ->). rewrite (IH _ F'). f_equal.
  destruct n as [[[e a] b] w]. destruct H as (k & i & j & H1 & H2 & H3 & ->), H' as (k' & i' & j' & H1' & H2' & H3' & ->). congruence.
Qed.
Lemma q_C85_accumulates s c lim lim2 g r s1 g1 n : reach s -> inner_graph (heap s) c -> flat (heap s) c -> co_context (ic_coo g) = c ->
  update_context lim c s g = (Ok r, s1, g1) -> htrav_work (heap s) c 2 < lim2 ->
  exists x ts, co_hom (ic_coo g1) = Some x /\ Forall2 (by_index (heap s) x) (sparse (heap s) c) ts /\ appended g1 (after_coo n lim2 s g1) (concat (repeat ts n)).
Proof.
  intros R G F Hc U Hl. destruct (context_indices s c lim g r s1 g1 R (ig_node _ _ G) U) as (-> & x & -> & Xn & Xe & Inj & _).
  set (g1 := ic_set_coo _ g). assert (Hc1 : co_context (ic_coo g1) = c) by done. assert (Hh1 : co_hom (ic_coo g1) = Some x) by done. clearbody g1. clear U Hc g.
  destruct (coo_index s c x lim2 g1 R G F Hc1 Hh1 Inj Xn Xe Hl) as (_ & ts & _ & _ & B). exists x, ts. split; [done|]. split; [done|].
  revert g1 Hc1 Hh1. induction n as [|n IH]; intros g1 Hc1 Hh1; cbn [after_coo repeat concat]; [apply appended_nil|].
  destruct (coo_index s c x lim2 g1 R G F Hc1 Hh1 Inj Xn Xe Hl) as (g2 & ts' & E & A & B'). rewrite E. cbn [snd].
  rewrite (indexed_eq _ _ _ _ _ B' B) in A. eapply appended_trans; [exact A|]. destruct A as (_ & _ & _ & A1 & A2 & _). apply IH; congruence.
Qed.
(** The message contains the lists as they are. *)
Lemma q_C85_message s g m g' : full_msg s g = (Ok m, g') -> m_tens m = co_tens (ic_coo g) /\ m_out m = co_out (ic_coo g) /\ m_in m = co_in (ic_coo g).
Proof.
  unfold full_msg. destruct (node_index_list s (ic_coo g)); [|done]. destruct (edge_index_list s (ic_coo g)); [|done].
  destruct (msg_relation_index_list s (ic_coo g)) as [[rs|] c'] eqn:E; [|done]. destruct (msg_value_nodes s c'); [|done]. destruct (forallb _ _); [|done].
  intros [= <- <-]. cbn [m_tens m_out m_in]. unfold msg_relation_index_list in E.
  repeat match type of E with context [match ?X with _ => _ end] => destruct X; try discriminate E end; injection E as <- <-; done.
Qed.
