(** * Proofs of C100: failed messages *)
From stdpp Require Import relations.
From Verif Require Import Spec Hierarchy Elements Factory History PDict PPath PExec PBfs PWF PAdd PMono PStep PRemove PReach PPrim PHist QHier QHier2 QHier3 QHier4 QHier5 QHier6 QFac SpecFac QFac2 SpecTrav QTrav QTrav2 QTrav3 QHom QTensor QEnc Encode SpecEnc QEnc2 QEnc3 QEnc4 QEnc5 QEnc6 SpecFail.

Section same.
  Context (s s' : st) (B : same_but_values (heap s) (heap s')).
  Lemma sb_some l o : heap s !! l = Some o -> exists vs, heap s' !! l = Some (s_vals vs o).
  Proof.
    intros Ho. pose proof (B l) as E. rewrite Ho in E. destruct (heap s' !! l) as [o'|]; cbn in E; [|discriminate E].
    exists (o_vals o'). destruct o, o'. unfold s_vals in *. cbn in E |- *. injection E. intros. subst. reflexivity.
  Qed.
  Lemma sb_none l : heap s !! l = None -> heap s' !! l = None.
  Proof. intros Ho. pose proof (B l) as E. rewrite Ho in E. by destruct (heap s' !! l). Qed.
  Ltac at_ l := let o := fresh "o" in let E := fresh "E" in let vs := fresh "vs" in let E' := fresh "E" in
    destruct (heap s !! l) as [o|] eqn:E; [destruct (sb_some l o E) as [vs E']; rewrite E'; cbn [s_vals o_uuid o_name o_qname o_parent o_endpoint o_dir o_subs o_kind]|rewrite (sb_none l E)].
  Lemma sb_get l f : (forall c o vs, f c (s_vals vs o) = f c o) -> fst (get_subelements l f s') = fst (get_subelements l f s).
  Proof.
    intros F. unfold get_subelements. at_ l; [|done]. cbn [fst]. f_equal. induction (dvals (o_subs o)) as [|a ls IH]; [done|]. cbn [List.filter].
    rewrite IH. at_ a; [|done]. by rewrite F.
  Qed.
  Lemma sb_parent o vs : parent_uid s' (s_vals vs o) = parent_uid s o.
  Proof. unfold parent_uid. cbn [o_parent s_vals]. destruct (o_parent o) as [p|]; [|done]. by at_ p. Qed.
  Lemma sb_node x l : node_tuple s' x l = node_tuple s x l.
  Proof. unfold node_tuple. at_ l; [|done]. destruct (with_hom _ _); [|done]. destruct (o_parent o) as [p|]; [|done]. by at_ p. Qed.
  Lemma sb_edge x l : edge_tuple s' x l = edge_tuple s x l.
  Proof. unfold edge_tuple. at_ l; [|done]. by rewrite sb_parent. Qed.
  Lemma sb_rel l : rel_tuple s' l = rel_tuple s l.
  Proof. unfold rel_tuple. at_ l; [|done]. destruct (o_endpoint o) as [p|]; [|done]. rewrite sb_parent. by at_ p. Qed.
  Lemma sb_value x l v : value_tuple s x l = Ok v ->
    value_tuple s' x l = Ok (mkMV (mv_uuid v) (mv_name v) (mv_index v) (mv_parent v) (mv_qname v) (vals_of (heap s') l)).
  Proof.
    unfold value_tuple, vals_of. intros K. destruct (heap s !! l) as [o|] eqn:E; [|discriminate K]. destruct (sb_some l o E) as [vs E']. rewrite E'.
    rewrite sb_parent. cbn [s_vals o_uuid o_name o_qname o_vals]. destruct (with_hom _ _); [|discriminate K]. destruct (parent_uid s o); [|discriminate K].
    injection K as <-. done.
  Qed.
  Lemma sb_res_map {A C} (f f' : A -> res C) l : (forall a, f' a = f a) -> res_map f' l = res_map f l.
  Proof. intros F. induction l as [|a l IH]; [done|]. cbn [res_map]. by rewrite F, IH. Qed.
  Lemma sb_kind f : forall (c : loc) o vs, is_kind f c (s_vals vs o) = is_kind f c o.
  Proof. done. Qed.
  Lemma sb_node_list k : node_index_list s' k = node_index_list s k.
  Proof.
    unfold node_index_list. rewrite sb_node. destruct (node_tuple s (co_hom k) (co_context k)); [|done]. cbn [res_bind]. unfold sub_nodes. rewrite sb_get by apply sb_kind.
    destruct (fst (get_subelements (co_context k) (is_kind k_node) s)); [|done]. cbn [res_bind]. by rewrite (sb_res_map (node_tuple s (co_hom k))) by (intros; apply sb_node).
  Qed.
  Lemma sb_edge_list k : edge_index_list s' k = edge_index_list s k.
  Proof.
    unfold edge_index_list, sub_edges. rewrite sb_get by apply sb_kind.
    destruct (fst (get_subelements (co_context k) (is_kind k_edge) s)); [|done]. cbn [res_bind]. by rewrite (sb_res_map (edge_tuple s (co_hom k))) by (intros; apply sb_edge).
  Qed.
  Lemma sb_append_rels rs acc : append_rels s' rs acc = append_rels s rs acc.
  Proof. revert acc. induction rs as [|r rs IH]; intros acc; [done|]. cbn [append_rels]. rewrite sb_rel. destruct (rel_tuple s r); [apply IH|done]. Qed.
  Lemma sb_append_edges es acc : append_edges s' es acc = append_edges s es acc.
  Proof.
    revert acc. induction es as [|e es IH]; intros acc; [done|]. cbn [append_edges]. unfold sub_relations. rewrite sb_get by apply sb_kind.
    destruct (fst (get_subelements e (is_kind k_rel) s)) as [rs|]; [|done]. rewrite sb_append_rels. destruct (append_rels s rs acc) as [[?|?] ?]; [apply IH|done].
  Qed.
  Lemma sb_rel_list k : msg_relation_index_list s' k = msg_relation_index_list s k.
  Proof.
    unfold msg_relation_index_list, sub_edges. rewrite sb_get by apply sb_kind.
    destruct (fst (get_subelements (co_context k) (is_kind k_edge) s)); [|done]. by rewrite sb_append_edges.
  Qed.
  Lemma sb_values_of c : values_of (heap s') c = values_of (heap s) c.
  Proof.
    destruct (heap s !! c) as [o|] eqn:E.
    - pose proof (sb_get c (is_kind k_value) (sb_kind k_value)) as K. destruct (sb_some c o E) as [vs E'].
      rewrite (sub_get s _ c o E), (sub_get s' _ c _ E') in K. by injection K.
    - pose proof (sb_none c E) as E'. unfold values_of, fkids, children. by rewrite E, E'.
  Qed.
End same.

Lemma res_map_inv {A B} (f : A -> res B) (g : A -> B) l : res_map f l = Ok (map g l) -> forall a, a ∈ l -> f a = Ok (g a).
Proof.
  induction l as [|b l IH]; intros K a Ha; [inversion Ha|]. cbn [res_map map] in K. destruct (f b) as [y|] eqn:Eb; [|discriminate K].
  cbn in K. destruct (res_map f l) as [ys|] eqn:El; [|discriminate K]. cbn in K. injection K as -> ->.
  apply elem_of_cons in Ha as [->|Ha]; [done|]. by apply IH.
Qed.
Lemma forallb_vals (gg : loc -> msg_value) (v : loc -> list pyval) ls : (forall l, mv_vals (gg l) = v l) ->
  forallb (fun a => forallb encodable (mv_vals a)) (map gg ls) = forallb (fun l => forallb encodable (v l)) ls.
Proof. intros K. induction ls as [|l ls IH]; [done|]. cbn [map forallb]. by rewrite IH, K. Qed.
(** The relations are appended, whatever the values are. *)
Lemma full_msg_any s s' c x g : WF0 (heap s) -> sendable (heap s) c ->
  (forall y, y ∈ c :: nodes_of (heap s) c -> is_ok (hom_node x (uuid_of (heap s) y))) ->
  (forall y, y ∈ edges_of (heap s) c -> is_ok (hom_edge x (uuid_of (heap s) y))) ->
  (forall y, y ∈ values_of (heap s) c -> is_ok (hom_val x (uuid_of (heap s) y))) ->
  same_but_values (heap s) (heap s') -> co_context (ic_coo g) = c -> co_hom (ic_coo g) = Some x ->
  snd (full_msg s' g) = ic_set_coo (co_set_rels (co_rels (ic_coo g) ++ mRs s c) (ic_coo g)) g /\
  (encodable_values (heap s') c -> exists m, fst (full_msg s' g) = Ok m) /\
  (~ encodable_values (heap s') c -> fst (full_msg s' g) = Exn TypeError).
Proof.
  intros W G Hn He Hv B Hc Hx. unfold full_msg.
  rewrite (sb_node_list s s' B), (sb_edge_list s s' B), (sb_rel_list s s' B).
  rewrite (node_list s c x W G Hn _ Hc Hx), (edge_list s c x W G He _ Hc Hx), (rel_list s c W G _ Hc).
  set (k := co_set_rels _ _).
  assert (E : exists vs, msg_value_nodes s' k = Ok vs /\ forallb (fun v => forallb encodable (mv_vals v)) vs = forallb (fun l => forallb encodable (vals_of (heap s') l)) (values_of (heap s) c)).
  { pose proof (value_list s c x W G Hv k Hc Hx) as K. unfold msg_value_nodes in *. unfold sub_values in *. rewrite (sb_get s s' B) by apply sb_kind.
    change (co_context k) with (co_context (ic_coo g)) in *. rewrite Hc in *.
    destruct (ctx_obj s c G) as (oc & Hoc & _ & _). rewrite (sub_get s _ c oc Hoc) in *. cbn [res_bind] in *.
    exists (map (fun l => let v := mV s c x l in mkMV (mv_uuid v) (mv_name v) (mv_index v) (mv_parent v) (mv_qname v) (vals_of (heap s') l)) (values_of (heap s) c)). split.
    - apply res_map_ok. intros l Hl. apply (sb_value s s' B). by apply (res_map_inv _ _ _ K).
    - by apply forallb_vals. }
  destruct E as (vs & -> & Ef). rewrite Ef.
  assert (En : encodable_values (heap s') c <-> forallb (fun l => forallb encodable (vals_of (heap s') l)) (values_of (heap s) c) = true).
  { unfold encodable_values. rewrite (sb_values_of s s' B), forallb_forall. split; intros K l Hl; apply K; by apply elem_of_list_In. }
  destruct (forallb (fun l => forallb encodable (vals_of (heap s') l)) (values_of (heap s) c)) eqn:Eb; cbn [fst snd].
  - split; [done|]. split; [by eexists|]. intros K. destruct K. by apply En.
  - split; [done|]. split; [|done]. intros K. by apply En in K.
Qed.
Lemma after_calls_state s c x : WF0 (heap s) -> sendable (heap s) c ->
  (forall y, y ∈ c :: nodes_of (heap s) c -> is_ok (hom_node x (uuid_of (heap s) y))) ->
  (forall y, y ∈ edges_of (heap s) c -> is_ok (hom_edge x (uuid_of (heap s) y))) ->
  (forall y, y ∈ values_of (heap s) c -> is_ok (hom_val x (uuid_of (heap s) y))) ->
  forall ss g, Forall (fun s' => same_but_values (heap s) (heap s')) ss -> co_context (ic_coo g) = c -> co_hom (ic_coo g) = Some x ->
  after_calls ss g = after_msgs (length ss) s g.
Proof.
  intros W G Hn He Hv. induction ss as [|s' ss IH]; intros g F Hc Hx; [done|]. apply Forall_cons in F as [B F].
  cbn [after_calls after_msgs length].
  destruct (full_msg_any s s' c x g W G Hn He Hv B Hc Hx) as (-> & _). rewrite (full_msg_ok s c x W G Hn He Hv g Hc Hx). cbn [snd]. by apply IH.
Qed.
