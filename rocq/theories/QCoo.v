(** * C85: the sparse tensors of a message *)
From stdpp Require Import relations.
From Verif Require Import Spec Hierarchy Elements Factory History PReach PWF PBfs QTrav QTrav2 Homomorphism SpecHom QHom HTraverse Tensor SpecTensor QTensor QTensor2 QTensor3 SpecHTrav QHTrav Encode SpecEnc QEnc3 QEnc5 SpecCoo.

(** ** With and without indices *)
Section sim.
  Context (s : st) (R : reach s) (x : hom).
  Let h := heap s.
  Definition nx (u : uid) : nat := match hom_node x u with Ok i => i | Exn _ => 0 end.
  Definition ei (u : uid) : nat := match hom_edge x u with Ok i => i | Exn _ => 0 end.
  Definition trt (t : htuple (loc * uid)) : htuple nat := mkTup (nx (tu_0 t).2) (nx (tu_1 t).2) (ei (tu_e t).2) (tu_w t) (tu_n t).
  (** The edge and the endpoints of the relation have indices. *)
  Definition known (r : loc) : Prop := exists e oe, parent_of h r = Some e /\ h !! e = Some oe /\ o_kind oe = KEdge /\ is_ok (hom_edge x (uuid_of h e)) /\
    (forall r', r' ∈ rels_of h e -> exists p, ep_of h r' = Some p /\ exists_in h p /\ is_ok (hom_node x (uuid_of h p))) /\
    (forall p q, p ∈ endpoints h e -> q ∈ endpoints h e -> uuid_of h p = uuid_of h q -> p = q).
  Context (Inj : forall u w i, hom_node x u = Ok i -> hom_node x w = Ok i -> u = w).

  Lemma eps_general {I} (idf : ident I) (f : loc -> I) e oe : h !! e = Some oe -> o_kind oe = KEdge ->
    (forall r, r ∈ rels_of h e -> exists p op, ep_of h r = Some p /\ h !! p = Some op /\ i_node idf p op = Ok (f p)) ->
    endpoint_ids idf s e oe = Ok (map f (endpoints h e)).
  Proof.
    intros Ho Hk Hf. unfold endpoint_ids. rewrite Hk. cbn [k_edge].
    unfold induced_subset, bind at 1. pose proof (fkids_get s k_rel e) as F. fold h in F. rewrite Ho in F. unfold sub_relations.
    assert (Es : snd (get_subelements e (is_kind k_rel) s) = s).
    { unfold get_subelements, bind, deref, ret. fold h. rewrite Ho. done. }
    destruct (get_subelements e (is_kind k_rel) s) as [[rs|ex0] s'] eqn:E; cbn [fst snd] in F, Es; [|done]. injection F as ->. subst s'. fold (rels_of h e).
    rewrite (map_m_pure s _ (fun r => ep_of h r)).
    - cbn [fst]. match goal with |- res_map ?F _ = _ => set (g := F) end.
      assert (Hf1 : forall p op, h !! p = Some op -> g (Some p) = i_node idf p op).
      { intros p op Hop. unfold g. fold h. by rewrite Hop. }
      clearbody g. unfold endpoints. revert Hf. generalize (rels_of h e). intros l Hf. induction l as [|r rs IH]; [done|].
      destruct (Hf r ltac:(left)) as (p & op & Hp & Hop & Hi). cbn [map res_map].
      rewrite Hp, (Hf1 p op Hop), Hi, IH by (intros; apply Hf; by right).
      change (omap (ep_of h) (r :: rs)) with (match ep_of h r with Some q => q :: omap (ep_of h) rs | None => omap (ep_of h) rs end). by rewrite Hp.
    - intros r Hr. destruct (rel_of s R r e Hr) as (o & Hro & _). unfold bind, deref, ret. fold h. fold h in Hro. rewrite Hro. unfold ep_of. by rewrite Hro.
  Qed.
  Lemma ok_nx u : is_ok (hom_node x u) -> hom_node x u = Ok (nx u).
  Proof. intros [i H]. unfold nx. by rewrite H. Qed.
  Lemma ok_ex u : is_ok (hom_edge x u) -> hom_edge x u = Ok (ei u).
  Proof. intros [i H]. unfold ei. by rewrite H. Qed.
  Lemma uuid_at l o : h !! l = Some o -> uuid_of h l = o_uuid o.
  Proof. intros H. unfold uuid_of. by rewrite H. Qed.
  Lemma filter_nx e p : p ∈ endpoints h e ->
    (forall q, q ∈ endpoints h e -> is_ok (hom_node x (uuid_of h q))) ->
    (forall p q, p ∈ endpoints h e -> q ∈ endpoints h e -> uuid_of h p = uuid_of h q -> p = q) ->
    List.filter (fun y => negb (y =? nx (uuid_of h p))) (map (fun q => nx (uuid_of h q)) (endpoints h e)) = map (fun q => nx (uuid_of h q)) (others h e p).
  Proof.
    intros Hp Hok Hu. unfold others. assert (Hs : forall q, q ∈ endpoints h e -> (nx (uuid_of h q) =? nx (uuid_of h p)) = (q =? p)).
    { intros q Hq. destruct (Nat.eqb_spec q p) as [->|Hne]; [apply Nat.eqb_refl|]. apply Nat.eqb_neq. intros E. apply Hne.
      apply Hu; [done|done|]. eapply Inj; [by apply ok_nx, Hok|]. rewrite E. by apply ok_nx, Hok. }
    clear Hu Hok Hp. revert Hs. generalize (endpoints h e). intros l Hs. induction l as [|q l IH]; [done|]. cbn [map List.filter].
    rewrite IH by (intros; apply Hs; by right). rewrite filter_cons, (Hs q) by left. destruct (Nat.eqb_spec q p) as [->|Hne].
    - rewrite decide_False by (intros H; by apply H). done.
    - rewrite decide_True by done. done.
  Qed.

  Context {X B : Type} (v : hvisitor nat X B).
  Definition vt : hvisitor (loc * uid) X B := fun b y => v (map trt b) y.
  Lemma fill_one_sim w mk mk' p e oe tasks y : h !! e = Some oe -> o_kind oe = KEdge ->
    (forall r', r' ∈ rels_of h e -> exists p, ep_of h r' = Some p /\ exists_in h p /\ is_ok (hom_node x (uuid_of h p))) ->
    (forall p q, p ∈ endpoints h e -> q ∈ endpoints h e -> uuid_of h p = uuid_of h q -> p = q) -> p ∈ endpoints h e ->
    (forall q, mk (nx (uuid_of h q)) = trt (mk' (ref_of h q))) ->
    fill_one (ident_hom x) v s w mk (nx (uuid_of h p)) e oe tasks y = fill_one ident_uuid vt s w mk' (ref_of h p) e oe tasks y.
  Proof.
    intros He Hk Hr Hu Hp Hmk. unfold fill_one. destruct (decide (w = 0%Qc)); [done|].
    assert (Hq : forall q, q ∈ endpoints h e -> is_ok (hom_node x (uuid_of h q))).
    { intros q Hq. apply elem_of_list_omap in Hq as (r & Hr1 & Hr2). destruct (Hr r Hr1) as (q' & H1 & _ & H2). congruence. }
    rewrite (eps_general (ident_hom x) (fun q => nx (uuid_of h q)) e oe He Hk).
    2:{ intros r Hr1. destruct (Hr r Hr1) as (q & H1 & [oq H2] & H3). exists q, oq. split; [done|]. split; [done|]. cbn [i_node ident_hom].
        rewrite <- (uuid_at _ _ H2). by apply ok_nx. }
    rewrite (eps_general ident_uuid (ref_of h) e oe He Hk).
    2:{ intros r Hr1. destruct (Hr r Hr1) as (q & H1 & [oq H2] & H3). exists q, oq. split; [done|]. split; [done|]. cbn [i_node ident_uuid]. unfold ref_of. by rewrite (uuid_at _ _ H2). }
    cbn [i_same ident_hom]. rewrite (filter_nx e p Hp Hq Hu). pose proof (filter_refs s e p) as Fr. fold h in Fr. cbn [i_same ident_uuid] in Fr |- *. rewrite Fr. unfold vt. rewrite !map_map.
    assert (Em : map (fun z => mk (nx (uuid_of h z))) (others h e p) = map (fun z => trt (mk' (ref_of h z))) (others h e p)).
    { apply map_ext. intros q. apply Hmk. }
    fold h. by rewrite Em.
  Qed.
  Lemma h_item_sim mx nf l d tasks y : (kind_of h l = Some KRel -> known l) ->
    h_item (ident_hom x) nf mx v s l d tasks y = h_item ident_uuid nf mx vt s l d tasks y.
  Proof.
    intros Hk. unfold h_item. destruct (heap s !! l) as [o|] eqn:Ho; [|done]. destruct (o_kind o) eqn:Ek; try done.
    destruct Hk as (e & oe & Hp & He & Hke & Hie & Hr & Hu); [unfold kind_of, h; by rewrite Ho, <- Ek|].
    unfold h_relation. unfold parent_of in Hp. unfold h in Hp at 1. rewrite Ho in Hp. cbn in Hp. rewrite Hp. fold h. rewrite He.
    cbn [i_edge ident_hom ident_uuid]. rewrite <- (uuid_at _ _ He), (ok_ex _ Hie). destruct (norm_weight nf s o) as [n|]; [|done].
    assert (Hin : l ∈ rels_of h e) by (by apply (of_rel s R l o e Ho Ek)).
    destruct (Hr l Hin) as (p & Hep & [op Hop] & Hip). assert (Eo : o_endpoint o = Some p) by (unfold ep_of, h in Hep; by rewrite Ho in Hep).
    rewrite Eo, Hop. cbn [i_node ident_hom ident_uuid]. rewrite <- (uuid_at _ _ Hop), (ok_nx _ Hip).
    assert (Hpe : p ∈ endpoints h e) by (apply elem_of_list_omap; by exists l).
    unfold fill_relations. change (p, uuid_of h p) with (ref_of h p). change (e, uuid_of h e) with (ref_of h e).
    rewrite (fill_one_sim _ _ (fun y => mkTup (ref_of h p) y (ref_of h e) (rel_weights (o_dir o) n).1 n) p e oe tasks y He Hke Hr Hu Hpe) by done.
    destruct (fill_one ident_uuid vt s _ _ _ e oe tasks y) as [[t'|e'] y']; [|done].
    by rewrite (fill_one_sim _ _ (fun y => mkTup y (ref_of h p) (ref_of h e) (rel_weights (o_dir o) n).2 n) p e oe t' y' He Hke Hr Hu Hpe).
  Qed.
End sim.

(** The traversals agree while everything that is met has an index. *)
Section sim2.
  Context (s : st) (R : reach s) (x : hom) (Inj : forall u w i, hom_node x u = Ok i -> hom_node x w = Ok i -> u = w).
  Let h := heap s.
  Context (mx : option nat) (P : loc * nat -> Prop).
  Context (Pk : forall r d, P (r, d) -> kind_of h r = Some KRel -> known s x r).
  Context (Pn : forall n d e, P (n, d) -> kind_of h n = Some KNode -> e ∈ edges_of h n -> P (e, d)).
  Context (Pe : forall e d r, P (e, d) -> kind_of h e = Some KEdge -> r ∈ rels_of h e -> P (r, d)).
  Context (Pr : forall r d p, P (r, d) -> kind_of h r = Some KRel -> ep_of h r = Some p -> deeper mx d = true -> P (p, d + 1)).
  Context {X B : Type} (v : hvisitor nat X B) (nf : list pyval -> res Qc).
  Lemma h_item_new l d tasks y tasks' new y' : P (l, d) -> h_item ident_uuid nf mx (vt x v) s l d tasks y = (Ok (tasks', new), y') -> forall i, i ∈ new -> P i.
  Proof.
    intros Hl. unfold h_item. destruct (heap s !! l) as [o|] eqn:Ho; [|done].
    assert (Ek : kind_of h l = Some (o_kind o)) by (unfold kind_of, h; by rewrite Ho).
    destruct (o_kind o) eqn:Eo; try (intros [= <- <- <-] i Hi; by inversion Hi).
    - pose proof (fkids_get s k_edge l) as F. rewrite Ho in F. unfold sub_edges. rewrite F. intros [= <- <- <-] i Hi.
      apply elem_of_list_fmap in Hi as (e & -> & He). by apply (Pn l).
    - pose proof (fkids_get s k_rel l) as F. rewrite Ho in F. unfold sub_relations. rewrite F. intros [= <- <- <-] i Hi.
      apply elem_of_list_fmap in Hi as (e & -> & He). by apply (Pe l).
    - unfold h_relation. destruct (o_parent o) as [e|]; [|done]. destruct (heap s !! e) as [oe|]; [|done]. destruct (i_edge _ _ _) as [eid|]; [|done].
      destruct (norm_weight _ _ _) as [n|]; [|done]. destruct (o_endpoint o) as [p|] eqn:Ep; [|done]. destruct (heap s !! p) as [op|]; [|done].
      destruct (i_node _ _ _) as [pid|]; [|done]. destruct (fill_relations _ _ _ _ _ _ _ _ _ _ _) as [[t|] ?]; [|done].
      intros [= <- <- <-] i Hi. destruct (match mx with Some _ => _ | None => _ end) eqn:Ed; [|by inversion Hi]. apply elem_of_list_singleton in Hi as ->.
      apply (Pr l); [done|done|unfold ep_of, h; by rewrite Ho|]. exact Ed.
  Qed.
  Lemma htraverse_sim lim q tasks y : (forall i, i ∈ q -> P i) ->
    htraverse lim (ident_hom x) nf mx v s q tasks y = htraverse lim ident_uuid nf mx (vt x v) s q tasks y.
  Proof.
    revert q tasks y. induction lim as [|lim IH]; intros q tasks y Hq; [done|]. cbn [htraverse]. destruct q as [|[l d] rest]; [done|].
    assert (Hl : P (l, d)) by (apply (Hq (l, d)); left). rewrite (h_item_sim s R x Inj v mx nf l d tasks y) by (intros; by apply (Pk l d)).
    destruct (h_item ident_uuid nf mx (vt x v) s l d tasks y) as [[[t' new]|e] y'] eqn:E; [|done]. apply IH. intros i Hi. apply elem_of_app in Hi as [Hi|Hi].
    - apply Hq. by right.
    - by apply (h_item_new _ _ _ _ _ _ _ Hl E).
  Qed.
  Lemma h_execute_sim lim start y : P (start, 0) ->
    h_execute lim (ident_hom x) nf mx v start s y = h_execute lim ident_uuid nf mx (vt x v) start s y.
  Proof.
    intros Hs. unfold h_execute. destruct (reach_fr s R) as (_ & F & _). rewrite F. cbn [app]. rewrite htraverse_sim; [done|].
    intros i Hi. by apply elem_of_list_singleton in Hi as ->.
  Qed.
End sim2.

(** ** What is collected *)
Lemma feed_collector {I} (cs : list (list (htuple I))) q : feed coo_collector cs q = (Ok (map (fun _ => tt) cs), q ++ cs).
Proof.
  revert q. induction cs as [|c cs IH]; intros q; cbn [feed map]; [by rewrite app_nil_r|]. unfold coo_collector at 1. rewrite IH. by rewrite <- app_assoc.
Qed.
Lemma feed_collector_vt x (cs : list (list (htuple (loc * uid)))) q : feed (vt x coo_collector) cs q = (Ok (map (fun _ => tt) cs), q ++ map (map (trt x)) cs).
Proof.
  revert q. induction cs as [|c cs IH]; intros q; cbn [feed map]; [by rewrite app_nil_r|]. unfold vt at 1, coo_collector at 1. rewrite IH. by rewrite <- app_assoc.
Qed.
Definition tuple_of (h : list obj) (n : nweight) (t : loc * loc * loc * Qc) : htuple (loc * uid) :=
  let '(e, a, b, w) := t in mkTup (ref_of h a) (ref_of h b) (ref_of h e) w n.
Lemma foldl_fill {I} (f : I -> mid) ts (k : coo) :
  foldl (coo_fill f) k ts = mkCoo (co_context k) (co_hom k) (co_tens k ++ map (fun t => (f (tu_e t), f (tu_0 t), f (tu_1 t), tu_w t)) ts)
    (co_out k ++ map (fun t => (f (tu_e t), f (tu_0 t), tu_w t)) ts) (co_in k ++ map (fun t => (f (tu_e t), f (tu_1 t), tu_w t)) ts) (co_rels k).
Proof.
  revert k. induction ts as [|t ts IH]; intros k; cbn [foldl map]; [rewrite !app_nil_r; by destruct k|]. rewrite IH. unfold coo_fill. cbn [co_context co_hom co_tens co_out co_in co_rels].
  by rewrite <- !app_assoc.
Qed.

Section contents.
  Context (s : st) (R : reach s) (c : loc).
  Let h := heap s.
  Context (G : inner_graph h c).
  Lemma edge_of_c e : e ∈ edges_of h c -> exists oe, h !! e = Some oe /\ o_kind oe = KEdge.
  Proof.
    intros He. apply elem_of_list_filter in He as [Ha _]. unfold accepts in Ha. destruct (h !! e) as [oe|] eqn:E; [|done]. exists oe. split; [done|].
    unfold is_kind, k_edge in Ha. by destruct (o_kind oe).
  Qed.
  Lemma ep_node e r p : e ∈ edges_of h c -> r ∈ rels_of h e -> ep_of h r = Some p -> kind_of h p = Some KNode.
  Proof.
    intros He Hr Hp. destruct (ig_ep _ _ G e r He Hr) as (p' & Hp' & Ht). assert (p' = p) as -> by congruence.
    assert (Ha : accepts (is_kind k_node) h p = true) by (by inversion Ht). unfold accepts in Ha. unfold kind_of. destruct (h !! p) as [op|]; [|done].
    cbn. unfold is_kind in Ha. by destruct (o_kind op).
  Qed.
  Lemma out_edges_c : out_edges h c = edges_of h c.
  Proof. unfold out_edges. rewrite decide_True; [done|apply (ig_node _ _ G)]. Qed.
  Lemma out_rels_c r : r ∈ out_rels h c <-> exists e, e ∈ edges_of h c /\ r ∈ rels_of h e.
  Proof. unfold out_rels. rewrite out_edges_c, elem_of_flat_map. done. Qed.
  Lemma neighbours_c p : p ∈ neighbours h c <-> exists e r, e ∈ edges_of h c /\ r ∈ rels_of h e /\ ep_of h r = Some p.
  Proof.
    unfold neighbours. rewrite elem_of_list_omap. split.
    - intros (r & Hr & Hp). apply out_rels_c in Hr as (e & He & Hr). by exists e, r.
    - intros (e & r & He & Hr & Hp). exists r. split; [|done]. apply out_rels_c. by exists e.
  Qed.
  Lemma norm_spec r : weight_ok h r -> exists_in h r -> exists n o, h !! r = Some o /\ norm_of sum_norm h r = Some n /\
    weight_in (o_dir o) n = w_in h r /\ weight_out (o_dir o) n = w_out h r.
  Proof.
    intros Hw [o Ho]. destruct (rel_weights_spec s r o Ho Hw) as [N1 N2].
    assert (Hn : norm_of sum_norm h r = Some (nw s r)).
    { unfold norm_of. rewrite Ho. unfold norm_weight in N1. fold h in N1. destruct (o_weight o) as [|v|l]; [by injection N1 as ->| |done].
      destruct (h !! v) as [ov|]; [|done]. destruct (k_value (o_kind ov)); [|done]. destruct (sum_norm (o_vals ov)); [|done]. by injection N1 as ->. }
    exists (nw s r), o. split; [done|]. split; [done|]. destruct (rel_weights_eq s sum_norm r o (nw s r) Ho Hn) as [_ N3]. rewrite N2 in N3. injection N3 as E1 E2. split; [exact (eq_sym E1)|exact (eq_sym E2)].
  Qed.
  Lemma rel_calls_spec e r : e ∈ edges_of h c -> r ∈ rels_of h e ->
    exists n, concat (rel_calls sum_norm h r) = map (tuple_of h n) (rel_entries h e r).
  Proof.
    intros He Hr. destruct (rel_of s R r e Hr) as (o & Ho & Hk & Hp). fold h in Ho.
    destruct (norm_spec r (ig_w _ _ G e r He Hr) ltac:(by exists o)) as (n & o' & Ho' & Hn & Wi & Wo). assert (o' = o) as -> by congruence. clear Ho'.
    destruct (ig_ep _ _ G e r He Hr) as (p & Hep & _). exists n. unfold rel_calls, rel_entries. rewrite Hep, Hn.
    assert (parent_of h r = Some e) as -> by (unfold parent_of; rewrite Ho; done). assert (dir_of h r = Some (o_dir o)) as -> by (unfold dir_of; by rewrite Ho).
    unfold calls_in, calls_out. rewrite Wi, Wo, concat_app, map_app. f_equal; destruct (decide _); cbn [concat map]; rewrite ?app_nil_r, ?map_map; done.
  Qed.
  Lemma followable_c e r : e ∈ edges_of h c -> r ∈ rels_of h e -> followable sum_norm h r.
  Proof.
    intros He Hr. destruct (rel_of s R r e Hr) as (o & Ho & _ & _). destruct (norm_spec r (ig_w _ _ G e r He Hr) ltac:(by exists o)) as (n & _ & _ & Hn & _).
    split; [by exists n|]. destruct (ig_ep _ _ G e r He Hr) as (p & Hp & _). exists p, KNode. split; [done|]. split; [by apply (ep_node e r)|]. done.
  Qed.
  Lemma calls_edge e rs : e ∈ edges_of h c -> (forall r, r ∈ rs -> r ∈ rels_of h e) ->
    exists ms, Forall2 (fun t n => t = tuple_of h n.1 n.2) (concat (flat_map (rel_calls sum_norm h) rs)) ms /\ map snd ms = flat_map (rel_entries h e) rs.
  Proof.
    intros He. induction rs as [|r rs IH]; intros Hr; [exists []; split; [constructor|done]|]. cbn [flat_map]. destruct IH as (ms & F' & E'); [intros; apply Hr; by right|].
    destruct (rel_calls_spec e r He ltac:(apply Hr; left)) as (n & En). exists (map (pair n) (rel_entries h e r) ++ ms). split.
    - rewrite concat_app. apply Forall2_app; [|done]. rewrite En. apply Forall2_fmap_l, Forall2_fmap_r. by apply Forall_Forall2_diag, Forall_true.
    - rewrite map_app, map_map, E'. f_equal. cbn [snd]. apply map_id.
  Qed.
  Lemma calls_edges es : (forall e, e ∈ es -> e ∈ edges_of h c) ->
    exists ns, Forall2 (fun t n => t = tuple_of h n.1 n.2) (concat (flat_map (rel_calls sum_norm h) (flat_map (rels_of h) es))) ns /\
      map snd ns = flat_map (fun e => flat_map (rel_entries h e) (rels_of h e)) es.
  Proof.
    induction es as [|e es IH]; intros Hin; [exists []; split; [constructor|done]|]. cbn [flat_map]. destruct IH as (ns & F & E); [intros; apply Hin; by right|].
    destruct (calls_edge e (rels_of h e) ltac:(apply Hin; left) ltac:(done)) as (ms & F' & E').
    exists (ms ++ ns). split; [|by rewrite map_app, E', E]. rewrite flat_map_app, concat_app. by apply Forall2_app.
  Qed.
  Lemma calls_sparse : exists ns, Forall2 (fun t n => t = tuple_of h n.1 n.2) (concat (flat_map (rel_calls sum_norm h) (out_rels h c))) ns /\ map snd ns = sparse h c.
  Proof. unfold out_rels. rewrite out_edges_c. by apply calls_edges. Qed.
End contents.

(** ** The indices after update_context *)
Lemma indexes_ok us index at_ cnt : indexes us index at_ cnt -> forall u, u ∈ us -> is_ok (index u).
Proof.
  intros (_ & _ & A & _) u Hu. assert (Hx : exists i, us !! i = Some u /\ forall j, us !! j = Some u -> j <= i).
  { clear A. induction us as [|w us IH] using rev_ind; [inversion Hu|]. destruct (decide (w = u)) as [->|Hw].
    - exists (length us). split; [by rewrite lookup_app_r, Nat.sub_diag|]. intros j Hj. apply lookup_lt_Some in Hj. rewrite app_length in Hj. cbn in Hj. lia.
    - apply elem_of_app in Hu as [Hu|Hu%elem_of_list_singleton]; [|by subst]. destruct (IH Hu) as (i & Hi & Hj). exists i.
      split; [by apply lookup_app_l_Some|]. intros j Hj'. apply lookup_app_Some in Hj' as [Hj'|[_ Hj']]; [by apply Hj|].
      apply list_lookup_singleton_Some in Hj' as [_ Hj']. congruence. }
  destruct Hx as (i & Hi & Hj). exists i. by apply A.
Qed.
Lemma indexes_inj us index at_ cnt : indexes us index at_ cnt -> forall u w i, index u = Ok i -> index w = Ok i -> u = w.
Proof. intros (_ & _ & A & _) u w i Hu Hw. apply A in Hu as [Hu _]. apply A in Hw as [Hw _]. congruence. Qed.
Lemma context_indices s c lim g r s1 g1 : reach s -> kind_of (heap s) c = Some KNode -> update_context lim c s g = (Ok r, s1, g1) ->
  s1 = s /\ exists x, g1 = ic_set_coo (co_set_hom (Some x) (ic_coo g)) g /\
    (forall y, through (is_kind k_node) (heap s) c y -> is_ok (hom_node x (uuid_of (heap s) y))) /\
    (forall e, e ∈ edges_of (heap s) c -> is_ok (hom_edge x (uuid_of (heap s) e))) /\
    (forall u w i, hom_node x u = Ok i -> hom_node x w = Ok i -> u = w) /\
    (forall u, (forall y, through (is_kind k_edge) (heap s) c y -> uuid_of (heap s) y <> u) -> hom_edge x u = Exn KeyError).
Proof.
  intros R Hk E. destruct (context_update _ _ _ _ _ _ _ E) as (x & Ex & ->).
  assert (Hc : exists_in (heap s) c). { unfold kind_of in Hk. destruct (heap s !! c) eqn:Ec; [by eexists|done]. }
  destruct (hom_shape s coo_conf c lim hom0 r s1 x R Hc Ex) as (-> & ns & es & vs & H1 & H2 & H3 & I1 & I2 & I3). split; [done|]. exists x. split; [done|].
  pose proof (reach_wf s R) as W. split; [|split; [|split]].
  - intros y Hy. eapply indexes_ok; [exact I1|]. apply elem_of_list_fmap_1. destruct H1 as (n & Hn & ->).
    cbn [hom_trav coo_conf t_max hc_depth t_filter] in *. apply elem_of_app. right. by apply (order_through _ W (is_kind k_node) n c y Hn).
  - intros e He. eapply indexes_ok; [exact I2|]. apply elem_of_list_fmap_1. by eapply order_kids.
  - by eapply indexes_inj.
  - intros u Hu. destruct I2 as (_ & _ & _ & I2). apply I2. intros Hin. apply elem_of_list_fmap in Hin as (y & -> & Hy). destruct H2 as (n & Hn & ->).
    cbn [hom_trav coo_conf t_max hc_depth t_filter] in *. apply elem_of_app in Hy as [Hy|Hy].
    + unfold root_part in Hy. cbn [hom_trav t_filter] in Hy. unfold accepts, is_kind in Hy. unfold kind_of in Hk. destruct (heap s !! c) as [oc|]; [|done].
      injection Hk as Hk. rewrite Hk in Hy. inversion Hy.
    + apply (order_through _ W (is_kind k_edge) n c y Hn) in Hy. by apply (Hu y).
Qed.

(** ** Everything is indexed *)
Lemma flat_one {A B} (f : A -> list B) a : flat_map f [a] = f a.
Proof. apply app_nil_r. Qed.
Section flat.
  Context (s : st) (R : reach s) (c : loc).
  Let h := heap s.
  Context (G : inner_graph h c).
  Lemma flat_covers : flat h c -> covers h c None 2.
  Proof.
    intros F. change (flat_map (neighbours h) (flat_map (neighbours h) [c]) = []). rewrite (flat_one (neighbours h)). assert (H : forall l, (forall p, p ∈ l -> out_rels h p = []) -> flat_map (neighbours h) l = []).
    { intros l. induction l as [|p l IH]; intros Hl; [done|]. cbn [flat_map]. rewrite IH by (intros; apply Hl; by right). unfold neighbours. by rewrite (Hl p) by left. }
    by apply H.
  Qed.
  Lemma flat_met : flat h c -> met_rels h c 2 = out_rels h c.
  Proof.
    intros F. change (met_rels h c 2) with (flat_map (out_rels h) ([c] ++ (flat_map (neighbours h) [c] ++ []))). rewrite app_nil_r, (flat_one (neighbours h)), flat_map_app, (flat_one (out_rels h)).
    assert (H : forall l, (forall p, p ∈ l -> out_rels h p = []) -> flat_map (out_rels h) l = []).
    { intros l. induction l as [|p l IH]; intros Hl; [done|]. cbn [flat_map]. rewrite IH by (intros; apply Hl; by right). by rewrite (Hl p) by left. }
    rewrite (H _ F). by rewrite app_nil_r.
  Qed.
  Lemma flat_follow : flat h c -> forall r, r ∈ met_rels h c 2 -> followable sum_norm h r.
  Proof. intros F r Hr. rewrite (flat_met F) in Hr. apply (out_rels_c s c G) in Hr as (e & He & Hr). by apply (followable_c s R c G e r). Qed.

  Context (x : hom) (Inj : forall u w i, hom_node x u = Ok i -> hom_node x w = Ok i -> u = w).
  Context (Xp : forall e p, e ∈ edges_of h c -> p ∈ endpoints h e -> is_ok (hom_node x (uuid_of h p))).
  Context (Xe : forall e, e ∈ edges_of h c -> is_ok (hom_edge x (uuid_of h e))).
  Lemma known_c e r : e ∈ edges_of h c -> r ∈ rels_of h e -> known s x r.
  Proof.
    intros He Hr. destruct (edge_of_c s c e He) as (oe & Hoe & Hke). destruct (rel_of s R r e Hr) as (o & Ho & _ & Hp).
    exists e, oe. split; [unfold parent_of; by rewrite Ho|]. split; [done|]. split; [done|]. split; [by apply Xe|]. split.
    - intros r' Hr'. destruct (ig_ep _ _ G e r' He Hr') as (p & Hp' & Ht). exists p. split; [done|]. split; [|apply (Xp e p He), elem_of_list_omap; by exists r'].
      pose proof (ep_node s c G e r' p He Hr' Hp') as Hk. unfold kind_of in Hk. destruct (heap s !! p) as [op|] eqn:E; [by exists op|done].
    - intros p q. by apply (ig_uuid _ _ G e p q).
  Qed.
  Definition inside (y : loc) : Prop := y = c \/ y ∈ edges_of h c \/ y ∈ out_rels h c \/ y ∈ neighbours h c \/
    (exists p, p ∈ neighbours h c /\ y ∈ edges_of h p).
  Lemma sim_c mx {X B} (v : hvisitor nat X B) lim y : flat h c -> h_execute lim (ident_hom x) sum_norm mx v c s y = h_execute lim ident_uuid sum_norm mx (vt x v) c s y.
  Proof.
    intros F. pose proof (ig_node _ _ G) as Hkc.
    assert (Kn : forall p, p ∈ neighbours h c -> kind_of h p = Some KNode).
    { intros p Hp. apply (neighbours_c s c G) in Hp as (e & r & He & Hr & Hp). by apply (ep_node s c G e r). }
    assert (Kr : forall r, r ∈ out_rels h c -> kind_of h r = Some KRel).
    { intros r Hr. apply (out_rels_c s c G) in Hr as (e & He & Hr). destruct (rel_of s R r e Hr) as (o & Ho & Hk & _). unfold kind_of, h. by rewrite Ho, <- Hk. }
    assert (Ke : forall n e, e ∈ edges_of h n -> kind_of h e = Some KEdge).
    { intros n e He. apply elem_of_list_filter in He as [Ha _]. unfold accepts in Ha. unfold kind_of. destruct (h !! e) as [oe|]; [|done]. cbn. unfold is_kind in Ha. by destruct (o_kind oe). }
    apply (h_execute_sim s R x Inj mx (fun i => inside i.1)); cbn [fst]; [| | | |by left].
    - intros r d [->|[H|[H|[H|(p & Hp & H)]]]] Hk; change (heap s) with h in Hk.
      + rewrite Hkc in Hk. done.
      + rewrite (Ke _ _ H) in Hk. done.
      + apply (out_rels_c s c G) in H as (e & He & Hr). by apply (known_c e r).
      + rewrite (Kn _ H) in Hk. done.
      + rewrite (Ke _ _ H) in Hk. done.
    - intros n d e [->|[H|[H|[H|(p & Hp & H)]]]] Hk He; change (heap s) with h in Hk, He.
      + right. by left.
      + rewrite (Ke _ _ H) in Hk. done.
      + rewrite (Kr _ H) in Hk. done.
      + right. right. right. right. by exists n.
      + rewrite (Ke _ _ H) in Hk. done.
    - intros e d r [->|[H|[H|[H|(p & Hp & H)]]]] Hk Hr; change (heap s) with h in Hk, Hr.
      + rewrite Hkc in Hk. done.
      + right. right. left. apply (out_rels_c s c G). by exists e.
      + rewrite (Kr _ H) in Hk. done.
      + rewrite (Kn _ H) in Hk. done.
      + exfalso. pose proof (F p Hp) as F'. unfold out_rels, out_edges in F'. rewrite decide_True in F' by (by apply Kn).
        assert (Hin : r ∈ flat_map (rels_of h) (edges_of h p)) by (apply elem_of_flat_map; by exists e). rewrite F' in Hin. inversion Hin.
    - intros r d p [->|[H|[H|[H|(q & Hq & H)]]]] Hk Hp _; change (heap s) with h in Hk, Hp.
      + rewrite Hkc in Hk. done.
      + rewrite (Ke _ _ H) in Hk. done.
      + right. right. right. left. apply (out_rels_c s c G) in H as (e & He & Hr). apply (neighbours_c s c G). by exists e, r.
      + rewrite (Kn _ H) in Hk. done.
      + rewrite (Ke _ _ H) in Hk. done.
  Qed.
  Lemma sparse_in e a b w : (e, a, b, w) ∈ sparse h c -> e ∈ edges_of h c /\ a ∈ endpoints h e /\ b ∈ endpoints h e /\ a <> b /\ w <> 0%Qc.
  Proof.
    unfold sparse. rewrite elem_of_flat_map. intros (e' & He & H). apply elem_of_flat_map in H as (r & Hr & H). unfold rel_entries in H.
    destruct (ep_of h r) as [p|] eqn:Ep; [|by inversion H]. assert (Hpe : p ∈ endpoints h e') by (apply elem_of_list_omap; by exists r).
    apply elem_of_app in H as [H|H]; destruct (decide _) as [|Hw]; try (by inversion H); apply elem_of_list_fmap in H as (q & [= -> -> -> ->] & Hq);
    unfold others in Hq; apply elem_of_list_filter in Hq as [Hq1 Hq2]; auto 6.
  Qed.
  Lemma ep_through e p : e ∈ edges_of h c -> p ∈ endpoints h e -> through (is_kind k_node) h c p.
  Proof. intros He Hp. apply elem_of_list_omap in Hp as (r & Hr & Hp). destruct (ig_ep _ _ G e r He Hr) as (p' & Hp' & Ht). congruence. Qed.
End flat.
