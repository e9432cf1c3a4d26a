(** * C85: the sparse entries and the dense tensors *)
From stdpp Require Import relations.
From Verif Require Import Spec Hierarchy Elements Factory History PReach PWF PBfs QTrav QTrav2 Homomorphism SpecHom QHom HTraverse Tensor SpecTensor QTensor QTensor2 QTensor3 SpecHTrav QHTrav Encode SpecEnc QEnc3 QEnc5 QFac2 SpecCoo QCoo.

Notation ent := (loc * loc * loc * Qc)%type.
Lemma last_part (P : ent -> Prop) `{forall n, Decision (P n)} (f : loc -> ent) w l Q `{Decision Q} :
  (forall q, snd (f q) = w) -> (Q <-> exists q, q ∈ l /\ P (f q)) ->
  last (map snd (filter P (if decide (w = 0%Qc) then [] else map f l))) = last (if decide (Q /\ w <> 0%Qc) then [w] else []).
Proof.
  intros Hf HQ. destruct (decide (w = 0%Qc)) as [Hw|Hw]; [rewrite decide_False; [done|]; intros [_ ?]; done|].
  assert (E : map snd (filter P (map f l)) = map (fun _ => w) (filter (fun q => P (f q)) l)).
  { clear HQ. induction l as [|q l IH]; [done|]. cbn [map]. rewrite !filter_cons. destruct (decide (P (f q))); cbn [map]; rewrite IH; [|done]. by rewrite Hf. }
  rewrite E, (last_const _ _ w) by done. destruct (filter (fun q => P (f q)) l) as [|q l'] eqn:El.
  - rewrite decide_False; [done|]. intros [HQ' _]. apply HQ in HQ' as (q & Hq & HP). assert (Hin : q ∈ filter (fun q => P (f q)) l) by (by apply elem_of_list_filter). rewrite El in Hin. inversion Hin.
  - rewrite decide_True; [done|]. split; [|done]. apply HQ. exists q. assert (Hin : q ∈ filter (fun q => P (f q)) l) by (rewrite El; left). apply elem_of_list_filter in Hin. tauto.
Qed.
Lemma filter_flat_map {A B} (P : B -> Prop) `{forall n, Decision (P n)} (f : A -> list B) l : filter P (flat_map f l) = flat_map (fun a => filter P (f a)) l.
Proof. induction l as [|a l IH]; [done|]. cbn [flat_map]. by rewrite filter_app, IH. Qed.
Lemma flat_map_in {A B} (f : A -> list B) l x : NoDup l -> x ∈ l -> (forall y, y ∈ l -> y <> x -> f y = []) -> flat_map f l = f x.
Proof.
  intros N Hx Hf. apply elem_of_list_lookup in Hx as [k Hk]. apply (flat_map_one f l k x Hk). intros k' y Hy Hne. apply Hf; [by eapply elem_of_list_lookup_2|].
  intros ->. apply Hne. by eapply NoDup_lookup.
Qed.

Section dense.
  Context (s : st) (R : reach s) (c : loc).
  Let h := heap s.
  Context (G : inner_graph h c).
  Lemma edges_nodup : NoDup (edges_of h c).
  Proof. unfold edges_of, fkids. apply NoDup_filter. exact (wf0_children_nd _ (reach_wf s R) c). Qed.
  Lemma rel_last (P : ent -> Prop) `{forall n, Decision (P n)} e r p Q1 Q2 `{Decision Q1} `{Decision Q2} : ep_of h r = Some p ->
    (Q1 <-> exists q, q ∈ others h e p /\ P (e, p, q, w_in h r)) -> (Q2 <-> exists q, q ∈ others h e p /\ P (e, q, p, w_out h r)) ->
    last (map snd (filter P (rel_entries h e r))) =
    last ((if decide (Q1 /\ w_in h r <> 0%Qc) then [w_in h r] else []) ++ (if decide (Q2 /\ w_out h r <> 0%Qc) then [w_out h r] else [])).
  Proof.
    intros Hp X1 X2. unfold rel_entries. rewrite Hp, filter_app, map_app. apply last_app_eq; by apply last_part.
  Qed.
  (** The entries of [e] that satisfy [P], when [P] concerns [e] only. *)
  Lemma sparse_last (P : ent -> Prop) `{forall n, Decision (P n)} e (f : loc -> list Qc) : e ∈ edges_of h c -> (forall n, P n -> n.1.1.1 = e) ->
    (forall r p, r ∈ rels_of h e -> ep_of h r = Some p -> last (map snd (filter P (rel_entries h e r))) = last (f r)) ->
    final (map snd (filter P (sparse h c))) = final (flat_map f (rels_of h e)).
  Proof.
    intros He HP Hr. unfold final, sparse. f_equal. rewrite filter_flat_map, (flat_map_in _ _ e edges_nodup He).
    - rewrite filter_flat_map, map_flat_map. apply last_flat_map_ext. intros r Hin. destruct (ig_ep _ _ G e r He Hin) as (p & Hp & _). by apply (Hr r p).
    - intros e' He' Hne. rewrite filter_flat_map. assert (E : forall l, flat_map (fun a => filter P (rel_entries h e' a)) l = []); [|apply E].
      intros l. induction l as [|r l IH]; [done|]. cbn [flat_map]. rewrite IH, app_nil_r.
      assert (El : forall m, (forall n, n ∈ m -> n.1.1.1 = e') -> filter P m = []).
      { intros m. induction m as [|n m IH']; intros Hm; [done|]. rewrite filter_cons, decide_False, IH'; [done|intros; apply Hm; by right|]. intros Hn. apply HP in Hn. rewrite (Hm n) in Hn by left. done. }
      apply El. intros n Hn. unfold rel_entries in Hn. destruct (ep_of h r) as [p|]; [|by inversion Hn].
      apply elem_of_app in Hn as [Hn|Hn]; destruct (decide _); try (by inversion Hn); apply elem_of_list_fmap in Hn as (q & -> & _); done.
  Qed.
  Lemma sparse_none (P : ent -> Prop) `{forall n, Decision (P n)} : (forall e a b w, (e, a, b, w) ∈ sparse h c -> ~ P (e, a, b, w)) -> final (map snd (filter P (sparse h c))) = 0%Qc.
  Proof.
    intros HP. destruct (filter P (sparse h c)) as [|n l] eqn:E; [done|]. assert (Hin : n ∈ filter P (sparse h c)) by (rewrite E; left).
    apply elem_of_list_filter in Hin as [H1 H2]. destruct n as [[[e a] b] w]. by apply HP in H2.
  Qed.
  Lemma in_others e p q : q ∈ others h e p <-> q ∈ endpoints h e /\ q <> p.
  Proof. unfold others. rewrite elem_of_list_filter. tauto. Qed.
  Lemma entry_W_sparse e a b : e ∈ edges_of h c -> entry_of (sparse h c) e a b = entry_W h e a b.
  Proof.
    intros He. unfold entry_of, entry_W. destruct (decide _) as [(Hab & Ha & Hb)|Hn].
    - apply (sparse_last (fun n => n.1 = (e, a, b)) e _ He); [by intros [[[e' a'] b'] w'] [= -> _ _]|]. intros r p Hr Hp.
      apply (rel_last (fun n => n.1 = (e, a, b)) e r p _ _ Hp); cbn [fst].
      + rewrite Hp. split; [intros [= ->]; exists b; by rewrite in_others|]. by intros (q & _ & [= -> ->]).
      + rewrite Hp. split; [intros [= ->]; exists a; by rewrite in_others|]. by intros (q & _ & [= -> ->]).
    - apply (sparse_none (fun n => n.1 = (e, a, b))). intros e' a' b' w Hin [= -> -> ->]. apply (sparse_in s c) in Hin. apply Hn. tauto.
  Qed.
  Lemma no_others e a : ~ (a ∈ endpoints h e /\ others h e a <> []) -> forall b, a ∈ endpoints h e -> b ∈ endpoints h e -> b <> a -> False.
  Proof. intros Hn b Ha Hb Hne. apply Hn. split; [done|]. intros E. assert (Hin : b ∈ others h e a) by (by apply in_others). rewrite E in Hin. inversion Hin. Qed.
  Lemma some_other e a : others h e a <> [] -> exists b, b ∈ endpoints h e /\ b <> a.
  Proof. intros Hn. destruct (others h e a) as [|b l] eqn:E; [done|]. exists b. apply in_others. rewrite E. left. Qed.
  Lemma ep_in e r p : r ∈ rels_of h e -> ep_of h r = Some p -> p ∈ endpoints h e.
  Proof. intros. apply elem_of_list_omap. by exists r. Qed.
  Lemma entry_Io_sparse e a : e ∈ edges_of h c -> first_of (sparse h c) e a = entry_Io h e a.
  Proof.
    intros He. unfold first_of, entry_Io. destruct (decide _) as [(Ha & Ho)|Hn].
    - apply some_other in Ho as (b & Hb & Hba). apply (sparse_last (fun n => n.1.1 = (e, a)) e _ He); [by intros [[[e' a'] b'] w'] [= -> _]|]. intros r p Hr Hp.
      apply (rel_last (fun n => n.1.1 = (e, a)) e r p _ _ Hp); cbn [fst].
      + rewrite Hp. split; [intros [= ->]; exists b; by rewrite in_others|]. by intros (q & _ & [= ->]).
      + rewrite Hp. split; [intros Hpa; exists a; rewrite in_others; split; [split; [done|congruence]|done]|]. intros (q & Hq & [= ->]) [= ->]. by apply in_others in Hq as [_ []].
    - apply (sparse_none (fun n => n.1.1 = (e, a))). intros e' a' b' w Hin [= -> ->]. apply (sparse_in s c) in Hin as (_ & Ha & Hb & Hne & _). by apply (no_others e a Hn b').
  Qed.
  Lemma entry_Ii_sparse e a : e ∈ edges_of h c -> second_of (sparse h c) e a = entry_Ii h e a.
  Proof.
    intros He. unfold second_of, entry_Ii. destruct (decide _) as [(Ha & Ho)|Hn].
    - apply some_other in Ho as (b & Hb & Hba). apply (sparse_last (fun n => n.1.1.1 = e /\ n.1.2 = a) e _ He); [by intros [[[e' a'] b'] w'] [-> _]|]. intros r p Hr Hp.
      apply (rel_last (fun n => n.1.1.1 = e /\ n.1.2 = a) e r p _ _ Hp); cbn [fst snd].
      + rewrite Hp. split; [intros Hpa; exists a; rewrite in_others; split; [split; [done|congruence]|done]|]. intros (q & Hq & _ & ->) [= ->]. by apply in_others in Hq as [_ []].
      + rewrite Hp. split; [intros [= ->]; exists b; by rewrite in_others|]. by intros (q & _ & _ & ->).
    - apply (sparse_none (fun n => n.1.1.1 = e /\ n.1.2 = a)). intros e' a' b' w Hin [E1 E2]. cbn in E1, E2. subst e' b'. apply (sparse_in s c) in Hin as (_ & Ha & Hb & Hne & _). by apply (no_others e a Hn a').
  Qed.
End dense.

Lemma closed_inner s c : reach s -> closed_graph (heap s) c -> inner_graph (heap s) c.
Proof.
  intros R G. pose proof (reach_wf s R) as W. split; [apply (cg_node _ _ G)| |apply (cg_w _ _ G)|].
  - intros e r He Hr. destruct (cg_ep _ _ G e r He Hr) as (p & Hp & Hn). exists p. split; [done|]. apply elem_of_list_filter in Hn as [Ha Hc]. apply through_kid; [|done].
    by apply (wf0_child _ W) in Hc as [_ Hc].
  - intros e p q He Hp Hq Hu. assert (Hk : forall z, z ∈ endpoints (heap s) e -> z ∈ children (heap s) c).
    { intros z Hz. apply elem_of_list_omap in Hz as (r & Hr & Hz). destruct (cg_ep _ _ G e r He Hr) as (p' & Hp' & Hn). apply elem_of_list_filter in Hn as [_ Hn]. congruence. }
    apply (same_uuid_child (heap s) c p q W); auto.
Qed.
Lemma q_C85_dense s c lim x T : reach s -> closed_graph (heap s) c -> work (heap s) c < lim -> computes lim c s x T ->
  (forall k e i a j b, edges_of (heap s) c !! k = Some e -> nodes_of (heap s) c !! i = Some a -> nodes_of (heap s) c !! j = Some b ->
     te_W T k i j = entry_of (sparse (heap s) c) e a b) /\
  (forall k e i a, edges_of (heap s) c !! k = Some e -> nodes_of (heap s) c !! i = Some a ->
     te_Io T k i = first_of (sparse (heap s) c) e a /\ te_Ii T k i = second_of (sparse (heap s) c) e a).
Proof.
  intros R CG Hl HC. pose proof (closed_inner s c R CG) as G. destruct (q_computes s c lim x T R CG Hl HC) as ((_ & _ & D1 & D2) & _). split.
  - intros k e i a j b He Ha Hb. rewrite (D1 k e i a j b He Ha Hb). symmetry. apply (entry_W_sparse s R c G). by eapply elem_of_list_lookup_2.
  - intros k e i a He Ha. destruct (D2 k e i a He Ha) as [-> ->]. apply elem_of_list_lookup_2 in He. by rewrite (entry_Io_sparse s R c G), (entry_Ii_sparse s R c G).
Qed.
