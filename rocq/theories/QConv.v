(** * Conversion: the depths of the nodes that a description makes *)
From stdpp Require Import relations.
From Verif Require Import Spec Hierarchy Elements Factory History PDict PPath PExec PMono CogniLang QCog3 QCog8.

(** A node in a node is one level deeper. *)
Record nd (n0 : nat) (h : list obj) : Prop := {
  nd_par : forall l o p, h !! l = Some o -> o_parent o = Some p -> exists_in h p;
  nd_dep : forall l o p op, n0 <= l -> h !! l = Some o -> o_kind o = KNode -> o_parent o = Some p -> h !! p = Some op -> o_kind op = KNode -> o_depth o = S (o_depth op)
}.
Definition nodes_same (h h' : list obj) : Prop := forall l o, h !! l = Some o -> o_kind o = KNode -> exists o', h' !! l = Some o' /\ o_kind o' = KNode /\ o_depth o' = o_depth o.
Definition nds (n0 : nat) (h h' : list obj) : Prop := nd n0 h' /\ nodes_same h h'.
Definition ndm {A} (n0 : nat) (s : st) (m : M A) : Prop := nd n0 (heap s) -> nds n0 (heap s) (heap (snd (m s))).

Lemma nodes_same_refl h : nodes_same h h.
Proof. intros l o H K. by exists o. Qed.
Lemma nodes_same_trans h1 h2 h3 : nodes_same h1 h2 -> nodes_same h2 h3 -> nodes_same h1 h3.
Proof. intros A B l o H K. destruct (A l o H K) as (o2 & H2 & K2 & D2). destruct (B l o2 H2 K2) as (o3 & H3 & K3 & D3). exists o3. split; [done|]. split; [done|congruence]. Qed.
Lemma nds_trans n0 h1 h2 h3 : nds n0 h1 h2 -> (nd n0 h2 -> nds n0 h2 h3) -> nds n0 h1 h3.
Proof. intros [A1 A2] B. destruct (B A1) as [B1 B2]. split; [done|]. by eapply nodes_same_trans. Qed.
Lemma ndm_bind {A B} n0 s (m : M A) (k : A -> M B) : ndm n0 s m -> (forall a s1, m s = (Ok a, s1) -> ndm n0 s1 (k a)) -> ndm n0 s (bind m k).
Proof.
  intros Hm Hk N. specialize (Hm N). unfold bind. destruct (m s) as [[a|e] s1] eqn:E; cbn [snd] in *; [|done]. eapply nds_trans; [done|]. intros N1. by apply (Hk a s1).
Qed.
Lemma ndm_same {A} n0 s (m : M A) : heap (snd (m s)) = heap s -> ndm n0 s m.
Proof. intros E N. rewrite E. split; [done|apply nodes_same_refl]. Qed.

(** ** Changes that leave kinds, depths and parents (or drop a parent) *)
Definition calm (h h' : list obj) : Prop := forall l,
  match h !! l, h' !! l with
  | Some o, Some o' => o_kind o' = o_kind o /\ o_depth o' = o_depth o /\ (o_parent o' = o_parent o \/ o_parent o' = None)
  | None, None => True
  | _, _ => False
  end.
Lemma calm_refl h : calm h h.
Proof. intros l. destruct (h !! l); auto. Qed.
Lemma calm_trans h1 h2 h3 : calm h1 h2 -> calm h2 h3 -> calm h1 h3.
Proof.
  intros A B l. specialize (A l). specialize (B l). destruct (h1 !! l) as [o1|], (h2 !! l) as [o2|]; try done. destruct (h3 !! l) as [o3|]; [|done].
  destruct A as (A1 & A2 & A3), B as (B1 & B2 & B3). split; [congruence|]. split; [congruence|]. destruct B3 as [->| ->]; auto.
Qed.
Lemma calm_exists h h' l : calm h h' -> exists_in h l <-> exists_in h' l.
Proof. intros C. specialize (C l). unfold exists_in, is_Some. destruct (h !! l), (h' !! l); try done; split; intros _; by eexists. Qed.
Lemma calm_nds n0 h h' : nd n0 h -> calm h h' -> nds n0 h h'.
Proof.
  intros N C. split; [split|].
  - intros l o p Hl Hp. pose proof (C l) as Cl. rewrite Hl in Cl. destruct (h !! l) as [o0|] eqn:E; [|done]. destruct Cl as (_ & _ & [Hp0|Hp0]); [|congruence].
    apply (calm_exists _ _ p C). eapply nd_par; [done|done|congruence].
  - intros l o p op Hn Hl Hk Hp Hop Hkp. pose proof (C l) as Cl. rewrite Hl in Cl. destruct (h !! l) as [o0|] eqn:E; [|done]. destruct Cl as (K & D & [Hp0|Hp0]); [|congruence].
    pose proof (C p) as Cp. rewrite Hop in Cp. destruct (h !! p) as [op0|] eqn:Ep; [|done]. destruct Cp as (Kp & Dp & _). rewrite D, Dp.
    eapply nd_dep; [done|exact Hn|done|congruence| |exact Ep|congruence]. congruence.
  - intros l o Hl Hk. pose proof (C l) as Cl. rewrite Hl in Cl. destruct (h' !! l) as [o'|]; [|done]. destruct Cl as (K & D & _). exists o'. split; [done|]. split; congruence.
Qed.
Definition calmp {A} (m : M A) : Prop := forall s, calm (heap s) (heap (snd (m s))).
Lemma calmp_ret {A} (a : A) : calmp (ret a). Proof. intros s. apply calm_refl. Qed.
Lemma calmp_raise {A} e : calmp (@raise A e). Proof. intros s. apply calm_refl. Qed.
Lemma calmp_bind {A B} (m : M A) (k : A -> M B) : calmp m -> (forall a, calmp (k a)) -> calmp (bind m k).
Proof. intros Hm Hk s. unfold bind. specialize (Hm s). destruct (m s) as [[a|e] s1]; cbn [snd] in *; [|done]. eapply calm_trans; [done|apply Hk]. Qed.
Lemma calmp_get : calmp get_st. Proof. intros s. apply calm_refl. Qed.
Lemma calmp_deref l : calmp (deref l). Proof. intros s. unfold deref. destruct (heap s !! l); apply calm_refl. Qed.
Lemma calmp_of_opt {A} e (x : option A) : calmp (of_opt e x). Proof. destruct x; [apply calmp_ret|apply calmp_raise]. Qed.
Lemma calmp_now c : calmp (now c). Proof. intros s. apply calm_refl. Qed.
Lemma calmp_hash c : calmp (hash c). Proof. intros s. apply calm_refl. Qed.
Definition soft (f : obj -> obj) : Prop := forall o, o_kind (f o) = o_kind o /\ o_depth (f o) = o_depth o /\ (o_parent (f o) = o_parent o \/ o_parent (f o) = None).
Lemma calm_alter f l h : soft f -> calm h (alter f l h).
Proof.
  intros F k. destruct (decide (l = k)) as [->|N].
  - rewrite list_lookup_alter. destruct (h !! k) as [o|]; [apply F|done].
  - rewrite list_lookup_alter_ne by done. destruct (h !! k); auto.
Qed.
Lemma calmp_upd l f : soft f -> calmp (upd l f).
Proof. intros F s. unfold upd. destruct (heap s !! l); [|apply calm_refl]. by apply calm_alter. Qed.
Global Hint Resolve calmp_ret calmp_raise calmp_get calmp_deref calmp_of_opt calmp_now calmp_hash : calm.
Ltac soft := by (intros ?; split; [|split]; simpl; auto).
Ltac calm := repeat first
  [ progress (eauto with calm)
  | apply calmp_bind; [|intros ?]
  | apply calmp_upd; soft
  | match goal with |- calmp (match ?x with _ => _ end) => destruct x | |- calmp (let '_ := ?x in _) => destruct x end ].
Lemma calmp_update_timestamp l : calmp (update_timestamp l). Proof. unfold update_timestamp. calm. Qed.
Lemma calmp_refresh l : calmp (refresh_qname l). Proof. unfold refresh_qname. calm. Qed.
Global Hint Resolve calmp_update_timestamp calmp_refresh : calm.
Lemma calmp_update l : calmp (update l). Proof. unfold update. calm. Qed.
Global Hint Resolve calmp_update : calm.
Lemma calmp_update_loop fuel q : calmp (update_loop fuel q).
Proof. revert q. induction fuel as [|fuel IH]; intros [|x q]; simpl; calm. Qed.
Global Hint Resolve calmp_update_loop : calm.
Lemma calmp_update_subtree l : calmp (update_subtree l). Proof. unfold update_subtree. calm. Qed.
Global Hint Resolve calmp_update_subtree : calm.
Lemma calmp_remove_one p v : calmp (remove_one p v). Proof. unfold remove_one. calm. Qed.
Lemma calmp_remove_uuid p nm u : calmp (remove_uuid p nm u). Proof. unfold remove_uuid. calm. Qed.
Global Hint Resolve calmp_remove_one calmp_remove_uuid : calm.
Lemma calmp_base_next g : calmp (base_next g). Proof. destruct g as [p nm u|p [|v vs]|]; simpl; calm. Qed.
Global Hint Resolve calmp_base_next : calm.
Lemma calmp_rel_next p : calmp (rel_next p). Proof. unfold rel_next. calm. Qed.
Lemma calmp_edge_next p nm u : calmp (edge_next p nm u). Proof. unfold edge_next. calm. Qed.
Global Hint Resolve calmp_rel_next calmp_edge_next : calm.
Lemma calmp_gen_next g : calmp (gen_next g). Proof. destruct g; unfold gen_next; calm. Qed.
Global Hint Resolve calmp_gen_next : calm.
Lemma calmp_gen_loop body p vs : (forall x, calmp (body x)) -> calmp (gen_loop body p vs).
Proof. intros Hb. induction vs as [|v vs IH]; simpl; calm. Qed.
Lemma calmp_for_gen body g : (forall x, calmp (body x)) -> calmp (for_gen body g).
Proof. intros Hb. unfold for_gen. pose proof (fun p vs => calmp_gen_loop body p vs Hb). calm. Qed.
Lemma calmp_for_gen_update g : calmp (for_gen update g). Proof. apply calmp_for_gen. calm. Qed.
Global Hint Resolve calmp_for_gen_update : calm.

(** ** add_element *)
Definition placed_in (p c : loc) (op : obj) (h : list obj) : list obj := alter (s_depth (o_depth op + 1)) c (alter (s_parent (Some p)) c h).
Lemma bind_split {A B} (m : M A) (k : A -> M B) s r s' : bind m k s = (r, s') -> (exists e, m s = (Exn e, s') /\ r = Exn e) \/ exists a s1, m s = (Ok a, s1) /\ k a s1 = (r, s').
Proof. unfold bind. destruct (m s) as [[a|e] s1]; intros E; [right; by exists a, s1|left; exists e; by injection E as <- <-]. Qed.
Lemma calmp_run {A} (m : M A) s r s' : calmp m -> m s = (r, s') -> calm (heap s) (heap s').
Proof. intros C E. specialize (C s). by rewrite E in C. Qed.
Lemma add_base_eff p c s r s' : add_base p c s = (r, s') -> calm (heap s) (heap s') \/
  exists h1 op, c <> p /\ calm (heap s) h1 /\ h1 !! p = Some op /\ calm (placed_in p c op h1) (heap s').
Proof.
  unfold add_base. case_decide as Hcp; [intros [= <- <-]; left; apply calm_refl|]. intros E.
  apply bind_split in E as [(e & E & ->)|(oc & s1 & E1 & E)]; [left; eapply calmp_run; [|exact E]; calm|].
  unfold deref in E1. destruct (heap s !! c) as [oc'|] eqn:Ec; [|done]. injection E1 as <- <-.
  apply bind_split in E as [(e & E & ->)|(op & s1 & E1 & E)]; [left; eapply calmp_run; [|exact E]; calm|].
  unfold deref in E1. destruct (heap s !! p) as [op'|] eqn:Ep; [|done]. injection E1 as <- <-.
  destruct (dget (o_uuid oc') (o_subs op')); [injection E as <- <-; left; apply calm_refl|].
  apply bind_split in E as [(e & E & ->)|([] & s1 & E1 & E)]; [left; eapply calmp_run; [|exact E]; calm|]. apply calmp_run in E1; [|calm].
  case_decide; [injection E as <- <-; by left|].
  apply bind_split in E as [(e & E & ->)|([] & s2 & E2 & E)]; [left; eapply calm_trans; [exact E1|]; eapply calmp_run; [|exact E]; calm|]. apply calmp_run in E2; [|calm]. pose proof (calm_trans _ _ _ E1 E2) as C2.
  apply bind_split in E as [(e & E & ->)|(op1 & s3 & E3 & E)]; [left; eapply calm_trans; [exact C2|]; eapply calmp_run; [|exact E]; calm|]. apply calmp_run in E3; [|calm]. pose proof (calm_trans _ _ _ C2 E3) as C3.
  apply bind_split in E as [(e & E & ->)|([] & s4 & E4 & E)]; [left; eapply calm_trans; [exact C3|]; eapply calmp_run; [|exact E]; calm|]. apply calmp_run in E4; [|calm]. pose proof (calm_trans _ _ _ C3 E4) as C4.
  apply bind_split in E as [(e & E & ->)|([] & s5 & E5 & E)]; [left; eapply calm_trans; [exact C4|]; eapply calmp_run; [|exact E]; calm|]. apply calmp_run in E5; [|calm]. pose proof (calm_trans _ _ _ C4 E5) as C8. clear C2 C3 C4 E1 E2 E3 E4 E5.
  assert (Hc : exists_in (heap s5) c) by (apply (calm_exists _ _ c C8); by eexists). assert (Hp : exists_in (heap s5) p) by (apply (calm_exists _ _ p C8); by eexists).
  destruct Hc as [oc5 Hc], Hp as [op5 Hp].
  unfold bind at 1 in E. unfold upd at 1 in E. rewrite Hc in E. unfold bind at 1 in E. unfold deref at 1 in E. cbn [heap set_heap] in E. rewrite list_lookup_alter_ne in E by done. rewrite Hp in E.
  unfold bind at 1 in E. unfold upd at 1 in E. cbn [heap set_heap] in E. rewrite list_lookup_alter, Hc in E. cbn [fmap option_fmap option_map] in E.
  right. exists (heap s5), op5. split; [done|]. split; [done|]. split; [done|]. apply calmp_run in E; [exact E|calm].
Qed.
Lemma placed_lookup p c op h l : placed_in p c op h !! l = if decide (l = c) then (fun o => s_depth (o_depth op + 1) (s_parent (Some p) o)) <$> h !! l else h !! l.
Proof.
  unfold placed_in. case_decide as E; [rewrite E|by rewrite !list_lookup_alter_ne by done]. rewrite list_lookup_alter, list_lookup_alter. by destruct (h !! c).
Qed.
Lemma placed_nd n0 p c op h : nd n0 h -> c <> p -> h !! p = Some op -> (forall oc, h !! c = Some oc -> o_kind oc = KNode -> forall l o, h !! l = Some o -> o_parent o <> Some c) -> nd n0 (placed_in p c op h).
Proof.
  intros N Hcp Hp Hc. assert (Hex : forall l, exists_in h l -> exists_in (placed_in p c op h) l).
  { intros l [o Ho]. unfold exists_in. rewrite placed_lookup. case_decide; rewrite Ho; by eexists. }
  split.
  - intros l o q Hl Hq. apply Hex. rewrite placed_lookup in Hl. case_decide as E.
    + destruct (h !! l) as [o0|] eqn:E0; [|done]. injection Hl as <-. cbn in Hq. injection Hq as <-. by eexists.
    + by eapply nd_par.
  - intros l o q oq Hn Hl Hk Hq Hoq Hkq. rewrite placed_lookup in Hl, Hoq. destruct (decide (l = c)) as [E|E]; [subst l|].
    + destruct (h !! c) as [o0|] eqn:E0; [|done]. injection Hl as <-. cbn in Hq, Hk |- *. injection Hq as <-. rewrite decide_False in Hoq by done. rewrite Hp in Hoq. injection Hoq as <-. lia.
    + destruct (decide (q = c)) as [E'|E']; [subst q|by eapply nd_dep]. exfalso. destruct (h !! c) as [o0|] eqn:E0; [|done]. injection Hoq as <-. cbn in Hkq. by eapply (Hc o0).
Qed.
Definition nodeless (h : list obj) (c : loc) : Prop := forall oc, h !! c = Some oc -> o_kind oc = KNode -> forall l o, h !! l = Some o -> o_parent o <> Some c.
Lemma calm_nodeless h h' c : calm h h' -> nodeless h c -> nodeless h' c.
Proof.
  intros C H oc Hc Hk l o Hl Hp. pose proof (C c) as Cc. rewrite Hc in Cc. destruct (h !! c) as [oc0|] eqn:E; [|done]. destruct Cc as (K & _ & _).
  pose proof (C l) as Cl. rewrite Hl in Cl. destruct (h !! l) as [o0|] eqn:El; [|done]. destruct Cl as (_ & _ & [P|P]); [|congruence]. apply (H oc0 E ltac:(congruence) l o0 El). congruence.
Qed.
(** All nodes but [c] stay at their depth. *)
Lemma add_base_nd n0 p c s : nd n0 (heap s) -> nodeless (heap s) c -> nd n0 (heap (snd (add_base p c s))) /\
  forall l o, heap s !! l = Some o -> o_kind o = KNode -> l <> c -> exists o', heap (snd (add_base p c s)) !! l = Some o' /\ o_kind o' = KNode /\ o_depth o' = o_depth o.
Proof.
  intros N Hc. destruct (add_base p c s) as [r s'] eqn:E; cbn [snd]. destruct (add_base_eff p c s r s' E) as [C|(h1 & op & Hcp & C1 & Hp & C2)].
  - destruct (calm_nds _ _ _ N C) as [N' S']. split; [done|]. intros l o Hl Hk _. by apply S'.
  - destruct (calm_nds _ _ _ N C1) as [N1 S1]. pose proof (placed_nd n0 p c op h1 N1 Hcp Hp (calm_nodeless _ _ _ C1 Hc)) as N2. destruct (calm_nds _ _ _ N2 C2) as [N3 S3].
    split; [done|]. intros l o Hl Hk Hlc. destruct (S1 l o Hl Hk) as (o1 & H1 & K1 & D1). destruct (S3 l o1) as (o3 & H3 & K3 & D3); [by rewrite placed_lookup, decide_False|done|].
    exists o3. split; [done|]. split; [done|congruence].
Qed.
Definition not_node (h : list obj) (c : loc) : Prop := kind_of h c <> Some KNode.
Lemma not_node_less h c : not_node h c -> nodeless h c.
Proof. intros H oc Hc Hk. exfalso. apply H. unfold kind_of. rewrite Hc. cbn. by rewrite Hk. Qed.
Lemma not_node_pres s s' c : mono s s' -> exists_in (heap s) c -> not_node (heap s) c -> not_node (heap s') c.
Proof. intros Mn [o Ho] H. destruct (m_obj _ _ Mn c o Ho) as (o' & Ho' & X). unfold not_node, kind_of in *. rewrite Ho' . rewrite Ho in H. cbn in *. by rewrite (om_kind _ _ _ _ X). Qed.
Lemma add_base_ndm n0 p c s : not_node (heap s) c -> ndm n0 s (add_base p c).
Proof.
  intros Hc N. destruct (add_base_nd n0 p c s N (not_node_less _ _ Hc)) as [N' S']. split; [done|]. intros l o Hl Hk. apply S'; [done|done|]. intros ->. apply Hc. unfold kind_of. rewrite Hl. cbn. by rewrite Hk.
Qed.
Lemma calm_ndm {A} n0 s (m : M A) : calmp m -> ndm n0 s m.
Proof. intros C N. by apply calm_nds. Qed.
Lemma alloc_ndm n0 s o : o_parent o = None -> ndm n0 s (alloc o).
Proof.
  intros Hp N. unfold alloc. cbn [snd heap set_heap]. split; [split|].
  - intros l o' p Hl Hpp. apply lookup_app_Some in Hl as [Hl|[_ Hl]].
    + destruct (nd_par _ _ N l o' p Hl Hpp) as [op Hop]. exists op. by apply lookup_app_l_Some.
    + apply list_lookup_singleton_Some in Hl as [_ <-]. congruence.
  - intros l o' p op Hn Hl Hk Hpp Hop Hkp. apply lookup_app_Some in Hl as [Hl|[_ Hl]]; [|apply list_lookup_singleton_Some in Hl as [_ <-]; congruence].
    destruct (nd_par _ _ N l o' p Hl Hpp) as [op0 Hop0]. rewrite (lookup_app_l_Some _ _ _ _ Hop0) in Hop. injection Hop as <-. by eapply nd_dep.
  - intros l o' Hl Hk. exists o'. split; [by apply lookup_app_l_Some|done].
Qed.
Lemma connect_ndm n0 x el s : ndm n0 s (connect x el).
Proof.
  unfold connect. apply ndm_bind; [apply calm_ndm; calm|]. intros ox s1 _. apply ndm_bind; [apply calm_ndm; calm|]. intros oe s2 _. destruct (_ && _); [|apply calm_ndm; calm].
  apply ndm_bind; [apply calm_ndm; calm|]. intros u s3 _. cbv zeta. apply ndm_bind; [by apply alloc_ndm|]. intros pt s4 E4. apply ndm_bind; [apply calm_ndm; calm|]. intros [] s5 E5. apply add_base_ndm.
  unfold alloc in E4. injection E4 as <- <-. unfold upd in E5. destruct (heap (set_heap _ s3) !! x) eqn:Ex; [|done]. injection E5 as <-. cbn [heap set_heap]. unfold not_node, kind_of.
  destruct (decide (x = length (heap s3))) as [->|Hne].
  - rewrite list_lookup_alter, lookup_app_r, Nat.sub_diag by lia. done.
  - rewrite list_lookup_alter_ne by done. rewrite lookup_app_r, Nat.sub_diag by lia. done.
Qed.
(** [add_element] behaves as [add_base], then nothing that matters *)
Lemma ndm_run {A} n0 s (m : M A) r s' : ndm n0 s m -> m s = (r, s') -> nd n0 (heap s) -> nds n0 (heap s) (heap s').
Proof. intros H E N. specialize (H N). by rewrite E in H. Qed.
Lemma add_element_then n0 p c s r s' : add_element p c s = (r, s') -> s' = s \/ exists r1 s1, add_base p c s = (r1, s1) /\ (nd n0 (heap s1) -> nds n0 (heap s1) (heap s')).
Proof.
  unfold add_element. intros E. assert (Z : forall h : list obj, nd n0 h -> nds n0 h h) by (intros h N1; split; [done|apply nodes_same_refl]).
  apply bind_split in E as [(e & E & ->)|(op & s1 & E1 & E)]; [unfold deref in E; left; destruct (heap s !! p); by simplify_eq|]. unfold deref in E1. destruct (heap s !! p) as [op'|] eqn:Ep; [|done]. injection E1 as <- <-. right.
  destruct (o_kind op'); try (exists r, s'; split; [exact E|apply Z]).
  - apply bind_split in E as [(e & E & ->)|([] & s1 & E1 & E)]; [exists (Exn e), s'; split; [exact E|apply Z]|]. exists (Ok tt), s1. split; [done|]. eapply ndm_run; [|exact E]. apply calm_ndm. calm.
  - apply bind_split in E as [(e & E & ->)|([] & s1 & E1 & E)]; [exists (Exn e), s'; split; [exact E|apply Z]|]. exists (Ok tt), s1. split; [done|]. eapply ndm_run; [|exact E].
    eapply ndm_bind; [apply calm_ndm, calmp_deref|]. intros oc s2 _. destruct (is_hyperelement _); [apply connect_ndm|apply calm_ndm; calm].
Qed.
Lemma add_element_nd n0 p c s : nd n0 (heap s) -> nodeless (heap s) c -> nd n0 (heap (snd (add_element p c s))) /\
  forall l o, heap s !! l = Some o -> o_kind o = KNode -> l <> c -> exists o', heap (snd (add_element p c s)) !! l = Some o' /\ o_kind o' = KNode /\ o_depth o' = o_depth o.
Proof.
  intros N Hc. destruct (add_element p c s) as [r s'] eqn:E. cbn [snd]. destruct (add_element_then n0 p c s r s' E) as [->|(r1 & s1 & E1 & H)].
  2: pose proof (add_base_nd n0 p c s N Hc) as [N1 S1]; rewrite E1 in N1, S1; cbn [snd] in N1, S1.
  2:{ destruct (H N1) as [N2 S2]. split; [done|]. intros l o Hl Hk Hlc. destruct (S1 l o Hl Hk Hlc) as (o1 & H1 & K1 & D1).
    destruct (S2 l o1 H1 K1) as (o2 & H2 & K2 & D2). exists o2. split; [done|]. split; [done|congruence]. }
  split; [done|]. intros l o Hl Hk _. by exists o.
Qed.
Lemma add_element_ndm n0 p c s : not_node (heap s) c -> ndm n0 s (add_element p c).
Proof.
  intros Hc N. destruct (add_element_nd n0 p c s N (not_node_less _ _ Hc)) as [N' S']. split; [done|]. intros l o Hl Hk. apply S'; [done|done|]. intros ->. apply Hc. unfold kind_of. rewrite Hl. cbn. by rewrite Hk.
Qed.
Lemma add_new_ndm n0 s o p : o_parent o = None -> nd n0 (heap s) -> nds n0 (heap s) (heap (snd (add_element p (length (heap s)) (set_heap (heap s ++ [o]) s)))).
Proof.
  intros Hp N. destruct (alloc_ndm n0 s o Hp N) as [N1 S1]. cbn in N1, S1. destruct (add_element_nd n0 p (length (heap s)) (set_heap (heap s ++ [o]) s) N1) as [N2 S2].
  - intros oc _ _ l o' Hl Hpp. cbn in Hl. apply lookup_app_Some in Hl as [Hl|[_ Hl]]; [|apply list_lookup_singleton_Some in Hl as [_ <-]; congruence].
    destruct (nd_par _ _ N l o' _ Hl Hpp) as [op Hop]. apply lookup_lt_Some in Hop. lia.
  - split; [done|]. intros l o' Hl Hk. destruct (S1 l o' Hl Hk) as (o1 & H1 & K1 & D1). destruct (S2 l o1 H1 K1) as (o2 & H2 & K2 & D2); [apply lookup_lt_Some in Hl; lia|]. exists o2. split; [done|]. split; [done|congruence].
Qed.
(** ** The factories *)
Lemma conceptual_ndm n0 k nm u prog c p s : ndm n0 s (new_conceptual k nm u prog c p).
Proof.
  unfold new_conceptual. destruct c as [c|]; [|apply calm_ndm; calm]. apply ndm_bind; [apply calm_ndm; calm|]. intros t s1 _ N. unfold bind at 1. unfold alloc. cbv beta iota.
  set (o := s_ready _ _). assert (Ho : o_parent o = None) by done. destruct p as [p|].
  - pose proof (add_new_ndm n0 s1 o p Ho N) as A. unfold bind at 1. destruct (add_element p _ _) as [[[]|e] s2]; cbn [snd] in *; [|done].
    eapply nds_trans; [exact A|]. intros N2. apply (calm_ndm n0 s2); [calm|done].
  - eapply nds_trans; [by apply (alloc_ndm n0 s1 o)|]. intros N2. apply (calm_ndm n0 (set_heap (heap s1 ++ [o]) s1)); [calm|done].
Qed.
Lemma calmp_uid f nm : calmp (generate_uid f nm). Proof. unfold generate_uid. calm. Qed.
Lemma calmp_qname f nm : calmp (get_qualified_name f nm). Proof. unfold get_qualified_name. calm. Qed.
Lemma calmp_stamped f nm p : calmp (stamped_name f nm p). Proof. unfold stamped_name. calm. Qed.
Lemma calmp_clock_of p : calmp (clock_of p). Proof. unfold clock_of. calm. Qed.
Global Hint Resolve calmp_uid calmp_qname calmp_stamped calmp_clock_of : calm.
Lemma node_ndm n0 f nm p s : ndm n0 s (generate_node f nm p).
Proof. unfold generate_node. apply ndm_bind; [apply calm_ndm; calm|]. intros u s1 _. apply ndm_bind; [apply calm_ndm; calm|]. intros q s2 _. apply conceptual_ndm. Qed.
Lemma edge_ndm n0 f p nm s : ndm n0 s (create_hyperedge f p nm).
Proof.
  unfold create_hyperedge. apply ndm_bind; [apply calm_ndm; calm|]. intros u s1 _. apply ndm_bind; [apply calm_ndm; calm|]. intros q s2 _. apply ndm_bind; [apply calm_ndm; calm|]. intros c s3 _. apply conceptual_ndm.
Qed.
Lemma value_ndm n0 f p nm vs s : ndm n0 s (create_value f p nm vs).
Proof.
  unfold create_value. apply ndm_bind; [apply calm_ndm; calm|]. intros u s1 _. destruct p as [p|].
  - apply ndm_bind; [apply calm_ndm; calm|]. intros q s2 _. intros N. unfold bind at 1. unfold new_value, alloc. cbv beta iota zeta. set (o := s_dim _ _).
    pose proof (add_new_ndm n0 s2 o p eq_refl N) as A. unfold bind at 1. destruct (add_element p _ _) as [[[]|e] s3]; cbn [snd] in *; done.
  - apply ndm_bind; [apply calm_ndm; calm|]. intros q s2 _. by apply alloc_ndm.
Qed.
Lemma sem_ndm n0 f raw nm p attr vs s : ndm n0 s (generate_semantic_element f raw nm p attr vs).
Proof.
  unfold generate_semantic_element. destruct attr as [|a attr]; [apply calm_ndm; calm|]. apply ndm_bind; [apply calm_ndm; calm|]. intros u s1 _. destruct (type_class _) as [c|]; [|apply calm_ndm; calm].
  apply ndm_bind; [apply calm_ndm; calm|]. intros q s2 _. intros N. unfold bind at 1. unfold new_sem, alloc. cbv beta iota zeta. set (o := s_attr _ _).
  pose proof (add_new_ndm n0 s2 o p eq_refl N) as A. unfold bind at 1. destruct (add_element p _ _) as [[[]|e] s3]; cbn [snd] in *; [|done].
  eapply nds_trans; [exact A|]. intros N3. apply (calm_ndm n0 s3); [|done]. unfold add_named_attribute. calm.
Qed.

Lemma pres_run {A} (m : M A) s r s' : pres m -> m s = (r, s') -> mono s s'.
Proof. intros P E. specialize (P s). by rewrite E in P. Qed.
Definition nonnode (h : list obj) (x : loc) : Prop := exists k, kind_of h x = Some k /\ k <> KNode.
Lemma nonnode_mono s s' x : mono s s' -> nonnode (heap s) x -> nonnode (heap s') x.
Proof.
  intros Mn (k & H & Hk). exists k. split; [|done]. unfold kind_of in *. destruct (heap s !! x) as [o|] eqn:E; [|done]. destruct (m_obj _ _ Mn x o E) as (o' & Ho' & X). rewrite Ho'. cbn in *. by rewrite (om_kind _ _ _ _ X).
Qed.
Lemma nonnode_not h x : nonnode h x -> not_node h x.
Proof. unfold not_node. intros (k & -> & Hk). congruence. Qed.
Lemma nonnode_new s o : o_kind o <> KNode -> nonnode (heap s ++ [o]) (length (heap s)).
Proof. intros H. exists (o_kind o). split; [|done]. unfold kind_of. by rewrite lookup_app_r, Nat.sub_diag by lia. Qed.
Lemma sem_made f raw nm p attr vs s x s' : generate_semantic_element f raw nm p attr vs s = (Ok x, s') -> nonnode (heap s') x.
Proof.
  unfold generate_semantic_element. intros E. destruct attr as [|a attr]; [done|]. apply bind_inv in E as (u & s1 & E1 & E). destruct (type_class _) as [c|]; [|done].
  apply bind_inv in E as (q & s2 & E2 & E). apply bind_inv in E as (y & s3 & E3 & E). apply bind_inv in E as ([] & s4 & E4 & E). apply bind_inv in E as ([] & s5 & E5 & E). apply ret_inv in E as [-> ->].
  eapply (nonnode_mono s4); [eapply pres_run; [|exact E5]; unfold add_named_attribute; pres|]. eapply (nonnode_mono s3); [eapply pres_run; [|exact E4]; pres|].
  unfold new_sem, alloc in E3. injection E3 as <- <-. by apply nonnode_new.
Qed.
Lemma unary_ndm n0 e n w d sem s : (forall sv, sem = Some sv -> nonnode (heap s) sv) -> ndm n0 s (unary_connect e n w d sem).
Proof.
  intros Hs. unfold unary_connect. apply ndm_bind; [apply calm_ndm; calm|]. intros oe s1 E1. apply deref_inv in E1 as [_ ->]. apply ndm_bind; [apply calm_ndm; calm|]. intros on s2 E2. apply deref_inv in E2 as [_ ->].
  case_decide; [|apply calm_ndm; calm]. apply ndm_bind; [apply calm_ndm; calm|]. intros c s1 E1. apply of_opt_inv in E1 as [_ ->]. apply ndm_bind; [apply calm_ndm; calm|]. intros t s1 E1. cbv zeta.
  assert (M1 : mono s s1) by (eapply pres_run; [|exact E1]; pres).
  destruct (o_ready oe); [|apply calm_ndm; calm]. apply ndm_bind; [apply calm_ndm; calm|]. intros u s2 E2. assert (M2 : mono s1 s2) by (eapply pres_run; [|exact E2]; pres).
  unfold new_rel. apply ndm_bind; [by apply alloc_ndm|]. intros r s3 E3. assert (M3 : mono s2 s3) by (eapply pres_run; [|exact E3]; pres; done).
  assert (R3 : nonnode (heap s3) r) by (unfold alloc in E3; injection E3 as <- <-; by apply nonnode_new).
  apply ndm_bind; [apply connect_ndm|]. intros [] s4 E4. assert (M4 : mono s3 s4) by (eapply pres_run; [|exact E4]; pres).
  apply ndm_bind.
  - destruct sem as [sv|]; [|apply calm_ndm; calm]. apply add_element_ndm, nonnode_not. eapply nonnode_mono; [exact M4|]. eapply nonnode_mono; [exact M3|]. eapply nonnode_mono; [exact M2|]. eapply nonnode_mono; [exact M1|]. by apply Hs.
  - intros [] s5 E5. assert (M5 : mono s4 s5) by (eapply pres_run; [|exact E5]; destruct sem; pres). apply ndm_bind; [|intros; apply calm_ndm; calm].
    apply add_element_ndm, nonnode_not. eapply nonnode_mono; [exact M5|]. by eapply nonnode_mono.
Qed.
Lemma tuples_ndm n0 he ts s : (forall n d v sv, (n, d, v, Some sv) ∈ ts -> nonnode (heap s) sv) -> ndm n0 s (connect_tuples he ts).
Proof.
  revert s. induction ts as [|[[[n d] v] sv] ts IH]; intros s H; simpl; [apply calm_ndm; calm|]. apply ndm_bind.
  - apply unary_ndm. intros sv' ->. apply (H n d v). by left.
  - intros r s1 E1. apply IH. intros n' d' v' sv' Hin. eapply nonnode_mono; [eapply pres_run; [|exact E1]; pres|]. apply (H n' d' v'). by right.
Qed.
(** ** The loader *)
Lemma calmp_lift {A} (r : res A) : calmp (lift r). Proof. destruct r; [apply calmp_ret|apply calmp_raise]. Qed.
Lemma calmp_cached ns d : calmp (cached ns d). Proof. unfold cached. calm. Qed.
Lemma calmp_cache x d : calmp (cache_element x d). Proof. unfold cache_element. calm. Qed.
Lemma calmp_attr x k v : calmp (add_named_attribute x k v). Proof. unfold add_named_attribute. calm. Qed.
Global Hint Resolve calmp_lift calmp_cached calmp_cache calmp_attr : calm.
Create HintDb ndm.
Section loader.
  Context (fl : string -> option Qc) (rad : Qc) (n0 : nat).
  Notation all m := (forall s, ndm n0 s m).
  Lemma all_bind {A B} (m : M A) (k : A -> M B) : all m -> (forall a, all (k a)) -> all (bind m k).
  Proof. intros Hm Hk s. apply ndm_bind; [apply Hm|]. intros a s1 _. apply Hk. Qed.
  Ltac seq := first [apply calm_ndm; by calm | apply node_ndm | apply edge_ndm | apply value_ndm | apply sem_ndm | apply unary_ndm; done | solve [eauto with ndm] | apply ndm_bind; [|intros ? ? _] | progress cbv zeta | assumption
    | match goal with |- ndm _ _ (match ?x with _ => _ end) => destruct x | |- ndm _ _ (let '_ := ?x in _) => destruct x end].
  Lemma rigid_ndm el r d s : ndm n0 s (rigid_element fl rad el r d).
  Proof. unfold rigid_element. repeat seq. Qed.
  Lemma reference_ndm names cont ref d s : ndm n0 s (add_reference names cont ref d).
  Proof. unfold add_reference. repeat seq. Qed.
  Hint Resolve rigid_ndm reference_ndm : ndm.
  Lemma geometry_ndm names cont g d s : ndm n0 s (collect_geometries fl names cont g d).
  Proof. unfold collect_geometries. repeat seq. Qed.
  Lemma material_ndm m cont d s : ndm n0 s (collect_materials m cont d).
  Proof. unfold collect_materials. repeat seq. Qed.
  Hint Resolve geometry_ndm material_ndm : ndm.
  Lemma part_ndm path p d s : ndm n0 s (visit_part fl path p d).
  Proof. unfold visit_part. repeat seq. Qed.
  Lemma inertia_ndm path i d s : ndm n0 s (visit_inertia fl path i d).
  Proof. unfold visit_inertia. repeat seq. Qed.
  Hint Resolve part_ndm inertia_ndm : ndm.
  Lemma fold_ndm {A} (f : A -> loader -> M loader) l d s : Forall (fun x => forall d s, ndm n0 s (f x d)) l -> ndm n0 s (fold_m f l d).
  Proof. intros H. revert d s. induction H as [|x l Hx _ IH]; intros d s; simpl; [apply calm_ndm; calm|]. apply ndm_bind; [apply Hx|]. intros d' s1 _. apply IH. Qed.
  Lemma link_ndm path l d s : ndm n0 s (visit_link fl rad path l d).
  Proof. unfold visit_link. repeat seq. apply fold_ndm, Forall_forall. intros x _ d' s'. apply part_ndm. Qed.
  Lemma lookup_calm parent ref d : calmp (lookup_reference parent ref d).
  Proof. unfold lookup_reference. calm. Qed.
  Hint Resolve lookup_calm : calm.
  Lemma joint_relation_ndm parent edge r d s : ndm n0 s (joint_relation fl rad parent edge r d).
  Proof. unfold joint_relation. repeat seq. Qed.
  Hint Resolve joint_relation_ndm : ndm.
  Lemma joint_relations_ndm parent edge rs d s : ndm n0 s (joint_relations fl rad parent edge rs d).
  Proof. revert d s. induction rs as [|r rs IH]; intros d s; simpl; repeat seq. Qed.
  Lemma pres_lookup parent ref d : pres (lookup_reference parent ref d).
  Proof. unfold lookup_reference. pres. Qed.
  Lemma pres_lift {A} (r : res A) : pres (lift r). Proof. destruct r; [apply pres_ret|apply pres_raise]. Qed.
  Lemma pres_rigid el r d : pres (rigid_element fl rad el r d).
  Proof. unfold rigid_element, cache_element. pres; apply pres_lift. Qed.
  Hint Resolve pres_lookup pres_lift pres_rigid : pres.
  Lemma pres_joint_relation parent edge r d : pres (joint_relation fl rad parent edge r d).
  Proof. unfold joint_relation. pres. all: try apply pres_lift. Qed.
  Lemma pres_joint_relations parent edge rs d : pres (joint_relations fl rad parent edge rs d).
  Proof. revert d. pose proof pres_joint_relation. induction rs as [|r rs IH]; intros d; simpl; pres. Qed.
  Lemma joint_relation_sem parent edge r d s ep dir w sv d' s' : joint_relation fl rad parent edge r d s = (Ok (ep, dir, w, Some sv, d'), s') -> nonnode (heap s') sv.
  Proof.
    unfold joint_relation. intros E. apply bind_inv in E as (ep' & s1 & _ & E). apply bind_inv in E as (dr & s2 & _ & E). apply bind_inv in E as (sv' & s3 & E3 & E). apply sem_made in E3.
    apply bind_inv in E as ([] & s4 & E4 & E). assert (M4 : mono s3 s4). { eapply pres_run; [|exact E4]. destruct (jr_axis r); unfold add_named_attribute; pres; try apply pres_lift. }
    destruct (jr_rigid r) as [rg|].
    - apply bind_inv in E as ([[[tr t] q] d1] & s5 & E5 & E). apply ret_inv in E as [[= -> -> -> -> ->] ->]. eapply nonnode_mono; [eapply pres_run; [|exact E5]; apply pres_rigid|]. by eapply nonnode_mono.
    - apply ret_inv in E as [[= -> -> -> -> ->] ->]. by eapply nonnode_mono.
  Qed.
  Lemma joint_relations_sem parent edge rs d s ts d' s' : joint_relations fl rad parent edge rs d s = (Ok (ts, d'), s') -> forall n dr v sv, (n, dr, v, Some sv) ∈ ts -> nonnode (heap s') sv.
  Proof.
    revert d s ts d' s'. induction rs as [|r rs IH]; intros d s ts d' s' E; simpl in E.
    - apply ret_inv in E as [[= -> ->] ->]. intros n dr v sv H. by apply elem_of_nil in H.
    - apply bind_inv in E as ([[[[ep dir] w] sv0] d1] & s1 & E1 & E). apply bind_inv in E as ([ts1 d2] & s2 & E2 & E). apply ret_inv in E as [[= -> ->] ->]. cbn [fst snd] in *.
      intros n dr v sv H. apply elem_of_cons in H as [H|H]; [|by eapply IH].
      injection H as <- <- <- <-. eapply nonnode_mono; [eapply pres_run; [|exact E2]; apply pres_joint_relations|]. by eapply joint_relation_sem.
  Qed.
  Lemma joint_ndm path j d s : ndm n0 s (visit_joint fl rad path j d).
  Proof.
    unfold visit_joint. apply ndm_bind; [apply calm_ndm; calm|]. intros parent s1 _. apply ndm_bind; [apply joint_relations_ndm|]. intros [ts d'] s2 E2. apply ndm_bind; [|intros; apply calm_ndm; calm].
    unfold connect_tuple_nodes. cbn [fst]. apply ndm_bind; [apply edge_ndm|]. intros he s3 E3. apply ndm_bind; [|intros; apply calm_ndm; calm]. apply tuples_ndm. intros n dr v sv H.
    eapply nonnode_mono; [eapply pres_run; [|exact E3]; pres|]. by eapply joint_relations_sem.
  Qed.
  Hint Resolve joint_ndm link_ndm : ndm.
  Lemma enter_ndm path nm d s : ndm n0 s (enter_kinematic path nm d).
  Proof. unfold enter_kinematic. repeat seq. Qed.
  Lemma plain_ndm path nm d s : ndm n0 s (plain_node path nm d).
  Proof. unfold plain_node. repeat seq. Qed.
  Hint Resolve enter_ndm plain_ndm : ndm.
  Lemma kitem_ndm it path d s : ndm n0 s (visit_kitem fl rad path it d).
  Proof.
    revert path d s. induction it as [l|j|nm items IH|] using kitem_rect'; intros path d s; simpl; repeat seq. apply fold_ndm. eapply Forall_impl; [exact IH|]. intros x H d' s'. apply H.
  Qed.
  Lemma aitem_ndm it path d s : ndm n0 s (visit_aitem fl rad path it d).
  Proof.
    revert path d s. induction it as [nm|nm|nm items IH|nm items|] using aitem_rect'; intros path d s; [| | |exact (kitem_ndm (KiKin nm items) path d s)|]; simpl; repeat seq.
    apply fold_ndm. eapply Forall_impl; [exact IH|]. intros x H d' s'. apply H.
  Qed.
  Lemma eitem_ndm it path d s : ndm n0 s (visit_eitem fl rad path it d).
  Proof.
    destruct it as [j|nm items|nm items|ps|]; unfold visit_eitem; [apply joint_ndm|apply aitem_ndm|apply kitem_ndm| |repeat seq]. apply fold_ndm, Forall_forall. intros x _ d' s'. unfold visit_parameter. repeat seq.
  Qed.
  Lemma load_ndm icon c e s : ndm n0 s (load fl rad icon c e).
  Proof. unfold load, new_loader, visit_entity. repeat seq. apply fold_ndm, Forall_forall. intros x _ d' s'. apply eitem_ndm. Qed.
End loader.
