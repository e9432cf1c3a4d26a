(** * Loading: every operation of a load can be carried out

    A load gives everything it makes ids of its own: the date in an id is the time of a
    reading of the clock that no earlier id has. *)
From stdpp Require Import relations.
From Verif Require Import Spec Hierarchy Elements Factory History PDict PPath PExec PBfs PWF PAdd PMono PStep PRemove PReach PPrim PHist QHier QHier2 QHier3 QHier4 QHier5 QHier6 QFac SpecFac QFac2 CogniLang QCog QCog2 QCog3 QCog4 QConv SpecTensor SpecCogni.

Definition dtext (a : string) (t : Z) : string := a +:+ "." +:+ str_of_Z t.
Lemma dtext_time a t a' t' : dtext a t = dtext a' t' -> t = t'.
Proof. unfold dtext. intros H. apply last_dot in H as [_ H]; [|apply Z_no_dot..]. by apply (inj pretty) in H. Qed.
Lemma uid_dtext f nm t : uid_text f nm t = dtext (f +:+ "/" +:+ nm) t.
Proof. unfold uid_text, qualified_text, dtext. by rewrite !app_assoc_s. Qed.
Lemma port_dtext n e t : elem_id_text n (rel_name e n t) = dtext (n +:+ "/rel" +:+ e +:+ "." +:+ n) t.
Proof. unfold elem_id_text, rel_name, dtext. cbn [join]. by rewrite !app_assoc_s. Qed.

Definition dated (c : clockid) (s : st) (o : obj) : Prop := o_kind o <> KRel -> exists a k, k < tick s /\ o_uuid o = sha s (dtext a (clk s c k)).
Definition built (c : clockid) (o : obj) : Prop := (is_conceptual (o_kind o) = true -> o_clock o = Some c /\ o_ready o = true) /\ (o_kind o = KPort -> has_char dot (o_name o) = true).
(** A port leads to the relation that leads to the port's node. *)
Definition port_back (n0 : nat) (h : list obj) (o : obj) : Prop := exists r, o_endpoint o = Some r /\ n0 <= r /\ kind_of h r = Some KRel /\ ep_of h r = o_parent o.
Record dinv (n0 : nat) (c : clockid) (s : st) : Prop := {
  dv_sha : forall a b, sha s a = sha s b -> a = b;
  dv_clk : forall k k', clk s c k = clk s c k' -> k = k';
  dv_date : forall l o, n0 <= l -> heap s !! l = Some o -> dated c s o;
  dv_built : forall l o, n0 <= l -> heap s !! l = Some o -> built c o;
  dv_old : forall x p, x < n0 -> parent_of (heap s) x = Some p -> p < n0;
  dv_rel : forall r e, n0 <= r -> kind_of (heap s) r = Some KRel -> parent_of (heap s) r = Some e -> kind_of (heap s) e = Some KEdge;
  dv_len : n0 <= length (heap s);
  dv_tied : forall l o, n0 <= l -> heap s !! l = Some o -> o_parent o = None -> l < n0 + 3;
  dv_port : forall l o, n0 <= l -> heap s !! l = Some o -> o_kind o = KPort -> port_back n0 (heap s) o;
  dv_ep : forall r y, n0 <= r -> kind_of (heap s) r = Some KRel -> ep_of (heap s) r = Some y -> n0 <= y;
  dv_up : forall l p, n0 <= l -> parent_of (heap s) l = Some p -> kind_of (heap s) p <> Some KPort
}.
Lemma kind_exists' h l k : kind_of h l = Some k -> exists_in h l.
Proof. unfold kind_of. destruct (h !! l) eqn:E; [by eexists|done]. Qed.
Lemma dinv_step n0 c s s' : dinv n0 c s -> WF0 (heap s) -> kept (heap s) (heap s') -> mono s s' ->
  (forall l, exists_in (heap s) l -> l < n0 \/ kind_of (heap s) l = Some KRel \/ kind_of (heap s) l = Some KPort -> parent_of (heap s') l = parent_of (heap s) l) ->
  (forall l, exists_in (heap s) l -> parent_of (heap s') l = None -> parent_of (heap s) l = None) ->
  (forall l p, n0 <= l -> exists_in (heap s) l -> parent_of (heap s') l = Some p -> parent_of (heap s) l = Some p \/ kind_of (heap s') p <> Some KPort) ->
  (forall l o, length (heap s) <= l -> heap s' !! l = Some o -> dated c s' o /\ built c o /\ (o_kind o = KRel -> forall e, o_parent o = Some e -> kind_of (heap s') e = Some KEdge) /\
    (o_parent o = None -> l < n0 + 3) /\ (o_kind o = KPort -> port_back n0 (heap s') o) /\ (o_kind o = KRel -> forall y, o_endpoint o = Some y -> n0 <= y) /\ (forall p, o_parent o = Some p -> kind_of (heap s') p <> Some KPort)) ->
  dinv n0 c s'.
Proof.
  intros [D1 D2 D3 D4 D5 D6 D7 D8 D9 D10 D11] W K Mn U T0 Up Nw.
  assert (B : forall l o', heap s' !! l = Some o' -> l < length (heap s) -> exists o, heap s !! l = Some o /\ ident_part o' = ident_part o).
  { intros l o' H Hl. apply lookup_lt_is_Some in Hl as [o Ho]. exists o. split; [done|]. specialize (K l o Ho). rewrite H in K. cbn [fmap option_fmap option_map] in K. by apply (inj Some) in K. }
  split.
  - rewrite (m_sha _ _ Mn). done.
  - rewrite (m_clk _ _ Mn). done.
  - intros l o' Hl H. destruct (decide (l < length (heap s))) as [Hlt|Hlt]; [|apply (Nw l); [lia|done]].
    destruct (B l o' H Hlt) as (o & Ho & Hi). intros Hk. destruct (D3 l o Hl Ho) as (a & k & H1 & H2).
    { change (o_kind o) with (o_kind (ident_part o)). by rewrite <- Hi. }
    exists a, k. rewrite (m_sha _ _ Mn), (m_clk _ _ Mn). split; [pose proof (m_tick _ _ Mn); lia|]. change (o_uuid o') with (o_uuid (ident_part o')). by rewrite Hi.
  - intros l o' Hl H. destruct (decide (l < length (heap s))) as [Hlt|Hlt]; [|apply (Nw l); [lia|done]].
    destruct (B l o' H Hlt) as (o & Ho & Hi). pose proof (D4 l o Hl Ho) as X.
    unfold built. change (o_clock o') with (o_clock (ident_part o')). change (o_ready o') with (o_ready (ident_part o')). change (o_name o') with (o_name (ident_part o')). change (o_kind o') with (o_kind (ident_part o')).
    rewrite Hi. exact X.
  - intros x p Hx Hp. rewrite U in Hp; [by apply (D5 x)|apply exists_in_lt; lia|by left].
  - intros r e Hr Hk Hp. destruct (decide (r < length (heap s))) as [Hlt|Hlt].
    + assert (He : exists_in (heap s) r) by (by apply exists_in_lt). rewrite (kept_kind _ _ _ K He) in Hk. rewrite U in Hp by (first [done|by right; left]).
      assert (Hee : exists_in (heap s) e) by (by eapply wf0_parent_exists). rewrite (kept_kind _ _ _ K Hee). by apply (D6 r).
    + unfold kind_of, parent_of in Hk, Hp. destruct (heap s' !! r) as [o|] eqn:Ho; [|done]. apply (Nw r o); [lia|done|cbn in Hk; congruence|done].
  - pose proof (m_len _ _ Mn). lia.
  - intros l o' Hl H Hp. destruct (decide (l < length (heap s))) as [Hlt|Hlt]; [|by apply (Nw l o'); [lia|done|done]].
    destruct (B l o' H Hlt) as (o & Ho & _). apply (D8 l o Hl Ho). assert (Hn : parent_of (heap s) l = None). { apply T0; [by eexists|]. unfold parent_of. rewrite H. done. } unfold parent_of in Hn. rewrite Ho in Hn. exact Hn.
  - intros l o' Hl H Hk. destruct (decide (l < length (heap s))) as [Hlt|Hlt]; [|by apply (Nw l o'); [lia|done|done]].
    destruct (B l o' H Hlt) as (o & Ho & Hi). assert (Hk0 : o_kind o = KPort) by (change (o_kind o) with (o_kind (ident_part o)); by rewrite <- Hi).
    destruct (D9 l o Hl Ho Hk0) as (r & R1 & R2 & R3 & R4). pose proof (kind_exists' _ _ _ R3) as Hre. exists r. split; [change (o_endpoint o') with (o_endpoint (ident_part o')); by rewrite Hi|]. split; [done|].
    split; [by rewrite (kept_kind _ _ _ K Hre)|].
    assert (Hpp : parent_of (heap s') l = parent_of (heap s) l). { apply U; [by eexists|]. right; right. unfold kind_of. rewrite Ho. cbn. by rewrite Hk0. }
    unfold parent_of in Hpp. rewrite H, Ho in Hpp. cbn in Hpp. rewrite Hpp, <- R4. destruct Hre as [orr Hor]. unfold ep_of. specialize (K r orr Hor). destruct (heap s' !! r) as [o2|]; [|done]. rewrite Hor. cbn [fmap option_fmap option_map] in K. apply (inj Some) in K.
    cbn. change (o_endpoint o2) with (o_endpoint (ident_part o2)). by rewrite K.
  - intros r y Hr Hk He. unfold kind_of in Hk. unfold ep_of in He. destruct (heap s' !! r) as [o'|] eqn:H; [|done]. cbn in Hk, He. injection Hk as Hk.
    destruct (decide (r < length (heap s))) as [Hlt|Hlt]; [|by apply (Nw r o'); [lia|done|done|done]].
    destruct (B r o' H Hlt) as (o & Ho & Hi). apply (D10 r y Hr); [unfold kind_of|unfold ep_of]; rewrite Ho; cbn.
    + change (o_kind o) with (o_kind (ident_part o)). rewrite <- Hi. by rewrite <- Hk.
    + change (o_endpoint o) with (o_endpoint (ident_part o)). by rewrite <- Hi.
  - intros l p Hl Hp. destruct (decide (l < length (heap s))) as [Hlt|Hlt].
    + destruct (Up l p Hl ltac:(by apply exists_in_lt) Hp) as [Hp0|Hp0]; [|done]. rewrite (kept_kind _ _ _ K) by (by eapply wf0_parent_exists). by apply (D11 l).
    + unfold parent_of in Hp. destruct (heap s' !! l) as [o|] eqn:Ho; [|done]. by apply (Nw l o); [lia|done|].
Qed.
(** No sub-element of a new node has an id of a later date. *)
Lemma dinv_fresh n0 c s p a k x : dinv n0 c s -> WF0 (heap s) -> n0 <= p -> kind_of (heap s) p <> Some KEdge -> tick s <= k -> x ∈ children (heap s) p -> uuid_of (heap s) x <> sha s (dtext a (clk s c k)).
Proof.
  intros D W Hp Hk Ht Hx E. destruct (wf0_child _ W p x Hx) as [[o Ho] Hpar].
  assert (Hn : n0 <= x). { destruct (decide (x < n0)) as [Hl|]; [|lia]. pose proof (dv_old _ _ _ D x p Hl Hpar). lia. }
  assert (Hkx : o_kind o <> KRel). { intros Hr. apply Hk, (dv_rel _ _ _ D x); [done| |done]. unfold kind_of. rewrite Ho. cbn. by rewrite Hr. }
  destruct (dv_date _ _ _ D x o Hn Ho Hkx) as (a' & k' & Hk' & E'). unfold uuid_of in E. rewrite Ho in E. cbn in E. rewrite E' in E.
  apply (dv_sha _ _ _ D), dtext_time, (dv_clk _ _ _ D) in E. lia.
Qed.
(** A state in which some more readings of the clock have been taken. *)
Lemma dinv_grown n0 c s s' p x oc : dinv n0 c s -> WF0 (heap s) -> grown (heap s) (heap s') p x oc -> mono s s' -> dated c s' oc -> built c oc -> o_kind oc <> KRel -> o_kind oc <> KPort -> (exists k, kind_of (heap s) p = Some k /\ k <> KPort) -> dinv n0 c s'.
Proof.
  intros D W G Mn H1 H2 H3 H4 H5. eapply dinv_step; [exact D|exact W|apply G|exact Mn|intros; by apply G|intros l Hl; by rewrite (gr_unmoved _ _ _ _ _ G l Hl)|intros l q _ Hl; rewrite (gr_unmoved _ _ _ _ _ G l Hl); by left|].
  intros l o Hl Ho. assert (l = x) as ->. { apply lookup_lt_Some in Ho. rewrite (gr_len _ _ _ _ _ G) in Ho. rewrite (gr_new _ _ _ _ _ G). lia. }
  destruct (gr_fresh _ _ _ _ _ G) as (_ & Fp & _ & F). rewrite Ho in F. cbn [fmap option_fmap option_map] in F. apply (inj Some) in F.
  assert (E1 : o_kind o = o_kind oc) by (change (o_kind o) with (o_kind (fixed_part o)); by rewrite F).
  assert (E2 : o_uuid o = o_uuid oc) by (change (o_uuid o) with (o_uuid (fixed_part o)); by rewrite F).
  assert (E3 : o_clock o = o_clock oc) by (change (o_clock o) with (o_clock (fixed_part o)); by rewrite F).
  assert (E4 : o_ready o = o_ready oc) by (change (o_ready o) with (o_ready (fixed_part o)); by rewrite F).
  assert (E5 : o_name o = o_name oc) by (change (o_name o) with (o_name (fixed_part o)); by rewrite F).
  unfold dated, built. rewrite E1, E2, E3, E4, E5. split; [exact H1|]. split; [exact H2|]. split; [intros Hx; congruence|]. unfold parent_of in Fp. rewrite Ho in Fp. cbn in Fp. split; [intros Hx; congruence|]. split; [intros Hx; congruence|]. split; [intros Hx; congruence|].
  intros q Hq. assert (q = p) as -> by congruence. destruct H5 as (k & Hk & Hk'). rewrite (kept_kind _ _ _ (gr_kept _ _ _ _ _ G)); [congruence|by eapply kind_exists'].
Qed.

(** ** The operations *)
Lemma node_go n0 c s f nm p : dinv n0 c s -> WF0 (heap s) -> f_clock f = c -> n0 <= p -> kind_of (heap s) p = Some KNode ->
  exists x s', generate_node f nm (Some p) s = (Ok x, s') /\ dinv n0 c s'.
Proof.
  intros D W Hf Hp Hk. unfold kind_of in Hk. destruct (heap s !! p) as [op|] eqn:Hop; [|done]. cbn in Hk. injection Hk as Hk.
  assert (Hpk : kind_of (heap s) p <> Some KEdge) by (unfold kind_of; rewrite Hop; cbn; congruence).
  destruct (gen_node_cases s f nm p op W Hop ltac:(congruence)) as [[(x & Hx & E) _]|(_ & s' & prog & E & G & Mn & _)].
  { exfalso. rewrite uid_dtext, Hf in E. by eapply (dinv_fresh n0 c s p _ (tick s) x). }
  exists (length (heap s)), s'. split; [exact E|].
  assert (Ht : S (S (tick s)) <= tick s').
  { pose proof (gen_node_eq f nm p op s Hop) as Eq. cbv zeta in Eq. rewrite E in Eq. symmetry in Eq. apply (pres_run _ _ _ _ (pres_new_conceptual _ _ _ _ _ _)) in Eq. apply (m_tick _ _ Eq). }
  eapply dinv_grown; [exact D|exact W|exact G|exact Mn| |split; [intros _; cbn; by rewrite Hf|done]|done|done|exists KNode; unfold kind_of; rewrite Hop; cbn; by rewrite Hk]. intros _. eexists _, (tick s). split; [lia|]. cbn [o_uuid con_obj s_clock blank].
  rewrite uid_dtext, Hf, (m_sha _ _ Mn), (m_clk _ _ Mn). reflexivity.
Qed.
Lemma root_go n0 c s f nm : dinv n0 c s -> length (heap s) < n0 + 3 -> f_clock f = c -> WF0 (heap s) -> exists x s', generate_node f nm None s = (Ok x, s') /\ dinv n0 c s'.
Proof.
  intros D Hlen Hf W. rewrite gen_root_eq. unfold new_conceptual. set (s1 := set_tick (S (S (tick s))) s).
  rewrite (bind_ok (now (f_clock f)) _ s1 (clk s1 (f_clock f) (tick s1)) (set_tick (S (tick s1)) s1)) by done.
  set (o := s_ready _ _). rewrite (bind_ok _ _ _ _ _ (alloc_state _ o)). set (s2 := set_tick (S (tick s1)) s1).
  change (heap s2) with (heap s). rewrite (bind_ok (ret tt) _ _ tt (set_heap (heap s ++ [o]) s2)) by done.
  assert (Ho : heap (set_heap (heap s ++ [o]) s2) !! length (heap s) = Some o) by (simpl; by rewrite lookup_app_r, Nat.sub_diag by lia).
  rewrite (bind_ok _ _ _ _ _ (upd_ok _ (s_ready true) _ o Ho)). eexists _, _. split; [reflexivity|]. set (s3 := set_heap _ _).
  assert (Hold : forall l, exists_in (heap s) l -> heap s3 !! l = heap s !! l).
  { intros l Hl'. apply exists_in_lt in Hl'. cbn [heap set_heap s3]. rewrite list_lookup_alter_ne by lia. by rewrite lookup_app_l. }
  assert (Mn : mono s s3).
  { assert (Eq : generate_node f nm None s = (Ok (length (heap s)), s3)). { rewrite gen_root_eq. unfold new_conceptual. fold s1.
      rewrite (bind_ok (now (f_clock f)) _ s1 (clk s1 (f_clock f) (tick s1)) (set_tick (S (tick s1)) s1)) by done. fold o. rewrite (bind_ok _ _ _ _ _ (alloc_state _ o)). fold s2. change (heap s2) with (heap s).
      rewrite (bind_ok (ret tt) _ _ tt (set_heap (heap s ++ [o]) s2)) by done. rewrite (bind_ok _ _ _ _ _ (upd_ok _ (s_ready true) _ o Ho)). reflexivity. }
    eapply pres_run; [|exact Eq]. pres. }
  eapply dinv_step; [exact D|exact W| |exact Mn| | | |].
  - intros l ol Hol. rewrite Hold by (by eexists). by rewrite Hol.
  - intros l Hl _. unfold parent_of. by rewrite Hold.
  - intros l Hl. unfold parent_of. by rewrite Hold.
  - intros l q _ Hl. unfold parent_of. rewrite Hold by done. by left.
  - intros l o' Hl Ho'. assert (l = length (heap s)) as ->. { apply lookup_lt_Some in Ho'. cbn [heap set_heap s3] in Ho'. rewrite alter_length, app_length in Ho'. cbn in Ho'. lia. }
    cbn [heap set_heap s3] in Ho'. rewrite list_lookup_alter in Ho'. rewrite lookup_app_r, Nat.sub_diag in Ho' by lia. injection Ho' as <-. split; [|split; [|split; [done|]; split; [done|]; split; [done|]; split; [done|done]]].
    + intros _. eexists _, (tick s). split; [cbn; lia|]. cbn [o o_uuid s_ready s_time s_clock blank]. rewrite uid_dtext, Hf. reflexivity.
    + split; [|done]. intros _. cbn. by rewrite Hf.
Qed.
Lemma edge_go n0 c s f nm p : dinv n0 c s -> WF0 (heap s) -> f_clock f = c -> n0 <= p -> kind_of (heap s) p = Some KNode ->
  exists x s', create_hyperedge f p nm s = (Ok x, s') /\ dinv n0 c s' /\ children (heap s') x = [] /\
    (exists o, heap s' !! x = Some o /\ o_kind o = KEdge /\ o_name o = nm /\ o_clock o = Some c /\ o_ready o = true).
Proof.
  intros D W Hf Hp Hk. unfold kind_of in Hk. destruct (heap s !! p) as [op|] eqn:Hop; [|done]. cbn in Hk. injection Hk as Hk.
  assert (Hpk : kind_of (heap s) p <> Some KEdge) by (unfold kind_of; rewrite Hop; cbn; congruence).
  destruct (proj1 (dv_built _ _ _ D p op Hp Hop) ltac:(by rewrite Hk)) as [Hc _].
  destruct (hyperedge_cases s f p nm op W Hop) as [[Hx _]|[_ [[(x & Hx & E) _]|(_ & c' & s' & prog & Hc' & E & G & Mn)]]].
  { by rewrite Hk in Hx. } { exfalso. rewrite uid_dtext, Hf in E. by eapply (dinv_fresh n0 c s p _ (tick s) x). }
  assert (c' = c) as -> by congruence. exists (length (heap s)), s'. split; [exact E|].
  assert (Ht : S (S (tick s)) <= tick s').
  { rewrite (hyperedge_eq f p nm op s Hop ltac:(by rewrite Hk)) in E. apply (pres_run _ _ _ _ (pres_new_conceptual _ _ _ _ _ _)) in E. apply (m_tick _ _ E). }
  split; [|split; [apply G|]].
  - eapply dinv_grown; [exact D|exact W|exact G|exact Mn| |done|done|done|exists KNode; unfold kind_of; rewrite Hop; cbn; by rewrite Hk]. intros _. eexists _, (tick s). split; [lia|]. cbn [o_uuid con_obj s_clock blank].
    rewrite uid_dtext, Hf, (m_sha _ _ Mn), (m_clk _ _ Mn). reflexivity.
  - destruct (gr_fresh _ _ _ _ _ G) as (_ & _ & _ & F). destruct (heap s' !! length (heap s)) as [o|] eqn:Ho; [|done]. cbn [fmap option_fmap option_map] in F. apply (inj Some) in F. exists o. split; [done|].
    change (o_kind o) with (o_kind (fixed_part o)). change (o_name o) with (o_name (fixed_part o)). change (o_clock o) with (o_clock (fixed_part o)). change (o_ready o) with (o_ready (fixed_part o)). rewrite F. done.
Qed.
(** A value or a semantic value. *)
Lemma leaf_go n0 c s p o : dinv n0 c s -> WF0 (heap s) -> n0 <= p -> kind_of (heap s) p <> Some KEdge -> kind_of (heap s) p <> Some KPort -> exists_in (heap s) p ->
  o_parent o = None -> o_subs o = [] -> o_index o = [] -> o_cnt o = 0%Z -> o_rels o = [] -> is_conceptual (o_kind o) = false -> o_kind o <> KRel -> o_kind o <> KPort -> o_endpoint o = None ->
  (exists a k, tick s <= k /\ o_uuid o = sha s (dtext a (clk s c k)) /\ forall s', S (S (tick s)) <= tick s' -> k < tick s') ->
  exists s', (forall B (k : loc -> M B), bind (alloc o) (fun l => bind (add_element p l) (fun _ => k l)) (set_tick (S (S (tick s))) s) = k (length (heap s)) s') /\ dinv n0 c s' /\ exists_in (heap s') (length (heap s)).
Proof.
  intros D W Hp Hk Hkp [op Hop] H1 H2 H3 H4 H5 Hc Hr Hpo He (a & k & Hk1 & Hu & Hk2). set (s1 := set_tick (S (S (tick s))) s).
  assert (Hh : is_hyperelement (o_kind o) = false) by (by destruct (o_kind o)).
  destruct (add_fresh_grown s1 p o op W Hop H1 H2 H3 H4 H5) as (s' & E & G & Mn & _).
  { intros Hx. congruence. } { intros e Hx. congruence. } { intros Hx. congruence. }
  { intros x Hx. rewrite Hu. by apply (dinv_fresh n0 c s p a k x). } { intros [_ Hx]. congruence. } { intros (_ & Hx & _). congruence. }
  exists s'. split; [|split].
  - intros B kk. rewrite (bind_ok _ _ _ _ _ (alloc_state s1 o)). by rewrite (bind_ok _ _ _ _ _ E).
  - assert (Mn' : mono s s').
    { assert (M0 : mono s s1) by exact (mono_ticks (mkFactory "" c) s). eapply mono_trans; [exact M0|]. assert (Eq : bind (alloc o) (fun l => add_element p l) s1 = (Ok tt, s')) by (by rewrite (bind_ok _ _ _ _ _ (alloc_state s1 o))).
      eapply pres_run; [|exact Eq]. pres; done. }
    eapply dinv_grown; [exact D|exact W|exact G|exact Mn'| |split; intros Hx; congruence|done|done|exists (o_kind op); unfold kind_of in Hkp |- *; rewrite Hop in Hkp |- *; cbn in Hkp |- *; split; [done|congruence]].
    intros _. exists a, k. split; [|by rewrite (m_sha _ _ Mn'), (m_clk _ _ Mn')]. apply Hk2. apply (m_tick _ _ Mn).
  - apply exists_in_lt. rewrite (gr_len _ _ _ _ _ G). cbn [heap set_tick s1]. lia.
Qed.
Lemma value_go n0 c s f p nm vs : dinv n0 c s -> WF0 (heap s) -> f_clock f = c -> n0 <= p -> kind_of (heap s) p = Some KNode ->
  exists x s', create_value f (Some p) nm vs s = (Ok x, s') /\ dinv n0 c s'.
Proof.
  intros D W Hf Hp Hk. unfold kind_of in Hk. destruct (heap s !! p) as [op|] eqn:Hop; [|done]. cbn in Hk. injection Hk as Hk. rewrite (value_eq f p nm vs op s Hop).
  destruct (leaf_go n0 c s p (s_dim (length (default [] vs)) (s_vals (default [] vs)
     (blank KValue (sha s (uid_text (f_name f) nm (clk s (f_clock f) (tick s)))) nm
        (join "/" [o_qname op; nm] +:+ "." +:+ str_of_Z (clk s (f_clock f) (S (tick s)))))))) as (s' & E & D' & _); try done.
  { unfold kind_of. rewrite Hop. cbn. congruence. } { unfold kind_of. rewrite Hop. cbn. congruence. } { by eexists. }
  { eexists _, (tick s). split; [done|]. split; [cbn [o_uuid s_dim s_vals blank]; rewrite uid_dtext, Hf; reflexivity|]. intros. lia. }
  exists (length (heap s)), s'. split; [|done]. rewrite (E _ (fun v => ret v)). done.
Qed.
Lemma attr_go n0 c s x k v : dinv n0 c s -> exists_in (heap s) x -> exists s', add_named_attribute x k v s = (Ok tt, s') /\ dinv n0 c s'.
Proof.
  intros D [o Ho]. unfold add_named_attribute, upd. rewrite Ho. eexists. split; [reflexivity|]. destruct D as [D1 D2 D3 D4 D5 D6 D7 D8 D9 D10 D11].
  assert (B : forall l o', alter (fun o => s_attr (dset k v (o_attr o)) o) x (heap s) !! l = Some o' -> exists o0, heap s !! l = Some o0 /\ o_kind o' = o_kind o0 /\ o_uuid o' = o_uuid o0 /\ o_clock o' = o_clock o0 /\ o_ready o' = o_ready o0 /\ o_name o' = o_name o0 /\ o_parent o' = o_parent o0 /\ o_endpoint o' = o_endpoint o0).
  { intros l o' H. destruct (decide (x = l)) as [->|Hl]; [rewrite list_lookup_alter, Ho in H; injection H as <-; by exists o|]. rewrite list_lookup_alter_ne in H by done. by exists o'. }
  assert (P : forall l, parent_of (alter (fun o => s_attr (dset k v (o_attr o)) o) x (heap s)) l = parent_of (heap s) l).
  { intros l. unfold parent_of. destruct (decide (x = l)) as [->|Hl]; [rewrite list_lookup_alter, Ho; done|by rewrite list_lookup_alter_ne]. }
  assert (Kd : forall l, kind_of (alter (fun o => s_attr (dset k v (o_attr o)) o) x (heap s)) l = kind_of (heap s) l).
  { intros l. unfold kind_of. destruct (decide (x = l)) as [->|Hl]; [rewrite list_lookup_alter, Ho; done|by rewrite list_lookup_alter_ne]. }
  split; cbn [heap set_heap sha clk tick]; try done.
  - intros l o' Hl H. destruct (B l o' H) as (o0 & H0 & E1 & E2 & E3 & E4 & E5 & E6 & E7). unfold dated. rewrite E1, E2. apply (D3 l o0 Hl H0).
  - intros l o' Hl H. destruct (B l o' H) as (o0 & H0 & E1 & E2 & E3 & E4 & E5 & E6 & E7). unfold built. rewrite E1, E3, E4, E5. apply (D4 l o0 Hl H0).
  - intros y p Hy. rewrite P. by apply D5.
  - intros r e. rewrite P, !Kd. by apply D6.
  - by rewrite alter_length.
  - intros l o' Hl H Hp. destruct (B l o' H) as (o0 & H0 & E1 & E2 & E3 & E4 & E5 & E6 & E7). apply (D8 l o0 Hl H0). congruence.
  - intros l o' Hl H Hk. destruct (B l o' H) as (o0 & H0 & E1 & E2 & E3 & E4 & E5 & E6 & E7). destruct (D9 l o0 Hl H0 ltac:(congruence)) as (r & R1 & R2 & R3 & R4). exists r. rewrite E6, E7, Kd. split; [done|]. split; [done|]. split; [done|].
    rewrite <- R4. unfold ep_of. destruct (decide (x = r)) as [->|Hx]; [rewrite list_lookup_alter, Ho; done|by rewrite list_lookup_alter_ne].
  - intros r y Hr. rewrite Kd. intros Hk He. apply (D10 r y Hr Hk). rewrite <- He. unfold ep_of. destruct (decide (x = r)) as [->|Hx]; [rewrite list_lookup_alter, Ho; done|by rewrite list_lookup_alter_ne].
  - intros l p. rewrite P, Kd. by apply D11.
Qed.
Lemma sem_go n0 c s f raw nm p attr vs cl : dinv n0 c s -> WF0 (heap s) -> f_clock f = c -> n0 <= p -> kind_of (heap s) p <> Some KEdge -> kind_of (heap s) p <> Some KPort -> exists_in (heap s) p -> attr <> [] ->
  type_class (norm_type raw) = Some cl ->
  exists x s', generate_semantic_element f raw nm p attr vs s = (Ok x, s') /\ dinv n0 c s'.
Proof.
  intros D W Hf Hp Hk Hkp He Ha Hc. pose proof He as [op Hop].
  destruct (leaf_go n0 c s p (s_attr attr (blank (KSem cl) (sha s (uid_text (f_name f) nm (clk s (f_clock f) (tick s)))) nm
        (join "/" [o_qname op; nm] +:+ "." +:+ str_of_Z (clk s (f_clock f) (S (tick s))))))) as (s' & E & D' & He'); try done.
  { eexists _, (tick s). split; [done|]. split; [cbn [o_uuid s_attr blank]; rewrite uid_dtext, Hf; reflexivity|]. intros. lia. }
  assert (E0 : generate_semantic_element f raw nm p attr None s = (Ok (length (heap s)), s')).
  { rewrite (sem_eq f raw nm p attr None cl op s Hop Ha Hc). by rewrite (E _ (fun el => bind (ret tt) (fun _ => ret el))). }
  destruct vs as [v|]; [|by exists (length (heap s)), s'].
  destruct (attr_go n0 c s' (length (heap s)) "values" v D' He') as (s'' & E1 & D'').
  exists (length (heap s)), s''. split; [|done]. rewrite (sem_eq f raw nm p attr (Some v) cl op s Hop Ha Hc). rewrite (E _ (fun el => bind (add_named_attribute el "values" v) (fun _ => ret el))).
  by rewrite (bind_ok _ _ _ _ _ E1).
Qed.
