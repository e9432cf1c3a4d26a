(** * Conversion: the uuids of what a description makes *)
From stdpp Require Import relations.
From Verif Require Import Spec Hierarchy Elements Factory History PDict PPath PExec PMono PWF PReach QFac CogniLang QCog3 QCog8 QConv QNew.

(** New nodes and edges have uuids of their own; a new relation in an edge leads to a
    node or an edge, and its uuid is the hash of the two names. *)
Definition hyper_at (h : list obj) (l : loc) (o : obj) : Prop := h !! l = Some o /\ is_hyperelement (o_kind o) = true.
Record stamped (n0 : nat) (c : clockid) (s : st) : Prop := {
  sp_sha : forall a b, sha s a = sha s b -> a = b;
  sp_clk : forall k k', clk s c k = clk s c k' -> k = k';
  sp_stamp : forall l o, n0 <= l -> hyper_at (heap s) l o -> exists f nm k, k < tick s /\ o_uuid o = sha s (uid_text f nm (clk s c k));
  sp_uniq : forall l l' o o', n0 <= l -> n0 <= l' -> hyper_at (heap s) l o -> hyper_at (heap s) l' o' -> o_uuid o = o_uuid o' -> l = l';
  sp_rel : forall r o e n, n0 <= r -> heap s !! r = Some o -> o_kind o = KRel -> o_parent o = Some e -> o_endpoint o = Some n ->
    n0 <= n /\ exists on oe, hyper_at (heap s) n on /\ heap s !! e = Some oe /\ o_uuid o = sha s (elem_id_text (o_name oe) (o_name on));
  sp_idx : newidx n0 (heap s);
  sp_len : n0 <= length (heap s)
}.
Definition jm {A} (n0 : nat) (c : clockid) (s : st) (m : M A) (Q : A -> Prop) : Prop :=
  stamped n0 c s -> stamped n0 c (snd (m s)) /\ forall a, fst (m s) = Ok a -> Q a.
Definition any {A} (_ : A) : Prop := True.

Lemma jm_bind {A B} n0 c s (m : M A) (k : A -> M B) P Q : jm n0 c s m P -> (forall a s1, m s = (Ok a, s1) -> P a -> jm n0 c s1 (k a) Q) -> jm n0 c s (bind m k) Q.
Proof.
  intros Hm Hk J. destruct (Hm J) as [J1 HP]. unfold bind. destruct (m s) as [[a|e] s1] eqn:E; cbn [fst snd] in *; [|by split]. apply (Hk a s1); [done|by apply HP|done].
Qed.
Lemma jm_weak {A} n0 c s (m : M A) (P Q : A -> Prop) : (forall a, P a -> Q a) -> jm n0 c s m P -> jm n0 c s m Q.
Proof. intros H Hm J. destruct (Hm J) as [J1 HP]. split; [done|]. intros a Ha. by apply H, HP. Qed.
Lemma jm_any {A} n0 c s (m : M A) P : jm n0 c s m P -> jm n0 c s m any.
Proof. apply jm_weak. done. Qed.
Lemma jm_run {A} n0 c s (m : M A) Q r s' : jm n0 c s m Q -> m s = (r, s') -> stamped n0 c s -> stamped n0 c s'.
Proof. intros H E J. destruct (H J) as [J1 _]. by rewrite E in J1. Qed.
Lemma jm_ret {A} n0 c s (a : A) (Q : A -> Prop) : Q a -> jm n0 c s (ret a) Q.
Proof. intros H J. split; [done|]. intros a' [= <-]. done. Qed.
Lemma jm_raise {A} n0 c s e (Q : A -> Prop) : jm n0 c s (raise e) Q.
Proof. intros J. split; [done|]. intros a' [=]. Qed.

(** ** Steps *)
Lemma hyper_back s s' l o : mono s s' -> hyper_at (heap s) l o -> exists o', hyper_at (heap s') l o' /\ o_name o' = o_name o /\ o_uuid o' = o_uuid o.
Proof. intros Mn [H K]. destruct (m_obj _ _ Mn l o H) as (o' & H' & X). exists o'. split; [split; [done|by rewrite (om_kind _ _ _ _ X)]|]. split; [apply X|apply X]. Qed.
Lemma calm_stamped n0 c s s' : calm (heap s) (heap s') -> mono s s' -> (newidx n0 (heap s) -> newidx n0 (heap s')) -> stamped n0 c s -> stamped n0 c s'.
Proof.
  intros C Mn NI [J1 J2 J3 J4 J5 J6 J7].
  assert (B : forall l o', heap s' !! l = Some o' -> exists o, heap s !! l = Some o /\ obj_mono s s' o o' /\ (o_parent o' = o_parent o \/ o_parent o' = None)).
  { intros l o' H. specialize (C l). rewrite H in C. destruct (heap s !! l) as [o|] eqn:E; [|done]. exists o. split; [done|]. destruct (m_obj _ _ Mn l o E) as (o2 & H2 & X). rewrite H in H2. injection H2 as <-. split; [done|]. apply C. }
  assert (BH : forall l o', hyper_at (heap s') l o' -> exists o, hyper_at (heap s) l o /\ o_uuid o' = o_uuid o).
  { intros l o' [H K]. destruct (B l o' H) as (o & Ho & X & _). exists o. split; [split; [done|by rewrite <- (om_kind _ _ _ _ X)]|apply X]. }
  split.
  - rewrite (m_sha _ _ Mn). done.
  - rewrite (m_clk _ _ Mn). done.
  - intros l o' Hl H. apply BH in H as (o & H & ->). destruct (J3 l o Hl H) as (f & nm & k & Hk & E). exists f, nm, k. rewrite (m_sha _ _ Mn), (m_clk _ _ Mn). split; [|done]. pose proof (m_tick _ _ Mn). lia.
  - intros l l' o o' Hl Hl' H H' E. apply BH in H as (o1 & H & E1). apply BH in H' as (o2 & H' & E2). apply (J4 l l' o1 o2); try done. congruence.
  - intros r o' e n Hr H Hk Hp Hn. destruct (B r o' H) as (o & Ho & X & [Hpp|Hpp]); [|congruence]. assert (Hk' : o_kind o = KRel) by (rewrite <- (om_kind _ _ _ _ X); done).
    assert (Hn' : o_endpoint o = Some n) by (destruct (om_ep _ _ _ _ X); congruence). destruct (J5 r o e n Hr Ho Hk' ltac:(congruence) Hn') as (Hnn & on & oe & Hh & He & E). split; [done|].
    destruct (hyper_back _ _ _ _ Mn Hh) as (on' & Hh' & En & _). destruct (m_obj _ _ Mn e oe He) as (oe' & He' & Xe). exists on', oe'. split; [done|]. split; [done|].
    rewrite (om_uuid _ _ _ _ X), E, (m_sha _ _ Mn), En, (om_name _ _ _ _ Xe). done.
  - by apply NI.
  - pose proof (m_len _ _ Mn). lia.
Qed.
Lemma calm_jm {A} n0 c s (m : M A) : calmp m -> pres m -> idxp n0 m -> jm n0 c s m any.
Proof. intros C P I J. split; [|done]. apply (calm_stamped n0 c s); [apply C|apply P|apply I|done]. Qed.
Lemma calm_jm' {A} n0 c s (m : M A) (Q : A -> Prop) : calmp m -> pres m -> idxp n0 m -> (forall a, fst (m s) = Ok a -> Q a) -> jm n0 c s m Q.
Proof. intros C P I H J. split; [|done]. apply (calm_stamped n0 c s); [apply C|apply P|apply I|done]. Qed.
(** A new object. *)
Lemma alloc_stamped n0 c s o : o_parent o = None -> o_index o = [] -> (is_hyperelement (o_kind o) = true -> exists f nm k, k < tick s /\ o_uuid o = sha s (uid_text f nm (clk s c k)) /\
    (forall l o', n0 <= l -> hyper_at (heap s) l o' -> o_uuid o' <> o_uuid o)) -> stamped n0 c s -> stamped n0 c (set_heap (heap s ++ [o]) s).
Proof.
  intros Hp Hi Hh [J1 J2 J3 J4 J5 J6 J7].
  assert (B : forall l o', hyper_at (heap s ++ [o]) l o' -> hyper_at (heap s) l o' \/ (l = length (heap s) /\ o' = o /\ is_hyperelement (o_kind o) = true)).
  { intros l o' [H K]. apply lookup_app_Some in H as [H|[Hl H]]; [by left|]. apply list_lookup_singleton_Some in H as [H ->]. right. split; [lia|done]. }
  split; cbn [heap set_heap sha clk tick]; [done|done| | | |by apply newidx_app|rewrite app_length; cbn; lia].
  - intros l o' Hl H. apply B in H as [H|(-> & -> & K)]; [by apply (J3 l)|]. destruct (Hh K) as (f & nm & k & H1 & H2 & _). by exists f, nm, k.
  - intros l l' o1 o2 Hl Hl' H1 H2 E. apply B in H1 as [H1|(-> & -> & K)], H2 as [H2|(-> & -> & K')]; [by apply (J4 l l' o1 o2)| | |done].
    + destruct (Hh K') as (_ & _ & _ & _ & _ & N). by destruct (N l o1 Hl H1).
    + destruct (Hh K) as (_ & _ & _ & _ & _ & N). by destruct (N l' o2 Hl' H2).
  - intros r o' e n Hr H Hk Hpp Hn. apply lookup_app_Some in H as [H|[Hl H]]; [|apply list_lookup_singleton_Some in H as [_ ->]; congruence].
    destruct (J5 r o' e n Hr H Hk Hpp Hn) as (Hnn & on & oe & [G1 G2] & G3 & G4). split; [done|]. exists on, oe. split; [split; [by apply lookup_app_l_Some|done]|]. split; [by apply lookup_app_l_Some|done].
Qed.
Definition new_loc (n0 : nat) (l : loc) : Prop := n0 <= l.
Lemma alloc_jm n0 c s o : o_parent o = None -> o_index o = [] -> is_hyperelement (o_kind o) = false -> jm n0 c s (alloc o) (new_loc n0).
Proof. intros Hp Hi Hk J. split; [|intros a [= <-]; apply J]. apply alloc_stamped; [done|done|congruence|done]. Qed.
(** A new place. *)
Definition may_enter (n0 : nat) (s : st) (p x : loc) : Prop := forall o, heap s !! x = Some o -> o_kind o = KRel -> forall n, o_endpoint o = Some n ->
  n0 <= n /\ exists on op, hyper_at (heap s) n on /\ heap s !! p = Some op /\ o_uuid o = sha s (elem_id_text (o_name op) (o_name on)).
Lemma may_enter_mono n0 s s' p x : mono s s' -> exists_in (heap s) x -> may_enter n0 s p x -> may_enter n0 s' p x.
Proof.
  intros Mn [o Ho] H o' Ho' Hk n Hn. destruct (m_obj _ _ Mn x o Ho) as (o2 & H2 & X). rewrite Ho' in H2. injection H2 as <-.
  assert (Hk' : o_kind o = KRel) by (rewrite <- (om_kind _ _ _ _ X); done). assert (Hn' : o_endpoint o = Some n) by (destruct (om_ep _ _ _ _ X); congruence).
  destruct (H o Ho Hk' n Hn') as (Hnn & on & op & Hh & Hp & E). split; [done|]. destruct (hyper_back _ _ _ _ Mn Hh) as (on' & Hh' & En & _). destruct (m_obj _ _ Mn p op Hp) as (op' & Hp' & Xp). exists on', op'. split; [done|]. split; [done|].
  rewrite (om_uuid _ _ _ _ X), E, (m_sha _ _ Mn), En, (om_name _ _ _ _ Xp). done.
Qed.
Lemma add_base_jm n0 c s p x : n0 <= x -> may_enter n0 s p x -> jm n0 c s (add_base p x) any.
Proof.
  intros Hx He [J1 J2 J3 J4 J5 J6 J7]. split; [|done]. destruct (add_base p x s) as [r s'] eqn:E. cbn [snd]. assert (Mn : mono s s') by (eapply pres_run; [|exact E]; pres). assert (NI : newidx n0 (heap s')) by (eapply idx_run; [exact (idx_add_base n0 p x Hx)|exact E|done]).
  destruct (add_base_eff p x s r s' E) as [C|(h1 & op & Hxp & C1 & Hop & C2)]; [by apply (calm_stamped n0 c s)|].
  assert (B : forall l o', heap s' !! l = Some o' -> exists o, heap s !! l = Some o /\ obj_mono s s' o o' /\ (o_parent o' = o_parent o \/ o_parent o' = None \/ (l = x /\ o_parent o' = Some p))).
  { intros l o' H. specialize (C2 l). rewrite H in C2. rewrite placed_lookup in C2. specialize (C1 l). destruct (h1 !! l) as [o1|] eqn:E1; [|by case_decide]. destruct (heap s !! l) as [o|] eqn:E0; [|done]. exists o. split; [done|].
    destruct (m_obj _ _ Mn l o E0) as (o2 & H2 & X). rewrite H in H2. injection H2 as <-. split; [done|]. destruct C1 as (_ & _ & C1). case_decide as D.
    - cbn in C2. destruct C2 as (_ & _ & [->| ->]); [|by right; left]. right. right. done.
    - cbn in C2. destruct C2 as (_ & _ & [->| ->]); [|by right; left]. destruct C1 as [->| ->]; [by left|by right; left]. }
  assert (BH : forall l o', hyper_at (heap s') l o' -> exists o, hyper_at (heap s) l o /\ o_uuid o' = o_uuid o).
  { intros l o' [H K]. destruct (B l o' H) as (o & Ho & X & _). exists o. split; [split; [done|by rewrite <- (om_kind _ _ _ _ X)]|apply X]. }
  split.
  - rewrite (m_sha _ _ Mn). done.
  - rewrite (m_clk _ _ Mn). done.
  - intros l o' Hl H. apply BH in H as (o & H & ->). destruct (J3 l o Hl H) as (f & nm & k & Hk & Eu). exists f, nm, k. rewrite (m_sha _ _ Mn), (m_clk _ _ Mn). split; [|done]. pose proof (m_tick _ _ Mn). lia.
  - intros l l' o o' Hl Hl' H H' Eu. apply BH in H as (o1 & H & E1). apply BH in H' as (o2 & H' & E2). apply (J4 l l' o1 o2); try done. congruence.
  - intros r1 o' e n Hr H Hk Hp Hn. destruct (B r1 o' H) as (o & Ho & X & Hpp). assert (Hk' : o_kind o = KRel) by (rewrite <- (om_kind _ _ _ _ X); done).
    assert (Hn' : o_endpoint o = Some n) by (destruct (om_ep _ _ _ _ X); congruence).
    assert (G : n0 <= n /\ exists on oe, hyper_at (heap s) n on /\ heap s !! e = Some oe /\ o_uuid o = sha s (elem_id_text (o_name oe) (o_name on))).
    { destruct Hpp as [Hpp|[Hpp|[-> Hpp]]]; [|congruence|]. - apply (J5 r1 o e n Hr Ho Hk'); congruence. - assert (e = p) as -> by congruence. by apply (He o Ho Hk' n). }
    destruct G as (Hnn & on & oe & Hh & Hoe & Eu). split; [done|]. destruct (hyper_back _ _ _ _ Mn Hh) as (on' & Hh' & En & _). destruct (m_obj _ _ Mn e oe Hoe) as (oe' & He' & Xe). exists on', oe'. split; [done|]. split; [done|].
    rewrite (om_uuid _ _ _ _ X), Eu, (m_sha _ _ Mn), En, (om_name _ _ _ _ Xe). done.
  - done.
  - pose proof (m_len _ _ Mn). lia.
Qed.
Definition nonrel (h : list obj) (x : loc) : Prop := exists k, kind_of h x = Some k /\ k <> KRel.
Lemma nonrel_mono s s' x : mono s s' -> nonrel (heap s) x -> nonrel (heap s') x.
Proof.
  intros Mn (k & H & Hk). exists k. split; [|done]. unfold kind_of in *. destruct (heap s !! x) as [o|] eqn:E; [|done]. destruct (m_obj _ _ Mn x o E) as (o' & Ho' & X). rewrite Ho'. cbn in *. by rewrite (om_kind _ _ _ _ X).
Qed.
Lemma nonrel_new s o : o_kind o <> KRel -> nonrel (heap s ++ [o]) (length (heap s)).
Proof. intros H. exists (o_kind o). split; [|done]. unfold kind_of. by rewrite lookup_app_r, Nat.sub_diag by lia. Qed.
Lemma nonrel_enters n0 s p x : nonrel (heap s) x -> may_enter n0 s p x.
Proof. intros (k & H & Hk) o Ho Hko. unfold kind_of in H. rewrite Ho in H. cbn in H. congruence. Qed.
Ltac cj := apply calm_jm; [by calm|by pres|by idx].
Lemma connect_jm n0 c s x el : jm n0 c s (connect x el) any.
Proof.
  unfold connect. eapply jm_bind; [cj|]. intros ox s1 E1 _. apply deref_inv in E1 as [_ ->]. eapply jm_bind; [cj|]. intros oe s2 E2 _. apply deref_inv in E2 as [_ ->]. destruct (_ && _); [|apply jm_raise].
  eapply jm_bind; [cj|]. intros u s3 E3 _. cbv zeta. eapply jm_bind; [by apply alloc_jm|]. intros pt s4 E4 Hpt. eapply jm_bind; [cj|]. intros [] s5 E5 _. apply add_base_jm; [done|]. apply nonrel_enters.
  eapply (nonrel_mono s4); [eapply pres_run; [|exact E5]; pres|]. unfold alloc in E4. injection E4 as <- <-. by apply nonrel_new.
Qed.
Lemma add_element_jm n0 c s p x : n0 <= x -> may_enter n0 s p x -> jm n0 c s (add_element p x) any.
Proof.
  intros Hx He. unfold add_element. eapply jm_bind; [cj|]. intros op s1 E1 _. apply deref_inv in E1 as [_ ->].
  destruct (o_kind op); try (by apply add_base_jm).
  - eapply jm_bind; [by apply add_base_jm|]. intros [] s1 _ _. cj.
  - eapply jm_bind; [by apply add_base_jm|]. intros [] s1 E1 _. eapply jm_bind; [cj|]. intros oc s2 E2 _. apply deref_inv in E2 as [_ ->]. destruct (is_hyperelement _); [|cj]. apply connect_jm.
Qed.
(** ** The factories *)
Definition fresh_u (n0 : nat) (c : clockid) (s : st) (u : uid) : Prop :=
  exists f nm k, k < tick s /\ u = sha s (uid_text f nm (clk s c k)) /\ forall l o, n0 <= l -> hyper_at (heap s) l o -> o_uuid o <> u.
Lemma uid_text_time f nm t f' nm' t' : uid_text f nm t = uid_text f' nm' t' -> t = t'.
Proof.
  unfold uid_text, qualified_text. rewrite <- !app_assoc_s. intros H. rewrite (app_assoc_s _ "." _), (app_assoc_s _ "." (str_of_Z t')) in H. apply last_dot in H as [_ H]; [|apply Z_no_dot..]. by apply (inj pretty) in H.
Qed.
Lemma uid_fresh n0 c s f nm u s1 : stamped n0 c s -> f_clock f = c -> generate_uid f nm s = (Ok u, s1) -> fresh_u n0 c s1 u /\ heap s1 = heap s.
Proof.
  intros [J1 J2 J3 J4 J5 J6 J7] Hf. rewrite gen_uid_eq. intros [= <- <-]. split; [|done]. exists (f_name f), nm, (tick s). rewrite Hf. cbn [tick set_tick sha clk heap]. split; [lia|]. split; [done|].
  intros l o Hl Ho E. destruct (J3 l o Hl Ho) as (f' & nm' & k & Hk & E'). rewrite E' in E. apply J1 in E. apply uid_text_time, J2 in E. lia.
Qed.
Lemma fresh_later n0 c s s1 u : mono s s1 -> heap s1 = heap s -> fresh_u n0 c s u -> fresh_u n0 c s1 u.
Proof.
  intros Mn E (f & nm & k & Hk & Hu & H). exists f, nm, k. rewrite (m_sha _ _ Mn), (m_clk _ _ Mn), E. pose proof (m_tick _ _ Mn). split; [lia|done].
Qed.
Lemma jm_with {A} n0 c s (m : M A) Q : (stamped n0 c s -> jm n0 c s m Q) -> jm n0 c s m Q.
Proof. intros H J. by apply H. Qed.
Lemma conceptual_jm n0 c k nm u prog ck p s : is_hyperelement k = true -> fresh_u n0 c s u -> jm n0 c s (new_conceptual k nm u prog ck p) (new_loc n0).
Proof.
  intros Hk F. unfold new_conceptual. destruct ck as [ck|]; [|apply jm_raise]. eapply jm_bind; [cj|]. intros t s1 E1 _. assert (M1 : mono s s1) by (eapply pres_run; [|exact E1]; pres). assert (H1 : heap s1 = heap s) by (by injection E1 as _ <-).
  pose proof (fresh_later _ _ _ _ _ M1 H1 F) as F1. clear F M1 H1 E1 s. set (o := s_ready _ _). apply jm_with. intros J.
  eapply jm_bind with (P := new_loc n0).
  - clear J. intros J. split; [|intros a [= <-]; apply J]. apply alloc_stamped; [done|done| |done]. intros _. destruct F1 as (f & nm' & k' & G1 & G2 & G3). by exists f, nm', k'.
  - intros l s2 E2 Hl. unfold alloc in E2. injection E2 as <- <-.
    eapply jm_bind with (P := any).
    + destruct p as [p|]; [|cj]. apply add_element_jm; [done|]. apply nonrel_enters. apply nonrel_new. cbn. by destruct k.
    + intros [] s3 E3 _. eapply jm_bind; [cj|]. intros [] s4 _ _. by apply jm_ret.
Qed.
Lemma node_jm n0 c f nm p s : f_clock f = c -> jm n0 c s (generate_node f nm p) (new_loc n0).
Proof.
  intros Hf. unfold generate_node. apply jm_with. intros J. eapply jm_bind; [cj|]. intros u s1 E1 _.
  assert (F : fresh_u n0 c s1 u /\ heap s1 = heap s).
  { destruct p as [p|]; [|by eapply uid_fresh]. apply bind_inv in E1 as (op & s0 & E0 & E1). apply deref_inv in E0 as [_ ->]. by eapply uid_fresh. }
  destruct F as [F H1]. eapply jm_bind; [cj|]. intros q s2 E2 _. apply conceptual_jm; [done|]. eapply fresh_later; [eapply pres_run; [|exact E2]; pres| |exact F]. by injection E2 as _ <-.
Qed.
Lemma edge_jm n0 c f p nm s : f_clock f = c -> jm n0 c s (create_hyperedge f p nm) (new_loc n0).
Proof.
  intros Hf. unfold create_hyperedge. apply jm_with. intros J. eapply jm_bind; [cj|]. intros u s1 E1 _. destruct (uid_fresh _ _ _ _ _ _ _ J Hf E1) as [F H1].
  eapply jm_bind; [cj|]. intros q s2 E2 _. assert (H2 : heap s2 = heap s1) by (pose proof (heap_stamped f nm p s1) as X; by rewrite E2 in X). assert (F2 : fresh_u n0 c s2 u) by (eapply fresh_later; [eapply pres_run; [|exact E2]; pres|done|done]).
  eapply jm_bind; [cj|]. intros ck s3 E3 _. apply conceptual_jm; [done|]. eapply fresh_later; [eapply pres_run; [|exact E3]; pres| |done]. pose proof (heap_clock_of p s2) as X. by rewrite E3 in X.
Qed.
Lemma value_jm n0 c f p nm vs s : jm n0 c s (create_value f p nm vs) (new_loc n0).
Proof.
  unfold create_value. eapply jm_bind; [cj|]. intros u s1 _ _. destruct p as [p|].
  - eapply jm_bind; [cj|]. intros q s2 _ _. eapply jm_bind; [unfold new_value; cbv zeta; by apply alloc_jm|]. intros v s3 E3 Hv. eapply jm_bind; [apply add_element_jm; [done|]|].
    + apply nonrel_enters. unfold new_value, alloc in E3. injection E3 as <- <-. by apply nonrel_new.
    + intros [] s4 _ _. by apply jm_ret.
  - eapply jm_bind; [cj|]. intros q s2 _ _. unfold new_value. cbv zeta. by apply alloc_jm.
Qed.
Lemma sem_jm n0 c f raw nm p attr vs s : jm n0 c s (generate_semantic_element f raw nm p attr vs) (new_loc n0).
Proof.
  unfold generate_semantic_element. destruct attr as [|a attr]; [apply jm_raise|]. eapply jm_bind; [cj|]. intros u s1 _ _. destruct (type_class _) as [k|]; [|apply jm_raise].
  eapply jm_bind; [cj|]. intros q s2 _ _. eapply jm_bind; [unfold new_sem; cbv zeta; by apply alloc_jm|]. intros v s3 E3 Hv. eapply jm_bind; [apply add_element_jm; [done|]|].
  - apply nonrel_enters. unfold new_sem, alloc in E3. injection E3 as <- <-. by apply nonrel_new.
  - intros [] s4 _ _. eapply jm_bind; [apply calm_jm; [calm|unfold add_named_attribute; pres|idx]|]. intros [] s5 _ _. by apply jm_ret.
Qed.
Lemma sem_nonrel f raw nm p attr vs s x s' : generate_semantic_element f raw nm p attr vs s = (Ok x, s') -> nonrel (heap s') x.
Proof.
  unfold generate_semantic_element. intros E. destruct attr as [|a attr]; [done|]. apply bind_inv in E as (u & s1 & E1 & E). destruct (type_class _) as [c|]; [|done].
  apply bind_inv in E as (q & s2 & E2 & E). apply bind_inv in E as (y & s3 & E3 & E). apply bind_inv in E as ([] & s4 & E4 & E). apply bind_inv in E as ([] & s5 & E5 & E). apply ret_inv in E as [-> ->].
  eapply (nonrel_mono s4); [eapply pres_run; [|exact E5]; unfold add_named_attribute; pres|]. eapply (nonrel_mono s3); [eapply pres_run; [|exact E4]; pres|].
  unfold new_sem, alloc in E3. injection E3 as <- <-. by apply nonrel_new.
Qed.
(** A successful [connect] was to a node or an edge. *)
Lemma connect_hyper x el s s' : connect x el s = (Ok tt, s') -> exists o, hyper_at (heap s) x o.
Proof.
  unfold connect. intros E. apply bind_inv in E as (ox & s1 & E1 & E). apply deref_inv in E1 as [Hx ->]. apply bind_inv in E as (oe & s1 & E1 & E). destruct (_ && _) eqn:B; [|done].
  apply andb_prop in B as [B _]. by exists ox.
Qed.
Lemma unary_jm n0 c e n w d sem s : n0 <= n -> (forall sv, sem = Some sv -> n0 <= sv /\ nonrel (heap s) sv) -> jm n0 c s (unary_connect e n w d sem) any.
Proof.
  intros Hn Hs. unfold unary_connect. eapply jm_bind; [cj|]. intros oe s1 E1 _. apply deref_inv in E1 as [Hoe ->]. eapply jm_bind; [cj|]. intros on s2 E2 _. apply deref_inv in E2 as [Hon ->].
  case_decide; [|apply jm_raise]. eapply jm_bind; [cj|]. intros ck s1 E1 _. apply of_opt_inv in E1 as [_ ->]. eapply jm_bind; [cj|]. intros t s1 E1 _. cbv zeta.
  assert (M1 : mono s s1) by (eapply pres_run; [|exact E1]; pres).
  destruct (o_ready oe); [|apply jm_raise]. eapply jm_bind; [cj|]. intros u s2 E2 _. assert (M2 : mono s1 s2) by (eapply pres_run; [|exact E2]; pres).
  assert (Hu : u = sha s (elem_id_text (o_name oe) (o_name on))). { unfold hash in E2. injection E2 as <- _. by rewrite (m_sha _ _ M1). } assert (M02 : mono s s2) by (eapply mono_trans; [exact M1|done]). clear E1 E2 M1 M2.
  unfold new_rel. set (ob := s_sem _ _). eapply jm_bind; [by apply alloc_jm|]. intros r s3 E3 Hr. assert (M3 : mono s2 s3) by (eapply pres_run; [|exact E3]; pres; done).
  assert (R3 : heap s3 !! r = Some ob). { unfold alloc in E3. injection E3 as <- <-. cbn. by rewrite lookup_app_r, Nat.sub_diag by lia. } clear E3.
  eapply jm_bind; [apply connect_jm|]. intros [] s4 E4 _. assert (M4 : mono s3 s4) by (eapply pres_run; [|exact E4]; pres). destruct (connect_hyper _ _ _ _ E4) as (on3 & Hy).
  assert (M03 : mono s s3) by (eapply mono_trans; [exact M02|done]). assert (ME : may_enter n0 s3 e r).
  { intros o' Ho' _ n' Hn'. rewrite R3 in Ho'. injection Ho' as <-. cbn in Hn'. injection Hn' as <-. split; [done|]. destruct (m_obj _ _ M03 n on Hon) as (on' & Hon' & Xn). destruct (m_obj _ _ M03 e oe Hoe) as (oe' & Hoe' & Xe).
    exists on', oe'. destruct Hy as [Hy1 Hy2]. rewrite Hy1 in Hon'. injection Hon' as ->. split; [done|]. split; [done|]. rewrite (m_sha _ _ M03), (om_name _ _ _ _ Xn), (om_name _ _ _ _ Xe). exact Hu. }
  eapply jm_bind with (P := any).
  - destruct sem as [sv|]; [|cj]. destruct (Hs sv eq_refl) as [Hsv Nsv]. apply add_element_jm; [done|]. apply nonrel_enters. eapply nonrel_mono; [exact M4|]. by eapply nonrel_mono.
  - intros [] s5 E5 _. assert (M5 : mono s4 s5) by (eapply pres_run; [|exact E5]; destruct sem; pres). eapply jm_bind; [|intros; by apply jm_ret].
    apply add_element_jm; [done|]. eapply may_enter_mono; [|by eexists|exact ME]. by eapply mono_trans.
Qed.
Lemma tuples_jm n0 c he ts s : (forall n d v sv, (n, d, v, sv) ∈ ts -> n0 <= n /\ forall x, sv = Some x -> n0 <= x /\ nonrel (heap s) x) -> jm n0 c s (connect_tuples he ts) any.
Proof.
  revert s. induction ts as [|[[[n d] v] sv] ts IH]; intros s H; simpl; [cj|]. destruct (H n d v sv) as [H1 H2]; [by left|]. eapply jm_bind; [by apply unary_jm|].
  intros r s1 E1 _. apply IH. intros n' d' v' sv' Hin. destruct (H n' d' v' sv') as [G1 G2]; [by right|]. split; [done|]. intros x Hx. destruct (G2 x Hx). split; [done|]. eapply nonrel_mono; [eapply pres_run; [|exact E1]; pres|done].
Qed.
(** ** The loader *)
Section loader.
  Context (fl : string -> option Qc) (rad : Qc) (n0 : nat) (c : clockid).
  Definition lgood (d : loader) : Prop := f_clock (ld_nodes d) = c /\ forall k x, (k, x) ∈ ld_cache d -> n0 <= x.
  Lemma cached_jm ns d s : lgood d -> jm n0 c s (cached ns d) (new_loc n0).
  Proof. intros [_ L]. apply calm_jm'; [calm|unfold cached; pres|idx|]. intros x E. unfold cached, of_opt in E. destruct (dget _ _) as [y|] eqn:Ey; [|done]. injection E as ->. eapply L, dget_Some_in, Ey. Qed.
  Lemma cache_jm x d s : lgood d -> n0 <= x -> jm n0 c s (cache_element x d) lgood.
  Proof.
    intros [L1 L2] Hx. apply calm_jm'; [calm|unfold cache_element; pres|idx|]. intros d' E. unfold cache_element, bind, deref in E. destruct (heap s !! x) as [o|]; [|done]. injection E as <-. split; [done|].
    cbn. intros k y H. apply dset_in in H as [H|[_ ->]]; [by eapply L2|done].
  Qed.
  Lemma jm_lift {A} (r : res A) s : jm n0 c s (lift r) any. Proof. apply calm_jm; [calm|destruct r; [apply pres_ret|apply pres_raise]|idx]. Qed.
  Lemma jm_attr x k v s : jm n0 c s (add_named_attribute x k v) any. Proof. apply calm_jm; [calm|unfold add_named_attribute; pres|idx]. Qed.
  Definition rigid_good (x : loc * list Qc * list Qc * loader) : Prop := lgood x.2.
  Lemma rigid_jm el r d s : lgood d -> jm n0 c s (rigid_element fl rad el r d) rigid_good.
  Proof.
    intros L. unfold rigid_element. eapply jm_bind; [cj|]. intros ? ? _ _. eapply jm_bind; [apply jm_lift|]. intros [[t q] ty] ? _ _. eapply jm_bind; [cj|]. intros o ? _ _. eapply jm_bind; [apply sem_jm|]. intros sv ? _ Hsv. cbv zeta.
    eapply jm_bind; [by apply cache_jm|]. intros d' ? _ L'. by apply jm_ret.
  Qed.
  Lemma reference_jm names cont ref d s : n0 <= cont -> lgood d -> jm n0 c s (add_reference names cont ref d) lgood.
  Proof.
    intros Hc L. unfold add_reference. eapply jm_bind; [by apply cached_jm|]. intros pg ? _ _. cbv zeta.
    eapply jm_bind with (P := new_loc n0); [apply calm_jm'; [calm|pres|idx|]; intros x E; unfold of_opt in E; destruct (dget _ _) as [y|] eqn:Ey; [|done]; injection E as ->; by eapply L, dget_Some_in|]. intros x ? _ Hx.
    destruct (dget _ (ld_refs d)); [by apply jm_ret|]. eapply jm_bind; [cj|]. intros oc ? _ _. eapply jm_bind; [apply edge_jm, L|]. intros e ? _ _. eapply jm_bind; [by apply unary_jm|]. intros r ? _ _. eapply jm_bind; [by apply unary_jm|]. intros r' ? _ _. by apply jm_ret.
  Qed.
  Lemma geometry_jm names cont g d s : n0 <= cont -> lgood d -> jm n0 c s (collect_geometries fl names cont g d) lgood.
  Proof.
    intros Hc L. unfold collect_geometries. eapply jm_bind; [cj|]. intros oc ? _ _. cbv zeta. eapply jm_bind; [apply node_jm, L|]. intros el ? _ Hel. eapply jm_bind with (P := lgood); [|intros d' ? _ L'; by apply cache_jm].
    destruct g as [t f|ref]; [|by apply reference_jm]. eapply jm_bind; [cj|]. intros ? ? _ _. eapply jm_bind; [apply jm_lift|]. intros vs ? _ _. eapply jm_bind; [apply sem_jm|]. intros sv ? _ Hsv. by apply cache_jm.
  Qed.
  Lemma material_jm m cont d s : lgood d -> jm n0 c s (collect_materials m cont d) lgood.
  Proof. intros L. unfold collect_materials. eapply jm_bind; [cj|]. intros oc ? _ _. cbv zeta. eapply jm_bind; [apply sem_jm|]. intros sv ? _ Hsv. by apply cache_jm. Qed.
  Lemma part_jm path p d s : lgood d -> jm n0 c s (visit_part fl path p d) lgood.
  Proof.
    intros L. unfold visit_part. eapply jm_bind; [by apply cached_jm|]. intros cont ? _ _. destruct p as [id m g|id g]; cbv zeta; (eapply jm_bind; [apply node_jm, L|]; intros el ? _ Hel; eapply jm_bind; [by apply cache_jm|]; intros d1 ? _ L1).
    - eapply jm_bind; [by apply geometry_jm|]. intros d2 ? _ L2. by apply material_jm.
    - by apply geometry_jm.
  Qed.
  Lemma inertia_jm path i d s : lgood d -> jm n0 c s (visit_inertia fl path i d) any.
  Proof. intros L. unfold visit_inertia. eapply jm_bind; [by apply cached_jm|]. intros cont ? _ _. eapply jm_bind; [apply jm_lift|]. intros q ? _ _. eapply jm_bind; [apply sem_jm|]. intros. by apply jm_ret. Qed.
  Lemma fold_jm {A} (f : A -> loader -> M loader) l d s : Forall (fun x => forall d s, lgood d -> jm n0 c s (f x d) lgood) l -> lgood d -> jm n0 c s (fold_m f l d) lgood.
  Proof. intros H. revert d s. induction H as [|x l Hx _ IH]; intros d s L; simpl; [by apply jm_ret|]. eapply jm_bind; [by apply Hx|]. intros d' s1 _ L'. by apply IH. Qed.
  Lemma link_jm path l d s : lgood d -> jm n0 c s (visit_link fl rad path l d) lgood.
  Proof.
    intros L. unfold visit_link. eapply jm_bind; [by apply cached_jm|]. intros parent ? _ _. eapply jm_bind; [apply node_jm, L|]. intros el ? _ Hel. eapply jm_bind; [apply sem_jm|]. intros sv ? _ Hsv.
    eapply jm_bind with (P := lgood).
    - destruct (lk_pose l) as [r|]; [|by apply jm_ret]. eapply jm_bind; [by apply rigid_jm|]. intros [[[tr t] q] d'] ? _ L'. eapply jm_bind; [apply jm_attr|]. intros [] ? _ _. by apply jm_ret.
    - intros d1 ? _ L1. eapply jm_bind; [by apply cache_jm|]. intros d2 ? _ L2. destruct (lk_body l) as [[i ps]|]; [|by apply jm_ret]. eapply jm_bind; [by apply inertia_jm|]. intros [] ? _ _. apply fold_jm; [|done]. apply Forall_forall. intros x _ d' s' L'. by apply part_jm.
  Qed.
  Lemma lookup_jm parent ref d s : n0 <= parent -> lgood d -> jm n0 c s (lookup_reference parent ref d) (new_loc n0).
  Proof.
    intros Hp L J. split; [by apply (calm_stamped n0 c s); [apply lookup_calm|apply pres_lookup|apply idx_lookup|]|]. intros x E. unfold lookup_reference in E. case_decide.
    - unfold of_opt in E. destruct (dget _ _) as [y|] eqn:Ey; [|done]. injection E as ->. by eapply L, dget_Some_in.
    - destruct (bind _ _ s) as [r s'] eqn:B. cbn [fst] in E. subst r. apply bind_inv in B as (l & s1 & B1 & B). apply of_opt_inv in B as [B ->]. unfold get_element_by_id_name in B1. apply (f_equal fst) in B1. cbn [fst] in B1.
      eapply tokens_new; [apply (sp_idx _ _ _ J)|exact Hp|exact B1|]. by apply head_Some_elem_of.
  Qed.
  Definition tuple_good (h : list obj) (t : loc * direction * weight * option loc) : Prop := n0 <= t.1.1.1 /\ forall x, t.2 = Some x -> n0 <= x /\ nonrel h x.
  Lemma joint_relation_jm parent edge r d s : n0 <= parent -> lgood d -> jm n0 c s (joint_relation fl rad parent edge r d) (fun t => n0 <= t.1.1.1.1 /\ (forall x, t.1.2 = Some x -> n0 <= x) /\ lgood t.2).
  Proof.
    intros Hp L. unfold joint_relation. eapply jm_bind; [by apply lookup_jm|]. intros ep ? _ Hep. eapply jm_bind; [apply jm_lift|]. intros dir ? _ _. eapply jm_bind; [apply sem_jm|]. intros sv ? _ Hsv.
    eapply jm_bind with (P := any).
    - destruct (jr_axis r) as [v|]; [|by apply jm_ret]. eapply jm_bind; [cj|]. intros ? ? _ _. eapply jm_bind; [apply jm_lift|]. intros q ? _ _. apply jm_attr.
    - intros [] ? _ _. destruct (jr_rigid r) as [rg|]; [eapply jm_bind; [by apply rigid_jm|]; intros [[[tr t] q] d'] ? _ L'|]; apply jm_ret; cbn; (split; [done|]); (split; [|done]); intros x [= <-]; done.
  Qed.
  Lemma joint_relation_nonrel parent edge r d s ep dir w sv d' s' : joint_relation fl rad parent edge r d s = (Ok (ep, dir, w, Some sv, d'), s') -> nonrel (heap s') sv.
  Proof.
    unfold joint_relation. intros E. apply bind_inv in E as (ep' & s1 & _ & E). apply bind_inv in E as (dr & s2 & _ & E). apply bind_inv in E as (sv' & s3 & E3 & E). apply sem_nonrel in E3.
    apply bind_inv in E as ([] & s4 & E4 & E). assert (M4 : mono s3 s4). { eapply pres_run; [|exact E4]. destruct (jr_axis r); unfold add_named_attribute; pres; try apply pres_lift. }
    destruct (jr_rigid r) as [rg|].
    - apply bind_inv in E as ([[[tr t] q] d1] & s5 & E5 & E). apply ret_inv in E as [[= -> -> -> -> ->] ->]. eapply nonrel_mono; [eapply pres_run; [|exact E5]; apply pres_rigid|]. by eapply nonrel_mono.
    - apply ret_inv in E as [[= -> -> -> -> ->] ->]. by eapply nonrel_mono.
  Qed.
  Definition tuples_new (x : list (loc * direction * weight * option loc) * loader) : Prop := (forall n dr v sv, (n, dr, v, sv) ∈ x.1 -> n0 <= n /\ forall y, sv = Some y -> n0 <= y) /\ lgood x.2.
  Lemma joint_relations_jm parent edge rs d s : n0 <= parent -> lgood d -> jm n0 c s (joint_relations fl rad parent edge rs d) tuples_new.
  Proof.
    intros Hp. revert d s. induction rs as [|r rs IH]; intros d s L; simpl; [apply jm_ret; split; [|done]; intros n dr v sv H; by apply elem_of_nil in H|].
    eapply jm_bind; [by apply joint_relation_jm|]. intros [[[[ep dir] w] sv] d1] s1 _ (H1 & H2 & L1). cbn in H1, H2, L1. eapply jm_bind; [by apply IH|]. intros [ts d2] s2 _ [H3 L2]. apply jm_ret. split; [|done]. cbn.
    intros n dr v y H. apply elem_of_cons in H as [H|H]; [injection H as -> -> -> ->; done|by eapply H3].
  Qed.
  Lemma joint_relations_nonrel parent edge rs d s ts d' s' : joint_relations fl rad parent edge rs d s = (Ok (ts, d'), s') -> forall n dr v sv, (n, dr, v, Some sv) ∈ ts -> nonrel (heap s') sv.
  Proof.
    revert d s ts d' s'. induction rs as [|r rs IH]; intros d s ts d' s' E; simpl in E.
    - apply ret_inv in E as [[= -> ->] ->]. intros n dr v sv H. by apply elem_of_nil in H.
    - apply bind_inv in E as ([[[[ep dir] w] sv0] d1] & s1 & E1 & E). apply bind_inv in E as ([ts1 d2] & s2 & E2 & E). apply ret_inv in E as [[= -> ->] ->]. cbn [fst snd] in *.
      intros n dr v sv H. apply elem_of_cons in H as [H|H]; [|by eapply IH].
      injection H as <- <- <- <-. eapply nonrel_mono; [eapply pres_run; [|exact E2]; apply pres_joint_relations|]. by eapply joint_relation_nonrel.
  Qed.
  Lemma joint_jm path j d s : lgood d -> jm n0 c s (visit_joint fl rad path j d) lgood.
  Proof.
    intros L. unfold visit_joint. eapply jm_bind; [by apply cached_jm|]. intros parent s1 _ Hp. eapply jm_bind; [by apply joint_relations_jm|]. intros [ts d'] s2 E2 [H L']. cbn [fst snd] in *. eapply jm_bind with (P := any); [|intros; by apply jm_ret].
    unfold connect_tuple_nodes. eapply jm_bind; [apply edge_jm, L|]. intros he s3 E3 _. eapply jm_bind; [|intros; cj]. apply tuples_jm. intros n dr v sv Hin. destruct (H n dr v sv Hin) as [H1 H2]. split; [done|]. intros x ->. split; [by apply H2|].
    eapply nonrel_mono; [eapply pres_run; [|exact E3]; pres|]. by eapply joint_relations_nonrel.
  Qed.
  Lemma enter_jm path nm d s : lgood d -> jm n0 c s (enter_kinematic path nm d) lgood.
  Proof. intros L. unfold enter_kinematic. eapply jm_bind; [by apply cached_jm|]. intros p ? _ _. eapply jm_bind; [apply node_jm, L|]. intros el ? _ Hel. eapply jm_bind; [apply sem_jm|]. intros sv ? _ _. by apply cache_jm. Qed.
  Lemma plain_jm path nm d s : lgood d -> jm n0 c s (plain_node path nm d) lgood.
  Proof. intros L. unfold plain_node. eapply jm_bind; [by apply cached_jm|]. intros p ? _ _. eapply jm_bind; [apply node_jm, L|]. intros el ? _ Hel. by apply cache_jm. Qed.
  Lemma kitem_jm it path d s : lgood d -> jm n0 c s (visit_kitem fl rad path it d) lgood.
  Proof.
    revert path d s. induction it as [l|j|nm items IH|] using kitem_rect'; intros path d s L; simpl; [by apply link_jm|by apply joint_jm| |by apply jm_ret]. eapply jm_bind; [by apply enter_jm|]. intros d' ? _ L'. apply fold_jm; [|done]. eapply Forall_impl; [exact IH|]. intros x H d1 ? L1. by apply H.
  Qed.
  Lemma aitem_jm it path d s : lgood d -> jm n0 c s (visit_aitem fl rad path it d) lgood.
  Proof.
    revert path d s. induction it as [nm|nm|nm items IH|nm items|] using aitem_rect'; intros path d s L; [by apply plain_jm|by apply plain_jm| |exact (kitem_jm (KiKin nm items) path d s L)|by apply jm_ret].
    simpl. eapply jm_bind; [by apply plain_jm|]. intros d' ? _ L'. apply fold_jm; [|done]. eapply Forall_impl; [exact IH|]. intros x H d1 ? L1. by apply H.
  Qed.
  Lemma eitem_jm it path d s : lgood d -> jm n0 c s (visit_eitem fl rad path it d) lgood.
  Proof.
    intros L. destruct it as [j|nm items|nm items|ps|]; unfold visit_eitem; [by apply joint_jm|by apply aitem_jm|by apply kitem_jm| |by apply jm_ret]. apply fold_jm; [|done]. apply Forall_forall. intros x _ d' s' L'. unfold visit_parameter.
    eapply jm_bind; [by apply cached_jm|]. intros p ? _ _. eapply jm_bind with (P := any); [|intros; by apply jm_ret]. case_decide; [|cj]. eapply jm_bind; [apply value_jm|]. intros v ? _ _. cj.
  Qed.
  Lemma load_jm icon e s : jm n0 c s (load fl rad icon c e) lgood.
  Proof.
    unfold load, new_loader, visit_entity. cbv zeta. eapply jm_bind with (P := lgood).
    - eapply jm_bind; [by apply node_jm|]. intros w ? _ Hw. eapply jm_bind; [by apply node_jm|]. intros ps ? _ _. apply jm_ret. split; [done|]. cbn. intros k x H. apply elem_of_list_singleton in H. by injection H as -> ->.
    - intros d ? _ L. eapply jm_bind; [apply node_jm, L|]. intros n ? _ Hn. eapply jm_bind; [apply sem_jm|]. intros sv ? _ _. eapply jm_bind; [apply cache_jm; [exact L|done]|]. intros d2 ? _ L2. apply fold_jm; [|done]. apply Forall_forall. intros x _ d' s' L'. by apply eitem_jm.
  Qed.
End loader.
(** What a description makes is stamped. *)
Lemma load_stamped fl rad icon c e s r s' : (forall a b, sha s a = sha s b -> a = b) -> (forall k k', clk s c k = clk s c k' -> k = k') -> load fl rad icon c e s = (r, s') -> stamped (length (heap s)) c s'.
Proof.
  intros H1 H2 E. eapply jm_run; [apply load_jm|exact E|]. assert (Z : forall l o, length (heap s) <= l -> heap s !! l = Some o -> False) by (intros l o Hl Ho; apply lookup_lt_Some in Ho; lia).
  split; try done.
  - intros l o Hl [Ho _]. by destruct (Z l o).
  - intros l l' o o' Hl _ [Ho _]. by destruct (Z l o).
  - intros l o p n Hl Ho. by destruct (Z l o).
  - intros l o Hl Ho. by destruct (Z l o).
Qed.
