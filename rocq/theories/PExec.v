(** * Executing the monad; what [update()] does *)
From Verif Require Import Spec Hierarchy PDict PPath.

Lemma bind_ok {A B} (m : M A) (k : A -> M B) s a s1 :
  m s = (Ok a, s1) -> bind m k s = k a s1.
Proof. intros H. unfold bind. by rewrite H. Qed.
Lemma bind_exn {A B} (m : M A) (k : A -> M B) s e s1 :
  m s = (Exn e, s1) -> bind m k s = (Exn e, s1).
Proof. intros H. unfold bind. by rewrite H. Qed.
Lemma bind_assoc {A B C} (m : M A) (k : A -> M B) (k' : B -> M C) s :
  bind (bind m k) k' s = bind m (fun a => bind (k a) k') s.
Proof. unfold bind. by destruct (m s) as [[a|e] s1]. Qed.
Lemma deref_ok l s o : heap s !! l = Some o -> deref l s = (Ok o, s).
Proof. intros H. unfold deref. by rewrite H. Qed.
Lemma upd_ok l f s o : heap s !! l = Some o -> upd l f s = (Ok tt, set_heap (alter f l (heap s)) s).
Proof. intros H. unfold upd. by rewrite H. Qed.

Lemma set_heap_heap h s : heap (set_heap h s) = h.
Proof. done. Qed.
Lemma set_heap_set_heap h h' s : set_heap h (set_heap h' s) = set_heap h s.
Proof. done. Qed.
Lemma set_heap_id s : set_heap (heap s) s = s.
Proof. by destruct s. Qed.
Lemma lookup_alter_eq {A} (f : A -> A) (h : list A) l o :
  h !! l = Some o -> alter f l h !! l = Some (f o).
Proof. intros H. by rewrite list_lookup_alter, H. Qed.

Lemma alter_alter {A} (f g : A -> A) (h : list A) l :
  alter f l (alter g l h) = alter (fun o => f (g o)) l h.
Proof.
  apply list_eq. intros i. destruct (decide (l = i)) as [->|Hne].
  - rewrite !list_lookup_alter. by destruct (h !! i).
  - by rewrite !list_lookup_alter_ne.
Qed.
Lemma alter_comm {A} (f g : A -> A) (h : list A) l l' : l <> l' ->
  alter f l (alter g l' h) = alter g l' (alter f l h).
Proof.
  intros Hne. apply list_eq. intros i. destruct (decide (l = i)) as [->|H1].
  - rewrite list_lookup_alter, !list_lookup_alter_ne, list_lookup_alter by done. done.
  - rewrite (list_lookup_alter_ne f) by done. destruct (decide (l' = i)) as [->|H2].
    + rewrite !list_lookup_alter, list_lookup_alter_ne by done. done.
    + by rewrite !list_lookup_alter_ne by done.
Qed.
Lemma alter_ext_at {A} (f g : A -> A) (h : list A) l :
  (forall o, h !! l = Some o -> f o = g o) -> alter f l h = alter g l h.
Proof.
  intros H. apply list_eq. intros i. destruct (decide (l = i)) as [->|Hne].
  - rewrite !list_lookup_alter. destruct (h !! i) eqn:E; simpl; [|done]. by rewrite (H _ eq_refl).
  - by rewrite !list_lookup_alter_ne.
Qed.

(** [h] and [h'] differ at most in qualified names and time stamps. *)
Definition heq (h h' : list obj) : Prop := bare <$> h = bare <$> h'.

Lemma bare_eq o o' : bare o = bare o' -> o' = s_qname (o_qname o') (s_time (o_time o') o).
Proof. destruct o, o'. unfold bare. simpl. intros H. injection H. intros. subst. done. Qed.
Lemma set_same o : s_qname (o_qname o) (s_time (o_time o) o) = o.
Proof. by destruct o. Qed.

Lemma heq_lookup h h' l o : heq h h' -> h !! l = Some o ->
  exists o', h' !! l = Some o' /\ bare o' = bare o.
Proof.
  intros H Hl. assert (H2 : (bare <$> h) !! l = Some (bare o)) by (by rewrite list_lookup_fmap, Hl).
  rewrite H, list_lookup_fmap in H2. destruct (h' !! l) as [o'|] eqn:E; [|done].
  simpl in H2. exists o'. split; [done|congruence].
Qed.
Global Instance heq_equiv : Equivalence heq.
Proof. unfold heq. split; [done|intros x y H; by symmetry|intros x y z H1 H2; congruence]. Qed.
Lemma heq_length h h' : heq h h' -> length h' = length h.
Proof. intros H. apply (f_equal length) in H. by rewrite !fmap_length in H. Qed.
Lemma heq_attr {A} (f : obj -> A) h h' l :
  (forall o, f (bare o) = f o) -> heq h h' -> f <$> h' !! l = f <$> h !! l.
Proof.
  intros Hf H. assert (H2 : (bare <$> h') !! l = (bare <$> h) !! l) by by rewrite H.
  rewrite !list_lookup_fmap in H2. destruct (h !! l) as [a|], (h' !! l) as [b|]; simpl in *; try done.
  f_equal. rewrite <- (Hf a), <- (Hf b). congruence.
Qed.
Lemma heq_parent h h' l : heq h h' -> parent_of h' l = parent_of h l.
Proof.
  intros H. pose proof (heq_attr o_parent h h' l (fun _ => eq_refl) H) as Ha. unfold parent_of.
  destruct (h !! l), (h' !! l); simpl in *; simplify_eq; auto; congruence.
Qed.
Lemma heq_name h h' l : heq h h' -> name_of h' l = name_of h l.
Proof. intros H. unfold name_of. by rewrite (heq_attr o_name h h' l (fun _ => eq_refl) H). Qed.
Lemma heq_uuid h h' l : heq h h' -> uuid_of h' l = uuid_of h l.
Proof. intros H. unfold uuid_of. by rewrite (heq_attr o_uuid h h' l (fun _ => eq_refl) H). Qed.
Lemma heq_kind h h' l : heq h h' -> kind_of h' l = kind_of h l.
Proof. intros H. unfold kind_of. by rewrite (heq_attr o_kind h h' l (fun _ => eq_refl) H). Qed.
Lemma heq_exists h h' l : heq h h' -> exists_in h' l <-> exists_in h l.
Proof.
  intros H. unfold exists_in. pose proof (heq_attr o_kind h h' l (fun _ => eq_refl) H) as Ha.
  destruct (h !! l), (h' !! l); simpl in *; try done; split; intros [? ?]; done.
Qed.
Lemma heq_children h h' l : heq h h' -> children h' l = children h l.
Proof.
  intros H. unfold children. pose proof (heq_attr o_subs h h' l (fun _ => eq_refl) H) as Ha.
  destruct (h !! l), (h' !! l); simpl in *; simplify_eq; auto; congruence.
Qed.
Lemma heq_path h h' l ls : heq h h' -> path h l ls -> path h' l ls.
Proof.
  intros H Hp. apply path_ext with h; [done|]. intros x Hx. split.
  - apply (heq_exists h h'); [done|]. by eapply path_in_exists.
  - by apply heq_parent.
Qed.
Lemma heq_full_name h h' l q : heq h h' -> full_name h l q -> full_name h' l q.
Proof.
  intros H (ls & Hp & ->). exists ls. split; [by eapply heq_path|].
  f_equal. f_equal. apply map_ext. intros x. symmetry. by apply heq_name.
Qed.
Lemma heq_ancestor h h' a l : heq h h' -> ancestor h a l -> ancestor h' a l.
Proof.
  intros H Ha. induction Ha; [apply anc_parent|eapply anc_up; [|done]]; rewrite (heq_parent h h'); done.
Qed.
Lemma heq_within h h' a l : heq h h' -> within h a l <-> within h' a l.
Proof.
  intros H. unfold within. split; intros [->|Ha]; auto; right; eapply heq_ancestor; try exact Ha; [done|by symmetry].
Qed.

Lemma heq_alter f l h : (forall o, bare (f o) = bare o) -> heq h (alter f l h).
Proof.
  intros Hf. unfold heq. apply list_eq. intros i. rewrite !list_lookup_fmap.
  destruct (decide (l = i)) as [->|Hne].
  - rewrite list_lookup_alter. destruct (h !! i); simpl; [|done]. by rewrite Hf.
  - by rewrite list_lookup_alter_ne.
Qed.
Lemma heq_alter_cong f l h h' :
  (forall o o', bare o = bare o' -> bare (f o) = bare (f o')) -> heq h h' -> heq (alter f l h) (alter f l h').
Proof.
  intros Hf H. unfold heq. apply list_eq. intros i. rewrite !list_lookup_fmap.
  assert (Hi : (bare <$> h) !! i = (bare <$> h') !! i) by by rewrite H.
  rewrite !list_lookup_fmap in Hi.
  destruct (decide (l = i)) as [->|Hne].
  - rewrite !list_lookup_alter. destruct (h !! i), (h' !! i); simpl in *; try done.
    f_equal. apply Hf. congruence.
  - by rewrite !list_lookup_alter_ne.
Qed.

(** Time stamp of an updated element: a clock reading made meanwhile. *)
Definition time_ok (s s' : st) (o : obj) (t : Z) : Prop :=
  if is_conceptual (o_kind o)
  then exists c n, o_clock o = Some c /\ tick s <= n < tick s' /\ t = clk s c n
  else t = o_time o.

(** [touch S s s']: from [s] to [s'], exactly the elements of [S] were
    [update()]d, nothing else happened. *)
Record touch (S : list loc) (s s' : st) : Prop := {
  t_clk : clk s' = clk s;
  t_sha : sha s' = sha s;
  t_f1 : fr_hier s' = fr_hier s;
  t_f2 : fr_hyper s' = fr_hyper s;
  t_f3 : fr_query s' = fr_query s;
  t_tick : tick s <= tick s';
  t_len : length (heap s') = length (heap s);
  t_obj : forall l o, heap s !! l = Some o ->
    exists q t, heap s' !! l = Some (s_qname q (s_time t o)) /\
      (l ∉ S -> q = o_qname o /\ t = o_time o) /\
      (l ∈ S -> full_name (heap s) l q /\ time_ok s s' o t)
}.

Lemma touch_heq S s s' : touch S s s' -> heq (heap s) (heap s').
Proof.
  intros H. unfold heq. apply list_eq. intros i. rewrite !list_lookup_fmap.
  destruct (heap s !! i) as [o|] eqn:E.
  - destruct (t_obj _ _ _ H i o E) as (q & t & -> & _). done.
  - apply lookup_ge_None in E. rewrite <- (t_len _ _ _ H) in E. apply lookup_ge_None in E. by rewrite E.
Qed.

Lemma touch_refl s : touch [] s s.
Proof.
  split; try done. intros l o H. exists (o_qname o), (o_time o). rewrite set_same.
  split; [done|]. split; [done|]. intros Hin. inversion Hin.
Qed.

Lemma touch_trans S1 S2 s s1 s2 : touch S1 s s1 -> touch S2 s1 s2 -> touch (S1 ++ S2) s s2.
Proof.
  intros H1 H2. pose proof (touch_heq _ _ _ H1) as Hq. split.
  - rewrite (t_clk _ _ _ H2). apply H1.
  - rewrite (t_sha _ _ _ H2). apply H1.
  - rewrite (t_f1 _ _ _ H2). apply H1.
  - rewrite (t_f2 _ _ _ H2). apply H1.
  - rewrite (t_f3 _ _ _ H2). apply H1.
  - etrans; [apply H1|apply H2].
  - rewrite (t_len _ _ _ H2). apply H1.
  - intros l o Hl. destruct (t_obj _ _ _ H1 l o Hl) as (q1 & t1 & Hl1 & Hn1 & Hy1).
    destruct (t_obj _ _ _ H2 l _ Hl1) as (q2 & t2 & Hl2 & Hn2 & Hy2).
    exists q2, t2. split; [exact Hl2|]. rewrite elem_of_app. split.
    + intros Hnin. destruct Hn2 as [-> ->]; [tauto|]. simpl. apply Hn1. tauto.
    + intros Hin. destruct (decide (l ∈ S2)) as [Hin2|Hnin2].
      * destruct (Hy2 Hin2) as [Hf Ht]. split; [by eapply heq_full_name; [symmetry|]|].
        unfold time_ok in *. simpl in *. destruct (is_conceptual (o_kind o)) eqn:Ek.
        -- destruct Ht as (c & n & Hc & Hn & ->). exists c, n. split; [done|].
           pose proof (t_tick _ _ _ H1). rewrite (t_clk _ _ _ H1). split; [lia|done].
        -- subst t2. destruct (decide (l ∈ S1)) as [Hin1|Hnin1]; [by apply Hy1|by apply Hn1].
      * destruct Hn2 as [-> ->]; [done|]. simpl. destruct Hy1 as [Hf Ht]; [tauto|]. split; [done|].
        unfold time_ok in *. destruct (is_conceptual (o_kind o)); [|done].
        destruct Ht as (c & n & Hc & Hn & ->). exists c, n. pose proof (t_tick _ _ _ H2).
        split; [done|]. split; [lia|done].
Qed.

(** The set of touched elements may be described differently. *)
Lemma touch_equiv S S' s s' : (forall l, l ∈ S <-> l ∈ S') -> touch S s s' -> touch S' s s'.
Proof.
  intros Heq H. split; try apply H. intros l o Hl.
  destruct (t_obj _ _ _ H l o Hl) as (q & t & Hl' & Hn & Hy). exists q, t.
  rewrite <- Heq. done.
Qed.

Definition clocked (h : list obj) (l : loc) : Prop :=
  forall o, h !! l = Some o -> is_conceptual (o_kind o) = true -> is_Some (o_clock o).

Lemma heq_clocked h h' l : heq h h' -> clocked h l -> clocked h' l.
Proof.
  intros H Hc o Ho Hk. destruct (heq_lookup h' h l o) as (o' & Ho' & Hb); [by symmetry|done|].
  assert (Hk' : is_conceptual (o_kind o') = true).
  { rewrite <- Hk. apply (f_equal o_kind) in Hb. simpl in Hb. by rewrite Hb. }
  specialize (Hc o' Ho' Hk'). apply (f_equal o_clock) in Hb. simpl in Hb. by rewrite <- Hb.
Qed.

Lemma refresh_ok s l ls o : heap s !! l = Some o -> path (heap s) l ls ->
  refresh_qname l s = (Ok tt, set_heap (alter (s_qname (join "/" (rev (map (name_of (heap s)) ls)))) l (heap s)) s).
Proof.
  intros Ho Hp. unfold refresh_qname, get_st, bind.
  rewrite (names_up_path _ _ _ _ Hp) by (by eapply path_bound). by erewrite upd_ok.
Qed.

(** [update()] succeeds on an element whose chain of parents is finite. *)
Lemma update_ok s l ls : path (heap s) l ls -> clocked (heap s) l ->
  exists s', update l s = (Ok tt, s') /\ touch [l] s s'.
Proof.
  intros Hp Hc. destruct (path_exists _ _ _ Hp) as [o Ho]. unfold update.
  rewrite (bind_ok _ _ _ _ _ (deref_ok _ _ _ Ho)).
  destruct (is_conceptual (o_kind o)) eqn:Ek.
  - destruct (Hc o Ho Ek) as [c Hck].
    set (s1 := set_heap (alter (s_time (clk s c (tick s))) l (heap s)) (set_tick (S (tick s)) s)).
    assert (E1 : update_timestamp l s = (Ok tt, s1)).
    { unfold update_timestamp. rewrite (bind_ok _ _ _ _ _ (deref_ok _ _ _ Ho)). rewrite Hck.
      unfold now, bind. by erewrite upd_ok. }
    rewrite (bind_ok _ _ _ _ _ E1).
    assert (Hheq : heq (heap s) (heap s1)) by (by apply heq_alter).
    erewrite refresh_ok with (s := s1) (ls := ls);
      [|unfold s1; simpl; by apply lookup_alter_eq|by eapply heq_path].
    eexists. split; [reflexivity|]. subst s1. split; try done.
    + simpl. lia.
    + simpl. by rewrite !alter_length.
    + simpl. intros l' o' Ho'. destruct (decide (l = l')) as [<-|Hne].
      * assert (o' = o) as -> by congruence. eexists _, _. split.
        { erewrite lookup_alter_eq; [|by apply lookup_alter_eq]. reflexivity. }
        split; [set_solver|]. intros _. split.
        -- exists ls. split; [done|]. f_equal. f_equal. apply map_ext. intros x.
           by apply (heq_name (heap s)).
        -- unfold time_ok. rewrite Ek. exists c, (tick s). split; [done|]. simpl. split; [lia|done].
      * exists (o_qname o'), (o_time o'). rewrite set_same. split.
        { rewrite !list_lookup_alter_ne by done. done. }
        split; [done|]. set_solver.
  - rewrite (refresh_ok _ _ _ _ Ho Hp). eexists. split; [reflexivity|]. split; try done.
    + simpl. by rewrite !alter_length.
    + simpl. intros l' o' Ho'. destruct (decide (l = l')) as [<-|Hne].
      * assert (o' = o) as -> by congruence. eexists _, (o_time o). split.
        { erewrite lookup_alter_eq by done. done. }
        split; [set_solver|]. intros _. split; [by exists ls|]. unfold time_ok. by rewrite Ek.
      * exists (o_qname o'), (o_time o'). rewrite set_same. split.
        { by rewrite !list_lookup_alter_ne by done. }
        split; [done|]. set_solver.
Qed.
