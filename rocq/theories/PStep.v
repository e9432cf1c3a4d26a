(** * Every operation preserves the invariant *)
From Verif Require Import Spec Hierarchy Elements Factory History PDict PPath PExec PBfs PWF PAdd PMono.
From Coq Require Import Sorting.Sorted.

Lemma leaf_not_ancestor h c x : WF0 h -> children h c = [] -> ~ ancestor h c x.
Proof.
  intros W Hch Ha. induction Ha as [a l Hp|a q l Hp Ha IH]; [|by apply IH].
  assert (Hex : exists_in h l).
  { unfold parent_of in Hp. destruct (h !! l) eqn:E; [by eexists|done]. }
  pose proof (wf0_parent h W a l Hex Hp) as Hin. rewrite Hch in Hin. inversion Hin.
Qed.

Lemma parent_exists h l : is_Some (parent_of h l) -> exists_in h l.
Proof. unfold parent_of. intros [q H]. destruct (h !! l) eqn:E; [by eexists|done]. Qed.

(** ** add_element *)

(** The heap after a successful p.add_element(c) of the base class. *)
Definition added (p c : loc) (op oc : obj) (b : bool) (h : list obj) : list obj :=
  attach_h p c op oc b (left_h c oc h).

Lemma add_base_cases s p c : WF0 (heap s) -> add_ok (heap s) p c ->
  (c = p /\ add_base p c s = (Exn ErrorRecursiveHierarchy, s)) \/
  (exists op oc, c <> p /\ heap s !! p = Some op /\ heap s !! c = Some oc /\
    ((is_Some (dget (o_uuid oc) (o_subs op)) /\ add_base p c s = (Exn ErrorDuplicateElement, s)) \/
     (dget (o_uuid oc) (o_subs op) = None /\
      exists T s', add_base p c s = (Ok tt, s') /\
        touch T (set_heap (added p c op oc false (heap s)) s) s' /\
        (forall x, exists_in (heap s) x -> x ∈ T <-> within (added p c op oc false (heap s)) c x)))).
Proof.
  intros W ([op Hp] & [oc Hc] & Hanc & Hrem).
  destruct (decide (c = p)) as [->|Hne].
  { left. split; [done|]. unfold add_base. by rewrite decide_True. }
  right. exists op, oc. split; [done|]. split; [done|]. split; [done|].
  destruct (dget (o_uuid oc) (o_subs op)) as [x|] eqn:Hg.
  - left. split; [eauto|]. unfold add_base. rewrite decide_False by done.
    rewrite (bind_ok _ _ _ _ _ (deref_ok _ _ _ Hc)). rewrite (bind_ok _ _ _ _ _ (deref_ok _ _ _ Hp)).
    by rewrite Hg.
  - right. split; [done|]. by apply add_base_ok.
Qed.

Lemma left_within h c oc p : WF0 h -> h !! c = Some oc -> c <> p -> ~ ancestor h c p -> ~ within (left_h c oc h) c p.
Proof. intros W Hc Hne Ha [->|Hx]; [done|]. apply Ha. by eapply left_ancestor. Qed.

Lemma not_child h p c op oc : WF0 h -> h !! p = Some op -> h !! c = Some oc ->
  dget (o_uuid oc) (o_subs op) = None -> o_parent oc <> Some p.
Proof. intros W Hp Hc Hg E. destruct (wf0_lookup _ W c oc p op Hc E Hp) as [H _]. congruence. Qed.

Lemma attach_b_eq p c op oc oc' b h : o_name oc = o_name oc' -> o_uuid oc = o_uuid oc' ->
  attach_h p c op oc b h = attach_h p c op oc' b h.
Proof. intros H1 H2. unfold attach_h, att_p. by rewrite H1, H2. Qed.

Lemma added_wf h p c op oc b : WF0 h -> add_ok h p c -> c <> p -> h !! p = Some op -> h !! c = Some oc ->
  dget (o_uuid oc) (o_subs op) = None ->
  (o_kind op = KEdge -> o_ready op = true -> b = bool_decide (o_kind oc = KRel)) ->
  WF0 (added p c op oc b h).
Proof.
  intros W (_ & _ & Hanc & Hrem) Hne Hp Hc Hg Hb. unfold added.
  rewrite (attach_b_eq p c op oc (s_parent None oc)) by done.
  pose proof (not_child h p c op oc W Hp Hc Hg) as Hnp.
  apply attach_wf0; try done.
  - by apply left_wf.
  - by apply left_at_p.
  - by apply left_at_c.
  - by apply left_within.
Qed.

Lemma added_at_c h p c op oc b : WF0 h -> c <> p -> h !! c = Some oc ->
  added p c op oc b h !! c = Some (att_c p op (s_parent None oc)).
Proof.
  intros W Hne Hc. unfold added, attach_h. rewrite list_lookup_alter, list_lookup_alter_ne by done.
  by rewrite left_at_c.
Qed.
Lemma added_at_p h p c op oc b : WF0 h -> c <> p -> h !! p = Some op -> o_parent oc <> Some p ->
  added p c op oc b h !! p = Some (att_p c oc b op).
Proof.
  intros W Hne Hp Hpar. unfold added, attach_h. rewrite list_lookup_alter_ne by done.
  rewrite list_lookup_alter. by rewrite (left_at_p h c oc p op Hp).
Qed.
Lemma added_other h p c op oc b l : l <> p -> l <> c -> o_parent oc <> Some l ->
  added p c op oc b h !! l = h !! l.
Proof.
  intros H1 H2 H3. unfold added, attach_h. rewrite !list_lookup_alter_ne by done.
  unfold left_h. destruct (o_parent oc) as [q|]; [|done]. unfold detach_h.
  by rewrite !list_lookup_alter_ne by congruence.
Qed.
Lemma added_parent_ne h p c op oc b l : WF0 h -> h !! c = Some oc -> l <> c ->
  parent_of (added p c op oc b h) l = parent_of h l.
Proof.
  intros W Hc Hne. rewrite <- (left_parent_ne h c oc l W Hc Hne). unfold added, attach_h, parent_of.
  rewrite list_lookup_alter_ne by done. destruct (decide (p = l)) as [->|].
  - rewrite list_lookup_alter. by destruct (left_h c oc h !! l).
  - by rewrite list_lookup_alter_ne.
Qed.
Lemma added_length h p c op oc b : length (added p c op oc b h) = length h.
Proof.
  unfold added, attach_h, left_h. destruct (o_parent oc); unfold detach_h; by rewrite !alter_length.
Qed.
Lemma added_exists h p c op oc b l : exists_in (added p c op oc b h) l <-> exists_in h l.
Proof. rewrite !exists_in_lt. by rewrite added_length. Qed.
Lemma added_attr {A} (f : obj -> A) h p c op oc b l :
  (forall o, f (att_c p op o) = f o) -> (forall o, f (att_p c oc b o) = f o) ->
  (forall o, f (s_parent None o) = f o) -> (forall o, f (det_p oc o) = f o) ->
  f <$> (added p c op oc b h !! l) = f <$> (h !! l).
Proof.
  intros H1 H2 H3 H4. unfold added, attach_h, left_h.
  assert (Ha : forall g (k : nat) (h' : list obj), (forall o, f (g o) = f o) -> f <$> (alter g k h' !! l) = f <$> (h' !! l)).
  { intros g k h' Hg. destruct (decide (k = l)) as [->|].
    - rewrite list_lookup_alter. destruct (h' !! l); simpl; [by rewrite Hg|done].
    - by rewrite list_lookup_alter_ne. }
  rewrite !Ha by done. destruct (o_parent oc); unfold detach_h; by rewrite ?Ha by done.
Qed.

(** Is the new child registered as a relation of the edge? *)
Definition edge_rel (op oc : obj) : bool :=
  bool_decide (o_kind op = KEdge) && bool_decide (o_kind oc = KRel) && o_ready op.

Lemma added_within_b h p c op oc b b' x y :
  within (added p c op oc b h) x y <-> within (added p c op oc b' h) x y.
Proof.
  assert (Hpar : forall l, parent_of (added p c op oc b h) l = parent_of (added p c op oc b' h) l).
  { intros l. unfold parent_of, added, attach_h. destruct (decide (c = l)) as [->|].
    - rewrite !list_lookup_alter. destruct (decide (p = l)) as [->|].
      + rewrite !list_lookup_alter. by destruct (left_h l oc h !! l).
      + by rewrite !list_lookup_alter_ne by done.
    - rewrite !(list_lookup_alter_ne (att_c p op)) by done. destruct (decide (p = l)) as [->|].
      + rewrite !list_lookup_alter. by destruct (left_h c oc h !! l).
      + by rewrite !list_lookup_alter_ne by done. }
  assert (Hanc : forall b b', (forall l, parent_of (added p c op oc b h) l = parent_of (added p c op oc b' h) l) ->
     forall x y, ancestor (added p c op oc b h) x y -> ancestor (added p c op oc b' h) x y).
  { clear. intros b b' Hpar x y Ha. induction Ha as [a l Hp|a q l Hp Ha IH].
    - apply anc_parent. by rewrite <- Hpar.
    - eapply anc_up; [|done]. by rewrite <- Hpar. }
  unfold within. split; intros [->|Ha]; auto; right; [by apply (Hanc b b')|by apply (Hanc b' b)].
Qed.

Lemma sorted_last_fresh (l : list nat) n : StronglySorted lt (l ++ [n]) -> n ∉ l.
Proof.
  induction l as [|a l IH]; simpl; intros Hs Hin; [inversion Hin|].
  apply StronglySorted_inv in Hs as [Hs1 Hs2]. apply elem_of_cons in Hin as [->|Hin].
  - rewrite Forall_app in Hs2. destruct Hs2 as [_ Hs2]. apply Forall_cons in Hs2 as [Hs2 _]. lia.
  - by apply IH.
Qed.

(** p.add_element(c) when it succeeds without making ports. *)
Lemma add_element_ok s p c op oc : WF0 (heap s) -> add_ok (heap s) p c -> c <> p ->
  heap s !! p = Some op -> heap s !! c = Some oc -> dget (o_uuid oc) (o_subs op) = None ->
  ~ (o_kind op = KRel /\ is_hyperelement (o_kind oc) = true) ->
  ~ (o_kind op = KEdge /\ o_kind oc = KRel /\ o_ready op = false) ->
  exists T s', add_element p c s = (Ok tt, s') /\
    touch T (set_heap (added p c op oc (edge_rel op oc) (heap s)) s) s' /\
    (forall x, exists_in (heap s) x -> x ∈ T <-> within (added p c op oc (edge_rel op oc) (heap s)) c x).
Proof.
  intros W Hok Hne Hp Hc Hg Hnr Hnu.
  destruct (add_base_cases s p c W Hok) as [[-> _]|(op' & oc' & _ & Hp' & Hc' & Hor)]; [done|].
  assert (op' = op) as -> by congruence. assert (oc' = oc) as -> by congruence.
  destruct Hor as [[[x Hx] _]|(_ & T & s1 & E1 & T1 & HT)]; [congruence|].
  pose proof (not_child _ p c op oc W Hp Hc Hg) as Hnp.
  assert (HT' : forall b x, exists_in (heap s) x -> x ∈ T <-> within (added p c op oc b (heap s)) c x).
  { intros b x Hx. rewrite (HT x Hx). apply added_within_b. }
  assert (Hc1 : exists oc1, heap s1 !! c = Some oc1 /\ o_kind oc1 = o_kind oc /\ o_cid oc1 = o_hist op).
  { destruct (t_obj _ _ _ T1 c _ (added_at_c _ p c op oc false W Hne Hc)) as (q & t & H & _).
    eexists. split; [exact H|]. done. }
  destruct Hc1 as (oc1 & Hc1 & Hk1 & Hid1).
  assert (Hp1 : exists op1, heap s1 !! p = Some op1 /\ o_ready op1 = o_ready op).
  { destruct (t_obj _ _ _ T1 p _ (added_at_p _ p c op oc false W Hne Hp Hnp)) as (q & t & H & _).
    eexists. split; [exact H|]. done. }
  destruct Hp1 as (op1 & Hp1 & Hr1).
  unfold add_element. rewrite (bind_ok _ _ _ _ _ (deref_ok _ _ _ Hp)).
  assert (Hplain : edge_rel op oc = false -> (Ok (A := unit) tt, s1) = (Ok tt, s1)) by done.
  destruct (o_kind op) eqn:Ek;
    try (exists T, s1; unfold edge_rel; rewrite Ek; simpl; split; [exact E1|]; split; [exact T1|exact (HT' false)]).
  - (* edge *)
    rewrite (bind_ok _ _ _ _ _ E1). rewrite (bind_ok _ _ _ _ _ (deref_ok _ _ _ Hc1)). rewrite Hk1.
    destruct (o_kind oc) eqn:Ekc;
      try (exists T, s1; unfold edge_rel; rewrite Ek, Ekc; simpl; split; [done|]; split; [exact T1|exact (HT' false)]).
    rewrite (bind_ok _ _ _ _ _ (deref_ok _ _ _ Hp1)). rewrite Hr1.
    destruct (o_ready op) eqn:Hr; [|exfalso; auto].
    rewrite (upd_ok _ _ _ _ Hp1). rewrite Hid1. exists T. eexists. split; [done|].
    assert (Heb : edge_rel op oc = true) by (unfold edge_rel; by rewrite Ek, Ekc, Hr).
    rewrite Heb. split; [|exact (HT' true)].
    pose proof (touch_upd _ _ _ p (fun o => s_rels (dset (o_hist op) c (o_rels o)) o) ltac:(sfun)
      (fun _ => eq_refl) (fun _ => eq_refl) (fun _ => eq_refl) T1) as T2.
    rewrite set_heap_set_heap in T2. simpl in T2.
    replace (added p c op oc true (heap s)) with
      (alter (fun o => s_rels (dset (o_hist op) c (o_rels o)) o) p (added p c op oc false (heap s))); [exact T2|].
    unfold added, attach_h. rewrite (alter_comm _ _ _ p c) by done. f_equal.
    rewrite alter_alter. apply alter_ext_at. intros o Ho.
    rewrite (left_at_p _ c oc p op Hp) in Ho by done. injection Ho as <-.
    unfold att_p. simpl. rewrite dset_new; [done|].
    apply dget_None. rewrite (wf_rels _ W p op Hp Ek Hr). intros Hin.
    apply (sorted_last_fresh _ _ (wf_cid _ W p op Hp)).
    apply elem_of_list_fmap in Hin as [y [Hy1 Hy2]]. apply elem_of_list_fmap in Hy2 as [z [-> Hz]].
    apply elem_of_list_filter in Hz as [_ Hz]. apply elem_of_list_fmap. by exists z.
  - (* relation *)
    rewrite (bind_ok _ _ _ _ _ E1). rewrite (bind_ok _ _ _ _ _ (deref_ok _ _ _ Hc1)). rewrite Hk1.
    destruct (is_hyperelement (o_kind oc)) eqn:Eh; [exfalso; auto|].
    exists T, s1. unfold edge_rel. rewrite Ek. simpl. split; [done|]. split; [exact T1|exact (HT' false)].
Qed.

(** ** connect *)
Lemma ceq_upd s l f o : heap s !! l = Some o -> (forall o, core (f o) = core o) ->
  WF0 (heap s) -> WF0 (alter f l (heap s)).
Proof. intros Hl Hf W. eapply WF_ceq; [|done]. apply ceq_alter. intros; apply Hf. Qed.

(** The heap before the port is added. *)
Definition port_obj (u : uid) (nm : string) (el : loc) : obj := s_endpoint (Some el) (blank KPort u nm nm).
Definition pre_port (x : loc) (oe : obj) (po : obj) (h : list obj) : list obj :=
  alter (fun o => s_ports (dset (o_uuid oe) (length h) (o_ports o)) o) x (h ++ [po]).

Lemma pre_port_wf h x oe u nm el : WF0 h -> exists_in h el -> WF0 (pre_port x oe (port_obj u nm el) h).
Proof.
  intros W Hel. eapply WF_ceq; [|apply (alloc_wf0 h (port_obj u nm el) W); try done].
  - unfold pre_port. by apply ceq_alter.
  - simpl. intros e [= <-]. done.
Qed.
Lemma pre_port_parent h x oe po l : o_parent po = None -> parent_of (pre_port x oe po h) l = parent_of h l.
Proof.
  intros Hpo. unfold parent_of, pre_port. assert (E : forall h' : list obj, (alter (fun o => s_ports (dset (o_uuid oe) (length h) (o_ports o)) o) x h' !! l
    ≫= o_parent) = (h' !! l ≫= o_parent)).
  { intros h'. destruct (decide (x = l)) as [->|]; [|by rewrite list_lookup_alter_ne].
    rewrite list_lookup_alter. by destruct (h' !! l). }
  rewrite E. destruct (decide (l < length h)).
  - by rewrite lookup_app_l.
  - rewrite lookup_app_r by lia. rewrite (lookup_ge_None_2 h l) by lia.
    destruct (l - length h) as [|[|]]; done.
Qed.
Lemma pre_port_kind h x oe po l : exists_in h l -> kind_of (pre_port x oe po h) l = kind_of h l.
Proof.
  intros Hl%exists_in_lt. unfold kind_of, pre_port. destruct (decide (x = l)) as [->|].
  - rewrite list_lookup_alter, lookup_app_l by done. by destruct (h !! l).
  - by rewrite list_lookup_alter_ne, lookup_app_l by done.
Qed.
Lemma pre_port_at h x oe po : exists_in h x -> pre_port x oe po h !! length h = Some po.
Proof.
  intros Hx%exists_in_lt. unfold pre_port. rewrite list_lookup_alter_ne by lia.
  by rewrite lookup_app_r, Nat.sub_diag by lia.
Qed.

(** What connect does, in every case. *)
Lemma connect_cases s x r ox oe : WF0 (heap s) -> heap s !! x = Some ox -> heap s !! r = Some oe ->
  let u := sha s (elem_id_text (o_name ox) (o_name oe)) in
  let pn := port_name (o_name ox) (o_name oe) in
  let h1 := pre_port x oe (port_obj u pn r) (heap s) in
  let ox1 := s_ports (dset (o_uuid oe) (length (heap s)) (o_ports ox)) ox in
  (is_hyperelement (o_kind ox) && o_ready ox = false /\ connect x r s = (Exn AttributeError, s)) \/
  (is_hyperelement (o_kind ox) && o_ready ox = true /\
    ((is_Some (dget u (o_subs ox)) /\ connect x r s = (Exn ErrorDuplicateElement, set_heap h1 s)) \/
     (dget u (o_subs ox) = None /\ exists T s', connect x r s = (Ok tt, s') /\
        touch T (set_heap (added x (length (heap s)) ox1 (port_obj u pn r) false h1) s) s' /\
        (forall l, exists_in h1 l -> l ∈ T <-> l = length (heap s))))).
Proof.
  intros W Hx Hr u pn h1 ox1. unfold connect.
  rewrite (bind_ok _ _ _ _ _ (deref_ok _ _ _ Hx)). rewrite (bind_ok _ _ _ _ _ (deref_ok _ _ _ Hr)).
  destruct (is_hyperelement (o_kind ox) && o_ready ox) eqn:Eg; [right|left; done]. split; [done|].
  assert (Hxl : x < length (heap s)) by (by apply lookup_lt_Some in Hx).
  set (s1 := set_heap h1 s).
  rewrite (bind_ok (hash _) _ s u s) by done.
  rewrite (bind_ok (alloc _) _ s (length (heap s)) (set_heap (heap s ++ [port_obj u pn r]) s)) by done.
  assert (Hx0 : heap (set_heap (heap s ++ [port_obj u pn r]) s) !! x = Some ox).
  { simpl. by rewrite lookup_app_l. }
  rewrite (bind_ok _ _ _ _ _ (upd_ok _ _ _ _ Hx0)). rewrite set_heap_set_heap.
  change (set_heap (alter _ x _) s) with s1.
  assert (Hx1 : heap s1 !! x = Some ox1).
  { unfold s1, h1, pre_port. simpl. rewrite list_lookup_alter, lookup_app_l by done. by rewrite Hx. }
  assert (Hpt : heap s1 !! length (heap s) = Some (port_obj u pn r)).
  { unfold s1. simpl. unfold h1. apply pre_port_at. by exists ox. }
  assert (W1 : WF0 (heap s1)). { apply pre_port_wf; [done|by exists oe]. }
  assert (Hch : children (heap s1) (length (heap s)) = []) by (unfold children; by rewrite Hpt).
  destruct (add_base_cases s1 x (length (heap s)) W1) as [[Hbad _]|(op' & oc' & Hne & Hp' & Hc' & Hor)].
  - split; [by exists ox1|]. split; [by eexists|]. split; [by apply leaf_not_ancestor|].
    intros q Hq. unfold parent_of in Hq. rewrite Hpt in Hq. done.
  - lia.
  - assert (op' = ox1) as -> by congruence. assert (oc' = port_obj u pn r) as -> by congruence.
    destruct Hor as [[Hs E]|(Hn & T & s' & E & TT & HT)]; [by left|right]. split; [done|].
    exists T, s'. split; [done|]. split; [done|]. intros l Hl. rewrite (HT l Hl). split; [|intros ->; by left].
    intros [->|Ha]; [done|]. exfalso. revert Ha.
    assert (Hok : add_ok (heap s1) x (length (heap s))).
    { split; [by exists ox1|]. split; [by eexists|]. split; [by apply leaf_not_ancestor|].
      intros q Hq. unfold parent_of in Hq. rewrite Hpt in Hq. done. }
    apply leaf_not_ancestor.
    + apply (added_wf (heap s1)); try done.
    + unfold children. rewrite (added_at_c (heap s1) x (length (heap s))); done.
Qed.

Lemma connect_wf s x r : WF0 (heap s) -> exists_in (heap s) x -> exists_in (heap s) r ->
  WF0 (heap (snd (connect x r s))).
Proof.
  intros W [ox Hx] [oe Hr].
  destruct (connect_cases s x r ox oe W Hx Hr) as [[_ ->]|(Hg & [[_ ->]|(Hn & T & s' & -> & TT & _)])]; simpl.
  - done.
  - apply pre_port_wf; [done|by eexists].
  - eapply WF_heq; [by eapply touch_heq|]. simpl.
    set (h1 := pre_port _ _ _ _) in *. assert (Hxl : x < length (heap s)) by (by apply lookup_lt_Some in Hx).
    assert (Hpt : h1 !! length (heap s) = Some (port_obj (sha s (elem_id_text (o_name ox) (o_name oe)))
       (port_name (o_name ox) (o_name oe)) r)).
    { apply pre_port_at. by eexists. }
    assert (W1 : WF0 h1) by (apply pre_port_wf; [done|by eexists]).
    assert (Hx1 : h1 !! x = Some (s_ports (dset (o_uuid oe) (length (heap s)) (o_ports ox)) ox)).
    { unfold h1, pre_port. rewrite list_lookup_alter, lookup_app_l by done. by rewrite Hx. }
    apply added_wf; try done.
    + split; [by eexists|]. split; [by eexists|]. split.
      * apply leaf_not_ancestor; [done|]. unfold children. by rewrite Hpt.
      * intros q Hq. unfold parent_of in Hq. rewrite Hpt in Hq. done.
    + intros E. rewrite E in Hxl. lia.
Qed.

(** connect moves no old element. *)
Lemma connect_parent s x r l : WF0 (heap s) -> exists_in (heap s) x -> exists_in (heap s) r ->
  exists_in (heap s) l -> parent_of (heap (snd (connect x r s))) l = parent_of (heap s) l.
Proof.
  intros W [ox Hx] [oe Hr] Hl.
  destruct (connect_cases s x r ox oe W Hx Hr) as [[_ ->]|(Hg & [[_ ->]|(Hn & T & s' & -> & TT & _)])]; simpl.
  - done.
  - by apply pre_port_parent.
  - rewrite (heq_parent _ _ _ (touch_heq _ _ _ TT)). simpl. apply exists_in_lt in Hl.
    rewrite added_parent_ne; [by apply pre_port_parent| |apply pre_port_at; by eexists|lia].
    apply pre_port_wf; [done|by eexists].
Qed.

(** ** add_element preserves the invariant *)
Lemma add_element_wf s p c : WF0 (heap s) -> add_ok (heap s) p c -> WF0 (heap (snd (add_element p c s))).
Proof.
  intros W Hok. pose proof Hok as ([op Hp] & [oc Hc] & _).
  destruct (decide (c = p)) as [->|Hne].
  { unfold add_element. rewrite (bind_ok _ _ _ _ _ (deref_ok _ _ _ Hp)).
    assert (E : add_base p p s = (Exn ErrorRecursiveHierarchy, s)) by (unfold add_base; by rewrite decide_True).
    destruct (o_kind op); try (by rewrite E); by rewrite (bind_exn _ _ _ _ _ E). }
  destruct (dget (o_uuid oc) (o_subs op)) as [x|] eqn:Hg.
  { assert (E : add_base p c s = (Exn ErrorDuplicateElement, s)).
    { destruct (add_base_cases s p c W Hok) as [[-> _]|(op' & oc' & _ & Hp' & Hc' & Hor)]; [done|].
      destruct Hor as [[_ E]|[Hn _]]; [done|congruence]. }
    unfold add_element. rewrite (bind_ok _ _ _ _ _ (deref_ok _ _ _ Hp)).
    destruct (o_kind op); try (by rewrite E); by rewrite (bind_exn _ _ _ _ _ E). }
  destruct (decide (o_kind op = KRel /\ is_hyperelement (o_kind oc) = true)) as [[Hk Hh]|Hnr].
  { destruct (add_base_cases s p c W Hok) as [[-> _]|(op' & oc' & _ & Hp' & Hc' & Hor)]; [done|].
    assert (op' = op) as -> by congruence. assert (oc' = oc) as -> by congruence.
    destruct Hor as [[[x Hx] _]|(_ & T & s1 & E1 & T1 & HT)]; [congruence|].
    pose proof (touch_heq _ _ _ T1) as Hq1. simpl in Hq1.
    assert (W1 : WF0 (heap s1)).
    { eapply WF_heq; [exact Hq1|]. apply added_wf; try done. intros E. congruence. }
    assert (Hc1 : exists oc1, heap s1 !! c = Some oc1 /\ o_kind oc1 = o_kind oc).
    { destruct (t_obj _ _ _ T1 c _ (added_at_c _ p c op oc false W Hne Hc)) as (q & t & H & _).
      eexists. split; [exact H|]. done. }
    destruct Hc1 as (oc1 & Hc1 & Hk1).
    unfold add_element. rewrite (bind_ok _ _ _ _ _ (deref_ok _ _ _ Hp)). rewrite Hk.
    rewrite (bind_ok _ _ _ _ _ E1). rewrite (bind_ok _ _ _ _ _ (deref_ok _ _ _ Hc1)). rewrite Hk1, Hh.
    apply connect_wf; [done|by eexists|]. apply (heq_exists _ _ _ Hq1). apply added_exists. by eexists. }
  destruct (decide (o_kind op = KEdge /\ o_kind oc = KRel /\ o_ready op = false)) as [(Hk & Hkc & Hr)|Hnu].
  { destruct (add_base_cases s p c W Hok) as [[-> _]|(op' & oc' & _ & Hp' & Hc' & Hor)]; [done|].
    assert (op' = op) as -> by congruence. assert (oc' = oc) as -> by congruence.
    destruct Hor as [[[x Hx] _]|(_ & T & s1 & E1 & T1 & HT)]; [congruence|].
    pose proof (touch_heq _ _ _ T1) as Hq1. simpl in Hq1.
    assert (W1 : WF0 (heap s1)).
    { eapply WF_heq; [exact Hq1|]. apply added_wf; try done. intros _ E. congruence. }
    assert (Hc1 : exists oc1, heap s1 !! c = Some oc1 /\ o_kind oc1 = o_kind oc).
    { destruct (t_obj _ _ _ T1 c _ (added_at_c _ p c op oc false W Hne Hc)) as (q & t & H & _).
      eexists. split; [exact H|]. done. }
    destruct Hc1 as (oc1 & Hc1 & Hk1).
    assert (Hp1 : exists op1, heap s1 !! p = Some op1 /\ o_ready op1 = o_ready op).
    { destruct (t_obj _ _ _ T1 p _ (added_at_p _ p c op oc false W Hne Hp (not_child _ p c op oc W Hp Hc Hg))) as (q & t & H & _).
      eexists. split; [exact H|]. done. }
    destruct Hp1 as (op1 & Hp1 & Hr1).
    unfold add_element. rewrite (bind_ok _ _ _ _ _ (deref_ok _ _ _ Hp)). rewrite Hk.
    rewrite (bind_ok _ _ _ _ _ E1). rewrite (bind_ok _ _ _ _ _ (deref_ok _ _ _ Hc1)). rewrite Hk1, Hkc.
    rewrite (bind_ok _ _ _ _ _ (deref_ok _ _ _ Hp1)). rewrite Hr1, Hr. simpl. exact W1. }
  destruct (add_element_ok s p c op oc) as (T & s' & -> & TT & _); try done. simpl.
  eapply WF_heq; [by eapply touch_heq|]. simpl. apply added_wf; try done.
  intros Hk Hr. unfold edge_rel. rewrite Hk, Hr. simpl. by rewrite andb_true_r.
Qed.

(** add_element moves no other old element. *)
Lemma add_element_parent s p c l : WF0 (heap s) -> add_ok (heap s) p c -> exists_in (heap s) l -> l <> c ->
  parent_of (heap (snd (add_element p c s))) l = parent_of (heap s) l.
Proof.
  intros W Hok Hl Hlc. pose proof Hok as ([op Hp] & [oc Hc] & _).
  assert (Hb : forall s1 r, add_base p c s = (r, s1) -> WF0 (heap s1) /\ parent_of (heap s1) l = parent_of (heap s) l /\
     (forall x, exists_in (heap s) x -> exists_in (heap s1) x)
     \/ (o_kind op = KEdge /\ parent_of (heap s1) l = parent_of (heap s) l /\
     (forall x, exists_in (heap s) x -> exists_in (heap s1) x))).
  { intros s1 r E.
    assert (Hx : parent_of (heap s1) l = parent_of (heap s) l /\ (forall x, exists_in (heap s) x -> exists_in (heap s1) x)).
    { split.
      - destruct (add_base_cases s p c W Hok) as [[-> E']|(op' & oc' & Hne & Hp' & Hc' & [[_ E']|(Hn & T & s' & E' & TT & _)])];
          rewrite E' in E; injection E as <- <-; try done.
        rewrite (heq_parent _ _ _ (touch_heq _ _ _ TT)). simpl. by rewrite added_parent_ne.
      - intros x. pose proof (pres_add_base p c s) as Hm. rewrite E in Hm. simpl in Hm. by apply mono_exists. }
    destruct Hx as [Hx1 Hx2]. destruct (decide (o_kind op = KEdge)) as [Hk|Hk]; [by right|left].
    split; [|by split].
    destruct (add_base_cases s p c W Hok) as [[-> E']|(op' & oc' & Hne & Hp' & Hc' & [[_ E']|(Hn & T & s' & E' & TT & _)])];
      rewrite E' in E; injection E as <- <-; try done.
    eapply WF_heq; [by eapply touch_heq|]. simpl. apply added_wf; try done. intros Hk'. congruence. }
  unfold add_element. rewrite (bind_ok _ _ _ _ _ (deref_ok _ _ _ Hp)).
  destruct (add_base p c s) as [[[]|e] s1] eqn:E.
  - assert (Hp1 : parent_of (heap s1) l = parent_of (heap s) l) by (destruct (Hb _ _ eq_refl) as [(_ & ? & _)|(_ & ? & _)]; done).
    destruct (o_kind op) eqn:Ek; try (rewrite E; exact Hp1).
    + rewrite (bind_ok _ _ _ _ _ E). unfold bind, deref. destruct (heap s1 !! c) as [oc1|]; [|done].
      destruct (o_kind oc1); try done. destruct (heap s1 !! p) as [op1|] eqn:Ep1; [|done].
      destruct (o_ready op1); [|done]. rewrite (upd_ok _ _ _ _ Ep1). simpl. unfold parent_of in *.
      destruct (decide (p = l)) as [->|]; [|by rewrite list_lookup_alter_ne].
      rewrite list_lookup_alter. rewrite <- Hp1. by destruct (heap s1 !! l).
    + rewrite (bind_ok _ _ _ _ _ E). destruct (Hb _ _ eq_refl) as [(W1 & _ & He)|(? & _)]; [|done].
      unfold bind, deref. destruct (heap s1 !! c) as [oc1|] eqn:Ec1; [|done].
      destruct (is_hyperelement (o_kind oc1)); [|done].
      rewrite connect_parent; [done|done|by eexists|apply He; by eexists|by apply He].
  - assert (Hp1 : parent_of (heap s1) l = parent_of (heap s) l) by (destruct (Hb _ _ eq_refl) as [(_ & ? & _)|(_ & ? & _)]; done).
    destruct (o_kind op); try (rewrite E; exact Hp1); by rewrite (bind_exn _ _ _ _ _ E).
Qed.
