(** * C17 - C20 *)
From stdpp Require Import relations.
From Verif Require Import Spec Hierarchy Elements Factory History PDict PPath PExec PBfs PWF PAdd PMono PStep PRemove PReach PPrim PHist QHier QHier2 QHier3 QHier4.

Lemma children_uuid_new h p op u : WF0 h -> h !! p = Some op -> (forall x, x ∈ children h p -> uuid_of h x <> u) ->
  dget u (o_subs op) = None.
Proof.
  intros W Hp Hu. apply dget_None. intros Hin. apply elem_of_list_fmap in Hin as [[u' x] [Heq Hin]]. simpl in Heq. subst u'.
  destruct (wf_sub _ W p op _ x Hp Hin) as (ox & Hx & Hux & _). apply (Hu x).
  - unfold children. rewrite Hp. apply elem_of_list_fmap. by exists (u, x).
  - unfold uuid_of. rewrite Hx. done.
Qed.
Lemma children_uuid_old h p op u : WF0 h -> h !! p = Some op -> dget u (o_subs op) = None ->
  forall x, x ∈ children h p -> uuid_of h x <> u.
Proof.
  intros W Hp Hn x Hx Hu. apply dget_None in Hn. apply Hn. unfold children in Hx. rewrite Hp in Hx.
  apply elem_of_list_fmap in Hx as [[u' y] [-> Hin]]. destruct (wf_sub _ W p op u' y Hp Hin) as (oy & Hy & <- & _).
  cbn [snd] in Hu. unfold uuid_of in Hu. rewrite Hy in Hu. simpl in Hu. subst. apply elem_of_list_fmap. by exists (o_uuid oy, y).
Qed.

Lemma kept_refl h : kept h h.
Proof. intros l o H. by rewrite H. Qed.
Lemma kept_trans h1 h2 h3 : kept h1 h2 -> kept h2 h3 -> kept h1 h3.
Proof.
  intros A B l o H. specialize (A l o H). destruct (h2 !! l) as [o2|] eqn:E; [|done]. specialize (B l o2 E). rewrite B.
  simpl in A. done.
Qed.
Lemma kept_exists h h' l : kept h h' -> exists_in h l -> exists_in h' l.
Proof. intros K [o Ho]. specialize (K l o Ho). unfold exists_in. destruct (h' !! l); [by eexists|done]. Qed.
Lemma kept_attr {A} (f : obj -> A) h h' l : (forall o, f (ident_part o) = f o) -> kept h h' -> exists_in h l -> f <$> h' !! l = f <$> h !! l.
Proof.
  intros Hf K [o Ho]. specialize (K l o Ho). rewrite Ho. destruct (h' !! l) as [o'|]; [|done]. cbn [fmap option_fmap option_map] in *. apply (inj Some) in K.
  f_equal. rewrite <- (Hf o), <- (Hf o'). by rewrite K.
Qed.
Lemma unmoved_trans h1 h2 h3 : (forall l, exists_in h1 l -> exists_in h2 l) -> unmoved h1 h2 -> unmoved h2 h3 -> unmoved h1 h3.
Proof. intros E A B l Hl. rewrite B by (by apply E). by apply A. Qed.
Lemma kept_uuid h h' l : kept h h' -> exists_in h l -> uuid_of h' l = uuid_of h l.
Proof. intros K H. unfold uuid_of. by rewrite (kept_attr o_uuid h h' l (fun _ => eq_refl) K H). Qed.
Lemma kept_name h h' l : kept h h' -> exists_in h l -> name_of h' l = name_of h l.
Proof. intros K H. unfold name_of. by rewrite (kept_attr o_name h h' l (fun _ => eq_refl) K H). Qed.
Lemma kept_kind h h' l : kept h h' -> exists_in h l -> kind_of h' l = kind_of h l.
Proof. intros K H. unfold kind_of. by rewrite (kept_attr o_kind h h' l (fun _ => eq_refl) K H). Qed.

Lemma heq_kept h h' : heq h h' -> kept h h'.
Proof. intros Hq l o Ho. pose proof (heq_attr ident_part h h' l (fun _ => eq_refl) Hq) as H. rewrite Ho in H. exact H. Qed.
Lemma added_kept p c op oc b h : kept h (added p c op oc b h).
Proof.
  intros l o Ho. pose proof (added_attr ident_part h p c op oc b l (fun _ => eq_refl) (fun _ => eq_refl) (fun _ => eq_refl) (fun _ => eq_refl)) as H.
  rewrite Ho in H. exact H.
Qed.
Lemma alloc_kept h o : kept h (h ++ [o]).
Proof. intros l o' Ho. by rewrite (lookup_app_l_Some _ _ _ _ Ho). Qed.
Lemma ports_kept h x f : kept h (alter (fun o => s_ports (f o) o) x h).
Proof.
  intros l o Ho. destruct (decide (x = l)) as [->|].
  - rewrite list_lookup_alter, Ho. done. - rewrite list_lookup_alter_ne by done. by rewrite Ho.
Qed.
Lemma wf_children_exist h l x : WF0 h -> x ∈ children h l -> exists_in h x.
Proof. intros W H. by destruct (wf0_child _ W l x H). Qed.
Lemma filter_fresh h l c : WF0 h -> ~ exists_in h c -> filter (fun x => x <> c) (children h l) = children h l.
Proof. intros W Hc. apply filter_not_child. intros H. apply Hc. by eapply wf_children_exist. Qed.

(** A fresh element was appended to [p]. *)
Record grown (h h' : list obj) (p c : loc) (oc : obj) : Prop := {
  gr_new : c = length h;
  gr_len : length h' = S (length h);
  gr_wf : WF0 h';
  gr_kept : kept h h';
  gr_unmoved : unmoved h h';
  gr_p : children h' p = children h p ++ [c];
  gr_other : forall l, exists_in h l -> l <> p -> children h' l = children h l;
  gr_fresh : fresh_child h h' p c oc
}.

(** Attaching a freshly allocated element. *)
Lemma add_fresh_grown s p o op : WF0 (heap s) -> heap s !! p = Some op ->
  o_parent o = None -> o_subs o = [] -> o_index o = [] -> o_cnt o = 0%Z -> o_rels o = [] ->
  (is_conceptual (o_kind o) = true -> is_Some (o_clock o)) ->
  (forall e, o_endpoint o = Some e -> exists_in (heap s) e) -> (o_kind o = KRel -> o_endpoint o <> None) ->
  (forall x, x ∈ children (heap s) p -> uuid_of (heap s) x <> o_uuid o) ->
  ~ (o_kind op = KRel /\ is_hyperelement (o_kind o) = true) ->
  ~ (o_kind op = KEdge /\ o_kind o = KRel /\ o_ready op = false) ->
  let c := length (heap s) in
  exists s', add_element p c (set_heap (heap s ++ [o]) s) = (Ok tt, s') /\ grown (heap s) (heap s') p c o /\
    mono (set_heap (heap s ++ [o]) s) s' /\ (forall l, exists_in (heap s) l -> fixed_part <$> heap s' !! l = fixed_part <$> heap s !! l) /\
    (forall l, exists_in (heap s) l -> o_qname <$> heap s' !! l = o_qname <$> heap s !! l).
Proof.
  intros W Hp H1 H2 H3 H4 H5 H6 H7 H8 Hu Hk1 Hk2 c. set (s1 := set_heap (heap s ++ [o]) s).
  assert (W1 : WF0 (heap s1)) by (by apply alloc_wf0).
  assert (Hlt : p < length (heap s)) by (by apply lookup_lt_Some in Hp).
  assert (Hp1 : heap s1 !! p = Some op) by (unfold s1; simpl; by rewrite lookup_app_l).
  assert (Hc1 : heap s1 !! c = Some o) by (unfold s1, c; simpl; by rewrite lookup_app_r, Nat.sub_diag by lia).
  assert (Hok : add_ok (heap s1) p c) by (apply add_fresh_ok; [done|by eexists|done|done]).
  assert (Hne : c <> p) by (unfold c; lia).
  pose proof (children_uuid_new _ _ _ _ W Hp Hu) as Hg.
  destruct (add_element_ok s1 p c op o W1 Hok Hne Hp1 Hc1 Hg Hk1 Hk2) as (T & s' & E & TT & HT).
  pose proof (touch_heq _ _ _ TT) as Hq. cbn [heap set_heap] in Hq. exists s'. split; [done|].
  pose proof (pres_add_element p c s1) as Hm. rewrite E in Hm. cbn [snd] in Hm.
  assert (Hnex : ~ exists_in (heap s) c) by (rewrite exists_in_lt; unfold c; lia).
  split; [|split; [done|split]].
  - split.
    + done.
    + rewrite (heq_length _ _ Hq), added_length. unfold s1. simpl. rewrite app_length. simpl. lia.
    + pose proof (add_element_wf s1 p c W1 Hok) as W'. rewrite E in W'. exact W'.
    + eapply kept_trans; [apply (alloc_kept (heap s) o)|]. eapply kept_trans; [|exact (heq_kept _ _ Hq)]. apply added_kept.
    + intros l Hl. rewrite (heq_parent _ _ l Hq). rewrite added_parent_ne; [by apply app_parent|done|done|].
      intros ->. done.
    + rewrite (heq_children _ _ p Hq). rewrite added_children_p; [|done|done|done|congruence]. f_equal. unfold children. by rewrite Hp1, Hp.
    + intros l Hl Hlp. rewrite (heq_children _ _ l Hq). rewrite added_children_ne; [|done..].
      assert (Hs : children (heap s1) l = children (heap s) l).
      { unfold children, s1. simpl. apply exists_in_lt in Hl. by rewrite lookup_app_l. }
      rewrite Hs. by apply filter_fresh.
    + split; [done|]. split.
      { rewrite (heq_parent _ _ c Hq). unfold parent_of. by rewrite added_at_c. }
      split. { rewrite (heq_children _ _ c Hq). unfold children. rewrite added_at_c by done. simpl. by rewrite H2. }
      rewrite (heq_attr fixed_part _ _ c (fun _ => eq_refl) Hq). rewrite added_fixed. by rewrite Hc1.
  - intros l Hl. rewrite (heq_attr fixed_part _ _ l (fun _ => eq_refl) Hq). rewrite added_fixed. unfold s1. simpl.
    apply exists_in_lt in Hl. by rewrite lookup_app_l.
  - intros l Hl. set (b := edge_rel op o) in *.
    assert (Ho : o_qname <$> added p c op o b (heap s1) !! l = o_qname <$> heap s !! l).
    { rewrite (added_attr o_qname (heap s1) p c op o b l (fun _ => eq_refl) (fun _ => eq_refl) (fun _ => eq_refl) (fun _ => eq_refl)).
      unfold s1. simpl. apply exists_in_lt in Hl. by rewrite lookup_app_l. }
    rewrite <- Ho. assert (Hl1 : exists_in (heap s1) l) by (by eapply kept_exists; [apply alloc_kept|]).
    assert (Hl2 : exists_in (added p c op o b (heap s1)) l) by (by apply added_exists).
    destruct Hl2 as [o2 Ho2]. destruct (t_obj _ _ _ TT l o2 Ho2) as (q & t & Ht & Hn & _). rewrite Ht, Ho2. simpl.
    destruct Hn as [-> _]; [|done]. intros Hin. apply (HT l Hl1) in Hin as [->|Ha]; [done|].
    assert (Hcc : forall a x, ancestor (added p c op o b (heap s1)) a x -> a = c -> exists_in (heap s) x -> False).
    { intros a x. induction 1 as [a x Hpx|a q' x Hpx _ IH]; intros -> Hx.
      - rewrite added_parent_ne in Hpx; [|done|done|intros ->; done]. unfold s1 in Hpx. cbn [heap set_heap] in Hpx.
        rewrite app_parent in Hpx by done. apply Hnex. by eapply wf0_parent_exists.
      - rewrite added_parent_ne in Hpx; [|done|done|intros ->; done]. unfold s1 in Hpx. cbn [heap set_heap] in Hpx.
        rewrite app_parent in Hpx by done. apply IH; [done|]. by eapply wf0_parent_exists. }
    exact (Hcc c l Ha eq_refl Hl).
Qed.

(** connect: a fresh port. *)
Lemma connect_grown s x r ox oe : WF0 (heap s) -> heap s !! x = Some ox -> heap s !! r = Some oe ->
  is_hyperelement (o_kind ox) = true -> o_ready ox = true ->
  let u := sha s (elem_id_text (o_name ox) (o_name oe)) in
  let pn := port_name (o_name ox) (o_name oe) in
  (forall y, y ∈ children (heap s) x -> uuid_of (heap s) y <> u) ->
  exists s', connect x r s = (Ok tt, s') /\ grown (heap s) (heap s') x (length (heap s)) (port_obj u pn r) /\ mono s s' /\
    (forall l, exists_in (heap s) l -> l <> x -> fixed_part <$> heap s' !! l = fixed_part <$> heap s !! l).
Proof.
  intros W Hx Hr Hk Hrd u pn Hu. set (c := length (heap s)).
  destruct (connect_cases s x r ox oe W Hx Hr) as [[Hf _]|(Hg & [[[y Hy] _]|(Hn & T & s' & E & TT & HT)])].
  { by rewrite Hk, Hrd in Hf. }
  { fold u in Hy. rewrite (children_uuid_new _ _ _ _ W Hx Hu) in Hy. done. }
  fold u in Hn, TT. fold pn in TT.
  set (h1 := pre_port x oe (port_obj u pn r) (heap s)) in *.
  set (ox1 := s_ports (dset (o_uuid oe) (length (heap s)) (o_ports ox)) ox) in *.
  assert (Hxl : x < length (heap s)) by (by apply lookup_lt_Some in Hx).
  assert (Hx1 : h1 !! x = Some ox1).
  { unfold h1, pre_port. simpl. rewrite list_lookup_alter, lookup_app_l by done. by rewrite Hx. }
  assert (Hpt : h1 !! c = Some (port_obj u pn r)) by (apply pre_port_at; by exists ox).
  assert (W1 : WF0 h1). { apply pre_port_wf; [done|by exists oe]. }
  pose proof (touch_heq _ _ _ TT) as Hq. cbn [heap set_heap] in Hq. fold c in Hq.
  assert (Hne : c <> x) by (unfold c; lia).
  pose proof (pres_connect x r s) as Hm. rewrite E in Hm. cbn [snd] in Hm.
  assert (Hnex : ~ exists_in (heap s) c) by (rewrite exists_in_lt; unfold c; lia).
  assert (Hch1 : forall l, exists_in (heap s) l -> children h1 l = children (heap s) l).
  { intros l Hl. apply exists_in_lt in Hl. unfold children, h1, pre_port. destruct (decide (x = l)) as [->|].
    - rewrite list_lookup_alter, lookup_app_l by done. by destruct (heap s !! l).
    - by rewrite list_lookup_alter_ne, lookup_app_l. }
  exists s'. split; [done|]. split; [|split; [done|]].
  - split.
    + done.
    + rewrite (heq_length _ _ Hq), added_length. unfold h1, pre_port. rewrite alter_length, app_length. simpl. lia.
    + pose proof (connect_wf s x r W ltac:(by eexists) ltac:(by eexists)) as W'. rewrite E in W'. exact W'.
    + eapply kept_trans; [apply (alloc_kept (heap s) (port_obj u pn r))|].
      eapply kept_trans; [|exact (heq_kept _ _ Hq)]. eapply kept_trans; [|apply added_kept].
      unfold h1, pre_port. apply ports_kept.
    + intros l Hl. rewrite (heq_parent _ _ l Hq). rewrite added_parent_ne; [by apply pre_port_parent|done|done|].
      intros ->. done.
    + rewrite (heq_children _ _ x Hq). rewrite added_children_p; [|done..]. f_equal. apply Hch1. by eexists.
    + intros l Hl Hlp. rewrite (heq_children _ _ l Hq). rewrite added_children_ne; [|done..]. rewrite Hch1 by done. by apply filter_fresh.
    + split; [done|]. split.
      { rewrite (heq_parent _ _ c Hq). unfold parent_of. by rewrite added_at_c. }
      split. { rewrite (heq_children _ _ c Hq). unfold children. by rewrite added_at_c. }
      rewrite (heq_attr fixed_part _ _ c (fun _ => eq_refl) Hq). rewrite added_fixed. by rewrite Hpt.
  - intros l Hl Hlx. rewrite (heq_attr fixed_part _ _ l (fun _ => eq_refl) Hq). rewrite added_fixed.
    apply exists_in_lt in Hl. unfold h1, pre_port. by rewrite list_lookup_alter_ne, lookup_app_l.
Qed.

(** unary_connect without a semantic value: a fresh relation and a fresh port. *)
Record connected (h h' : list obj) (e n r pt : loc) (orel oport : obj) : Prop := {
  cn_r : r = length h;
  cn_pt : pt = S (length h);
  cn_len : length h' = S (S (length h));
  cn_wf : WF0 h';
  cn_kept : kept h h';
  cn_unmoved : unmoved h h';
  cn_e : children h' e = children h e ++ [r];
  cn_n : children h' n = children h n ++ [pt];
  cn_other : forall l, exists_in h l -> l <> e -> l <> n -> children h' l = children h l;
  cn_fr : fresh_child h h' e r orel;
  cn_fp : fresh_child h h' n pt oport;
  cn_fixed : forall l, exists_in h l -> l <> n -> fixed_part <$> h' !! l = fixed_part <$> h !! l
}.
Definition rel_obj (u : uid) (nm prog : string) (n : loc) (w : weight) (d : direction) (sem : option loc) : obj :=
  s_sem sem (s_weight w (s_dir d (s_endpoint (Some n) (blank KRel u nm prog)))).

Lemma unary_ok s e n oe on c w d : WF0 (heap s) -> heap s !! e = Some oe -> heap s !! n = Some on -> n <> e ->
  o_kind oe = KEdge -> o_ready oe = true -> o_clock oe = Some c ->
  is_hyperelement (o_kind on) = true -> o_ready on = true ->
  let nm := rel_name (o_name oe) (o_name on) (clk s c (tick s)) in
  let ur := sha s (elem_id_text (o_name oe) (o_name on)) in
  let up := sha s (elem_id_text (o_name on) nm) in
  (forall x, x ∈ children (heap s) e -> uuid_of (heap s) x <> ur) ->
  (forall x, x ∈ children (heap s) n -> uuid_of (heap s) x <> up) ->
  let r := length (heap s) in
  exists s', unary_connect e n w d None s = (Ok r, s') /\
    connected (heap s) (heap s') e n r (S r) (rel_obj ur nm (join "/" [o_name oe; nm]) n w d None)
      (port_obj up (port_name (o_name on) nm) r) /\ mono s s' /\ tick s < tick s'.
Proof.
  intros W He Hn Hne Hk Hrd Hclk Hkn Hrn nm ur up Hu1 Hu2 r.
  set (s1 := set_tick (S (tick s)) s). set (orel := rel_obj ur nm (join "/" [o_name oe; nm]) n w d None).
  set (s2 := set_heap (heap s1 ++ [orel]) s1). set (pt := S r). set (oport := port_obj up (port_name (o_name on) nm) r).
  assert (Hel : e < length (heap s)) by (by apply lookup_lt_Some in He).
  assert (Hnl : n < length (heap s)) by (by apply lookup_lt_Some in Hn).
  assert (W2 : WF0 (heap s2)).
  { unfold s2. cbn [heap set_heap]. apply alloc_wf0; try done. unfold orel. simpl. intros x [= <-]. by eexists. }
  assert (He2 : heap s2 !! e = Some oe) by (unfold s2; simpl; by rewrite lookup_app_l).
  assert (Hn2 : heap s2 !! n = Some on) by (unfold s2; simpl; by rewrite lookup_app_l).
  assert (Hr2 : heap s2 !! r = Some orel) by (unfold s2, r; simpl; by rewrite lookup_app_r, Nat.sub_diag by lia).
  assert (Hlen2 : length (heap s2) = pt) by (unfold s2, pt, r; simpl; rewrite app_length; simpl; lia).
  assert (Hch2 : forall l, exists_in (heap s) l -> children (heap s2) l = children (heap s) l).
  { intros l Hl. apply exists_in_lt in Hl. unfold children, s2. simpl. by rewrite lookup_app_l. }
  assert (Hex2 : forall l, exists_in (heap s) l -> exists_in (heap s2) l).
  { intros l Hl. apply exists_in_lt. apply exists_in_lt in Hl. rewrite Hlen2. unfold pt, r. lia. }
  assert (Huu2 : forall l, exists_in (heap s) l -> uuid_of (heap s2) l = uuid_of (heap s) l).
  { intros l Hl. apply exists_in_lt in Hl. unfold uuid_of, s2. simpl. by rewrite lookup_app_l. }
  assert (Hrn' : ~ exists_in (heap s) r) by (rewrite exists_in_lt; unfold r; lia).
  destruct (connect_grown s2 n r on orel W2 Hn2 Hr2 Hkn Hrn) as (s3 & E3 & G3 & M3 & F3).
  { intros y Hy. rewrite Hch2 in Hy by (by eexists). rewrite Huu2 by (by eapply wf_children_exist). by apply Hu2. }
  change (sha s2 (elem_id_text (o_name on) (o_name orel))) with up in G3.
  change (port_name (o_name on) (o_name orel)) with (port_name (o_name on) nm) in G3. fold oport in G3. rewrite Hlen2 in G3.
  assert (Hre : r <> n) by (unfold r; lia). assert (Hre' : r <> e) by (unfold r; lia).
  (* the edge and the relation in s3 *)
  assert (He3 : exists oe3, heap s3 !! e = Some oe3 /\ fixed_part oe3 = fixed_part oe).
  { pose proof (F3 e ltac:(by eexists) ltac:(done)) as H. rewrite He2 in H. destruct (heap s3 !! e) as [o|]; [|done].
    exists o. split; [done|]. cbn [fmap option_fmap option_map] in H. by apply (inj Some) in H. }
  destruct He3 as (oe3 & He3 & Hf3).
  assert (Hr3 : exists or3, heap s3 !! r = Some or3 /\ fixed_part or3 = fixed_part orel).
  { pose proof (F3 r ltac:(by eexists) Hre) as H. rewrite Hr2 in H. destruct (heap s3 !! r) as [o|]; [|done].
    exists o. split; [done|]. cbn [fmap option_fmap option_map] in H. by apply (inj Some) in H. }
  destruct Hr3 as (or3 & Hr3 & Hfr3).
  assert (Hpr3 : parent_of (heap s3) r = None).
  { rewrite (gr_unmoved _ _ _ _ _ G3 r) by (by eexists). unfold parent_of. by rewrite Hr2. }
  assert (Hcr3 : children (heap s3) r = []).
  { rewrite (gr_other _ _ _ _ _ G3 r) by (done || by eexists). unfold children. by rewrite Hr2. }
  pose proof (gr_wf _ _ _ _ _ G3) as W3.
  assert (Hke3 : o_kind oe3 = KEdge) by (change (o_kind oe3) with (o_kind (fixed_part oe3)); by rewrite Hf3).
  assert (Hrd3 : o_ready oe3 = true) by (change (o_ready oe3) with (o_ready (fixed_part oe3)); by rewrite Hf3).
  assert (Hkr3 : o_kind or3 = KRel) by (change (o_kind or3) with (o_kind (fixed_part or3)); by rewrite Hfr3).
  assert (Hur3 : o_uuid or3 = ur) by (change (o_uuid or3) with (o_uuid (fixed_part or3)); by rewrite Hfr3).
  assert (Hok : add_ok (heap s3) e r).
  { split; [by eexists|]. split; [by eexists|]. split; [by apply leaf_not_ancestor|]. intros q Hq. congruence. }
  assert (Hg3 : dget (o_uuid or3) (o_subs oe3) = None).
  { apply (children_uuid_new (heap s3) e); [done|done|]. rewrite Hur3. intros x Hx.
    rewrite (gr_other _ _ _ _ _ G3 e) in Hx by (done || by eexists). rewrite Hch2 in Hx by (by eexists).
    pose proof (wf_children_exist _ _ _ W Hx) as Hxe. rewrite (kept_uuid _ _ _ (gr_kept _ _ _ _ _ G3)) by (by apply Hex2).
    rewrite Huu2 by done. by apply Hu1. }
  destruct (add_element_ok s3 e r oe3 or3 W3 Hok Hre' He3 Hr3 Hg3) as (T & s4 & E4 & TT & _).
  { intros [Hx _]. congruence. } { intros (_ & _ & Hx). congruence. }
  pose proof (touch_heq _ _ _ TT) as Hq. cbn [heap set_heap] in Hq.
  pose proof (pres_add_element e r s3) as M4. rewrite E4 in M4. cbn [snd] in M4.
  assert (Hpar3 : o_parent or3 = None) by (unfold parent_of in Hpr3; by rewrite Hr3 in Hpr3).
  exists s4. split; [|split; [|split]].
  - unfold unary_connect. rewrite (bind_ok _ _ _ _ _ (deref_ok _ _ _ He)). rewrite (bind_ok _ _ _ _ _ (deref_ok _ _ _ Hn)).
    rewrite decide_True by done. rewrite Hclk. cbn [of_opt]. rewrite (bind_ok (ret c) _ s c s) by done.
    rewrite (bind_ok (now c) _ s (clk s c (tick s)) s1) by done. rewrite Hrd. fold nm.
    rewrite (bind_ok (hash _) _ s1 ur s1) by done. unfold new_rel. fold (rel_obj ur nm (join "/" [o_name oe; nm]) n w d None). fold orel.
    rewrite (bind_ok _ _ _ _ _ (alloc_state _ _)). fold s2. change (length (heap s1)) with r.
    rewrite (bind_ok _ _ _ _ _ E3). rewrite (bind_ok (ret tt) _ s3 tt s3) by done. by rewrite (bind_ok _ _ _ _ _ E4).
  - assert (Hnex : ~ exists_in (heap s) pt) by (rewrite exists_in_lt; unfold pt, r; lia).
    assert (Hex3 : forall l, exists_in (heap s) l -> exists_in (heap s3) l).
    { intros l Hl. apply (kept_exists _ _ _ (gr_kept _ _ _ _ _ G3)). by apply Hex2. }
    destruct (gr_fresh _ _ _ _ _ G3) as (_ & Hppt & Hcpt & Hfpt).
    assert (Hptr : pt <> r) by (unfold pt; lia). assert (Hpte : pt <> e) by (unfold pt, r; lia).
    assert (Hrest : forall l, l <> e -> l <> r -> children (heap s3) l = children (heap s4) l).
    { intros l Hle Hlr. rewrite (heq_children _ _ l Hq). rewrite (added_children_ne (heap s3) e r oe3 or3) by done.
      symmetry. apply filter_not_child. intros Hin. destruct (wf0_child _ W3 l r Hin) as [_ Hx]. congruence. }
    split.
    + done. + done.
    + rewrite (heq_length _ _ Hq), added_length, (gr_len _ _ _ _ _ G3), Hlen2. done.
    + pose proof (add_element_wf s3 e r W3 Hok) as W'. rewrite E4 in W'. exact W'.
    + eapply kept_trans; [apply (alloc_kept (heap s) orel)|]. eapply kept_trans; [exact (gr_kept _ _ _ _ _ G3)|].
      eapply kept_trans; [|exact (heq_kept _ _ Hq)]. apply added_kept.
    + intros l Hl. rewrite (heq_parent _ _ l Hq). rewrite added_parent_ne; [|done|done|intros ->; done].
      rewrite (gr_unmoved _ _ _ _ _ G3) by (by apply Hex2). unfold s2. simpl. by apply app_parent.
    + rewrite (heq_children _ _ e Hq). rewrite added_children_p; [|done|done|done|congruence]. f_equal.
      rewrite (gr_other _ _ _ _ _ G3) by (done || by eexists). apply Hch2. by eexists.
    + rewrite <- Hrest by done. rewrite (gr_p _ _ _ _ _ G3). f_equal. apply Hch2. by eexists.
    + intros l Hl H1 H2. rewrite <- Hrest by (done || by intros ->). rewrite (gr_other _ _ _ _ _ G3) by (done || by apply Hex2). by apply Hch2.
    + split; [done|]. split; [rewrite (heq_parent _ _ r Hq); unfold parent_of; by rewrite added_at_c|].
      split. { rewrite (heq_children _ _ r Hq). rewrite (added_children_ne (heap s3) e r oe3 or3) by done. by rewrite Hcr3. }
      rewrite (heq_attr fixed_part _ _ r (fun _ => eq_refl) Hq). rewrite added_fixed, Hr3. cbn [fmap option_fmap option_map]. by rewrite Hfr3.
    + split; [done|]. split.
      { rewrite (heq_parent _ _ pt Hq). by rewrite added_parent_ne. }
      split; [by rewrite <- Hrest|].
      rewrite (heq_attr fixed_part _ _ pt (fun _ => eq_refl) Hq). by rewrite added_fixed.
    + intros l Hl Hln. rewrite (heq_attr fixed_part _ _ l (fun _ => eq_refl) Hq). rewrite added_fixed.
      rewrite F3 by (done || by apply Hex2). unfold s2. simpl. apply exists_in_lt in Hl. by rewrite lookup_app_l.
  - eapply mono_trans; [apply (pres_now c s)|]. eapply mono_trans; [exact (pres_alloc orel eq_refl s1)|]. by eapply mono_trans.
  - pose proof (m_tick _ _ M3). pose proof (m_tick _ _ M4). assert (tick s2 = S (tick s)) by done. lia.
Qed.
