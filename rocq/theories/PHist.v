(** * Properties of whole histories: context ids, qualified names, depths *)
From stdpp Require Import relations.
From Verif Require Import Spec Hierarchy Elements Factory History PDict PPath PExec PBfs PWF PAdd PMono PStep PRemove PReach PPrim.
From Coq Require Import Sorting.Sorted.

Lemma history_reach g s s' : reach s -> history g s s' -> reach s'.
Proof. intros R H. induction H; [done|]. by apply reach_step. Qed.
Lemma history_prims g s s' : WF0 (heap s) -> history g s s' -> WF0 (heap s') /\ prims g s s'.
Proof.
  intros W H. induction H as [|s1 o H [W1 P1] Ha Ho]; [split; [done|apply rtc_refl]|]. split.
  - by apply exec_wf.
  - eapply rtc_transitive; [exact P1|]. by apply exec_prims.
Qed.

(** ** Attributes across elementary steps *)
Lemma mcore_attr {A} (f : obj -> A) (h h' : list obj) l : (forall o, f (mcore o) = f o) ->
  mcore <$> h = mcore <$> h' -> f <$> h' !! l = f <$> h !! l.
Proof.
  intros Hf H. assert (H2 : (mcore <$> h) !! l = (mcore <$> h') !! l) by by rewrite H.
  rewrite !list_lookup_fmap in H2. destruct (h !! l) as [a|], (h' !! l) as [b|]; simpl in *; try done.
  f_equal. rewrite <- (Hf a), <- (Hf b). congruence.
Qed.
Lemma attr_children h h' l : o_subs <$> h' !! l = o_subs <$> h !! l -> children h' l = children h l.
Proof. unfold children. destruct (h !! l), (h' !! l); simpl; intros E; try done. congruence. Qed.
Lemma attr_cid h h' l : o_cid <$> h' !! l = o_cid <$> h !! l -> cid_of h' l = cid_of h l.
Proof. unfold cid_of. by intros ->. Qed.
Lemma attr_parent h h' l : o_parent <$> h' !! l = o_parent <$> h !! l -> parent_of h' l = parent_of h l.
Proof. unfold parent_of. destruct (h !! l), (h' !! l); simpl; intros E; try done. congruence. Qed.
Lemma attr_name h h' l : o_name <$> h' !! l = o_name <$> h !! l -> name_of h' l = name_of h l.
Proof. unfold name_of. by intros ->. Qed.

Definition hist_of (h : list obj) (l : loc) : nat := default 0 (o_hist <$> h !! l).

(** ** Context ids *)
Definition cidstep (h h' : list obj) : Prop :=
  forall p, exists_in h p -> exists_in h' p /\ hist_of h p <= hist_of h' p /\
    forall c, c ∈ children h' p -> (c ∈ children h p /\ cid_of h' c = cid_of h c) \/ hist_of h p <= cid_of h' c.
Lemma cidstep_refl h : cidstep h h.
Proof. intros p Hp. split; [done|]. split; [done|]. auto. Qed.
Lemma cidstep_trans h1 h2 h3 : cidstep h1 h2 -> cidstep h2 h3 -> cidstep h1 h3.
Proof.
  intros H1 H2 p Hp. destruct (H1 p Hp) as (E1 & L1 & C1). destruct (H2 p E1) as (E2 & L2 & C2).
  split; [done|]. split; [lia|]. intros c Hc. destruct (C2 c Hc) as [[Hc2 Hcid]|Hge]; [|right; lia].
  rewrite Hcid. by apply C1.
Qed.
Lemma cidstep_sub (h h' : list obj) : (forall p, exists_in h p -> exists_in h' p) ->
  (forall p, exists_in h p -> hist_of h' p = hist_of h p) ->
  (forall p c, exists_in h p -> c ∈ children h' p -> c ∈ children h p /\ cid_of h' c = cid_of h c) -> cidstep h h'.
Proof. intros He Hh Hc p Hp. split; [by apply He|]. rewrite (Hh p Hp). split; [done|]. intros c Hcc. left. by apply Hc. Qed.
Lemma heq_cidstep h h' : heq h h' -> cidstep h h'.
Proof.
  intros H. apply cidstep_sub.
  - intros p. by apply (heq_exists h h' p H).
  - intros p _. unfold hist_of. by rewrite (heq_attr o_hist h h' p (fun _ => eq_refl) H).
  - intros p c _. rewrite (heq_children h h' p H). intros Hc. split; [done|].
    apply attr_cid. exact (heq_attr o_cid h h' c (fun _ => eq_refl) H).
Qed.
Lemma mcore_exists (h h' : list obj) l : mcore <$> h = mcore <$> h' -> exists_in h l -> exists_in h' l.
Proof.
  intros H. rewrite !exists_in_lt. apply (f_equal length) in H. rewrite !fmap_length in H. lia.
Qed.
Lemma mcore_cidstep h h' : mcore <$> h = mcore <$> h' -> cidstep h h'.
Proof.
  intros H. apply cidstep_sub.
  - intros p. by apply mcore_exists.
  - intros p _. unfold hist_of. by rewrite (mcore_attr o_hist h h' p (fun _ => eq_refl) H).
  - intros p c _. rewrite (attr_children h h' p (mcore_attr o_subs h h' p (fun _ => eq_refl) H)). intros Hc. split; [done|].
    apply attr_cid. exact (mcore_attr o_cid h h' c (fun _ => eq_refl) H).
Qed.

Lemma left_exists (h : list obj) c oc l : exists_in (left_h c oc h) l <-> exists_in h l.
Proof. rewrite !exists_in_lt. unfold left_h. destruct (o_parent oc); unfold detach_h; by rewrite ?alter_length. Qed.
Lemma detach_cidstep h p c oc : c <> p -> cidstep h (detach_h p c oc h).
Proof.
  intros Hne.
  assert (Ha : forall {A} (f : obj -> A) l, (forall o, f (s_parent None o) = f o) -> (forall o, f (det_p oc o) = f o) ->
     f <$> detach_h p c oc h !! l = f <$> h !! l).
  { intros A f l H1 H2. unfold detach_h. destruct (decide (c = l)) as [->|].
    - rewrite list_lookup_alter, list_lookup_alter_ne by done. destruct (h !! l); simpl; [by rewrite H1|done].
    - rewrite list_lookup_alter_ne by done. destruct (decide (p = l)) as [->|].
      + rewrite list_lookup_alter. destruct (h !! l); simpl; [by rewrite H2|done].
      + by rewrite list_lookup_alter_ne. }
  apply cidstep_sub.
  - intros q. rewrite !exists_in_lt. unfold detach_h. by rewrite !alter_length.
  - intros q _. unfold hist_of. by rewrite (Ha _ o_hist).
  - intros q x _ Hx. split; [|apply attr_cid; by apply (Ha _ o_cid)].
    unfold children, detach_h in *. destruct (decide (c = q)) as [->|].
    + rewrite list_lookup_alter, list_lookup_alter_ne in Hx by done. by destruct (h !! q).
    + rewrite list_lookup_alter_ne in Hx by done. destruct (decide (p = q)) as [->|].
      * rewrite list_lookup_alter in Hx. destruct (h !! q) as [o|]; [|done]. simpl in Hx.
        apply elem_of_list_fmap in Hx as [[u y] [-> Hy]]. apply elem_of_list_fmap. exists (u, y). split; [done|].
        clear -Hy. revert Hy. induction (o_subs o) as [|[k v] d IH]; simpl; [done|].
        case_decide; [by right|]. rewrite !elem_of_cons. intros [->|Hy]; [by left|right; by apply IH].
      * by rewrite list_lookup_alter_ne in Hx.
Qed.
Lemma added_cidstep h p c op oc b : WF0 h -> add_ok h p c -> c <> p -> h !! p = Some op -> h !! c = Some oc ->
  dget (o_uuid oc) (o_subs op) = None -> cidstep h (added p c op oc b h).
Proof.
  intros W Hok Hne Hp Hc Hg. pose proof (not_child h p c op oc W Hp Hc Hg) as Hpar.
  eapply cidstep_trans with (left_h c oc h).
  { unfold left_h. destruct (o_parent oc) as [q|] eqn:E; [|apply cidstep_refl].
    apply detach_cidstep. intros ->. by apply (wf0_not_self _ W q oc). }
  unfold added. set (h1 := left_h c oc h).
  assert (Hc1 : h1 !! c = Some (s_parent None oc)) by (by apply left_at_c).
  assert (Hp1 : h1 !! p = Some op) by (unfold h1; by rewrite (left_at_p h c oc p op Hp)).
  assert (Hnc : forall q, c ∉ children h1 q).
  { intros q Hin. unfold h1, left_h in Hin. destruct (o_parent oc) as [q0|] eqn:E.
    - pose proof Hok as (_ & _ & _ & Hrem).
      destruct (wf_par _ W c oc q0 Hc E) as (oq & Hoq & _).
      assert (W1 : WF0 (detach_h q0 c oc h)).
      { eapply detach_wf0; try done. intros E'. destruct (Hrem q0) as [Hr _]; [by rewrite (parent_of_lookup _ _ _ Hc)|].
        apply Hr. unfold kind_of. rewrite Hoq. simpl. by rewrite E'. }
      destruct (wf0_child _ W1 q c Hin) as [_ H2]. unfold h1, left_h in Hc1. rewrite E in Hc1.
      by rewrite (parent_of_lookup _ _ _ Hc1) in H2.
    - destruct (wf0_child _ W q c Hin) as [_ H2]. rewrite (parent_of_lookup _ _ _ Hc) in H2. congruence. }
  assert (Hcid : forall x, x <> c -> cid_of (attach_h p c op oc b h1) x = cid_of h1 x).
  { intros x Hx. unfold cid_of, attach_h. rewrite list_lookup_alter_ne by done. destruct (decide (p = x)) as [->|].
    - rewrite list_lookup_alter. by destruct (h1 !! x).
    - by rewrite list_lookup_alter_ne. }
  intros q Hq. split; [by rewrite exists_in_lt in *; unfold attach_h; rewrite !alter_length|].
  destruct (decide (q = p)) as [->|Hqp].
  - assert (E : attach_h p c op oc b h1 !! p = Some (att_p c oc b op)).
    { unfold attach_h. rewrite list_lookup_alter_ne by done. by rewrite list_lookup_alter, Hp1. }
    unfold hist_of at 1 2. rewrite E, Hp1. simpl. split; [lia|]. intros x Hx. unfold children in Hx. rewrite E in Hx. simpl in Hx.
    rewrite map_app, elem_of_app in Hx. destruct Hx as [Hx|Hx].
    + left. assert (Hin : x ∈ children h1 p) by (unfold children; by rewrite Hp1). split; [done|]. apply Hcid.
      intros ->. by apply (Hnc p).
    + right. apply elem_of_list_singleton in Hx as ->. unfold hist_of. rewrite Hp1. simpl. unfold cid_of, attach_h.
      rewrite list_lookup_alter, list_lookup_alter_ne by done. rewrite Hc1. done.
  - assert (E : hist_of (attach_h p c op oc b h1) q = hist_of h1 q /\ children (attach_h p c op oc b h1) q = children h1 q).
    { unfold hist_of, children, attach_h. destruct (decide (c = q)) as [->|].
      - rewrite list_lookup_alter, list_lookup_alter_ne by done. by destruct (h1 !! q).
      - by rewrite !list_lookup_alter_ne by done. }
    destruct E as [-> ->]. split; [done|]. intros x Hx. left. split; [done|]. apply Hcid. intros ->. by apply (Hnc q).
Qed.

Lemma prim_cidstep g s s' : prim g s s' -> cidstep (heap s) (heap s').
Proof.
  destruct 1 as [s s' H|s s' o E H1 H2 H3 H4 H5 H6|s s' p c op oc b T W Hok Hne Hp Hc Hg Hl TT HT|s s' p c oc _ Hc Hpar Hne Hke E|s s' l T].
  - by apply mcore_cidstep.
  - rewrite E. apply cidstep_sub.
    + intros p. rewrite !exists_in_lt, app_length. lia.
    + intros p Hp%exists_in_lt. unfold hist_of. by rewrite lookup_app_l.
    + intros p c Hp%exists_in_lt. unfold children. rewrite lookup_app_l by done. intros Hc. split; [done|].
      destruct (decide (c < length (heap s))) as [|Hge]; [unfold cid_of; by rewrite lookup_app_l|].
      unfold cid_of. rewrite lookup_app_r by lia. rewrite (lookup_ge_None_2 (heap s)) by lia.
      destruct (c - length (heap s)) eqn:Ec; simpl; [by rewrite H6|done].
  - eapply cidstep_trans; [|apply heq_cidstep; exact (touch_heq _ _ _ TT)]. simpl. by apply added_cidstep.
  - eapply cidstep_trans; [exact (detach_cidstep (heap s) p c oc Hne)|]. eapply cidstep_trans; [|apply mcore_cidstep; symmetry; exact E].
    apply cidstep_sub.
    + intros q. rewrite !exists_in_lt. by rewrite alter_length.
    + intros q _. unfold hist_of. destruct (decide (c = q)) as [->|]; [|by rewrite list_lookup_alter_ne].
      rewrite list_lookup_alter. by destruct (detach_h p q oc (heap s) !! q).
    + intros q x _ Hx. split.
      * unfold children in *. destruct (decide (c = q)) as [->|]; [|by rewrite list_lookup_alter_ne in Hx].
        rewrite list_lookup_alter in Hx. by destruct (detach_h p q oc (heap s) !! q).
      * unfold cid_of. destruct (decide (c = x)) as [->|]; [|by rewrite list_lookup_alter_ne].
        rewrite list_lookup_alter. by destruct (detach_h p x oc (heap s) !! x).
  - apply heq_cidstep. exact (touch_heq _ _ _ T).
Qed.

Lemma prims_cidstep g s s' : prims g s s' -> cidstep (heap s) (heap s').
Proof.
  induction 1 as [s|s s1 s' H _ IH]; [apply cidstep_refl|]. eapply cidstep_trans; [by eapply prim_cidstep|exact IH].
Qed.

(** A cid below a container, later: unchanged or larger than all earlier ones. *)
Lemma history_cid g s s' p c c' : WF0 (heap s) -> history g s s' -> c ∈ children (heap s) p -> c' ∈ children (heap s') p ->
  (c' ∈ children (heap s) p /\ cid_of (heap s') c' = cid_of (heap s) c') \/ cid_of (heap s) c < cid_of (heap s') c'.
Proof.
  intros W H Hc Hc'. destruct (history_prims g s s' W H) as [_ P]. pose proof (prims_cidstep g s s' P) as HC.
  assert (Hp : exists op, heap s !! p = Some op).
  { unfold children in Hc. destruct (heap s !! p) as [op|]; [by exists op|inversion Hc]. }
  destruct Hp as [op Hp]. destruct (HC p ltac:(by exists op)) as (_ & _ & Hcc).
  destruct (Hcc c' Hc') as [Hl|Hge]; [by left|right]. eapply Nat.lt_le_trans; [|exact Hge].
  unfold hist_of. rewrite Hp. simpl. pose proof (wf_cid _ W p op Hp) as Hs.
  unfold children in Hc. rewrite Hp in Hc. clear -Hs Hc. unfold dvals in Hs. revert Hs Hc.
  generalize (map snd (o_subs op)) as l. induction l as [|x l IH]; simpl; intros Hs Hc; [inversion Hc|].
  apply StronglySorted_inv in Hs as [Hs Hall]. apply elem_of_cons in Hc as [->|Hc]; [|by apply IH].
  rewrite Forall_app in Hall. destruct Hall as [_ Hall]. by apply Forall_cons in Hall as [Hall _].
Qed.

(** ** Qualified names *)
Definition named (h : list obj) : Prop := forall l o, h !! l = Some o -> full_name h l (o_qname o).

Lemma full_name_ext (h h' : list obj) l q : full_name h l q ->
  (forall x, exists_in h x -> within h x l -> exists_in h' x /\ parent_of h' x = parent_of h x /\ name_of h' x = name_of h x) ->
  full_name h' l q.
Proof.
  intros (ls & Hp & ->) H. exists ls.
  assert (H2 : forall x, x ∈ ls -> exists_in h' x /\ parent_of h' x = parent_of h x /\ name_of h' x = name_of h x).
  { intros x Hx. apply H; [by eapply path_in_exists|]. by apply (path_within _ _ _ _ Hp). }
  split.
  - apply path_ext with h; [done|]. intros x Hx. destruct (H2 x Hx) as (H3 & H4 & _). done.
  - f_equal. f_equal. apply map_ext_in. intros x Hx. symmetry. apply H2. by apply elem_of_list_In.
Qed.

Lemma added_named_path h p c op oc b x : WF0 h -> add_ok h p c -> c <> p -> h !! p = Some op -> h !! c = Some oc ->
  dget (o_uuid oc) (o_subs op) = None -> exists_in h x -> exists ls, path (added p c op oc b h) x ls.
Proof.
  intros W Hok Hne Hp Hc Hg [ox Hx].
  pose proof (added_wf h p c op oc (bool_decide (o_kind oc = KRel)) W Hok Hne Hp Hc Hg (fun _ _ => eq_refl)) as W1.
  destruct (wf_acy _ W1 x) as [ls Hl]; [rewrite added_exists; by exists ox|]. exists ls.
  apply path_ext with (added p c op oc (bool_decide (o_kind oc = KRel)) h); [done|].
  intros y Hy. split.
  - rewrite added_exists. rewrite <- (added_exists h p c op oc (bool_decide (o_kind oc = KRel))). by eapply path_in_exists.
  - destruct (decide (y = c)) as [->|Hyc].
    + unfold parent_of. by rewrite !(added_at_c h p c op oc).
    + by rewrite !added_parent_ne.
Qed.
Lemma added_name h p c op oc b x : name_of (added p c op oc b h) x = name_of h x.
Proof. apply attr_name. apply added_attr; done. Qed.

Lemma prim_named g s s' : g <> MAny -> named (heap s) -> prim g s s' -> named (heap s').
Proof.
  intros Hg0 I P.
  destruct P as [s s' H|s s' o E H1 H2 H3 H4 H5 H6|s s' p c op oc b T W Hok Hne Hp Hc Hg Hl TT HT|s s' p c oc Hg1 Hc Hpar Hne Hke E|s s' l T]; try done.
  - intros l o' Hl. assert (Hs : mcore <$> heap s !! l = mcore <$> heap s' !! l) by (rewrite <- !list_lookup_fmap; by rewrite H).
    rewrite Hl in Hs. destruct (heap s !! l) as [o|] eqn:Eo; [|done]. simpl in Hs.
    assert (Hq : o_qname o = o_qname o') by (assert (H2 : mcore o = mcore o') by congruence; by apply (f_equal o_qname) in H2).
    rewrite <- Hq. eapply full_name_ext; [by apply I|]. intros x Hx _. split; [by eapply mcore_exists|]. split.
    + apply attr_parent. exact (mcore_attr o_parent (heap s) (heap s') x (fun _ => eq_refl) H).
    + apply attr_name. exact (mcore_attr o_name (heap s) (heap s') x (fun _ => eq_refl) H).
  - intros l o' Hl. rewrite E in *. destruct (decide (l < length (heap s))) as [Hlt|Hge].
    + rewrite lookup_app_l in Hl by done. eapply full_name_ext; [by apply I|]. intros x Hx%exists_in_lt _.
      split; [rewrite exists_in_lt, app_length; lia|]. unfold parent_of, name_of. by rewrite !lookup_app_l by done.
    + rewrite lookup_app_r in Hl by lia. destruct (l - length (heap s)) eqn:El; [|done]. simpl in Hl. injection Hl as <-.
      assert (Hl2 : (heap s ++ [o]) !! l = Some o).
      { rewrite lookup_app_r by lia. by rewrite El. }
      exists [l]. split.
      * apply path_root; [by eexists|]. by rewrite (parent_of_lookup _ _ _ Hl2).
      * unfold name_of. simpl. rewrite Hl2. simpl. done.
  - intros l o' Hl0. set (h1 := added p c op oc b (heap s)) in *.
    assert (Hex : exists_in (heap s) l).
    { rewrite <- (added_exists (heap s) p c op oc b). rewrite exists_in_lt. apply lookup_lt_Some in Hl0.
      rewrite (t_len _ _ _ TT) in Hl0. exact Hl0. }
    assert (Hex1 : exists_in h1 l) by (by apply added_exists). destruct Hex1 as [o1 Ho1].
    destruct (t_obj _ _ _ TT l o1 Ho1) as (q & t & H1 & H2 & H3). rewrite Hl0 in H1. injection H1 as ->. simpl.
    apply (heq_full_name h1); [exact (touch_heq _ _ _ TT)|].
    destruct (decide (l ∈ T)) as [Hin|Hnin]; [by apply H3|].
    destruct (H2 Hnin) as [-> _].
    assert (Hnw : ~ within h1 c l) by (intros Hw; apply Hnin; by apply HT).
    destruct (added_named_path (heap s) p c op oc b l W Hok Hne Hp Hc Hg Hex) as [ls Hpath]. fold h1 in Hpath.
    assert (Hnc : c ∉ ls) by (intros Hin; apply Hnw; by apply (path_within _ _ _ _ Hpath)).
    assert (Hpath0 : path (heap s) l ls).
    { apply path_ext with h1; [done|]. intros x Hx. split.
      - rewrite <- (added_exists (heap s) p c op oc b). by eapply path_in_exists.
      - symmetry. unfold h1. apply added_parent_ne; [done|done|]. intros ->. done. }
    exists ls. split; [done|].
    assert (Hq : o_qname <$> h1 !! l = o_qname <$> heap s !! l) by (by apply added_attr).
    rewrite Ho1 in Hq. destruct Hex as [o0 Ho0]. rewrite Ho0 in Hq. simpl in Hq. injection Hq as Hq. rewrite Hq.
    rewrite (full_name_det _ _ _ (join "/" (rev (map (name_of (heap s)) ls))) (I l o0 Ho0)) by (by exists ls).
    f_equal. f_equal. apply map_ext. intros x. symmetry. apply added_name.
  - intros y o' Hy. assert (Hex : exists_in (heap s) y).
    { rewrite exists_in_lt. rewrite <- (t_len _ _ _ T). by eapply lookup_lt_Some. }
    destruct Hex as [o Ho]. destruct (t_obj _ _ _ T y o Ho) as (q & t & H1 & H2 & H3). rewrite Hy in H1. injection H1 as ->. simpl.
    apply (heq_full_name (heap s)); [exact (touch_heq _ _ _ T)|].
    destruct (decide (y ∈ [l])) as [Hin|Hnin]; [by apply H3|]. destruct (H2 Hnin) as [-> _]. by apply I.
Qed.
Lemma prims_named g s s' : g <> MAny -> named (heap s) -> prims g s s' -> named (heap s').
Proof. intros Hg I P. induction P as [s|s s1 s' H _ IH]; [done|]. apply IH. by eapply prim_named. Qed.
Lemma history_named g s s' : g <> MAny -> WF0 (heap s) -> named (heap s) -> history g s s' -> named (heap s').
Proof. intros Hg W I H. eapply prims_named; [done|done|]. by apply history_prims. Qed.

(** ** Depth *)
Definition deep (h : list obj) : Prop := forall l o, h !! l = Some o -> exists ls, path h l ls /\ length ls = S (o_depth o).

Lemma prim_deep s s' : deep (heap s) -> prim MLeaf s s' -> deep (heap s').
Proof.
  intros I P.
  destruct P as [s s' H|s s' o E H1 H2 H3 H4 H5 H6|s s' p c op oc b T W Hok Hne Hp Hc Hg Hl TT HT|s s' p c oc Hg1 Hc Hpar Hne Hke E|s s' l T]; try done.
  - intros l o' Hl. assert (Hs : mcore <$> heap s !! l = mcore <$> heap s' !! l) by (rewrite <- !list_lookup_fmap; by rewrite H).
    rewrite Hl in Hs. destruct (heap s !! l) as [o|] eqn:Eo; [|done]. simpl in Hs.
    assert (Hq : o_depth o = o_depth o') by (assert (H2 : mcore o = mcore o') by congruence; by apply (f_equal o_depth) in H2).
    rewrite <- Hq. destruct (I l o Eo) as (ls & Hp & Hlen). exists ls. split; [|done].
    apply path_ext with (heap s); [done|]. intros x Hx. split.
    + eapply mcore_exists; [exact H|]. by eapply path_in_exists.
    + apply attr_parent. exact (mcore_attr o_parent (heap s) (heap s') x (fun _ => eq_refl) H).
  - intros l o' Hl. rewrite E in *. destruct (decide (l < length (heap s))) as [Hlt|Hge].
    + rewrite lookup_app_l in Hl by done. destruct (I l o' Hl) as (ls & Hp & Hlen). exists ls. split; [|done].
      apply path_ext with (heap s); [done|]. intros x Hx. pose proof (path_in_exists _ _ _ _ Hp Hx) as Hxx%exists_in_lt.
      split; [rewrite exists_in_lt, app_length; lia|]. unfold parent_of. by rewrite !lookup_app_l by done.
    + rewrite lookup_app_r in Hl by lia. destruct (l - length (heap s)) eqn:El; [|done]. simpl in Hl. injection Hl as <-.
      assert (Hl2 : (heap s ++ [o]) !! l = Some o).
      { rewrite lookup_app_r by lia. by rewrite El. }
      exists [l]. split; [|by rewrite H4]. apply path_root; [by eexists|]. by rewrite (parent_of_lookup _ _ _ Hl2).
  - intros l o' Hl0. set (h1 := added p c op oc b (heap s)) in *. destruct (Hl eq_refl) as [Hroot Hleaf].
    assert (Hex : exists_in (heap s) l).
    { rewrite <- (added_exists (heap s) p c op oc b). rewrite exists_in_lt. apply lookup_lt_Some in Hl0.
      rewrite (t_len _ _ _ TT) in Hl0. exact Hl0. }
    assert (Hnot : forall x ls, path (heap s) x ls -> x <> c -> c ∉ ls).
    { intros x ls Hpx Hxc Hin. apply (path_within _ _ _ _ Hpx) in Hin. destruct Hin as [->|Ha]; [done|].
      revert Ha. apply leaf_not_ancestor; [done|]. unfold children. rewrite Hc. by rewrite Hleaf. }
    assert (Hold : forall x ls, path (heap s) x ls -> x <> c -> path h1 x ls).
    { intros x ls Hpx Hxc. apply path_ext with (heap s); [done|]. intros y Hy. split.
      - apply added_exists. by eapply path_in_exists.
      - apply added_parent_ne; [done|done|]. intros ->. by apply (Hnot x ls Hpx Hxc). }
    assert (Hex1 : exists_in h1 l) by (by apply added_exists). destruct Hex1 as [o1 Ho1].
    destruct (t_obj _ _ _ TT l o1 Ho1) as (q & t & H1 & _). rewrite Hl0 in H1. injection H1 as ->. simpl.
    assert (Hgoal : exists ls, path h1 l ls /\ length ls = S (o_depth o1)).
    { destruct (decide (l = c)) as [->|Hlc].
      - unfold h1 in Ho1. rewrite added_at_c in Ho1 by done. injection Ho1 as <-. simpl.
        destruct (I p op Hp) as (ls & Hpp & Hlen). exists (c :: ls). split; [|simpl; lia].
        eapply path_step with p; [by apply added_exists| |by apply Hold].
        unfold parent_of, h1. by rewrite added_at_c.
      - destruct Hex as [o0 Ho0]. destruct (I l o0 Ho0) as (ls & Hpl & Hlen). exists ls. split; [by apply Hold|].
        assert (Hd : o_depth <$> h1 !! l = o_depth <$> heap s !! l).
        { destruct (decide (l = p)) as [->|Hlp].
          - unfold h1. rewrite added_at_p; [by rewrite Hp|done|done|done|]. rewrite Hroot. done.
          - unfold h1. rewrite added_other; [done|done|done|]. by rewrite Hroot. }
        rewrite Ho1, Ho0 in Hd. simpl in Hd. injection Hd as ->. done. }
    destruct Hgoal as (ls & Hpl & Hlen). exists ls. split; [|done]. eapply heq_path; [exact (touch_heq _ _ _ TT)|done].
  - intros y o' Hy. assert (Hex : exists_in (heap s) y).
    { rewrite exists_in_lt. rewrite <- (t_len _ _ _ T). by eapply lookup_lt_Some. }
    destruct Hex as [o Ho]. destruct (t_obj _ _ _ T y o Ho) as (q & t & H1 & _). rewrite Hy in H1. injection H1 as ->. simpl.
    destruct (I y o Ho) as (ls & Hpl & Hlen). exists ls. split; [|done]. eapply heq_path; [exact (touch_heq _ _ _ T)|done].
Qed.
Lemma history_deep s s' : WF0 (heap s) -> deep (heap s) -> history MLeaf s s' -> deep (heap s').
Proof.
  intros W I H. destruct (history_prims _ _ _ W H) as [_ P]. clear H W.
  induction P as [s|s s1 s' H _ IH]; [done|]. apply IH. by eapply prim_deep.
Qed.

(** ** Sub-elements of a hyperedge stay *)
Lemma detach_children_other h p c oc e : e <> p -> c <> p -> children (detach_h p c oc h) e = children h e.
Proof.
  intros H1 H2. unfold children, detach_h. destruct (decide (c = e)) as [->|].
  - rewrite list_lookup_alter, list_lookup_alter_ne by done. by destruct (h !! e).
  - by rewrite !list_lookup_alter_ne by done.
Qed.
Lemma prim_edge g s s' e : prim g s s' -> kind_of (heap s) e = Some KEdge ->
  kind_of (heap s') e = Some KEdge /\ forall c, c ∈ children (heap s) e -> c ∈ children (heap s') e.
Proof.
  intros P He.
  destruct P as [s s' H|s s' o E H1 H2 H3 H4 H5 H6|s s' p c op oc b T W Hok Hne Hp Hc Hg Hl TT HT|s s' p c oc Hg1 Hc Hpar Hne Hke E|s s' l T].
  - split.
    + unfold kind_of. by rewrite (mcore_attr o_kind (heap s) (heap s') e (fun _ => eq_refl) H).
    + intros c. by rewrite (attr_children _ _ e (mcore_attr o_subs (heap s) (heap s') e (fun _ => eq_refl) H)).
  - rewrite E. assert (Hl : e < length (heap s)).
    { unfold kind_of in He. destruct (heap s !! e) eqn:Ee; [|done]. by apply lookup_lt_Some in Ee. }
    unfold kind_of, children in *. by rewrite lookup_app_l.
  - pose proof (touch_heq _ _ _ TT) as Hq. cbn [heap set_heap] in Hq. rewrite (heq_kind _ _ e Hq).
    assert (Hk : kind_of (added p c op oc b (heap s)) e = Some KEdge).
    { unfold kind_of. rewrite added_attr; done. }
    split; [done|]. intros x Hx. rewrite (heq_children _ _ e Hq).
    pose proof Hok as (_ & _ & _ & Hrem).
    assert (Hxc : x <> c).
    { intros ->. destruct (wf0_child _ W e c Hx) as [_ H2]. by destruct (Hrem e H2). }
    assert (Hxp : parent_of (added p c op oc b (heap s)) x = Some e).
    { rewrite added_parent_ne by done. by destruct (wf0_child _ W e x Hx). }
    pose proof (added_wf (heap s) p c op oc (bool_decide (o_kind oc = KRel)) W Hok Hne Hp Hc Hg (fun _ _ => eq_refl)) as W1.
    assert (Hch : children (added p c op oc b (heap s)) e = children (added p c op oc (bool_decide (o_kind oc = KRel)) (heap s)) e).
    { unfold children, added, attach_h. destruct (decide (c = e)) as [->|Hce].
      - rewrite !list_lookup_alter, !list_lookup_alter_ne by done. by destruct (left_h e oc (heap s) !! e).
      - rewrite !(list_lookup_alter_ne _ _ c) by done. destruct (decide (p = e)) as [->|]; [|by rewrite !list_lookup_alter_ne].
        rewrite !list_lookup_alter. destruct (left_h c oc (heap s) !! e); [|done]. done. }
    rewrite Hch. apply wf0_parent; [done|apply added_exists; by destruct (wf0_child _ W e x Hx)|]. rewrite added_parent_ne by done. by destruct (wf0_child _ W e x Hx).
  - assert (Hep : e <> p) by (intros ->; done).
    assert (H2 : forall {A} (f : obj -> A), (forall o, f (mcore o) = f o) -> (forall o q, f (s_qname q o) = f o) ->
      f <$> heap s' !! e = f <$> detach_h p c oc (heap s) !! e).
    { intros A f Hf1 Hf2. rewrite (mcore_attr f (alter (s_qname (o_name oc)) c (detach_h p c oc (heap s))) (heap s') e Hf1 (eq_sym E)).
      destruct (decide (c = e)) as [->|]; [|by rewrite list_lookup_alter_ne].
      rewrite list_lookup_alter. destruct (detach_h p e oc (heap s) !! e); simpl; [by rewrite Hf2|done]. }
    split.
    + unfold kind_of in *. rewrite (H2 _ o_kind) by done. unfold detach_h. destruct (decide (c = e)) as [->|].
      * rewrite list_lookup_alter, list_lookup_alter_ne by done. by destruct (heap s !! e).
      * by rewrite !list_lookup_alter_ne by done.
    + intros x Hx. rewrite (attr_children (detach_h p c oc (heap s))) by (by apply H2). by rewrite detach_children_other.
  - pose proof (touch_heq _ _ _ T) as Hq. rewrite (heq_kind _ _ e Hq). split; [done|]. intros c. by rewrite (heq_children _ _ e Hq).
Qed.
Lemma history_edge g s s' e : WF0 (heap s) -> history g s s' -> kind_of (heap s) e = Some KEdge ->
  forall c, c ∈ children (heap s) e -> c ∈ children (heap s') e.
Proof.
  intros W H He. destruct (history_prims _ _ _ W H) as [_ P]. clear H W.
  revert He. induction P as [s|s s1 s' H _ IH]; intros He c Hc; [done|].
  destruct (prim_edge g s s1 e H He) as [H1 H2]. apply IH; [done|by apply H2].
Qed.
