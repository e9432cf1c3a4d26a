(** * Decoding an arbitrary message *)
From stdpp Require Import relations sorting.
From Verif Require Import Spec Hierarchy Elements Factory History PDict PPath PExec PBfs PWF PAdd PMono PStep PRemove PReach PPrim PHist QHier QHier2 QHier3 QHier4 QHier5 QHier6 QFac SpecFac QFac2 QEnc Encode SpecEnc QEnc2 SpecDecode.

Lemma latest_det L n u j j' : latest L n u j -> latest L n u j' -> j = j'.
Proof.
  intros (A1 & (t & A2 & A3 & A4) & A5) (B1 & (t' & B2 & B3 & B4) & B5).
  destruct (Nat.lt_trichotomy j j') as [H|[H|H]]; [|done|].
  - by destruct (A5 j' t' H B1 B2 B3). - by destruct (B5 j t H A1 A2 A3).
Qed.
Lemma latest_hub L n t u : L !! n = Some t -> hub t -> it_uuid t = u -> latest L (S n) u n.
Proof. intros H1 H2 H3. split; [lia|]. split; [by exists t|]. intros k t' ? ?. lia. Qed.
Lemma latest_hub_inv L n t u j : L !! n = Some t -> hub t -> it_uuid t = u -> latest L (S n) u j -> j = n.
Proof. intros H1 H2 H3 H. eapply latest_det; [exact H|]. by eapply latest_hub. Qed.
Lemma latest_skip L n t u j : L !! n = Some t -> (hub t -> it_uuid t <> u) -> latest L (S n) u j <-> latest L n u j.
Proof.
  intros H1 H2. split; intros (A1 & (t' & A2 & A3 & A4) & A5).
  - assert (j <> n) by (intros ->; rewrite H1 in A2; injection A2 as <-; by apply H2). split; [lia|]. split; [by exists t'|].
    intros k t2 ? ?. apply A5; lia.
  - split; [lia|]. split; [by exists t'|]. intros k t2 Hj Hk Ht. destruct (decide (k = n)) as [->|]; [|apply (A5 k t2); [done|lia|done]].
    rewrite H1 in Ht. by injection Ht as <-.
Qed.

Definition fits (L : list item) (k : nat) (t : item) : Prop :=
  (forall u, it_parent t = Some u -> exists j, latest L k u j) /\ (forall u, it_end t = Some u -> exists j, latest L k u j) /\
  (it_kind t = KNode -> it_parent t <> Some (it_uuid t)) /\
  (forall i t' u u' j, i < k -> L !! i = Some t' -> it_parent t' = Some u' -> it_parent t = Some u -> latest L i u' j -> latest L k u j -> it_uuid t' <> it_uuid t).
Definition all_fit (L : list item) : Prop := forall i t, L !! i = Some t -> fits L i t.
Lemma acceptable_fit L : acceptable L <-> all_fit L.
Proof.
  split.
  - intros [A1 A2 A3 A4] i t Ht. split; [intros u; by apply (A1 i t u)|]. split; [intros u; by apply (A2 i t u)|]. split; [by apply (A3 i t)|].
    intros i' t' u u' j Hi Ht' P1 P2 L1 L2. by apply (A4 i' i t' t u' u j).
  - intros A. split.
    + intros i t u Ht. destruct (A i t Ht) as (B & _). apply B.
    + intros i t u Ht. destruct (A i t Ht) as (_ & B & _). apply B.
    + intros i t Ht. by destruct (A i t Ht) as (_ & _ & B & _).
    + intros i i' t t' u u' j Hi Ht Ht' P1 P2 L1 L2. destruct (A i' t' Ht') as (_ & _ & _ & B). by apply (B i t u' u j).
Qed.

Definition describes (t : item) (o : obj) : Prop :=
  o_kind o = it_kind t /\ o_uuid o = it_uuid t /\ o_name o = it_name t /\ o_vals o = it_vals t /\ o_ready o = true /\ o_dir o = BIDIRECTIONAL /\ o_weight o = WNone.
Lemma described_get {A} (f : obj -> A) (h : list obj) l o : (forall o, f (fixed_part o) = f o) -> fixed_part <$> h !! l = Some (fixed_part o) -> exists o', h !! l = Some o' /\ f o' = f o.
Proof. intros Hf H. destruct (h !! l) as [o'|]; [|done]. exists o'. split; [done|]. apply (inj Some) in H. rewrite <- (Hf o), <- (Hf o'). by rewrite H. Qed.

(** One item is added; [pp] its parent, [ep] its endpoint. *)
Record bump (h h' : list obj) (t : item) (pp ep : option loc) : Prop := {
  bp_len : length h' = S (length h);
  bp_other : forall l, exists_in h l -> pp <> Some l -> h' !! l = h !! l;
  bp_fixed : forall l, exists_in h l -> fixed_part <$> h' !! l = fixed_part <$> h !! l;
  bp_qn : forall l, exists_in h l -> o_qname <$> h' !! l = o_qname <$> h !! l;
  bp_par : forall l, exists_in h l -> parent_of h' l = parent_of h l;
  bp_kids : forall l, exists_in h l -> children h' l = children h l ++ (if decide (pp = Some l) then [length h] else []);
  bp_nokids : children h' (length h) = [];
  bp_new : exists o, fixed_part <$> h' !! length h = Some (fixed_part o) /\ describes t o /\ o_endpoint o = ep;
  bp_newpar : parent_of h' (length h) = pp;
  bp_name : exists q, attr_of o_qname h' (length h) = Some q /\ full_name h' (length h) q }.
Lemma step1_bump h h' p o t : step1 h h' p (length h) o -> describes t o -> bump h h' t (Some p) (o_endpoint o).
Proof.
  intros St D. pose proof (s1_grown _ _ _ _ _ St) as G. destruct (gr_fresh _ _ _ _ _ G) as (F1 & F2 & F3 & F4). split.
  - by apply (step1_len _ _ _ _ _ St).
  - intros l Hl Hn. apply (s1_other _ _ _ _ _ St); [done|congruence].
  - intros l Hl. by apply (step1_fixed _ _ _ _ _ l St).
  - intros l Hl. destruct (decide (l = p)) as [->|Hn]; [apply (s1_qname _ _ _ _ _ St)|]. by rewrite (s1_other _ _ _ _ _ St).
  - intros l Hl. by apply (gr_unmoved _ _ _ _ _ G).
  - intros l Hl. rewrite (step1_children _ _ _ _ l St). f_equal. destruct (decide (p = l)) as [->|Hn]; [by rewrite decide_True|rewrite decide_False by congruence; done].
  - done.
  - by exists o.
  - done.
  - apply (s1_named _ _ _ _ _ St).
Qed.
Lemma root_bump h o t : WF0 h -> describes t o -> o_parent o = None -> o_subs o = [] -> o_qname o = o_name o -> bump h (h ++ [o]) t None (o_endpoint o).
Proof.
  intros W D H1 H2 H3. assert (E : (h ++ [o]) !! length h = Some o) by (by rewrite lookup_app_r, Nat.sub_diag by lia).
  assert (K : forall l, exists_in h l -> (h ++ [o]) !! l = h !! l) by (intros l Hl; apply exists_in_lt in Hl; by rewrite lookup_app_l). split.
  - rewrite app_length. cbn. lia.
  - intros l Hl _. by apply K.
  - intros l Hl. by rewrite K.
  - intros l Hl. by rewrite K.
  - intros l Hl. unfold parent_of. by rewrite K.
  - intros l Hl. rewrite decide_False by done. rewrite app_nil_r. unfold children. by rewrite K.
  - unfold children. by rewrite E, H2.
  - exists o. rewrite E. by split.
  - unfold parent_of. by rewrite E.
  - exists (o_name o). split; [unfold attr_of; rewrite E; cbn; by rewrite H3|]. assert (Hn : name_of (h ++ [o]) (length h) = o_name o) by (unfold name_of; by rewrite E).
    rewrite <- Hn. exists [length h]. split; [|done]. constructor; [by eexists|]. unfold parent_of. by rewrite E.
Qed.

Section decode.
  Context (h0 : list obj) (L : list item) (W0 : WF0 h0).
  Let n0 := length h0.

  Record dinv (k : nat) (els : dict uid loc) (s : st) : Prop := {
    di_reach : reach s;
    di_len : length (heap s) = n0 + k;
    di_old : forall l, exists_in h0 l -> heap s !! l = h0 !! l;
    di_item : forall i t, i < k -> L !! i = Some t -> exists o, fixed_part <$> heap s !! (n0 + i) = Some (fixed_part o) /\ describes t o /\
      (it_end t = None -> o_endpoint o = None) /\ (forall u, it_end t = Some u -> exists j, latest L i u j /\ o_endpoint o = Some (n0 + j));
    di_par0 : forall i t, i < k -> L !! i = Some t -> it_parent t = None -> parent_of (heap s) (n0 + i) = None;
    di_par1 : forall i t u, i < k -> L !! i = Some t -> it_parent t = Some u -> exists j, latest L i u j /\ parent_of (heap s) (n0 + i) = Some (n0 + j);
    di_order : forall l, n0 <= l -> StronglySorted lt (children (heap s) l);
    di_names : forall l, n0 <= l -> exists_in (heap s) l -> exists q, attr_of o_qname (heap s) l = Some q /\ full_name (heap s) l q;
    di_els : forall u l, dget u els = Some l <-> exists j, latest L k u j /\ l = n0 + j;
    di_fits : forall i t, i < k -> L !! i = Some t -> fits L i t;
    di_total : k <= length L }.

  Lemma di_exists k els s i : dinv k els s -> i < k -> exists_in (heap s) (n0 + i).
  Proof. intros D Hi. rewrite exists_in_lt, (di_len _ _ _ D). lia. Qed.
  Lemma di_old_exists k els s l : dinv k els s -> exists_in h0 l -> exists_in (heap s) l.
  Proof. intros D [o Ho]. exists o. rewrite (di_old _ _ _ D); [done|by eexists]. Qed.

  Lemma sorted_snoc (l : list nat) x : StronglySorted lt l -> (forall y, y ∈ l -> y < x) -> StronglySorted lt (l ++ [x]).
  Proof.
    induction l as [|y l IH]; cbn [app]; intros H Hx; [constructor; constructor|].
    apply StronglySorted_inv in H as [H1 H2]. constructor; [apply IH; [done|]; intros z Hz; apply Hx; by right|].
    apply Forall_app. split; [done|]. constructor; [apply Hx; left|constructor].
  Qed.

  Lemma bump_inv k els s s' t pp ep els' : dinv k els s -> reach s' -> L !! k = Some t -> bump (heap s) (heap s') t pp ep ->
    (it_parent t = None -> pp = None) -> (forall u, it_parent t = Some u -> exists j, latest L k u j /\ pp = Some (n0 + j)) ->
    (it_end t = None -> ep = None) -> (forall u, it_end t = Some u -> exists j, latest L k u j /\ ep = Some (n0 + j)) ->
    fits L k t -> (hub t -> els' = dset (it_uuid t) (n0 + k) els) -> (~ hub t -> els' = els) -> dinv (S k) els' s'.
  Proof.
    intros D R Ht B P1 P2 E1 E2 F X1 X2. assert (Hl : length (heap s) = n0 + k) by apply D.
    assert (Hle : forall l, exists_in h0 l -> l < n0) by (intros l Hl'; by apply exists_in_lt in Hl').
    assert (Kn : forall l q, full_name (heap s) l q -> full_name (heap s') l q).
    { intros l q Hq. eapply full_name_ext; [exact Hq|]. intros x Hx _. split.
      - rewrite exists_in_lt in *. rewrite (bp_len _ _ _ _ _ B). lia.
      - split; [by apply (bp_par _ _ _ _ _ B)|]. pose proof (bp_fixed _ _ _ _ _ B x Hx) as Fx. apply (f_equal (fmap o_name)) in Fx.
        rewrite <- !option_fmap_compose in Fx. unfold name_of. f_equal. exact Fx. }
    assert (Hcases : forall i, i < S k -> i = k \/ i < k) by (intros; lia). split.
    - done.
    - rewrite (bp_len _ _ _ _ _ B). lia.
    - intros l Hl'. rewrite <- (di_old _ _ _ D l Hl'). apply (bp_other _ _ _ _ _ B); [by eapply di_old_exists|].
      intros ->. destruct (it_parent t) as [u|] eqn:Eu; [|by specialize (P1 eq_refl)]. destruct (P2 u eq_refl) as (j & _ & [= ->]).
      apply Hle in Hl'. lia.
    - intros i t' Hi Ht'. destruct (Hcases i Hi) as [->|Hi'].
      + rewrite Ht in Ht'. injection Ht' as <-. rewrite <- Hl. destruct (bp_new _ _ _ _ _ B) as (o & O1 & O2 & O3). exists o. rewrite O3. done.
      + destruct (di_item _ _ _ D i t' Hi' Ht') as (o & O1 & O2). exists o. split; [|done]. rewrite (bp_fixed _ _ _ _ _ B); [done|]. by eapply di_exists.
    - intros i t' Hi Ht' Hp. destruct (Hcases i Hi) as [->|Hi'].
      + rewrite Ht in Ht'. injection Ht' as <-. rewrite <- Hl, (bp_newpar _ _ _ _ _ B). by apply P1.
      + rewrite (bp_par _ _ _ _ _ B) by (by eapply di_exists). by apply (di_par0 _ _ _ D i t').
    - intros i t' u Hi Ht' Hp. destruct (Hcases i Hi) as [->|Hi'].
      + rewrite Ht in Ht'. injection Ht' as <-. rewrite <- Hl, (bp_newpar _ _ _ _ _ B). by apply P2.
      + rewrite (bp_par _ _ _ _ _ B) by (by eapply di_exists). by apply (di_par1 _ _ _ D i t').
    - intros l Hn. destruct (decide (exists_in (heap s) l)) as [He|He].
      + rewrite (bp_kids _ _ _ _ _ B) by done. case_decide; [|rewrite app_nil_r; by apply (di_order _ _ _ D)].
        apply sorted_snoc; [by apply (di_order _ _ _ D)|]. intros y Hy. apply exists_in_lt. eapply wf_children_exist; [apply reach_wf, D|done].
      + destruct (decide (l = length (heap s))) as [->|Hne]; [rewrite (bp_nokids _ _ _ _ _ B); constructor|].
        unfold children. rewrite (lookup_ge_None_2 (heap s') l); [constructor|]. rewrite (bp_len _ _ _ _ _ B). rewrite exists_in_lt in He. lia.
    - intros l Hn He. destruct (decide (exists_in (heap s) l)) as [He'|He'].
      + destruct (di_names _ _ _ D l Hn He') as (q & Q1 & Q2). exists q. split; [|by apply Kn]. unfold attr_of in *. by rewrite (bp_qn _ _ _ _ _ B).
      + assert (l = length (heap s)) as ->; [|apply (bp_name _ _ _ _ _ B)]. rewrite exists_in_lt in *. rewrite (bp_len _ _ _ _ _ B) in He. lia.
    - intros u l. destruct (decide (it_kind t = KNode \/ it_kind t = KEdge)) as [Hh|Hh].
      + rewrite (X1 Hh). destruct (decide (u = it_uuid t)) as [->|Hu].
        * rewrite dget_dset_eq. split; [intros [= <-]; exists k; split; [by eapply latest_hub|done]|].
          intros (j & Hj & ->). by rewrite (latest_hub_inv L k t (it_uuid t) j).
        * rewrite dget_dset_ne by done. rewrite (di_els _ _ _ D). split; intros (j & Hj & ->); exists j; (split; [|done]).
          -- apply (latest_skip L k t); [done|congruence|done]. -- apply (latest_skip L k t) in Hj; [done|done|congruence].
      + rewrite (X2 Hh), (di_els _ _ _ D). split; intros (j & Hj & ->); exists j; (split; [|done]).
        -- by apply (latest_skip L k t). -- by apply (latest_skip L k t) in Hj.
    - intros i t' Hi Ht'. destruct (Hcases i Hi) as [->|Hi']; [|by apply (di_fits _ _ _ D)]. rewrite Ht in Ht'. by injection Ht' as <-.
    - apply lookup_lt_Some in Ht. lia.
  Qed.

  Lemma di_target k els s u j : dinv k els s -> latest L k u j -> target (heap s) (n0 + j).
  Proof.
    intros D (Hj & (t & Ht & Hh & _) & _). destruct (di_item _ _ _ D j t Hj Ht) as (o & O1 & (K1 & _ & _ & _ & K2 & _) & _).
    destruct (heap s !! (n0 + j)) as [o'|] eqn:Eo; [|done]. exists o'. split; [done|]. apply (inj Some) in O1.
    assert (o_kind o' = o_kind o /\ o_ready o' = o_ready o) as [-> ->] by (split; [apply (f_equal o_kind O1)|apply (f_equal o_ready O1)]).
    rewrite K1. by split.
  Qed.
  Lemma di_latest k els s u j : dinv k els s -> latest L k u j -> dget u els = Some (n0 + j).
  Proof. intros D H. apply (di_els _ _ _ D). by exists j. Qed.

  Lemma child_index k els s j x : dinv k els s -> x ∈ children (heap s) (n0 + j) -> exists i t' u', x = n0 + i /\ i < k /\ L !! i = Some t' /\ it_parent t' = Some u' /\ latest L i u' j /\ uuid_of (heap s) x = it_uuid t'.
  Proof.
    intros D Hx. pose proof (reach_wf s (di_reach _ _ _ D)) as W. destruct (wf0_child _ W _ _ Hx) as [Hxe Hxp].
    pose proof Hxe as Hlt. rewrite exists_in_lt, (di_len _ _ _ D) in Hlt.
    destruct (decide (x < n0)) as [Ho|Ho].
    - exfalso. assert (He : exists_in h0 x) by (by apply exists_in_lt). unfold parent_of in Hxp. rewrite (di_old _ _ _ D x He) in Hxp.
      assert (Hp : exists_in h0 (n0 + j)) by (by apply (wf0_parent_exists h0 x)). apply exists_in_lt in Hp. unfold n0 in Hp. lia.
    - exists (x - n0). assert (Ex : n0 + (x - n0) = x) by lia. assert (Hi : x - n0 < k) by lia.
      destruct (lookup_lt_is_Some_2 L (x - n0)) as [t' Ht']. { pose proof (di_total _ _ _ D). lia. }
      destruct (di_item _ _ _ D _ t' Hi Ht') as (o & O1 & (_ & K2 & _) & _). rewrite Ex in O1.
      destruct (described_get o_uuid _ _ o (fun _ => eq_refl) O1) as (o' & O2 & O3).
      destruct (it_parent t') as [u'|] eqn:Ep.
      + destruct (di_par1 _ _ _ D _ t' u' Hi Ht' Ep) as (j' & J1 & J2). rewrite Ex, Hxp in J2. injection J2 as J2. assert (j' = j) as -> by lia.
        exists t', u'. split; [done|]. split; [done|]. split; [done|]. split; [done|]. split; [done|]. unfold uuid_of. rewrite O2. cbn. by rewrite O3.
      + pose proof (di_par0 _ _ _ D _ t' Hi Ht' Ep) as N. by rewrite Ex, Hxp in N.
  Qed.

  (** Attaching item [k] below item [j] *)
  Lemma child_step k els s s1 t o u j : dinv k els s -> reach s1 -> L !! k = Some t -> it_parent t = Some u -> latest L k u j ->
    heap s1 = heap s ++ [o] -> plain_new o -> describes t o -> (forall e, o_endpoint o = Some e -> exists_in (heap s) e) ->
    (~ fits L k t /\ add_element (n0 + j) (n0 + k) s1 = (Exn ErrorDuplicateElement, s1)) \/
    (exists s', add_element (n0 + j) (n0 + k) s1 = (Ok tt, s') /\ reach s' /\ step1 (heap s) (heap s') (n0 + j) (n0 + k) o /\
       (forall i t' u u' j, i < k -> L !! i = Some t' -> it_parent t' = Some u' -> it_parent t = Some u -> latest L i u' j -> latest L k u j -> it_uuid t' <> it_uuid t)).
  Proof.
    intros D R1 Ht Hu Hj Hs N Ds He. pose proof (di_target _ _ _ _ _ D Hj) as T. rewrite <- (di_len _ _ _ D).
    destruct (add_cases s s1 o (n0 + j) (reach_wf s (di_reach _ _ _ D)) T N He Hs) as [((x & Hx & Hx') & E)|(Hn & _)].
    - left. split; [|done]. intros (_ & _ & _ & F). destruct (child_index _ _ _ _ _ D Hx) as (i & t' & u' & -> & Hi & Ht' & Hu' & Hj' & Hid).
      apply (F i t' u u' j Hi Ht' Hu' Hu Hj' Hj). rewrite <- Hid, Hx'. apply Ds.
    - right. destruct (attach_ok s s1 o (n0 + j) (di_reach _ _ _ D) R1 T N He Hs Hn) as (s' & E & R' & St). exists s'. split; [done|]. split; [done|]. split; [done|].
      intros i t' u2 u' j2 Hi Ht' Hu' Hu2 Hj' Hj2 Hid. assert (u2 = u) as -> by congruence. assert (j2 = j) as -> by (by eapply latest_det).
      apply (Hn (n0 + i)).
      + destruct (di_par1 _ _ _ D i t' u' Hi Ht' Hu') as (j3 & J1 & J2). assert (j3 = j) as -> by (by eapply latest_det).
        apply wf0_parent; [apply reach_wf, D|by eapply di_exists|done].
      + destruct (di_item _ _ _ D i t' Hi Ht') as (o1 & O1 & (_ & K2 & _) & _). destruct (described_get o_uuid _ _ o1 (fun _ => eq_refl) O1) as (o' & O2 & O3).
        unfold uuid_of. rewrite O2. cbn. rewrite O3, K2, Hid. symmetry. apply Ds.
  Qed.

  (** ** The loops *)
  Definition bad (e : exn) : Prop := e = KeyError \/ e = ErrorDuplicateElement \/ e = ErrorRecursiveHierarchy.
  Definition refused {A} (x : res A * st) : Prop := exists e s', x = (Exn e, s') /\ bad e /\ ~ all_fit L.
  Definition node_item (n : msg_node) : item := mkItem KNode (mn_uuid n) (mn_name n) (mn_parent n) None [].
  Definition edge_item (e : msg_edge) : item := mkItem KEdge (me_uuid e) (me_name e) (Some (me_parent e)) None [].
  Definition rel_item (r : msg_rel) : item := mkItem KRel (mr_uuid r) (mr_name r) (Some (mr_parent r)) (Some (mr_ep r)) [].
  Definition value_item (v : msg_value) : item := mkItem KValue (mv_uuid v) (mv_name v) (Some (mv_parent v)) None (mv_vals v).
  Definition from (k : nat) (l : list item) : Prop := forall i t, l !! i = Some t -> L !! (k + i) = Some t.
  Lemma from_cons k t l : from k (t :: l) -> L !! k = Some t /\ from (S k) l.
  Proof.
    intros F. split; [rewrite <- (Nat.add_0_r k); by apply F|]. intros i t' Ht'. rewrite Nat.add_succ_l, <- Nat.add_succ_r. by apply F.
  Qed.
  Lemma not_fit k t : L !! k = Some t -> ~ fits L k t -> ~ all_fit L.
  Proof. intros H1 H2 H3. by apply H2, H3. Qed.
  Lemma no_latest k els s u : dinv k els s -> dget u els = None -> ~ exists j, latest L k u j.
  Proof. intros D Hn (j & Hj). by rewrite (di_latest _ _ _ _ _ D Hj) in Hn. Qed.
  Lemma some_latest k els s u l : dinv k els s -> dget u els = Some l -> exists j, latest L k u j /\ l = n0 + j.
  Proof. intros D. apply (di_els _ _ _ D). Qed.

  Definition node_root (k : nat) (ns : list msg_node) (rt rt' : option loc) : Prop :=
    ((forall n, n ∈ ns -> mn_parent n <> None) /\ rt' = rt) \/
    exists i n, ns !! i = Some n /\ mn_parent n = None /\ rt' = Some (n0 + (k + i)) /\ forall i' n', i < i' -> ns !! i' = Some n' -> mn_parent n' <> None.

  Lemma nodes_run c : forall ns k els s rt, dinv k els s -> from k (map node_item ns) ->
    (exists els' rt' s', decode_nodes c ns els rt s = (Ok (els', rt'), s') /\ dinv (k + length ns) els' s' /\ node_root k ns rt rt') \/
    refused (decode_nodes c ns els rt s).
  Proof.
    induction ns as [|n ns IH]; intros k els s rt D F.
    { left. exists els, rt, s. split; [done|]. rewrite Nat.add_0_r. split; [done|]. left. split; [by intros n Hn%elem_of_nil|done]. }
    cbn [map] in F. apply from_cons in F as [Ht F]. pose proof (di_reach _ _ _ D) as R. pose proof (di_len _ _ _ D) as Hl.
    destruct (new_root_eq KNode (mn_name n) (mn_uuid n) (mn_qname n) c s) as (tm & s1 & E1 & H1).
    assert (R1 : reach s1).
    { eapply (reach_void s _ (ONew KNode (mn_name n) (mn_uuid n) (mn_qname n) (Some c) None)); [done| |reflexivity|exact E1]. done. }
    rewrite Hl in E1. cbn [decode_nodes]. unfold new_node. rewrite (bind_ok _ _ _ _ _ E1). cbv zeta.
    set (els1 := dset (mn_uuid n) (n0 + k) els). set (t := node_item n) in *. set (o := s_time tm _) in H1.
    assert (Dt : describes t o) by done.
    destruct (mn_parent n) as [u|] eqn:Ep.
    - destruct (decide (u = mn_uuid n)) as [Hs|Hs].
      { right. assert (Hd1 : dget u els1 = Some (n0 + k)) by (unfold els1; by rewrite Hs, dget_dset_eq). rewrite Hd1. cbn [of_opt]. rewrite (bind_ok (ret (n0 + k)) _ s1 (n0 + k) s1) by done.
        assert (He : exists_in (heap s1) (n0 + k)) by (rewrite exists_in_lt, H1, app_length; cbn; lia).
        rewrite (bind_exn _ _ _ _ _ (q_C07_self s1 (n0 + k) He)). eexists _, _. split; [reflexivity|]. split; [by right; right|].
        apply (not_fit k t Ht). intros (_ & _ & F3 & _). apply (F3 eq_refl). cbn. by rewrite Ep, Hs. }
      assert (Hd1 : dget u els1 = dget u els) by (unfold els1; by rewrite dget_dset_ne). rewrite Hd1. destruct (dget u els) as [l|] eqn:Ed.
      2:{ right. eexists _, _. split; [apply bind_exn; reflexivity|]. split; [by left|].
          apply (not_fit k t Ht). intros (F1 & _). apply (no_latest _ _ _ u D Ed). by apply F1. }
      destruct (some_latest _ _ _ _ _ D Ed) as (j & Hj & ->). cbn [of_opt]. rewrite (bind_ok (ret (n0 + j)) _ s1 (n0 + j) s1) by done.
      destruct (child_step k els s s1 t o u j D R1 Ht Ep Hj H1) as [(Hf & E2)|(s2 & E2 & R2 & St & Hq)]; [by apply con_plain|done|done| |].
      + right. rewrite (bind_exn _ _ _ _ _ E2). eexists _, _. split; [reflexivity|]. split; [by right; left|]. by apply (not_fit k t Ht).
      + rewrite (bind_ok _ _ _ _ _ E2). rewrite <- Hl in St. pose proof (step1_bump _ _ _ _ t St Dt) as B.
        assert (D' : dinv (S k) els1 s2).
        { eapply (bump_inv k els s s2 t); [exact D|exact R2|exact Ht|exact B|cbn; congruence| |done|done| |done|].
          - cbn. intros u' Hu'. exists j. assert (u' = u) as -> by congruence. done.
          - split; [|split; [done|split; [|done]]].
            + cbn. intros u' Hu'. assert (u' = u) as -> by congruence. by exists j.
            + intros _. cbn. rewrite Ep. congruence.
          - intros Hh. destruct Hh. by left. }
        destruct (IH (S k) els1 s2 rt D' F) as [(els' & rt' & s' & E' & D2 & Hr)|Hr]; [left|by right].
        exists els', rt', s'. split; [exact E'|]. cbn [length]. rewrite Nat.add_succ_r, <- Nat.add_succ_l. split; [done|].
        destruct Hr as [[Hr ->]|(i & n' & Hi & Hn' & -> & Hr)].
        * left. split; [|done]. intros n' [->|Hn']%elem_of_cons; [congruence|by apply Hr].
        * right. exists (S i), n'. split; [done|]. split; [done|]. split; [f_equal; lia|]. intros [|i'] n2 Hi2 Hn2; [lia|]. apply (Hr i'); [lia|done].
    - assert (B : bump (heap s) (heap s1) t None None).
      { rewrite H1. apply (root_bump (heap s) o t); [by apply reach_wf|done..]. }
      assert (D' : dinv (S k) els1 s1).
      { eapply (bump_inv k els s s1 t); [exact D|exact R1|exact Ht|exact B|done| |done|done| |done|].
        - cbn. congruence.
        - split; [cbn; congruence|]. split; [done|]. split; [intros _; cbn; congruence|]. intros i t' u u' j2 _ _ _ Hu'. cbn in Hu'. congruence.
        - intros Hh. destruct Hh. by left. }
      destruct (IH (S k) els1 s1 (Some (n0 + k)) D' F) as [(els' & rt' & s' & E' & D2 & Hr)|Hr]; [left|by right].
      exists els', rt', s'. split; [exact E'|]. cbn [length]. rewrite Nat.add_succ_r, <- Nat.add_succ_l. split; [done|]. right.
      destruct Hr as [[Hr ->]|(i & n' & Hi & Hn' & -> & Hr)].
      + exists 0, n. split; [done|]. split; [done|]. split; [f_equal; lia|]. intros [|i'] n2 Hi2 Hn2; [lia|]. apply Hr. by eapply elem_of_list_lookup_2.
      + exists (S i), n'. split; [done|]. split; [done|]. split; [f_equal; lia|]. intros [|i'] n2 Hi2 Hn2; [lia|]. apply (Hr i'); [lia|done].
  Qed.

  Lemma edges_run c : forall es k els s, dinv k els s -> from k (map edge_item es) ->
    (exists els' s', decode_edges c es els s = (Ok els', s') /\ dinv (k + length es) els' s') \/ refused (decode_edges c es els s).
  Proof.
    induction es as [|n es IH]; intros k els s D F.
    { left. exists els, s. split; [done|]. by rewrite Nat.add_0_r. }
    cbn [map] in F. apply from_cons in F as [Ht F]. pose proof (di_reach _ _ _ D) as R. pose proof (di_len _ _ _ D) as Hl.
    cbn [decode_edges]. set (t := edge_item n) in *. destruct (dget (me_parent n) els) as [l|] eqn:Ed.
    2:{ right. eexists _, _. split; [apply bind_exn; reflexivity|]. split; [by left|].
        apply (not_fit k t Ht). intros (F1 & _). apply (no_latest _ _ _ _ D Ed). by apply F1. }
    destruct (some_latest _ _ _ _ _ D Ed) as (j & Hj & ->). cbn [of_opt]. rewrite (bind_ok (ret (n0 + j)) _ s (n0 + j) s) by done.
    pose proof (di_target _ _ _ _ _ D Hj) as T. unfold new_edge.
    destruct (new_edge_cases s KEdge (me_name n) (me_uuid n) (me_qname n) c (n0 + j) (reach_wf s R) eq_refl T) as [((x & Hx & Hx') & s1 & E)|(Hn & s2 & E2 & St)].
    - right. rewrite (bind_exn _ _ _ _ _ E). eexists _, _. split; [reflexivity|]. split; [by right; left|]. apply (not_fit k t Ht).
      intros (_ & _ & _ & F4). destruct (child_index _ _ _ _ _ D Hx) as (i & t' & u' & -> & Hi & Ht' & Hu' & Hj' & Hid).
      apply (F4 i t' (me_parent n) u' j Hi Ht' Hu' eq_refl Hj' Hj). by rewrite <- Hid, Hx'.
    - rewrite (bind_ok _ _ _ _ _ E2).
      assert (R2 : reach s2).
      { eapply (reach_void s _ (ONew KEdge (me_name n) (me_uuid n) (me_qname n) (Some c) (Some (n0 + j)))); [done| |reflexivity|exact E2].
        split; [done|]. destruct T as (op & Hop & _). by eexists. }
      assert (B : bump (heap s) (heap s2) t (Some (n0 + j)) None) by (apply (step1_bump _ _ _ _ t St); done).
      assert (D' : dinv (S k) (dset (me_uuid n) (length (heap s)) els) s2).
      { eapply (bump_inv k els s s2 t); [exact D|exact R2|exact Ht|exact B|done| |done|done| | |].
        - cbn. intros u' [= <-]. by exists j.
        - split; [cbn; intros u' [= <-]; by exists j|]. split; [done|]. split; [done|].
          intros i t' u2 u' j2 Hi Ht' Hu' Hu2 Hj' Hj2 Hid. injection Hu2 as <-. assert (j2 = j) as -> by (by eapply latest_det).
          apply (Hn (n0 + i)).
          + destruct (di_par1 _ _ _ D i t' u' Hi Ht' Hu') as (j3 & J1 & J2). assert (j3 = j) as -> by (by eapply latest_det).
            apply wf0_parent; [by apply reach_wf|by eapply di_exists|done].
          + destruct (di_item _ _ _ D i t' Hi Ht') as (o1 & O1 & (_ & K2 & _) & _). destruct (described_get o_uuid _ _ o1 (fun _ => eq_refl) O1) as (o' & O2 & O3).
            unfold uuid_of. rewrite O2. cbn. by rewrite O3, K2, Hid.
        - intros _. by rewrite Hl.
        - intros Hh. destruct Hh. by right. }
      destruct (IH (S k) _ s2 D' F) as [(els' & s' & E' & D2)|Hr]; [left|by right].
      exists els', s'. split; [exact E'|]. cbn [length]. by rewrite Nat.add_succ_r, <- Nat.add_succ_l.
  Qed.

  Lemma rels_run els : forall rs k s, dinv k els s -> from k (map rel_item rs) ->
    (exists s', decode_rels rs els s = (Ok tt, s') /\ dinv (k + length rs) els s') \/ refused (decode_rels rs els s).
  Proof.
    induction rs as [|r rs IH]; intros k s D F.
    { left. exists s. split; [done|]. by rewrite Nat.add_0_r. }
    cbn [map] in F. apply from_cons in F as [Ht F]. pose proof (di_reach _ _ _ D) as R. pose proof (di_len _ _ _ D) as Hl.
    cbn [decode_rels]. set (t := rel_item r) in *. destruct (dget (mr_ep r) els) as [le|] eqn:Ee.
    2:{ right. eexists _, _. split; [apply bind_exn; reflexivity|]. split; [by left|].
        apply (not_fit k t Ht). intros (_ & F1 & _). apply (no_latest _ _ _ _ D Ee). by apply F1. }
    destruct (some_latest _ _ _ _ _ D Ee) as (je & Hje & ->). cbn [of_opt]. rewrite (bind_ok (ret (n0 + je)) _ s (n0 + je) s) by done.
    destruct (dget (mr_parent r) els) as [l|] eqn:Ed.
    2:{ right. eexists _, _. split; [apply bind_exn; reflexivity|]. split; [by left|].
        apply (not_fit k t Ht). intros (F1 & _). apply (no_latest _ _ _ _ D Ed). by apply F1. }
    destruct (some_latest _ _ _ _ _ D Ed) as (j & Hj & ->). cbn [of_opt]. rewrite (bind_ok (ret (n0 + j)) _ s (n0 + j) s) by done.
    set (o := s_endpoint (Some (n0 + je)) (blank KRel (mr_uuid r) (mr_name r) (mr_qname r))). set (s1 := set_heap (heap s ++ [o]) s).
    assert (E1 : new_rel (mr_uuid r) (mr_name r) (mr_qname r) (n0 + je) WNone BIDIRECTIONAL None s = (Ok (n0 + k), s1)).
    { rewrite <- Hl. reflexivity. }
    assert (Hee : exists_in (heap s) (n0 + je)) by (eapply di_exists; [exact D|apply Hje]).
    assert (R1 : reach s1).
    { eapply (reach_void s _ (ONewRel (mr_uuid r) (mr_name r) (mr_qname r) (n0 + je) WNone BIDIRECTIONAL None)); [done| |reflexivity|exact E1]. done. }
    rewrite (bind_ok _ _ _ _ _ E1).
    destruct (child_step k els s s1 t o (mr_parent r) j D R1 Ht eq_refl Hj eq_refl) as [(Hf & E2)|(s2 & E2 & R2 & St & Hq)]; [by split|done|cbn; by intros e [= <-]| |].
    - right. rewrite (bind_exn _ _ _ _ _ E2). eexists _, _. split; [reflexivity|]. split; [by right; left|]. by apply (not_fit k t Ht).
    - rewrite (bind_ok _ _ _ _ _ E2). rewrite <- Hl in St. assert (B : bump (heap s) (heap s2) t (Some (n0 + j)) (Some (n0 + je))) by (apply (step1_bump _ _ _ _ t St); done).
      assert (D' : dinv (S k) els s2).
      { eapply (bump_inv k els s s2 t); [exact D|exact R2|exact Ht|exact B|done| |done| | | |done].
        - cbn. intros u' [= <-]. by exists j.
        - cbn. intros u' [= <-]. by exists je.
        - split; [cbn; intros u' [= <-]; by exists j|]. split; [cbn; intros u' [= <-]; by exists je|]. by split.
        - by intros [|]. }
      destruct (IH (S k) s2 D' F) as [(s' & E' & D2)|Hr]; [left|by right].
      exists s'. split; [exact E'|]. cbn [length]. by rewrite Nat.add_succ_r, <- Nat.add_succ_l.
  Qed.

  Lemma values_run els : forall vs k s, dinv k els s -> from k (map value_item vs) ->
    (exists s', decode_values vs els s = (Ok tt, s') /\ dinv (k + length vs) els s') \/ refused (decode_values vs els s).
  Proof.
    induction vs as [|r vs IH]; intros k s D F.
    { left. exists s. split; [done|]. by rewrite Nat.add_0_r. }
    cbn [map] in F. apply from_cons in F as [Ht F]. pose proof (di_reach _ _ _ D) as R. pose proof (di_len _ _ _ D) as Hl.
    cbn [decode_values]. set (t := value_item r) in *.
    set (o := s_dim (length (mv_vals r)) (s_vals (mv_vals r) (blank KValue (mv_uuid r) (mv_name r) (mv_qname r)))). set (s1 := set_heap (heap s ++ [o]) s).
    assert (E1 : new_value (mv_uuid r) (mv_name r) (mv_qname r) (Some (mv_vals r)) s = (Ok (n0 + k), s1)).
    { rewrite <- Hl. reflexivity. }
    assert (R1 : reach s1).
    { eapply (reach_void s _ (ONewValue (mv_uuid r) (mv_name r) (mv_qname r) (Some (mv_vals r)))); [done| |reflexivity|exact E1]. done. }
    rewrite (bind_ok _ _ _ _ _ E1).
    destruct (dget (mv_parent r) els) as [l|] eqn:Ed.
    2:{ right. eexists _, _. split; [apply bind_exn; reflexivity|]. split; [by left|].
        apply (not_fit k t Ht). intros (F1 & _). apply (no_latest _ _ _ _ D Ed). by apply F1. }
    destruct (some_latest _ _ _ _ _ D Ed) as (j & Hj & ->). cbn [of_opt]. rewrite (bind_ok (ret (n0 + j)) _ s1 (n0 + j) s1) by done.
    destruct (child_step k els s s1 t o (mv_parent r) j D R1 Ht eq_refl Hj eq_refl) as [(Hf & E2)|(s2 & E2 & R2 & St & Hq)]; [by split|done|done| |].
    - right. rewrite (bind_exn _ _ _ _ _ E2). eexists _, _. split; [reflexivity|]. split; [by right; left|]. by apply (not_fit k t Ht).
    - rewrite (bind_ok _ _ _ _ _ E2). rewrite <- Hl in St. assert (B : bump (heap s) (heap s2) t (Some (n0 + j)) None) by (apply (step1_bump _ _ _ _ t St); done).
      assert (D' : dinv (S k) els s2).
      { eapply (bump_inv k els s s2 t); [exact D|exact R2|exact Ht|exact B|done| |done|done| | |done].
        - cbn. intros u' [= <-]. by exists j.
        - split; [cbn; intros u' [= <-]; by exists j|]. split; [done|]. by split.
        - by intros [|]. }
      destruct (IH (S k) s2 D' F) as [(s' & E' & D2)|Hr]; [left|by right].
      exists s'. split; [exact E'|]. cbn [length]. by rewrite Nat.add_succ_r, <- Nat.add_succ_l.
  Qed.
End decode.
