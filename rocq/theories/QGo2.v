(** * Loading: connecting succeeds *)
From stdpp Require Import relations.
From Verif Require Import Spec Hierarchy Elements Factory History PDict PPath PExec PBfs PWF PAdd PMono PStep PRemove PReach PPrim PHist QHier QHier2 QHier3 QHier4 QHier5 QHier6 QFac SpecFac QFac2 CogniLang QCog QCog2 QCog3 QCog4 QConv SpecTensor QGo SpecCogni.

Lemma port_dot x y : has_char dot (port_name x y) = true.
Proof. unfold port_name. cbn [join]. rewrite has_char_app. apply orb_true_iff. right. done. Qed.
Lemma port_fresh n0 c s n on e x : dinv n0 c s -> WF0 (heap s) -> n0 <= n -> heap s !! n = Some on -> o_kind on = KNode -> x ∈ children (heap s) n ->
  uuid_of (heap s) x <> sha s (elem_id_text (o_name on) (rel_name e (o_name on) (clk s c (tick s)))).
Proof. intros D W Hn Hon Hk. rewrite port_dtext. apply (dinv_fresh n0 c s n); try done. unfold kind_of. rewrite Hon. cbn. congruence. Qed.

Lemma unary_go n0 c s e n w d oe on : dinv n0 c s -> WF0 (heap s) -> heap s !! e = Some oe -> o_kind oe = KEdge -> o_ready oe = true -> o_clock oe = Some c ->
  n0 <= n -> heap s !! n = Some on -> o_kind on = KNode ->
  (forall x, x ∈ children (heap s) e -> uuid_of (heap s) x <> sha s (elem_id_text (o_name oe) (o_name on))) ->
  exists r s', unary_connect e n w d None s = (Ok r, s') /\ dinv n0 c s' /\ mono s s' /\ children (heap s') e = children (heap s) e ++ [r] /\ kept (heap s) (heap s') /\ WF0 (heap s') /\
    uuid_of (heap s') r = sha s (elem_id_text (o_name oe) (o_name on)).
Proof.
  intros D W He Hke Hre Hce Hn Hon Hkn Hu.
  destruct (proj1 (dv_built _ _ _ D n on Hn Hon) ltac:(by rewrite Hkn)) as [_ Hr].
  assert (Hne : n <> e) by (intros ->; congruence).
  destruct (unary_ok s e n oe on c w d W He Hon Hne Hke Hre Hce ltac:(by rewrite Hkn) Hr Hu) as (s' & E & C & Mn & Ht).
  { intros x. by eapply port_fresh. }
  destruct (cn_fr _ _ _ _ _ _ _ _ C) as (F1 & F2 & F3 & F4). destruct (cn_fp _ _ _ _ _ _ _ _ C) as (P1 & P2 & P3 & P4).
  exists (length (heap s)), s'. split; [exact E|]. split; [|split; [exact Mn|]; split; [apply C|]; split; [apply C|]; split; [apply C|]].
  - eapply dinv_step; [exact D|exact W|apply C|exact Mn|intros; by apply C|intros l Hl; by rewrite (cn_unmoved _ _ _ _ _ _ _ _ C l Hl)|intros l q _ Hl; rewrite (cn_unmoved _ _ _ _ _ _ _ _ C l Hl); by left|]. intros l o Hl Ho.
    pose proof Ho as Hlt. apply lookup_lt_Some in Hlt. rewrite (cn_len _ _ _ _ _ _ _ _ C) in Hlt.
    assert (Hor : l = length (heap s) \/ l = S (length (heap s))) by lia. destruct Hor as [-> | ->].
    + rewrite Ho in F4. cbn [fmap option_fmap option_map] in F4. apply (inj Some) in F4.
      assert (E1 : o_kind o = KRel) by (change (o_kind o) with (o_kind (fixed_part o)); by rewrite F4).
      split; [intros Hx; congruence|]. split; [split; intros Hx; rewrite E1 in Hx; done|]. unfold parent_of in F2. rewrite Ho in F2. cbn in F2. split; [intros _ e' Hp|split; [intros Hp; congruence|split; [intros Hp; congruence|split; [intros _ y Hy; assert (y = n) as -> by (change (o_endpoint o) with (o_endpoint (fixed_part o)) in Hy; rewrite F4 in Hy; cbn in Hy; congruence); done|intros q Hq; assert (q = e) as -> by congruence; rewrite (kept_kind _ _ _ (cn_kept _ _ _ _ _ _ _ _ C)) by (by eexists); unfold kind_of; rewrite He; cbn; congruence]]]]. assert (e' = e) as -> by congruence.
      { rewrite (kept_kind _ _ _ (cn_kept _ _ _ _ _ _ _ _ C)) by (by eexists). unfold kind_of. rewrite He. cbn. by rewrite Hke. }
    + rewrite Ho in P4. cbn [fmap option_fmap option_map] in P4. apply (inj Some) in P4.
      assert (E1 : o_kind o = KPort) by (change (o_kind o) with (o_kind (fixed_part o)); by rewrite P4).
      assert (E2 : o_uuid o = sha s (elem_id_text (o_name on) (rel_name (o_name oe) (o_name on) (clk s c (tick s))))) by (change (o_uuid o) with (o_uuid (fixed_part o)); by rewrite P4).
      assert (E3 : o_name o = port_name (o_name on) (rel_name (o_name oe) (o_name on) (clk s c (tick s)))) by (change (o_name o) with (o_name (fixed_part o)); by rewrite P4).
      split; [|split].
      * intros _. rewrite E2, port_dtext, (m_sha _ _ Mn), (m_clk _ _ Mn). eexists _, (tick s). by split.
      * split; [intros Hx; rewrite E1 in Hx; done|]. intros _. rewrite E3. apply port_dot.
      * split; [intros Hx; congruence|]. unfold parent_of in P2. rewrite Ho in P2. cbn in P2. split; [intros Hx; congruence|]. split; [|split; [intros Hx; congruence|intros q Hq; assert (q = n) as -> by congruence; rewrite (kept_kind _ _ _ (cn_kept _ _ _ _ _ _ _ _ C)) by (by eexists); unfold kind_of; rewrite Hon; cbn; congruence]]. intros _. exists (length (heap s)).
        assert (Er : exists o', heap s' !! length (heap s) = Some o' /\ o_kind o' = KRel /\ o_endpoint o' = Some n).
        { destruct (heap s' !! length (heap s)) as [o'|]; [|done]. exists o'. split; [done|]. cbn [fmap option_fmap option_map] in F4. apply (inj Some) in F4.
          change (o_kind o') with (o_kind (fixed_part o')). change (o_endpoint o') with (o_endpoint (fixed_part o')). by rewrite F4. }
        destruct Er as (o' & Ho' & Er1 & Er2). split; [change (o_endpoint o) with (o_endpoint (fixed_part o)); by rewrite P4|]. split; [apply (dv_len _ _ _ D)|]. unfold kind_of, ep_of. rewrite Ho'. cbn. rewrite Er1, Er2, P2. done.
  - unfold uuid_of. destruct (heap s' !! length (heap s)) as [o|]; [|done]. cbn [fmap option_fmap option_map] in F4. apply (inj Some) in F4. cbn.
    change (o_uuid o) with (o_uuid (fixed_part o)). by rewrite F4.
Qed.

Lemma unary_sem_go n0 c s e n w d oe on sv osv p cl : dinv n0 c s -> clean s -> heap s !! e = Some oe -> o_kind oe = KEdge -> o_ready oe = true -> o_clock oe = Some c ->
  n0 <= n -> heap s !! n = Some on -> o_kind on = KNode ->
  n0 <= sv -> heap s !! sv = Some osv -> o_kind osv = KSem cl -> o_parent osv = Some p -> kind_of (heap s) p = Some KNode -> ~ within (heap s) sv e ->
  (forall x, x ∈ children (heap s) e -> uuid_of (heap s) x <> sha s (elem_id_text (o_name oe) (o_name on))) ->
  exists r s', unary_connect e n w d (Some sv) s = (Ok r, s') /\ dinv n0 c s' /\ mono s s' /\ children (heap s') e = children (heap s) e ++ [r] /\
    uuid_of (heap s') r = sha s (elem_id_text (o_name oe) (o_name on)).
Proof.
  intros D C He Hke Hre Hce Hn Hon Hkn Hsv0 Hsv Hks Hpar Hkp Hnw Hu. pose proof (clean_wf _ C) as W.
  destruct (proj1 (dv_built _ _ _ D n on Hn Hon) ltac:(by rewrite Hkn)) as [_ Hr].
  assert (Hne : n <> e) by (intros ->; congruence).
  assert (Hrem : removable (heap s) sv). { intros q Hq. unfold parent_of in Hq. rewrite Hsv in Hq. simpl in Hq. assert (q = p) as -> by congruence. by rewrite Hkp. }
  set (nm := rel_name (o_name oe) (o_name on) (clk s c (tick s))). set (ur := sha s (elem_id_text (o_name oe) (o_name on))).
  set (s1 := set_tick (S (tick s)) s). set (orel := rel_obj ur nm (join "/" [o_name oe; nm]) n w d (Some sv)).
  set (sa := set_heap (heap s1 ++ [orel]) s1). set (ra := length (heap s)).
  assert (Hra : heap sa !! ra = Some orel) by (unfold sa, ra; cbn [heap set_heap set_tick s1]; by rewrite lookup_app_r, Nat.sub_diag by lia).
  assert (Wa : WF0 (heap sa)). { unfold sa. cbn [heap set_heap set_tick s1]. apply alloc_wf0; try done. simpl. intros y [= <-]. by eexists. }
  assert (Hla : forall l o, heap s !! l = Some o -> heap sa !! l = Some o).
  { intros l o Hl. unfold sa. cbn [heap set_heap s1 set_tick]. rewrite lookup_app_l; [done|by apply lookup_lt_Some in Hl]. }
  assert (Ka : kept (heap s) (heap sa)) by apply alloc_kept.
  assert (Hpa : forall l, parent_of (heap sa) l = parent_of (heap s) l) by (intros; unfold sa; cbn [heap set_heap]; by apply app_parent).
  assert (Hca : forall l, exists_in (heap s) l -> children (heap sa) l = children (heap s) l).
  { intros l [o Ho]. unfold children. by rewrite (Hla l o Ho), Ho. }
  destruct (connect_grown sa n ra on orel Wa (Hla _ _ Hon) Hra ltac:(by rewrite Hkn) Hr) as (sb & Eb & Gb & Mb & Fb).
  { intros y Hy. rewrite Hca in Hy by (by eexists). rewrite (kept_uuid _ _ _ Ka) by (by eapply wf_children_exist). exact (port_fresh n0 c s n on (o_name oe) y D W Hn Hon Hkn Hy). }
  set (pt := length (heap sa)) in *. assert (Hpt : pt = S ra) by (unfold pt, sa, ra; simpl; rewrite app_length; simpl; lia).
  destruct (gr_fresh _ _ _ _ _ Gb) as (F1 & F2 & F3 & F4). pose proof (gr_kept _ _ _ _ _ Gb) as Kb. pose proof (gr_wf _ _ _ _ _ Gb) as Wb.
  assert (Hsra : sv <> ra) by (apply lookup_lt_Some in Hsv; unfold ra; lia).
  assert (Hera : e <> ra) by (apply lookup_lt_Some in He; unfold ra; lia).
  assert (Hnra : n <> ra) by (apply lookup_lt_Some in Hon; unfold ra; lia).
  assert (Hse : sv <> e) by (intros ->; apply Hnw; by left).
  assert (Hsn : sv <> n) by (intros ->; congruence).
  assert (Hpe : p <> e). { intros ->. unfold kind_of in Hkp. rewrite He in Hkp. cbn in Hkp. congruence. }
  assert (Kab : kept (heap s) (heap sb)) by (by eapply kept_trans).
  assert (Hb : forall l o, heap sa !! l = Some o -> exists o', heap sb !! l = Some o' /\ ident_part o' = ident_part o).
  { intros l o Ho. specialize (Kb l o Ho). destruct (heap sb !! l) as [o'|]; [|done]. exists o'. split; [done|]. cbn [fmap option_fmap option_map] in Kb. by apply (inj Some) in Kb. }
  assert (Hpb : forall l, exists_in (heap s) l \/ l = ra -> parent_of (heap sb) l = parent_of (heap sa) l).
  { intros l Hl. apply (gr_unmoved _ _ _ _ _ Gb). destruct Hl as [Hl| ->]; [by apply (kept_exists _ _ _ Ka)|by eexists]. }
  assert (Hcrb : children (heap sb) ra = []) by (rewrite (gr_other _ _ _ _ _ Gb); [unfold children; by rewrite Hra|by eexists|done]).
  destruct (Hb ra orel Hra) as (orb & Horb & Hirb). destruct (Hb sv osv (Hla _ _ Hsv)) as (osb & Hosb & Hisb).
  assert (Hkrb : o_kind orb = KRel) by (change (o_kind orb) with (o_kind (ident_part orb)); by rewrite Hirb).
  assert (Hurb : o_uuid orb = ur) by (change (o_uuid orb) with (o_uuid (ident_part orb)); by rewrite Hirb).
  assert (Hksb : o_kind osb = o_kind osv) by (change (o_kind osb) with (o_kind (ident_part osb)); by rewrite Hisb).
  assert (Hok1 : add_ok (heap sb) ra sv).
  { split; [by eexists|]. split; [by eexists|]. split.
    - intros Han. assert (Hrp : parent_of (heap sb) ra = None) by (rewrite Hpb by (by right); unfold parent_of; by rewrite Hra).
      inversion Han; congruence.
    - intros q Hq. rewrite Hpb in Hq by (left; by eexists). rewrite Hpa in Hq. rewrite !(kept_kind _ _ _ Kab); [by apply Hrem|..].
      all: by eapply wf0_parent_exists. }
  assert (Hg1 : dget (o_uuid osb) (o_subs orb) = None) by (apply (children_uuid_new (heap sb) ra); [done|done|]; rewrite Hcrb; intros x Hx; inversion Hx).
  assert (Hc1 : ~ (o_kind orb = KRel /\ is_hyperelement (o_kind osb) = true)) by (rewrite Hksb, Hks; by intros [_ ?]).
  assert (Hc2 : ~ (o_kind orb = KEdge /\ o_kind osb = KRel /\ o_ready orb = false)) by (rewrite Hkrb; by intros [? _]).
  destruct (add_element_ok sb ra sv orb osb Wb Hok1 Hsra Horb Hosb Hg1 Hc1 Hc2) as (Ts & sc & E3 & _ & _).
  pose proof (add_placed sb ra sv orb osb sc Wb Hok1 Hsra Horb Hosb Hc1 Hc2 E3) as P3.
  pose proof (add_element_wf sb ra sv Wb Hok1) as Wc. rewrite E3 in Wc. cbn [snd] in Wc.
  pose proof (kept_trans _ _ _ Kab (pl_kept _ _ _ _ P3)) as Kc.
  assert (Hec : exists oec, heap sc !! e = Some oec /\ o_ready oec = true).
  { specialize (Kc e oe He). destruct (heap sc !! e) as [o'|]; [|done]. exists o'. split; [done|]. cbn [fmap option_fmap option_map] in Kc. apply (inj Some) in Kc.
    change (o_ready o') with (o_ready (ident_part o')). rewrite Kc. exact Hre. }
  destruct Hec as (oec & Hoec & Hrec).
  assert (Horc : exists orc, heap sc !! ra = Some orc /\ ident_part orc = ident_part orb).
  { pose proof (pl_kept _ _ _ _ P3 ra orb Horb) as K. destruct (heap sc !! ra) as [o'|]; [|done]. exists o'. split; [done|]. cbn [fmap option_fmap option_map] in K. by apply (inj Some) in K. }
  destruct Horc as (orc & Horc & Hirc).
  assert (Hkrc : o_kind orc = KRel) by (change (o_kind orc) with (o_kind (ident_part orc)); by rewrite Hirc).
  assert (Hurc : o_uuid orc = ur) by (change (o_uuid orc) with (o_uuid (ident_part orc)); by rewrite Hirc).
  assert (Hrp : parent_of (heap sc) ra = None).
  { rewrite (pl_unmoved _ _ _ _ P3) by done. rewrite Hpb by (by right). unfold parent_of. by rewrite Hra. }
  assert (Hok2 : add_ok (heap sc) e ra).
  { split; [by eexists|]. split; [by eexists|]. split.
    - intros Han.
      assert (Hx : forall a x, ancestor (heap sc) a x -> a = ra -> exists_in (heap s) x -> x = sv \/ ancestor (heap s) sv x).
      { intros a x. induction 1 as [a x Hp|a q x Hp _ IH]; intros -> Hx.
        - destruct (decide (x = sv)) as [->|Hxs]; [by left|]. exfalso.
          rewrite (pl_unmoved _ _ _ _ P3) in Hp by done. rewrite Hpb in Hp by (by left). rewrite Hpa in Hp.
          pose proof (wf0_parent_exists _ _ _ W Hp) as Hq. apply exists_in_lt in Hq. unfold ra in Hq. lia.
        - destruct (decide (x = sv)) as [->|Hxs]; [by left|]. right.
          rewrite (pl_unmoved _ _ _ _ P3) in Hp by done. rewrite Hpb in Hp by (by left). rewrite Hpa in Hp.
          destruct (IH eq_refl) as [->|Hq]; [by eapply wf0_parent_exists|by constructor|by eapply anc_up]. }
      apply Hnw. destruct (Hx ra e Han eq_refl) as [->|Hx']; [by eexists|by left|by right].
    - intros q Hq. congruence. }
  assert (Hce' : children (heap sc) e = children (heap s) e).
  { rewrite (pl_other _ _ _ _ P3) by done. rewrite (gr_other _ _ _ _ _ Gb) by (first [apply (kept_exists _ _ _ Ka); by eexists|by intros ->]). rewrite Hca by (by eexists).
    apply filter_id. intros Hin. destruct (wf0_child _ W e sv Hin) as [_ Hx]. unfold parent_of in Hx. rewrite Hsv in Hx. cbn in Hx. congruence. }
  assert (Hg2 : dget (o_uuid orc) (o_subs oec) = None).
  { apply (children_uuid_new (heap sc) e); [done|done|]. rewrite Hce', Hurc. intros x Hx. rewrite (kept_uuid _ _ _ Kc) by (by eapply wf_children_exist). by apply Hu. }
  assert (Hd1 : ~ (o_kind oec = KRel /\ is_hyperelement (o_kind orc) = true)) by (rewrite Hkrc; by intros [_ ?]).
  assert (Hd2 : ~ (o_kind oec = KEdge /\ o_kind orc = KRel /\ o_ready oec = false)) by (rewrite Hrec; by intros (_ & _ & ?)).
  destruct (add_element_ok sc e ra oec orc Wc Hok2 (not_eq_sym Hera) Hoec Horc Hg2 Hd1 Hd2) as (Td & sd & E4 & _ & _).
  pose proof (add_placed sc e ra oec orc sd Wc Hok2 (not_eq_sym Hera) Hoec Horc Hd1 Hd2 E4) as P4.
  assert (E : unary_connect e n w d (Some sv) s = (Ok ra, sd)).
  { unfold unary_connect. rewrite (bind_ok _ _ _ _ _ (deref_ok _ _ _ He)). rewrite (bind_ok _ _ _ _ _ (deref_ok _ _ _ Hon)).
    rewrite decide_True by done. rewrite Hce. cbn [of_opt]. rewrite (bind_ok (ret c) _ s c s) by done.
    rewrite (bind_ok (now c) _ s (clk s c (tick s)) s1) by done. rewrite Hre. fold nm.
    rewrite (bind_ok (hash _) _ s1 ur s1) by done. unfold new_rel. fold (rel_obj ur nm (join "/" [o_name oe; nm]) n w d (Some sv)). fold orel.
    rewrite (bind_ok _ _ _ _ _ (alloc_state _ _)). fold sa. change (length (heap s1)) with ra.
    rewrite (bind_ok _ _ _ _ _ Eb), (bind_ok _ _ _ _ _ E3), (bind_ok _ _ _ _ _ E4). reflexivity. }
  assert (Mn : mono s sd) by (eapply pres_run; [|exact E]; pres).
  assert (Ht : tick s < tick sd).
  { pose proof (m_tick _ _ Mb) as T1. pose proof (pres_add_element ra sv sb) as T2. rewrite E3 in T2. pose proof (m_tick _ _ T2) as T3.
    pose proof (pres_add_element e ra sc) as T4. rewrite E4 in T4. pose proof (m_tick _ _ T4) as T5. cbn [snd] in *. assert (tick sa = S (tick s)) by done. lia. }
  pose proof (kept_trans _ _ _ Kc (pl_kept _ _ _ _ P4)) as Kd.
  assert (Kbd : kept (heap sb) (heap sd)) by (eapply kept_trans; [apply P3|apply P4]).
  exists ra, sd. split; [exact E|]. split; [|split; [exact Mn|split]].
  - eapply dinv_step; [exact D|exact W|exact Kd|exact Mn| | | |].
    + intros l Hl Hor. assert (Hlr : l <> ra) by (intros ->; apply exists_in_lt in Hl; unfold ra in Hl; lia).
      assert (Hls : l <> sv). { intros ->. destruct Hor as [Hx|[Hx|Hx]]; [lia| |]; unfold kind_of in Hx; rewrite Hsv in Hx; cbn in Hx; congruence. }
      rewrite (pl_unmoved _ _ _ _ P4) by done. rewrite (pl_unmoved _ _ _ _ P3) by done. rewrite Hpb by (by left). apply Hpa.
    + intros l Hl Hn0. assert (Hlr : l <> ra) by (intros ->; apply exists_in_lt in Hl; unfold ra in Hl; lia). rewrite (pl_unmoved _ _ _ _ P4) in Hn0 by done.
      destruct (decide (l = sv)) as [->|Hls]; [by rewrite (pl_parent _ _ _ _ P3) in Hn0|]. rewrite (pl_unmoved _ _ _ _ P3) in Hn0 by done. rewrite Hpb in Hn0 by (by left). by rewrite Hpa in Hn0.
    + intros l q Hl0 Hl Hq. assert (Hlr : l <> ra) by (intros ->; apply exists_in_lt in Hl; unfold ra in Hl; lia). rewrite (pl_unmoved _ _ _ _ P4) in Hq by done.
      destruct (decide (l = sv)) as [->|Hls]; [right; rewrite (pl_parent _ _ _ _ P3) in Hq; injection Hq as <-|left; rewrite (pl_unmoved _ _ _ _ P3) in Hq by done; rewrite Hpb in Hq by (by left); by rewrite Hpa in Hq].
      rewrite (kept_kind _ _ _ (pl_kept _ _ _ _ P4)) by (by eexists). unfold kind_of. rewrite Horc. cbn. congruence.
    + intros l o Hl Ho. pose proof Ho as Hlt. apply lookup_lt_Some in Hlt. rewrite (pl_len _ _ _ _ P4), (pl_len _ _ _ _ P3), (gr_len _ _ _ _ _ Gb) in Hlt. fold pt in Hlt.
      assert (Hor : l = ra \/ l = pt) by (unfold ra in *; lia). destruct Hor as [-> | ->].
      * assert (E1 : o_kind o = KRel).
        { pose proof (kept_kind _ _ ra (pl_kept _ _ _ _ P4) ltac:(by eexists)) as K. unfold kind_of in K. rewrite Ho, Horc in K. cbn in K. congruence. }
        split; [intros Hx; congruence|]. split; [split; intros Hx; rewrite E1 in Hx; done|]. pose proof (pl_parent _ _ _ _ P4) as Hp'. unfold parent_of in Hp'. rewrite Ho in Hp'. cbn in Hp'. split; [intros _ e' Hp|split; [intros Hx; congruence|split; [intros Hx; congruence|split; [|intros q Hq; assert (q = e) as -> by congruence; rewrite (kept_kind _ _ _ Kd) by (by eexists); unfold kind_of; rewrite He; cbn; congruence]; intros _ y Hy; assert (y = n) as -> by (pose proof (pl_kept _ _ _ _ P4 ra orc Horc) as Kr; rewrite Ho in Kr; cbn [fmap option_fmap option_map] in Kr; apply (inj Some) in Kr; change (o_endpoint o) with (o_endpoint (ident_part o)) in Hy; rewrite Kr, Hirc, Hirb in Hy; cbn in Hy; congruence); done]]].
        assert (e' = e) as -> by congruence. rewrite (kept_kind _ _ _ Kd) by (by eexists). unfold kind_of. rewrite He. cbn. by rewrite Hke.
      * destruct (heap sb !! pt) as [ob|] eqn:Hob; [|done]. cbn [fmap option_fmap option_map] in F4. apply (inj Some) in F4.
        pose proof (Kbd pt ob Hob) as Ki. rewrite Ho in Ki. cbn [fmap option_fmap option_map] in Ki. apply (inj Some) in Ki.
        assert (E1 : o_kind o = KPort). { change (o_kind o) with (o_kind (ident_part o)). rewrite Ki. change (o_kind (ident_part ob)) with (o_kind (fixed_part ob)). by rewrite F4. }
        assert (E2 : o_uuid o = sha s (elem_id_text (o_name on) nm)). { change (o_uuid o) with (o_uuid (ident_part o)). rewrite Ki. change (o_uuid (ident_part ob)) with (o_uuid (fixed_part ob)). by rewrite F4. }
        assert (E3' : o_name o = port_name (o_name on) nm). { change (o_name o) with (o_name (ident_part o)). rewrite Ki. change (o_name (ident_part ob)) with (o_name (fixed_part ob)). by rewrite F4. }
        split; [|split].
        -- intros _. rewrite E2. unfold nm. rewrite port_dtext, (m_sha _ _ Mn), (m_clk _ _ Mn). eexists _, (tick s). by split.
        -- split; [intros Hx; rewrite E1 in Hx; done|]. intros _. rewrite E3'. apply port_dot.
        -- split; [intros Hx; congruence|]. assert (Hpp : parent_of (heap sd) pt = Some n).
           { rewrite (pl_unmoved _ _ _ _ P4) by lia. rewrite (pl_unmoved _ _ _ _ P3); [exact F2|]. intros Hx. apply lookup_lt_Some in Hsv. unfold ra in Hpt. lia. }
           unfold parent_of in Hpp. rewrite Ho in Hpp. cbn in Hpp. split; [intros Hx; congruence|]. split; [|split; [intros Hx; congruence|intros q Hq; assert (q = n) as -> by congruence; rewrite (kept_kind _ _ _ Kd) by (by eexists); unfold kind_of; rewrite Hon; cbn; congruence]]. intros _. exists ra.
           assert (Ee : o_endpoint o = Some ra). { change (o_endpoint o) with (o_endpoint (ident_part o)). rewrite Ki. change (o_endpoint (ident_part ob)) with (o_endpoint (fixed_part ob)). by rewrite F4. }
           split; [exact Ee|]. split; [apply (dv_len _ _ _ D)|]. pose proof (pl_kept _ _ _ _ P4 ra orc Horc) as Kr. unfold kind_of, ep_of. destruct (heap sd !! ra) as [o2|]; [|done]. cbn [fmap option_fmap option_map] in Kr. apply (inj Some) in Kr.
           cbn. change (o_kind o2) with (o_kind (ident_part o2)). change (o_endpoint o2) with (o_endpoint (ident_part o2)). rewrite Kr, Hirc, Hirb, Hpp. done.
  - rewrite (pl_p _ _ _ _ P4). by rewrite Hce'.
  - rewrite (kept_uuid _ _ _ (pl_kept _ _ _ _ P4)) by (by eexists). unfold uuid_of. rewrite Horc. cbn. exact Hurc.
Qed.
