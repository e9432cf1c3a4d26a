(** * Loading: relations *)
From stdpp Require Import relations.
From Verif Require Import Spec Hierarchy Elements Factory History PDict PPath PExec PBfs PWF PAdd PMono PStep PRemove PReach PPrim PHist QHier QHier2 QHier3 QHier4 QHier5 QHier6 QFac SpecFac QFac2 CogniLang SpecCogni QCog.

Lemma unary_hyper s e n w d sem r s' : WF0 (heap s) -> exists_in (heap s) e -> exists_in (heap s) n -> unary_connect e n w d sem s = (Ok r, s') ->
  exists on, heap s !! n = Some on /\ is_hyperelement (o_kind on) = true.
Proof.
  intros W [oe He] [on Hn] E. exists on. split; [done|]. unfold unary_connect in E.
  rewrite (bind_ok _ _ _ _ _ (deref_ok _ _ _ He)), (bind_ok _ _ _ _ _ (deref_ok _ _ _ Hn)) in E.
  case_decide as Hk; [|done]. destruct (o_clock oe) as [c|]; [|done]. cbn [of_opt] in E.
  rewrite (bind_ok (ret c) _ s c s) in E by done. rewrite (bind_ok (now c) _ s (clk s c (tick s)) (set_tick (S (tick s)) s)) in E by done.
  destruct (o_ready oe); [|done]. cbv zeta in E. rewrite (bind_ok (hash _) _ _ (sha s (elem_id_text (o_name oe) (o_name on))) (set_tick (S (tick s)) s)) in E by done.
  unfold new_rel in E. rewrite (bind_ok _ _ _ _ _ (alloc_state _ _)) in E. set (sa := set_heap _ _) in E. set (ra := length _) in E.
  assert (Hra : is_Some (heap sa !! ra)) by (unfold sa, ra; cbn [heap set_heap set_tick]; rewrite lookup_app_r, Nat.sub_diag by lia; by eexists).
  destruct Hra as [oa Hoa].
  assert (Wa : WF0 (heap sa)). { unfold sa. cbn [heap set_heap set_tick]. apply alloc_wf0; try done. simpl. intros y [= <-]. by eexists. }
  assert (Hna : heap sa !! n = Some on) by (unfold sa; simpl; rewrite lookup_app_l; [done|by apply lookup_lt_Some in Hn]).
  destruct (connect_cases sa n ra on oa Wa Hna Hoa) as [[_ Ec]|(Hg & _)].
  - by rewrite (bind_exn _ _ _ _ _ Ec) in E.
  - by apply andb_true_iff in Hg as [? _].
Qed.

(** What is known of the relation [r]. *)
Definition relation (h : list obj) (r n : loc) (w : weight) (d : direction) (sem : option loc) : Prop :=
  exists o, h !! r = Some o /\ o_kind o = KRel /\ o_endpoint o = Some n /\ o_weight o = w /\ o_dir o = d /\ o_sem o = sem.
Lemma fixed_relation h r u nm prog n w d sem : fixed_part <$> h !! r = Some (fixed_part (rel_obj u nm prog n w d sem)) -> relation h r n w d sem.
Proof.
  intros F. destruct (h !! r) as [o|] eqn:E; [|done]. exists o. split; [done|].
  pose proof (fixed_get o_kind h r _ (fun _ => eq_refl) ltac:(rewrite E; exact F)) as F1.
  pose proof (fixed_get o_endpoint h r _ (fun _ => eq_refl) ltac:(rewrite E; exact F)) as F2.
  pose proof (fixed_get o_weight h r _ (fun _ => eq_refl) ltac:(rewrite E; exact F)) as F3.
  pose proof (fixed_get o_dir h r _ (fun _ => eq_refl) ltac:(rewrite E; exact F)) as F4.
  pose proof (fixed_get o_sem h r _ (fun _ => eq_refl) ltac:(rewrite E; exact F)) as F5.
  rewrite E in *. simpl in *. injection F1 as F1. injection F2 as F2. injection F3 as F3. injection F4 as F4. injection F5 as F5. done.
Qed.
Lemma kept_relation h h' r n w d sem : kept h h' -> relation h r n w d sem -> relation h' r n w d sem.
Proof.
  intros K (o & Ho & H). specialize (K r o Ho). destruct (h' !! r) as [o'|] eqn:E; [|done]. exists o'. split; [done|].
  cbn [fmap option_fmap option_map] in K. apply (inj Some) in K. destruct o, o'. unfold ident_part, fixed_part in K. simpl in *. injection K. intros. subst. done.
Qed.

Lemma rel_born s e n w d r s' : clean s -> exists_in (heap s) e -> exists_in (heap s) n -> n <> e -> unary_connect e n w d None s = (Ok r, s') ->
  clean s' /\ r = length (heap s) /\ grows (heap s) (heap s') (only e [r]) /\ kids (heap s') r = [] /\ relation (heap s') r n w d None /\
  parent_of (heap s') r = Some e.
Proof.
  intros C He Hn Hne E. pose proof (clean_wf _ C) as W.
  split. { by apply (clean_void s (unary_connect e n w d None) (OUnary e n w d None) r s' C). }
  destruct (unary_inv s e n w d r s' W He Hn Hne E) as (oe & on & c & Hoe & Hon & Hk & -> & _ & Cn & _).
  set (orel := rel_obj _ _ _ _ _ _ _) in Cn. set (op := port_obj _ _ _) in Cn.
  destruct (cn_fr _ _ _ _ _ _ _ _ Cn) as (F1 & F2 & F3 & F4). destruct (cn_fp _ _ _ _ _ _ _ _ Cn) as (P1 & P2 & P3 & P4).
  split; [done|]. split.
  - split.
    + rewrite (cn_len _ _ _ _ _ _ _ _ Cn). lia. + apply Cn. + apply Cn.
    + intros l Hl. destruct (decide (l = e)) as [->|Hle].
      * rewrite only_at. apply kids_snoc; [done|apply Cn|apply Cn|]. unfold kind_of. by rewrite (fixed_get o_kind _ _ _ (fun _ => eq_refl) F4).
      * rewrite only_ne, app_nil_r by done. destruct (decide (l = n)) as [->|Hln].
        -- eapply kids_snoc_port; [done|apply Cn|apply Cn|]. unfold kind_of. by rewrite (fixed_get o_kind _ _ _ (fun _ => eq_refl) P4).
        -- apply kids_same; [done|apply Cn|]. by apply (cn_other _ _ _ _ _ _ _ _ Cn).
  - split; [by apply kids_nil|]. split; [by eapply fixed_relation|done].
Qed.

(** ** Moving an element *)
Record placed (h h' : list obj) (p c : loc) : Prop := {
  pl_len : length h' = length h;
  pl_kept : kept h h';
  pl_parent : parent_of h' c = Some p;
  pl_unmoved : forall l, l <> c -> parent_of h' l = parent_of h l;
  pl_p : children h' p = children h p ++ [c];
  pl_other : forall l, l <> p -> children h' l = filter (fun x => x <> c) (children h l)
}.
Lemma add_placed s p c op oc s' : WF0 (heap s) -> add_ok (heap s) p c -> c <> p -> heap s !! p = Some op -> heap s !! c = Some oc ->
  ~ (o_kind op = KRel /\ is_hyperelement (o_kind oc) = true) ->
  ~ (o_kind op = KEdge /\ o_kind oc = KRel /\ o_ready op = false) ->
  add_element p c s = (Ok tt, s') -> placed (heap s) (heap s') p c.
Proof.
  intros W Hok Hne Hp Hc H1 H2 E. destruct (dget (o_uuid oc) (o_subs op)) as [x|] eqn:Hg.
  { apply dget_Some_in in Hg. by rewrite (q_C07_dup s p c op oc x Hp Hc Hne Hg) in E. }
  destruct (add_element_ok s p c op oc W Hok Hne Hp Hc Hg H1 H2) as (T & s1 & E1 & TT & _). rewrite E1 in E. injection E as ->.
  pose proof (touch_heq _ _ _ TT) as Hq. cbn [heap set_heap] in Hq. pose proof (not_child _ p c op oc W Hp Hc Hg) as Hnp. split.
  - by rewrite (heq_length _ _ Hq), added_length.
  - eapply kept_trans; [|exact (heq_kept _ _ Hq)]. apply added_kept.
  - rewrite (heq_parent _ _ c Hq). unfold parent_of. by rewrite added_at_c.
  - intros l Hl. rewrite (heq_parent _ _ l Hq). by apply added_parent_ne.
  - rewrite (heq_children _ _ p Hq). by apply added_children_p.
  - intros l Hl. rewrite (heq_children _ _ l Hq). by apply added_children_ne.
Qed.

Lemma kids_filter h h' l c : WF0 h -> kept h h' -> children h' l = filter (fun x => x <> c) (children h l) -> kids h' l = filter (fun x => x <> c) (kids h l).
Proof.
  intros W K E. unfold kids. rewrite E. rewrite kids_port with (h := h); [|done|].
  - rewrite !list_filter_filter. apply list_filter_iff. intros x. tauto.
  - intros x Hx. apply elem_of_list_filter in Hx as [_ Hx]. by eapply wf_children_exist.
Qed.
Lemma filter_id (l : list loc) c : c ∉ l -> filter (fun x => x <> c) l = l.
Proof.
  induction l as [|x l IH]; intros H; [done|]. rewrite filter_cons_True by (intros ->; apply H; left). rewrite IH; [done|]. intros Hc. apply H. by right.
Qed.

(** unary_connect with a semantic value, which lies in a node *)
Record sem_moved (h h' : list obj) (e sv r : loc) : Prop := {
  mv_len : length h <= length h';
  mv_r : r = length h;
  mv_kept : kept h h';
  mv_sv : parent_of h' sv = Some r;
  mv_e : parent_of h' r = Some e;
  mv_unmoved : forall l, exists_in h l -> l <> sv -> parent_of h' l = parent_of h l;
  mv_kids_e : kids h' e = kids h e ++ [r];
  mv_kids_r : kids h' r = [sv];
  mv_kids : forall l, exists_in h l -> l <> e -> kids h' l = filter (fun x => x <> sv) (kids h l)
}.
Lemma rel_sem0 s e n w d sv r s' osv : WF0 (heap s) -> exists_in (heap s) e -> exists_in (heap s) n -> n <> e -> heap s !! sv = Some osv ->
  is_hyperelement (o_kind osv) = false -> o_kind osv <> KPort -> removable (heap s) sv -> ~ within (heap s) sv e ->
  unary_connect e n w d (Some sv) s = (Ok r, s') ->
  sem_moved (heap s) (heap s') e sv r /\ relation (heap s') r n w d (Some sv).
Proof.
  intros W [oe He] [on Hn] Hne Hsv Hhe Hpo Hrem Hnw E.
  assert (Ha : allowed (heap s) (OUnary e n w d (Some sv))). { split; [by eexists|]. split; [by eexists|]. split; [by eexists|]. done. }
  assert (Hpe : parent_of (heap s) sv <> Some e). { intros Hq. apply (unary_result s e n w d (Some sv) r s' W Ha) in E as (_ & _ & E & _). by apply (proj1 (Hrem e Hq)). }
  unfold unary_connect in E.
  rewrite (bind_ok _ _ _ _ _ (deref_ok _ _ _ He)), (bind_ok _ _ _ _ _ (deref_ok _ _ _ Hn)) in E.
  case_decide as Hk; [|done]. destruct (o_clock oe) as [c|]; [|done]. cbn [of_opt] in E.
  rewrite (bind_ok (ret c) _ s c s) in E by done. rewrite (bind_ok (now c) _ s (clk s c (tick s)) (set_tick (S (tick s)) s)) in E by done.
  set (nm := rel_name (o_name oe) (o_name on) (clk s c (tick s))) in E. set (ur := sha s (elem_id_text (o_name oe) (o_name on))).
  destruct (o_ready oe) eqn:Hrd; [|done]. cbv zeta in E. rewrite (bind_ok (hash _) _ _ ur (set_tick (S (tick s)) s)) in E by done.
  unfold new_rel in E. rewrite (bind_ok _ _ _ _ _ (alloc_state _ _)) in E. set (orel := s_sem _ _) in E. change (heap (set_tick (S (tick s)) s)) with (heap s) in E.
  set (sa := set_heap _ _) in E. set (ra := length (heap s)) in *.
  assert (Hra : heap sa !! ra = Some orel) by (unfold sa, ra; cbn [heap set_heap set_tick]; by rewrite lookup_app_r, Nat.sub_diag by lia).
  assert (Wa : WF0 (heap sa)). { unfold sa. cbn [heap set_heap set_tick]. apply alloc_wf0; try done. simpl. intros y [= <-]. by eexists. }
  assert (Hla : forall l o, heap s !! l = Some o -> heap sa !! l = Some o).
  { intros l o Hl. unfold sa. cbn [heap set_heap]. rewrite lookup_app_l; [done|by apply lookup_lt_Some in Hl]. }
  assert (Ka : kept (heap s) (heap sa)) by apply alloc_kept.
  assert (Hpa : forall l, parent_of (heap sa) l = parent_of (heap s) l) by (intros; unfold sa; cbn [heap set_heap]; by apply app_parent).
  assert (Hca : forall l, exists_in (heap s) l -> children (heap sa) l = children (heap s) l).
  { intros l [o Ho]. unfold children. by rewrite (Hla l o Ho), Ho. }
  assert (Hcra : children (heap sa) ra = []) by (unfold children; by rewrite Hra).
  (* connect *)
  destruct (connect_cases sa n ra on orel Wa (Hla _ _ Hn) Hra) as [[_ Ec]|(Hg & [[_ Ec]|(Hd & T & sb & Ec & _ & _)])].
  { by rewrite (bind_exn _ _ _ _ _ Ec) in E. } { by rewrite (bind_exn _ _ _ _ _ Ec) in E. }
  rewrite (bind_ok _ _ _ _ _ Ec) in E. apply andb_true_iff in Hg as [Hh Hr].
  pose proof (children_uuid_old _ _ _ _ Wa (Hla _ _ Hn) Hd) as Hu2.
  destruct (connect_grown sa n ra on orel Wa (Hla _ _ Hn) Hra Hh Hr Hu2) as (sb' & Ec' & Gb & _). rewrite Ec in Ec'. injection Ec' as <-.
  set (pt := length (heap sa)) in *. assert (Hpt : pt = S ra) by (unfold pt, sa, ra; simpl; rewrite app_length; simpl; lia).
  destruct (gr_fresh _ _ _ _ _ Gb) as (F1 & F2 & F3 & F4). pose proof (gr_kept _ _ _ _ _ Gb) as Kb. pose proof (gr_wf _ _ _ _ _ Gb) as Wb.
  assert (Hsra : sv <> ra) by (apply lookup_lt_Some in Hsv; unfold ra; lia).
  assert (Hera : e <> ra) by (apply lookup_lt_Some in He; unfold ra; lia).
  assert (Hnra : n <> ra) by (apply lookup_lt_Some in Hn; unfold ra; lia).
  assert (Hse : sv <> e) by (intros ->; apply Hnw; by left).
  assert (Hsn : sv <> n) by (intros ->; congruence).
  assert (Kab : kept (heap s) (heap sb)) by (by eapply kept_trans).
  assert (Hb : forall l o, heap sa !! l = Some o -> exists o', heap sb !! l = Some o' /\ ident_part o' = ident_part o).
  { intros l o Ho. specialize (Kb l o Ho). destruct (heap sb !! l) as [o'|]; [|done]. exists o'. split; [done|]. cbn [fmap option_fmap option_map] in Kb. by apply (inj Some) in Kb. }
  assert (Hpb : forall l, exists_in (heap s) l \/ l = ra -> parent_of (heap sb) l = parent_of (heap sa) l).
  { intros l Hl. apply (gr_unmoved _ _ _ _ _ Gb). destruct Hl as [Hl| ->]; [by apply (kept_exists _ _ _ Ka)|by eexists]. }
  assert (Hcb : forall l, exists_in (heap s) l -> l <> n -> children (heap sb) l = children (heap s) l).
  { intros l Hl Hln. rewrite (gr_other _ _ _ _ _ Gb); [by apply Hca|by apply (kept_exists _ _ _ Ka)|done]. }
  assert (Hcrb : children (heap sb) ra = []) by (rewrite (gr_other _ _ _ _ _ Gb); [done|by eexists|done]).
  assert (Hcnb : children (heap sb) n = children (heap s) n ++ [pt]) by (rewrite (gr_p _ _ _ _ _ Gb), Hca; [done|by eexists]).
  (* the semantic value *)
  destruct (Hb ra orel Hra) as (orb & Horb & Hirb). destruct (Hb sv osv (Hla _ _ Hsv)) as (osb & Hosb & Hisb).
  assert (Hkrb : o_kind orb = KRel) by (change (o_kind orb) with (o_kind (ident_part orb)); by rewrite Hirb).
  assert (Hksb : o_kind osb = o_kind osv) by (change (o_kind osb) with (o_kind (ident_part osb)); by rewrite Hisb).
  assert (Hok1 : add_ok (heap sb) ra sv).
  { split; [by eexists|]. split; [by eexists|]. split.
    - intros Han. assert (Hrp : parent_of (heap sb) ra = None) by (rewrite Hpb by (by right); unfold parent_of; by rewrite Hra).
      inversion Han; congruence.
    - intros q Hq. rewrite Hpb in Hq by (left; by eexists). rewrite Hpa in Hq. rewrite !(kept_kind _ _ _ Kab); [by apply Hrem|..].
      all: by eapply wf0_parent_exists. }
  destruct (add_element ra sv sb) as [[[]|ex] sc] eqn:E3; [|by rewrite (bind_exn _ _ _ _ _ E3) in E].
  rewrite (bind_ok _ _ _ _ _ E3) in E.
  assert (P3 : placed (heap sb) (heap sc) ra sv).
  { eapply add_placed; try done. - rewrite Hksb, Hhe. by intros [_ ?]. - by intros (? & _ & _); congruence. }
  pose proof (add_element_wf sb ra sv Wb Hok1) as Wc. rewrite E3 in Wc. cbn [snd] in Wc.
  (* the edge *)
  pose proof (kept_trans _ _ _ Kab (pl_kept _ _ _ _ P3)) as Kc.
  assert (Hec : exists oec, heap sc !! e = Some oec /\ o_ready oec = true).
  { specialize (Kc e oe He). destruct (heap sc !! e) as [o'|]; [|done]. exists o'. split; [done|]. cbn [fmap option_fmap option_map] in Kc. apply (inj Some) in Kc.
    change (o_ready o') with (o_ready (ident_part o')). rewrite Kc. exact Hrd. }
  destruct Hec as (oec & Hoec & Hrec).
  destruct (kept_exists _ _ ra (pl_kept _ _ _ _ P3) ltac:(by eexists)) as [orc Horc].
  assert (Hkrc : o_kind orc = KRel).
  { pose proof (kept_kind _ _ ra (pl_kept _ _ _ _ P3) ltac:(by eexists)) as H. unfold kind_of in H. rewrite Horc, Horb in H. simpl in H. congruence. }
  assert (Hrp : parent_of (heap sc) ra = None).
  { rewrite (pl_unmoved _ _ _ _ P3) by done. rewrite Hpb by (by right). unfold parent_of. by rewrite Hra. }
  assert (Hok2 : add_ok (heap sc) e ra).
  { split; [by eexists|]. split; [by eexists|]. split.
    - intros Han.
      assert (Hx : forall a x, ancestor (heap sc) a x -> a = ra -> exists_in (heap s) x -> x = sv \/ ancestor (heap s) sv x).
      { intros a x. induction 1 as [a x Hp|a q x Hp _ IH]; intros -> Hx.
        - destruct (decide (x = sv)) as [->|Hxs]; [by left|]. exfalso.
          rewrite (pl_unmoved _ _ _ _ P3) in Hp by done. rewrite Hpb in Hp by (by left). rewrite Hpa in Hp.
          pose proof (wf0_parent_exists _ _ _ W Hp) as Hq. apply exists_in_lt in Hq. unfold ra in Hq. lia.
        - destruct (decide (x = sv)) as [->|Hxs]; [by left|]. right.
          rewrite (pl_unmoved _ _ _ _ P3) in Hp by done. rewrite Hpb in Hp by (by left). rewrite Hpa in Hp.
          destruct (IH eq_refl) as [->|Hq]; [by eapply wf0_parent_exists|by constructor|by eapply anc_up]. }
      apply Hnw. destruct (Hx ra e Han eq_refl) as [->|Hx']; [by eexists|by left|by right].
    - intros q Hq. congruence. }
  destruct (add_element e ra sc) as [[[]|ex] sd] eqn:E4; [|by rewrite (bind_exn _ _ _ _ _ E4) in E].
  rewrite (bind_ok _ _ _ _ _ E4) in E. injection E as <- <-.
  assert (P4 : placed (heap sc) (heap sd) e ra).
  { eapply add_placed; try done. - by intros [_ Hx]; rewrite Hkrc in Hx. - by intros (_ & _ & ?); congruence. }
  pose proof (kept_trans _ _ _ Kc (pl_kept _ _ _ _ P4)) as Kd.
  assert (Kbd : kept (heap sb) (heap sd)) by (eapply kept_trans; [apply P3|apply P4]).
  assert (Hptk : kind_of (heap sd) pt = Some KPort).
  { assert (Hx : kind_of (heap sb) pt = Some KPort) by (unfold kind_of; by rewrite (fixed_get o_kind _ _ _ (fun _ => eq_refl) F4)).
    rewrite (kept_kind _ _ _ Kbd); [done|]. unfold kind_of in Hx. destruct (heap sb !! pt) eqn:Eb; [by eexists|done]. }
  assert (Hrk : kind_of (heap sd) ra = Some KRel).
  { rewrite (kept_kind _ _ _ (pl_kept _ _ _ _ P4)) by (by eexists). unfold kind_of. by rewrite Horc, <- Hkrc. }
  assert (Hsk : kind_of (heap sd) sv <> Some KPort).
  { rewrite (kept_kind _ _ _ Kd) by (by eexists). unfold kind_of. rewrite Hsv. simpl. congruence. }
  assert (Hnr : forall l, exists_in (heap sc) l -> l <> e -> ra ∉ children (heap sc) l).
  { intros l Hl Hle Hin. destruct (wf0_child _ Wc l ra Hin) as [_ Hx]. congruence. }
  (* the kids of old elements after the two moves *)
  assert (Hkb : forall l, exists_in (heap s) l -> kids (heap sb) l = kids (heap s) l).
  { intros l Hl. destruct (decide (l = n)) as [->|Hln].
    - apply (kids_snoc_port _ _ _ pt); [done|done|done|]. unfold kind_of. by rewrite (fixed_get o_kind _ _ _ (fun _ => eq_refl) F4).
    - apply kids_same; [done|done|by apply Hcb]. }
  assert (Hkc : forall l, exists_in (heap s) l -> kids (heap sc) l = filter (fun x => x <> sv) (kids (heap s) l)).
  { intros l Hl. rewrite <- (Hkb l Hl). apply kids_filter; [done|apply P3|]. apply (pl_other _ _ _ _ P3). intros ->. apply exists_in_lt in Hl. unfold ra in Hl. lia. }
  split; [split|].
  - pose proof (pl_len _ _ _ _ P3) as L3. pose proof (pl_len _ _ _ _ P4) as L4. pose proof (gr_len _ _ _ _ _ Gb) as L2. fold pt in L2. unfold ra in Hpt. lia.
  - done.
  - done.
  - rewrite (pl_unmoved _ _ _ _ P4) by done. apply P3.
  - apply P4.
  - intros l Hl Hls. assert (Hlr : l <> ra) by (intros ->; apply exists_in_lt in Hl; unfold ra in Hl; lia).
    rewrite (pl_unmoved _ _ _ _ P4) by done. rewrite (pl_unmoved _ _ _ _ P3) by done. rewrite Hpb by (by left). apply Hpa.
  - assert (Hke : kids (heap sc) e = kids (heap s) e).
    { rewrite Hkc by (by eexists). apply filter_id. intros Hin. apply kids_children in Hin. by destruct (wf0_child _ W e sv Hin) as [_ Hx]. }
    rewrite <- Hke. apply kids_snoc; [done|apply P4|apply P4|by rewrite Hrk].
  - assert (Hcr : children (heap sd) ra = [sv]).
    { rewrite (pl_other _ _ _ _ P4) by done. rewrite (pl_p _ _ _ _ P3), Hcrb. simpl. rewrite filter_cons_True by done. done. }
    unfold kids. rewrite Hcr. rewrite filter_cons_True by done. done.
  - intros l Hl Hle. rewrite <- (Hkc l Hl). apply kids_same; [done|apply P4|]. rewrite (pl_other _ _ _ _ P4) by done. apply filter_not_child.
    apply Hnr; [|done]. by apply (kept_exists _ _ _ Kc).
  - apply (kept_relation (heap sa)); [eapply kept_trans; [exact Kb|exact Kbd]|]. exists orel. split; [done|]. done.
Qed.
Lemma rel_sem s e n w d sv r s' p osv : clean s -> exists_in (heap s) e -> exists_in (heap s) n -> n <> e -> heap s !! sv = Some osv ->
  is_hyperelement (o_kind osv) = false -> o_kind osv <> KPort -> o_parent osv = Some p -> kind_of (heap s) p = Some KNode -> ~ within (heap s) sv e ->
  unary_connect e n w d (Some sv) s = (Ok r, s') ->
  clean s' /\ sem_moved (heap s) (heap s') e sv r /\ relation (heap s') r n w d (Some sv).
Proof.
  intros C He Hn Hne Hsv Hhe Hpo Hpar Hkp Hnw E. pose proof (clean_wf _ C) as W.
  assert (Hrem : removable (heap s) sv). { intros q Hq. unfold parent_of in Hq. rewrite Hsv in Hq. simpl in Hq. assert (q = p) as -> by congruence. by rewrite Hkp. }
  assert (Ha : allowed (heap s) (OUnary e n w d (Some sv))). { split; [done|]. split; [done|]. split; [by eexists|]. done. }
  split. { by apply (clean_void s (unary_connect e n w d (Some sv)) (OUnary e n w d (Some sv)) r s' C). }
  by eapply rel_sem0.
Qed.
