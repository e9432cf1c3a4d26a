(** * remove_element, constructors and factories preserve the invariant *)
From Verif Require Import Spec Hierarchy Elements Factory History PDict PPath PExec PBfs PWF PAdd PMono PStep.

(** ** Removal by name *)
Definition idx_nil (p : loc) (nm : string) (h : list obj) : list obj :=
  alter (fun o => s_index (dset nm [] (o_index o)) o) p h.
Fixpoint detach_all (p : loc) (vs : list loc) (h : list obj) : list obj :=
  match vs with
  | [] => h
  | v :: vs' => detach_all p vs' (match h !! v with Some ov => detach_h p v ov h | None => h end)
  end.

(** Detaching all of [vs]: who changed and how. *)
Lemma detach_all_length p vs h : length (detach_all p vs h) = length h.
Proof.
  revert h. induction vs as [|v vs IH]; intros h; [done|]. simpl. rewrite IH.
  destruct (h !! v); [|done]. unfold detach_h. by rewrite !alter_length.
Qed.
Lemma detach_all_attr {A} (f : obj -> A) p vs h l :
  (forall o, f (s_parent None o) = f o) -> (forall oc o, f (det_p oc o) = f o) ->
  f <$> (detach_all p vs h !! l) = f <$> (h !! l).
Proof.
  intros H1 H2.
  assert (Ha : forall g (k : nat) (h' : list obj), (forall o, f (g o) = f o) -> f <$> (alter g k h' !! l) = f <$> (h' !! l)).
  { intros g k h' Hg. destruct (decide (k = l)) as [->|].
    - rewrite list_lookup_alter. destruct (h' !! l); simpl; [by rewrite Hg|done].
    - by rewrite list_lookup_alter_ne. }
  revert h. induction vs as [|v vs IH]; intros h; [done|]. simpl. rewrite IH.
  destruct (h !! v); [|done]. unfold detach_h. by rewrite !Ha.
Qed.
Lemma detach_all_other p vs h l : l <> p -> l ∉ vs -> detach_all p vs h !! l = h !! l.
Proof.
  revert h. induction vs as [|v vs IH]; intros h H1 H2; [done|]. simpl.
  rewrite elem_of_cons in H2. rewrite IH by tauto. destruct (h !! v); [|done].
  unfold detach_h. rewrite !list_lookup_alter_ne by (intros E; subst; tauto). done.
Qed.
Lemma detach_all_parent_ne p vs h l : l ∉ vs -> parent_of (detach_all p vs h) l = parent_of h l.
Proof.
  revert h. induction vs as [|v vs IH]; intros h H2; [done|]. simpl.
  rewrite elem_of_cons in H2. rewrite IH by tauto. destruct (h !! v); [|done].
  unfold detach_h, parent_of. rewrite list_lookup_alter_ne by (intros E; subst; tauto).
  destruct (decide (p = l)) as [->|].
  - rewrite list_lookup_alter. by destruct (h !! l).
  - by rewrite list_lookup_alter_ne.
Qed.

Section removal.
  Context (p : loc) (nm : string).

  Lemma detach_all_wf vs h : WF0 h -> NoDup vs -> (exists op, h !! p = Some op /\ o_kind op <> KEdge) ->
    (forall v, v ∈ vs -> v ∈ children h p) ->
    WF0 (detach_all p vs h) /\ children (detach_all p vs h) p = filter (fun c => c ∉ vs) (children h p).
  Proof.
    revert h. induction vs as [|v vs IH]; intros h W Hnd (op & Hp & Hk) Hch.
    { simpl. split; [done|]. symmetry. apply filter_all. intros x _ Hx. inversion Hx. }
    apply NoDup_cons in Hnd as [Hv Hnd]. simpl.
    destruct (wf0_child h W p v (Hch v ltac:(left))) as [[ov Hov] Hpar].
    rewrite (parent_of_lookup _ _ _ Hov) in Hpar. rewrite Hov.
    pose proof (detach_wf0 h W p v op ov Hp Hov Hpar Hk) as W1.
    pose proof (detach_at_p h W p v op ov Hp Hov Hpar) as Hp1.
    assert (Hc1 : children (detach_h p v ov h) p = filter (fun c => c <> v) (children h p)).
    { unfold children at 1. rewrite Hp1. simpl. rewrite (detach_subs h W p v op ov Hp Hov Hpar).
      unfold children. rewrite Hp. symmetry. exact (map_filter_comm snd (fun c => c <> v) (o_subs op)). }
    destruct (IH (detach_h p v ov h)) as [W2 Hc2]; try done.
    - exists (det_p ov op). done.
    - intros x Hx. rewrite Hc1. apply elem_of_list_filter. split; [congruence|]. apply Hch. by right.
    - split; [done|]. rewrite Hc2, Hc1, filter_filter_and. apply filter_ext_in. intros x _.
      rewrite not_elem_of_cons. tauto.
  Qed.

  (** One step of the loop. *)
  Lemma remove_one_ok S0 s0 s hv v op ov : WF0 hv -> hv !! p = Some op -> hv !! v = Some ov -> o_parent ov = Some p ->
    o_name ov = nm -> touchw S0 (set_heap (idx_nil p nm hv) s0) s ->
    exists s', remove_one p v s = (Ok v, s') /\
      touchw (S0 ++ [v]) (set_heap (idx_nil p nm (detach_h p v ov hv)) s0) s' /\
      attr_of o_qname (heap s') v = Some nm /\
      (forall l, l <> v -> attr_of o_qname (heap s') l = attr_of o_qname (heap s) l).
  Proof.
    intros W Hp Hv Hpar Hnm T0.
    assert (Hne : v <> p) by (intros ->; by apply (wf0_not_self hv W p ov)).
    destruct (wf0_lookup hv W v ov p op Hv Hpar Hp) as (Hsub & _).
    assert (Hp0 : exists op', heap s !! p = Some op' /\ o_subs op' = o_subs op /\ o_cnt op' = o_cnt op).
    { destruct (w_obj _ _ _ T0 p (s_index (dset nm [] (o_index op)) op)) as (q & t & H & _).
      { unfold idx_nil. simpl. by rewrite list_lookup_alter, Hp. }
      eexists. split; [exact H|]. done. }
    destruct Hp0 as (op' & Hp' & Hs' & Hcnt').
    assert (Hv0 : exists q t, heap s !! v = Some (s_qname q (s_time t ov))).
    { destruct (w_obj _ _ _ T0 v ov) as (q & t & H & _).
      { unfold idx_nil. simpl. by rewrite list_lookup_alter_ne. }
      by exists q, t. }
    destruct Hv0 as (qv & tv & Hv').
    set (ov' := s_qname qv (s_time tv ov)) in *.
    unfold remove_one.
    rewrite (bind_ok _ _ _ _ _ (deref_ok _ _ _ Hv')). rewrite (bind_ok _ _ _ _ _ (deref_ok _ _ _ Hp')).
    change (o_uuid ov') with (o_uuid ov). rewrite Hs', Hsub. cbn [of_opt]. rewrite (bind_ok (ret v) _ s v s) by done.
    rewrite (bind_ok _ _ _ _ _ (upd_ok _ _ _ _ Hp')).
    set (f1 := fun o => s_subs (ddel (o_uuid ov) (o_subs o)) o).
    set (s1 := set_heap (alter f1 p (heap s)) s).
    assert (Hv1 : heap s1 !! v = Some ov') by (unfold s1; simpl; by rewrite list_lookup_alter_ne).
    rewrite (bind_ok _ _ _ _ _ (upd_ok _ _ _ _ Hv1)).
    set (s2 := set_heap (alter (s_parent None) v (heap s1)) s1).
    assert (Hv2 : heap s2 !! v = Some (s_parent None ov')).
    { unfold s2. rewrite set_heap_heap. by rewrite list_lookup_alter, Hv1. }
    destruct (update_ok s2 v [v]) as (s3 & E3 & T3).
    { apply path_root; [by eexists|]. by rewrite (parent_of_lookup _ _ _ Hv2). }
    { intros o Ho Hk. rewrite Hv2 in Ho. injection Ho as <-. exact (wf_clk _ W v ov Hv Hk). }
    rewrite (bind_ok _ _ _ _ _ E3).
    assert (Hp3 : exists op3, heap s3 !! p = Some op3).
    { apply (heq_exists (heap s2) (heap s3)); [by eapply touch_heq|]. unfold exists_in, s2, s1. simpl.
      rewrite list_lookup_alter_ne by done. rewrite list_lookup_alter, Hp'. by eexists. }
    destruct Hp3 as [op3 Hp3].
    rewrite (bind_ok _ _ _ _ _ (upd_ok _ _ _ _ Hp3)).
    set (f3 := fun o => s_cnt (o_cnt o - 1)%Z o). set (s4 := set_heap (alter f3 p (heap s3)) s3).
    exists s4. split; [done|].
    assert (Hqn : forall l, attr_of o_qname (heap s4) l = attr_of o_qname (heap s3) l).
    { intros l. unfold s4, attr_of. simpl. destruct (decide (p = l)) as [->|].
      - rewrite list_lookup_alter. by destruct (heap s3 !! l).
      - by rewrite list_lookup_alter_ne. }
    split; [|split].
    - assert (Hf1 : struct_fun f1) by sfun. assert (Hf2 : struct_fun (s_parent None)) by sfun.
      assert (Hf3 : struct_fun f3) by sfun.
      pose proof (touchw_upd _ _ _ p _ Hf1 T0) as T1. pose proof (touchw_upd _ _ _ v _ Hf2 T1) as T2.
      pose proof (touchw_upd _ _ _ p _ Hf3 (touchw_trans _ _ _ _ _ T2 (touch_touchw _ _ _ T3))) as T4.
      rewrite !set_heap_set_heap in T4. cbn [heap set_heap] in T4.
      replace (idx_nil p nm (detach_h p v ov hv)) with
        (alter f3 p (alter (s_parent None) v (alter f1 p (idx_nil p nm hv)))); [exact T4|].
      unfold idx_nil, detach_h. rewrite (alter_comm _ _ _ p v) by done. symmetry.
      rewrite (alter_comm _ _ _ p v) by done. f_equal. rewrite !alter_alter. apply alter_ext_at.
      intros o _. unfold f1, f3, det_p. simpl. rewrite Hnm. f_equal. f_equal. rewrite dset_dset. done.
    - rewrite Hqn. destruct (t_obj _ _ _ T3 v _ Hv2) as (q & t & H & _ & Hy). unfold attr_of. rewrite H. simpl.
      destruct Hy as [Hy _]; [set_solver|].
      assert (Hfn : full_name (heap s2) v nm).
      { exists [v]. split.
        - apply path_root; [by eexists|]. by rewrite (parent_of_lookup _ _ _ Hv2).
        - assert (Hnm2 : name_of (heap s2) v = nm) by (unfold name_of; by rewrite Hv2).
          cbn [map rev app join]. by rewrite Hnm2. }
      by rewrite (full_name_det _ _ _ _ Hy Hfn).
    - intros l Hl. rewrite Hqn.
      assert (H2 : attr_of o_qname (heap s2) l = attr_of o_qname (heap s) l).
      { unfold s2, s1, attr_of. simpl. rewrite list_lookup_alter_ne by done. destruct (decide (p = l)) as [->|].
        - rewrite list_lookup_alter. by destruct (heap s !! l).
        - by rewrite list_lookup_alter_ne. }
      rewrite <- H2. unfold attr_of. destruct (heap s2 !! l) as [o|] eqn:E.
      + destruct (t_obj _ _ _ T3 l o E) as (q & t & H & Hn & _). rewrite H. simpl.
        destruct Hn as [-> _]; [set_solver|done].
      + assert (E' : heap s3 !! l = None); [|by rewrite E'].
        apply lookup_ge_None in E. rewrite <- (t_len _ _ _ T3) in E. by apply lookup_ge_None.
  Qed.

  Lemma gen_list_loop_ok vs : forall S0 s0 s hv, WF0 hv -> NoDup vs ->
    (exists op, hv !! p = Some op /\ o_kind op <> KEdge) ->
    (forall v, v ∈ vs -> v ∈ children hv p /\ name_of hv v = nm) ->
    touchw S0 (set_heap (idx_nil p nm hv) s0) s ->
    exists s', gen_list_loop p vs s = (Ok vs, s') /\
      touchw (S0 ++ vs) (set_heap (idx_nil p nm (detach_all p vs hv)) s0) s' /\
      (forall v, v ∈ vs -> attr_of o_qname (heap s') v = Some nm) /\
      (forall l, l ∉ vs -> attr_of o_qname (heap s') l = attr_of o_qname (heap s) l).
  Proof.
    induction vs as [|v vs IH]; intros S0 s0 s hv W Hnd Hex Hch T0.
    { exists s. rewrite app_nil_r. split; [done|]. split; [done|]. split; [|done]. intros v Hv. inversion Hv. }
    destruct Hex as (op & Hp & Hk).
    apply NoDup_cons in Hnd as [Hv Hnd]. destruct (Hch v ltac:(left)) as [Hvc Hvn].
    destruct (wf0_child hv W p v Hvc) as [[ov Hov] Hpar]. rewrite (parent_of_lookup _ _ _ Hov) in Hpar.
    unfold name_of in Hvn. rewrite Hov in Hvn. simpl in Hvn.
    destruct (remove_one_ok S0 s0 s hv v op ov W Hp Hov Hpar Hvn T0) as (s1 & E1 & T1 & Hq1 & Hq1').
    simpl. rewrite (bind_ok _ _ _ _ _ E1). rewrite Hov.
    destruct (detach_all_wf [v] hv W) as [W1 Hc1].
    { apply NoDup_singleton. } { by exists op. } { intros x ->%elem_of_list_singleton. done. }
    simpl in W1, Hc1. rewrite Hov in W1, Hc1.
    destruct (IH (S0 ++ [v]) s0 s1 (detach_h p v ov hv)) as (s2 & E2 & T2 & Hq2 & Hq2'); try done.
    - exists (det_p ov op). split; [by apply detach_at_p|done].
    - intros x Hx. destruct (Hch x ltac:(by right)) as [H1 H2]. split.
      + rewrite Hc1. apply elem_of_list_filter. split; [|done]. intros ->%elem_of_list_singleton. done.
      + by rewrite (detach_name hv W p v op ov Hp Hov Hpar).
    - exists s2. rewrite (bind_ok _ _ _ _ _ E2). split; [done|]. split.
      { rewrite <- app_assoc in T2. exact T2. }
      split.
      + intros x Hx. apply elem_of_cons in Hx as [->|Hx]; [|by apply Hq2]. by rewrite Hq2'.
      + intros l Hl. rewrite not_elem_of_cons in Hl. rewrite Hq2' by tauto. apply Hq1'. tauto.
  Qed.
End removal.

Lemma dvals_filter_name h p op nm : WF0 h -> h !! p = Some op ->
  dvals (default [] (dget nm (o_index op))) = filter (fun c => name_of h c = nm) (children h p).
Proof.
  intros W Hp. rewrite (wf_index _ W p op nm Hp). unfold dvals, children. rewrite Hp.
  symmetry. exact (map_filter_comm snd (fun c => name_of h c = nm) (o_subs op)).
Qed.

(** Draining the first [S j] elements of remove_element(id_name=nm). *)
Lemma gen_take_loop j p vs s : gen_take j (GLoop p vs) s = gen_list_loop p (take j vs) s.
Proof.
  revert vs s. induction j as [|j IH]; intros vs s; [done|]. simpl. destruct vs as [|v vs]; simpl.
  - done.
  - rewrite bind_assoc. unfold bind. destruct (remove_one p v s) as [[x|e] s1]; [|done].
    simpl. rewrite IH. done.
Qed.
Lemma gen_take_end j s : gen_take j GEnd s = (Ok [], s).
Proof. by destruct j. Qed.

Lemma base_name_unfold s p nm op d : heap s !! p = Some op -> plain op -> nm <> "" ->
  dget nm (o_index op) = Some d ->
  forall j, gen_take (S j) (GNew p nm None) s =
    gen_list_loop p (take (S j) (dvals d)) (set_heap (idx_nil p nm (heap s)) s).
Proof.
  intros Hp Hpl Hnm Hd j. cbn [gen_take].
  assert (E : gen_next (GNew p nm None) s =
    (match dvals d with
     | [] => ret (None, GEnd)
     | v :: vs => let! el := remove_one p v in ret (Some el, GLoop p vs)
     end) (set_heap (idx_nil p nm (heap s)) s)).
  { rewrite (gen_next_plain _ _ _ _ _ Hp Hpl). cbn [base_next]. rewrite decide_False by done.
    rewrite (bind_ok _ _ _ _ _ (deref_ok _ _ _ Hp)). rewrite Hd. cbn [of_opt].
    rewrite (bind_ok (ret d) _ s d s) by done. by rewrite (bind_ok _ _ _ _ _ (upd_ok _ _ _ _ Hp)). }
  unfold bind at 1. rewrite E. destruct (dvals d) as [|v vs]; [done|].
  simpl take. cbn [gen_list_loop]. unfold bind.
  destruct (remove_one p v _) as [[x|e] s1]; [|done]. simpl. rewrite gen_take_loop.
  done.
Qed.

Lemma remove_all_unfold s p nm op d : heap s !! p = Some op -> plain op -> nm <> "" ->
  dget nm (o_index op) = Some d ->
  remove_all p nm None s = gen_list_loop p (dvals d) (set_heap (idx_nil p nm (heap s)) s).
Proof.
  intros Hp Hpl Hnm Hd. unfold remove_all.
  assert (E : gen_next (GNew p nm None) s =
    (match dvals d with
     | [] => ret (None, GEnd)
     | v :: vs => let! el := remove_one p v in ret (Some el, GLoop p vs)
     end) (set_heap (idx_nil p nm (heap s)) s)).
  { rewrite (gen_next_plain _ _ _ _ _ Hp Hpl). cbn [base_next]. rewrite decide_False by done.
    rewrite (bind_ok _ _ _ _ _ (deref_ok _ _ _ Hp)). rewrite Hd. cbn [of_opt].
    rewrite (bind_ok (ret d) _ s d s) by done. by rewrite (bind_ok _ _ _ _ _ (upd_ok _ _ _ _ Hp)). }
  unfold bind at 1. rewrite E. destruct (dvals d) as [|v vs]; [done|].
  cbn [gen_list_loop]. unfold bind.
  destruct (remove_one p v _) as [[x|e] s1]; [|done]. simpl. done.
Qed.

(** A partially or fully drained removal by name. *)
Lemma take_name_ok s p nm op d k : WF0 (heap s) -> heap s !! p = Some op -> plain op ->
  dget nm (o_index op) = Some d ->
  let vs := take k (filter (fun c => name_of (heap s) c = nm) (children (heap s) p)) in
  exists s', gen_list_loop p (take k (dvals d)) (set_heap (idx_nil p nm (heap s)) s) = (Ok vs, s') /\
      touchw vs (set_heap (idx_nil p nm (detach_all p vs (heap s))) s) s' /\
      WF0 (detach_all p vs (heap s)) /\
      (forall v, v ∈ vs -> attr_of o_qname (heap s') v = Some nm) /\
      (forall l, l ∉ vs -> attr_of o_qname (heap s') l = attr_of o_qname (heap s) l).
Proof.
  intros W Hp Hpl Hd vs.
  pose proof (dvals_filter_name _ p op nm W Hp) as Hf. rewrite Hd in Hf. simpl in Hf. rewrite Hf. fold vs.
  assert (Hin : forall v, v ∈ vs -> v ∈ children (heap s) p /\ name_of (heap s) v = nm).
  { intros v Hv. unfold vs in Hv. apply elem_of_take in Hv as (i & Hi & _). apply elem_of_list_lookup_2 in Hi.
    apply elem_of_list_filter in Hi. tauto. }
  assert (Hnd : NoDup vs).
  { assert (Hf2 : NoDup (filter (fun c => name_of (heap s) c = nm) (children (heap s) p))).
    { apply NoDup_filter. by apply wf0_children_nd. }
    rewrite <- (take_drop k (filter _ _)) in Hf2. apply NoDup_app in Hf2. tauto. }
  destruct (gen_list_loop_ok p nm vs [] s (set_heap (idx_nil p nm (heap s)) s) (heap s)) as (s' & E & T & H1 & H2);
    try done.
  - exists op. split; [done|]. apply Hpl.
  - apply touchw_refl.
  - exists s'. split; [done|]. split; [done|]. split; [|split; [done|]].
    + apply detach_all_wf; [done|done|exists op; split; [done|apply Hpl]|]. intros v Hv. by apply Hin.
    + intros l Hl. rewrite H2 by done. unfold attr_of, idx_nil. simpl. destruct (decide (p = l)) as [->|].
      * rewrite list_lookup_alter. by destruct (heap s !! l).
      * by rewrite list_lookup_alter_ne.
Qed.

Lemma detach_all_index nm p vs : forall h op op', h !! p = Some op -> is_Some (dget nm (o_index op)) ->
  detach_all p vs h !! p = Some op' -> is_Some (dget nm (o_index op')).
Proof.
  induction vs as [|v vs IH]; intros h op op' Hp Hd E; simpl in E; [congruence|].
  destruct (h !! v) as [ov|]; [|exact (IH h op op' Hp Hd E)].
  destruct (detach_h p v ov h !! p) as [o1|] eqn:E1.
  - eapply IH; [exact E1| |exact E]. unfold detach_h in E1.
    apply lookup_alter_inv in E1 as (o2 & E2 & ->). rewrite list_lookup_alter, Hp in E2. simpl in E2.
    injection E2 as <-. assert (Hx : is_Some (dget nm (o_index (det_p ov op)))).
    { simpl. rewrite dget_dset. case_decide; [eauto|done]. }
    case_decide; exact Hx.
  - exfalso. apply lookup_ge_None in E1. apply lookup_lt_Some in Hp. unfold detach_h in E1. rewrite !alter_length in E1. lia.
Qed.

(** After draining everything the index entry is the empty dictionary anyway. *)
Lemma idx_nil_id h p nm op d : WF0 h -> h !! p = Some op -> plain op -> dget nm (o_index op) = Some d ->
  let vs := filter (fun c => name_of h c = nm) (children h p) in
  idx_nil p nm (detach_all p vs h) = detach_all p vs h.
Proof.
  intros W Hp Hpl Hd vs.
  assert (Hin : forall v, v ∈ vs -> v ∈ children h p).
  { intros v Hv. unfold vs in Hv. apply elem_of_list_filter in Hv. tauto. }
  assert (Hnd : NoDup vs) by (apply NoDup_filter; by apply wf0_children_nd).
  destruct (detach_all_wf p vs h W Hnd) as [W' Hc']; [exists op; split; [done|apply Hpl]|done|].
  unfold idx_nil. apply list_eq. intros i. destruct (decide (p = i)) as [<-|]; [|by rewrite list_lookup_alter_ne].
  rewrite list_lookup_alter. destruct (detach_all p vs h !! p) as [op'|] eqn:E; [|done]. simpl. f_equal.
  assert (Hd' : is_Some (dget nm (o_index op'))).
  { eapply detach_all_index; [exact Hp| |exact E]. rewrite Hd. eauto. }
  destruct Hd' as [d' Hd']. pose proof (wf_index _ W' p op' nm E) as Hi. rewrite Hd' in Hi. simpl in Hi.
  assert (d' = []) as ->.
  { rewrite Hi. apply filter_none. intros [u x] Hx. simpl. intros Hnx.
    assert (Hxc : x ∈ children (detach_all p vs h) p).
    { unfold children. rewrite E. apply elem_of_list_fmap. by exists (u, x). }
    rewrite Hc' in Hxc. apply elem_of_list_filter in Hxc as [Hxv Hxc]. apply Hxv. unfold vs.
    apply elem_of_list_filter. split; [|done]. rewrite <- Hnx. unfold name_of.
    by rewrite (detach_all_attr o_name p vs h x). }
  rewrite dset_id by done. by destruct op'.
Qed.

(** remove_element(id_name=nm), drained. *)
Lemma remove_name_ok s p nm op d : WF0 (heap s) -> heap s !! p = Some op -> plain op -> nm <> "" ->
  dget nm (o_index op) = Some d ->
  let vs := filter (fun c => name_of (heap s) c = nm) (children (heap s) p) in
  exists s', remove_all p nm None s = (Ok vs, s') /\
      touchw vs (set_heap (detach_all p vs (heap s)) s) s' /\
      WF0 (detach_all p vs (heap s)) /\
      (forall v, v ∈ vs -> attr_of o_qname (heap s') v = Some nm) /\
      (forall l, l ∉ vs -> attr_of o_qname (heap s') l = attr_of o_qname (heap s) l).
Proof.
  intros W Hp Hpl Hnm Hd vs.
  destruct (take_name_ok s p nm op d (length (dvals d)) W Hp Hpl Hd) as (s' & E & T & H).
  rewrite firstn_all in E. pose proof (dvals_filter_name _ p op nm W Hp) as Hf. rewrite Hd in Hf. simpl in Hf.
  rewrite Hf, firstn_all in *. fold vs in E, T, H |- *.
  exists s'. split; [|split; [|exact H]].
  - rewrite (remove_all_unfold s p nm op d) by done. by rewrite Hf.
  - unfold vs in T |- *. rewrite (idx_nil_id (heap s) p nm op d) in T by done. exact T.
Qed.

(** remove_element by uuid, drained. *)
Lemma remove_uuid_all s p c op oc nm : WF0 (heap s) -> heap s !! p = Some op -> plain op ->
  heap s !! c = Some oc -> o_parent oc = Some p -> (nm = "" \/ nm = o_name oc) ->
  exists s', remove_all p nm (Some (o_uuid oc)) s = (Ok [c], s') /\
    touch [c] (set_heap (detach_h p c oc (heap s)) s) s'.
Proof.
  intros W Hp Hpl Hc Hpar Hnm.
  assert (Hne : c <> p) by (intros ->; by apply (wf0_not_self _ W p oc)).
  destruct (wf0_lookup _ W c oc p op Hc Hpar Hp) as (Hs & d & Hi & Hd).
  destruct (remove_uuid_ok s p c op oc d c (if decide (nm = "") then None else Some nm)) as (s1 & E1 & T1); try done.
  { case_decide; [done|]. simpl. destruct Hnm; done. }
  { exact (wf_clk _ W c). }
  exists s1. split; [|done]. unfold remove_all.
  assert (E2 : gen_next (GNew p nm (Some (o_uuid oc))) s = (Ok (Some c, GEnd), s1)).
  { rewrite (gen_next_plain _ _ _ _ _ Hp Hpl). cbn [base_next].
    case_decide; by rewrite (bind_ok _ _ _ _ _ E1). }
  by rewrite (bind_ok _ _ _ _ _ E2).
Qed.

(** remove_element in every case that is allowed. *)
Lemma remove_all_wf s p nm u : WF0 (heap s) -> allowed (heap s) (ORemove p nm u) ->
  WF0 (heap (snd (remove_all p nm u s))).
Proof.
  intros W ([op Hp] & Hk1 & Hk2 & Hname).
  assert (Hpl : plain op) by (unfold kind_of in *; rewrite Hp in *; simpl in *; split; congruence).
  destruct u as [u|].
  - destruct (dget u (o_subs op)) as [c|] eqn:Hg.
    + pose proof (dget_Some_in _ _ _ Hg) as Hin. destruct (wf_sub _ W p op u c Hp Hin) as (oc & Hc & <- & Hpar).
      destruct (remove_uuid_all s p c op oc nm) as (s' & -> & T); try done.
      { destruct (decide (nm = "")) as [->|Hn]; [by left|right].
        rewrite <- (Hname (o_uuid oc) Hn eq_refl c).
        - unfold name_of. by rewrite Hc.
        - unfold children. rewrite Hp. apply elem_of_list_fmap. by exists (o_uuid oc, c).
        - unfold uuid_of. by rewrite Hc. }
      simpl. eapply WF_heq; [by eapply touch_heq|]. simpl. apply detach_wf0 with op; try done. apply Hpl.
    + assert (E : remove_all p nm (Some u) s = (Exn KeyError, s)); [|by rewrite E].
      unfold remove_all. assert (E2 : gen_next (GNew p nm (Some u)) s = (Exn KeyError, s)).
      { rewrite (gen_next_plain _ _ _ _ _ Hp Hpl). cbn [base_next].
        assert (E3 : forall n, remove_uuid p n u s = (Exn KeyError, s)).
        { intros n. unfold remove_uuid. rewrite (bind_ok _ _ _ _ _ (deref_ok _ _ _ Hp)). rewrite Hg. reflexivity. }
        destruct (decide (nm = "")); rewrite (bind_exn _ _ _ _ _ (E3 _)); reflexivity. }
      by rewrite (bind_exn _ _ _ _ _ E2).
  - destruct (decide (nm = "")) as [->|Hn].
    { assert (E : remove_all p "" None s = (Exn ErrorInvalidQuery, s)); [|by rewrite E].
      unfold remove_all. assert (E2 : gen_next (GNew p "" None) s = (Exn ErrorInvalidQuery, s)).
      { rewrite (gen_next_plain _ _ _ _ _ Hp Hpl). done. }
      by rewrite (bind_exn _ _ _ _ _ E2). }
    destruct (dget nm (o_index op)) as [d|] eqn:Hd.
    + destruct (remove_name_ok s p nm op d W Hp Hpl Hn Hd) as (s' & -> & T & W' & _). simpl.
      eapply WF_heq; [by eapply touchw_heq|]. done.
    + assert (E : remove_all p nm None s = (Exn KeyError, s)); [|by rewrite E].
      unfold remove_all. assert (E2 : gen_next (GNew p nm None) s = (Exn KeyError, s)).
      { rewrite (gen_next_plain _ _ _ _ _ Hp Hpl). cbn [base_next]. rewrite decide_False by done.
        rewrite (bind_ok _ _ _ _ _ (deref_ok _ _ _ Hp)). by rewrite Hd. }
      by rewrite (bind_exn _ _ _ _ _ E2).
Qed.

Lemma deregister_wf s x : WF0 (heap s) -> exists_in (heap s) x -> removable (heap s) x ->
  WF0 (heap (snd (deregister x s))).
Proof.
  intros W [ox Hx] Hrem. unfold deregister. rewrite (bind_ok _ _ _ _ _ (deref_ok _ _ _ Hx)).
  destruct (is_hyperelement (o_kind ox)); [|done]. destruct (o_parent ox) as [q|] eqn:Hq; [|done].
  destruct (wf_par _ W x ox q Hx Hq) as (oq & Hoq & _).
  destruct (wf0_lookup _ W x ox q oq Hx Hq Hoq) as (Hs & d & Hi & Hd).
  destruct (Hrem q) as [H1 H2]; [by rewrite (parent_of_lookup _ _ _ Hx)|].
  unfold kind_of in H1, H2. rewrite Hoq in H1, H2. simpl in H1, H2.
  destruct (for_gen_update_ok s q x oq ox d x) as (s' & -> & T); try done.
  { intros ->. by apply (wf0_not_self _ W q ox). }
  { split; congruence. }
  { exact (wf_clk _ W x). }
  simpl. eapply WF_heq; [by eapply touch_heq|]. simpl. apply detach_wf0 with oq; try done. congruence.
Qed.

(** ** Constructors *)
Lemma new_conceptual_wf s k nm u prog c parent : WF0 (heap s) -> is_conceptual k = true ->
  ex_opt (heap s) parent -> WF0 (heap (snd (new_conceptual k nm u prog c parent s))).
Proof.
  intros W Hk Hpar. unfold new_conceptual. destruct c as [c|]; [|done].
  rewrite (bind_ok (now c) _ s (clk s c (tick s)) (set_tick (S (tick s)) s)) by done.
  set (ol := s_ready _ _). set (s1 := set_tick (S (tick s)) s).
  set (s2 := set_heap (heap s1 ++ [ol]) s1).
  rewrite (bind_ok (alloc ol) _ s1 (length (heap s)) s2) by done.
  assert (Hl : heap s2 !! length (heap s) = Some ol).
  { unfold s2. simpl. by rewrite lookup_app_r, Nat.sub_diag by lia. }
  assert (W2 : WF0 (heap s2)).
  { unfold s2. simpl. apply alloc_wf0; try done. simpl. intros ->. done. }
  assert (Hfin : forall s3 o3, WF0 (heap s3) -> heap s3 !! length (heap s) = Some o3 -> o_subs o3 = [] -> o_rels o3 = [] ->
    WF0 (heap (snd ((upd (length (heap s)) (s_ready true) ;; ret (length (heap s))) s3)))).
  { intros s3 o3 W3 H3 Hs Hr. rewrite (bind_ok _ _ _ _ _ (upd_ok _ _ _ _ H3)). simpl.
    set (l := length (heap s)) in *.
    assert (Hat : forall i o, alter (s_ready true) l (heap s3) !! i = Some o ->
      exists o0, heap s3 !! i = Some o0 /\ o_parent o = o_parent o0 /\ o_subs o = o_subs o0 /\ o_uuid o = o_uuid o0 /\
        o_index o = o_index o0 /\ o_cnt o = o_cnt o0 /\ o_hist o = o_hist o0 /\ o_kind o = o_kind o0 /\
        o_rels o = o_rels o0 /\ o_clock o = o_clock o0 /\ o_endpoint o = o_endpoint o0 /\ (i <> l -> o = o0)).
    { intros i o Hi. apply lookup_alter_inv in Hi as (o0 & H0 & ->). exists o0. split; [done|].
      case_decide; simpl; naive_solver. }
    assert (Hfw : forall i o0, heap s3 !! i = Some o0 -> exists o, alter (s_ready true) l (heap s3) !! i = Some o /\
        o_parent o = o_parent o0 /\ o_subs o = o_subs o0 /\ o_uuid o = o_uuid o0).
    { intros i o0 Hi. eexists. split; [by apply lookup_alter_fwd|]. by case_decide. }
    assert (Hatt : forall A (f : obj -> A) i, (forall o, f (s_ready true o) = f o) ->
      f <$> (alter (s_ready true) l (heap s3) !! i) = f <$> (heap s3 !! i)).
    { intros A f i Hf. destruct (decide (l = i)) as [->|].
      - rewrite list_lookup_alter. destruct (heap s3 !! i); simpl; [by rewrite Hf|done].
      - by rewrite list_lookup_alter_ne. }
    assert (Hnm : forall i, name_of (alter (s_ready true) l (heap s3)) i = name_of (heap s3) i).
    { intros i. unfold name_of. by rewrite Hatt. }
    assert (Hcid : forall i, cid_of (alter (s_ready true) l (heap s3)) i = cid_of (heap s3) i).
    { intros i. unfold cid_of. by rewrite Hatt. }
    assert (Hpr : forall i, parent_of (alter (s_ready true) l (heap s3)) i = parent_of (heap s3) i).
    { intros i. unfold parent_of. destruct (decide (l = i)) as [->|].
      - rewrite list_lookup_alter. by destruct (heap s3 !! i).
      - by rewrite list_lookup_alter_ne. }
    assert (Hrl : forall i, is_rel (alter (s_ready true) l (heap s3)) i <-> is_rel (heap s3) i).
    { intros i. unfold is_rel, kind_of. by rewrite Hatt. }
    assert (Hex : forall i, exists_in (alter (s_ready true) l (heap s3)) i <-> exists_in (heap s3) i).
    { intros i. rewrite !exists_in_lt. by rewrite alter_length. }
    split.
    - intros p o Ho. destruct (Hat _ _ Ho) as (o0 & H0 & _ & -> & _). by apply (wf_nd _ W3 p).
    - intros p o u0 x Ho Hin. destruct (Hat _ _ Ho) as (o0 & H0 & _ & Es & _). rewrite Es in Hin.
      destruct (wf_sub _ W3 p o0 u0 x H0 Hin) as (ox & H1 & H2 & H4). destruct (Hfw _ _ H1) as (ox' & H5 & H6 & H7 & H8).
      exists ox'. split; [done|]. split; congruence.
    - intros x ox p Hx Hp. destruct (Hat _ _ Hx) as (o0 & H0 & Ep & _ & Eu & _). rewrite Ep in Hp.
      destruct (wf_par _ W3 x o0 p H0 Hp) as (op & H1 & H2). destruct (Hfw _ _ H1) as (op' & H5 & H6 & H7 & H8).
      exists op'. split; [done|]. rewrite H7, Eu. done.
    - intros p o n Ho. destruct (Hat _ _ Ho) as (o0 & H0 & _ & -> & _ & -> & _). rewrite (wf_index _ W3 p o0 n H0).
      apply filter_ext_in. intros x _. by rewrite Hnm.
    - intros p o Ho. destruct (Hat _ _ Ho) as (o0 & H0 & _ & -> & _ & _ & -> & _). by apply (wf_cnt _ W3 p).
    - intros p o Ho. destruct (Hat _ _ Ho) as (o0 & H0 & _ & -> & _ & _ & _ & -> & _).
      rewrite (map_ext _ (cid_of (heap s3))) by apply Hcid. by apply (wf_cid _ W3 p).
    - intros p o Ho Hke Hre. rewrite (filter_ext_in (is_rel _) (is_rel (heap s3))) by (intros; apply Hrl).
      rewrite (map_ext _ (fun x => (cid_of (heap s3) x, x))) by (intros; by rewrite Hcid).
      destruct (decide (p = l)) as [->|Hne].
      + destruct (Hat _ _ Ho) as (o0 & H0 & _ & Es & _ & _ & _ & _ & _ & Er & _). rewrite Es, Er.
        assert (o0 = o3) as -> by congruence. by rewrite Hs, Hr.
      + destruct (Hat _ _ Ho) as (o0 & H0 & _ & _ & _ & _ & _ & _ & _ & _ & _ & _ & Heq). rewrite (Heq Hne) in *.
        by apply (wf_rels _ W3 p).
    - intros i Hi. apply Hex in Hi. destruct (wf_acy _ W3 i Hi) as [ls Hls]. exists ls.
      apply path_ext with (heap s3); [done|]. intros x Hx. split; [apply Hex; by eapply path_in_exists|apply Hpr].
    - intros i o Ho Hc. destruct (Hat _ _ Ho) as (o0 & H0 & _ & _ & _ & _ & _ & _ & Ek & _ & -> & _).
      rewrite Ek in Hc. exact (wf_clk _ W3 i o0 H0 Hc).
    - intros i o e Ho He. destruct (Hat _ _ Ho) as (o0 & H0 & _ & _ & _ & _ & _ & _ & _ & _ & _ & Ee & _).
      rewrite Ee in He. apply Hex. exact (wf_ep _ W3 i o0 e H0 He).
    - intros i o Ho. destruct (Hat _ _ Ho) as (o0 & H0 & _ & _ & _ & _ & _ & _ & Ek & _ & _ & Ee & _). rewrite Ek, Ee. exact (wf_hasep _ W3 i o0 H0). }
  destruct parent as [p|].
  - assert (Hlt : p < length (heap s)) by (by apply exists_in_lt).
    assert (Hok : add_ok (heap s2) p (length (heap s))).
    { split; [apply exists_in_lt; unfold s2; simpl; rewrite app_length; lia|]. split; [by eexists|]. split.
      - apply leaf_not_ancestor; [done|]. unfold children. by rewrite Hl.
      - intros q Hq. unfold parent_of in Hq. rewrite Hl in Hq. done. }
    pose proof (add_element_wf s2 p (length (heap s)) W2 Hok) as W3.
    destruct (add_element p (length (heap s)) s2) as [[[]|e] s3] eqn:E.
    + rewrite (bind_ok _ _ _ _ _ E).
      pose proof Hok as ([op Hp] & _).
      assert (H3 : exists o3, heap s3 !! length (heap s) = Some o3 /\ o_subs o3 = [] /\ o_rels o3 = []).
      { destruct (add_base_cases s2 p (length (heap s)) W2 Hok) as [[? _]|(op' & oc' & Hne & Hp' & Hc' & Hor)]; [lia|].
        assert (op' = op) as -> by congruence. assert (oc' = ol) as -> by congruence.
        assert (Hdup : forall e, add_base p (length (heap s)) s2 = (Exn e, s2) -> False).
        { intros e E'. unfold add_element in E. rewrite (bind_ok _ _ _ _ _ (deref_ok _ _ _ Hp)) in E.
          destruct (o_kind op); try (rewrite E' in E; done); rewrite (bind_exn _ _ _ _ _ E') in E; done. }
        destruct Hor as [[_ E']|(Hn & T & s4 & E' & TT & _)]; [by apply Hdup in E'|].
        destruct (t_obj _ _ _ TT _ _ (added_at_c _ p _ op ol false W2 Hne Hl)) as (q & t & H4 & _).
        assert (Hk4 : kind_of (heap s4) (length (heap s)) = Some k) by (unfold kind_of; rewrite H4; done).
        unfold add_element in E. rewrite (bind_ok _ _ _ _ _ (deref_ok _ _ _ Hp)) in E.
        assert (Hplain : s3 = s4 -> exists o3, heap s3 !! length (heap s) = Some o3 /\ o_subs o3 = [] /\ o_rels o3 = []).
        { intros ->. eexists. split; [exact H4|]. done. }
        destruct (o_kind op); try (rewrite E' in E; injection E as <-; by apply Hplain);
          rewrite (bind_ok _ _ _ _ _ E') in E; rewrite (bind_ok _ _ _ _ _ (deref_ok _ _ _ H4)) in E.
        - simpl in E. destruct k; simpl in E; try done; injection E as <-; by apply Hplain.
        - simpl in E. destruct (is_hyperelement k) eqn:Eh; [|injection E as <-; by apply Hplain].
          unfold connect in E. rewrite (bind_ok _ _ _ _ _ (deref_ok _ _ _ H4)) in E.
          unfold bind, deref in E. destruct (heap s4 !! p); [|done]. simpl in E. rewrite Eh in E. done. }
      destruct H3 as (o3 & H3 & Hs & Hr). by apply (Hfin s3 o3).
    + rewrite (bind_exn _ _ _ _ _ E). exact W3.
  - rewrite (bind_ok (ret tt) _ s2 tt s2) by done. by apply (Hfin s2 ol).
Qed.
