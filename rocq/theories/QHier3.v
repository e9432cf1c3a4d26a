(** * Proofs of C10 - C14 *)
From stdpp Require Import relations.
From Verif Require Import Spec Hierarchy Elements Factory History PDict PPath PExec PBfs PWF PAdd PMono PStep PRemove PReach PPrim PHist QHier QHier2.
From Coq Require Import Sorting.Sorted.

(** ** C10 *)
Lemma names_up_cycle h a : forall fuel x, ancestor h a a -> ancestor h a x -> (forall l, ancestor h a l -> exists_in h l) ->
  names_up h fuel x = Exn RecursionError.
Proof.
  induction fuel as [|fuel IH]; intros x Haa Hx Hex; [done|]. simpl. destruct (Hex x Hx) as [o Ho]. rewrite Ho.
  assert (Hq : exists q, o_parent o = Some q /\ ancestor h a q).
  { inversion Hx as [? ? Hp|? q ? Hp Ha]; subst; rewrite (parent_of_lookup _ _ _ Ho) in Hp; eauto. }
  destruct Hq as (q & -> & Hq). by rewrite IH.
Qed.
Lemma names_up_badend h a fuel : ancestor h a a -> (forall l, ancestor h a l -> exists_in h l) ->
  names_up h fuel a = Exn RecursionError.
Proof. intros H1 H2. by apply names_up_cycle with a. Qed.

Lemma update_cycle s a : ancestor (heap s) a a -> (forall l, ancestor (heap s) a l -> exists_in (heap s) l) ->
  clocked (heap s) a -> exists s', update a s = (Exn RecursionError, s') /\ heq (heap s) (heap s').
Proof.
  intros Ha Hex Hck. destruct (Hex a Ha) as [o Ho]. unfold update. rewrite (bind_ok _ _ _ _ _ (deref_ok _ _ _ Ho)).
  assert (Hr : forall s1, heq (heap s) (heap s1) -> refresh_qname a s1 = (Exn RecursionError, s1)).
  { intros s1 Hq. unfold refresh_qname, get_st, bind. rewrite (names_up_badend _ a).
    - done.
    - by eapply heq_ancestor.
    - intros l Hl. apply (heq_exists _ _ l Hq). apply Hex. eapply heq_ancestor; [|exact Hl]. by symmetry. }
  destruct (is_conceptual (o_kind o)) eqn:Ek.
  - destruct (Hck o Ho Ek) as [c Hc].
    set (s1 := set_heap (alter (s_time (clk s c (tick s))) a (heap s)) (set_tick (S (tick s)) s)).
    assert (E1 : update_timestamp a s = (Ok tt, s1)).
    { unfold update_timestamp. rewrite (bind_ok _ _ _ _ _ (deref_ok _ _ _ Ho)). rewrite Hc.
      unfold now, bind. by erewrite upd_ok. }
    assert (Hq : heq (heap s) (heap s1)) by (by apply heq_alter).
    rewrite (bind_ok _ _ _ _ _ E1). exists s1. split; [by apply Hr|done].
  - exists s. split; [by apply Hr|done].
Qed.

Lemma ancestor_cut h h' a x : (forall l, l <> a -> parent_of h' l = parent_of h l) -> ancestor h a x -> x <> a -> ancestor h' a x.
Proof.
  intros Hpar Ha. induction Ha as [a l Hp|a q l Hp Ha IH]; intros Hne.
  - apply anc_parent. by rewrite Hpar.
  - destruct (decide (q = a)) as [->|Hq]; [apply anc_parent; by rewrite Hpar|]. eapply anc_up; [by rewrite Hpar|].
    by apply IH.
Qed.


Lemma q_C10 s p a : reach s -> ancestor (heap s) a p -> exists_in (heap s) p -> removable (heap s) a ->
  (forall x, x ∈ children (heap s) p -> uuid_of (heap s) x <> uuid_of (heap s) a) ->
  exists s', add_element p a s = (Exn RecursionError, s') /\ parent_of (heap s') a = Some p /\
    a ∈ children (heap s') p /\ ancestor (heap s') a a /\ ancestor (heap s') p p.
Proof.
  intros R Ha [op Hp] Hrem Hu. pose proof (reach_wf s R) as W.
  assert (Hne : a <> p).
  { intros ->. destruct (wf_acy _ W p) as [lp Hlp]; [by eexists|].
    apply (path_ancestor _ _ _ _ Hlp) in Ha. pose proof (path_nodup _ _ _ Hlp) as Hnd.
    destruct (path_cons _ _ _ Hlp) as [l' ->]. apply NoDup_cons in Hnd as [Hnd _]. done. }
  assert (Hca : exists_in (heap s) a).
  { destruct (wf_acy _ W p) as [lp Hlp]; [by eexists|]. apply (path_in_exists _ _ _ _ Hlp).
    apply (path_within _ _ _ _ Hlp). by right. }
  destruct Hca as [oa Hoa].
  assert (Hg : dget (o_uuid oa) (o_subs op) = None).
  { apply dget_None. intros Hin. apply elem_of_list_fmap in Hin as [[u x] [Heq Hin]]. simpl in Heq. subst u.
    destruct (wf_sub _ W p op _ x Hp Hin) as (ox & Hx & Hux & _). apply (Hu x).
    - unfold children. rewrite Hp. apply elem_of_list_fmap. by exists (o_uuid oa, x).
    - unfold uuid_of. by rewrite Hx, Hoa. }
  pose proof (not_child _ p a op oa W Hp Hoa Hg) as Hnc.
  destruct (add_base_upto s p a op oa W Hne Hp Hoa Hg Hrem) as (s8 & E8 & T8).
  change (attach_h p a op oa false (left_h a oa (heap s))) with (added p a op oa false (heap s)) in T8.
  pose proof (touchw_heq _ _ _ T8) as Hq. simpl in Hq. set (hA := added p a op oa false (heap s)) in *.
  assert (HpA : parent_of hA a = Some p) by (unfold parent_of, hA; by rewrite added_at_c).
  assert (Hpar : forall l, l <> a -> parent_of hA l = parent_of (heap s) l) by (intros l Hl; by apply added_parent_ne).
  assert (Hap : ancestor hA a p) by (apply (ancestor_cut (heap s)); [done|done|congruence]).
  assert (Haa : ancestor hA a a) by (by eapply anc_up).
  assert (Hex : forall l, ancestor hA a l -> exists_in hA l).
  { intros l Hl. apply added_exists. destruct (decide (l = a)) as [->|Hla]; [by eexists|].
    apply parent_exists. rewrite <- (Hpar l Hla). inversion Hl; subst; eauto. }
  destruct (update_cycle s8 a) as (s9 & E9 & Hq9).
  { by eapply heq_ancestor. }
  { intros l Hl. apply (heq_exists _ _ l Hq). apply Hex. eapply heq_ancestor; [|exact Hl]. by symmetry. }
  { eapply heq_clocked; [exact Hq|]. unfold hA. intros o Ho Hk. rewrite added_at_c in Ho by done. injection Ho as <-.
    exact (wf_clk _ W a oa Hoa Hk). }
  assert (Eb : add_base p a s = (Exn RecursionError, s9)).
  { rewrite E8. unfold update_subtree, get_st, bind at 1.
    assert (Hl : length (heap s8) <> 0).
    { rewrite (w_len _ _ _ T8). simpl. unfold hA. rewrite added_length. apply lookup_lt_Some in Hp. lia. }
    destruct (length (heap s8)) as [|n]; [done|]. cbn [update_loop]. by rewrite (bind_exn _ _ _ _ _ E9). }
  assert (Hq' : heq hA (heap s9)) by (by etrans).
  assert (Hpp : ancestor hA p p).
  { apply (ancestor_trans _ p a p); [by apply anc_parent|done]. }
  exists s9. split.
  { unfold add_element. rewrite (bind_ok _ _ _ _ _ (deref_ok _ _ _ Hp)). destruct (o_kind op); try exact Eb; by rewrite (bind_exn _ _ _ _ _ Eb). }
  split; [by rewrite (heq_parent _ _ a Hq')|].
  split. { rewrite (heq_children _ _ p Hq'). unfold hA. rewrite added_children_p by done. apply elem_of_app. right. by left. }
  split; by eapply heq_ancestor.
Qed.

(** ** C11 *)
Lemma q_C11 s p c n : reach s -> c ∈ children (heap s) p -> kind_of (heap s) p <> Some KEdge -> kind_of (heap s) p <> Some KRel ->
  n <> "" -> name_of (heap s) c <> n ->
  exists s', remove_all p n (Some (uuid_of (heap s) c)) s = (Exn KeyError, s') /\
    children (heap s') p = filter (fun x => x <> c) (children (heap s) p) /\
    parent_of (heap s') c = Some p /\
    attr_of o_cnt (heap s') p = attr_of o_cnt (heap s) p /\
    (forall o, heap s !! p = Some o -> is_conceptual (o_kind o) = true -> has_char slash (name_of (heap s) c) = false ->
       exists l, get_element_by_id_name p (name_of (heap s) c) s' = (Ok l, s') /\ c ∈ l) /\
    (forall l, l <> p -> heap s' !! l = heap s !! l).
Proof.
  intros R Hc Hk1 Hk2 Hn Hnm. pose proof (reach_wf s R) as W.
  destruct (wf0_child _ W p c Hc) as [[oc Hoc] Hpc]. pose proof Hpc as Hpar. rewrite (parent_of_lookup _ _ _ Hoc) in Hpar.
  destruct (wf_par _ W c oc p Hoc Hpar) as (op & Hop & _).
  assert (Hpl : plain op) by (unfold kind_of in *; rewrite Hop in *; simpl in *; split; congruence).
  assert (Hne : c <> p) by (intros ->; by apply (wf0_not_self _ W p oc)).
  destruct (wf0_lookup _ W c oc p op Hoc Hpar Hop) as (Hg & d & Hd & Hdc).
  unfold uuid_of. rewrite Hoc. cbn [default fmap option_fmap option_map].
  unfold name_of in Hnm. rewrite Hoc in Hnm. simpl in Hnm.
  set (s1 := set_heap (alter (fun o => s_subs (ddel (o_uuid oc) (o_subs o)) o) p (heap s)) s).
  assert (Hp1 : heap s1 !! p = Some (s_subs (ddel (o_uuid oc) (o_subs op)) op)).
  { unfold s1. simpl. by rewrite list_lookup_alter, Hop. }
  assert (Hc1 : heap s1 !! c = Some oc) by (unfold s1; simpl; by rewrite list_lookup_alter_ne).
  exists s1. split; [|split; [|split; [|split; [|split]]]].
  - unfold remove_all. assert (E : gen_next (GNew p n (Some (o_uuid oc))) s = (Exn KeyError, s1)).
    { rewrite (gen_next_plain _ _ _ _ _ Hop Hpl). cbn [base_next]. rewrite decide_False by done.
      assert (E : remove_uuid p (Some n) (o_uuid oc) s = (Exn KeyError, s1)); [|by rewrite (bind_exn _ _ _ _ _ E)].
      unfold remove_uuid. rewrite (bind_ok _ _ _ _ _ (deref_ok _ _ _ Hop)). rewrite Hg. cbn [of_opt].
      rewrite (bind_ok (ret c) _ s c s) by done. rewrite (bind_ok _ _ _ _ _ (upd_ok _ _ _ _ Hop)). fold s1.
      rewrite (bind_ok _ _ _ _ _ (deref_ok _ _ _ Hc1)). cbn [default id].
      rewrite (bind_ok _ _ _ _ _ (deref_ok _ _ _ Hp1)). cbn [o_index s_subs].
      destruct (dget n (o_index op)) as [dn|] eqn:En; [|reflexivity]. cbn [of_opt]. rewrite (bind_ok (ret dn) _ s1 dn s1) by done.
      assert (Hx : dget (o_uuid oc) dn = None); [|rewrite Hx; reflexivity].
      pose proof (wf_index _ W p op n Hop) as Hi. rewrite En in Hi. cbn [default id] in Hi. rewrite Hi.
      apply dget_None. intros Hin. apply elem_of_list_fmap in Hin as [[u x] [Hu Hin]]. simpl in Hu. subst u.
      apply elem_of_list_filter in Hin as [Hxn Hin].
      assert (Hx2 : dget (o_uuid oc) (o_subs op) = Some x) by (apply dget_in_nodup; [exact (wf_nd _ W p op Hop)|done]).
      assert (x = c) as -> by congruence. apply Hnm. revert Hxn. simpl. unfold name_of. by rewrite Hoc. }
    by rewrite (bind_exn _ _ _ _ _ E).
  - unfold children at 1. rewrite Hp1. simpl. by apply (ddel_filter (heap s) p op c oc).
  - by rewrite (parent_of_lookup _ _ _ Hc1).
  - unfold attr_of. by rewrite Hp1, Hop.
  - intros o Ho Hk Hs. assert (o = op) as -> by congruence.
    unfold get_element_by_id_name. rewrite has_char_split by done. cbn [get_by_tokens]. rewrite Hp1.
    change (is_conceptual (o_kind (s_subs _ op))) with (is_conceptual (o_kind op)). rewrite Hk. cbn [o_index s_subs].
    unfold name_of. rewrite Hoc. simpl. rewrite Hd. eexists. split; [reflexivity|].
    apply dget_Some_in in Hdc. apply elem_of_list_fmap. by exists (o_uuid oc, c).
  - intros l Hl. unfold s1. simpl. by rewrite list_lookup_alter_ne.
Qed.

(** ** C12 *)
Lemma q_C12_lazy s p nm u : gen_take 0 (GNew p nm u) s = (Ok [], s).
Proof. done. Qed.

Lemma q_C12 s p op n j : reach s -> heap s !! p = Some op -> o_kind op <> KEdge -> o_kind op <> KRel -> n <> "" ->
  let ms := filter (fun c => name_of (heap s) c = n) (children (heap s) p) in
  ms <> [] -> 1 <= j ->
  exists s', gen_take j (GNew p n None) s = (Ok (take j ms), s') /\
    children (heap s') p = filter (fun c => c ∉ take j ms) (children (heap s) p) /\
    (forall c, c ∈ take j ms -> parent_of (heap s') c = None) /\
    (forall c, c ∈ drop j ms -> c ∈ children (heap s') p /\ parent_of (heap s') c = Some p) /\
    (is_conceptual (o_kind op) = true -> has_char slash n = false -> get_element_by_id_name p n s' = (Ok [], s')).
Proof.
  intros R Hp Hk1 Hk2 Hn ms Hms Hj. pose proof (reach_wf s R) as W. destruct j as [|j]; [lia|].
  assert (Hd : exists d, dget n (o_index op) = Some d).
  { destruct (dget n (o_index op)) as [d|] eqn:E; [by exists d|]. exfalso. apply Hms. unfold ms.
    rewrite <- (dvals_filter_name _ p op n W Hp). by rewrite E. }
  destruct Hd as [d Hd].
  assert (Hpl : plain op) by done.
  rewrite (base_name_unfold s p n op d Hp Hpl Hn Hd).
  destruct (take_name_ok s p n op d (S j) W Hp Hpl Hd) as (s' & E & T & W' & H1 & H2). fold ms in E, T, W', H1, H2.
  rewrite E. exists s'. split; [done|].
  pose proof (touchw_heq _ _ _ T) as Hq. set (vs := take (S j) ms) in *. simpl in Hq.
  assert (Hnd : NoDup ms) by (apply NoDup_filter; by apply wf0_children_nd).
  assert (Hin : forall v, v ∈ ms -> v ∈ children (heap s) p).
  { intros v Hv. unfold ms in Hv. apply elem_of_list_filter in Hv. tauto. }
  assert (Hvs : forall v, v ∈ vs -> v ∈ ms).
  { intros v Hv. unfold vs in Hv. apply elem_of_take in Hv as (i & Hi & _). by apply elem_of_list_lookup_2 in Hi. }
  assert (Hndv : NoDup vs) by (unfold vs; rewrite <- (take_drop (S j) ms) in Hnd; apply NoDup_app in Hnd; tauto).
  destruct (detach_all_wf p vs (heap s) W Hndv) as [_ Hch]; [exists op; split; [done|apply Hpl]|by intros v Hv; apply Hin, Hvs|].
  assert (Hpe : forall h l, parent_of (idx_nil p n h) l = parent_of h l).
  { intros h l. unfold idx_nil, parent_of. destruct (decide (p = l)) as [->|]; [|by rewrite list_lookup_alter_ne].
    rewrite list_lookup_alter. by destruct (h !! l). }
  assert (Hce : forall h l, children (idx_nil p n h) l = children h l).
  { intros h l. unfold idx_nil, children. destruct (decide (p = l)) as [->|]; [|by rewrite list_lookup_alter_ne].
    rewrite list_lookup_alter. by destruct (h !! l). }
  split; [by rewrite (heq_children _ _ p Hq), Hce|]. split.
  { intros c Hc. rewrite (heq_parent _ _ c Hq), Hpe. apply detach_all_parent_in; [|done].
    intros v Hv. destruct (wf0_child _ W p v (Hin v (Hvs v Hv))) as [Hex Hpar]. split; [done|]. intros ->.
    destruct Hex as [o Ho]. rewrite (parent_of_lookup _ _ _ Ho) in Hpar. by apply (wf0_not_self _ W p o). }
  split.
  { intros c Hc. assert (Hcv : c ∉ vs).
    { intros Hc2. rewrite <- (take_drop (S j) ms) in Hnd. apply NoDup_app in Hnd as (_ & Hx & _). by apply (Hx c). }
    assert (Hcm : c ∈ children (heap s) p).
    { apply Hin. rewrite <- (take_drop (S j) ms). apply elem_of_app. by right. }
    split.
    - rewrite (heq_children _ _ p Hq), Hce, Hch. by apply elem_of_list_filter.
    - rewrite (heq_parent _ _ c Hq), Hpe, detach_all_parent_ne by done. by apply (wf0_child _ W). }
  intros Hk Hs. unfold get_element_by_id_name. rewrite has_char_split by done. cbn [get_by_tokens].
  assert (Hx : exists o, heap s' !! p = Some o /\ o_kind o = o_kind op /\ dget n (o_index o) = Some []).
  { assert (H3 : exists o, detach_all p vs (heap s) !! p = Some o /\ o_kind o = o_kind op).
    { pose proof (detach_all_attr o_kind p vs (heap s) p (fun _ => eq_refl) (fun _ _ => eq_refl)) as H3. rewrite Hp in H3.
      destruct (detach_all p vs (heap s) !! p) as [o|]; [|done]. exists o. split; [done|]. by injection H3. }
    destruct H3 as (o & Ho & Hko).
    destruct (w_obj _ _ _ T p (s_index (dset n [] (o_index o)) o)) as (q & t & H4 & _).
    { unfold idx_nil. simpl. by rewrite list_lookup_alter, Ho. }
    eexists. split; [exact H4|]. split; [done|]. simpl. by rewrite dget_dset, decide_True. }
  destruct Hx as (o & Ho & Hko & Hi). rewrite Ho, Hko, Hk, Hi. done.
Qed.

(** ** C13 *)
Lemma q_C13 ck hf s l : history MLeaf (init_st ck hf) s -> exists_in (heap s) l -> right_depth (heap s) l.
Proof.
  intros H [o Ho]. assert (I : deep (heap s)).
  { refine (history_deep _ s _ _ H); [|intros ? ? H1; done]. apply (reach_wf (init_st ck hf)). apply reach_init. }
  destruct (I l o Ho) as (ls & Hp & Hl). exists ls. split; [done|]. unfold attr_of. rewrite Ho. simpl. f_equal. lia.
Qed.

Lemma path_redirect h h' c lc' d ls : (forall l, l <> c -> parent_of h' l = parent_of h l) ->
  (forall l, exists_in h l -> exists_in h' l) -> path h' c lc' -> path h d ls -> c ∈ ls ->
  exists pre lc, ls = pre ++ lc /\ path h c lc /\ path h' d (pre ++ lc').
Proof.
  intros Hpar Hex Hc Hd. induction Hd as [d He Hr|d q ls He Hr Hd IH]; intros Hin.
  - apply elem_of_list_singleton in Hin as ->. exists [], [d]. split; [done|]. split; [by apply path_root|done].
  - destruct (decide (d = c)) as [->|Hne].
    + exists [], (c :: ls). split; [done|]. split; [by eapply path_step|done].
    + apply elem_of_cons in Hin as [->|Hin]; [done|]. destruct (IH Hin) as (pre & lc & -> & Hlc & Hp').
      exists (d :: pre), lc. split; [done|]. split; [done|]. simpl. eapply path_step; [by apply Hex|by rewrite Hpar|done].
Qed.

Lemma q_C13_move s p c op oc s' d lc lp : reach s -> heap s !! p = Some op -> heap s !! c = Some oc -> add_ok (heap s) p c ->
  (o_kind op = KRel -> is_hyperelement (o_kind oc) = false) ->
  add_element p c s = (Ok tt, s') ->
  ancestor (heap s) c d -> path (heap s) c lc -> path (heap s) p lp ->
  attr_of o_depth (heap s') d = attr_of o_depth (heap s) d /\
  (right_depth (heap s) d -> length lc <> S (length lp) -> ~ right_depth (heap s') d).
Proof.
  intros R Hp Hc Hok Hk E Hanc Hlc Hlp. pose proof (reach_wf s R) as W.
  assert (Hne : c <> p).
  { intros ->. rewrite (q_C07_self s p) in E by (by eexists). done. }
  destruct (dget (o_uuid oc) (o_subs op)) as [x|] eqn:Hg.
  { rewrite (q_C07_dup s p c op oc x Hp Hc Hne) in E; [done|]. by apply dget_Some_in. }
  assert (Hk2 : ~ (o_kind op = KEdge /\ o_kind oc = KRel /\ o_ready op = false)).
  { intros (H1 & H2 & H3). unfold add_element in E. rewrite (bind_ok _ _ _ _ _ (deref_ok _ _ _ Hp)) in E. rewrite H1 in E.
    destruct (add_base_ok s p c op oc W Hne Hp Hc Hg) as (T & s1 & E1 & TT & _); [apply Hok|apply Hok|].
    rewrite (bind_ok _ _ _ _ _ E1) in E. pose proof (touch_heq _ _ _ TT) as Hq. simpl in Hq.
    pose proof (heq_attr o_kind _ _ c (fun _ => eq_refl) Hq) as Hkc. pose proof (heq_attr o_ready _ _ p (fun _ => eq_refl) Hq) as Hkp.
    change (attach_h p c op oc false (left_h c oc (heap s))) with (added p c op oc false (heap s)) in Hkc, Hkp.
    rewrite (added_attr o_kind) in Hkc by done. rewrite (added_attr o_ready) in Hkp by done. rewrite Hc in Hkc. rewrite Hp in Hkp.
    unfold bind at 1, deref at 1 in E. destruct (heap s1 !! c) as [oc1|]; [|done]. simpl in Hkc. injection Hkc as Hkc. rewrite Hkc, H2 in E.
    unfold bind at 1, deref at 1 in E. destruct (heap s1 !! p) as [op1|]; [|done]. simpl in Hkp. injection Hkp as Hkp. rewrite Hkp, H3 in E. done. }
  destruct (add_element_ok s p c op oc W Hok Hne Hp Hc Hg) as (T & s1 & E1 & TT & HT); [intros [H1 H2]; rewrite Hk in H2; done|done|].
  rewrite E1 in E. injection E as <-.
  pose proof (touch_heq _ _ _ TT) as Hq. simpl in Hq.
  assert (Hnacy : forall x, ~ ancestor (heap s) x x).
  { intros x Hx. destruct (wf_acy _ W x) as [lx Hlx].
    { inversion Hx as [? ? H1|? ? ? H1]; subst; apply parent_exists; rewrite H1; eauto. }
    apply (path_ancestor _ _ _ _ Hlx) in Hx. pose proof (path_nodup _ _ _ Hlx) as Hnd.
    destruct (path_cons _ _ _ Hlx) as [l' ->]. apply NoDup_cons in Hnd as [Hnd _]. done. }
  assert (Hdc : d <> c) by (intros ->; by apply (Hnacy c)).
  assert (Hdep : attr_of o_depth (heap s1) d = attr_of o_depth (heap s) d).
  { unfold attr_of. rewrite (heq_attr o_depth _ _ d (fun _ => eq_refl) Hq). unfold added, attach_h.
    rewrite list_lookup_alter_ne by done. unfold left_h. destruct (o_parent oc) as [q|]; unfold detach_h.
    - destruct (decide (p = d)) as [->|].
      + rewrite list_lookup_alter, list_lookup_alter_ne by done. destruct (decide (q = d)) as [->|].
        * rewrite list_lookup_alter. by destruct (heap s !! d).
        * rewrite list_lookup_alter_ne by done. by destruct (heap s !! d).
      + rewrite !list_lookup_alter_ne by done. destruct (decide (q = d)) as [->|].
        * rewrite list_lookup_alter. by destruct (heap s !! d).
        * by rewrite list_lookup_alter_ne by done.
    - destruct (decide (p = d)) as [->|].
      + rewrite list_lookup_alter. by destruct (heap s !! d).
      + by rewrite list_lookup_alter_ne by done. }
  split; [done|]. intros (ls & Hls & Hd1) Hlen (ls' & Hls' & Hd2).
  assert (Hpar : forall l, l <> c -> parent_of (heap s1) l = parent_of (heap s) l).
  { intros l Hl. rewrite (heq_parent _ _ l Hq). by apply added_parent_ne. }
  assert (Hex : forall l, exists_in (heap s) l -> exists_in (heap s1) l).
  { intros l Hl. apply (heq_exists _ _ l Hq). by apply added_exists. }
  assert (Hcp : parent_of (heap s1) c = Some p) by (rewrite (heq_parent _ _ c Hq); unfold parent_of; by rewrite added_at_c).
  assert (Hlp' : path (heap s1) p lp).
  { apply path_ext with (heap s); [done|]. intros x Hx. split; [apply Hex; exact (path_in_exists _ _ _ _ Hlp Hx)|]. apply Hpar. intros ->.
    apply (path_within _ _ _ _ Hlp) in Hx as [->|Hx]; [done|]. destruct Hok as (_ & _ & Ha & _). done. }
  assert (Hlc' : path (heap s1) c (c :: lp)) by (eapply path_step; [apply Hex; by eexists|done|done]).
  destruct (path_redirect (heap s) (heap s1) c (c :: lp) d ls Hpar Hex Hlc' Hls) as (pre & lc2 & -> & Hlc2 & Hnew).
  { apply (path_within _ _ _ _ Hls). by right. }
  pose proof (path_det _ _ _ _ Hlc2 Hlc) as ->. pose proof (path_det _ _ _ _ Hls' Hnew) as ->.
  rewrite Hdep, Hd1 in Hd2. injection Hd2 as Hd2. rewrite !app_length in Hd2. simpl in Hd2.
  destruct (path_cons _ _ _ Hlc) as [r ->]. simpl in *. lia.
Qed.

(** ** C14 *)
Lemma known_index h p o n : h !! p = Some o -> known h p n <-> is_Some (dget n (o_index o)).
Proof. intros H. unfold known. by rewrite H. Qed.

(** The inner loop of get_by_tokens. *)
Fixpoint gather (f : loc -> res (list loc)) (vs : list loc) : res (list loc) :=
  match vs with
  | [] => Ok []
  | v :: vs' =>
      match f v with
      | Exn e => Exn e
      | Ok r => match gather f vs' with
                | Exn e => Exn e
                | Ok r' => Ok (r ++ r')
                end
      end
  end.
Lemma gather_ok f vs l : gather f vs = Ok l -> exists rs, Forall2 (fun v r => f v = Ok r) vs rs /\ l = mjoin rs.
Proof.
  revert l. induction vs as [|v vs IH]; simpl; intros l H.
  - injection H as <-. by exists [].
  - destruct (f v) as [r|] eqn:E; [|done]. destruct (gather f vs) as [r'|] eqn:E'; [|done]. injection H as <-.
    destruct (IH r' eq_refl) as (rs & H1 & ->). exists (r :: rs). split; [by constructor|done].
Qed.
Lemma gather_exn f vs e : gather f vs = Exn e -> exists v, v ∈ vs /\ f v = Exn e.
Proof.
  induction vs as [|v vs IH]; simpl; intros H; [done|]. destruct (f v) as [r|] eqn:E.
  - destruct (gather f vs) as [r'|] eqn:E'; [done|]. injection H as <-. destruct IH as (x & H1 & H2); [done|].
    exists x. split; [by right|done].
  - injection H as <-. exists v. split; [left|done].
Qed.
Lemma gather_all_ok f vs : (forall v, v ∈ vs -> exists r, f v = Ok r) -> exists l, gather f vs = Ok l.
Proof.
  induction vs as [|v vs IH]; intros H; [by exists []|]. simpl. destruct (H v) as [r ->]; [left|].
  destruct IH as [l ->]; [intros x Hx; apply H; by right|]. by eexists.
Qed.
Lemma get_by_tokens_cons h t t' ts p o : h !! p = Some o -> is_conceptual (o_kind o) = true ->
  get_by_tokens h (t :: t' :: ts) p =
  match dget t (o_index o) with
  | None => Exn KeyError
  | Some d => gather (get_by_tokens h (t' :: ts)) (dvals d)
  end.
Proof.
  intros Hp Hk. cbn [get_by_tokens]. rewrite Hp, Hk. destruct (dget t (o_index o)) as [d|]; [|done].
  generalize (dvals d). induction l as [|v vs IH]; [done|]. cbn [gather]. rewrite <- IH. done.
Qed.
Lemma index_vals h p o t d : WF0 h -> h !! p = Some o -> dget t (o_index o) = Some d ->
  dvals d = filter (fun c => name_of h c = t) (children h p).
Proof. intros W Hp Hd. rewrite <- (dvals_filter_name h p o t W Hp). by rewrite Hd. Qed.

Lemma follow_ok h ts : WF0 h -> forall p l, ts <> [] -> get_by_tokens h ts p = Ok l -> l = follow h ts p.
Proof.
  intros W. induction ts as [|t ts IH]; intros p l Hne H; [done|].
  destruct (h !! p) as [o|] eqn:Hp; [|cbn [get_by_tokens] in H; by rewrite Hp in H].
  destruct (is_conceptual (o_kind o)) eqn:Hk; [|cbn [get_by_tokens] in H; by rewrite Hp, Hk in H].
  destruct ts as [|t' ts].
  - cbn [get_by_tokens] in H. rewrite Hp, Hk in H. injection H as <-. cbn [follow].
    rewrite <- (dvals_filter_name h p o t W Hp).
    assert (Hf : forall m : list loc, flat_map (fun p0 => [p0]) m = m) by (induction m as [|x m IHm]; [done|]; simpl; by rewrite IHm).
    rewrite Hf. by destruct (dget t (o_index o)).
  - rewrite (get_by_tokens_cons h t t' ts p o Hp Hk) in H. destruct (dget t (o_index o)) as [d|] eqn:Hd; [|done].
    rewrite (index_vals h p o t d W Hp Hd) in H.
    change (follow h (t :: t' :: ts) p) with (flat_map (follow h (t' :: ts)) (filter (fun c => name_of h c = t) (children h p))).
    revert l H. generalize (filter (fun c => name_of h c = t) (children h p)). intros m. induction m as [|v m IHm]; intros l H; simpl in H.
    + injection H as <-. done.
    + match type of H with context[match ?x with Ok _ => _ | Exn _ => _ end] => destruct x as [r|] eqn:E end; [|done].
      destruct (gather _ m) as [r'|] eqn:E'; [|done]. injection H as <-. cbn [flat_map]. f_equal; [by apply IH|by apply IHm].
Qed.

(** A chain of names breaks at [x]. *)
Lemma follow_cons_in h t ts p x y : x ∈ children h p -> name_of h x = t -> y ∈ follow h ts x -> y ∈ follow h (t :: ts) p.
Proof.
  intros H1 H2 H3. cbn [follow]. apply elem_of_flat_map. exists x. split; [|done]. by apply elem_of_list_filter.
Qed.
Lemma follow_exists h ts : WF0 h -> forall p x, exists_in h p -> x ∈ follow h ts p -> exists_in h x.
Proof.
  intros W. induction ts as [|t ts IH]; intros p x Hp Hx; cbn [follow] in Hx.
  - by apply elem_of_list_singleton in Hx as ->.
  - apply elem_of_flat_map in Hx as (c & Hc & Hx). apply elem_of_list_filter in Hc as [_ Hc].
    apply (IH c); [|done]. by apply (wf0_child _ W p c).
Qed.

Lemma tokens_exn h ts : WF0 h -> forall p e, exists_in h p -> ts <> [] -> get_by_tokens h ts p = Exn e ->
  exists pre t post x, ts = pre ++ t :: post /\ x ∈ follow h pre p /\
    ((e = AttributeError /\ (forall o, h !! x = Some o -> is_conceptual (o_kind o) = false)) \/
     (e = KeyError /\ post <> [] /\ (forall o, h !! x = Some o -> is_conceptual (o_kind o) = true) /\ ~ known h x t)).
Proof.
  intros W. induction ts as [|t ts IH]; intros p e [o Hp] Hne H; [done|].
  destruct (is_conceptual (o_kind o)) eqn:Hk.
  2: { cbn [get_by_tokens] in H. rewrite Hp, Hk in H. injection H as <-. exists [], t, ts, p. split; [done|]. split; [left|].
       left. split; [done|]. intros o' Ho'. congruence. }
  destruct ts as [|t' ts]; [cbn [get_by_tokens] in H; by rewrite Hp, Hk in H|].
  rewrite (get_by_tokens_cons h t t' ts p o Hp Hk) in H. destruct (dget t (o_index o)) as [d|] eqn:Hd.
  - rewrite (index_vals h p o t d W Hp Hd) in H. apply gather_exn in H as (v & Hv & H).
    apply elem_of_list_filter in Hv as [Hn Hv].
    destruct (IH v e) as (pre & u & post & x & H1 & H2 & H3); [by apply (wf0_child _ W p v)|done|done|].
    exists (t :: pre), u, post, x. split; [by rewrite H1|]. split; [by eapply follow_cons_in|done].
  - injection H as <-. exists [], t, (t' :: ts), p. split; [done|]. split; [left|]. right. split; [done|]. split; [done|].
    split; [intros o' Ho'; congruence|]. rewrite (known_index _ _ _ _ Hp). rewrite Hd. by intros [? ?].
Qed.
Lemma tokens_total h ts : WF0 h -> forall p, exists_in h p -> ts <> [] ->
  (forall pre t post x, ts = pre ++ t :: post -> x ∈ follow h pre p ->
     (exists o, h !! x = Some o /\ is_conceptual (o_kind o) = true) /\ (post <> [] -> known h x t)) ->
  exists l, get_by_tokens h ts p = Ok l.
Proof.
  intros W p Hp Hne Hall. destruct (get_by_tokens h ts p) as [l|e] eqn:E; [by exists l|].
  destruct (tokens_exn h ts W p e Hp Hne E) as (pre & t & post & x & H1 & H2 & H3).
  destruct (Hall pre t post x H1 H2) as [(o & Ho & Hk) Hkn]. destruct H3 as [[_ H3]|(_ & H3 & _ & H4)].
  - specialize (H3 o Ho). congruence.
  - exfalso. apply H4. by apply Hkn.
Qed.
Lemma tokens_ok_inv h ts : WF0 h -> forall p l, get_by_tokens h ts p = Ok l ->
  forall pre t post x, ts = pre ++ t :: post -> x ∈ follow h pre p ->
     (exists o, h !! x = Some o /\ is_conceptual (o_kind o) = true) /\ (post <> [] -> known h x t).
Proof.
  intros W. induction ts as [|t0 ts IH]; intros p l H pre t post x Heq Hx; [by destruct pre|].
  destruct (h !! p) as [o|] eqn:Hp; [|cbn [get_by_tokens] in H; by rewrite Hp in H].
  destruct (is_conceptual (o_kind o)) eqn:Hk; [|cbn [get_by_tokens] in H; by rewrite Hp, Hk in H].
  destruct ts as [|t' ts].
  - destruct pre as [|? pre]; [|by destruct pre]. injection Heq as -> <-. cbn [follow] in Hx. apply elem_of_list_singleton in Hx as ->.
    split; [by eauto|done].
  - rewrite (get_by_tokens_cons h t0 t' ts p o Hp Hk) in H. destruct (dget t0 (o_index o)) as [d|] eqn:Hd; [|done].
    destruct pre as [|t1 pre].
    + injection Heq as -> <-. cbn [follow] in Hx. apply elem_of_list_singleton in Hx as ->. split; [by eauto|]. intros _.
      rewrite (known_index _ _ _ _ Hp). by eexists.
    + injection Heq as -> Heq. cbn [follow] in Hx. apply elem_of_flat_map in Hx as (c & Hc & Hx).
      rewrite (index_vals h p o t1 d W Hp Hd) in H. apply gather_ok in H as (rs & HF & _).
      apply elem_of_list_lookup in Hc as [i Hi]. destruct (Forall2_lookup_l _ _ _ _ _ HF Hi) as (r & _ & Hr).
      exact (IH c r Hr pre t post x Heq Hx).
Qed.

Lemma q_C14 s p nm : reach s -> exists_in (heap s) p ->
  let names := split_on slash nm in
  exists r, get_element_by_id_name p nm s = (r, s) /\
    match r with
    | Ok l => l = follow (heap s) names p
    | Exn e => exists pre t post x, names = pre ++ t :: post /\ x ∈ follow (heap s) pre p /\
        ((e = AttributeError /\ (forall o, heap s !! x = Some o -> is_conceptual (o_kind o) = false)) \/
         (e = KeyError /\ post <> [] /\ (forall o, heap s !! x = Some o -> is_conceptual (o_kind o) = true) /\ ~ known (heap s) x t))
    end /\
    ((exists l, r = Ok l) <-> forall pre t post x, names = pre ++ t :: post -> x ∈ follow (heap s) pre p ->
       (exists o, heap s !! x = Some o /\ is_conceptual (o_kind o) = true) /\ (post <> [] -> known (heap s) x t)).
Proof.
  intros R Hp names. pose proof (reach_wf s R) as W. pose proof (split_on_cons_ne slash nm) as Hne. fold names in Hne.
  exists (get_by_tokens (heap s) names p). split; [done|]. split.
  - destruct (get_by_tokens (heap s) names p) as [l|e] eqn:E; [by apply follow_ok|by apply tokens_exn].
  - split; [intros [l E]; by eapply tokens_ok_inv|by apply tokens_total].
Qed.

(** What is known. *)
Lemma q_C14_children_known s p c : reach s -> c ∈ children (heap s) p -> known (heap s) p (name_of (heap s) c).
Proof.
  intros R Hc. pose proof (reach_wf s R) as W. destruct (wf0_child _ W p c Hc) as [[oc Hoc] Hpar].
  rewrite (parent_of_lookup _ _ _ Hoc) in Hpar. destruct (wf_par _ W c oc p Hoc Hpar) as (op & Hop & _).
  destruct (wf0_lookup _ W c oc p op Hoc Hpar Hop) as (_ & d & Hd & _). rewrite (known_index _ _ _ _ Hop).
  unfold name_of. rewrite Hoc. simpl. rewrite Hd. by eexists.
Qed.
