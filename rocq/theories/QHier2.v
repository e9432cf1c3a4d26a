(** * Proofs of the hierarchy properties C06 - C13 *)
From stdpp Require Import relations.
From Verif Require Import Spec Hierarchy Elements Factory History PDict PPath PExec PBfs PWF PAdd PMono PStep PRemove PReach PPrim PHist QHier.
From Coq Require Import Sorting.Sorted.

(** ** C07: rejected additions, in any state *)
Lemma q_C07_self s p : exists_in (heap s) p -> add_element p p s = (Exn ErrorRecursiveHierarchy, s).
Proof.
  intros [o Ho]. unfold add_element. rewrite (bind_ok _ _ _ _ _ (deref_ok _ _ _ Ho)).
  assert (E : add_base p p s = (Exn ErrorRecursiveHierarchy, s)) by (unfold add_base; by rewrite decide_True).
  destruct (o_kind o); try exact E; by rewrite (bind_exn _ _ _ _ _ E).
Qed.
Lemma q_C07_dup s p c op oc x : heap s !! p = Some op -> heap s !! c = Some oc -> c <> p ->
  (o_uuid oc, x) ∈ o_subs op -> add_element p c s = (Exn ErrorDuplicateElement, s).
Proof.
  intros Hp Hc Hne Hin. unfold add_element. rewrite (bind_ok _ _ _ _ _ (deref_ok _ _ _ Hp)).
  assert (E : add_base p c s = (Exn ErrorDuplicateElement, s)).
  { unfold add_base. rewrite decide_False by done. rewrite (bind_ok _ _ _ _ _ (deref_ok _ _ _ Hc)).
    rewrite (bind_ok _ _ _ _ _ (deref_ok _ _ _ Hp)).
    destruct (dget (o_uuid oc) (o_subs op)) eqn:E; [done|]. apply dget_None in E. exfalso. apply E.
    apply elem_of_list_fmap. by exists (o_uuid oc, x). }
  destruct (o_kind op); try exact E; by rewrite (bind_exn _ _ _ _ _ E).
Qed.

(** ** C08: moving *)
Lemma added_fixed p c op oc b h l : fixed_part <$> (added p c op oc b h !! l) = fixed_part <$> (h !! l).
Proof. apply added_attr; done. Qed.
Lemma heq_fixed h h' : heq h h' -> same_fixed h h'.
Proof. intros H l. symmetry. by apply heq_attr. Qed.
Lemma added_children_p h p c op oc b : WF0 h -> c <> p -> h !! p = Some op -> o_parent oc <> Some p ->
  children (added p c op oc b h) p = children h p ++ [c].
Proof.
  intros W Hne Hp Hpar. unfold children. rewrite added_at_p by done. rewrite Hp. simpl. by rewrite map_app.
Qed.
Lemma ddel_filter h p op c oc : WF0 h -> h !! p = Some op -> h !! c = Some oc ->
  o_parent oc = Some p ->
  map snd (ddel (o_uuid oc) (o_subs op)) = filter (fun x => x <> c) (children h p).
Proof.
  intros W Hp Hc Hpar. unfold children. rewrite Hp.
  pose proof (wf_nd _ W p op Hp) as Hnd.
  assert (Hu : forall u x, (u, x) ∈ o_subs op -> (x = c <-> u = o_uuid oc)).
  { intros u x Hin. destruct (wf_sub _ W p op u x Hp Hin) as (ox & Hx & <- & _). split; [intros ->; congruence|].
    intros Heq. destruct (wf0_lookup _ W c oc p op Hc Hpar Hp) as [Hg _].
    rewrite (dget_in_nodup _ _ _ Hnd Hin) in Hg || rewrite <- Heq, (dget_in_nodup _ _ _ Hnd Hin) in Hg. congruence. }
  clear -Hnd Hu. revert Hnd Hu. induction (o_subs op) as [|[k v] d IH]; simpl; intros Hnd Hu; [done|].
  apply NoDup_cons in Hnd as [Hk Hnd]. rewrite filter_cons. case_decide as H1; case_decide as H2.
  - exfalso. apply H2. apply (Hu k v); [left|by symmetry].
  - subst k. symmetry. apply filter_all. intros x Hx Hxc. subst x. apply elem_of_list_fmap in Hx as [[u y] [Hy Hin]]. simpl in Hy. subst y.
    assert (Heq : u = o_uuid oc) by (apply (Hu u c); [by right|done]). subst u. apply Hk. apply elem_of_list_fmap.
    by exists (o_uuid oc, c).
  - simpl. f_equal. apply IH; [done|]. intros u x Hin. apply Hu. by right.
  - exfalso. assert (Hv : v = c) by (destruct (decide (v = c)); tauto). apply H1. symmetry. apply (Hu k v); [left|done].
Qed.
Lemma filter_not_child h q c : c ∉ children h q -> filter (fun x => x <> c) (children h q) = children h q.
Proof. intros H. apply filter_all. intros x Hx ->. done. Qed.
Lemma added_children_ne h p c op oc b q : WF0 h -> c <> p -> h !! p = Some op -> h !! c = Some oc -> q <> p ->
  children (added p c op oc b h) q = filter (fun x => x <> c) (children h q).
Proof.
  intros W Hne Hp Hc Hq. destruct (decide (o_parent oc = Some q)) as [Hpar|Hpar].
  - destruct (wf_par _ W c oc q Hc Hpar) as (oq & Hoq & _).
    assert (Hcq : c <> q) by (intros ->; by apply (wf0_not_self _ W q oc)).
    unfold children at 1. unfold added, attach_h, left_h. rewrite Hpar.
    rewrite !list_lookup_alter_ne by done. unfold detach_h. rewrite list_lookup_alter_ne by done.
    rewrite list_lookup_alter, Hoq. simpl. by apply (ddel_filter h q oq c oc).
  - rewrite filter_not_child.
    + destruct (decide (q = c)) as [->|Hqc].
      * unfold children. rewrite added_at_c by done. rewrite Hc. done.
      * unfold children. by rewrite added_other.
    + intros Hin. destruct (wf0_child _ W q c Hin) as [_ H]. by rewrite (parent_of_lookup _ _ _ Hc) in H.
Qed.

Lemma q_C08 s p c op oc : reach s -> heap s !! p = Some op -> heap s !! c = Some oc -> c <> p ->
  ~ ancestor (heap s) c p -> removable (heap s) c -> (forall x, x ∈ children (heap s) p -> uuid_of (heap s) x <> o_uuid oc) ->
  (o_kind op = KRel -> is_hyperelement (o_kind oc) = false) ->
  (o_kind op = KEdge -> o_kind oc = KRel -> o_ready op = true) ->
  exists s', add_element p c s = (Ok tt, s') /\
    parent_of (heap s') c = Some p /\
    children (heap s') p = children (heap s) p ++ [c] /\
    (forall q, q <> p -> children (heap s') q = filter (fun x => x <> c) (children (heap s) q)) /\
    (forall l, l <> c -> parent_of (heap s') l = parent_of (heap s) l) /\
    same_fixed (heap s) (heap s').
Proof.
  intros R Hp Hc Hne Ha Hrem Hu Hk1 Hk2. pose proof (reach_wf s R) as W.
  assert (Hg : dget (o_uuid oc) (o_subs op) = None).
  { apply dget_None. intros Hin. apply elem_of_list_fmap in Hin as [[u x] [Heq Hin]]. simpl in Heq. subst u.
    destruct (wf_sub _ W p op _ x Hp Hin) as (ox & Hx & Hux & _). apply (Hu x).
    - unfold children. rewrite Hp. apply elem_of_list_fmap. by exists (o_uuid oc, x).
    - unfold uuid_of. rewrite Hx. done. }
  assert (Hok : add_ok (heap s) p c) by (split; [by eexists|split; [by eexists|done]]).
  destruct (add_element_ok s p c op oc W Hok Hne Hp Hc Hg) as (T & s' & E & TT & HT).
  { intros [H1 H2]. rewrite Hk1 in H2; done. }
  { intros (H1 & H2 & H3). rewrite Hk2 in H3; done. }
  pose proof (touch_heq _ _ _ TT) as Hq. simpl in Hq.
  pose proof (not_child _ p c op oc W Hp Hc Hg) as Hnc.
  exists s'. split; [done|]. split.
  { rewrite (heq_parent _ _ c Hq). unfold parent_of. by rewrite added_at_c. }
  split. { rewrite (heq_children _ _ p Hq). by apply added_children_p. }
  split. { intros q Hqp. rewrite (heq_children _ _ q Hq). by apply added_children_ne. }
  split. { intros l Hl. rewrite (heq_parent _ _ l Hq). by apply added_parent_ne. }
  intros l. rewrite <- (heq_fixed _ _ Hq l). symmetry. apply added_fixed.
Qed.

(** ** C09: removing *)
Lemma uuid_unique h p c x : WF0 h -> c ∈ children h p -> x ∈ children h p -> uuid_of h c = uuid_of h x -> c = x.
Proof.
  intros W Hc Hx Heq. destruct (wf0_child _ W p c Hc) as [[oc Hoc] Hpc]. destruct (wf0_child _ W p x Hx) as [[ox Hox] Hpx].
  rewrite (parent_of_lookup _ _ _ Hoc) in Hpc. rewrite (parent_of_lookup _ _ _ Hox) in Hpx.
  destruct (wf_par _ W c oc p Hoc Hpc) as (op & Hop & _).
  destruct (wf0_lookup _ W c oc p op Hoc Hpc Hop) as [H1 _]. destruct (wf0_lookup _ W x ox p op Hox Hpx Hop) as [H2 _].
  unfold uuid_of in Heq. rewrite Hoc, Hox in Heq. simpl in Heq. rewrite Heq in H1. congruence.
Qed.
Lemma filter_singleton {A} (P : A -> Prop) `{!forall x, Decision (P x)} (l : list A) c : NoDup l -> c ∈ l -> P c ->
  (forall x, x ∈ l -> P x -> x = c) -> filter P l = [c].
Proof.
  induction l as [|a l IH]; intros Hnd Hin Hc Hu; [inversion Hin|]. apply NoDup_cons in Hnd as [Ha Hnd].
  rewrite filter_cons. destruct (decide (P a)) as [Hpa|Hpa].
  - assert (a = c) as -> by (apply Hu; [left|done]). f_equal. apply filter_none. intros x Hx Hpx.
    assert (x = c) as -> by (apply Hu; [by right|done]). done.
  - apply elem_of_cons in Hin as [->|Hin]; [done|]. apply IH; try done. intros x Hx. apply Hu. by right.
Qed.

(** All cases of an allowed remove_element at once. *)
Lemma remove_cases s p nm u : WF0 (heap s) -> allowed (heap s) (ORemove p nm u) ->
  let vs := filter (matches (heap s) nm u) (children (heap s) p) in
  (nm = "" /\ u = None /\ remove_all p nm u s = (Exn ErrorInvalidQuery, s)) \/
  ((match u with None => nm <> "" /\ ~ known (heap s) p nm | Some _ => vs = [] end) /\ remove_all p nm u s = (Exn KeyError, s)) \/
  ((match u with None => nm <> "" /\ known (heap s) p nm | Some _ => vs <> [] end) /\
   exists s', remove_all p nm u s = (Ok vs, s') /\
     touchw vs (set_heap (detach_all p vs (heap s)) s) s' /\
     WF0 (detach_all p vs (heap s)) /\
     children (detach_all p vs (heap s)) p = filter (fun x => x ∉ vs) (children (heap s) p) /\
     (forall v, v ∈ vs -> attr_of o_qname (heap s') v = Some (name_of (heap s) v)) /\
     (forall l, l ∉ vs -> attr_of o_qname (heap s') l = attr_of o_qname (heap s) l)).
Proof.
  intros W ([op Hp] & Hk1 & Hk2 & Hname) vs.
  assert (Hpl : plain op) by (unfold kind_of in *; rewrite Hp in *; simpl in *; split; congruence).
  assert (Hvin : forall v, v ∈ vs -> v ∈ children (heap s) p).
  { intros v Hv. unfold vs in Hv. apply elem_of_list_filter in Hv. tauto. }
  assert (Hnd : NoDup vs) by (apply NoDup_filter; by apply wf0_children_nd).
  destruct u as [u|].
  - right. destruct (dget u (o_subs op)) as [c|] eqn:Hg.
    + right. pose proof (dget_Some_in _ _ _ Hg) as Hin. destruct (wf_sub _ W p op u c Hp Hin) as (oc & Hc & <- & Hpar).
      assert (Hcc : c ∈ children (heap s) p) by (unfold children; rewrite Hp; apply elem_of_list_fmap; by exists (o_uuid oc, c)).
      assert (Hn : nm = "" \/ nm = o_name oc).
      { destruct (decide (nm = "")) as [->|Hn]; [by left|right].
        rewrite <- (Hname (o_uuid oc) Hn eq_refl c Hcc); unfold name_of, uuid_of; by rewrite Hc. }
      assert (Hvs : vs = [c]).
      { apply filter_singleton; [by apply wf0_children_nd|done| |].
        - split; [|unfold uuid_of; by rewrite Hc]. destruct Hn as [->| ->]; [by left|right]. unfold name_of. by rewrite Hc.
        - intros x Hx [_ Hxu]. apply (uuid_unique (heap s) p x c W Hx Hcc). rewrite Hxu. unfold uuid_of. by rewrite Hc. }
      split; [by rewrite Hvs|].
      destruct (remove_uuid_all s p c op oc nm W Hp Hpl Hc Hpar Hn) as (s' & E & T).
      assert (Hda : detach_all p [c] (heap s) = detach_h p c oc (heap s)) by (simpl; by rewrite Hc).
      assert (Hne : c <> p) by (intros ->; by apply (wf0_not_self _ W p oc)).
      assert (Hc0 : detach_h p c oc (heap s) !! c = Some (s_parent None oc)).
      { unfold detach_h. rewrite list_lookup_alter, list_lookup_alter_ne by done. by rewrite Hc. }
      destruct (detach_all_wf p vs (heap s) W Hnd) as [W' Hc']; [exists op; split; [done|apply Hpl]|done|].
      exists s'. split; [by rewrite Hvs|]. split; [|split; [done|split; [done|split]]].
      * rewrite Hvs, Hda. by apply touch_touchw.
      * intros v Hv. rewrite Hvs in Hv. apply elem_of_list_singleton in Hv as ->.
        destruct (t_obj _ _ _ T c _ Hc0) as (q & t & H1 & _ & H3). destruct H3 as [H3 _]; [left|].
        unfold attr_of, name_of. rewrite H1, Hc. simpl. f_equal. eapply full_name_det; [exact H3|]. simpl.
        exists [c]. split; [apply path_root; [by eexists|by rewrite (parent_of_lookup _ _ _ Hc0)]|].
        simpl. unfold name_of. by rewrite Hc0.
      * intros l Hl. rewrite Hvs in Hl. destruct (heap s !! l) as [ol|] eqn:El.
        -- assert (Hx : exists o1, detach_h p c oc (heap s) !! l = Some o1 /\ o_qname o1 = o_qname ol).
           { unfold detach_h. erewrite lookup_alter_fwd; [|by apply lookup_alter_fwd]. eexists. split; [done|]. by repeat case_decide. }
           destruct Hx as (o1 & Ho1 & Hq1). destruct (t_obj _ _ _ T l o1 Ho1) as (q & t & H1 & H2 & _).
           destruct (H2 Hl) as [-> _]. unfold attr_of. rewrite H1, El. simpl. by rewrite Hq1.
        -- unfold attr_of. rewrite El. apply lookup_ge_None in El.
           assert (heap s' !! l = None) as ->; [|done]. apply lookup_ge_None. rewrite (t_len _ _ _ T). simpl.
           unfold detach_h. by rewrite !alter_length.
    + left. split.
      { apply filter_none. intros x Hx [_ Hxu]. apply dget_None in Hg. apply Hg.
        unfold children in Hx. rewrite Hp in Hx. apply elem_of_list_fmap in Hx as [[u' y] [-> Hin]]. simpl in *.
        destruct (wf_sub _ W p op u' y Hp Hin) as (oy & Hy & Huy & _). unfold uuid_of in Hxu. rewrite Hy in Hxu. simpl in Hxu.
        apply elem_of_list_fmap. exists (u', y). split; [by rewrite <- Hxu, Huy|done]. }
      unfold remove_all. assert (E2 : gen_next (GNew p nm (Some u)) s = (Exn KeyError, s)).
      { rewrite (gen_next_plain _ _ _ _ _ Hp Hpl). cbn [base_next].
        assert (E3 : forall n, remove_uuid p n u s = (Exn KeyError, s)).
        { intros n. unfold remove_uuid. rewrite (bind_ok _ _ _ _ _ (deref_ok _ _ _ Hp)). rewrite Hg. reflexivity. }
        destruct (decide (nm = "")); rewrite (bind_exn _ _ _ _ _ (E3 _)); reflexivity. }
      by rewrite (bind_exn _ _ _ _ _ E2).
  - destruct (decide (nm = "")) as [->|Hn].
    { left. split; [done|]. split; [done|].
      unfold remove_all. assert (E2 : gen_next (GNew p "" None) s = (Exn ErrorInvalidQuery, s)).
      { rewrite (gen_next_plain _ _ _ _ _ Hp Hpl). done. }
      by rewrite (bind_exn _ _ _ _ _ E2). }
    right. unfold known. rewrite Hp. destruct (dget nm (o_index op)) as [d|] eqn:Hd.
    + right. split; [by eauto|].
      assert (Hvs : vs = filter (fun c => name_of (heap s) c = nm) (children (heap s) p)).
      { apply filter_ext_in. intros x _. unfold matches. tauto. }
      destruct (remove_name_ok s p nm op d W Hp Hpl Hn Hd) as (s' & E & T & W' & H1 & H2). rewrite <- Hvs in *.
      destruct (detach_all_wf p vs (heap s) W Hnd) as [_ Hc']; [exists op; split; [done|apply Hpl]|done|].
      exists s'. split; [done|]. split; [done|]. split; [done|]. split; [done|]. split; [|done].
      intros v Hv. rewrite H1 by done. f_equal. rewrite Hvs in Hv. apply elem_of_list_filter in Hv. symmetry. tauto.
    + left. split; [split; [done|]; by intros [? ?]|].
      unfold remove_all. assert (E2 : gen_next (GNew p nm None) s = (Exn KeyError, s)).
      { rewrite (gen_next_plain _ _ _ _ _ Hp Hpl). cbn [base_next]. rewrite decide_False by done.
        rewrite (bind_ok _ _ _ _ _ (deref_ok _ _ _ Hp)). by rewrite Hd. }
      by rewrite (bind_exn _ _ _ _ _ E2).
Qed.

Lemma detach_all_children_ne p vs h q : q <> p -> children (detach_all p vs h) q = children h q.
Proof.
  revert h. induction vs as [|v vs IH]; intros h Hq; [done|]. simpl. rewrite IH by done. destruct (h !! v) as [ov|] eqn:E; [|done].
  unfold children, detach_h. destruct (decide (v = q)) as [->|].
  - rewrite list_lookup_alter, list_lookup_alter_ne by done. by rewrite E.
  - by rewrite !list_lookup_alter_ne by done.
Qed.
Lemma detach_all_parent_in p vs : forall h v, (forall x, x ∈ vs -> exists_in h x /\ x <> p) -> v ∈ vs -> parent_of (detach_all p vs h) v = None.
Proof.
  induction vs as [|x vs IH]; intros h v Hex Hv; [inversion Hv|]. simpl.
  destruct (Hex x ltac:(left)) as [[ox Hox] Hxp]. rewrite Hox.
  assert (Hx : parent_of (detach_h p x ox h) x = None).
  { unfold parent_of, detach_h. rewrite list_lookup_alter, list_lookup_alter_ne by done. by rewrite Hox. }
  destruct (decide (v ∈ vs)) as [Hin|Hnin].
  - apply IH; [|done]. intros y Hy. destruct (Hex y ltac:(by right)) as [H1 H2]. split; [|done].
    rewrite exists_in_lt in *. unfold detach_h. by rewrite !alter_length.
  - apply elem_of_cons in Hv as [->|Hv]; [|done]. by rewrite detach_all_parent_ne.
Qed.

Lemma q_C09 s p nm u vs : reach s -> allowed (heap s) (ORemove p nm u) ->
  vs = filter (matches (heap s) nm u) (children (heap s) p) -> vs <> [] -> ~ (nm = "" /\ u = None) ->
  exists s', remove_all p nm u s = (Ok vs, s') /\
    (forall c, c ∈ vs -> parent_of (heap s') c = None /\ attr_of o_qname (heap s') c = attr_of o_name (heap s') c) /\
    children (heap s') p = filter (fun c => c ∉ vs) (children (heap s) p) /\
    (forall q, q <> p -> children (heap s') q = children (heap s) q) /\
    (forall l, l ∉ vs -> parent_of (heap s') l = parent_of (heap s) l) /\
    same_fixed (heap s) (heap s').
Proof.
  intros R Ha -> Hne Hnn. pose proof (reach_wf s R) as W. set (vs := filter _ _) in *.
  destruct (remove_cases s p nm u W Ha) as [(H1 & H2 & _)|[[H1 _]|(H1 & s' & E & T & W' & Hc & Hq1 & Hq2)]].
  - tauto.
  - exfalso. destruct u as [u|]; [done|]. destruct H1 as [H1 H2]. apply H2.
    assert (Hx : exists x, x ∈ vs) by (destruct vs as [|x l]; [done|exists x; left]). destruct Hx as [x Hx].
    unfold vs in Hx. apply elem_of_list_filter in Hx as [[[->|Hm] _] Hx]; [done|].
    destruct (wf0_child _ W p x Hx) as [[ox Hox] Hpar]. rewrite (parent_of_lookup _ _ _ Hox) in Hpar.
    destruct (wf_par _ W x ox p Hox Hpar) as (op & Hop & _).
    destruct (wf0_lookup _ W x ox p op Hox Hpar Hop) as (_ & d & Hd & _). unfold known. rewrite Hop.
    unfold name_of in Hm. rewrite Hox in Hm. simpl in Hm. rewrite <- Hm. by exists d.
  - fold vs in E, T, W', Hc, Hq1, Hq2. pose proof (touchw_heq _ _ _ T) as Hq. simpl in Hq.
    assert (Hvin : forall v, v ∈ vs -> exists_in (heap s) v /\ v <> p).
    { intros v Hv. unfold vs in Hv. apply elem_of_list_filter in Hv as [_ Hv]. destruct (wf0_child _ W p v Hv) as [Hex Hpar].
      split; [done|]. intros ->. destruct Hex as [o Ho]. rewrite (parent_of_lookup _ _ _ Ho) in Hpar. by apply (wf0_not_self _ W p o). }
    exists s'. split; [done|]. split.
    { intros c Hc'. split.
      - rewrite (heq_parent _ _ c Hq). by apply detach_all_parent_in.
      - rewrite Hq1 by done. unfold attr_of. rewrite (heq_attr o_name _ _ c (fun _ => eq_refl) Hq).
        rewrite (detach_all_attr o_name) by done. destruct (Hvin c Hc') as [[oc Hoc] _]. unfold name_of. by rewrite Hoc. }
    split; [by rewrite (heq_children _ _ p Hq)|].
    split; [intros q Hqp; rewrite (heq_children _ _ q Hq); by apply detach_all_children_ne|].
    split; [intros l Hl; rewrite (heq_parent _ _ l Hq); by apply detach_all_parent_ne|].
    intros l. rewrite <- (heq_fixed _ _ Hq l). symmetry. by apply detach_all_attr.
Qed.
Lemma q_C09_nothing s p nm u : reach s -> allowed (heap s) (ORemove p nm u) ->
  (forall c, c ∈ children (heap s) p -> ~ matches (heap s) nm u c) ->
  nm <> "" \/ u <> None ->
  (remove_all p nm u s = (Exn KeyError, s) /\ (u = None -> ~ known (heap s) p nm)) \/
  (exists s', remove_all p nm u s = (Ok [], s') /\ heap s' = heap s /\ u = None /\ known (heap s) p nm).
Proof.
  intros R Ha Hno Hne. pose proof (reach_wf s R) as W.
  assert (Hvs : filter (matches (heap s) nm u) (children (heap s) p) = []) by (apply filter_none; done).
  destruct (remove_cases s p nm u W Ha) as [(-> & -> & _)|[[H1 E]|(H1 & s' & E & T & W' & Hc & Hq1 & Hq2)]].
  - naive_solver.
  - left. split; [done|]. intros ->. tauto.
  - right. rewrite Hvs in *. exists s'. split; [done|]. split; [|destruct u; tauto].
    apply list_eq. intros i. destruct (heap s !! i) as [o|] eqn:Eo.
    + destruct (w_obj _ _ _ T i o Eo) as (q & t & H2 & H3 & _). rewrite H2. destruct H3 as [-> ->]; [set_solver|]. by rewrite set_same.
    + apply lookup_ge_None. rewrite (w_len _ _ _ T). simpl. by apply lookup_ge_None.
Qed.
Lemma q_C09_invalid s p op : heap s !! p = Some op -> o_kind op <> KEdge -> o_kind op <> KRel ->
  remove_all p "" None s = (Exn ErrorInvalidQuery, s).
Proof.
  intros Hp H1 H2. unfold remove_all. assert (E2 : gen_next (GNew p "" None) s = (Exn ErrorInvalidQuery, s)).
  { rewrite (gen_next_plain _ _ op _ _ Hp); [done|]. split; done. }
  by rewrite (bind_exn _ _ _ _ _ E2).
Qed.

(** ** C06: stale qualified names *)
Fixpoint slen (l : list string) : nat := match l with [] => 0 | x :: l' => String.length x + slen l' end.
Lemma app_length_str (x y : string) : String.length (x +:+ y) = String.length x + String.length y.
Proof. induction x as [|a x IH]; [done|]. simpl. f_equal. exact IH. Qed.
Lemma join_length l : l <> [] -> String.length (join "/" l) = slen l + (length l - 1).
Proof.
  induction l as [|x l IH]; intros H; [done|]. destruct l as [|y l]; [simpl; lia|].
  change (join "/" (x :: y :: l)) with (x +:+ "/" +:+ join "/" (y :: l)). rewrite !app_length_str, IH by done. simpl. lia.
Qed.
Lemma slen_app l l' : slen (l ++ l') = slen l + slen l'.
Proof. induction l as [|x l IH]; simpl; [done|]. rewrite IH. lia. Qed.

Lemma q_C06 s p nm u vs s' c d q : reach s -> allowed (heap s) (ORemove p nm u) ->
  remove_all p nm u s = (Ok vs, s') -> c ∈ vs -> ancestor (heap s) c d ->
  attr_of o_qname (heap s) d = Some q -> full_name (heap s) d q ->
  attr_of o_qname (heap s') d = Some q /\ ~ full_name (heap s') d q.
Proof.
  intros R Ha E Hc Hanc Hq Hfull. pose proof (reach_wf s R) as W.
  destruct (remove_cases s p nm u W Ha) as [(_ & _ & E1)|[[_ E1]|(_ & s1 & E1 & T & W' & Hch & Hq1 & Hq2)]]; rewrite E1 in E; try done.
  injection E as <- ->. set (vs := filter _ _) in *. pose proof (touchw_heq _ _ _ T) as Hh. simpl in Hh.
  assert (Hvp : forall v, v ∈ vs -> v ∈ children (heap s) p) by (intros v Hv; unfold vs in Hv; apply elem_of_list_filter in Hv; tauto).
  destruct Hfull as (ls & Hp & Hqe).
  (* no other removed element between d and c *)
  assert (Hone : forall v, v ∈ vs -> within (heap s) v d -> v = c).
  { intros v Hv Hw. destruct (decide (v = c)) as [|Hne]; [done|]. exfalso.
    assert (Hin1 : v ∈ ls) by (by apply (path_within _ _ _ _ Hp)).
    assert (Hin2 : c ∈ ls) by (apply (path_within _ _ _ _ Hp); by right).
    destruct (wf0_child _ W p v (Hvp v Hv)) as [Hev Hpv]. destruct (wf0_child _ W p c (Hvp c Hc)) as [Hec Hpc].
    destruct (path_in _ _ _ _ Hp Hin1) as (lv & Hlv & [a Ha1]). destruct (path_in _ _ _ _ Hp Hin2) as (lc & Hlc & [b Hb1]).
    inversion Hlv as [? ? Hr|? ? lv' ? Hr Hlv']; [congruence|]. inversion Hlc as [? ? Hr2|? ? lc' ? Hr2 Hlc']; [congruence|]. subst.
    assert (Some q0 = Some q1) by congruence. assert (q0 = q1) as -> by congruence.
    pose proof (path_det _ _ _ _ Hlv' Hlc') as ->.
    assert (Hll : length (a ++ v :: lc') = length (b ++ c :: lc')) by (by rewrite Hb1).
    rewrite !app_length in Hll. simpl in Hll.
    apply app_inj_1 in Hb1 as [_ Hb2]; [|lia]. congruence. }
  assert (Hdn : d ∉ vs).
  { intros Hd. assert (d = c) as -> by (apply Hone; [done|by left]).
    destruct (wf_acy _ W c) as [lc Hlc]; [by eapply path_exists|]. apply (path_ancestor _ _ _ _ Hlc) in Hanc.
    pose proof (path_nodup _ _ _ Hlc) as Hnd. destruct (path_cons _ _ _ Hlc) as [l' ->]. apply NoDup_cons in Hnd as [Hnd _]. done. }
  split; [by rewrite Hq2|]. intros Hf.
  (* the new path stops at c *)
  assert (Hin : c ∈ ls) by (apply (path_within _ _ _ _ Hp); by right).
  destruct (wf0_child _ W p c (Hvp c Hc)) as [Hec Hpc].
  assert (Hne : c <> p).
  { intros ->. destruct Hec as [o Ho]. rewrite (parent_of_lookup _ _ _ Ho) in Hpc. by apply (wf0_not_self _ W p o). }
  assert (Hpath : forall x l, path (heap s) x l -> c ∈ l -> (forall y, y ∈ l -> y ∈ ls) -> exists pre post, l = pre ++ c :: post /\ post <> [] /\ path (heap s') x (pre ++ [c])).
  { intros x l Hx. induction Hx as [x He Hr|x y l He Hr Hx IH]; intros Hcl Hsub.
    - apply elem_of_list_singleton in Hcl as ->. congruence.
    - assert (Hex' : exists_in (heap s') x).
      { apply (heq_exists _ _ x Hh). rewrite exists_in_lt, detach_all_length. by apply exists_in_lt. }
      destruct (decide (x = c)) as [->|Hxc].
      + exists [], l. split; [done|]. split; [by destruct (path_cons _ _ _ Hx) as [? ->]|]. apply path_root; [done|].
        rewrite (heq_parent _ _ c Hh). apply detach_all_parent_in; [|done]. intros v Hv.
        destruct (wf0_child _ W p v (Hvp v Hv)) as [Hev Hpv]. split; [done|]. intros ->.
        destruct Hev as [o Ho]. rewrite (parent_of_lookup _ _ _ Ho) in Hpv. by apply (wf0_not_self _ W p o).
      + apply elem_of_cons in Hcl as [->|Hcl]; [done|]. destruct (IH Hcl) as (pre & post & -> & Hpo & Hpa).
        { intros z Hz. apply Hsub. by right. }
        exists (x :: pre), post. split; [done|]. split; [done|]. eapply path_step; [done| |exact Hpa].
        rewrite (heq_parent _ _ x Hh). rewrite detach_all_parent_ne; [done|]. intros Hxv.
        apply Hxc. apply Hone; [done|]. apply (path_within _ _ _ _ Hp). apply Hsub. left. }
  destruct (Hpath d ls Hp Hin ltac:(done)) as (pre & post & -> & Hpo & Hpa).
  assert (Hnm : forall x, name_of (heap s') x = name_of (heap s) x).
  { intros x. rewrite (heq_name _ _ x Hh). unfold name_of. by rewrite (detach_all_attr o_name). }
  assert (Hf2 : full_name (heap s') d (join "/" (rev (map (name_of (heap s)) (pre ++ [c]))))).
  { exists (pre ++ [c]). split; [done|]. f_equal. f_equal. apply map_ext. intros x. symmetry. apply Hnm. }
  pose proof (full_name_det _ _ _ _ Hf Hf2) as Heq. rewrite Hqe in Heq.
  apply (f_equal String.length) in Heq. rewrite !join_length in Heq.
  2: { intros H. apply (f_equal (@length _)) in H. rewrite rev_length, map_length, app_length in H. simpl in H. lia. }
  2: { intros H. apply (f_equal (@length _)) in H. rewrite rev_length, map_length, app_length in H. simpl in H. lia. }
  rewrite !rev_length, !map_length, !app_length in Heq.
  replace (pre ++ c :: post) with ((pre ++ [c]) ++ post) in Heq by (by rewrite <- app_assoc).
  rewrite (map_app _ (pre ++ [c]) post), rev_app_distr, slen_app in Heq. simpl in Heq.
  destruct post as [|z post]; [done|]. simpl in Heq. lia.
Qed.
