(** * The invariant of the hierarchy and the pure heap transformations *)
From Verif Require Import Spec Hierarchy PDict PPath PExec PBfs.
From Coq Require Import Sorting.Sorted.

Definition cid_of (h : list obj) (l : loc) : nat := default 0 (o_cid <$> h !! l).
Definition is_rel (h : list obj) (l : loc) : Prop := kind_of h l = Some KRel.
Global Instance is_rel_dec h l : Decision (is_rel h l).
Proof. unfold is_rel. apply _. Defined.

(** The attributes the invariant talks about. *)
Definition core (o : obj) : obj :=
  mkObj (o_kind o) (o_uuid o) (o_name o) "" "" (o_parent o) 0 (o_cid o) (o_cnt o)
        (o_hist o) (o_subs o) (o_index o) ((fun _ => 0) <$> o_clock o) 0%Z (o_ready o) []
        (o_rels o) (o_endpoint o) BIDIRECTIONAL WNone None [] 0 [].
Definition ceq (h h' : list obj) : Prop := core <$> h = core <$> h'.
Global Instance ceq_equiv : Equivalence ceq.
Proof. unfold ceq. split; [done|intros x y H; by symmetry|intros x y z H1 H2; congruence]. Qed.

Record WF0 (h : list obj) : Prop := {
  wf_nd : forall p o, h !! p = Some o -> NoDup (dkeys (o_subs o));
  wf_sub : forall p o u c, h !! p = Some o -> (u, c) ∈ o_subs o ->
    exists oc, h !! c = Some oc /\ o_uuid oc = u /\ o_parent oc = Some p;
  wf_par : forall c oc p, h !! c = Some oc -> o_parent oc = Some p ->
    exists op, h !! p = Some op /\ (o_uuid oc, c) ∈ o_subs op;
  wf_index : forall p o n, h !! p = Some o ->
    default [] (dget n (o_index o)) = filter (fun x => name_of h x.2 = n) (o_subs o);
  wf_cnt : forall p o, h !! p = Some o -> o_cnt o = Z.of_nat (length (o_subs o));
  wf_cid : forall p o, h !! p = Some o ->
    StronglySorted lt (map (cid_of h) (dvals (o_subs o)) ++ [o_hist o]);
  wf_rels : forall p o, h !! p = Some o -> o_kind o = KEdge -> o_ready o = true ->
    o_rels o = map (fun c => (cid_of h c, c)) (filter (is_rel h) (dvals (o_subs o)));
  wf_acy : forall l, exists_in h l -> exists ls, path h l ls;
  wf_clk : forall l, clocked h l;
  wf_ep : forall r o e, h !! r = Some o -> o_endpoint o = Some e -> exists_in h e;
  wf_hasep : forall r o, h !! r = Some o -> o_kind o = KRel -> o_endpoint o <> None
}.

(** ** Heap transformations *)

(** What p.add_element(c) does to p and c, once c is in no container. *)
Definition att_p (c : loc) (oc : obj) (b : bool) (o : obj) : obj :=
  s_rels (if b then o_rels o ++ [(o_hist o, c)] else o_rels o)
  (s_hist (o_hist o + 1) (s_cnt (o_cnt o + 1)%Z
  (s_index (dset (o_name oc) (default [] (dget (o_name oc) (o_index o)) ++ [(o_uuid oc, c)]) (o_index o))
  (s_subs (o_subs o ++ [(o_uuid oc, c)]) o)))).
Definition att_c (p : loc) (op : obj) (o : obj) : obj :=
  s_depth (o_depth op + 1) (s_parent (Some p) (s_cid (o_hist op) o)).
Definition attach_h (p c : loc) (op oc : obj) (b : bool) (h : list obj) : list obj :=
  alter (att_c p op) c (alter (att_p c oc b) p h).

(** What a removal of c does to p and c. *)
Definition det_p (oc : obj) (o : obj) : obj :=
  s_cnt (o_cnt o - 1)%Z
  (s_index (dset (o_name oc) (ddel (o_uuid oc) (default [] (dget (o_name oc) (o_index o)))) (o_index o))
  (s_subs (ddel (o_uuid oc) (o_subs o)) o)).
Definition detach_h (p c : loc) (oc : obj) (h : list obj) : list obj :=
  alter (s_parent None) c (alter (det_p oc) p h).

(** ** Consequences of the invariant *)
Section wf0.
  Context (h : list obj) (W : WF0 h).

  Lemma wf0_child p c : c ∈ children h p -> exists_in h c /\ parent_of h c = Some p.
  Proof.
    unfold children. destruct (h !! p) as [o|] eqn:E; [|intros H; inversion H].
    intros Hin. apply elem_of_list_fmap in Hin as [[u c'] [-> Hin]]. simpl.
    destruct (wf_sub _ W p o u c' E Hin) as (oc & H1 & H2 & H3). split; [by exists oc|].
    by rewrite (parent_of_lookup _ _ _ H1).
  Qed.
  Lemma wf0_parent p c : exists_in h c -> parent_of h c = Some p -> c ∈ children h p.
  Proof.
    intros [oc Hc] Hp. rewrite (parent_of_lookup _ _ _ Hc) in Hp.
    destruct (wf_par _ W c oc p Hc Hp) as (op & H1 & H2). unfold children. rewrite H1.
    apply elem_of_list_fmap. by exists (o_uuid oc, c).
  Qed.
  Lemma wf0_children_nd p : NoDup (children h p).
  Proof.
    unfold children. destruct (h !! p) as [o|] eqn:E; [|constructor].
    apply dkeys_vals_nodup with (g := uuid_of h); [by apply (wf_nd _ W p)|].
    intros u c Hin. destruct (wf_sub _ W p o u c E Hin) as (oc & H1 & H2 & H3).
    unfold uuid_of. by rewrite H1.
  Qed.
  Lemma wf0_forest : forest_ok h.
  Proof.
    split.
    - apply wf0_child.
    - apply wf0_parent.
    - apply wf0_children_nd.
    - apply (wf_acy _ W).
    - apply (wf_clk _ W).
  Qed.
  Lemma wf0_not_self p o : h !! p = Some o -> o_parent o <> Some p.
  Proof.
    intros Hp Hpar. destruct (wf_acy _ W p) as [ls H]; [by exists o|].
    pose proof (path_nodup _ _ _ H) as Hnd. destruct H as [l He Hn|l q ls He Hn Hq].
    - rewrite (parent_of_lookup _ _ _ Hp) in Hn. congruence.
    - rewrite (parent_of_lookup _ _ _ Hp) in Hn. assert (q = l) as -> by congruence.
      destruct (path_cons _ _ _ Hq) as [ls' ->]. apply NoDup_cons in Hnd as [Hnd _]. apply Hnd. left.
  Qed.
  (** The place of a child in the dictionaries of its parent. *)
  Lemma wf0_lookup c oc p op : h !! c = Some oc -> o_parent oc = Some p -> h !! p = Some op ->
    dget (o_uuid oc) (o_subs op) = Some c /\
    exists d, dget (o_name oc) (o_index op) = Some d /\ dget (o_uuid oc) d = Some c.
  Proof.
    intros Hc Hpar Hp. destruct (wf_par _ W c oc p Hc Hpar) as (op' & Hp' & Hin).
    assert (op' = op) as -> by congruence. split.
    - apply dget_in_nodup; [by apply (wf_nd _ W p)|done].
    - pose proof (wf_index _ W p op (o_name oc) Hp) as Hi.
      assert (Hin2 : (o_uuid oc, c) ∈ filter (fun x => name_of h x.2 = o_name oc) (o_subs op)).
      { apply elem_of_list_filter. split; [|done]. simpl. unfold name_of. by rewrite Hc. }
      rewrite <- Hi in Hin2. destruct (dget (o_name oc) (o_index op)) as [d|]; simpl in *; [|inversion Hin2].
      exists d. split; [done|]. apply dget_in_nodup; [|done]. rewrite Hi. unfold dkeys.
      pose proof (wf_nd _ W p op Hp) as Hnd. clear -Hnd. unfold dkeys in Hnd.
      induction (o_subs op) as [|x l IH]; [constructor|]. simpl in Hnd. apply NoDup_cons in Hnd as [H1 H2].
      rewrite filter_cons. destruct (decide _); [|by apply IH]. simpl. apply NoDup_cons.
      split; [|by apply IH]. intros Hx. apply H1. apply elem_of_list_fmap in Hx as [y [Hy1 Hy2]].
      apply elem_of_list_filter in Hy2 as [_ Hy2]. apply elem_of_list_fmap. by exists y.
  Qed.
End wf0.

(** ** Adding *)
Section attach.
  Context (h : list obj) (W : WF0 h) (p c : loc) (op oc : obj) (b : bool).
  Hypothesis Hne : c <> p.
  Hypothesis Hp : h !! p = Some op.
  Hypothesis Hc : h !! c = Some oc.
  Hypothesis Hroot : o_parent oc = None.
  Hypothesis Hnew : dget (o_uuid oc) (o_subs op) = None.
  Hypothesis Hacyc : ~ within h c p.
  Hypothesis Hb : o_kind op = KEdge -> o_ready op = true -> b = bool_decide (o_kind oc = KRel).

  Local Notation h' := (attach_h p c op oc b h).

  Lemma attach_at_p : h' !! p = Some (att_p c oc b op).
  Proof. unfold attach_h. rewrite list_lookup_alter_ne by done. by rewrite list_lookup_alter, Hp. Qed.
  Lemma attach_at_c : h' !! c = Some (att_c p op oc).
  Proof. unfold attach_h. rewrite list_lookup_alter, list_lookup_alter_ne by done. by rewrite Hc. Qed.
  Lemma attach_other l : l <> p -> l <> c -> h' !! l = h !! l.
  Proof. intros. unfold attach_h. by rewrite !list_lookup_alter_ne by done. Qed.

  Ltac cases l := destruct (decide (l = p)) as [->|?];
    [rewrite attach_at_p in *|destruct (decide (l = c)) as [->|?];
      [rewrite attach_at_c in *|rewrite attach_other in * by done]].

  Lemma attach_name l : name_of h' l = name_of h l.
  Proof. unfold name_of. cases l; rewrite ?Hp, ?Hc; done. Qed.
  Lemma attach_kind l : kind_of h' l = kind_of h l.
  Proof. unfold kind_of. cases l; rewrite ?Hp, ?Hc; done. Qed.
  Lemma attach_exists l : exists_in h' l <-> exists_in h l.
  Proof. unfold exists_in. cases l; rewrite ?Hp, ?Hc; [split; intros _; eauto|split; intros _; eauto|done]. Qed.
  Lemma attach_parent_c : parent_of h' c = Some p.
  Proof. unfold parent_of. rewrite attach_at_c. done. Qed.
  Lemma attach_parent_ne l : l <> c -> parent_of h' l = parent_of h l.
  Proof. intros. unfold parent_of. cases l; rewrite ?Hp; done. Qed.
  Lemma attach_cid_ne l : l <> c -> cid_of h' l = cid_of h l.
  Proof. intros. unfold cid_of. cases l; rewrite ?Hp; done. Qed.
  Lemma attach_cid_c : cid_of h' c = o_hist op.
  Proof. unfold cid_of. by rewrite attach_at_c. Qed.
  Lemma attach_is_rel l : is_rel h' l <-> is_rel h l.
  Proof. unfold is_rel. by rewrite attach_kind. Qed.

  Lemma attach_old_child l o u x : h !! l = Some o -> (u, x) ∈ o_subs o -> x <> c.
  Proof.
    intros Hl Hin ->. destruct (wf_sub _ W l o u c Hl Hin) as (oc' & H1 & H2 & H3). congruence.
  Qed.
  Lemma attach_old_val l o x : h !! l = Some o -> x ∈ dvals (o_subs o) -> x <> c.
  Proof.
    intros Hl Hin. apply elem_of_list_fmap in Hin as [[u x'] [-> Hin]]. by eapply attach_old_child.
  Qed.

  Lemma attach_path_p : exists ls, path h' p ls.
  Proof.
    destruct (wf_acy _ W p) as [ls H]; [by exists op|]. exists ls. apply path_ext with h; [done|].
    intros x Hx. split; [apply attach_exists; by eapply path_in_exists|].
    apply attach_parent_ne. intros ->. apply Hacyc. by apply (path_within _ _ _ c H).
  Qed.

  Lemma attach_path l ls : path h l ls -> exists ls', path h' l ls'.
  Proof.
    induction 1 as [l He Hn|l q ls He Hn Hq [ls' IH]].
    - destruct (decide (l = c)) as [->|].
      + destruct attach_path_p as [ls H]. exists (c :: ls).
        apply path_step with p; [by apply attach_exists|apply attach_parent_c|done].
      + exists [l]. apply path_root; [by apply attach_exists|by rewrite attach_parent_ne].
    - assert (l <> c). { intros ->. rewrite (parent_of_lookup _ _ _ Hc) in Hn. congruence. }
      exists (l :: ls'). apply path_step with q; [by apply attach_exists|by rewrite attach_parent_ne|done].
  Qed.

  Lemma attach_wf0 : WF0 h'.
  Proof.
    split.
    - intros l o Hl. cases l; [|injection Hl as <-; exact (wf_nd _ W c oc Hc)|by apply (wf_nd _ W l)].
      injection Hl as <-. simpl. unfold dkeys. rewrite map_app. simpl. apply NoDup_app.
      split; [by apply (wf_nd _ W p)|]. split; [|apply NoDup_singleton].
      intros x Hx ->%elem_of_list_singleton. apply dget_None in Hnew. done.
    - intros l o u x Hl Hin.
      assert (Hold : forall o0, h !! l = Some o0 -> (u, x) ∈ o_subs o0 ->
        exists ox, h' !! x = Some ox /\ o_uuid ox = u /\ o_parent ox = Some l).
      { intros o0 Hl0 Hin0. pose proof (attach_old_child l o0 u x Hl0 Hin0).
        destruct (wf_sub _ W l o0 u x Hl0 Hin0) as (ox & H1 & H2 & H3).
        clear Hl Hin. cases x; [|done|by exists ox].
        exists (att_p c oc b op). assert (ox = op) as -> by congruence. done. }
      cases l.
      + injection Hl as <-. simpl in Hin. apply elem_of_app in Hin as [Hin|Hin]; [by eapply Hold|].
        apply elem_of_list_singleton in Hin as [= -> ->]. exists (att_c p op oc). by rewrite attach_at_c.
      + injection Hl as <-. by apply (Hold oc).
      + by apply (Hold o).
    - intros x ox q Hx Hpar.
      assert (Hup : forall op0 u y, h !! q = Some op0 -> (u, y) ∈ o_subs op0 ->
        exists op', h' !! q = Some op' /\ (u, y) ∈ o_subs op').
      { intros op0 u y Hq Hin. clear Hx Hpar. cases q.
        - assert (op0 = op) as -> by congruence. eexists. split; [done|]. simpl. apply elem_of_app. by left.
        - assert (op0 = oc) as -> by congruence. by eexists.
        - by exists op0. }
      cases x.
      + injection Hx as <-. simpl in *. destruct (wf_par _ W p op q Hp Hpar) as (oq & H1 & H2). by eapply Hup.
      + injection Hx as <-. simpl in *. assert (q = p) as -> by congruence.
        exists (att_p c oc b op). split; [by rewrite attach_at_p|]. simpl. apply elem_of_app. right. by left.
      + destruct (wf_par _ W x ox q Hx Hpar) as (oq & H1 & H2). by eapply Hup.
    - intros l o n Hl.
      assert (Hf : forall d : dict uid loc, filter (fun x : uid * loc => name_of h' x.2 = n) d
                             = filter (fun x : uid * loc => name_of h x.2 = n) d).
      { intros d. apply filter_ext_in. intros x _. by rewrite attach_name. }
      rewrite Hf. clear Hf. cases l.
      + injection Hl as <-. simpl. rewrite dget_dset, filter_app. destruct (decide (n = o_name oc)) as [->|Hn].
        * simpl. rewrite (wf_index _ W p op (o_name oc) Hp). f_equal.
          rewrite filter_cons_True; [done|]. simpl. unfold name_of. by rewrite Hc.
        * rewrite (wf_index _ W p op n Hp). rewrite filter_cons_False; [by rewrite filter_nil, app_nil_r|].
          simpl. unfold name_of. rewrite Hc. simpl. congruence.
      + injection Hl as <-. simpl. by apply (wf_index _ W c oc).
      + by apply (wf_index _ W l o).
    - intros l o Hl. cases l.
      + injection Hl as <-. simpl. rewrite app_length. simpl. rewrite (wf_cnt _ W p op Hp). lia.
      + injection Hl as <-. exact (wf_cnt _ W c oc Hc).
      + by apply (wf_cnt _ W l).
    - intros l o Hl.
      assert (Hm : forall o0, h !! l = Some o0 ->
        map (cid_of h') (dvals (o_subs o0)) = map (cid_of h) (dvals (o_subs o0))).
      { intros o0 Hl0. apply map_ext_in. intros x Hx. apply attach_cid_ne.
        apply (attach_old_val l o0); [done|]. by apply elem_of_list_In. }
      cases l.
      + injection Hl as <-. simpl. unfold dvals. rewrite map_app, map_app. simpl. rewrite attach_cid_c.
        fold (dvals (o_subs op)). rewrite (Hm op Hp). pose proof (wf_cid _ W p op Hp) as Hs.
        revert Hs. generalize (map (cid_of h) (dvals (o_subs op))). intros l.
        induction l as [|a l IH]; simpl; intros Hs.
        * repeat constructor; lia.
        * apply StronglySorted_inv in Hs as [Hs1 Hs2]. constructor; [by apply IH|].
          rewrite Forall_app in Hs2. destruct Hs2 as [H1 H2]. apply Forall_cons in H2 as [H2 _].
          rewrite !Forall_app. repeat split; [done|by constructor|constructor; [lia|constructor]].
      + injection Hl as <-. simpl. rewrite (Hm oc Hc). exact (wf_cid _ W c oc Hc).
      + rewrite (Hm o Hl). by apply (wf_cid _ W l).
    - intros l o Hl Hk Hr.
      assert (Hm : forall o0, h !! l = Some o0 ->
        map (fun x => (cid_of h' x, x)) (filter (is_rel h') (dvals (o_subs o0)))
        = map (fun x => (cid_of h x, x)) (filter (is_rel h) (dvals (o_subs o0)))).
      { intros o0 Hl0. rewrite (filter_ext_in (is_rel h') (is_rel h)) by (intros; apply attach_is_rel).
        apply map_ext_in. intros x Hx. f_equal. apply attach_cid_ne.
        apply elem_of_list_In, elem_of_list_filter in Hx as [_ Hx]. by apply (attach_old_val l o0). }
      cases l.
      + injection Hl as <-. simpl in *. unfold dvals. rewrite map_app, filter_app, map_app.
        fold (dvals (o_subs op)). rewrite (Hm op Hp), <- (wf_rels _ W p op Hp Hk Hr).
        simpl. assert (Hkc : is_rel h' c <-> o_kind oc = KRel).
        { rewrite attach_is_rel. unfold is_rel, kind_of. rewrite Hc. simpl. split; congruence. }
        rewrite filter_cons. destruct (decide (is_rel h' c)) as [Hy|Hy].
        * assert (Eb : b = true) by (rewrite (Hb Hk Hr); apply bool_decide_true; tauto).
          simpl. rewrite attach_cid_c. by rewrite Eb.
        * assert (Eb : b = false) by (rewrite (Hb Hk Hr); apply bool_decide_false; tauto).
          simpl. rewrite app_nil_r. by rewrite Eb.
      + injection Hl as <-. simpl in *. rewrite (Hm oc Hc). by apply (wf_rels _ W c).
      + rewrite (Hm o Hl). by apply (wf_rels _ W l).
    - intros l Hl. apply attach_exists in Hl. destruct (wf_acy _ W l Hl) as [ls H]. by eapply attach_path.
    - intros l o Hl. cases l.
      + injection Hl as <-. exact (wf_clk _ W p op Hp).
      + injection Hl as <-. exact (wf_clk _ W c oc Hc).
      + by apply (wf_clk _ W l).
    - intros r o e Hl He. apply attach_exists. cases r.
      + injection Hl as <-. by apply (wf_ep _ W p op).
      + injection Hl as <-. by apply (wf_ep _ W c oc).
      + by apply (wf_ep _ W r o).
    - intros r o Hl. cases r.
      + injection Hl as <-. exact (wf_hasep _ W p op Hp).
      + injection Hl as <-. exact (wf_hasep _ W c oc Hc).
      + exact (wf_hasep _ W r o Hl).
  Qed.
End attach.

(** ** Removing *)
Section detach.
  Context (h : list obj) (W : WF0 h) (p c : loc) (op oc : obj).
  Hypothesis Hp : h !! p = Some op.
  Hypothesis Hc : h !! c = Some oc.
  Hypothesis Hpar : o_parent oc = Some p.
  Hypothesis Hk : o_kind op <> KEdge.

  Local Notation h' := (detach_h p c oc h).

  Lemma detach_ne : c <> p.
  Proof. intros ->. apply (wf0_not_self h W p oc Hc). done. Qed.
  Lemma detach_at_p : h' !! p = Some (det_p oc op).
  Proof.
    pose proof detach_ne. unfold detach_h. rewrite list_lookup_alter_ne by done. by rewrite list_lookup_alter, Hp.
  Qed.
  Lemma detach_at_c : h' !! c = Some (s_parent None oc).
  Proof.
    pose proof detach_ne. unfold detach_h. rewrite list_lookup_alter, list_lookup_alter_ne by done. by rewrite Hc.
  Qed.
  Lemma detach_other l : l <> p -> l <> c -> h' !! l = h !! l.
  Proof. intros. unfold detach_h. by rewrite !list_lookup_alter_ne by done. Qed.

  Ltac cases l := destruct (decide (l = p)) as [->|?];
    [rewrite detach_at_p in *|destruct (decide (l = c)) as [->|?];
      [rewrite detach_at_c in *|rewrite detach_other in * by done]].

  Lemma detach_name l : name_of h' l = name_of h l.
  Proof. unfold name_of. cases l; rewrite ?Hp, ?Hc; done. Qed.
  Lemma detach_kind l : kind_of h' l = kind_of h l.
  Proof. unfold kind_of. cases l; rewrite ?Hp, ?Hc; done. Qed.
  Lemma detach_exists l : exists_in h' l <-> exists_in h l.
  Proof. unfold exists_in. cases l; rewrite ?Hp, ?Hc; [split; intros _; eauto|split; intros _; eauto|done]. Qed.
  Lemma detach_parent_c : parent_of h' c = None.
  Proof. unfold parent_of. rewrite detach_at_c. done. Qed.
  Lemma detach_parent_ne l : l <> c -> parent_of h' l = parent_of h l.
  Proof. intros. unfold parent_of. cases l; rewrite ?Hp; done. Qed.
  Lemma detach_cid l : cid_of h' l = cid_of h l.
  Proof. unfold cid_of. cases l; rewrite ?Hp, ?Hc; done. Qed.
  Lemma detach_is_rel l : is_rel h' l <-> is_rel h l.
  Proof. unfold is_rel. by rewrite detach_kind. Qed.

  Lemma detach_subs : ddel (o_uuid oc) (o_subs op) = filter (fun x => x.2 <> c) (o_subs op).
  Proof.
    pose proof (wf_nd _ W p op Hp) as Hnd. rewrite ddel_filter by done.
    apply filter_ext_in. intros [u x] Hin. simpl.
    destruct (wf_sub _ W p op u x Hp Hin) as (ox & H1 & H2 & H3). split.
    - intros Hu ->. congruence.
    - intros Hx ->. apply Hx.
      destruct (wf_par _ W c oc p Hc Hpar) as (op' & H4 & H5). assert (op' = op) as -> by congruence.
      pose proof (dget_in_nodup _ _ _ Hnd Hin). pose proof (dget_in_nodup _ _ _ Hnd H5). congruence.
  Qed.

  Lemma detach_path l ls : path h l ls -> exists ls', path h' l ls'.
  Proof.
    induction 1 as [l He Hn|l q ls He Hn Hq [ls' IH]].
    - exists [l]. apply path_root; [by apply detach_exists|].
      rewrite detach_parent_ne; [done|]. intros ->. rewrite (parent_of_lookup _ _ _ Hc) in Hn. congruence.
    - destruct (decide (l = c)) as [->|].
      + exists [c]. apply path_root; [by apply detach_exists|apply detach_parent_c].
      + exists (l :: ls'). apply path_step with q; [by apply detach_exists|by rewrite detach_parent_ne|done].
  Qed.

  Lemma detach_wf0 : WF0 h'.
  Proof.
    pose proof (wf_nd _ W p op Hp) as Hndp.
    split.
    - intros l o Hl. cases l; [|injection Hl as <-; exact (wf_nd _ W c oc Hc)|by apply (wf_nd _ W l)].
      injection Hl as <-. simpl. by apply ddel_nodup.
    - intros l o u x Hl Hin.
      assert (Hold : forall o0, h !! l = Some o0 -> (u, x) ∈ o_subs o0 -> x <> c ->
        exists ox, h' !! x = Some ox /\ o_uuid ox = u /\ o_parent ox = Some l).
      { intros o0 Hl0 Hin0 Hx. destruct (wf_sub _ W l o0 u x Hl0 Hin0) as (ox & H1 & H2 & H3).
        clear Hl Hin. cases x; [|done|by exists ox].
        exists (det_p oc op). assert (ox = op) as -> by congruence. done. }
      cases l.
      + injection Hl as <-. simpl in Hin. rewrite detach_subs in Hin.
        apply elem_of_list_filter in Hin as [Hx Hin]. by eapply Hold.
      + injection Hl as <-. simpl in Hin. apply (Hold oc); [done|done|]. intros ->.
        destruct (wf_sub _ W c oc u c Hc Hin) as (? & ? & ? & ?). congruence.
      + apply (Hold o); [done|done|]. intros ->.
        destruct (wf_sub _ W l o u c Hl Hin) as (? & ? & ? & ?). congruence.
    - intros x ox q Hx Hq.
      assert (Hup : forall op0 u y, h !! q = Some op0 -> (u, y) ∈ o_subs op0 -> y <> c ->
        exists op', h' !! q = Some op' /\ (u, y) ∈ o_subs op').
      { intros op0 u y Hq0 Hin Hy. clear Hx Hq. cases q.
        - assert (op0 = op) as -> by congruence. eexists. split; [done|]. simpl. rewrite detach_subs.
          apply elem_of_list_filter. done.
        - assert (op0 = oc) as -> by congruence. by eexists.
        - by exists op0. }
      cases x.
      + injection Hx as <-. simpl in *. destruct (wf_par _ W p op q Hp Hq) as (oq & H1 & H2).
        eapply Hup; [done|done|]. intros E. by apply detach_ne.
      + injection Hx as <-. done.
      + destruct (wf_par _ W x ox q Hx Hq) as (oq & H1 & H2). by eapply Hup.
    - intros l o n Hl.
      assert (Hf : forall d : dict uid loc, filter (fun x : uid * loc => name_of h' x.2 = n) d
                             = filter (fun x : uid * loc => name_of h x.2 = n) d).
      { intros d. apply filter_ext_in. intros x _. by rewrite detach_name. }
      rewrite Hf. clear Hf. cases l.
      + injection Hl as <-. simpl. rewrite dget_dset. rewrite detach_subs, filter_comm.
        rewrite <- (wf_index _ W p op n Hp).
        destruct (decide (n = o_name oc)) as [->|Hn].
        * simpl. rewrite (wf_index _ W p op (o_name oc) Hp). rewrite ddel_filter.
          2:{ unfold dkeys. clear -Hndp. unfold dkeys in Hndp. induction (o_subs op) as [|x l IH]; [constructor|].
              simpl in Hndp. apply NoDup_cons in Hndp as [H1 H2]. rewrite filter_cons.
              destruct (decide _); [|by apply IH]. simpl. apply NoDup_cons. split; [|by apply IH].
              intros Hx. apply H1. apply elem_of_list_fmap in Hx as [y [Hy1 Hy2]].
              apply elem_of_list_filter in Hy2 as [_ Hy2]. apply elem_of_list_fmap. by exists y. }
          apply filter_ext_in. intros [u x] Hin. simpl. apply elem_of_list_filter in Hin as [_ Hin].
          destruct (wf_sub _ W p op u x Hp Hin) as (ox & H1 & H2 & H3). split.
          -- intros Hu ->. congruence.
          -- intros Hx ->. apply Hx. destruct (wf_par _ W c oc p Hc Hpar) as (op' & H4 & H5).
             assert (op' = op) as -> by congruence.
             pose proof (dget_in_nodup _ _ _ Hndp Hin). pose proof (dget_in_nodup _ _ _ Hndp H5). congruence.
        * symmetry. apply filter_all. intros [u x] Hin. simpl. rewrite (wf_index _ W p op n Hp) in Hin.
          apply elem_of_list_filter in Hin as [Hnm _]. simpl in Hnm. intros ->.
          unfold name_of in Hnm. rewrite Hc in Hnm. simpl in Hnm. congruence.
      + injection Hl as <-. simpl. by apply (wf_index _ W c oc).
      + by apply (wf_index _ W l o).
    - intros l o Hl. cases l.
      + injection Hl as <-. simpl. rewrite (wf_cnt _ W p op Hp).
        rewrite <- (ddel_length (o_uuid oc) (o_subs op)); [lia|].
        apply dget_is_Some. destruct (wf0_lookup h W c oc p op Hc Hpar Hp) as [-> _]. eauto.
      + injection Hl as <-. exact (wf_cnt _ W c oc Hc).
      + by apply (wf_cnt _ W l).
    - intros l o Hl.
      assert (Hm : forall d : list loc, map (cid_of h') d = map (cid_of h) d).
      { intros d. apply map_ext. apply detach_cid. }
      rewrite Hm. cases l.
      + injection Hl as <-. simpl. rewrite detach_subs. pose proof (wf_cid _ W p op Hp) as Hs.
        revert Hs. generalize (o_subs op). intros d. induction d as [|[u x] d IH]; simpl; intros Hs; [done|].
        apply StronglySorted_inv in Hs as [Hs1 Hs2]. rewrite filter_cons. destruct (decide _); simpl; [|by apply IH].
        constructor; [by apply IH|]. rewrite Forall_app in *. destruct Hs2 as [H1 H2]. split; [|done].
        rewrite Forall_forall in *. intros y Hy. apply H1.
        apply elem_of_list_fmap in Hy as [z [-> Hz]]. apply elem_of_list_fmap in Hz as [w [-> Hw]].
        apply elem_of_list_filter in Hw as [_ Hw]. apply elem_of_list_fmap. exists w.2. split; [done|].
        apply elem_of_list_fmap. by exists w.
      + injection Hl as <-. exact (wf_cid _ W c oc Hc).
      + by apply (wf_cid _ W l).
    - intros l o Hl Hke Hr.
      assert (Hm : forall d : list loc, map (fun x => (cid_of h' x, x)) (filter (is_rel h') d)
        = map (fun x => (cid_of h x, x)) (filter (is_rel h) d)).
      { intros d. rewrite (filter_ext_in (is_rel h') (is_rel h)) by (intros; apply detach_is_rel).
        apply map_ext. intros x. by rewrite detach_cid. }
      rewrite Hm. cases l.
      + injection Hl as <-. done.
      + injection Hl as <-. simpl in *. by apply (wf_rels _ W c).
      + by apply (wf_rels _ W l).
    - intros l Hl. apply detach_exists in Hl. destruct (wf_acy _ W l Hl) as [ls H]. by eapply detach_path.
    - intros l o Hl. cases l.
      + injection Hl as <-. exact (wf_clk _ W p op Hp).
      + injection Hl as <-. exact (wf_clk _ W c oc Hc).
      + by apply (wf_clk _ W l).
    - intros r o e Hl He. apply detach_exists. cases r.
      + injection Hl as <-. by apply (wf_ep _ W p op).
      + injection Hl as <-. by apply (wf_ep _ W c oc).
      + by apply (wf_ep _ W r o).
    - intros r o Hl. cases r.
      + injection Hl as <-. exact (wf_hasep _ W p op Hp).
      + injection Hl as <-. exact (wf_hasep _ W c oc Hc).
      + exact (wf_hasep _ W r o Hl).
  Qed.
End detach.

(** ** Creating *)
Lemma exists_in_lt h l : exists_in h l <-> l < length h.
Proof. unfold exists_in. apply lookup_lt_is_Some. Qed.

Lemma alloc_path h o l ls : path h l ls -> path (h ++ [o]) l ls.
Proof.
  intros H. apply path_ext with h; [done|]. intros x Hx. pose proof (path_in_exists _ _ _ _ H Hx) as Hx'.
  apply exists_in_lt in Hx'. split.
  - apply exists_in_lt. rewrite app_length. simpl. lia.
  - unfold parent_of. by rewrite lookup_app_l.
Qed.

Lemma alloc_wf0 h o : WF0 h -> o_parent o = None -> o_subs o = [] -> o_index o = [] -> o_cnt o = 0%Z ->
  o_rels o = [] -> (is_conceptual (o_kind o) = true -> is_Some (o_clock o)) ->
  (forall e, o_endpoint o = Some e -> exists_in h e) -> (o_kind o = KRel -> o_endpoint o <> None) -> WF0 (h ++ [o]).
Proof.
  intros W Hpar Hsub Hidx Hcnt Hrel Hclk Hep Hhas.
  assert (Hl : forall l o', (h ++ [o]) !! l = Some o' -> (h !! l = Some o' /\ l < length h) \/ (l = length h /\ o' = o)).
  { intros l o' H. destruct (decide (l < length h)) as [Hlt|Hge].
    - left. by rewrite lookup_app_l in H.
    - right. rewrite lookup_app_r in H by lia. destruct (l - length h) eqn:E; [|done]. simpl in H.
      split; [lia|congruence]. }
  assert (Hlow : forall l o', h !! l = Some o' -> (h ++ [o]) !! l = Some o').
  { intros l o' H. apply lookup_app_l_Some. done. }
  assert (Hval : forall l o' x, h !! l = Some o' -> x ∈ dvals (o_subs o') -> x < length h).
  { intros l o' x H Hx. apply elem_of_list_fmap in Hx as [[u x'] [-> Hx]].
    destruct (wf_sub _ W l o' u x' H Hx) as (ox & H1 & _). by apply lookup_lt_Some in H1. }
  assert (Hsame : forall l, l < length h -> (h ++ [o]) !! l = h !! l) by (intros; by apply lookup_app_l).
  split.
  - intros l o' H. apply Hl in H as [[H _]|[-> ->]]; [by apply (wf_nd _ W l)|]. rewrite Hsub. constructor.
  - intros l o' u c H Hin. apply Hl in H as [[H _]|[-> ->]].
    + destruct (wf_sub _ W l o' u c H Hin) as (oc & H1 & H2). exists oc. auto.
    + rewrite Hsub in Hin. inversion Hin.
  - intros c oc p H Hp. apply Hl in H as [[H _]|[-> ->]]; [|congruence].
    destruct (wf_par _ W c oc p H Hp) as (op & H1 & H2). exists op. auto.
  - intros p o' n H. apply Hl in H as [[H _]|[-> ->]].
    + rewrite (wf_index _ W p o' n H). apply filter_ext_in. intros x Hx. unfold name_of.
      rewrite Hsame; [done|]. eapply (Hval p o'); [done|]. apply elem_of_list_fmap. by exists x.
    + by rewrite Hidx, Hsub.
  - intros p o' H. apply Hl in H as [[H _]|[-> ->]]; [by apply (wf_cnt _ W p)|]. by rewrite Hsub, Hcnt.
  - intros p o' H. apply Hl in H as [[H _]|[-> ->]].
    + replace (map (cid_of (h ++ [o])) (dvals (o_subs o'))) with (map (cid_of h) (dvals (o_subs o'))).
      { by apply (wf_cid _ W p). }
      apply map_ext_in. intros x Hx. unfold cid_of. rewrite Hsame; [done|].
      apply (Hval p o'); [done|]. by apply elem_of_list_In.
    + rewrite Hsub. simpl. repeat constructor.
  - intros p o' H Hk Hr. apply Hl in H as [[H _]|[-> ->]].
    + rewrite (wf_rels _ W p o' H Hk Hr).
      rewrite (filter_ext_in (is_rel (h ++ [o])) (is_rel h)).
      * apply map_ext_in. intros x Hx. unfold cid_of. rewrite Hsame; [done|].
        apply (Hval p o'); [done|]. apply elem_of_list_In, elem_of_list_filter in Hx. apply Hx.
      * intros x Hx. unfold is_rel, kind_of. rewrite Hsame; [done|]. by apply (Hval p o').
    + by rewrite Hrel, Hsub.
  - intros l Hex. apply exists_in_lt in Hex. rewrite app_length in Hex. simpl in Hex.
    destruct (decide (l < length h)) as [Hlt|Hge].
    + destruct (wf_acy _ W l) as [ls H]; [by apply exists_in_lt|]. exists ls. by apply alloc_path.
    + assert (l = length h) as -> by lia. exists [length h]. apply path_root.
      * apply exists_in_lt. rewrite app_length. simpl. lia.
      * unfold parent_of. rewrite lookup_app_r by lia. rewrite Nat.sub_diag. done.
  - intros l o' H. apply Hl in H as [[H _]|[-> ->]]; [by apply (wf_clk _ W l)|done].
  - intros r o' e H He. assert (Hx : exists_in h e).
    { apply Hl in H as [[H _]|[-> ->]]; [by apply (wf_ep _ W r o' e)|by apply Hep]. }
    apply exists_in_lt in Hx. apply exists_in_lt. rewrite app_length. lia.
  - intros r o' H. apply Hl in H as [[H _]|[-> ->]]; [exact (wf_hasep _ W r o' H)|done].
Qed.

Lemma nil_wf0 : WF0 [].
Proof.
  split; intros; try done. destruct H as [? H]. done.
Qed.

(** ** The invariant, independent of the other attributes *)
Lemma heq_ceq h h' : heq h h' -> ceq h h'.
Proof.
  unfold heq, ceq. intros H.
  assert (Hc : forall o, core o = core (bare o)) by done.
  rewrite (list_fmap_ext core (core ∘ bare) h) by done.
  rewrite (list_fmap_ext core (core ∘ bare) h') by done.
  rewrite !list_fmap_compose. by rewrite H.
Qed.
Lemma core_core o : core (core o) = core o.
Proof. destruct o. unfold core. simpl. f_equal. by destruct o_clock. Qed.
Lemma core_lookup (h : list obj) (l : nat) : (core <$> h) !! l = core <$> (h !! l).
Proof. apply list_lookup_fmap. Qed.
Lemma core_parent h l : parent_of (core <$> h) l = parent_of h l.
Proof. unfold parent_of. rewrite core_lookup. by destruct (h !! l). Qed.
Lemma core_name h l : name_of (core <$> h) l = name_of h l.
Proof. unfold name_of. rewrite core_lookup. by destruct (h !! l). Qed.
Lemma core_uuid h l : uuid_of (core <$> h) l = uuid_of h l.
Proof. unfold uuid_of. rewrite core_lookup. by destruct (h !! l). Qed.
Lemma core_kind h l : kind_of (core <$> h) l = kind_of h l.
Proof. unfold kind_of. rewrite core_lookup. by destruct (h !! l). Qed.
Lemma core_cid h l : cid_of (core <$> h) l = cid_of h l.
Proof. unfold cid_of. rewrite core_lookup. by destruct (h !! l). Qed.
Lemma core_children h l : children (core <$> h) l = children h l.
Proof. unfold children. rewrite core_lookup. by destruct (h !! l). Qed.
Lemma core_exists h l : exists_in (core <$> h) l <-> exists_in h l.
Proof. unfold exists_in. rewrite core_lookup. destruct (h !! l); simpl; split; intros [? ?]; eauto; done. Qed.
Lemma core_path h l ls : path (core <$> h) l ls <-> path h l ls.
Proof.
  split; intros H.
  - apply path_ext with (core <$> h); [done|]. intros x Hx. split.
    + apply core_exists. by eapply path_in_exists.
    + by rewrite core_parent.
  - apply path_ext with h; [done|]. intros x Hx. split.
    + apply core_exists. by eapply path_in_exists.
    + by rewrite core_parent.
Qed.
Lemma core_ancestor h a l : ancestor (core <$> h) a l <-> ancestor h a l.
Proof.
  split; induction 1 as [a l Hp|a q l Hp Ha IH].
  - apply anc_parent. by rewrite core_parent in Hp.
  - eapply anc_up; [|done]. by rewrite core_parent in Hp.
  - apply anc_parent. by rewrite core_parent.
  - eapply anc_up; [|done]. by rewrite core_parent.
Qed.
Lemma core_within h a l : within (core <$> h) a l <-> within h a l.
Proof. unfold within. by rewrite core_ancestor. Qed.

Lemma ceq_alter f l h : (forall o, h !! l = Some o -> core (f o) = core o) -> ceq h (alter f l h).
Proof.
  intros Hf. unfold ceq. apply list_eq. intros i. rewrite !list_lookup_fmap.
  destruct (decide (l = i)) as [->|Hne].
  - rewrite list_lookup_alter. destruct (h !! i) eqn:E; simpl; [|done]. by rewrite (Hf _ eq_refl).
  - by rewrite list_lookup_alter_ne.
Qed.
Lemma core_alter f (l : nat) (h : list obj) : (forall o, core (f (core o)) = core (f o)) ->
  core <$> alter f l h = core <$> alter f l (core <$> h).
Proof.
  intros Hf. apply list_eq. intros i. rewrite !list_lookup_fmap.
  destruct (decide (l = i)) as [->|Hne].
  - rewrite !list_lookup_alter, !list_lookup_fmap. destruct (h !! i) eqn:E; simpl; [|done]. by rewrite Hf.
  - rewrite !list_lookup_alter_ne by done. rewrite list_lookup_fmap. destruct (h !! i); simpl; [|done]. by rewrite core_core.
Qed.
Lemma core_alter_comm f g (l : nat) (h : list obj) : (forall o, core (f o) = g (core o)) ->
  core <$> alter f l h = alter g l (core <$> h).
Proof.
  intros Hf. apply list_eq. intros i. rewrite !list_lookup_fmap.
  destruct (decide (l = i)) as [->|Hne].
  - rewrite !list_lookup_alter, !list_lookup_fmap. destruct (h !! i) eqn:E; simpl; [|done]. by rewrite Hf.
  - rewrite !list_lookup_alter_ne by done. by rewrite list_lookup_fmap.
Qed.

Lemma WF0_core h : WF0 h -> WF0 (core <$> h).
Proof.
  intros W.
  assert (HL : forall l o, (core <$> h) !! l = Some o -> exists o', h !! l = Some o' /\ o = core o').
  { intros l o H. rewrite core_lookup in H. destruct (h !! l) as [o'|]; [|done]. exists o'. simpl in H.
    split; [done|congruence]. }
  split.
  - intros p o H. apply HL in H as (o' & H & ->). exact (wf_nd _ W p o' H).
  - intros p o u c H Hin. apply HL in H as (o' & H & ->). destruct (wf_sub _ W p o' u c H Hin) as (oc & H1 & H2).
    exists (core oc). rewrite core_lookup, H1. done.
  - intros c oc p H Hp. apply HL in H as (o' & H & ->). destruct (wf_par _ W c o' p H Hp) as (op & H1 & H2).
    exists (core op). rewrite core_lookup, H1. done.
  - intros p o n H. apply HL in H as (o' & H & ->). simpl. rewrite (wf_index _ W p o' n H).
    apply filter_ext_in. intros x _. by rewrite core_name.
  - intros p o H. apply HL in H as (o' & H & ->). exact (wf_cnt _ W p o' H).
  - intros p o H. apply HL in H as (o' & H & ->).
    rewrite (map_ext _ (cid_of h)) by (intros; apply core_cid). exact (wf_cid _ W p o' H).
  - intros p o H Hk Hr. apply HL in H as (o' & H & ->). simpl in *. rewrite (wf_rels _ W p o' H Hk Hr).
    rewrite (filter_ext_in (is_rel (core <$> h)) (is_rel h)).
    + apply map_ext. intros x. by rewrite core_cid.
    + intros x _. unfold is_rel. by rewrite core_kind.
  - intros l Hl. apply (core_exists h) in Hl. destruct (wf_acy _ W l Hl) as [ls H']. exists ls. by apply core_path.
  - intros l o H Hk. apply HL in H as (o' & H & ->). simpl. destruct (wf_clk _ W l o' H Hk) as [c ->]. eauto.
  - intros r o e H He. apply HL in H as (o' & H & ->). apply core_exists. exact (wf_ep _ W r o' e H He).
  - intros r o H. apply HL in H as (o' & H & ->). exact (wf_hasep _ W r o' H).
Qed.

Lemma WF0_uncore h : WF0 (core <$> h) -> WF0 h.
Proof.
  intros W.
  assert (HL : forall l o, h !! l = Some o -> (core <$> h) !! l = Some (core o)).
  { intros l o H. by rewrite core_lookup, H. }
  split.
  - intros p o H. apply HL in H. by apply (wf_nd _ W p) in H.
  - intros p o u c H Hin. apply HL in H. destruct (wf_sub _ W p _ u c H Hin) as (oc & H1 & H2).
    rewrite core_lookup in H1. destruct (h !! c) as [oc'|]; [|done]. simpl in H1. injection H1 as <-. by exists oc'.
  - intros c oc p H Hp. apply HL in H. destruct (wf_par _ W c _ p H Hp) as (op & H1 & H2).
    rewrite core_lookup in H1. destruct (h !! p) as [op'|]; [|done]. simpl in H1. injection H1 as <-. by exists op'.
  - intros p o n H. apply HL in H. pose proof (wf_index _ W p _ n H) as Hi. simpl in Hi. rewrite Hi.
    apply filter_ext_in. intros x _. by rewrite core_name.
  - intros p o H. apply HL in H. by apply (wf_cnt _ W p) in H.
  - intros p o H. apply HL in H. pose proof (wf_cid _ W p _ H) as Hi.
    rewrite (map_ext _ (cid_of h)) in Hi by (intros; apply core_cid). done.
  - intros p o H Hk Hr. apply HL in H. pose proof (wf_rels _ W p _ H Hk Hr) as Hi. simpl in Hi. rewrite Hi.
    rewrite (filter_ext_in (is_rel (core <$> h)) (is_rel h)).
    + apply map_ext. intros x. by rewrite core_cid.
    + intros x _. unfold is_rel. by rewrite core_kind.
  - intros l Hl. apply (core_exists h) in Hl. destruct (wf_acy _ W l Hl) as [ls H']. exists ls. by apply (core_path h).
  - intros l o H Hk. apply HL in H. pose proof (wf_clk _ W l _ H Hk) as [c Hcl]. simpl in Hcl.
    destruct (o_clock o); [eauto|done].
  - intros r o e H He. apply HL in H. apply core_exists. by apply (wf_ep _ W r _ e H).
  - intros r o H. apply HL in H. exact (wf_hasep _ W r _ H).
Qed.

Lemma WF_ceq h h' : ceq h h' -> WF0 h -> WF0 h'.
Proof. unfold ceq. intros E W. apply WF0_uncore. rewrite <- E. by apply WF0_core. Qed.
Lemma WF_heq h h' : heq h h' -> WF0 h -> WF0 h'.
Proof. intros H. apply WF_ceq. by apply heq_ceq. Qed.
