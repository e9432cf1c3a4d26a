(** * The invariant holds in every reachable state *)
From Verif Require Import Spec Hierarchy Elements Factory History PDict PPath PExec PBfs PWF PAdd PMono PStep PRemove.

Lemma alloc_state s o : alloc o s = (Ok (length (heap s)), set_heap (heap s ++ [o]) s).
Proof. done. Qed.

Lemma app_parent h o l : o_parent o = None -> parent_of (h ++ [o]) l = parent_of h l.
Proof.
  intros Ho. unfold parent_of. destruct (decide (l < length h)).
  - by rewrite lookup_app_l.
  - rewrite lookup_app_r by lia. rewrite (lookup_ge_None_2 h l) by lia. destruct (l - length h) as [|[|]]; done.
Qed.
Lemma app_kind h o l : exists_in h l -> kind_of (h ++ [o]) l = kind_of h l.
Proof. intros Hl%exists_in_lt. unfold kind_of. by rewrite lookup_app_l. Qed.

Lemma mono_kind s s' l : mono s s' -> exists_in (heap s) l -> kind_of (heap s') l = kind_of (heap s) l.
Proof.
  intros Hm [o Ho]. destruct (m_obj _ _ Hm l o Ho) as (o' & Ho' & M). unfold kind_of. rewrite Ho, Ho'. simpl.
  by rewrite (om_kind _ _ _ _ M).
Qed.

(** Parents of existing elements exist. *)
Lemma wf0_parent_exists h l q : WF0 h -> parent_of h l = Some q -> exists_in h q.
Proof.
  intros W Hp. destruct (parent_exists h l) as [o Ho]; [by rewrite Hp|].
  rewrite (parent_of_lookup _ _ _ Ho) in Hp. destruct (wf_par _ W l o q Ho Hp) as (oq & Hoq & _). by exists oq.
Qed.

Lemma removable_keep s s' l : WF0 (heap s) -> mono s s' -> parent_of (heap s') l = parent_of (heap s) l ->
  removable (heap s) l -> removable (heap s') l.
Proof.
  intros W Hm Hp Hr q Hq. rewrite Hp in Hq. rewrite (mono_kind s s') by (done || by eapply wf0_parent_exists).
  by apply Hr.
Qed.

(** A fresh element gets ancestors only through elements that were moved under it. *)
Lemma fresh_ancestor h h' r sv e : WF0 h -> ~ exists_in h r -> exists_in h e ->
  (forall l, exists_in h l -> Some l <> sv -> parent_of h' l = parent_of h l) ->
  ancestor h' r e -> exists v, sv = Some v /\ within h v e.
Proof.
  intros W Hr He Hpar Ha. induction Ha as [a l Hp|a q l Hp Ha IH].
  - destruct (decide (Some l = sv)) as [<-|Hne]; [exists l; split; [done|by left]|].
    rewrite Hpar in Hp by done. exfalso. apply Hr. by eapply wf0_parent_exists.
  - destruct (decide (Some l = sv)) as [<-|Hne]; [exists l; split; [done|by left]|].
    rewrite Hpar in Hp by done. destruct IH as (v & Ev & Hw); [done|by eapply wf0_parent_exists|].
    exists v. split; [done|]. right. destruct Hw as [->|Hw]; [by apply anc_parent|by eapply anc_up].
Qed.

Lemma unary_connect_wf s e n w d sem : WF0 (heap s) -> allowed (heap s) (OUnary e n w d sem) ->
  WF0 (heap (snd (unary_connect e n w d sem s))).
Proof.
  intros W (He & Hn & Hsem). pose proof He as [oe Hoe]. pose proof Hn as [on Hon].
  unfold unary_connect. rewrite (bind_ok _ _ _ _ _ (deref_ok _ _ _ Hoe)). rewrite (bind_ok _ _ _ _ _ (deref_ok _ _ _ Hon)).
  case_decide as Hk; [|done]. destruct (o_clock oe) as [c|]; [|done]. cbn [of_opt].
  rewrite (bind_ok (ret c) _ s c s) by done.
  rewrite (bind_ok (now c) _ s (clk s c (tick s)) (set_tick (S (tick s)) s)) by done.
  set (s1 := set_tick (S (tick s)) s). destruct (o_ready oe); [|done].
  set (nm := rel_name _ _ _). rewrite (bind_ok (hash _) _ s1 (sha s1 (elem_id_text (o_name oe) (o_name on))) s1) by done.
  unfold new_rel. rewrite (bind_ok _ _ _ _ _ (alloc_state _ _)).
  set (orel := s_sem _ _). set (s2 := set_heap (heap s1 ++ [orel]) s1).
  set (r := length (heap s1)).
  assert (W2 : WF0 (heap s2)).
  { unfold s2. simpl. apply alloc_wf0; try done. simpl. intros x [= <-]. done. }
  assert (Hmono2 : mono s s2).
  { eapply mono_trans; [apply (pres_now c s)|]. exact (pres_alloc orel eq_refl s1). }
  assert (Hr2 : heap s2 !! r = Some orel).
  { unfold s2, r. simpl. by rewrite lookup_app_r, Nat.sub_diag by lia. }
  assert (Hex2 : forall l, exists_in (heap s) l -> exists_in (heap s2) l) by (intros l; by apply mono_exists).
  pose proof (connect_wf s2 n r W2 (Hex2 _ Hn) ltac:(by eexists)) as W3.
  pose proof (pres_connect n r s2) as Hmono3.
  assert (Hpar3 : forall l, exists_in (heap s2) l -> parent_of (heap (snd (connect n r s2))) l = parent_of (heap s2) l).
  { intros l Hl. apply connect_parent; [done|by apply Hex2|by eexists|done]. }
  destruct (connect n r s2) as [[[]|ex] s3] eqn:E3; [|rewrite (bind_exn _ _ _ _ _ E3); exact W3].
  rewrite (bind_ok _ _ _ _ _ E3). cbn [snd] in W3, Hmono3, Hpar3.
  assert (Hmono : mono s s3) by (by eapply mono_trans).
  assert (Hpar : forall l, exists_in (heap s) l -> parent_of (heap s3) l = parent_of (heap s) l).
  { intros l Hl. rewrite Hpar3 by (by apply Hex2). unfold s2. simpl. by apply app_parent. }
  assert (Hr3 : parent_of (heap s3) r = None).
  { rewrite Hpar3 by (by eexists). by rewrite (parent_of_lookup _ _ _ Hr2). }
  assert (Hrne : ~ exists_in (heap s) r).
  { rewrite exists_in_lt. unfold r. simpl. lia. }
  assert (Hexr : exists_in (heap s3) r) by (eapply mono_exists; [exact Hmono3|by eexists]).
  assert (Hfin : forall s4, WF0 (heap s4) -> mono s3 s4 -> parent_of (heap s4) r = None ->
    (forall l, exists_in (heap s) l -> Some l <> sem -> parent_of (heap s4) l = parent_of (heap s) l) ->
    WF0 (heap (snd ((add_element e r ;; ret r) s4)))).
  { intros s4 W4 Hm4 Hr4 Hp4.
    assert (Hok : add_ok (heap s4) e r).
    { split; [eapply mono_exists; [exact Hm4|]; by eapply mono_exists|].
      split; [by eapply mono_exists|]. split.
      - intros Ha. destruct (fresh_ancestor (heap s) (heap s4) r sem e W Hrne He Hp4 Ha) as (v & -> & Hw).
        destruct Hsem as (_ & _ & Hnw). done.
      - intros q Hq. congruence. }
    pose proof (add_element_wf s4 e r W4 Hok) as W5. unfold bind.
    destruct (add_element e r s4) as [[[]|ex] s5]; exact W5. }
  destruct sem as [sv|].
  - destruct Hsem as (Hsv & Hrem & Hnw).
    assert (Hok : add_ok (heap s3) r sv).
    { split; [done|]. split; [by eapply mono_exists|]. split.
      - intros Ha. inversion Ha; congruence.
      - eapply removable_keep; [exact W|exact Hmono| |exact Hrem]. by apply Hpar. }
    pose proof (add_element_wf s3 r sv W3 Hok) as W4.
    pose proof (pres_add_element r sv s3) as Hm4.
    assert (Hp4 : forall l, exists_in (heap s3) l -> l <> sv -> parent_of (heap (snd (add_element r sv s3))) l = parent_of (heap s3) l).
    { intros l Hl Hne. by apply add_element_parent. }
    destruct (add_element r sv s3) as [[[]|ex] s4] eqn:E4; [|rewrite (bind_exn _ _ _ _ _ E4); exact W4].
    rewrite (bind_ok _ _ _ _ _ E4). cbn [snd] in W4, Hm4, Hp4. apply Hfin; try done.
    + rewrite Hp4; [done|done|]. intros ->. done.
    + intros l Hl Hne. rewrite Hp4; [by apply Hpar|by eapply mono_exists|congruence].
  - rewrite (bind_ok (ret tt) _ s3 tt s3) by done. apply Hfin; try done. + apply mono_refl. + intros l Hl _. by apply Hpar.
Qed.

(** ** Factories *)
(** [wfm Pre m]: m preserves the invariant in states satisfying Pre. *)
Definition keeps {A} (Pre : list obj -> Prop) (m : M A) : Prop :=
  forall s, WF0 (heap s) -> Pre (heap s) -> WF0 (heap (snd (m s))).
(** Preconditions about existence survive. *)
Definition stable (Pre : list obj -> Prop) : Prop := forall s s', mono s s' -> Pre (heap s) -> Pre (heap s').

Lemma keeps_bind {A B} Pre (m : M A) (k : A -> M B) : stable Pre -> pres m -> keeps Pre m ->
  (forall a, keeps Pre (k a)) -> keeps Pre (bind m k).
Proof.
  intros Hst Hp Hm Hk s W HP. specialize (Hm s W HP). specialize (Hp s). unfold bind.
  destruct (m s) as [[a|e] s1]; simpl in *; [|done]. apply Hk; [done|by eapply Hst].
Qed.
(** The continuation may use what the first part established. *)
Lemma keeps_bind_post {A B} Pre (Post : A -> list obj -> Prop) (m : M A) (k : A -> M B) : keeps Pre m ->
  (forall s a s1, WF0 (heap s) -> Pre (heap s) -> m s = (Ok a, s1) -> Post a (heap s1)) ->
  (forall a, keeps (Post a) (k a)) -> keeps Pre (bind m k).
Proof.
  intros Hm Hpost Hk s W HP. pose proof (Hm s W HP) as Hw. unfold bind.
  destruct (m s) as [[a|e] s1] eqn:E; simpl in *; [|done]. apply Hk; [done|exact (Hpost s a s1 W HP E)].
Qed.
Lemma keeps_weaken {A} (P Q : list obj -> Prop) (m : M A) : (forall h, Q h -> P h) -> keeps P m -> keeps Q m.
Proof. intros H Hm s W HQ. apply Hm; auto. Qed.
Lemma keeps_heap {A} P (m : M A) : (forall s, heap (snd (m s)) = heap s) -> keeps P m.
Proof. intros H s W _. by rewrite H. Qed.

Lemma stable_exists l : stable (fun h => exists_in h l).
Proof. intros s s' Hm. by apply mono_exists. Qed.
Lemma stable_opt p : stable (fun h => ex_opt h p).
Proof. intros s s' Hm. destruct p; [by apply mono_exists|done]. Qed.
Lemma stable_all ls : stable (fun h => Forall (exists_in h) ls).
Proof. intros s s' Hm H. eapply Forall_impl; [exact H|]. intros x. by apply mono_exists. Qed.
Lemma stable_and P Q : stable P -> stable Q -> stable (fun h => P h /\ Q h).
Proof. intros H1 H2 s s' Hm [HP HQ]. split; eauto. Qed.
Lemma stable_true : stable (fun _ => True).
Proof. by intros s s' _ _. Qed.

Lemma heap_deref l s : heap (snd (deref l s)) = heap s.
Proof. unfold deref. by destruct (heap s !! l). Qed.
Lemma heap_gen_uid f nm s : heap (snd (generate_uid f nm s)) = heap s.
Proof. done. Qed.
Lemma heap_qualified f nm s : heap (snd (get_qualified_name f nm s)) = heap s.
Proof. done. Qed.
Lemma heap_stamped f nm p s : heap (snd (stamped_name f nm p s)) = heap s.
Proof. unfold stamped_name, bind, deref. by destruct (heap s !! p). Qed.
Lemma heap_clock_of p s : heap (snd (clock_of p s)) = heap s.
Proof. unfold clock_of, bind, deref. destruct (heap s !! p) as [o|]; [|done]. by destruct (is_conceptual (o_kind o)). Qed.

Lemma generate_node_wf f nm parent : keeps (fun h => ex_opt h parent) (generate_node f nm parent).
Proof.
  unfold generate_node. apply keeps_bind.
  - apply stable_opt.
  - pres.
  - apply keeps_heap. intros s. destruct parent as [p|]; [|done]. unfold bind, deref. by destruct (heap s !! p).
  - intros u. apply keeps_bind; [apply stable_opt|pres|by apply keeps_heap|]. intros q s W HP.
    by apply new_conceptual_wf.
Qed.
Lemma generate_list_wf f nms parent : keeps (fun h => ex_opt h parent) (generate_list_nodes f nms parent).
Proof.
  unfold generate_list_nodes. induction nms as [|nm nms IH]; simpl; [by apply keeps_heap|].
  apply keeps_bind; [apply stable_opt|pres|apply generate_node_wf|]. intros y.
  apply keeps_bind; [apply stable_opt|apply pres_map_m; intros; pres|exact IH|]. intros ys. by apply keeps_heap.
Qed.
Lemma create_hyperedge_wf f p nm : keeps (fun h => exists_in h p) (create_hyperedge f p nm).
Proof.
  unfold create_hyperedge. apply keeps_bind; [apply stable_exists|pres|by apply keeps_heap|]. intros u.
  apply keeps_bind; [apply stable_exists|pres|apply keeps_heap, heap_stamped|]. intros q.
  apply keeps_bind; [apply stable_exists|pres|apply keeps_heap, heap_clock_of|]. intros c s W HP.
  by apply new_conceptual_wf.
Qed.

(** Constructors return an existing object. *)
Lemma new_conceptual_exists k nm u prog c parent s l s1 :
  new_conceptual k nm u prog c parent s = (Ok l, s1) -> exists_in (heap s1) l.
Proof.
  unfold new_conceptual. destruct c as [c|]; [|done]. unfold bind at 1. simpl. unfold bind at 1. simpl.
  unfold bind at 1. set (m := match parent with Some _ => _ | None => _ end).
  destruct (m _) as [[[]|e] s2]; [|done].
  unfold bind, upd. destruct (heap s2 !! length (heap s)) eqn:E; [|done]. simpl. intros [= <- <-].
  apply exists_in_lt. simpl. rewrite alter_length. apply lookup_lt_Some in E. done.
Qed.
Lemma create_hyperedge_exists f p nm s l s1 : create_hyperedge f p nm s = (Ok l, s1) -> exists_in (heap s1) l.
Proof.
  unfold create_hyperedge. unfold bind at 1. destruct (generate_uid f nm s) as [[u|e] s2]; [|done].
  unfold bind at 1. destruct (stamped_name f nm p s2) as [[q|e] s3]; [|done].
  unfold bind at 1. destruct (clock_of p s3) as [[c|e] s4]; [|done]. apply new_conceptual_exists.
Qed.

Lemma connect_each_wf he d nv : keeps (fun h => exists_in h he /\ Forall (exists_in h) (map fst nv)) (connect_each he d nv).
Proof.
  induction nv as [|[n v] nv IH]; simpl; [by apply keeps_heap|].
  apply keeps_bind.
  - apply stable_and; [apply stable_exists|apply stable_all].
  - pres.
  - intros s W [H1 H2]. apply Forall_cons in H2 as [H2 H3]. apply unary_connect_wf; [done|]. done.
  - intros r. eapply keeps_weaken; [|exact IH]. intros h [H1 H2]. apply Forall_cons in H2 as [H2 H3]. done.
Qed.
Lemma zip_none_fst ns : map fst (zip_none ns) = ns.
Proof. unfold zip_none. rewrite map_map. simpl. apply map_id. Qed.
Lemma zip_fst_sub {A B} (l : list A) (k : list B) x : x ∈ map fst (zip l k) -> x ∈ l.
Proof.
  revert k. induction l as [|a l IH]; intros [|b k]; simpl; intros H; try (by inversion H).
  apply elem_of_cons in H as [->|H]; [left|right; by eapply IH].
Qed.
Lemma Forall_zip {A B} (P : A -> Prop) (l : list A) (k : list B) : Forall P l -> Forall P (map fst (zip l k)).
Proof. rewrite !Forall_forall. intros H x Hx. apply H. by eapply zip_fst_sub. Qed.

Lemma connect_nodes_wf f p nm ns d vs :
  keeps (fun h => exists_in h p /\ Forall (exists_in h) ns) (connect_nodes f p nm ns d vs).
Proof.
  unfold connect_nodes. eapply keeps_bind_post with (Post := fun he h => exists_in h he /\ Forall (exists_in h) ns).
  - eapply keeps_weaken; [|apply create_hyperedge_wf]. naive_solver.
  - intros s a s1 W [H1 H2] E. split; [by eapply create_hyperedge_exists|].
    eapply (stable_all ns s s1); [|done]. pose proof (pres_create_hyperedge f p nm s) as Hm. by rewrite E in Hm.
  - intros he.
    assert (Hst : stable (fun h => exists_in h he /\ Forall (exists_in h) ns)) by (apply stable_and; [apply stable_exists|apply stable_all]).
    eapply keeps_bind_post with (Post := fun nv h => exists_in h he /\ Forall (exists_in h) (map fst nv)).
    + apply keeps_heap. intros s. destruct vs; [|done]. by case_decide.
    + intros s nv s1 W [H1 H2] E. destruct vs as [vs|].
      * case_decide; [|done]. injection E as <- <-. split; [done|]. by apply Forall_zip.
      * injection E as <- <-. split; [done|]. by rewrite zip_none_fst.
    + intros nv. apply keeps_bind; [apply stable_and; [apply stable_exists|apply stable_all]|pres|apply connect_each_wf|].
      intros _. by apply keeps_heap.
Qed.
Lemma connect_2factor_wf f p nm ins outs d vs :
  keeps (fun h => exists_in h p /\ Forall (exists_in h) ins /\ Forall (exists_in h) outs)
        (connect_2factor_edges f p nm ins outs d vs).
Proof.
  unfold connect_2factor_edges.
  eapply keeps_bind_post with (Post := fun he h => exists_in h he /\ Forall (exists_in h) ins /\ Forall (exists_in h) outs).
  - eapply keeps_weaken; [|apply create_hyperedge_wf]. naive_solver.
  - intros s a s1 W (H1 & H2 & H3) E. split; [by eapply create_hyperedge_exists|].
    pose proof (pres_create_hyperedge f p nm s) as Hm. rewrite E in Hm.
    split; [by eapply (stable_all ins s s1)|by eapply (stable_all outs s s1)].
  - intros he.
    eapply keeps_bind_post with (Post := fun nv h => exists_in h he /\ Forall (exists_in h) (map fst nv.1) /\
      Forall (exists_in h) (map fst nv.2)).
    + apply keeps_heap. intros s. destruct vs; [|done]. by case_decide.
    + intros s nv s1 W (H1 & H2 & H3) E. destruct vs as [vs|].
      * case_decide; [|done]. injection E as <- <-. split; [done|]. by split; apply Forall_zip.
      * injection E as <- <-. split; [done|]. by split; simpl; rewrite zip_none_fst.
    + intros nv.
      assert (Hst : stable (fun h => exists_in h he /\ Forall (exists_in h) (map fst nv.1) /\
        Forall (exists_in h) (map fst nv.2))).
      { apply stable_and; [apply stable_exists|apply stable_and; apply stable_all]. }
      apply keeps_bind; [exact Hst|pres|eapply keeps_weaken; [|apply connect_each_wf]; naive_solver|]. intros _.
      apply keeps_bind; [exact Hst|pres|eapply keeps_weaken; [|apply connect_each_wf]; naive_solver|]. intros _.
      by apply keeps_heap.
Qed.

(** Adding a freshly created element without parent and children. *)
Lemma add_fresh_ok h o p : WF0 (h ++ [o]) -> exists_in h p -> o_parent o = None -> o_subs o = [] ->
  add_ok (h ++ [o]) p (length h).
Proof.
  intros W Hp Hpar Hsub.
  assert (Hl : (h ++ [o]) !! length h = Some o) by (by rewrite lookup_app_r, Nat.sub_diag by lia).
  split; [apply exists_in_lt in Hp; apply exists_in_lt; rewrite app_length; lia|]. split; [by eexists|]. split.
  - apply leaf_not_ancestor; [done|]. unfold children. rewrite Hl, Hsub. done.
  - intros q Hq. rewrite (parent_of_lookup _ _ _ Hl) in Hq. congruence.
Qed.

Lemma create_value_wf f p nm vs : keeps (fun h => ex_opt h p) (create_value f p nm vs).
Proof.
  unfold create_value. apply keeps_bind; [apply stable_opt|pres|by apply keeps_heap|]. intros u. destruct p as [p|].
  - apply keeps_bind; [apply stable_opt|pres|apply keeps_heap, heap_stamped|]. intros q s W Hp.
    unfold new_value. rewrite (bind_ok _ _ _ _ _ (alloc_state _ _)). set (o := s_dim _ _).
    assert (W1 : WF0 (heap s ++ [o])) by (apply alloc_wf0; done).
    pose proof (add_element_wf (set_heap (heap s ++ [o]) s) p (length (heap s)) W1
      (add_fresh_ok _ _ _ W1 Hp eq_refl eq_refl)) as W2.
    unfold bind. destruct (add_element p (length (heap s)) _) as [[[]|e] s2]; exact W2.
  - apply keeps_bind; [apply stable_opt|pres|by apply keeps_heap|]. intros q s W _. simpl.
    apply alloc_wf0; done.
Qed.
Lemma semantic_wf f raw nm p attr vs : keeps (fun h => exists_in h p) (generate_semantic_element f raw nm p attr vs).
Proof.
  unfold generate_semantic_element. destruct attr as [|at0 attr]; [by apply keeps_heap|]. generalize (at0 :: attr) as att. intros att.
  apply keeps_bind; [apply stable_exists|pres|by apply keeps_heap|]. intros u.
  destruct (type_class (norm_type raw)) as [c|]; [|by apply keeps_heap].
  apply keeps_bind; [apply stable_exists|pres|apply keeps_heap, heap_stamped|]. intros q s W Hp.
  unfold new_sem. rewrite (bind_ok _ _ _ _ _ (alloc_state _ _)). set (o := s_attr _ _).
  assert (W1 : WF0 (heap s ++ [o])) by (apply alloc_wf0; done).
  pose proof (add_element_wf (set_heap (heap s ++ [o]) s) p (length (heap s)) W1
      (add_fresh_ok _ _ _ W1 Hp eq_refl eq_refl)) as W2.
  destruct (add_element p (length (heap s)) _) as [[[]|e] s2] eqn:E.
  - rewrite (bind_ok _ _ _ _ _ E). destruct vs as [v|]; [|exact W2].
    unfold add_named_attribute, bind, upd. destruct (heap s2 !! length (heap s)) eqn:E2; [|exact W2]. simpl.
    by apply (ceq_upd s2 _ _ o0).
  - rewrite (bind_exn _ _ _ _ _ E). exact W2.
Qed.

(** ** All operations *)
Lemma heap_void {A} (m : M A) s : heap (snd (void m s)) = heap (snd (m s)).
Proof. unfold void, bind. by destruct (m s) as [[a|e] s1]. Qed.
Lemma snd_void {A} (m : M A) s : snd (void m s) = snd (m s).
Proof. unfold void, bind. by destruct (m s) as [[a|e] s1]. Qed.

Lemma upd_core_wf s l f : WF0 (heap s) -> (forall o, core (f o) = core o) -> WF0 (heap (snd (upd l f s))).
Proof.
  intros W Hf. unfold upd. destruct (heap s !! l) as [o|] eqn:E; [|done]. simpl. by apply (ceq_upd s l f o).
Qed.
Lemma update_wf s l : WF0 (heap s) -> exists_in (heap s) l -> WF0 (heap (snd (update l s))).
Proof.
  intros W Hl. destruct (wf_acy _ W l Hl) as [ls Hp]. destruct (update_ok s l ls Hp (wf_clk _ W l)) as (s' & -> & T).
  simpl. eapply WF_heq; [by eapply touch_heq|done].
Qed.
Lemma set_clock_wf s l c : WF0 (heap s) -> WF0 (heap (snd (set_clock l (Some c) s))).
Proof.
  intros W. unfold set_clock, upd. destruct (heap s !! l) as [o|] eqn:E; [|done]. simpl.
  destruct (o_clock o) eqn:Ec.
  - eapply WF_ceq; [|exact W]. apply ceq_alter. intros o' Ho'. assert (o' = o) as -> by congruence.
    unfold core. simpl. by rewrite Ec.
  - (* a non-conceptual element never had a clock: the invariant does not read it *)
    assert (Hat : forall i o', alter (s_clock (Some c)) l (heap s) !! i = Some o' ->
      exists o0, heap s !! i = Some o0 /\ o' = (if decide (l = i) then s_clock (Some c) o0 else o0)).
    { intros i o' Hi. by apply lookup_alter_inv. }
    assert (Hfw : forall i o0, heap s !! i = Some o0 -> alter (s_clock (Some c)) l (heap s) !! i =
      Some (if decide (l = i) then s_clock (Some c) o0 else o0)).
    { intros i o0 Hi. by apply lookup_alter_fwd. }
    assert (Hatt : forall A (f : obj -> A) i, (forall o, f (s_clock (Some c) o) = f o) ->
      f <$> (alter (s_clock (Some c)) l (heap s) !! i) = f <$> (heap s !! i)).
    { intros A f i Hf. destruct (decide (l = i)) as [->|].
      - rewrite list_lookup_alter. destruct (heap s !! i); simpl; [by rewrite Hf|done].
      - by rewrite list_lookup_alter_ne. }
    assert (Hnm : forall i, name_of (alter (s_clock (Some c)) l (heap s)) i = name_of (heap s) i).
    { intros i. unfold name_of. by rewrite Hatt. }
    assert (Hcid : forall i, cid_of (alter (s_clock (Some c)) l (heap s)) i = cid_of (heap s) i).
    { intros i. unfold cid_of. by rewrite Hatt. }
    assert (Hpr : forall i, parent_of (alter (s_clock (Some c)) l (heap s)) i = parent_of (heap s) i).
    { intros i. unfold parent_of. destruct (decide (l = i)) as [->|].
      - rewrite list_lookup_alter. by destruct (heap s !! i).
      - by rewrite list_lookup_alter_ne. }
    assert (Hrl : forall i, is_rel (alter (s_clock (Some c)) l (heap s)) i <-> is_rel (heap s) i).
    { intros i. unfold is_rel, kind_of. by rewrite Hatt. }
    assert (Hex : forall i, exists_in (alter (s_clock (Some c)) l (heap s)) i <-> exists_in (heap s) i).
    { intros i. rewrite !exists_in_lt. by rewrite alter_length. }
    split.
    + intros p o' Ho. destruct (Hat _ _ Ho) as (o0 & H0 & ->). pose proof (wf_nd _ W p o0 H0). by case_decide.
    + intros p o' u x Ho Hin. destruct (Hat _ _ Ho) as (o0 & H0 & ->).
      destruct (wf_sub _ W p o0 u x H0) as (ox & H1 & H2 & H3); [by case_decide|].
      eexists. split; [by apply Hfw|]. destruct (decide (l = x)); done.
    + intros x ox p Hx Hp. destruct (Hat _ _ Hx) as (o0 & H0 & ->).
      destruct (wf_par _ W x o0 p H0) as (op & H1 & H2); [by case_decide|].
      eexists. split; [by apply Hfw|]. repeat case_decide; exact H2.
    + intros p o' n Ho. destruct (Hat _ _ Ho) as (o0 & H0 & ->). pose proof (wf_index _ W p o0 n H0) as Hi.
      rewrite (filter_ext_in _ (fun x => name_of (heap s) x.2 = n)) by (intros; by rewrite Hnm). by case_decide.
    + intros p o' Ho. destruct (Hat _ _ Ho) as (o0 & H0 & ->). pose proof (wf_cnt _ W p o0 H0). by case_decide.
    + intros p o' Ho. destruct (Hat _ _ Ho) as (o0 & H0 & ->). pose proof (wf_cid _ W p o0 H0).
      rewrite (map_ext _ (cid_of (heap s))) by apply Hcid. by case_decide.
    + intros p o' Ho Hk Hr. destruct (Hat _ _ Ho) as (o0 & H0 & ->).
      rewrite (filter_ext_in (is_rel _) (is_rel (heap s))) by (intros; apply Hrl).
      rewrite (map_ext _ (fun x => (cid_of (heap s) x, x))) by (intros; by rewrite Hcid).
      pose proof (wf_rels _ W p o0 H0) as Hx. case_decide; by apply Hx.
    + intros i Hi. apply Hex in Hi. destruct (wf_acy _ W i Hi) as [ls Hls]. exists ls.
      apply path_ext with (heap s); [done|]. intros x Hx. split; [apply Hex; by eapply path_in_exists|apply Hpr].
    + intros i o' Ho Hk. destruct (Hat _ _ Ho) as (o0 & H0 & ->). case_decide; [simpl; eauto|].
      exact (wf_clk _ W i o0 H0 Hk).
    + intros i o' e Ho He. destruct (Hat _ _ Ho) as (o0 & H0 & ->). apply Hex. apply (wf_ep _ W i o0 e H0). by case_decide.
    + intros i o' Ho. destruct (Hat _ _ Ho) as (o0 & H0 & ->). pose proof (wf_hasep _ W i o0 H0). by case_decide.
Qed.

Lemma exec_wf o s : WF0 (heap s) -> allowed (heap s) o -> WF0 (heap (snd (exec o s))).
Proof.
  intros W Ha. destruct o; cbn [exec]; cbn [allowed] in Ha; rewrite ?heap_void.
  - destruct Ha as [H1 H2]. by apply new_conceptual_wf.
  - simpl. apply alloc_wf0; try done. simpl. intros e [= <-]. done.
  - simpl. apply alloc_wf0; try done. simpl. intros e [= <-]. done.
  - simpl. by apply alloc_wf0.
  - simpl. by apply alloc_wf0.
  - by apply add_element_wf.
  - by apply remove_all_wf.
  - unfold register. destruct Ha as (H1 & [ox Hx] & H2). rewrite (bind_ok _ _ _ _ _ (deref_ok _ _ _ Hx)).
    destruct (is_hyperelement (o_kind ox)); [|done]. apply add_element_wf; [done|]. split; [done|]. split; [by eexists|done].
  - destruct Ha. by apply deregister_wf.
  - destruct Ha. by apply connect_wf.
  - destruct Ha as [[ox Hx] [orr Hr]]. unfold disconnect. rewrite (bind_ok _ _ _ _ _ (deref_ok _ _ _ Hx)).
    rewrite (bind_ok _ _ _ _ _ (deref_ok _ _ _ Hr)). destruct (_ && _); [|done].
    destruct (dget _ _); [|done]. by apply upd_core_wf.
  - by apply unary_connect_wf.
  - by apply update_wf.
  - by apply set_clock_wf.
  - unfold update_value, bind, deref. destruct (heap s !! v); [|done]. destruct (list_put _ _ _); [|done].
    by apply upd_core_wf.
  - unfold update_values, bind, deref. destruct (heap s !! v); [|done]. by apply upd_core_wf.
  - by apply upd_core_wf.
  - by apply upd_core_wf.
  - by apply generate_node_wf.
  - by apply generate_list_wf.
  - by apply create_hyperedge_wf.
  - by apply connect_nodes_wf.
  - by apply connect_2factor_wf.
  - by apply create_value_wf.
  - by apply semantic_wf.
Qed.

Lemma reach_wf s : reach s -> WF0 (heap s).
Proof. induction 1 as [ck hf|s o Hr IH Ha]; [apply nil_wf0|]. by apply exec_wf. Qed.
