(** * Loading: growth of a hierarchy *)
From stdpp Require Import relations.
From Verif Require Import Spec Hierarchy Elements Factory History PDict PPath PExec PBfs PWF PAdd PMono PStep PRemove PReach PPrim PHist QHier QHier2 QHier3 QHier4 QHier5 QHier6 QFac SpecFac QFac2 CogniLang SpecCogni.

Definition clean (s : st) : Prop := reach s /\ named (heap s).
Lemma clean_wf s : clean s -> WF0 (heap s).
Proof. intros [R _]. by apply reach_wf. Qed.
Lemma clean_step s o : clean s -> allowed (heap s) o -> obeys MKeep (heap s) o -> clean (snd (exec o s)).
Proof.
  intros [R N] Ha Ho. split; [by apply reach_step|]. apply (history_named MKeep s (snd (exec o s))); [done|by apply reach_wf|done|].
  apply (hist_step MKeep s s o); [constructor|done|done].
Qed.
Lemma clean_void {A} s (m : M A) o a s' : clean s -> allowed (heap s) o -> obeys MKeep (heap s) o -> exec o = void m -> m s = (Ok a, s') -> clean s'.
Proof. intros C Ha Hb He E. pose proof (clean_step s o C Ha Hb) as C'. rewrite He in C'. by rewrite snd_void, E in C'. Qed.

Definition only (p : loc) (l : list loc) : loc -> list loc := fun x => if decide (x = p) then l else [].
Lemma only_at p l : only p l p = l.
Proof. unfold only. by rewrite decide_True. Qed.
Lemma only_ne p l x : x <> p -> only p l x = [].
Proof. unfold only. intros. by rewrite decide_False. Qed.

Record grows (h h' : list obj) (a : loc -> list loc) : Prop := {
  gs_len : length h <= length h';
  gs_kept : kept h h';
  gs_unmoved : unmoved h h';
  gs_kids : forall l, exists_in h l -> kids h' l = kids h l ++ a l
}.
Lemma grows_refl h : grows h h (fun _ => []).
Proof. split; [done|apply kept_refl|by intros l|]. intros l _. by rewrite app_nil_r. Qed.
Lemma grows_ext h h' a b : (forall l, exists_in h l -> a l = b l) -> grows h h' a -> grows h h' b.
Proof. intros H [G1 G2 G3 G4]. split; [done..|]. intros l Hl. by rewrite G4, H. Qed.
Lemma grows_trans h h1 h2 a b : grows h h1 a -> grows h1 h2 b -> grows h h2 (fun l => a l ++ b l).
Proof.
  intros [A1 A2 A3 A4] [B1 B2 B3 B4]. split.
  - lia. - by eapply kept_trans.
  - eapply unmoved_trans; [|done|done]. intros l. by apply kept_exists.
  - intros l Hl. rewrite B4 by (by eapply kept_exists). rewrite A4 by done. by rewrite app_assoc.
Qed.
Lemma grows_new h h1 h2 a q ys : grows h h1 a -> grows h1 h2 (only q ys) -> ~ exists_in h q -> grows h h2 a.
Proof.
  intros A B Hq. eapply grows_ext; [|by eapply grows_trans]. intros l Hl. simpl. rewrite only_ne; [by rewrite app_nil_r|]. by intros ->.
Qed.
Lemma grows_none h h1 h2 a : grows h h1 a -> grows h1 h2 (fun _ => []) -> grows h h2 a.
Proof. intros A B. eapply grows_ext; [|by eapply grows_trans]. intros l Hl. simpl. by rewrite app_nil_r. Qed.
Lemma none_grows h h1 h2 a : grows h h1 (fun _ => []) -> grows h1 h2 a -> grows h h2 a.
Proof. intros A B. eapply grows_ext; [|by eapply grows_trans]. done. Qed.
Lemma grows_only h h1 h2 p xs ys : grows h h1 (only p xs) -> grows h1 h2 (only p ys) -> grows h h2 (only p (xs ++ ys)).
Proof. intros A B. eapply grows_ext; [|by eapply grows_trans]. intros l Hl. simpl. unfold only. by case_decide. Qed.
Lemma grows_exists h h' a l : grows h h' a -> exists_in h l -> exists_in h' l.
Proof. intros G. apply kept_exists, G. Qed.

(** ** Names *)
Lemma grows_name h h' a y q : WF0 h -> grows h h' a -> full_name h y q -> full_name h' y q.
Proof.
  intros W G H. eapply full_name_ext; [done|]. intros x Hx _. split; [by eapply grows_exists|]. split; [by apply G|].
  apply kept_name; [by apply G|done].
Qed.
Lemma join_snoc sep l x : l <> [] -> join sep (l ++ [x]) = join sep l +:+ sep +:+ x.
Proof.
  induction l as [|a l IH]; [done|]. intros _. destruct l as [|b l]; [done|].
  change (join sep ((a :: b :: l) ++ [x])) with (a +:+ sep +:+ join sep ((b :: l) ++ [x])). rewrite IH by done.
  change (join sep (a :: b :: l)) with (a +:+ sep +:+ join sep (b :: l)). by rewrite !app_assoc_s.
Qed.
Lemma path_nonempty h l ls : path h l ls -> ls <> [].
Proof. by destruct 1. Qed.
Lemma child_name h p x q : full_name h p q -> exists_in h x -> parent_of h x = Some p -> full_name h x (q +:+ "/" +:+ name_of h x).
Proof.
  intros (ls & Hp & ->) Hx Hpar. exists (x :: ls). split; [by econstructor|]. cbn [map rev]. rewrite join_snoc; [done|].
  apply path_nonempty in Hp. destruct ls; [done|]. cbn [map rev]. intros H%(f_equal length). rewrite app_length in H. simpl in H. lia.
Qed.
Lemma root_name h x : exists_in h x -> parent_of h x = None -> full_name h x (name_of h x).
Proof. intros Hx Hp. exists [x]. split; [by constructor|done]. Qed.
Lemma clean_name s x o q : clean s -> heap s !! x = Some o -> full_name (heap s) x q -> o_qname o = q.
Proof. intros [_ N] Ho H. specialize (N x o Ho). by eapply full_name_det. Qed.

(** ** Kids *)
Lemma kids_port h h' (l : list loc) : kept h h' -> (forall x, x ∈ l -> exists_in h x) ->
  filter (fun c => kind_of h' c <> Some KPort) l = filter (fun c => kind_of h c <> Some KPort) l.
Proof.
  intros K. induction l as [|x l IH]; intros Hl; [done|]. rewrite !filter_cons.
  rewrite IH by (intros; apply Hl; by right).
  destruct (decide (kind_of h x <> Some KPort)) as [Hk|Hk].
  - rewrite (decide_True (P:=kind_of h' x <> Some KPort)); [done|]. rewrite (kept_kind _ _ _ K); [done|]. apply Hl. left.
  - rewrite (decide_False (P:=kind_of h' x <> Some KPort)); [done|]. rewrite (kept_kind _ _ _ K); [done|]. apply Hl. left.
Qed.
Lemma kids_same h h' l : WF0 h -> kept h h' -> children h' l = children h l -> kids h' l = kids h l.
Proof. intros W K E. unfold kids. rewrite E. apply kids_port; [done|]. intros x Hx. by eapply wf_children_exist. Qed.
Lemma kids_snoc h h' l c : WF0 h -> kept h h' -> children h' l = children h l ++ [c] -> kind_of h' c <> Some KPort -> kids h' l = kids h l ++ [c].
Proof.
  intros W K E Hc. unfold kids. rewrite E, filter_app. f_equal.
  - apply kids_port; [done|]. intros x Hx. by eapply wf_children_exist.
  - rewrite filter_cons, decide_True by done. done.
Qed.
Lemma kids_snoc_port h h' l c : WF0 h -> kept h h' -> children h' l = children h l ++ [c] -> kind_of h' c = Some KPort -> kids h' l = kids h l.
Proof.
  intros W K E Hc. unfold kids. rewrite E, filter_app. rewrite kids_port with (h := h); [|done|].
  - rewrite filter_cons, decide_False by (intros H; by apply H). by rewrite app_nil_r.
  - intros x Hx. by eapply wf_children_exist.
Qed.
Lemma kids_nil h l : children h l = [] -> kids h l = [].
Proof. unfold kids. by intros ->. Qed.
Lemma kids_children h l x : x ∈ kids h l -> x ∈ children h l.
Proof. unfold kids. intros H. by apply elem_of_list_filter in H as [_ H]. Qed.

Lemma grown_grows h h' p c oc : WF0 h -> grown h h' p c oc -> o_kind oc <> KPort -> exists_in h p -> grows h h' (only p [c]).
Proof.
  intros W G Hk Hp. destruct (gr_fresh _ _ _ _ _ G) as (F1 & F2 & F3 & F4). split.
  - rewrite (gr_len _ _ _ _ _ G). lia. - apply G. - apply G.
  - intros l Hl. unfold only. case_decide as Hlp.
    + subst. apply kids_snoc; [done|apply G|apply G|]. unfold kind_of. rewrite (fixed_get o_kind _ _ _ (fun _ => eq_refl) F4). congruence.
    + rewrite app_nil_r. apply kids_same; [done|apply G|]. by apply (gr_other _ _ _ _ _ G).
Qed.
Lemma grown_port_grows h h' p c oc : WF0 h -> grown h h' p c oc -> o_kind oc = KPort -> exists_in h p -> grows h h' (fun _ => []).
Proof.
  intros W G Hk Hp. destruct (gr_fresh _ _ _ _ _ G) as (F1 & F2 & F3 & F4). split.
  - rewrite (gr_len _ _ _ _ _ G). lia. - apply G. - apply G.
  - intros l Hl. rewrite app_nil_r. destruct (decide (l = p)) as [->|Hlp].
    + eapply kids_snoc_port; [done|apply G|apply G|]. unfold kind_of. rewrite (fixed_get o_kind _ _ _ (fun _ => eq_refl) F4). congruence.
    + apply kids_same; [done|apply G|]. by apply (gr_other _ _ _ _ _ G).
Qed.

(** A new element without kids at the end of [p]. *)
Record born_at (h h' : list obj) (p x : loc) (oc : obj) : Prop := {
  bn_new : x = length h;
  bn_len : length h' = S (length h);
  bn_grows : grows h h' (only p [x]);
  bn_fixed : fixed_part <$> h' !! x = Some (fixed_part oc);
  bn_parent : parent_of h' x = Some p;
  bn_kids : kids h' x = []
}.
Lemma grown_born h h' p x oc : WF0 h -> grown h h' p x oc -> o_kind oc <> KPort -> exists_in h p -> born_at h h' p x oc.
Proof.
  intros W G Hk Hp. destruct (gr_fresh _ _ _ _ _ G) as (F1 & F2 & F3 & F4).
  split; [apply G|apply G|by eapply grown_grows|done|done|by apply kids_nil].
Qed.
Lemma born_get {A} (f : obj -> A) h h' p x oc : born_at h h' p x oc -> (forall o, f (fixed_part o) = f o) -> f <$> h' !! x = Some (f oc).
Proof. intros B Hf. apply (fixed_get f _ _ _ Hf). apply B. Qed.
Lemma born_not h h' p x oc : born_at h h' p x oc -> ~ exists_in h x.
Proof. intros B. rewrite exists_in_lt, (bn_new _ _ _ _ _ B). lia. Qed.
Lemma born_exists h h' p x oc : born_at h h' p x oc -> exists_in h' x.
Proof. intros B. rewrite exists_in_lt, (bn_new _ _ _ _ _ B), (bn_len _ _ _ _ _ B). lia. Qed.
Lemma born_name h h' p x oc : born_at h h' p x oc -> name_of h' x = o_name oc.
Proof. intros B. unfold name_of. by rewrite (born_get o_name _ _ _ _ _ B (fun _ => eq_refl)). Qed.
Lemma born_full h h' p x oc q : WF0 h -> born_at h h' p x oc -> full_name h p q -> full_name h' x (q +:+ "/" +:+ o_name oc).
Proof.
  intros W B H. rewrite <- (born_name _ _ _ _ _ B). apply child_name with p; [|by eapply born_exists|apply B].
  eapply grows_name; [done|apply B|done].
Qed.

(** ** The primitives *)
Lemma node_born s f nm p x s' : clean s -> exists_in (heap s) p -> kind_of (heap s) p <> Some KRel -> generate_node f nm (Some p) s = (Ok x, s') ->
  clean s' /\ exists u prog, born_at (heap s) (heap s') p x (con_obj KNode u nm prog (f_clock f)).
Proof.
  intros C Hp Hk E. split. { by apply (clean_void s (generate_node f nm (Some p)) (OGenNode f nm (Some p)) x s' C). }
  destruct Hp as [op Hop]. unfold kind_of in Hk. rewrite Hop in Hk. simpl in Hk.
  destruct (gen_node_cases s f nm p op (clean_wf _ C) Hop) as [[_ (s1 & E1)]|(_ & s1 & prog & E1 & G & _)]; [congruence|congruence|].
  rewrite E1 in E. injection E as <- <-. eexists _, prog. eapply grown_born; [by apply clean_wf|exact G|done|by eexists].
Qed.
Lemma root_born s f nm x s' : clean s -> generate_node f nm None s = (Ok x, s') ->
  clean s' /\ x = length (heap s) /\ grows (heap s) (heap s') (fun _ => []) /\ length (heap s') = S (length (heap s)) /\
  parent_of (heap s') x = None /\ kids (heap s') x = [] /\ exists o, heap s' !! x = Some o /\ o_kind o = KNode /\ o_name o = nm.
Proof.
  intros C E. split. { by apply (clean_void s (generate_node f nm None) (OGenNode f nm None) x s' C). }
  rewrite gen_root_eq in E. unfold new_conceptual in E. set (s1 := set_tick (S (S (tick s))) s) in E.
  rewrite (bind_ok (now (f_clock f)) _ s1 (clk s1 (f_clock f) (tick s1)) (set_tick (S (tick s1)) s1)) in E by done.
  set (o := s_ready _ _) in E. rewrite (bind_ok _ _ _ _ _ (alloc_state _ o)) in E. set (s2 := set_tick (S (tick s1)) s1) in E.
  change (heap s2) with (heap s) in E. rewrite (bind_ok (ret tt) _ _ tt (set_heap (heap s ++ [o]) s2)) in E by done.
  assert (Ho : heap (set_heap (heap s ++ [o]) s2) !! length (heap s) = Some o) by (simpl; by rewrite lookup_app_r, Nat.sub_diag by lia).
  rewrite (bind_ok _ _ _ _ _ (upd_ok _ (s_ready true) _ o Ho)) in E. injection E as <- <-. cbn [heap set_heap].
  split; [done|]. assert (Hl : length (alter (s_ready true) (length (heap s)) (heap s ++ [o])) = S (length (heap s))) by (rewrite alter_length, app_length; simpl; lia).
  assert (Hold : forall l, exists_in (heap s) l -> alter (s_ready true) (length (heap s)) (heap s ++ [o]) !! l = heap s !! l).
  { intros l Hl'. apply exists_in_lt in Hl'. rewrite list_lookup_alter_ne by lia. by rewrite lookup_app_l. }
  assert (K : kept (heap s) (alter (s_ready true) (length (heap s)) (heap s ++ [o]))).
  { intros l ol Hol. rewrite Hold by (by eexists). by rewrite Hol. }
  assert (Hx : alter (s_ready true) (length (heap s)) (heap s ++ [o]) !! length (heap s) = Some (s_ready true o)).
  { rewrite list_lookup_alter. by rewrite lookup_app_r, Nat.sub_diag by lia. }
  split; [|split; [done|]].
  { split; [lia|done|intros l Hl'; unfold parent_of; by rewrite Hold|]. intros l Hl'. rewrite app_nil_r. apply kids_same; [by apply clean_wf|done|].
    unfold children. by rewrite Hold. }
  split; [unfold parent_of; by rewrite Hx|]. split; [apply kids_nil; unfold children; by rewrite Hx|]. eexists. split; [done|]. done.
Qed.
Lemma edge_born s f p nm x s' : clean s -> exists_in (heap s) p -> create_hyperedge f p nm s = (Ok x, s') ->
  clean s' /\ exists u prog c, born_at (heap s) (heap s') p x (con_obj KEdge u nm prog c).
Proof.
  intros C Hp E. split. { by apply (clean_void s (create_hyperedge f p nm) (OHyperedge f p nm) x s' C). } destruct Hp as [op Hop].
  destruct (hyperedge_cases s f p nm op (clean_wf _ C) Hop) as [[_ (s1 & E1 & _)]|[_ [[_ (s1 & E1 & _)]|(_ & c & s1 & prog & _ & E1 & G & _)]]]; [congruence|congruence|].
  rewrite E1 in E. injection E as <- <-. eexists _, prog, c. eapply grown_born; [by apply clean_wf|exact G|done|by eexists].
Qed.

Lemma value_born s f p nm vs x s' : clean s -> exists_in (heap s) p -> create_value f (Some p) nm (Some vs) s = (Ok x, s') ->
  clean s' /\ exists oc, born_at (heap s) (heap s') p x oc /\ o_kind oc = KValue /\ o_name oc = nm /\ o_vals oc = vs.
Proof.
  intros C Hp E. split. { by apply (clean_void s (create_value f (Some p) nm (Some vs)) (OCreateValue f (Some p) nm (Some vs)) x s' C). } destruct Hp as [op Hop].
  rewrite (value_eq f p nm (Some vs) op s Hop) in E. set (o := s_dim _ _) in E. set (s1 := set_tick _ s) in E.
  rewrite (bind_ok _ _ _ _ _ (alloc_state s1 o)) in E. set (s2 := set_heap _ _) in E.
  destruct (add_element p (length (heap s1)) s2) as [[[]|ex] s3] eqn:E3; [|by rewrite (bind_exn _ _ _ _ _ E3) in E].
  rewrite (bind_ok _ _ _ _ _ E3) in E. injection E as <- <-.
  assert (G : grown (heap s1) (heap s3) p (length (heap s1)) o).
  { destruct (dup_child (heap s) p op (o_uuid o) (clean_wf _ C) Hop) as [(x & Hx & _)|Hu].
    - exfalso. assert (Hlt : p < length (heap s)) by (by apply lookup_lt_Some in Hop). unfold s2 in E3.
      rewrite (q_C07_dup _ p (length (heap s)) op o x) in E3; [done| | | |done].
      + simpl. by rewrite lookup_app_l. + simpl. by rewrite lookup_app_r, Nat.sub_diag by lia. + lia.
    - destruct (add_fresh_grown s1 p o op (clean_wf _ C) Hop) as (s4 & E4 & G4 & _); try done.
      + by intros [_ Hh]. + by intros (_ & Hh & _).
      + unfold s2 in E3. rewrite E4 in E3. by injection E3 as <-. }
  exists o. split; [|done]. eapply grown_born; [by apply clean_wf|exact G|done|by eexists].
Qed.


(** An attribute of [x] is set. *)
Record retag (h h' : list obj) (x : loc) (k : string) (v : pyval) : Prop := {
  rt_len : length h' = length h;
  rt_other : forall l, l <> x -> h' !! l = h !! l;
  rt_at : h' !! x = (fun o => s_attr (dset k v (o_attr o)) o) <$> h !! x
}.
Lemma attr_retag x k v s s' : add_named_attribute x k v s = (Ok tt, s') -> retag (heap s) (heap s') x k v /\ exists_in (heap s) x.
Proof.
  unfold add_named_attribute. intros E. unfold upd in E. destruct (heap s !! x) as [o|] eqn:Ho; [|done]. injection E as <-. cbn [heap set_heap].
  split; [|by eexists]. split; [apply alter_length| |].
  - intros l Hl. by rewrite list_lookup_alter_ne.
  - by rewrite list_lookup_alter.
Qed.
Lemma attr_clean x k v s s' : clean s -> add_named_attribute x k v s = (Ok tt, s') -> clean s'.
Proof.
  intros C E. destruct (attr_retag _ _ _ _ _ E) as [_ Hx]. pose proof (clean_step s (OSetAttr x k v) C Hx I) as C'. cbn [exec] in C'. by rewrite E in C'.
Qed.
Lemma retag_parent h h' x k v l : retag h h' x k v -> parent_of h' l = parent_of h l.
Proof. intros R. unfold parent_of. destruct (decide (l = x)) as [->|Hl]; [|by rewrite (rt_other _ _ _ _ _ R)]. rewrite (rt_at _ _ _ _ _ R). by destruct (h !! x). Qed.
Lemma retag_children h h' x k v l : retag h h' x k v -> children h' l = children h l.
Proof. intros R. unfold children. destruct (decide (l = x)) as [->|Hl]; [|by rewrite (rt_other _ _ _ _ _ R)]. rewrite (rt_at _ _ _ _ _ R). by destruct (h !! x). Qed.
Lemma retag_kind h h' x k v l : retag h h' x k v -> kind_of h' l = kind_of h l.
Proof. intros R. unfold kind_of. destruct (decide (l = x)) as [->|Hl]; [|by rewrite (rt_other _ _ _ _ _ R)]. rewrite (rt_at _ _ _ _ _ R). by destruct (h !! x). Qed.
Lemma retag_kids h h' x k v l : retag h h' x k v -> kids h' l = kids h l.
Proof. intros R. unfold kids. rewrite (retag_children _ _ _ _ _ _ R). apply list_filter_iff. intros y. by rewrite (retag_kind _ _ _ _ _ _ R). Qed.
Lemma retag_grows h0 h h' a x k v : grows h0 h a -> retag h h' x k v -> ~ exists_in h0 x -> grows h0 h' a.
Proof.
  intros [G1 G2 G3 G4] R Hx. assert (Hne : forall l, exists_in h0 l -> l <> x) by (by intros l Hl ->). split.
  - by rewrite (rt_len _ _ _ _ _ R).
  - intros l ol Hol. rewrite (rt_other _ _ _ _ _ R) by (apply Hne; by eexists). by apply G2.
  - intros l Hl. rewrite (retag_parent _ _ _ _ _ _ R). by apply G3.
  - intros l Hl. rewrite (retag_kids _ _ _ _ _ _ R). by apply G4.
Qed.
Lemma attr_fixed o3 o k v : fixed_part o3 = fixed_part o -> fixed_part (s_attr (dset k v (o_attr o3)) o3) = fixed_part (s_attr (dset k v (o_attr o)) o).
Proof. destruct o3, o. unfold fixed_part. simpl. injection 1. intros. by subst. Qed.
Lemma retag_born h h1 h' p x oc k v : born_at h h1 p x oc -> retag h1 h' x k v -> born_at h h' p x (s_attr (dset k v (o_attr oc)) oc).
Proof.
  intros B R. split.
  - apply B. - rewrite (rt_len _ _ _ _ _ R). apply B.
  - eapply retag_grows; [apply B|done|by eapply born_not].
  - rewrite (rt_at _ _ _ _ _ R). pose proof (bn_fixed _ _ _ _ _ B) as F. destruct (h1 !! x) as [o3|]; [|done].
    cbn [fmap option_fmap option_map] in *. apply (inj Some) in F. f_equal. by apply attr_fixed.
  - rewrite (retag_parent _ _ _ _ _ _ R). apply B.
  - rewrite (retag_kids _ _ _ _ _ _ R). apply B.
Qed.

Definition with_values (a : dict string pyval) (vs : option pyval) : dict string pyval := match vs with None => a | Some v => dset "values" v a end.
Lemma sem_born s f raw nm p attr vs x s' : clean s -> exists_in (heap s) p -> attr <> [] -> generate_semantic_element f raw nm p attr vs s = (Ok x, s') ->
  clean s' /\ exists c oc, type_class (norm_type raw) = Some c /\ born_at (heap s) (heap s') p x oc /\ o_kind oc = KSem c /\ o_name oc = nm /\
    o_attr oc = with_values attr vs.
Proof.
  intros C Hp Hat E. split. { by apply (clean_void s (generate_semantic_element f raw nm p attr vs) (OSemantic f raw nm p attr vs) x s' C). } pose proof (clean_wf _ C) as W. destruct Hp as [op Hop].
  destruct (type_class (norm_type raw)) as [c|] eqn:Hc.
  2: { unfold generate_semantic_element in E. destruct attr; [done|]. rewrite (bind_ok _ _ _ _ _ (gen_uid_eq f nm s)) in E. by rewrite Hc in E. }
  exists c. rewrite (sem_eq f raw nm p attr vs c op s Hop Hat Hc) in E. set (o := s_attr _ _) in E. set (s1 := set_tick _ s) in E.
  rewrite (bind_ok _ _ _ _ _ (alloc_state s1 o)) in E. set (s2 := set_heap _ _) in E.
  destruct (add_element p (length (heap s1)) s2) as [[[]|ex] s3] eqn:E3; [|by rewrite (bind_exn _ _ _ _ _ E3) in E].
  rewrite (bind_ok _ _ _ _ _ E3) in E.
  assert (G : grown (heap s1) (heap s3) p (length (heap s1)) o).
  { destruct (dup_child (heap s) p op (o_uuid o) W Hop) as [(y & Hy & _)|Hu].
    - exfalso. assert (Hlt : p < length (heap s)) by (by apply lookup_lt_Some in Hop). unfold s2 in E3.
      rewrite (q_C07_dup _ p (length (heap s)) op o y) in E3; [done| | | |done].
      + simpl. by rewrite lookup_app_l. + simpl. by rewrite lookup_app_r, Nat.sub_diag by lia. + lia.
    - destruct (add_fresh_grown s1 p o op W Hop) as (s4 & E4 & G4 & _); try done.
      + by intros [_ Hh]. + by intros (_ & Hh & _).
      + unfold s2 in E3. rewrite E4 in E3. by injection E3 as <-. }
  assert (B : born_at (heap s) (heap s3) p (length (heap s1)) o) by (eapply grown_born; [done|exact G|done|by eexists]).
  destruct vs as [v|].
  - destruct (add_named_attribute (length (heap s1)) "values" v s3) as [[[]|ex] s4] eqn:E4; [|by rewrite (bind_exn _ _ _ _ _ E4) in E].
    rewrite (bind_ok _ _ _ _ _ E4) in E. injection E as <- <-. apply attr_retag in E4 as [R _].
    eexists. split; [done|]. split; [eapply retag_born; [exact B|exact R]|done].
  - injection E as <- <-. exists o. split; [done|]. split; [exact B|done].
Qed.
