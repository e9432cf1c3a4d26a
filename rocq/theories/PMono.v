(** * What no operation ever changes or decreases *)
From Verif Require Import Spec Hierarchy Elements Factory History PDict PPath PExec.

(** Between two states of one history: identity attributes are constant,
    counters of handed-out ids never decrease, time stamps are old or come from
    a clock reading in between. *)
Record obj_mono (s s' : st) (o o' : obj) : Prop := {
  om_kind : o_kind o' = o_kind o;
  om_uuid : o_uuid o' = o_uuid o;
  om_name : o_name o' = o_name o;
  om_prog : o_prog o' = o_prog o;
  om_hist : o_hist o <= o_hist o';
  om_ready : o_ready o = true -> o_ready o' = true;
  om_dir : o_dir o' = o_dir o;
  om_weight : o_weight o' = o_weight o;
  om_sem : o_sem o' = o_sem o;
  om_dim : o_dim o' = o_dim o;
  om_index : forall n, is_Some (dget n (o_index o)) -> is_Some (dget n (o_index o'));
  om_ep : o_endpoint o' = o_endpoint o \/ o_endpoint o' = None;
  om_clock : is_Some (o_clock o) -> is_Some (o_clock o');
  om_time : o_time o' = o_time o \/ exists c n, tick s <= n < tick s' /\ o_time o' = clk s c n
}.
Record mono (s s' : st) : Prop := {
  m_clk : clk s' = clk s;
  m_sha : sha s' = sha s;
  m_f1 : fr_hier s' = fr_hier s;
  m_f2 : fr_hyper s' = fr_hyper s;
  m_f3 : fr_query s' = fr_query s;
  m_tick : tick s <= tick s';
  m_len : length (heap s) <= length (heap s');
  m_obj : forall l o, heap s !! l = Some o -> exists o', heap s' !! l = Some o' /\ obj_mono s s' o o';
  m_new : forall l o, heap s !! l = None -> heap s' !! l = Some o -> is_conceptual (o_kind o) = true ->
    exists c n, n < tick s' /\ o_time o = clk s c n
}.

Lemma mono_refl s : mono s s.
Proof. split; try done; [|congruence]. intros l o H. exists o. split; [done|]. split; auto. Qed.
Lemma mono_trans s1 s2 s3 : mono s1 s2 -> mono s2 s3 -> mono s1 s3.
Proof.
  intros A B. split.
  - rewrite (m_clk _ _ B). apply A.
  - rewrite (m_sha _ _ B). apply A.
  - rewrite (m_f1 _ _ B). apply A.
  - rewrite (m_f2 _ _ B). apply A.
  - rewrite (m_f3 _ _ B). apply A.
  - etrans; [apply A|apply B].
  - etrans; [apply A|apply B].
  - intros l o H. destruct (m_obj _ _ A l o H) as (o2 & H2 & M2).
    destruct (m_obj _ _ B l o2 H2) as (o3 & H3 & M3). exists o3. split; [done|].
    destruct M2, M3. pose proof (m_tick _ _ A). pose proof (m_tick _ _ B). split; try congruence; try lia; auto.
    + destruct om_ep1 as [->| ->]; auto.
    + destruct om_time1 as [->|(c & n & Hn & ->)].
      * destruct om_time0 as [->|(c & n & Hn & ->)]; [by left|]. right. exists c, n. split; [lia|done].
      * right. exists c, n. rewrite (m_clk _ _ A). split; [lia|done].
  - intros l o3 H1 H3 Hk. destruct (heap s2 !! l) as [o2|] eqn:E2.
    + destruct (m_obj _ _ B l o2 E2) as (o3' & H3' & M3). rewrite H3 in H3'. injection H3' as <-.
      destruct (om_time _ _ _ _ M3) as [->|(c & n & Hn & ->)].
      * destruct (m_new _ _ A l o2 H1 E2) as (c & n & Hn & ->); [by rewrite <- (om_kind _ _ _ _ M3)|].
        exists c, n. pose proof (m_tick _ _ B). split; [lia|done].
      * exists c, n. rewrite (m_clk _ _ A). split; [lia|done].
    + destruct (m_new _ _ B l o3 E2 H3 Hk) as (c & n & Hn & ->). exists c, n. split; [done|]. by rewrite (m_clk _ _ A).
Qed.
Lemma mono_exists s s' l : mono s s' -> exists_in (heap s) l -> exists_in (heap s') l.
Proof. intros H [o Ho]. destruct (m_obj _ _ H l o Ho) as (o' & Ho' & _). by exists o'. Qed.

Definition pres {A} (m : M A) : Prop := forall s, mono s (snd (m s)).

Lemma pres_ret {A} (a : A) : pres (ret a).
Proof. intros s. apply mono_refl. Qed.
Lemma pres_raise {A} e : pres (@raise A e).
Proof. intros s. apply mono_refl. Qed.
Lemma pres_bind {A B} (m : M A) (k : A -> M B) : pres m -> (forall a, pres (k a)) -> pres (bind m k).
Proof.
  intros Hm Hk s. unfold bind. specialize (Hm s). destruct (m s) as [[a|e] s1]; simpl in *; [|done].
  eapply mono_trans; [done|apply Hk].
Qed.
Lemma pres_get : pres get_st.
Proof. intros s. apply mono_refl. Qed.
Lemma pres_deref l : pres (deref l).
Proof. intros s. unfold deref. destruct (heap s !! l); apply mono_refl. Qed.
Lemma pres_of_opt {A} e (x : option A) : pres (of_opt e x).
Proof. destruct x; [apply pres_ret|apply pres_raise]. Qed.
Lemma pres_hash x : pres (hash x).
Proof. intros s. apply mono_refl. Qed.
Lemma pres_now c : pres (now c).
Proof.
  intros s. unfold now. simpl. split; simpl; try done; [lia| |congruence].
  intros l o H. exists o. split; [done|]. split; auto.
Qed.

Lemma obj_mono_refl s s' o : obj_mono s s' o o.
Proof. split; auto. Qed.

(** Assignments that respect [mono] unconditionally. *)
Definition good (f : obj -> obj) : Prop := forall s s' o, obj_mono s s' o (f o).
Lemma mono_upd s s' l f : clk s' = clk s -> sha s' = sha s -> fr_hier s' = fr_hier s ->
  fr_hyper s' = fr_hyper s -> fr_query s' = fr_query s -> tick s <= tick s' ->
  heap s' = alter f l (heap s) -> (forall o, heap s !! l = Some o -> obj_mono s s' o (f o)) -> mono s s'.
Proof.
  intros H1 H2 H3 H4 H5 H6 H7 H8. split; try done.
  - rewrite H7, alter_length. done.
  - intros i o Hi. rewrite H7. destruct (decide (l = i)) as [->|Hne].
    + exists (f o). rewrite list_lookup_alter, Hi. auto.
    + exists o. rewrite list_lookup_alter_ne by done. split; [done|]. apply obj_mono_refl.
  - intros i o Hi Hi'. apply lookup_ge_None in Hi. apply lookup_lt_Some in Hi'. rewrite H7, alter_length in Hi'. lia.
Qed.
Lemma pres_upd l f : good f -> pres (upd l f).
Proof.
  intros Hf s. unfold upd. destruct (heap s !! l) eqn:E; [|apply mono_refl]. simpl.
  eapply mono_upd with (l := l) (f := f); try done.
Qed.
Lemma pres_alloc o : is_conceptual (o_kind o) = false -> pres (alloc o).
Proof.
  intros Hko s. unfold alloc. simpl. split; try done.
  - simpl. rewrite app_length. lia.
  - simpl. intros l o' H. exists o'. split; [by apply lookup_app_l_Some|apply obj_mono_refl].
  - simpl. intros l o' H H' Hk. apply lookup_ge_None in H. rewrite lookup_app_r in H' by done.
    destruct (l - length (heap s)); [|done]. injection H' as <-. congruence.
Qed.
Lemma dset_keeps {K V} `{EqDecision K} (k k' : K) (v : V) d : is_Some (dget k' d) -> is_Some (dget k' (dset k v d)).
Proof. rewrite dget_dset. case_decide; eauto. Qed.
Ltac good := by (intros ? ? ?; split; simpl; auto using dset_keeps; lia).

Lemma pres_for_each {A} (f : A -> M unit) l : (forall x, pres (f x)) -> pres (for_each f l).
Proof.
  intros Hf. induction l as [|x l IH]; [apply pres_ret|]. simpl. apply pres_bind; [apply Hf|]. intros _. done.
Qed.
Lemma pres_map_m {A B} (f : A -> M B) l : (forall x, pres (f x)) -> pres (map_m f l).
Proof.
  intros Hf. induction l as [|x l IH]; [apply pres_ret|]. simpl. apply pres_bind; [apply Hf|].
  intros y. apply pres_bind; [done|]. intros ys. apply pres_ret.
Qed.

Global Hint Resolve pres_ret pres_raise pres_get pres_deref pres_of_opt pres_hash pres_now : pres.
Ltac pres :=
  repeat first
    [ progress (eauto with pres)
    | apply pres_bind; [|intros ?]
    | apply pres_upd; good
    | apply pres_alloc; done
    | match goal with
      | |- pres (match ?x with _ => _ end) => destruct x
      | |- pres (let '_ := ?x in _) => destruct x
      end ].

Lemma pres_update_timestamp l : pres (update_timestamp l).
Proof.
  unfold update_timestamp. apply pres_bind; [apply pres_deref|]. intros o.
  destruct (o_clock o) as [c|]; [|apply pres_raise]. intros s. unfold now, bind, upd. simpl.
  destruct (heap s !! l) eqn:E; simpl.
  - eapply mono_upd with (l := l) (f := s_time (clk s c (tick s))); try done; [simpl; lia|].
    intros o1 _. split; simpl; auto. right. exists c, (tick s). split; [lia|done].
  - apply (pres_now c).
Qed.
Lemma pres_refresh l : pres (refresh_qname l).
Proof. unfold refresh_qname. pres. Qed.
Lemma pres_update l : pres (update l).
Proof. unfold update. pose proof pres_update_timestamp. pose proof pres_refresh. pres. Qed.
Global Hint Resolve pres_update : pres.
Lemma pres_update_loop fuel q : pres (update_loop fuel q).
Proof.
  revert q. induction fuel as [|fuel IH]; intros [|x q]; simpl; pres.
Qed.
Lemma pres_update_subtree l : pres (update_subtree l).
Proof. unfold update_subtree. pose proof pres_update_loop. pres. Qed.
Global Hint Resolve pres_update_subtree : pres.
Lemma pres_remove_one p v : pres (remove_one p v).
Proof. unfold remove_one. pres. Qed.
Lemma pres_remove_uuid p nm u : pres (remove_uuid p nm u).
Proof. unfold remove_uuid. pres. Qed.
Global Hint Resolve pres_remove_one pres_remove_uuid : pres.
Lemma pres_base_next g : pres (base_next g).
Proof. destruct g as [p nm u|p [|v vs]|]; simpl; pres. Qed.
Global Hint Resolve pres_base_next : pres.
Lemma pres_rel_next p : pres (rel_next p).
Proof. unfold rel_next. pres. Qed.
Lemma pres_edge_next p nm u : pres (edge_next p nm u).
Proof. unfold edge_next. pres. Qed.
Global Hint Resolve pres_rel_next pres_edge_next : pres.
Lemma pres_gen_next g : pres (gen_next g).
Proof. destruct g; unfold gen_next; pres. Qed.
Global Hint Resolve pres_gen_next : pres.
Lemma pres_gen_loop body p vs : (forall x, pres (body x)) -> pres (gen_loop body p vs).
Proof. intros Hb. induction vs as [|v vs IH]; simpl; pres. Qed.
Lemma pres_for_gen body g : (forall x, pres (body x)) -> pres (for_gen body g).
Proof. intros Hb. unfold for_gen. pose proof (fun p vs => pres_gen_loop body p vs Hb). pres. Qed.
Lemma pres_for_gen_update g : pres (for_gen update g).
Proof. apply pres_for_gen. pres. Qed.
Global Hint Resolve pres_for_gen_update : pres.
Lemma pres_add_base p c : pres (add_base p c).
Proof. unfold add_base. pres. Qed.
Global Hint Resolve pres_add_base : pres.
Lemma pres_connect x el : pres (connect x el).
Proof. unfold connect. pres. Qed.
Global Hint Resolve pres_connect : pres.
Lemma pres_add_element p c : pres (add_element p c).
Proof. unfold add_element. pres. Qed.
Global Hint Resolve pres_add_element : pres.
Lemma pres_disconnect x el : pres (disconnect x el).
Proof. unfold disconnect. pres. Qed.
Lemma pres_deregister x : pres (deregister x).
Proof. unfold deregister. pres. Qed.
Lemma pres_register x p : pres (register x p).
Proof. unfold register. pres. Qed.
Lemma pres_gen_list_loop p vs : pres (gen_list_loop p vs).
Proof. induction vs as [|v vs IH]; simpl; pres. Qed.
Global Hint Resolve pres_gen_list_loop : pres.
Lemma pres_remove_all p nm u : pres (remove_all p nm u).
Proof. unfold remove_all. pres. Qed.
Lemma pres_gen_take j g : pres (gen_take j g).
Proof. revert g. induction j as [|j IH]; intros g; simpl; pres. Qed.
Lemma pres_new_conceptual k nm u prog c parent : pres (new_conceptual k nm u prog c parent).
Proof.
  unfold new_conceptual. destruct c as [c|]; [|pres]. intros s.
  rewrite (bind_ok (now c) _ s (clk s c (tick s)) (set_tick (S (tick s)) s)) by done.
  set (o := s_ready _ _). set (s1 := set_tick (S (tick s)) s). set (s2 := set_heap (heap s1 ++ [o]) s1).
  rewrite (bind_ok (alloc o) _ s1 (length (heap s)) s2) by done.
  eapply mono_trans with s2.
  - split; try done; unfold s2; cbn [heap set_heap tick set_tick s1].
    + lia.
    + rewrite app_length. lia.
    + intros l o' H. exists o'. split; [by apply lookup_app_l_Some|apply obj_mono_refl].
    + intros l o' H H' Hk. apply lookup_ge_None in H. rewrite lookup_app_r in H' by done.
      destruct (l - length (heap s)) eqn:El; [|done]. injection H' as <-. exists c, (tick s). split; [lia|done].
  - match goal with |- mono _ (snd (?m s2)) => cut (pres m); [intros HH; apply HH|] end. pres.
Qed.
Global Hint Resolve pres_disconnect pres_deregister pres_register pres_remove_all pres_new_conceptual : pres.
Lemma pres_unary_connect e n w d sem : pres (unary_connect e n w d sem).
Proof. unfold unary_connect, new_rel. pres. Qed.
Global Hint Resolve pres_unary_connect : pres.
Lemma pres_update_value v i x : pres (update_value v i x).
Proof. unfold update_value. pres. Qed.
Lemma pres_update_values v l : pres (update_values v l).
Proof. unfold update_values. pres. Qed.
Lemma pres_generate_uid f nm : pres (generate_uid f nm).
Proof. unfold generate_uid. pres. Qed.
Lemma pres_get_qualified_name f nm : pres (get_qualified_name f nm).
Proof. unfold get_qualified_name. pres. Qed.
Lemma pres_stamped f nm p : pres (stamped_name f nm p).
Proof. unfold stamped_name. pres. Qed.
Global Hint Resolve pres_update_value pres_update_values pres_generate_uid pres_get_qualified_name pres_stamped : pres.
Lemma pres_generate_node f nm p : pres (generate_node f nm p).
Proof. unfold generate_node, new_node. pres. Qed.
Global Hint Resolve pres_generate_node : pres.
Lemma pres_create_hyperedge f p nm : pres (create_hyperedge f p nm).
Proof. unfold create_hyperedge, new_edge, clock_of. pres. Qed.
Global Hint Resolve pres_create_hyperedge : pres.
Lemma pres_connect_each he d nv : pres (connect_each he d nv).
Proof. induction nv as [|[n v] nv IH]; simpl; pres. Qed.
Global Hint Resolve pres_connect_each : pres.
Lemma pres_connect_nodes f p nm ns d vs : pres (connect_nodes f p nm ns d vs).
Proof. unfold connect_nodes. pres. Qed.
Lemma pres_connect_2factor f p nm ins outs d vs : pres (connect_2factor_edges f p nm ins outs d vs).
Proof. unfold connect_2factor_edges. pres. Qed.
Lemma pres_connect_tuples he ts : pres (connect_tuples he ts).
Proof. induction ts as [|[[[n d] v] sv] ts IH]; simpl; pres. Qed.
Global Hint Resolve pres_connect_tuples : pres.
Lemma pres_connect_tuple_nodes f p nm ts : pres (connect_tuple_nodes f p nm ts).
Proof. unfold connect_tuple_nodes. pres. Qed.
Lemma pres_create_value f p nm vs : pres (create_value f p nm vs).
Proof. unfold create_value, new_value. pres. Qed.
Lemma pres_semantic f raw nm p attr vs : pres (generate_semantic_element f raw nm p attr vs).
Proof. unfold generate_semantic_element, new_sem, add_named_attribute. pres. Qed.
Global Hint Resolve pres_connect_nodes pres_connect_2factor pres_connect_tuple_nodes pres_create_value pres_semantic : pres.

Lemma pres_exec o : pres (exec o).
Proof.
  destruct o; cbn [exec]; unfold void, new_rel, new_port, new_value, new_sem, set_clock, generate_list_nodes,
    add_named_attribute, remove_named_attribute; pres.
  all: try (apply pres_map_m; intros; pres).
  all: try (intros s; apply mono_refl).
Qed.
