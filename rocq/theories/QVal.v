(** * Values and attributes change only through their own calls *)
From Verif Require Import PExec PMono PHist PReach QFac QFac2 SpecVal SpecEnc.
From Verif Require Import History.

Definition content (o : obj) : list pyval * list (string * pyval) := (o_vals o, o_attr o).
Definition stays {A} (P : loc -> Prop) (m : M A) : Prop := forall s l, P l -> exists_in (heap s) l ->
  content <$> heap (snd (m s)) !! l = content <$> heap s !! l.

Section stays.
  Context (P : loc -> Prop).
  Lemma stays_exists {A} (m : M A) s l : stays P m -> P l -> exists_in (heap s) l -> exists_in (heap (snd (m s))) l.
  Proof. intros H Hp [o Ho]. specialize (H s l Hp ltac:(by eexists)). rewrite Ho in H. destruct (heap (snd (m s)) !! l) eqn:E; [by exists o0|done]. Qed.
  Lemma stays_ret {A} (a : A) : stays P (ret a).
  Proof. by intros s l _ _. Qed.
  Lemma stays_raise {A} e : stays P (@raise A e).
  Proof. by intros s l _ _. Qed.
  Lemma stays_bind {A B} (m : M A) (k : A -> M B) : stays P m -> (forall a, stays P (k a)) -> stays P (bind m k).
  Proof.
    intros Hm Hk s l Hl He. pose proof (stays_exists m s l Hm Hl He) as He1. specialize (Hm s l Hl He). unfold bind.
    destruct (m s) as [[a|e] s1]; cbn [snd] in *; [|done]. rewrite <- Hm. by apply Hk.
  Qed.
  Lemma stays_get : stays P get_st.
  Proof. by intros s l _ _. Qed.
  Lemma stays_deref l : stays P (deref l).
  Proof. intros s x _ _. unfold deref. by destruct (heap s !! l). Qed.
  Lemma stays_of_opt {A} e (x : option A) : stays P (of_opt e x).
  Proof. by destruct x. Qed.
  Lemma stays_hash x : stays P (hash x).
  Proof. by intros s l _ _. Qed.
  Lemma stays_now c : stays P (now c).
  Proof. by intros s l _ _. Qed.
  Lemma stays_upd l f : (~ P l) \/ (forall o, content (f o) = content o) -> stays P (upd l f).
  Proof.
    intros Hf s x Hx _. unfold upd. destruct (heap s !! l) as [o|] eqn:E; [|done]. cbn [snd heap set_heap].
    destruct (decide (x = l)) as [->|Hne]; [|by rewrite list_lookup_alter_ne]. rewrite list_lookup_alter, E. simpl.
    destruct Hf as [Hf|Hf]; [done|]. by rewrite Hf.
  Qed.
  Lemma stays_alloc o : stays P (alloc o).
  Proof. intros s l _ [o' Ho]. rewrite alloc_state. cbn [snd heap set_heap]. by rewrite (lookup_app_l_Some _ _ _ _ Ho), Ho. Qed.
  Lemma stays_for_each {A} (f : A -> M unit) l : (forall x, stays P (f x)) -> stays P (for_each f l).
  Proof. intros Hf. induction l as [|x l IH]; [apply stays_ret|]. simpl. apply stays_bind; [apply Hf|]. intros _. done. Qed.
  Lemma stays_map_m {A B} (f : A -> M B) l : (forall x, stays P (f x)) -> stays P (map_m f l).
  Proof.
    intros Hf. induction l as [|x l IH]; [apply stays_ret|]. simpl. apply stays_bind; [apply Hf|].
    intros y. apply stays_bind; [done|]. intros ys. apply stays_ret.
  Qed.
End stays.
Create HintDb stays.
Global Hint Resolve stays_ret stays_raise stays_get stays_deref stays_of_opt stays_hash stays_now stays_alloc : stays.
Ltac stays :=
  repeat first
    [ progress (eauto with stays)
    | apply stays_bind; [|intros ?]
    | apply stays_upd; by right
    | match goal with
      | |- stays _ (match ?x with _ => _ end) => destruct x
      | |- stays _ (let '_ := ?x in _) => destruct x
      end ].

Lemma stays_update P l : stays P (update l).
Proof. unfold update, update_timestamp, refresh_qname. stays. Qed.
Global Hint Resolve stays_update : stays.
Lemma stays_update_loop P fuel q : stays P (update_loop fuel q).
Proof. revert q. induction fuel as [|fuel IH]; intros [|x q]; simpl; stays. Qed.
Lemma stays_update_subtree P l : stays P (update_subtree l).
Proof. unfold update_subtree. pose proof (stays_update_loop P). stays. Qed.
Global Hint Resolve stays_update_subtree : stays.
Lemma stays_remove_one P p v : stays P (remove_one p v).
Proof. unfold remove_one. stays. Qed.
Lemma stays_remove_uuid P p nm u : stays P (remove_uuid p nm u).
Proof. unfold remove_uuid. stays. Qed.
Global Hint Resolve stays_remove_one stays_remove_uuid : stays.
Lemma stays_base_next P g : stays P (base_next g).
Proof. destruct g as [p nm u|p [|v vs]|]; simpl; stays. Qed.
Global Hint Resolve stays_base_next : stays.
Lemma stays_rel_next P p : stays P (rel_next p).
Proof. unfold rel_next. stays. Qed.
Lemma stays_edge_next P p nm u : stays P (edge_next p nm u).
Proof. unfold edge_next. stays. Qed.
Global Hint Resolve stays_rel_next stays_edge_next : stays.
Lemma stays_gen_next P g : stays P (gen_next g).
Proof. destruct g; unfold gen_next; stays. Qed.
Global Hint Resolve stays_gen_next : stays.
Lemma stays_gen_loop P body p vs : (forall x, stays P (body x)) -> stays P (gen_loop body p vs).
Proof. intros Hb. induction vs as [|v vs IH]; simpl; stays. Qed.
Lemma stays_for_gen P body g : (forall x, stays P (body x)) -> stays P (for_gen body g).
Proof. intros Hb. unfold for_gen. pose proof (fun p vs => stays_gen_loop P body p vs Hb). stays. Qed.
Lemma stays_for_gen_update P g : stays P (for_gen update g).
Proof. apply stays_for_gen. stays. Qed.
Global Hint Resolve stays_for_gen_update : stays.
Lemma stays_add_base P p c : stays P (add_base p c).
Proof. unfold add_base. stays. Qed.
Global Hint Resolve stays_add_base : stays.
Lemma stays_connect P x el : stays P (connect x el).
Proof. unfold connect. stays. Qed.
Global Hint Resolve stays_connect : stays.
Lemma stays_add_element P p c : stays P (add_element p c).
Proof. unfold add_element. stays. Qed.
Global Hint Resolve stays_add_element : stays.
Lemma stays_disconnect P x el : stays P (disconnect x el).
Proof. unfold disconnect. stays. Qed.
Lemma stays_deregister P x : stays P (deregister x).
Proof. unfold deregister. stays. Qed.
Lemma stays_register P x p : stays P (register x p).
Proof. unfold register. stays. Qed.
Lemma stays_gen_list_loop P p vs : stays P (gen_list_loop p vs).
Proof. induction vs as [|v vs IH]; simpl; stays. Qed.
Global Hint Resolve stays_gen_list_loop : stays.
Lemma stays_remove_all P p nm u : stays P (remove_all p nm u).
Proof. unfold remove_all. stays. Qed.
Lemma stays_new_conceptual P k nm u prog c parent : stays P (new_conceptual k nm u prog c parent).
Proof. unfold new_conceptual. stays. Qed.
Global Hint Resolve stays_disconnect stays_deregister stays_register stays_remove_all stays_new_conceptual : stays.
Lemma stays_unary_connect P e n w d sem : stays P (unary_connect e n w d sem).
Proof. unfold unary_connect, new_rel. stays. Qed.
Global Hint Resolve stays_unary_connect : stays.
Lemma stays_generate_uid P f nm : stays P (generate_uid f nm).
Proof. unfold generate_uid. stays. Qed.
Lemma stays_get_qualified_name P f nm : stays P (get_qualified_name f nm).
Proof. unfold get_qualified_name. stays. Qed.
Lemma stays_stamped P f nm p : stays P (stamped_name f nm p).
Proof. unfold stamped_name. stays. Qed.
Global Hint Resolve stays_generate_uid stays_get_qualified_name stays_stamped : stays.
Lemma stays_generate_node P f nm p : stays P (generate_node f nm p).
Proof. unfold generate_node, new_node. stays. Qed.
Global Hint Resolve stays_generate_node : stays.
Lemma stays_create_hyperedge P f p nm : stays P (create_hyperedge f p nm).
Proof. unfold create_hyperedge, new_edge, clock_of. stays. Qed.
Global Hint Resolve stays_create_hyperedge : stays.
Lemma stays_connect_each P he d nv : stays P (connect_each he d nv).
Proof. induction nv as [|[n v] nv IH]; simpl; stays. Qed.
Global Hint Resolve stays_connect_each : stays.
Lemma stays_connect_nodes P f p nm ns d vs : stays P (connect_nodes f p nm ns d vs).
Proof. unfold connect_nodes. stays. Qed.
Lemma stays_connect_2factor P f p nm ins outs d vs : stays P (connect_2factor_edges f p nm ins outs d vs).
Proof. unfold connect_2factor_edges. stays. Qed.
Lemma stays_connect_tuples P he ts : stays P (connect_tuples he ts).
Proof. induction ts as [|[[[n d] v] sv] ts IH]; simpl; stays. Qed.
Global Hint Resolve stays_connect_tuples : stays.
Lemma stays_connect_tuple_nodes P f p nm ts : stays P (connect_tuple_nodes f p nm ts).
Proof. unfold connect_tuple_nodes. stays. Qed.
Lemma stays_create_value P f p nm vs : stays P (create_value f p nm vs).
Proof. unfold create_value, new_value. stays. Qed.
Global Hint Resolve stays_connect_nodes stays_connect_2factor stays_connect_tuple_nodes stays_create_value : stays.

(** The element made here is new; whatever existed before keeps its content. *)
Lemma stays_semantic P f raw nm p attr vs : stays P (generate_semantic_element f raw nm p attr vs).
Proof.
  intros s l Hl He. unfold generate_semantic_element. destruct attr as [|kv attr]; [done|].
  rewrite (bind_ok _ _ _ _ _ (gen_uid_eq f nm s)). set (u := sha s _). clearbody u. set (s1 := set_tick (S (tick s)) s). assert (H1 : heap s1 = heap s) by done.
  rewrite <- H1 in He |- *. clearbody s1. clear H1 s. destruct (type_class _) as [c|]; [|done].
  set (Q := fun x => x < length (heap s1)). assert (Hq : Q l) by (by apply lookup_lt_is_Some).
  assert (H : exists s2, snd (stamped_name f nm p s1) = s2 /\ heap s2 = heap s1).
  { eexists. split; [done|]. unfold stamped_name, deref, bind, get_qualified_name. destruct (heap s1 !! p); done. }
  destruct H as (s2 & Hs2 & Hh). destruct (stamped_name f nm p s1) as [[q|e] s2'] eqn:E; cbn [snd] in Hs2; subst s2'.
  2: { rewrite (bind_exn _ _ _ _ _ E). cbn [snd]. by rewrite Hh. }
  rewrite (bind_ok _ _ _ _ _ E). unfold new_sem. rewrite (bind_ok _ _ _ _ _ (alloc_state s2 _)). set (o := s_attr _ _). set (s3 := set_heap _ s2).
  assert (H3 : heap s3 = heap s1 ++ [o]) by (unfold s3; cbn [heap set_heap]; by rewrite Hh).
  assert (H : content <$> heap s3 !! l = content <$> heap s1 !! l) by (rewrite H3, lookup_app_l; [done|done]).
  rewrite <- H. rewrite Hh.
  match goal with |- content <$> heap (snd (?m s3)) !! l = _ => cut (stays Q m); [intros X; apply X; [done|]|] end.
  { destruct He as [o' Ho]. rewrite H3. exists o'. by apply lookup_app_l_Some. }
  apply stays_bind; [apply stays_add_element|]. intros _. apply stays_bind; [|intros; apply stays_ret]. destruct vs; [|apply stays_ret].
  apply stays_upd. left. unfold Q. lia.
Qed.
Global Hint Resolve stays_semantic : stays.

Lemma stays_exec o : stays (fun l => touches o <> Some l) (exec o).
Proof.
  destruct o; cbn [exec touches]; unfold void, new_rel, new_port, new_value, new_sem, set_clock, generate_list_nodes,
    add_named_attribute, remove_named_attribute, update_value, update_values; stays.
  all: try (apply stays_upd; left; intros H; by apply H).
  all: try (apply stays_map_m; intros; stays).
Qed.

(** ** Indices *)
Lemma py_index_spec n i k : py_index n i = Some k <-> designates n i k.
Proof.
  unfold py_index, designates. destruct (Z.leb_spec 0 i).
  - destruct (Z.ltb_spec i (Z.of_nat n)); split; intros E; try done; [injection E as <-; lia| |lia].
    f_equal. lia.
  - destruct (Z.leb_spec (- Z.of_nat n) i); split; intros E; try done; [injection E as <-; lia| |lia].
    f_equal. lia.
Qed.
Lemma py_index_none n i : (forall k, ~ designates n i k) -> py_index n i = None.
Proof. intros H. destruct (py_index n i) as [k|] eqn:E; [|done]. apply py_index_spec in E. by apply H in E. Qed.

Lemma q_C49_read s v o i : heap s !! v = Some o ->
  (forall k x, designates (length (o_vals o)) i k -> o_vals o !! k = Some x -> get_value v i s = (Ok x, s)) /\
  ((forall k, ~ designates (length (o_vals o)) i k) -> get_value v i s = (Exn IndexError, s)) /\
  get_values v s = (Ok (o_vals o), s).
Proof.
  intros Ho. unfold get_value, get_values. rewrite !(bind_ok _ _ _ _ _ (deref_ok _ _ _ Ho)). split_and!; [| |done].
  - intros k x Hk Hx. apply py_index_spec in Hk. unfold list_get. by rewrite Hk, Hx.
  - intros H. unfold list_get. by rewrite (py_index_none _ _ H).
Qed.
Lemma only_upd s v o l' : heap s !! v = Some o -> only_values s (set_heap (alter (s_vals l') v (heap s)) s) v l'.
Proof.
  intros Ho. split; [by destruct s|]. split.
  - intros x Hx. cbn [heap set_heap]. by rewrite list_lookup_alter_ne.
  - exists o. split; [done|]. cbn [heap set_heap]. by rewrite list_lookup_alter, Ho.
Qed.
Lemma q_C49_write s v o i x : heap s !! v = Some o ->
  (forall k, designates (length (o_vals o)) i k -> exists l' s', update_value v i x s = (Ok tt, s') /\ exchanged (o_vals o) l' k x /\ only_values s s' v l') /\
  ((forall k, ~ designates (length (o_vals o)) i k) -> update_value v i x s = (Exn IndexError, s)) /\
  (forall l', exists s', update_values v l' s = (Ok tt, s') /\ only_values s s' v l').
Proof.
  intros Ho. unfold update_value, update_values. rewrite !(bind_ok _ _ _ _ _ (deref_ok _ _ _ Ho)). split_and!.
  - intros k Hk. exists (<[k := x]> (o_vals o)). eexists. pose proof Hk as [Hlt _]. apply py_index_spec in Hk. unfold list_put. rewrite Hk. cbn [of_opt].
    split; [rewrite (bind_ok (ret (<[k:=x]> (o_vals o))) _ s _ s) by done; by apply (upd_ok _ _ _ o)|]. split; [|by apply (only_upd _ _ o)].
    split; [apply insert_length|]. split; [by apply list_lookup_insert|]. intros j Hj. by rewrite list_lookup_insert_ne.
  - intros H. unfold list_put. by rewrite (py_index_none _ _ H).
  - intros l'. eexists. split; [rewrite (bind_ok (deref v) _ s _ _ (deref_ok _ _ _ Ho)); by apply (upd_ok _ _ _ o)|by apply (only_upd _ _ o)].
Qed.
Lemma q_C49_only s o l : exists_in (heap s) l -> touches o <> Some l ->
  vals_of (heap (snd (exec o s))) l = vals_of (heap s) l /\ attr_of o_attr (heap (snd (exec o s))) l = attr_of o_attr (heap s) l.
Proof.
  intros He Ht. pose proof (stays_exec o s l Ht He) as H. unfold vals_of, attr_of.
  destruct He as [o1 Ho]. rewrite Ho in *. destruct (heap (snd (exec o s)) !! l); [|done]. apply (inj Some) in H.
  split; simpl; [apply (f_equal fst H)|f_equal; apply (f_equal snd H)].
Qed.
Lemma history_mono g s s' : history g s s' -> mono s s'.
Proof. induction 1; [apply mono_refl|]. eapply mono_trans; [done|apply pres_exec]. Qed.
Lemma born_dim s vals v s1 : born s vals v s1 -> exists o, heap s1 !! v = Some o /\ o_dim o = length (default [] vals) /\ o_vals o = default [] vals.
Proof.
  assert (Hadd : forall s0 p (o : obj) x s', bind (alloc o) (fun l => add_element p l ;; ret l) s0 = (Ok x, s') ->
     exists o', heap s' !! x = Some o' /\ o_dim o' = o_dim o /\ o_vals o' = o_vals o).
  { intros s0 p o x s'. rewrite (bind_ok _ _ _ _ _ (alloc_state s0 o)). set (l := length (heap s0)). set (s2 := set_heap _ s0).
    assert (H2 : heap s2 !! l = Some o) by (unfold s2, l; cbn [heap set_heap]; rewrite lookup_app_r, Nat.sub_diag by lia; done).
    pose proof (pres_add_element p l s2) as Hm. pose proof (stays_add_element (fun _ => True) p l s2 l I ltac:(by eexists)) as Hc. unfold bind.
    destruct (add_element p l s2) as [[[]|e] s3]; cbn [snd] in *; [|done]. intros [= <- <-].
    destruct (m_obj _ _ Hm l o H2) as (o' & Ho' & M). exists o'. split; [done|]. split; [apply M|].
    rewrite Ho', H2 in Hc. apply (inj Some) in Hc. apply (f_equal fst Hc). }
  intros [u nm prog E|f p nm Hp E].
  - unfold new_value in E. rewrite alloc_state in E. injection E as <- <-. eexists. cbn [heap set_heap].
    rewrite lookup_app_r, Nat.sub_diag by lia. split; [reflexivity|]. done.
  - destruct p as [p|].
    + destruct Hp as [op Hp]. rewrite (value_eq f p nm vals op s Hp) in E. apply Hadd in E. exact E.
    + unfold create_value in E. rewrite (bind_ok _ _ _ _ _ (gen_uid_eq f nm s)) in E. unfold get_qualified_name, new_value in E.
      cbn in E. injection E as <- <-. eexists. cbn [heap set_heap]. rewrite lookup_app_r, Nat.sub_diag by (simpl; lia). split; [reflexivity|]. done.
Qed.
Lemma iter_seq s v o : heap s !! v = Some o -> forall n k, 
  map_m (fun i => get_value v (Z.of_nat i)) (seq k n) s =
  (if decide (n = 0 \/ k + n <= length (o_vals o)) then Ok (take n (drop k (o_vals o))) else Exn IndexError, s).
Proof.
  intros Ho. induction n as [|n IH]; intros k; [by rewrite decide_True by (by left)|]. cbn [seq map_m].
  assert (E : get_value v (Z.of_nat k) s = (match o_vals o !! k with Some x => Ok x | None => Exn IndexError end, s)).
  { destruct (q_C49_read s v o (Z.of_nat k) Ho) as (H1 & H2 & _). destruct (o_vals o !! k) as [x|] eqn:Ek.
    - apply (H1 k); [|done]. split; [by apply lookup_lt_Some in Ek|by left].
    - apply H2. intros j [Hj Hj']. apply lookup_ge_None in Ek. lia. }
  destruct (o_vals o !! k) as [x|] eqn:Ek.
  - rewrite (bind_ok _ _ _ _ _ E). specialize (IH (S k)). pose proof (lookup_lt_Some _ _ _ Ek) as Hlt. case_decide as Hd.
    + rewrite (bind_ok _ _ _ _ _ IH). rewrite decide_True by lia. rewrite (drop_S _ x k Ek). done.
    + rewrite (bind_exn _ _ _ _ _ IH). by rewrite decide_False by lia.
  - rewrite (bind_exn _ _ _ _ _ E). apply lookup_ge_None in Ek. rewrite decide_False by lia. done.
Qed.
Lemma q_C49_iter s vals v s1 s2 : born s vals v s1 -> history MAny s1 s2 ->
  let d := length (default [] vals) in
  get_values v s1 = (Ok (default [] vals), s1) /\
  exists l, get_values v s2 = (Ok l, s2) /\
    (length l = d -> iter_values v s2 = (Ok l, s2)) /\
    (length l < d -> iter_values v s2 = (Exn IndexError, s2)) /\
    (d < length l -> iter_values v s2 = (Ok (take d l), s2)).
Proof.
  intros B H d. destruct (born_dim _ _ _ _ B) as (o & Ho & Hd & Hv). split; [rewrite <- Hv; by apply (q_C49_read s1 v o 0 Ho)|].
  destruct (m_obj _ _ (history_mono _ _ _ H) v o Ho) as (o' & Ho' & M). exists (o_vals o').
  split; [by apply (q_C49_read s2 v o' 0 Ho')|]. unfold iter_values. rewrite (bind_ok _ _ _ _ _ (deref_ok _ _ _ Ho')).
  rewrite (om_dim _ _ _ _ M), Hd. fold d. rewrite (iter_seq s2 v o' Ho' d 0). rewrite drop_0. split_and!; intros Hl.
  - rewrite decide_True by lia. by rewrite take_ge by lia.
  - rewrite decide_False by lia. done.
  - by rewrite decide_True by lia.
Qed.
