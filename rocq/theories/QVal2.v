(** * Type names, directions, semantic elements *)
From stdpp Require Import relations.
From Verif Require Import Spec SpecTrav Hierarchy Elements Factory History Traverse Mapping PDict PExec PWF PReach QHier QHier2 QHier3 QHier4 QHier5 QHier6 QFac SpecFac QFac2 QEnc SpecVal.

Local Notation is_space := Factory.is_space (only parsing).

(** ** Spelling *)
Fixpoint del_us (s : string) : string :=
  match s with EmptyString => "" | String a s' => if decide (a = underscore) then del_us s' else String a (del_us s') end.
Lemma join_split s : join "" (split_on underscore s) = del_us s.
Proof.
  induction s as [|a s IH]; [done|]. cbn [split_on del_us]. case_decide as Ha.
  - destruct (split_on underscore s) as [|x l]; [done|]. exact IH.
  - destruct (split_on underscore s) as [|x [|y l]].
    + by rewrite <- IH.
    + by rewrite <- IH.
    + rewrite <- IH. done.
Qed.
Ltac all_ascii a := destruct a as [[] [] [] [] [] [] [] []].
Lemma space_lower a : is_space (lower_ascii a) = is_space a.
Proof. by all_ascii a. Qed.
Lemma lower_us a : a = underscore <-> lower_ascii a = underscore.
Proof. by all_ascii a. Qed.
Lemma lower_idem a : lower_ascii (lower_ascii a) = lower_ascii a.
Proof. by all_ascii a. Qed.
Lemma blank_space a : blank_char a <-> is_space a = true.
Proof.
  unfold blank_char, is_space. cbv zeta. set (n := nat_of_ascii a). clearbody n. rewrite !orb_true_iff, !andb_true_iff, !Nat.leb_le, Nat.eqb_eq.
  rewrite !elem_of_cons, elem_of_nil. lia.
Qed.
Lemma letter_lower a : same_letter a (lower_ascii a).
Proof.
  unfold same_letter, lower_ascii. destruct ((65 <=? nat_of_ascii a) && (nat_of_ascii a <=? 90)) eqn:E; [|by left].
  apply andb_true_iff in E as [E1 E2]. apply Nat.leb_le in E1, E2. right. split; [done|]. apply nat_ascii_embedding. lia.
Qed.
Lemma letter_inv a b : same_letter a b -> lower_ascii b = b -> lower_ascii a = b.
Proof.
  intros [->|[H1 H2]] Hb; [done|]. unfold lower_ascii. destruct H1 as [H1 H3].
  apply Nat.leb_le in H1, H3. rewrite H1, H3. simpl. rewrite <- H2. apply ascii_nat_embedding.
Qed.

Lemma sapp a s t : String a s +:+ t = String a (s +:+ t).
Proof. reflexivity. Qed.
Lemma lower_app s t : lower (s +:+ t) = lower s +:+ lower t.
Proof. induction s as [|a s IH]; [done|]. cbn [lower]. change (String a s +:+ t) with (String a (s +:+ t)). cbn [lower]. by rewrite IH. Qed.
Lemma lstrip_lower s : lstrip (lower s) = lower (lstrip s).
Proof. induction s as [|a s IH]; [done|]. simpl. rewrite space_lower. by destruct (is_space a). Qed.
Lemma rstrip_lower s : rstrip (lower s) = lower (rstrip s).
Proof. induction s as [|a s IH]; [done|]. simpl. rewrite IH. destruct (rstrip s); simpl; [|done]. rewrite space_lower. by destruct (is_space a). Qed.
Lemma lstrip_split s : exists w, all_blank w /\ s = w +:+ lstrip s.
Proof.
  induction s as [|a s (w & Hw & IH)]; [by exists ""|]. simpl. destruct (is_space a) eqn:E; [|by exists ""].
  exists (String a w). split; [split; [by apply blank_space|done]|]. change (String a w +:+ lstrip s) with (String a (w +:+ lstrip s)). by rewrite <- IH.
Qed.
Lemma rstrip_split s : exists w, all_blank w /\ s = rstrip s +:+ w.
Proof.
  induction s as [|a s (w & Hw & IH)]; [by exists ""|]. simpl. destruct (rstrip s) as [|b t] eqn:Es.
  - destruct (is_space a) eqn:E.
    + exists (String a w). split; [split; [by apply blank_space|done]|]. rewrite IH at 1. done.
    + exists w. split; [done|]. rewrite IH at 1. done.
  - exists w. split; [done|]. rewrite !sapp. rewrite sapp in IH. by rewrite <- IH.
Qed.
Fixpoint no_blank (s : string) : Prop := match s with EmptyString => True | String a s' => is_space a = false /\ no_blank s' end.
Lemma lstrip_blank w s : all_blank w -> lstrip (w +:+ s) = lstrip s.
Proof. induction w as [|a w IH]; [done|]. intros [H1 H2]. rewrite sapp. cbn [lstrip]. apply blank_space in H1. rewrite H1. by apply IH. Qed.
Lemma rstrip_blank w : all_blank w -> rstrip w = "".
Proof. induction w as [|a w IH]; [done|]. intros [H1 H2]. simpl. rewrite (IH H2). apply blank_space in H1. by rewrite H1. Qed.
Lemma rstrip_core c w : no_blank c -> all_blank w -> rstrip (c +:+ w) = c.
Proof.
  intros Hc Hw. induction c as [|a c IH]; [by apply rstrip_blank|]. destruct Hc as [H1 H2]. rewrite sapp. cbn [rstrip]. rewrite (IH H2). destruct c; [by rewrite H1|done].
Qed.
Lemma strip_core w1 c w2 : all_blank w1 -> all_blank w2 -> no_blank c -> c <> "" -> strip (w1 +:+ c +:+ w2) = c.
Proof.
  intros H1 H2 Hc Hn. unfold strip. rewrite (lstrip_blank _ _ H1). destruct c as [|a c]; [done|]. rewrite sapp. cbn [lstrip]. destruct Hc as [Ha Hc]. rewrite Ha.
  rewrite <- sapp. by apply rstrip_core.
Qed.
Lemma app_assoc_str (a b c : string) : (a +:+ b) +:+ c = a +:+ b +:+ c.
Proof. induction a as [|x a IH]; [done|]. rewrite !sapp. by rewrite IH. Qed.
Lemma strip_split s : exists w1 w2, all_blank w1 /\ all_blank w2 /\ s = w1 +:+ strip s +:+ w2.
Proof.
  destruct (lstrip_split s) as (w1 & H1 & E1). destruct (rstrip_split (lstrip s)) as (w2 & H2 & E2). exists w1, w2. split_and!; [done|done|].
  unfold strip. rewrite <- E2. done.
Qed.

(** the shape of the ten names *)
Fixpoint plain_name (t : string) : Prop :=
  match t with EmptyString => True | String a t' => a <> underscore /\ lower_ascii a = a /\ is_space a = false /\ plain_name t' end.
Lemma spelled_del c : spelled c (del_us (lower c)).
Proof.
  induction c as [|a c IH]; [constructor|]. simpl. case_decide as Ha.
  - apply lower_us in Ha. subst a. by constructor.
  - constructor; [apply letter_lower|done].
Qed.
Lemma spelled_inv c t : spelled c t -> plain_name t -> del_us (lower c) = t /\ no_blank c.
Proof.
  induction 1 as [|c t H IH|a b c t Hl H IH]; [done| |].
  - intros Hp. destruct (IH Hp) as [I1 I2]. split; [|split; [done|done]]. cbn [lower del_us]. rewrite decide_True by done. done.
  - intros (P1 & P2 & P3 & P4). destruct (IH P4) as [I1 I2]. pose proof (letter_inv _ _ Hl P2) as E. split.
    + cbn [lower del_us]. rewrite E. rewrite decide_False by done. by rewrite I1.
    + split; [|done]. rewrite <- space_lower, E. done.
Qed.
Lemma norm_spec raw t : plain_name t -> t <> "" -> norm_type raw = t <-> typed_as raw t.
Proof.
  intros Hp Hn. unfold norm_type. rewrite join_split. assert (Es : strip (lower raw) = lower (strip raw)) by (unfold strip; by rewrite lstrip_lower, rstrip_lower).
  rewrite Es. split.
  - intros <-. destruct (strip_split raw) as (w1 & w2 & H1 & H2 & E). exists w1, (strip raw), w2. split_and!; [done|done|done|apply spelled_del].
  - intros (w1 & core & w2 & -> & H1 & H2 & Hs). destruct (spelled_inv _ _ Hs Hp) as [I1 I2]. rewrite strip_core; [done..|].
    intros ->. by inversion Hs; subst.
Qed.
Lemma names_plain t c : (t, c) ∈ type_names -> plain_name t /\ t <> "" /\ type_class t = Some c.
Proof.
  unfold type_names. rewrite !elem_of_cons, elem_of_nil. intros H.
  repeat (destruct H as [[= -> ->]|H]; [split_and!; [cbn; split_and!; done|done|vm_compute; reflexivity]|]). done.
Qed.
Lemma class_in t c : type_class t = Some c -> (t, c) ∈ type_names.
Proof.
  unfold type_class, type_names. intros H.
  repeat (case_decide; [subst t; injection H as <-; repeat (try apply elem_of_list_here; apply elem_of_list_further); fail|]). done.
Qed.
Lemma class_spec raw c : type_class (norm_type raw) = Some c <-> exists t, (t, c) ∈ type_names /\ typed_as raw t.
Proof.
  split.
  - intros H. exists (norm_type raw). apply class_in in H. split; [done|]. destruct (names_plain _ _ H) as (H1 & H2 & _). by apply norm_spec.
  - intros (t & H & Ht). destruct (names_plain _ _ H) as (H1 & H2 & H3). apply norm_spec in Ht; [|done..]. by rewrite Ht.
Qed.

(** ** C52 *)
Lemma q_C52 : (forall d, dir_enum_relation (direction_to_text d) = Ok d) /\
  (forall t d, dir_enum_relation t = Ok d <-> t = direction_to_text d) /\
  (forall t, (forall d, t <> direction_to_text d) -> dir_enum_relation t = Exn ErrorInvalidDirection).
Proof.
  split_and!.
  - by intros [].
  - intros t d. unfold dir_enum_relation. split; [|intros ->; by destruct d]. intros E. repeat case_decide; simplify_eq; done.
  - intros t H. unfold dir_enum_relation. rewrite (decide_False (P := t = _)) by apply (H INWARDS).
    rewrite (decide_False (P := t = _)) by apply (H OUTWARDS). by rewrite (decide_False (P := t = _)) by apply (H BIDIRECTIONAL).
Qed.

(** ** C50 *)
Lemma get_attr_iff s' el k v a : attr_of o_attr (heap s') el = Some a -> get_attribute el k s' = (Ok v, s') <-> v = default PNone (dget k a).
Proof.
  unfold attr_of. intros H. destruct (heap s' !! el) as [o|] eqn:E; [|done]. apply (inj Some) in H.
  unfold get_attribute. rewrite (bind_ok _ _ _ _ _ (deref_ok _ _ _ E)), H. split; [by intros [= <-]|by intros ->].
Qed.
Lemma q_C50_empty f raw nm p vs s : generate_semantic_element f raw nm p [] vs s = (Exn ErrorInsufficientValues, s).
Proof. done. Qed.
Lemma q_C50_other f raw nm p attr vs s : attr <> [] -> (forall t c, (t, c) ∈ type_names -> ~ typed_as raw t) ->
  generate_semantic_element f raw nm p attr vs s = (Exn InvalidSemanticType, set_tick (S (tick s)) s).
Proof.
  intros Ha H. unfold generate_semantic_element. destruct attr as [|kv attr]; [done|]. rewrite (bind_ok _ _ _ _ _ (gen_uid_eq f nm s)).
  destruct (type_class (norm_type raw)) as [c|] eqn:E; [|done]. apply class_spec in E as (t & Ht & Hr). by destruct (H t c Ht Hr).
Qed.
Lemma sem_values s s' p el c nm attr v : sem_made s s' p el c nm attr None -> exists_in (heap s) p ->
  exists s'', add_named_attribute el "values" v s' = (Ok tt, s'') /\ sem_made s s'' p el c nm attr (Some v).
Proof.
  intros M Hp. assert (Hel : exists o, heap s' !! el = Some o).
  { pose proof (sm_kind _ _ _ _ _ _ _ _ M) as H. unfold kind_of in H. destruct (heap s' !! el) as [o|]; [by exists o|done]. }
  destruct Hel as [o Ho]. eexists. split; [by apply (upd_ok _ _ _ o)|]. set (s'' := set_heap _ s').
  assert (Hn : forall l, l <> el -> heap s'' !! l = heap s' !! l) by (intros l Hl; unfold s''; cbn [heap set_heap]; by rewrite list_lookup_alter_ne).
  assert (He : heap s'' !! el = Some (s_attr (dset "values" v (o_attr o)) o)) by (unfold s''; cbn [heap set_heap]; by rewrite list_lookup_alter, Ho).
  assert (Hne : forall l, exists_in (heap s) l -> l <> el) by (intros l Hl ->; by apply (sm_new _ _ _ _ _ _ _ _ M)).
  assert (G : forall A (f : obj -> A), (forall a o, f (s_attr a o) = f o) -> f <$> heap s'' !! el = f <$> heap s' !! el).
  { intros A f Hf. rewrite He, Ho. simpl. by rewrite Hf. }
  destruct M as [M1 M2 M3 M4 M5 M6 M7 M8 M9]. split.
  - done.
  - unfold kind_of. rewrite (G _ o_kind) by done. done.
  - unfold name_of. rewrite (G _ o_name) by done. done.
  - rewrite <- M4. unfold parent_of. by rewrite He, Ho.
  - rewrite <- M5. unfold children. by rewrite He, Ho.
  - rewrite <- M6. unfold children. by rewrite (Hn p (Hne p Hp)).
  - intros k w. rewrite (get_attr_iff s'' el k w (dset "values" v (o_attr o))) by (unfold attr_of; by rewrite He).
    rewrite dget_dset. specialize (M7 k). assert (Ha : attr_of o_attr (heap s') el = Some (o_attr o)) by (unfold attr_of; by rewrite Ho).
    case_decide as Hk.
    + done.
    + specialize (M7 w). by rewrite <- M7, (get_attr_iff s' el k w _ Ha).
  - intros l Hl Hlp. rewrite (Hn l (Hne l Hl)). by apply M8.
  - by rewrite (Hn p (Hne p Hp)).
Qed.
Lemma q_C50_made f raw nm p attr vs s t c : reach s -> exists_in (heap s) p -> attr <> [] -> (t, c) ∈ type_names -> typed_as raw t ->
  let u := sha s (uid_text (f_name f) nm (clk s (f_clock f) (tick s))) in
  ((forall x, x ∈ children (heap s) p -> uuid_of (heap s) x <> u) /\
     exists el s', generate_semantic_element f raw nm p attr vs s = (Ok el, s') /\ reach s' /\ sem_made s s' p el c nm attr vs) \/
  ((exists x, x ∈ children (heap s) p /\ uuid_of (heap s) x = u) /\
     exists s', generate_semantic_element f raw nm p attr vs s = (Exn ErrorDuplicateElement, s') /\ forall l, exists_in (heap s) l -> heap s' !! l = heap s !! l).
Proof.
  intros R [op Hp] Ha Ht Hr u. assert (Hc : type_class (norm_type raw) = Some c) by (apply class_spec; by exists t).
  pose proof (sem_eq f raw nm p attr vs c op s Hp Ha Hc) as E. fold u in E. set (o := s_attr attr _) in E. set (s2 := set_tick _ s) in E.
  pose proof (reach_wf s R) as W. assert (Hlt : p < length (heap s)) by (by apply lookup_lt_Some in Hp).
  rewrite (bind_ok _ _ _ _ _ (alloc_state s2 o)) in E. set (s3 := set_heap (heap s2 ++ [o]) s2) in E. set (el := length (heap s2)) in E.
  assert (Hel : heap s3 !! el = Some o) by (unfold s3, el; cbn [heap set_heap]; rewrite lookup_app_r, Nat.sub_diag by lia; done).
  assert (Hp3 : heap s3 !! p = Some op) by (unfold s3; cbn [heap set_heap]; by rewrite lookup_app_l).
  destruct (dup_child (heap s) p op u W Hp) as [(x & Hx & Hx')|Hu].
  - right. split.
    { exists x. split; [done|]. destruct (wf_sub _ W p op _ x Hp Hx) as (ox & Hox & Hu & _). unfold uuid_of. by rewrite Hox. }
    exists s3. split.
    + rewrite E. rewrite (bind_exn _ _ _ _ _ (q_C07_dup s3 p el op o x Hp3 Hel ltac:(unfold el; cbn; lia) Hx)). done.
    + intros l Hl. unfold s3. cbn [heap set_heap]. by apply lookup_app_l, lookup_lt_is_Some.
  - left. split; [done|].
    destruct (add_fresh_step s2 p o op W Hp) as (s4 & E4 & S4); try done; [by intros [_ ?]|by intros (_ & ? & _)|].
    fold s3 el in E4, S4. rewrite (bind_ok _ _ _ _ _ E4) in E. change (heap s2) with (heap s) in *. fold el in S4.
    pose proof (s1_grown _ _ _ _ _ S4) as G4. destruct (gr_fresh _ _ _ _ _ G4) as (F1 & F2 & F3 & F4).
    assert (M : sem_made s s4 p el c nm attr None).
    { split; try done.
      - unfold kind_of. by rewrite (fixed_get o_kind _ _ o ltac:(done) F4).
      - unfold name_of. by rewrite (fixed_get o_name _ _ o ltac:(done) F4).
      - apply G4.
      - intros k v. rewrite (get_attr_iff s4 el k v attr). { by case_decide. }
        unfold attr_of. by rewrite (fixed_get o_attr _ _ o ltac:(done) F4).
      - apply S4.
      - apply S4. }
    assert (HR : forall s', generate_semantic_element f raw nm p attr vs s = (Ok el, s') -> reach s').
    { intros s' E'. eapply (reach_void s _ (OSemantic f raw nm p attr vs) el s' R); [by eexists|reflexivity|exact E']. }
    destruct vs as [v|].
    + destruct (sem_values _ _ _ _ _ _ _ v M ltac:(by eexists)) as (s5 & E5 & M5). rewrite (bind_ok _ _ _ _ _ E5) in E.
      exists el, s5. split; [done|]. split; [by apply HR|done].
    + exists el, s4. split; [done|]. split; [by apply HR|done].
Qed.
