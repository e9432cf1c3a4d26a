(** * C78: reading or converting a description changes nothing that existed before *)
From stdpp Require Import relations.
From Verif Require Import SpecFrame PDict QFrame CogniLang Encode Convert.

Section frame.
  Context (fl : string -> option Qc) (rad : Qc) (R : loc -> Prop).
  Notation iso := (iso true R).
  Notation good := (good true R).
  Notation any := (fun _ => True).

  Record lin (d : loader) : Prop := mkLin { li_cache : forall k x, (k, x) ∈ ld_cache d -> R x; li_params : R (ld_params d) }.
  Lemma iso_lift {A} (r : res A) : iso any (lift r).
  Proof. destruct r; [by apply iso_ret|apply iso_raise]. Qed.
  Lemma iso_cache x d : R x -> lin d -> iso lin (cache_element x d).
  Proof.
    intros Hx [Hc Hp]. unfold cache_element. eapply iso_bind; [apply iso_read|]. intros o _. apply iso_ret. constructor; [|done].
    cbn. intros k y Hk. apply in_dset in Hk as [[= -> ->]|Hk]; [done|]. by apply (Hc k).
  Qed.
  Lemma iso_cached ns d : lin d -> iso R (cached ns d).
  Proof. intros [Hc _]. apply iso_of_opt. intros x E. apply dget_in in E. by eapply Hc. Qed.
  Lemma iso_fold {A B} (P : B -> Prop) (f : A -> B -> M B) l d : (forall x d, x ∈ l -> P d -> iso P (f x d)) -> P d -> iso P (fold_m f l d).
  Proof.
    revert d. induction l as [|x l IH]; intros d Hf Hd; cbn [fold_m]; [by apply iso_ret|].
    eapply iso_bind; [apply Hf; [by apply elem_of_cons; left|done]|]. intros d' Hd'. apply IH; [|done]. intros y d'' Hy. apply Hf. by apply elem_of_cons; right.
  Qed.
  Lemma tokens_in h : (forall l o, R l -> h !! l = Some o -> good o) -> forall ts p xs, R p -> get_by_tokens h ts p = Ok xs -> Forall R xs.
  Proof.
    intros Hh. assert (D : forall p o t d v, R p -> h !! p = Some o -> dget t (o_index o) = Some d -> v ∈ dvals d -> R v).
    { intros p o t d v Hp Ho Ed Hv. apply (Hh p) in Ho; [|done]. apply good_iff in Ho as (_ & _ & Hi). apply dget_in in Ed.
      apply elem_of_list_fmap in Hv as ([k v'] & -> & Hv). by eapply (Hi eq_refl). }
    induction ts as [|t ts IH]; intros p xs Hp; cbn [get_by_tokens]; destruct (h !! p) as [o|] eqn:Ho; try done; destruct (is_conceptual _); try done.
    destruct ts as [|t' ts].
    - intros [= <-]. destruct (dget t (o_index o)) as [d|] eqn:Ed; [|constructor]. apply Forall_forall. intros v Hv. by eapply D.
    - destruct (dget t (o_index o)) as [d|] eqn:Ed; [|done].
      assert (Hv : Forall R (dvals d)) by (apply Forall_forall; intros v Hv; by eapply D). clear Ed. revert xs.
      induction (dvals d) as [|v vs IHv]; intros xs; [by intros [= <-]; constructor|].
      apply Forall_cons in Hv as [Hv Hvs]. specialize (IH v). destruct (get_by_tokens h (t' :: ts) v) as [r|]; [|done].
      match goal with |- match ?g with _ => _ end = _ -> _ => destruct g as [r'|] eqn:E end; [|done]. intros [= <-].
      apply Forall_app. split; [by apply IH|]. by apply IHv.
  Qed.
  Lemma iso_lookup p ref d : R p -> lin d -> iso R (lookup_reference p ref d).
  Proof.
    intros Hp L. unfold lookup_reference. destruct (decide _).
    - apply iso_of_opt. intros x E. apply dget_in in E. by eapply li_cache.
    - eapply iso_bind with (Q := Forall R).
      + intros s I. unfold get_element_by_id_name. cbn [fst snd]. split; [done|]. split; [done|]. split; [done|].
        destruct (get_by_tokens _ _ _) as [xs|] eqn:E; [|done]. eapply tokens_in; [|exact Hp|exact E]. apply I.
      + intros l Hl. apply iso_of_opt. intros x E. destruct l as [|y l]; [done|]. cbn in E. injection E as <-. by inversion Hl.
  Qed.

  Ltac go := repeat first
    [ progress intros
    | apply iso_ret; assumption
    | apply iso_raise
    | match goal with |- QFrame.iso _ _ _ (bind (deref _) _) => eapply iso_bind; [apply iso_read|] end
    | match goal with |- QFrame.iso _ _ _ (bind get_st _) => eapply iso_bind; [apply iso_get|] end
    | match goal with |- QFrame.iso _ _ _ (bind (lift _) _) => eapply iso_bind; [apply iso_lift|] end ].

  Lemma iso_sem f raw nm p attr vs : R p -> iso R (generate_semantic_element f raw nm p attr vs).
  Proof. apply iso_semantic. Qed.
  Lemma iso_node f nm p : R p -> iso R (generate_node f nm (Some p)).
  Proof. intros H. apply iso_generate_node. by intros ? [= <-]. Qed.

  Lemma iso_rigid el r d : R el -> lin d -> iso (fun x => R (fst (fst (fst x))) /\ lin (snd x)) (rigid_element fl rad el r d).
  Proof.
    intros He L. unfold rigid_element. go. destruct a0 as [[t q] ty]. go.
    eapply iso_bind; [by apply iso_sem|]. intros sv Hsv. eapply iso_bind; [by apply iso_cache|]. intros d' L'. by apply iso_ret.
  Qed.
  Lemma iso_reference names cont ref d : R cont -> lin d -> iso lin (add_reference names cont ref d).
  Proof.
    intros Hc L. unfold add_reference. eapply iso_bind; [by apply iso_cached|]. intros pg Hpg.
    eapply iso_bind with (Q := R); [apply iso_of_opt; intros x E; apply dget_in in E; by eapply li_cache|]. intros x Hx.
    destruct (dget _ (ld_refs d)); [by apply iso_ret|]. go. eapply iso_bind; [by apply iso_hyperedge|]. intros e He.
    eapply iso_bind; [by apply iso_unary_connect|]. intros _ _. eapply iso_bind; [by apply iso_unary_connect|]. intros _ _.
    apply iso_ret. by destruct L; constructor.
  Qed.
  Lemma iso_geometries names cont g d : R cont -> lin d -> iso lin (collect_geometries fl names cont g d).
  Proof.
    intros Hc L. unfold collect_geometries. go. eapply iso_bind; [by apply iso_node|]. intros el Hel.
    eapply iso_bind with (Q := lin).
    - destruct g as [t f|ref]; [|by apply iso_reference]. go. eapply iso_bind; [by apply iso_sem|]. intros sv Hsv. by apply iso_cache.
    - intros d' L'. by apply iso_cache.
  Qed.
  Lemma iso_materials m cont d : R cont -> lin d -> iso lin (collect_materials m cont d).
  Proof. intros Hc L. unfold collect_materials. go. eapply iso_bind; [by apply iso_sem|]. intros sv Hsv. by apply iso_cache. Qed.
  Lemma iso_part path p d : lin d -> iso lin (visit_part fl path p d).
  Proof.
    intros L. unfold visit_part. eapply iso_bind; [by apply iso_cached|]. intros cont Hc. destruct p as [id m g|id g].
    - eapply iso_bind; [by apply iso_node|]. intros el Hel. eapply iso_bind; [by apply iso_cache|]. intros d1 L1.
      eapply iso_bind; [by apply iso_geometries|]. intros d2 L2. by apply iso_materials.
    - eapply iso_bind; [by apply iso_node|]. intros el Hel. eapply iso_bind; [by apply iso_cache|]. intros d1 L1. by apply iso_geometries.
  Qed.
  Lemma iso_inertia path i d : lin d -> iso any (visit_inertia fl path i d).
  Proof.
    intros L. unfold visit_inertia. eapply iso_bind; [by apply iso_cached|]. intros cont Hc. go.
    eapply iso_bind; [by apply iso_sem|]. intros _ _. by apply iso_ret.
  Qed.
  Lemma iso_link path l d : lin d -> iso lin (visit_link fl rad path l d).
  Proof.
    intros L. unfold visit_link. eapply iso_bind; [by apply iso_cached|]. intros p Hp. eapply iso_bind; [by apply iso_node|]. intros el Hel.
    eapply iso_bind; [by apply iso_sem|]. intros sv Hsv. eapply iso_bind with (Q := lin).
    { destruct (lk_pose l) as [r|]; [|by apply iso_ret]. eapply iso_bind; [by apply iso_rigid|]. intros [[[tr t] q] d'] [_ L'].
      eapply iso_bind; [by apply iso_add_attr|]. intros _ _. by apply iso_ret. }
    intros d1 L1. eapply iso_bind; [by apply iso_cache|]. intros d2 L2. destruct (lk_body l) as [[i ps]|]; [|by apply iso_ret].
    eapply iso_bind; [by apply iso_inertia|]. intros _ _. apply iso_fold; [|done]. intros. by apply iso_part.
  Qed.
  Lemma iso_relation p edge r d : R p -> lin d -> iso (fun x => tuple_in R (fst x) /\ lin (snd x)) (joint_relation fl rad p edge r d).
  Proof.
    intros Hp L. unfold joint_relation. eapply iso_bind; [by apply iso_lookup|]. intros ep Hep. go. eapply iso_bind; [by apply iso_sem|]. intros sv Hsv.
    eapply iso_bind with (Q := any). { destruct (jr_axis r) as [v|]; [|by apply iso_ret]. go. by apply iso_add_attr. }
    intros _ _. destruct (jr_rigid r) as [rg|].
    - eapply iso_bind; [by apply iso_rigid|]. intros [[[tr t] q] d'] [_ L']. apply iso_ret. cbn. split; [|done]. split; [done|]. by intros ? [= <-].
    - apply iso_ret. cbn. split; [|done]. split; [done|]. by intros ? [= <-].
  Qed.
  Lemma iso_relations p edge rs d : R p -> lin d -> iso (fun x => Forall (tuple_in R) (fst x) /\ lin (snd x)) (joint_relations fl rad p edge rs d).
  Proof.
    intros Hp. revert d. induction rs as [|r rs IH]; intros d L; cbn [joint_relations]; [apply iso_ret; cbn; split; [constructor|done]|].
    eapply iso_bind; [by apply iso_relation|]. intros x [Hx L1]. eapply iso_bind; [by apply IH|]. intros y [Hy L2]. apply iso_ret. cbn. split; [by constructor|done].
  Qed.
  Lemma iso_joint path j d : lin d -> iso lin (visit_joint fl rad path j d).
  Proof.
    intros L. unfold visit_joint. eapply iso_bind; [by apply iso_cached|]. intros p Hp. eapply iso_bind; [by apply iso_relations|]. intros x [Hx L1].
    eapply iso_bind; [by apply iso_connect_tuples|]. intros _ _. by apply iso_ret.
  Qed.
  Lemma iso_plain path nm d : lin d -> iso lin (plain_node path nm d).
  Proof. intros L. unfold plain_node. eapply iso_bind; [by apply iso_cached|]. intros p Hp. eapply iso_bind; [by apply iso_node|]. intros el Hel. by apply iso_cache. Qed.
  Lemma iso_kinematic path nm d : lin d -> iso lin (enter_kinematic path nm d).
  Proof.
    intros L. unfold enter_kinematic. eapply iso_bind; [by apply iso_cached|]. intros p Hp. eapply iso_bind; [by apply iso_node|]. intros el Hel.
    eapply iso_bind; [by apply iso_sem|]. intros _ _. by apply iso_cache.
  Qed.
  Lemma iso_kitem : forall it path d, lin d -> iso lin (visit_kitem fl rad path it d).
  Proof.
    fix IH 1. intros [l|j|nm its|] path d L; cbn [visit_kitem].
    - by apply iso_link.
    - by apply iso_joint.
    - eapply iso_bind; [by apply iso_kinematic|]. clear d L. generalize (path ++ [nm]). clear path. intros path d L. revert d L.
      induction its as [|it its IHl]; intros d L; cbn [fold_m]; [by apply iso_ret|].
      eapply iso_bind; [by apply IH|]. intros d' L'. by apply IHl.
    - by apply iso_ret.
  Qed.
  Lemma iso_aitem : forall it path d, lin d -> iso lin (visit_aitem fl rad path it d).
  Proof.
    fix IH 1. intros [nm|nm|nm its|nm its|] path d L; cbn [visit_aitem].
    - by apply iso_plain.
    - by apply iso_plain.
    - eapply iso_bind; [by apply iso_plain|]. clear d L. generalize (path ++ [nm]). clear path. intros path d L. revert d L.
      induction its as [|it its IHl]; intros d L; cbn [fold_m]; [by apply iso_ret|].
      eapply iso_bind; [by apply IH|]. intros d' L'. by apply IHl.
    - by apply iso_kitem.
    - by apply iso_ret.
  Qed.
  Lemma iso_parameter path x d : lin d -> iso lin (visit_parameter path x d).
  Proof.
    intros L. unfold visit_parameter. eapply iso_bind; [by apply iso_cached|]. intros c Hc. eapply iso_bind with (Q := any); [|intros _ _; by apply iso_ret].
    destruct (decide _); [|by apply iso_ret]. eapply iso_bind; [apply iso_create_value|intros _ _; by apply iso_ret]. intros ? [= <-]. apply L.
  Qed.
  Lemma iso_eitem path it d : lin d -> iso lin (visit_eitem fl rad path it d).
  Proof.
    intros L. destruct it as [j|nm its|nm its|ps|]; cbn [visit_eitem].
    - by apply iso_joint.
    - by apply iso_aitem.
    - by apply iso_kitem.
    - apply iso_fold; [|done]. intros. by apply iso_parameter.
    - by apply iso_ret.
  Qed.
  Lemma iso_load icon c e : iso lin (load fl rad icon c e).
  Proof.
    unfold load. eapply iso_bind with (Q := lin).
    { unfold new_loader. eapply iso_bind; [by apply iso_generate_node|]. intros w Hw. eapply iso_bind; [by apply iso_generate_node|]. intros ps Hps.
      apply iso_ret. constructor; [|done]. cbn. intros k x Hk. apply elem_of_list_singleton in Hk. by injection Hk as -> ->. }
    intros d L. unfold visit_entity. eapply iso_bind; [by apply iso_generate_node|]. intros n Hn. eapply iso_bind; [by apply iso_sem|]. intros _ _.
    eapply iso_bind; [apply iso_cache; [done|]|]. { by destruct L; constructor. }
    intros d2 L2. apply iso_fold; [|done]. intros. by apply iso_eitem.
  Qed.
End frame.

Lemma new_inv s : inv true (fun l => length (heap s) <= l) s.
Proof. constructor; [|done]. intros l o L Ho. apply lookup_ge_None in L. congruence. Qed.
Lemma q_load_frame fl rad icon c e s l : exists_in (heap s) l -> heap (snd (load fl rad icon c e s)) !! l = heap s !! l.
Proof.
  intros E. destruct (iso_load fl rad _ icon c e s (new_inv s)) as (_ & _ & F & _). apply F. intros L. destruct E as [o E]. apply lookup_ge_None in L. congruence.
Qed.

(** ** The converter *)
Lemma bfs_heap {X B} lim t (v : visitor X B) start s x r s' x' : execute_bfs lim t v start s x = (r, s', x') -> heap s' = heap s.
Proof.
  unfold execute_bfs. destruct (visit_root t v s start x) as [[ts|e] x1]; [|by intros [= <- <- <-]].
  destruct (fill_fringe t s start 0) as [new|e]; [|by intros [= <- <- <-]].
  destruct (traverse _ _ _ _ _ _ _ _) as [[r' q] x'']. by intros [= <- <- <-].
Qed.
Lemma prefilter_heap lim is s qs ts r s' qs' : prefilter_all lim is s qs ts = (r, s', qs') -> heap s' = heap s.
Proof.
  revert s qs ts. induction is as [|i is IH]; intros s qs ts; cbn [prefilter_all]; [by intros [= <- <- <-]|].
  assert (P : forall r1 s1 qs1, prefilter lim i s qs = (r1, s1, qs1) -> heap s1 = heap s).
  { intros r1 s1 qs1. unfold prefilter. destruct (qs !! i) as [q|]; [|by intros [= <- <- <-]].
    destruct (execute_bfs _ _ _ _ _ _) as [[r2 s2] ts2] eqn:E. apply bfs_heap in E. by destruct r2; intros [= <- <- <-]. }
  destruct (prefilter lim i s qs) as [[[ids|e] s1] qs1]; specialize (P _ _ _ eq_refl).
  - intros H. rewrite <- P. by eapply IH.
  - by intros [= <- <- <-].
Qed.
Lemma engine_heap lim e s qs r s' qs' : engine_run lim e s qs r s' qs' -> heap s' = heap s.
Proof. intros H. destruct H as [x s' qs' E|s' qs' E|ts s' qs1 sch rs qs2 E]; by apply prefilter_heap in E. Qed.
Lemma q_convert_frame fl rad lim c e s r s' l : exists_in (heap s) l -> convert_run fl rad lim c e s r s' -> heap s' !! l = heap s !! l.
Proof.
  intros X H. pose proof (q_load_frame fl rad "cogni_lang_file" c e s l X) as F.
  destruct H as [x s1 E|d s1 root x s2 qs E Hr H|d s1 root els s2 qs x ic E Hr H _|d s1 root els s2 qs ic E Hr H _];
    rewrite E in F; cbn [snd] in F; [done| | |]; by rewrite (engine_heap _ _ _ _ _ _ _ H).
Qed.

(** ** Decoding *)
Section decode.
  Context (R : loc -> Prop).
  Notation iso := (iso false R).
  Definition din (els : dict uid loc) : Prop := forall k x, (k, x) ∈ els -> R x.
  Lemma din_set k x els : R x -> din els -> din (dset k x els).
  Proof. intros Hx H k' y Hk. apply in_dset in Hk as [[= -> ->]|Hk]; [done|]. by apply (H k'). Qed.
  Lemma iso_din e u els : din els -> iso R (of_opt e (dget u els)).
  Proof. intros H. apply iso_of_opt. intros x E. apply dget_in in E. by eapply H. Qed.
  Lemma iso_nodes c ns els root : din els -> iso (fun a => din (fst a)) (decode_nodes c ns els root).
  Proof.
    revert els root. induction ns as [|n ns IH]; intros els root H; cbn [decode_nodes]; [by apply iso_ret|].
    eapply iso_bind; [by apply iso_new_conceptual|]. intros el Hel. assert (H' : din (dset (mn_uuid n) el els)) by by apply din_set.
    destruct (mn_parent n) as [u|]; [|by apply IH]. eapply iso_bind; [by apply iso_din|]. intros p Hp.
    eapply iso_bind; [by apply iso_add_element|]. intros _ _. by apply IH.
  Qed.
  Lemma iso_edges c es els : din els -> iso din (decode_edges c es els).
  Proof.
    revert els. induction es as [|e es IH]; intros els H; cbn [decode_edges]; [by apply iso_ret|].
    eapply iso_bind; [by apply iso_din|]. intros p Hp. eapply iso_bind; [apply iso_new_conceptual; by intros ? [= <-]|]. intros el Hel.
    apply IH. by apply din_set.
  Qed.
  Lemma iso_rels rs els : din els -> iso (fun _ => True) (decode_rels rs els).
  Proof.
    intros H. induction rs as [|r rs IH]; cbn [decode_rels]; [by apply iso_ret|].
    eapply iso_bind; [by apply iso_din|]. intros ep Hep. eapply iso_bind; [by apply iso_din|]. intros p Hp.
    eapply iso_bind; [apply iso_new_rel|]. intros el Hel. eapply iso_bind; [by apply iso_add_element|]. intros _ _. exact IH.
  Qed.
  Lemma iso_values vs els : din els -> iso (fun _ => True) (decode_values vs els).
  Proof.
    intros H. induction vs as [|v vs IH]; cbn [decode_values]; [by apply iso_ret|].
    eapply iso_bind; [apply iso_new_value|]. intros el Hel. eapply iso_bind; [by apply iso_din|]. intros p Hp.
    eapply iso_bind; [by apply iso_add_element|]. intros _ _. exact IH.
  Qed.
End decode.
Lemma new_inv' s : inv false (fun l => length (heap s) <= l) s.
Proof. constructor; [|done]. intros l o L Ho. apply lookup_ge_None in L. congruence. Qed.
Lemma q_decode_frame m s g r s' g' l : exists_in (heap s) l -> create_graph m s g = (r, s', g') -> heap s' !! l = heap s !! l.
Proof.
  intros X. unfold create_graph.
  match goal with |- context [match ?m s with _ => _ end] => assert (I : iso false (fun l => length (heap s) <= l) (fun _ => True) m) end.
  { eapply iso_bind; [apply iso_nodes; by intros k x ?%elem_of_nil|]. intros a Ha. eapply iso_bind; [by apply iso_edges|]. intros els Hels.
    eapply iso_bind; [by apply iso_rels|]. intros _ _. eapply iso_bind; [by apply iso_values|]. intros _ _. by apply iso_ret. }
  destruct (I s (new_inv' s)) as (_ & _ & F & _). specialize (F l).
  match goal with |- match ?e with _ => _ end = _ -> _ => destruct e as [[root|e0] s1] end; cbn [snd] in F; intros [= <- <- <-];
    apply F; intros L; destruct X as [o X]; apply lookup_ge_None in L; congruence.
Qed.
Lemma q_updates_frame g us s l : (forall c, ic_context g = Some c -> l ∉ children (heap s) c) -> heap (snd (apply_updates g us s)) !! l = heap s !! l.
Proof.
  revert s. induction us as [|[i vals] us IH]; intros s Hl; cbn [apply_updates]; [done|].
  unfold bind at 1. destruct (ic_hom g) as [x|]; cbn; [|done]. unfold bind at 1. destruct (hom_ival x i) as [u|]; cbn; [|done].
  unfold bind at 1. destruct (ic_context g) as [c|] eqn:Ec; cbn; [|done]. unfold bind at 1.
  destruct (node_getitem c u s) as [[v|e] s1] eqn:Ev.
  2: { unfold node_getitem, bind, deref in Ev. destruct (heap s !! c) as [o|]; cbn in Ev; [|by injection Ev as _ <-]. destruct (dget u (o_subs o)); cbn in Ev; by injection Ev as _ <-. }
  assert (s1 = s /\ v ∈ children (heap s) c) as [-> Hv].
  { unfold node_getitem, bind, deref in Ev. destruct (heap s !! c) as [o|] eqn:Eo; cbn in Ev; [|done]. destruct (dget u (o_subs o)) as [y|] eqn:Ey; cbn in Ev; [|done].
    injection Ev as <- <-. split; [done|]. unfold children. rewrite Eo. apply dget_in in Ey. apply elem_of_list_fmap. by exists (u, y). }
  unfold bind at 1, deref. destruct (heap s !! v) as [o|] eqn:Eo; [|done]. unfold bind at 1.
  destruct (k_value (o_kind o)); [|done]. 
  assert (Eu : update_values v vals s = (Ok tt, set_heap (alter (s_vals vals) v (heap s)) s)).
  { unfold update_values, bind, deref, upd. rewrite Eo. cbn. by rewrite Eo. }
  rewrite Eu.
  assert (N : l <> v) by (intros ->; by apply (Hl c)).
  rewrite IH; cbn; [by apply list_lookup_alter_ne|]. intros c' Hc'. assert (c' = c) as -> by congruence. intros Hin. apply (Hl c eq_refl).
  unfold children in *. destruct (decide (c = v)) as [->|Nc].
  - rewrite list_lookup_alter, Eo in Hin. rewrite Eo. exact Hin.
  - by rewrite list_lookup_alter_ne in Hin.
Qed.
