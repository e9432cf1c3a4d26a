(** * Loading: joints can be visited *)
From stdpp Require Import relations.
From Verif Require Import Spec Hierarchy Elements Factory History PDict PPath PExec PBfs PWF PAdd PMono PStep PRemove PReach PPrim PHist QHier QHier2 QHier3 QHier4 QHier5 QHier6 QFac SpecFac QFac2 CogniLang QCog QCog2 QCog3 QCog4 QCog5 QCog6 QCog7 QCog8 QConv QGo QGo2 QGo3 QGo4 SpecScope.

(** The first element of the container that has the name. *)
Definition seeing (h : list obj) (p : loc) (ref : string) (ep : loc) : Prop :=
  has_char slash ref = false /\ has_char dot ref = false /\ head (filter (fun x => name_of h x = ref) (kids h p)) = Some ep /\ labelled h ep (LNode ref).
Lemma filter_ext_in {A} (P Q : A -> Prop) {DP : forall x, Decision (P x)} {DQ : forall x, Decision (Q x)} (l : list A) : (forall x, x ∈ l -> P x <-> Q x) -> filter P l = filter Q l.
Proof.
  induction l as [|a l IH]; intros H; [done|]. rewrite !filter_cons. rewrite IH by (intros x Hx; apply H; by right).
  destruct (decide (P a)) as [Hp|Hp]; [rewrite decide_True by (apply H; [left|done])|rewrite decide_False by (intros Hq; apply Hp, H; [left|done])]; done.
Qed.
Lemma filter_filter_in {A} (P Q : A -> Prop) {DP : forall x, Decision (P x)} {DQ : forall x, Decision (Q x)} (l : list A) : (forall x, x ∈ l -> P x -> Q x) -> filter P (filter Q l) = filter P l.
Proof.
  induction l as [|a l IH]; intros H; [done|]. rewrite (filter_cons Q). destruct (decide (Q a)) as [Hq|Hq].
  - rewrite !(filter_cons P), IH by (intros x Hx; apply H; by right). done.
  - rewrite (filter_cons P a l), decide_False, IH; [done|intros x Hx; apply H; by right|]. intros Hp. apply Hq, H; [left|done].
Qed.

Section go.
  Context (n0 : nat) (c : clockid) (fl : string -> option Qc) (rad : Qc) (env : list (string * string)).
  Notation ginv := (ginv n0 c).

  Lemma child_n0 s p x : dinv n0 c s -> WF0 (heap s) -> n0 <= p -> x ∈ children (heap s) p -> n0 <= x.
  Proof.
    intros D W Hp Hx. destruct (wf0_child _ W p x Hx) as [_ Hpar]. destruct (decide (x < n0)) as [Hl|]; [|lia]. pose proof (dv_old _ _ _ D x p Hl Hpar). lia.
  Qed.
  Lemma seeing_follow s p ref ep : dinv n0 c s -> WF0 (heap s) -> n0 <= p -> seeing (heap s) p ref ep -> head (follow (heap s) [ref] p) = Some ep /\ ep ∈ children (heap s) p.
  Proof.
    intros D W Hp (Hs & Hd & Hh & Hl). cbn [follow].
    assert (E : flat_map (fun x => [x]) (filter (fun x => name_of (heap s) x = ref) (children (heap s) p)) = filter (fun x => name_of (heap s) x = ref) (children (heap s) p)).
    { generalize (filter (fun x => name_of (heap s) x = ref) (children (heap s) p)). intros l. induction l as [|b l IH]; [done|]. cbn [flat_map app]. by rewrite IH. }
    rewrite E. rewrite <- Hh at 1. split.
    - f_equal. symmetry. apply filter_filter_in. intros x Hx Hn Hk. unfold kind_of, name_of in *. destruct (heap s !! x) as [o|] eqn:Ho; [|done]. cbn in Hk. injection Hk as Hk. cbn in Hn.
      pose proof (proj2 (dv_built _ _ _ D x o (child_n0 _ _ _ D W Hp Hx) Ho) Hk) as Hdot. by rewrite Hn, Hd in Hdot.
    - assert (Hin : ep ∈ filter (fun x => name_of (heap s) x = ref) (kids (heap s) p)) by (destruct (filter _ _); [done|injection Hh as ->; left]).
      apply elem_of_list_filter in Hin as [_ Hin]. by apply kids_children.
  Qed.
  Lemma seeing_grows h h' a p ref ep : WF0 h -> grows h h' a -> exists_in h p -> seeing h p ref ep -> seeing h' p ref ep.
  Proof.
    intros W G Hp (Hs & Hd & Hh & Hl). split; [done|]. split; [done|]. split; [|eapply labelled_kept; [apply G|exact Logic.I|done]].
    rewrite (gs_kids _ _ _ G) by done. rewrite filter_app.
    assert (E : filter (fun x => name_of h' x = ref) (kids h p) = filter (fun x => name_of h x = ref) (kids h p)).
    { apply filter_ext_in. intros x Hx. rewrite (kept_name _ _ _ (gs_kept _ _ _ G)); [done|by eapply kids_exist]. }
    rewrite E. destruct (filter _ (kids h p)); [done|exact Hh].
  Qed.
  Definition visible (s : st) (d : loader) (p : loc) (ref : string) : Prop := ref = "world" \/ exists ep, seeing (heap s) p ref ep.
  Lemma lookup_go s d es path p ref : ginv s d env es -> opened s d path p -> visible s d p ref ->
    exists ep, lookup_reference p ref d s = (Ok ep, s) /\ n0 <= ep /\ labelled (heap s) ep (LNode ref).
  Proof.
    intros G O V. unfold lookup_reference. destruct (decide (ref = "world")) as [->|Hw].
    - destruct (gi_world _ _ _ _ _ _ G) as (x & Hx & Hl). exists x. rewrite Hx. split; [reflexivity|]. split; [by eapply gi_cache|done].
    - destruct V as [V|[ep V]]; [done|]. pose proof (ginv_wf _ _ _ _ _ _ G) as W. pose proof (opened_n0 _ _ _ _ _ _ _ _ G O) as Hp.
      destruct (seeing_follow s p ref ep (gi_d _ _ _ _ _ _ G) W Hp V) as [Hh Hc]. exists ep. split; [|split; [exact (child_n0 s p ep (gi_d _ _ _ _ _ _ G) W Hp Hc)|apply V]].
      destruct (q_C14 s p ref (proj1 (li_clean _ _ _ (gi_l _ _ _ _ _ _ G))) (opened_exists _ _ _ _ O)) as (r & E & Hr & _). rewrite (has_char_split slash ref) in Hr by apply V.
      destruct r as [l|ex].
      + rewrite (bind_ok _ _ _ _ _ E). subst l. rewrite Hh. reflexivity.
      + exfalso. destruct Hr as (pre & t & post & x & Hn & Hx & Hor). destruct pre as [|b pre]; [|destruct pre; done]. injection Hn as <- <-. cbn [follow] in Hx. apply elem_of_list_singleton in Hx as ->.
        destruct Hor as [[_ Hk]|(_ & Hne & _)]; [|done]. destruct (opened_exists _ _ _ _ O) as [o Ho]. specialize (Hk o Ho). pose proof (op_kind _ _ _ _ O) as Hko. unfold kind_of in Hko. rewrite Ho in Hko. cbn in Hko.
        injection Hko as Hko. by rewrite Hko in Hk.
  Qed.
  Lemma direction_go t d : relation_direction t = Some d -> dir_enum_relation t = Ok d.
  Proof. unfold dir_enum_relation, relation_direction. repeat case_decide; by intros [= <-]. Qed.

  Lemma relation_go path edge r s d p es t : ginv s d env es -> opened s d path p -> visible s d p (jr_ref r) -> relation_tree fl rad env path edge r = Some t ->
    exists x d' s', joint_relation fl rad p edge r d s = (Ok (x, d'), s') /\ ginv s' d' env (es ++ relation_entries path edge r) /\ n0 <= t_ep x /\ labelled (heap s') (t_ep x) (LNode (jr_ref r)) /\
      (forall sv, snd x = Some sv -> n0 <= sv).
  Proof.
    intros G O V Ht. pose proof (ginv_wf _ _ _ _ _ _ G) as W. assert (Hpp : p <> ld_params d) by (pose proof (op_later _ _ _ _ O); lia). pose proof (op_path _ _ _ _ O) as Hpa.
    unfold joint_relation. destruct (lookup_go s d es path p (jr_ref r) G O V) as (ep & E0 & Hen & Hel). rewrite (bind_ok _ _ _ _ _ E0).
    unfold relation_tree in Ht. cbv zeta in Ht. destruct (relation_direction (jr_dir r)) as [dir|] eqn:Hd; [|done]. rewrite (direction_go _ _ Hd). cbn [lift]. rewrite (bind_ok (ret dir) _ s dir s) by done.
    destruct (axis_attr fl env r) as [ax|] eqn:Hax; [|done]. set (nm := joint_name edge (jr_ref r)).
    destruct (gsem n0 c path s d env es "kinematicjoint" nm p [("joint_type", PStr (jr_type r))] None SKinematicJoint G (opened_n0 _ _ _ _ _ _ _ _ G O) (opened_exists _ _ _ _ O)) as (sv & s1 & E1 & G1 & os & B & Hks & Hns & S1).
    { rewrite (op_kind _ _ _ _ O). done. } { rewrite (op_kind _ _ _ _ O). done. } { done. } { done. } { reflexivity. }
    rewrite (bind_ok _ _ _ _ _ E1). pose proof (new_n0 _ _ _ _ _ _ _ _ _ _ G B) as Hsn. pose proof (new_par _ _ _ _ _ _ _ _ _ _ G B) as Hsp.
    assert (X : exists s2, match jr_axis r with None => ret tt | Some v => bind get_st (fun s => bind (lift (vector_values fl (heap s) (ld_params d) v)) (fun q => add_named_attribute sv "axis" (nums q))) end s1 = (Ok tt, s2) /\
      ginv s2 d env es /\ (forall x nm, labelled (heap s1) x (LNode nm) -> labelled (heap s2) x (LNode nm)) /\ exists_in (heap s2) sv /\ kind_of (heap s2) sv = kind_of (heap s1) sv /\ name_of (heap s2) sv = name_of (heap s1) sv /\
      (forall q, full_name (heap s1) sv q -> full_name (heap s2) sv q)).
    { pose proof (born_exists _ _ _ _ _ B) as Hse. unfold axis_attr in Hax. destruct (jr_axis r) as [v|]; [|exists s1; split; [reflexivity|done]].
      destruct (numbers fl env v) as [q|] eqn:Hq; [|done]. rewrite (bind_ok get_st _ s1 s1 s1) by done. rewrite (vector_go fl _ _ env (li_params _ _ _ (gi_l _ _ _ _ _ _ G1)) _ _ Hq). cbn [lift].
      rewrite (bind_ok (ret q) _ s1 q s1) by done. destruct (gattr n0 c s1 d env es sv "axis" (nums q) G1 Hse) as (s2 & E2 & G2 & R). exists s2. split; [exact E2|]. split; [done|].
      assert (Rl : forall x o, heap s1 !! x = Some o -> exists o', heap s2 !! x = Some o' /\ o_kind o' = o_kind o /\ o_name o' = o_name o).
      { intros x o Ho. destruct (retag_obj _ _ _ _ _ _ _ R Ho) as (o' & H1 & H2 & H3 & _). by exists o'. }
      split. { intros x nm' (o & Ho & H1 & H2). destruct (Rl x o Ho) as (o' & Ho' & K1 & K2). exists o'. split; [done|]. by rewrite K1, K2. }
      split; [by eapply retag_exists|]. destruct Hse as [o Ho]. destruct (Rl sv o Ho) as (o' & Ho' & K1 & K2). unfold kind_of, name_of. rewrite Ho, Ho'. cbn. rewrite K1, K2. split; [done|]. split; [done|].
      intros q' Hq'. by eapply retag_name. }
    destruct X as (s2 & E2 & G2 & L2 & Hse2 & Hk2 & Hn2 & Fn2). rewrite (bind_ok _ _ _ _ _ E2).
    assert (Lep : labelled (heap s2) ep (LNode (jr_ref r))) by (apply L2; eapply labelled_kept; [apply S1|exact Logic.I|done]).
    unfold relation_entries. cbv zeta. destruct (jr_rigid r) as [rg|].
    - destruct (rigid fl env rg) as [x|] eqn:Hr; [|done].
      pose proof (born_below path _ _ _ _ _ W B (opened_name _ _ _ _ _ (gi_l _ _ _ _ _ _ G) O)) as F. rewrite Hns in F.
      destruct (rigid_go n0 c fl rad env path nm s2 d es sv rg x G2 Hsn Hse2) as ([[[tr t'] q] d1] & s3 & E3 & G3 & ot & Bt).
      { rewrite Hk2. unfold kind_of. rewrite (born_get o_kind _ _ _ _ _ B (fun _ => eq_refl)), Hks. done. } { rewrite Hk2. unfold kind_of. rewrite (born_get o_kind _ _ _ _ _ B (fun _ => eq_refl)), Hks. done. } { done. } { by apply Fn2. } { done. }
      rewrite (bind_ok _ _ _ _ _ E3). cbn [fst snd] in G3, Bt. eexists (_, _), d1, s3. split; [reflexivity|]. cbn [t_ep fst snd]. split.
      + rewrite Hn2, (born_name _ _ _ _ _ B), Hns in G3. rewrite (join_apps path) by done. exact G3.
      + split; [done|]. split; [eapply labelled_kept; [apply Bt|exact Logic.I|done]|]. by intros ? [= <-].
    - eexists (_, _), d, s2. split; [reflexivity|]. rewrite app_nil_r. split; [done|]. split; [done|]. split; [done|]. by intros ? [= <-].
  Qed.

  Lemma relations_go path edge h0 p : WF0 h0 -> named h0 -> p < length h0 -> forall rs s d a es ts, ginv s d env es -> opened s d path p -> grows h0 (heap s) a -> sems_new h0 (heap s) ->
    Forall (fun r => visible s d p (jr_ref r)) rs -> relation_trees fl rad env path edge rs = Some ts ->
    exists xs d' s', joint_relations fl rad p edge rs d s = (Ok (xs, d'), s') /\ ginv s' d' env (es ++ flat_map (relation_entries path edge) rs) /\
      Forall2 (fun r x => n0 <= t_ep x /\ labelled (heap s') (t_ep x) (LNode (jr_ref r)) /\ (forall sv, snd x = Some sv -> n0 <= sv)) rs xs.
  Proof.
    intros W0 N0 Hp. induction rs as [|r rs IH]; intros s d a es ts G O Gr Sn V Ht.
    - exists [], d, s. split; [reflexivity|]. cbn [flat_map]. rewrite app_nil_r. split; [done|constructor].
    - cbn [relation_trees] in Ht. destruct (relation_tree fl rad env path edge r) as [t|] eqn:Ht1; [|done]. destruct (relation_trees fl rad env path edge rs) as [ts'|] eqn:Ht2; [|done]. inversion V as [|? ? V1 V2]; subst.
      destruct (relation_go path edge r s d p es t G O V1 Ht1) as (x & d1 & s1 & E1 & G1 & Hx1 & Hx2 & Hx3).
      destruct (relation_visit fl rad env env ltac:(done) path p edge h0 a s d r x d1 s1 W0 N0 (gi_l _ _ _ _ _ _ G) O Hp Gr Sn E1) as (sv & R & S1 & Sn1 & _).
      destruct (IH s1 d1 (fun l => a l ++ only p [sv] l) (es ++ relation_entries path edge r) ts' G1) as (xs & d2 & s2 & E2 & G2 & F2).
      { by eapply opened_step. } { eapply grows_trans; [exact Gr|apply S1]. } { done. }
      { eapply Forall_impl; [exact V2|]. intros r' [Hw|[ep He]]; [by left|]. right. exists ep. eapply seeing_grows; [exact (ginv_wf _ _ _ _ _ _ G)|apply S1|by eapply opened_exists|done]. } { done. }
      destruct (relations_visit fl rad env env ltac:(done) path p edge h0 W0 N0 Hp rs s1 d1 (fun l => a l ++ only p [sv] l) xs d2 s2 (gi_l _ _ _ _ _ _ G1) ltac:(by eapply opened_step)) as (svs & _ & _ & S2 & _ & _).
      { eapply grows_trans; [exact Gr|apply S1]. } { done. } { done. }
      exists (x :: xs), d2, s2. split; [cbn [joint_relations]; rewrite (bind_ok _ _ _ _ _ E1); cbn [snd fst]; rewrite (bind_ok _ _ _ _ _ E2); reflexivity|].
      split; [cbn [flat_map]; by rewrite app_assoc|]. constructor; [|done]. split; [done|]. split; [eapply labelled_kept; [apply S2|exact Logic.I|done]|done].
  Qed.

  (** The loop of connect_tuple_nodes. *)
  Lemma connect_go hA hB p e K enm : kept hA hB -> kind_of hB p = Some KNode -> parent_of hB e = Some p -> ~ exists_in hA e -> exists_in hB e -> p <> e ->
    (exists oe, hB !! e = Some oe /\ o_kind oe = KEdge /\ o_name oe = enm /\ o_clock oe = Some c /\ o_ready oe = true) ->
    forall todo refs rest moved dn rds dr s, Forall2 (todo_ok hA hB p) todo rest -> NoDup (moved ++ rest) -> e ∉ moved ++ rest -> clean s -> dinv n0 c s -> cinv hB p e K (heap s) rest moved dn rds ->
    Forall2 (fun r x => n0 <= t_ep x /\ labelled hB (t_ep x) (LNode r) /\ (forall sv, snd x = Some sv -> n0 <= sv)) refs todo ->
    NoDup (dr ++ refs) -> (forall x, x ∈ children (heap s) e -> exists r, r ∈ dr /\ uuid_of (heap s) x = sha s (elem_id_text enm r)) ->
    exists s', connect_tuples e todo s = (Ok tt, s') /\ dinv n0 c s'.
  Proof.
    intros HAB Hkp Hpe HeA HeB Hne He. induction todo as [|x todo IH]; intros refs rest moved dn rds dr s F Nd Hem C D Ci Fr Ndr Hch.
    - exists s. split; [reflexivity|done].
    - inversion F as [|? sv ? rest' Td F']; subst. inversion Fr as [|r ? refs' ? (Hx1 & Hx2 & Hx3) Fr']; subst. destruct x as [[[n d] w] sem]. assert (sem = Some sv) as -> by apply Td. cbn [t_ep fst snd] in Hx1, Hx2, Hx3.
      pose proof (clean_wf _ C) as W.
      assert (Hsm : sv ∉ moved). { intros Hin. apply NoDup_app in Nd as (_ & Nd & _). apply (Nd sv Hin). left. }
      assert (Hem' : e ∉ moved). { intros Hin. apply Hem. apply elem_of_app. by left. }
      assert (Hes0 : e <> sv). { intros ->. apply Hem. apply elem_of_app. right. left. }
      destruct (connect_facts hA hB p e K HAB Hkp Hpe HeB _ _ _ _ _ _ _ W Td Hsm Hem' Hes0 Ci) as (Hes & Hns & Hkps & Hnw & osv & Hosv & Hks & Hps). cbn [t_ep fst] in Hns.
      pose proof (ci_kept _ _ _ _ _ _ _ _ _ Ci) as KB.
      destruct He as (oe & Hoe & H1 & H2 & H3 & H4).
      assert (He' : exists oe', heap s !! e = Some oe' /\ o_kind oe' = KEdge /\ o_name oe' = enm /\ o_clock oe' = Some c /\ o_ready oe' = true).
      { pose proof (KB e oe Hoe) as X. destruct (heap s !! e) as [o'|]; [|done]. exists o'. split; [done|]. cbn [fmap option_fmap option_map] in X. apply (inj Some) in X.
        change (o_kind o') with (o_kind (ident_part o')). change (o_name o') with (o_name (ident_part o')). change (o_clock o') with (o_clock (ident_part o')). change (o_ready o') with (o_ready (ident_part o')). rewrite X. done. }
      destruct He' as (oe' & Hoe' & J1 & J2 & J3 & J4).
      destruct (labelled_kept _ _ n (LNode r) KB Logic.I Hx2) as (on & Hon & Hkn & Hnn).
      destruct (unary_sem_go n0 c s e n w d oe' on sv osv p SKinematicJoint D C Hoe' J1 J4 J3 Hx1 Hon Hkn (Hx3 sv eq_refl) Hosv Hks Hps Hkps Hnw) as (rr & s1 & E1 & D1 & Mn & Ch & Hu).
      { intros y Hy Eq. destruct (Hch y Hy) as (r' & Hr' & Hu'). rewrite J2, Hnn, Hu' in Eq. apply (dv_sha _ _ _ D) in Eq. unfold elem_id_text in Eq. rewrite <- !app_assoc_s in Eq. apply sapp_inj in Eq. subst r'.
        apply NoDup_app in Ndr as (_ & Ndr & _). apply (Ndr r Hr'). left. }
      destruct (connect_step hA hB p e K HAB Hkp Hpe HeA HeB Hne s n d w sv rest' moved dn rds rr s1 Td Nd Hem C Ci E1) as (C1 & _ & Ci1).
      destruct (IH refs' rest' (moved ++ [sv]) (dn ++ [(n, d, w, Some sv)]) (rds ++ [rr]) (dr ++ [r]) s1) as (s' & E' & D'); try done.
      { by rewrite <- app_assoc. } { by rewrite <- app_assoc. } { by rewrite <- app_assoc. }
      { intros y Hy. rewrite Ch in Hy. apply elem_of_app in Hy as [Hy|Hy].
        - destruct (Hch y Hy) as (r' & Hr' & Hu'). exists r'. split; [apply elem_of_app; by left|]. rewrite (m_sha _ _ Mn), <- Hu'. destruct (wf0_child _ W _ _ Hy) as [[oy Hoy] _].
          destruct (m_obj _ _ Mn y oy Hoy) as (oy' & Hoy' & Mo). unfold uuid_of. rewrite Hoy, Hoy'. cbn. apply Mo.
        - apply elem_of_list_singleton in Hy as ->. exists r. split; [apply elem_of_app; right; left|]. by rewrite Hu, (m_sha _ _ Mn), J2, Hnn. }
      exists s'. split; [|done]. cbn [connect_tuples]. rewrite (bind_ok _ _ _ _ _ E1). exact E'.
  Qed.

  (** [ts]: what the elements of the container are. *)
  Definition tagged (h : list obj) (x : loc) (t : tree) : Prop := name_of h x = tree_name t /\ forall nm sub, t = T (LNode nm) sub -> kind_of h x = Some KNode.
  Definition holds (h : list obj) (p : loc) (ts : list tree) : Prop := Forall2 (tagged h) (kids h p) ts.
  Lemma holds_found h p ts ref : holds h p ts -> has_char slash ref = false -> has_char dot ref = false ->
    (exists sub, head (filter (fun t => tree_name t = ref) ts) = Some (T (LNode ref) sub)) -> exists ep, seeing h p ref ep.
  Proof.
    unfold holds, seeing. intros F Hs Hd [sub Hh].
    assert (X : exists ep, head (filter (fun x => name_of h x = ref) (kids h p)) = Some ep /\ tagged h ep (T (LNode ref) sub)).
    { revert Hh. induction F as [|x t xs ts [Hn Hk] F IH]; [done|]. rewrite !filter_cons. rewrite Hn. destruct (decide (tree_name t = ref)) as [E|E]; [|done]. intros [= ->]. exists x. done. }
    destruct X as (ep & Hf & Hn & Hk). exists ep. split; [done|]. split; [done|]. split; [done|]. specialize (Hk ref sub eq_refl). cbn [tree_name] in Hn.
    unfold kind_of, name_of in *. destruct (h !! ep) as [o|] eqn:Ho; [|done]. exists o. split; [done|]. cbn in Hk, Hn. by injection Hk.
  Qed.

  Lemma joint_go path j s d p es tcs ts seen' : ginv s d env es -> opened s d path p -> holds (heap s) p tcs -> joint_found tcs j ->
    kitem_trees fl rad env path (dkeys (ld_refs d)) (KiJoint j) = Some (ts, seen') ->
    exists d' s', visit_joint fl rad path j d s = (Ok d', s') /\ ginv s' d' env (es ++ flat_map (relation_entries path (jt_name j)) (jt_rels j)).
  Proof.
    intros G O Hh [Hnd Hf] Ht. pose proof (ginv_wf _ _ _ _ _ _ G) as W. pose proof (opened_exists _ _ _ _ O) as Hpe. pose proof Hpe as Hplt. apply exists_in_lt in Hplt.
    cbn [kitem_trees] in Ht. unfold joint_tree in Ht. destruct (relation_trees fl rad env path (jt_name j) (jt_rels j)) as [rts|] eqn:Hrt; [|done]. clear Ht.
    pose proof (gi_l _ _ _ _ _ _ G) as I.
    destruct (relations_go path (jt_name j) (heap s) p W (proj2 (li_clean _ _ _ I)) Hplt (jt_rels j) s d (fun _ => []) es rts G O) as (xs & d1 & sA & E1 & G1 & Fx).
    { apply grows_refl. } { intros l o Hl Ho. apply lookup_lt_Some in Ho. lia. }
    { eapply Forall_impl; [exact Hf|]. intros r [->|(H1 & H2 & H3)]; [by left|]. right. by eapply holds_found. } { done. }
    destruct (relations_visit fl rad env env ltac:(done) path p (jt_name j) (heap s) W (proj2 (li_clean _ _ _ I)) Hplt (jt_rels j) s d (fun _ => []) xs d1 sA I O) as (svs & F & Hlen & SA & SnA & HrA).
    { apply grows_refl. } { intros l o Hl Ho. apply lookup_lt_Some in Ho. lia. } { done. }
    pose proof (linv_after _ _ _ _ _ _ _ SA) as IA. pose proof (linv_wf _ _ _ IA) as WA. pose proof (opened_step _ _ _ _ _ _ _ _ O SA) as OA.
    destruct (edge_go n0 c sA (ld_nodes d) (jt_name j) p (gi_d _ _ _ _ _ _ G1) WA (gi_n _ _ _ _ _ _ G) (opened_n0 _ _ _ _ _ _ _ _ G O) (op_kind _ _ _ _ OA)) as (e0 & sB & E3 & DB & Hch & oe & Hoe & Hke & Hne & Hce & Hre).
    destruct (edge_born _ _ _ _ _ _ (li_clean _ _ _ IA) (opened_exists _ _ _ _ OA) E3) as (CB & u & prog & ck & B).
    pose proof (clean_wf _ CB) as WB. pose proof (born_exists _ _ _ _ _ B) as HeB. pose proof (born_not _ _ _ _ _ B) as HeA.
    assert (GA : grows (heap s) (heap sA) (only p svs)) by apply SA. assert (GB : grows (heap sA) (heap sB) (only p [e0])) by apply B.
    pose proof (gs_len _ _ _ GA) as LA. pose proof (bn_new _ _ _ _ _ B) as He0. pose proof (bn_len _ _ _ _ _ B) as LB.
    assert (Hpe0 : p <> e0) by lia.
    assert (Kp : kids (heap sB) p = kids (heap s) p ++ svs ++ [e0]).
    { rewrite (gs_kids _ _ _ GB) by (by eapply opened_exists). rewrite (gs_kids _ _ _ GA) by done. rewrite !only_at. by rewrite app_assoc. }
    assert (Nd : NoDup (svs ++ [e0])). { pose proof (kids_nd _ p WB) as Hn. rewrite Kp in Hn. by apply NoDup_app in Hn as (_ & _ & Hn). }
    assert (Td : Forall2 (todo_ok (heap sA) (heap sB) p) xs svs).
    { clear -F Hlen GB. revert svs xs F Hlen. induction (jt_rels j) as [|r rs IH]; intros svs xs F Hlen; destruct xs as [|x xs], svs as [|sv svs]; try done; try (by inversion F).
      inversion F as [|? ? ? ? R F']; subst. constructor; [|apply IH; [done|by injection Hlen]]. destruct R as [R1 R2 R3 R4 R5 R6]; cbn [fst snd] in *.
      split; [done|]. split; [done|]. split; [|done]. rewrite (gs_unmoved _ _ _ GB); [done|by eapply kind_exists]. }
    assert (KAB : kept (heap sA) (heap sB)) by apply GB.
    assert (HkB : kind_of (heap sB) p = Some KNode) by (rewrite (kept_kind _ _ _ KAB) by (by eapply opened_exists); apply OA).
    assert (HpB : parent_of (heap sB) e0 = Some p) by apply B.
    assert (NdS : NoDup ([] ++ svs)) by (by apply NoDup_app in Nd as (? & _ & _)).
    assert (HeS : e0 ∉ [] ++ svs). { apply NoDup_app in Nd as (_ & Nd & _). cbn. intros Hin. apply (Nd e0 Hin). left. }
    assert (Ci0 : cinv (heap sB) p e0 (kids (heap s) p) (heap sB) svs [] [] []) by (split; [apply kept_refl|done|done|done|exact Kp|apply B|constructor]).
    destruct (connect_go (heap sA) (heap sB) p e0 (kids (heap s) p) (jt_name j) KAB HkB HpB HeA HeB Hpe0 ltac:(by exists oe) xs (map jr_ref (jt_rels j)) svs [] [] [] [] sB Td NdS HeS CB DB Ci0) as (s3 & E4 & D3).
    { clear -Fx KAB. induction Fx as [|r x rs xs (H1 & H2 & H3) F IH]; cbn [map]; constructor; [|exact IH]. split; [done|]. split; [|done]. eapply labelled_kept; [exact KAB|exact Logic.I|done]. }
    { done. } { rewrite Hch. intros x Hx. inversion Hx. }
    destruct (connect_visit (heap sA) (heap sB) p e0 (kids (heap s) p) KAB HkB HpB HeA HeB Hpe0 xs svs [] [] [] sB s3 Td NdS HeS CB Ci0 E4) as (C3 & _ & rs & Ci).
    assert (E : visit_joint fl rad path j d s = (Ok d1, s3)).
    { unfold visit_joint, cached. rewrite (op_cached _ _ _ _ O). cbn [of_opt]. rewrite (bind_ok (ret p) _ s p s) by done. rewrite (bind_ok _ _ _ _ _ E1). cbn [fst snd].
      assert (E5 : connect_tuple_nodes (ld_nodes d) p (jt_name j) xs sA = (Ok e0, s3)) by (unfold connect_tuple_nodes; rewrite (bind_ok _ _ _ _ _ E3), (bind_ok _ _ _ _ _ E4); reflexivity).
      rewrite (bind_ok _ _ _ _ _ E5). reflexivity. }
    exists d1, s3. split; [exact E|].
    destruct (joint_visit fl rad env env ltac:(done) path j s d p d1 s3 I O E) as (news & ts' & _ & S3 & _).
    eapply ginv_kept; [exact G1|apply S3|exact D3|]. eapply kept_trans; [exact KAB|apply Ci].
  Qed.
End go.
