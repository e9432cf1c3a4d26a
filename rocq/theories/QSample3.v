(** * Proofs: the only error while building a graph is a duplicate identifier *)
From Verif Require Import PDict PExec PWF PMono PAdd PStep PReach PPrim PHist Spec SpecFac QHier4 QHier5 QHier6 QFac QFac2 History Samples SpecSample QSample QSample2.

Definition okdup {A} (m : M A) (s : st) (P : A -> st -> Prop) : Prop :=
  (exists a s', m s = (Ok a, s') /\ P a s') \/ (exists s', m s = (Exn ErrorDuplicateElement, s')).
Lemma okdup_bind {A B} (m : M A) (k : A -> M B) s P Q : okdup m s P -> (forall a s', m s = (Ok a, s') -> P a s' -> okdup (k a) s' Q) -> okdup (bind m k) s Q.
Proof.
  intros [(a & s' & E & H)|(s' & E)] Hk.
  - destruct (Hk a s' E H) as [(b & s2 & E2 & H2)|(s2 & E2)]; [left; exists b, s2|right; exists s2]; by rewrite (bind_ok _ _ _ _ _ E).
  - right. exists s'. by rewrite (bind_exn _ _ _ _ _ E).
Qed.

Definition live_edge (s : st) (e : loc) : Prop := exists oe c, heap s !! e = Some oe /\ o_kind oe = KEdge /\ o_ready oe = true /\ o_clock oe = Some c.
Definition live_node (s : st) (n : loc) : Prop := exists on, heap s !! n = Some on /\ o_kind on = KNode /\ o_ready on = true.
Lemma live_edge_kept s s' e : kept (heap s) (heap s') -> live_edge s e -> live_edge s' e.
Proof.
  intros K (oe & c & Ho & H1 & H2 & H3). pose proof (K e oe Ho) as X. destruct (heap s' !! e) as [o'|] eqn:E; [|done]. cbn [fmap option_fmap option_map] in X. apply (inj Some) in X.
  exists o', c. split; [done|]. change (o_kind (ident_part o') = KEdge /\ o_ready (ident_part o') = true /\ o_clock (ident_part o') = Some c). by rewrite X.
Qed.
Lemma live_node_kept s s' e : kept (heap s) (heap s') -> live_node s e -> live_node s' e.
Proof.
  intros K (oe & Ho & H1 & H2). pose proof (K e oe Ho) as X. destruct (heap s' !! e) as [o'|] eqn:E; [|done]. cbn [fmap option_fmap option_map] in X. apply (inj Some) in X.
  exists o'. split; [done|]. change (o_kind (ident_part o') = KNode /\ o_ready (ident_part o') = true). by rewrite X.
Qed.

Lemma unary_cases s e n w d : reach s -> live_edge s e -> live_node s n -> okdup (unary_connect e n w d None) s (fun r s' => reach s' /\ kept (heap s) (heap s')).
Proof.
  intros R (oe & c & He & Hk & Hrd & Hc) (on & Hn & Hkn & Hrn). pose proof (reach_wf s R) as W. assert (Hne : n <> e) by (intros ->; congruence).
  assert (Hhn : is_hyperelement (o_kind on) = true) by (by rewrite Hkn).
  set (nm := rel_name (o_name oe) (o_name on) (clk s c (tick s))). set (up := sha s (elem_id_text (o_name on) nm)). set (ur := sha s (elem_id_text (o_name oe) (o_name on))).
  destruct (dup_child (heap s) n on up W Hn) as [(y & Hy & Hyc)|Hup].
  - right. unfold unary_connect. rewrite (bind_ok _ _ _ _ _ (deref_ok _ _ _ He)), (bind_ok _ _ _ _ _ (deref_ok _ _ _ Hn)). rewrite decide_True by done. rewrite Hc. cbn [of_opt].
    rewrite (bind_ok (ret c) _ s c s) by done. set (s1 := set_tick (S (tick s)) s). rewrite (bind_ok (now c) _ s (clk s c (tick s)) s1) by done. rewrite Hrd. fold nm.
    rewrite (bind_ok (hash _) _ s1 ur s1) by done. unfold new_rel. rewrite (bind_ok _ _ _ _ _ (alloc_state _ _)). set (sa := set_heap _ _). set (ra := length _).
    assert (Hoa : exists oa, heap sa !! ra = Some oa /\ o_name oa = nm). { unfold sa, ra. cbn [heap set_heap set_tick]. rewrite lookup_app_r, Nat.sub_diag by lia. eexists. split; [done|]. done. }
    destruct Hoa as (oa & Hoa & Hna).
    assert (Wa : WF0 (heap sa)). { unfold sa. cbn [heap set_heap set_tick]. apply alloc_wf0; try done. simpl. intros z [= <-]. by eexists. }
    assert (Hn2 : heap sa !! n = Some on) by (unfold sa; simpl; rewrite lookup_app_l; [done|by apply lookup_lt_Some in Hn]).
    assert (Hd : is_Some (dget up (o_subs on))). { destruct (dget up (o_subs on)) eqn:Ed; [by eexists|]. apply dget_None in Ed. destruct Ed. apply elem_of_list_fmap. by exists (up, y). }
    destruct (connect_cases sa n ra on oa Wa Hn2 Hoa) as [[Hf _]|(_ & [[_ Ec]|(Hd' & _)])].
    + rewrite Hhn, Hrn in Hf. done. + rewrite (bind_exn _ _ _ _ _ Ec). by eexists.
    + exfalso. rewrite Hna in Hd'. change (sha sa) with (sha s) in Hd'. fold up in Hd'. rewrite Hd' in Hd. by destruct Hd.
  - destruct (dup_child (heap s) e oe ur W He) as [(x & Hx & Hxc)|Hur].
    + right. assert (Hux : uuid_of (heap s) x = ur) by (destruct (wf_sub _ W e oe ur x He Hx) as (ox & Hox & Hu & _); unfold uuid_of; by rewrite Hox).
      destruct (q_C18 s e n oe on c w d x R He Hn Hne Hk Hrd Hc Hhn Hrn Hxc Hux Hup) as (_ & _ & s' & E & _). by exists s'.
    + left. destruct (unary_ok s e n oe on c w d W He Hn Hne Hk Hrd Hc Hhn Hrn Hur Hup) as (s' & E & C & _). eexists _, s'. split; [exact E|]. split; [|apply C].
      pose proof (reach_step s (OUnary e n w d None) R) as R'. cbn [exec] in R'. rewrite snd_void, E in R'. apply R'. split; [by eexists|]. split; [by eexists|done].
Qed.
Lemma each_cases e d : forall nv s, reach s -> live_edge s e -> Forall (fun x => live_node s (fst x)) nv -> okdup (connect_each e d nv) s (fun _ s' => reach s' /\ kept (heap s) (heap s')).
Proof.
  induction nv as [|[n w] nv IH]; intros s R He Hn; [left; exists tt, s; split; [done|split; [done|apply kept_refl]]|]. apply Forall_cons in Hn as [Hn Hr]. cbn [fst] in Hn.
  cbn [connect_each]. eapply okdup_bind; [by apply unary_cases|]. intros r s1 _ [R1 K1].
  destruct (IH s1 R1 (live_edge_kept _ _ _ K1 He)) as [(a & s2 & E & R2 & K2)|X]; [|left; exists a, s2; split; [done|split; [done|by eapply kept_trans]]|by right].
  eapply Forall_impl; [exact Hr|]. intros x. by apply live_node_kept.
Qed.
Lemma nodes_cases f p nm ns d s : reach s -> kind_of (heap s) p = Some KNode -> Forall (live_node s) ns -> okdup (connect_nodes f p nm ns d None) s (fun _ s' => reach s' /\ kept (heap s) (heap s')).
Proof.
  intros R Hp Hn. unfold kind_of in Hp. destruct (heap s !! p) as [op|] eqn:Ho; [|done]. cbn in Hp. injection Hp as Hp. unfold connect_nodes.
  destruct (hyperedge_cases s f p nm op (reach_wf _ R) Ho) as [[Hf _]|[_ [[_ (s1 & E1 & _)]|[_ (c & s1 & prog & _ & E1 & G & M)]]]]; [by rewrite Hp in Hf|right; exists s1; by rewrite (bind_exn _ _ _ _ _ E1)|].
  assert (R1 : reach s1) by (eapply (reach_void s _ (OHyperedge f p nm)); [done|by eexists|reflexivity|exact E1]). pose proof (gr_kept _ _ _ _ _ G) as K1.
  assert (He : live_edge s1 (length (heap s))).
  { destruct (gr_fresh _ _ _ _ _ G) as (_ & _ & _ & F4). destruct (heap s1 !! length (heap s)) as [oe|] eqn:X; [|done]. cbn [fmap option_fmap option_map] in F4. apply (inj Some) in F4.
    exists oe, c. split; [done|]. change (o_kind (fixed_part oe) = KEdge /\ o_ready (fixed_part oe) = true /\ o_clock (fixed_part oe) = Some c). by rewrite F4. }
  destruct (each_cases (length (heap s)) d (zip_none ns) s1 R1 He) as [(a & s2 & E & R2 & K2)|(s2 & E)].
  { apply Forall_forall. intros x Hx. unfold zip_none in Hx. apply elem_of_list_fmap in Hx as (n & -> & Hx). cbn [fst]. rewrite Forall_forall in Hn. eapply live_node_kept; [exact K1|by apply Hn]. }
  - left. eexists _, s2. split; [|split; [exact R2|by eapply kept_trans]]. rewrite (bind_ok _ _ _ _ _ E1), (bind_ok (ret _) _ s1 _ s1) by done. by rewrite (bind_ok _ _ _ _ _ E).
  - right. exists s2. rewrite (bind_ok _ _ _ _ _ E1), (bind_ok (ret _) _ s1 _ s1) by done. by rewrite (bind_exn _ _ _ _ _ E).
Qed.
Lemma lines_cases f p ns : forall lines s, reach s -> kind_of (heap s) p = Some KNode -> Forall (live_node s) ns -> Forall (fun l => Forall (fun i => i < length ns) (snd l)) lines ->
  okdup (map_m (connect_line f p ns) lines) s (fun _ s' => reach s').
Proof.
  induction lines as [|[en is] lines IH]; intros s R Hp Hn Hl; [left; by exists [], s|]. apply Forall_cons in Hl as [Hi Hl]. cbn [snd] in Hi. cbn [map_m].
  destruct (pick_ok ns is s Hi) as (xs & Ep & _ & Hs). eapply (okdup_bind _ _ _ (fun _ s' => reach s' /\ kept (heap s) (heap s'))).
  - unfold connect_line. cbn [fst snd]. unfold okdup. rewrite (bind_ok _ _ _ _ _ Ep). apply nodes_cases; [done|done|]. apply Forall_forall. intros x Hx. rewrite Forall_forall in Hn. by apply Hn, Hs.
  - intros e s1 _ [R1 K1]. eapply okdup_bind; [apply IH; [done| | |done]|].
    + rewrite (kept_kind _ _ _ K1); [done|]. unfold kind_of in Hp. destruct (heap s !! p) eqn:X; [by eexists|done].
    + eapply Forall_impl; [exact Hn|]. intros x. by apply live_node_kept.
    + intros es s2 _ R2. left. by eexists _, s2.
Qed.
Lemma list_cases f p : forall nms s, reach s -> kind_of (heap s) p = Some KNode -> okdup (generate_list_nodes f nms (Some p)) s (fun ns s' => reach s' /\ length ns = length nms).
Proof.
  unfold generate_list_nodes. induction nms as [|nm nms IH]; intros s R Hk; [left; by exists [], s|]. cbn [map_m]. pose proof Hk as Hk0. unfold kind_of in Hk. destruct (heap s !! p) as [op|] eqn:Hp; [|done]. cbn in Hk. injection Hk as Hk.
  destruct (gen_node_cases s f nm p op (reach_wf _ R) Hp) as [[_ (s1 & E1)]|(_ & s1 & prog & E1 & G & M & _)]; [by rewrite Hk|right; exists s1; by rewrite (bind_exn _ _ _ _ _ E1)|].
  assert (R1 : reach s1) by (eapply (reach_void s _ (OGenNode f nm (Some p))); [done|by eexists|reflexivity|exact E1]).
  assert (Hk1 : kind_of (heap s1) p = Some KNode) by (rewrite (kept_kind _ _ _ (gr_kept _ _ _ _ _ G)) by (by eexists); done).
  destruct (IH s1 R1 Hk1) as [(a & s2 & E2 & R2 & L2)|(s2 & E2)]; [left|right].
  - eexists _, s2. rewrite (bind_ok _ _ _ _ _ E1), (bind_ok _ _ _ _ _ E2). split; [reflexivity|]. split; [done|]. cbn. by rewrite L2.
  - exists s2. by rewrite (bind_ok _ _ _ _ _ E1), (bind_exn _ _ _ _ _ E2).
Qed.

Lemma whole_cases f root nms lines s : reach s -> Forall (fun l => Forall (fun i => i < length nms) (snd l)) lines ->
  okdup (let! p := generate_node f root None in let! ns := generate_list_nodes f nms (Some p) in check_uuids [] ns ;; let! es := map_m (connect_line f p ns) lines in ret (p, ns, es)) s (fun _ _ => True).
Proof.
  intros R Hl. destruct (root_made s f root R) as (s1 & E1 & R1 & M1 & K1 & U1 & C1 & L1 & P1 & Ch1 & o & Ho & Hko & _). set (p := length (heap s)) in *.
  unfold okdup. rewrite (bind_ok _ _ _ _ _ E1). assert (Hkp : kind_of (heap s1) p = Some KNode) by (unfold kind_of; rewrite Ho; cbn; by rewrite Hko).
  eapply okdup_bind; [by apply list_cases|]. intros ns s2 E2 [R2 L2]. destruct (list_kids f p nms s1 ns s2 (reach_wf _ R1) Hkp E2) as [W2 Hc2]. rewrite Ch1, app_nil_l in Hc2.
  destruct (gen_list_after f p nms s1 ns s2 (reach_wf _ R1) Hkp E2) as [F2 K2].
  unfold okdup. rewrite (bind_ok _ _ _ _ _ (check_kids p s2 ns W2 Hc2)). eapply okdup_bind.
  - apply lines_cases; [done| | |].
    + rewrite (kept_kind _ _ _ K2); [done|by eexists].
    + eapply Forall_impl; [exact F2|]. intros x (k & t & oc & _ & _ & H). by exists oc.
    + by rewrite L2.
  - intros es s3 _ _. left. by eexists _, s3.
Qed.
Lemma build_cases f root nms lines s : reach s -> Forall (fun l => Forall (fun i => i < length nms) (snd l)) lines ->
  (exists a s', build_graph f root nms lines s = (Ok a, s')) \/ (exists s', build_graph f root nms lines s = (Exn ErrorDuplicateElement, s')).
Proof.
  intros R Hl. destruct (root_made s f root R) as (s1 & E1 & R1 & M1 & K1 & U1 & C1 & L1 & P1 & Ch1 & o & Ho & Hko & _). set (p := length (heap s)) in *.
  assert (Hkp : kind_of (heap s1) p = Some KNode) by (unfold kind_of; rewrite Ho; cbn; by rewrite Hko).
  assert (X : okdup (build_graph f root nms lines) s (fun _ _ => True)); [|destruct X as [(a & s' & X & _)|X]; [left; by exists a, s'|by right]].
  unfold build_graph, okdup. rewrite (bind_ok _ _ _ _ _ E1).
  eapply okdup_bind; [by apply list_cases|]. intros ns s2 E2 [R2 L2]. destruct (gen_list_after f p nms s1 ns s2 (reach_wf _ R1) Hkp E2) as [F2 K2]. eapply okdup_bind.
  - apply (lines_cases f p ns lines s2); [done| | |].
    + rewrite (kept_kind _ _ _ K2); [done|by eexists].
    + eapply Forall_impl; [exact F2|]. intros x (k & t & oc & _ & _ & H). by exists oc.
    + by rewrite L2.
  - intros es s3 _ _. left. by eexists _, s3.
Qed.
Lemma fano_whole ctx c s : create_fano_graph ctx c s = bind
  (let! p := generate_node (mkFactory ctx c) ctx None in let! ns := generate_list_nodes (mkFactory ctx c) digits (Some p) in
   check_uuids [] ns ;; let! es := map_m (connect_line (mkFactory ctx c) p ns) fano_lines in ret (p, ns, es)) (fun x => ret (mkFactory ctx c, x.1.1, x.1.2, x.2)) s.
Proof.
  unfold create_fano_graph. rewrite digits_eq. unfold bind. destruct (generate_node _ _ _ s) as [[p|?] s1]; [|reflexivity].
  destruct (generate_list_nodes _ _ _ s1) as [[ns|?] s2]; [|reflexivity]. destruct (check_uuids [] ns s2) as [[[]|?] s3]; [|reflexivity].
  destruct (map_m _ _ s3) as [[es|?] s4]; reflexivity.
Qed.
Lemma fano_cases ctx c s : reach s -> (exists a s', create_fano_graph ctx c s = (Ok a, s')) \/ (exists s', create_fano_graph ctx c s = (Exn ErrorDuplicateElement, s')).
Proof.
  intros R. destruct (whole_cases (mkFactory ctx c) ctx digits fano_lines s R) as [([[p ns] es] & s' & E & _)|(s' & E)].
  { destruct fano_good as (_ & _ & F). eapply Forall_impl; [exact F|]. by intros l (_ & _ & H). }
  - left. eexists _, s'. rewrite fano_whole, (bind_ok _ _ _ _ _ E). reflexivity.
  - right. exists s'. by rewrite fano_whole, (bind_exn _ _ _ _ _ E).
Qed.
