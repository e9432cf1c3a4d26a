(** * Proofs: whole graphs, the Fano plane *)
From Verif Require Import PDict PExec PWF PMono PAdd PReach PPrim PHist Spec SpecFac QHier4 QHier5 QHier6 QFac QFac2 History Samples SpecSample QSample.

Lemma root_made s f nm : reach s -> exists s', generate_node f nm None s = (Ok (length (heap s)), s') /\ reach s' /\ mono s s' /\ kept (heap s) (heap s') /\ unmoved (heap s) (heap s') /\
  (forall l, exists_in (heap s) l -> children (heap s') l = children (heap s) l) /\ length (heap s') = S (length (heap s)) /\
  parent_of (heap s') (length (heap s)) = None /\ children (heap s') (length (heap s)) = [] /\ exists o, heap s' !! length (heap s) = Some o /\ o_kind o = KNode /\ o_name o = nm /\ o_ready o = true.
Proof.
  intros R. destruct (generate_node f nm None s) as [[x|ex] s'] eqn:E.
  2:{ exfalso. rewrite gen_root_eq in E. unfold new_conceptual in E. set (s1 := set_tick (S (S (tick s))) s) in E.
      rewrite (bind_ok (now (f_clock f)) _ s1 (clk s1 (f_clock f) (tick s1)) (set_tick (S (tick s1)) s1)) in E by done.
      set (o := s_ready _ _) in E. rewrite (bind_ok _ _ _ _ _ (alloc_state _ o)) in E. set (s2 := set_tick (S (tick s1)) s1) in E.
      change (heap s2) with (heap s) in E. rewrite (bind_ok (ret tt) _ _ tt (set_heap (heap s ++ [o]) s2)) in E by done.
      assert (Ho : heap (set_heap (heap s ++ [o]) s2) !! length (heap s) = Some o) by (simpl; by rewrite lookup_app_r, Nat.sub_diag by lia).
      rewrite (bind_ok _ _ _ _ _ (upd_ok _ (s_ready true) _ o Ho)) in E. discriminate E. }
  assert (R' : reach s') by (eapply (reach_void s _ (OGenNode f nm None)); [done|exact Logic.I|reflexivity|exact E]).
  pose proof (pres_generate_node f nm None s) as M. rewrite E in M. cbn [snd] in M.
  rewrite gen_root_eq in E. unfold new_conceptual in E. set (s1 := set_tick (S (S (tick s))) s) in E.
  rewrite (bind_ok (now (f_clock f)) _ s1 (clk s1 (f_clock f) (tick s1)) (set_tick (S (tick s1)) s1)) in E by done.
  set (o := s_ready _ _) in E. rewrite (bind_ok _ _ _ _ _ (alloc_state _ o)) in E. set (s2 := set_tick (S (tick s1)) s1) in E.
  change (heap s2) with (heap s) in E. rewrite (bind_ok (ret tt) _ _ tt (set_heap (heap s ++ [o]) s2)) in E by done.
  assert (Ho : heap (set_heap (heap s ++ [o]) s2) !! length (heap s) = Some o) by (simpl; by rewrite lookup_app_r, Nat.sub_diag by lia).
  rewrite (bind_ok _ _ _ _ _ (upd_ok _ (s_ready true) _ o Ho)) in E. injection E as <- <-. eexists. split; [reflexivity|]. split; [exact R'|]. split; [exact M|]. cbn [heap set_heap].
  assert (Hold : forall l, exists_in (heap s) l -> alter (s_ready true) (length (heap s)) (heap s ++ [o]) !! l = heap s !! l).
  { intros l Hl'. apply exists_in_lt in Hl'. rewrite list_lookup_alter_ne by lia. by rewrite lookup_app_l. }
  assert (Hx : alter (s_ready true) (length (heap s)) (heap s ++ [o]) !! length (heap s) = Some (s_ready true o)).
  { rewrite list_lookup_alter. by rewrite lookup_app_r, Nat.sub_diag by lia. }
  split; [intros l ol Hol; rewrite Hold by (by eexists); by rewrite Hol|]. split; [intros l Hl; unfold parent_of; by rewrite Hold|].
  split; [intros l Hl; unfold children; by rewrite Hold|]. split; [rewrite alter_length, app_length; simpl; lia|].
  split; [unfold parent_of; by rewrite Hx|]. split; [unfold children; by rewrite Hx|]. eexists. split; [done|]. done.
Qed.

Definition lines_good (nms : list string) (lines : list (string * list nat)) : Prop :=
  NoDup nms /\ NoDup (map fst lines) /\ Forall (fun l => has_char slash (fst l) = false /\ NoDup (snd l) /\ Forall (fun i => i < length nms) (snd l)) lines.

(** the nodes, then any check that changes nothing, then the edges *)
Lemma build_steps f root nms lines s : reach s -> (forall a b, sha s a = sha s b -> a = b) -> lines_good nms lines ->
  exists p ns es s1 s2 s', generate_node f root None s = (Ok p, s1) /\ generate_list_nodes f nms (Some p) s1 = (Ok ns, s2) /\ map_m (connect_line f p ns) lines s2 = (Ok es, s') /\
    (exists h, WF0 h /\ h = heap s2 /\ children h p = ns) /\
    reach s' /\ ~ exists_in (heap s) p /\ parent_of (heap s') p = None /\ kind_of (heap s') p = Some KNode /\ name_of (heap s') p = root /\ graph_is (heap s') p nms lines ns es /\ NoDup (ns ++ es) /\
    kept (heap s) (heap s') /\ unmoved (heap s) (heap s') /\ forall l, exists_in (heap s) l -> children (heap s') l = children (heap s) l.
Proof.
  intros R Hi (Hn1 & Hn2 & Hl). destruct (root_made s f root R) as (s1 & E1 & R1 & M1 & K1 & U1 & C1 & L1 & P1 & Ch1 & o & Ho & Hko & Hno & Hro).
  set (p := length (heap s)) in *. pose proof (reach_wf _ R1) as W1.
  destruct (q_C22 s1 f nms p o R1 Ho) as (ns & s2 & ns0 & E2 & R2 & _ & _ & Hnm & Hnd & Hns & Hc2 & Ho2 & Hx2 & K2 & U2).
  { by rewrite Hko. } { done. } { intros nm nm' t t' _ _. rewrite (m_sha _ _ M1). apply Hi. } { intros nm t x _ Hx. rewrite Ch1 in Hx. by apply elem_of_nil in Hx. }
  assert (Hkp : kind_of (heap s1) p = Some KNode) by (unfold kind_of; rewrite Ho; cbn; by rewrite Hko).
  destruct (gen_list_after f p nms s1 ns s2 W1 Hkp E2) as (F2 & _). rewrite Forall_forall in F2.
  assert (M2 : mono s1 s2). { assert (X : pres (generate_list_nodes f nms (Some p))) by (unfold generate_list_nodes; apply pres_map_m; intros nm; pres). pose proof (X s1) as M2. by rewrite E2 in M2. }
  assert (Hpe : exists_in (heap s1) p) by (by eexists). assert (Hpn : p ∉ ns). { intros X. destruct (Hns p X) as [Y _]. done. }
  rewrite Ch1, app_nil_l in Hc2.
  assert (G : readyg f p ns [] s2).
  { split.
    - done. - rewrite (m_sha _ _ M2), (m_sha _ _ M1). exact Hi. - by rewrite (kept_kind _ _ _ K2). - done.
    - apply Forall_forall. intros n Hn. destruct (F2 n Hn) as (k & t & oc & _ & _ & H1 & H2 & H3). by exists oc.
    - by rewrite Hnm.
    - intros n x Hn Hx. destruct (Hns n Hn) as (_ & _ & X). rewrite X in Hx. by apply elem_of_nil in Hx.
    - intros x Hx. rewrite Hc2 in Hx. destruct (F2 x Hx) as (k & t & oc & H1 & H2 & _). exists k, t. rewrite (m_sha _ _ M2). split; [done|by right]. }
  assert (Hlen : length ns = length nms) by (rewrite <- Hnm; by rewrite map_length).
  destruct (lines_go f p ns lines s2 [] G Hn2) as (es & s' & E3 & R3 & C3 & F3 & K3 & U3 & O3 & N3).
  { eapply Forall_impl; [exact Hl|]. intros l (A & B & D). rewrite Hlen. split; [apply not_elem_of_nil|done]. }
  assert (Hp2 : exists_in (heap s2) p) by (by apply (kept_exists _ _ _ K2)).
  exists p, ns, es, s1, s2, s'. split; [done|]. split; [done|]. split; [done|]. split; [exists (heap s2); split; [by apply reach_wf|done]|]. split; [done|].
  assert (Hnew : ~ exists_in (heap s) p) by (rewrite exists_in_lt; unfold p; lia). assert (Hex1 : forall l, exists_in (heap s) l -> exists_in (heap s1) l) by (intros l; by apply kept_exists).
  assert (Hex2 : forall l, exists_in (heap s1) l -> exists_in (heap s2) l) by (intros l; by apply kept_exists).
  split; [done|]. split; [by rewrite U3, U2|]. split; [by rewrite (kept_kind _ _ _ K3), (kept_kind _ _ _ K2)|].
  split; [rewrite (kept_name _ _ _ K3), (kept_name _ _ _ K2) by done; unfold name_of; by rewrite Ho|].
  split.
  { split; [by rewrite C3, Hc2| |exact F3]. rewrite <- Hnm. apply Forall2_fmap_r. apply Forall_Forall2_diag. apply Forall_forall. intros n Hn.
    destruct (F2 n Hn) as (k & t & oc & _ & _ & H1 & H2 & H3). assert (Hne : exists_in (heap s2) n) by (by eexists). rewrite (kept_kind _ _ _ K3), (kept_name _ _ _ K3) by done.
    split; [unfold kind_of; rewrite H1; cbn; by rewrite H2|done]. }
  split.
  { pose proof (wf0_children_nd _ (reach_wf _ R3) p) as X. by rewrite C3, Hc2 in X. }
  split; [eapply kept_trans; [|exact K3]; by eapply kept_trans|].
  split. { intros l Hl1. rewrite U3, U2, U1; auto. }
  intros l Hl1. assert (Hlp : l <> p) by (intros ->; done).
  rewrite O3; [|by auto|done|]. { rewrite Ho2 by auto. by apply C1. }
  intros X. destruct (Hns l X) as [Y _]. by apply Y, Hex1.
Qed.

Lemma build_go f root nms lines s : reach s -> (forall a b, sha s a = sha s b -> a = b) -> lines_good nms lines ->
  exists p ns es s', build_graph f root nms lines s = (Ok (p, ns, es), s') /\ reach s' /\ ~ exists_in (heap s) p /\ parent_of (heap s') p = None /\ kind_of (heap s') p = Some KNode /\
    name_of (heap s') p = root /\ graph_is (heap s') p nms lines ns es /\ kept (heap s) (heap s') /\ unmoved (heap s) (heap s') /\ forall l, exists_in (heap s) l -> children (heap s') l = children (heap s) l.
Proof.
  intros R Hi Hl. destruct (build_steps f root nms lines s R Hi Hl) as (p & ns & es & s1 & s2 & s' & E1 & E2 & E3 & _ & H1 & H2 & H3 & H4 & H5 & H6 & _ & H7).
  exists p, ns, es, s'. split; [|done]. unfold build_graph. rewrite (bind_ok _ _ _ _ _ E1), (bind_ok _ _ _ _ _ E2). by rewrite (bind_ok _ _ _ _ _ E3).
Qed.

(** ** The assertion *)
Lemma check_ok : forall ns seen s, Forall (exists_in (heap s)) ns -> NoDup (map (uuid_of (heap s)) ns) -> (forall n, n ∈ ns -> uuid_of (heap s) n ∉ seen) -> check_uuids seen ns s = (Ok tt, s).
Proof.
  induction ns as [|n ns IH]; intros seen s He Hnd Hs; [done|]. apply Forall_cons in He as [[o Ho] He]. cbn [map] in Hnd. apply NoDup_cons in Hnd as [Hn Hnd].
  cbn [check_uuids]. rewrite (bind_ok _ _ _ _ _ (deref_ok _ _ _ Ho)). assert (Hu : uuid_of (heap s) n = o_uuid o) by (unfold uuid_of; by rewrite Ho).
  rewrite decide_False by (rewrite <- Hu; apply Hs; left). apply IH; [done|done|]. intros m Hm Hin. apply elem_of_cons in Hin as [Hin|Hin]; [|by apply (Hs m); [right|]].
  apply Hn. rewrite Hu, <- Hin. by apply elem_of_list_fmap_1.
Qed.
Lemma kids_uuids h p : WF0 h -> NoDup (map (uuid_of h) (children h p)).
Proof.
  intros W. apply NoDup_fmap_2_strong; [|by apply wf0_children_nd]. intros x y Hx Hy. by apply same_uuid_child with (e := p).
Qed.
Lemma check_kids p s ns : WF0 (heap s) -> children (heap s) p = ns -> check_uuids [] ns s = (Ok tt, s).
Proof.
  intros W <-. apply check_ok; [|by apply kids_uuids|intros; apply not_elem_of_nil]. apply Forall_forall. intros x Hx. by eapply wf_children_exist.
Qed.
Lemma list_kids f p : forall nms s cs s', WF0 (heap s) -> kind_of (heap s) p = Some KNode -> generate_list_nodes f nms (Some p) s = (Ok cs, s') ->
  WF0 (heap s') /\ children (heap s') p = children (heap s) p ++ cs.
Proof.
  induction nms as [|nm nms IH]; intros s cs s' W Hk E; [injection E as <- <-; by rewrite app_nil_r|].
  unfold generate_list_nodes in E. cbn [map_m] in E. unfold kind_of in Hk. destruct (heap s !! p) as [op|] eqn:Hp; [|done]. cbn in Hk. injection Hk as Hk.
  destruct (gen_node_cases s f nm p op W Hp) as [[_ (s1 & E1)]|(_ & s1 & prog & E1 & G & M & _)]; [by rewrite Hk|by rewrite (bind_exn _ _ _ _ _ E1) in E|].
  rewrite (bind_ok _ _ _ _ _ E1) in E. unfold bind in E. destruct (map_m _ nms s1) as [[cs1|ex] s2] eqn:E2; [|done]. injection E as <- <-.
  destruct (IH s1 cs1 s2) as [W2 C2]; [apply G|by rewrite (kept_kind _ _ _ (gr_kept _ _ _ _ _ G)); [unfold kind_of; rewrite Hp; cbn; by rewrite Hk|by eexists]|exact E2|].
  split; [done|]. rewrite C2, (gr_p _ _ _ _ _ G). by rewrite <- app_assoc.
Qed.

(** no AssertionError elsewhere *)
Definition never {A} (ex : exn) (m : M A) : Prop := forall s s', m s <> (Exn ex, s').
Lemma never_bind {A B} ex (m : M A) (k : A -> M B) : never ex m -> (forall a, never ex (k a)) -> never ex (bind m k).
Proof. intros Hm Hk s s' E. unfold bind in E. destruct (m s) as [[a|e] s1] eqn:E1; [by eapply Hk|]. injection E as -> ->. by eapply Hm. Qed.

(** ** The plane *)
Lemma on_line h ns e l n : joins_line h ns e l -> on h e n <-> exists i, i ∈ snd l /\ ns !! i = Some n.
Proof.
  intros (_ & _ & xs & Hj & Hm). transitivity (n ∈ xs).
  - unfold on, edge_joins in *. clear Hm. induction Hj as [|r x rs xs' (_ & Hr & _) _ IH]; split.
    + intros (r & Hr & _). by apply elem_of_nil in Hr. + intros Hx. by apply elem_of_nil in Hx.
    + intros (r' & Hr' & He). apply elem_of_cons in Hr' as [->|Hr']; [rewrite Hr in He; injection He as <-; left|right; apply IH; by exists r'].
    + intros Hx. apply elem_of_cons in Hx as [->|Hx]; [exists r; split; [left|done]|]. apply IH in Hx as (r' & Hr' & He). exists r'. split; [by right|done].
  - split.
    + intros Hx. apply elem_of_list_lookup in Hx as [k Hk]. assert (X : map Some xs !! k = Some (Some n)) by (by rewrite list_lookup_fmap, Hk). rewrite <- Hm in X.
      apply list_lookup_fmap_inv in X as (i & X1 & X2). exists i. split; [by eapply elem_of_list_lookup_2|done].
    + intros (i & Hi & Hx). apply elem_of_list_lookup in Hi as [k Hk]. assert (X : map (fun i => ns !! i) (snd l) !! k = Some (Some n)) by (rewrite list_lookup_fmap, Hk; cbn; by rewrite Hx).
      rewrite Hm in X. apply list_lookup_fmap_inv in X as (y & [= <-] & X2). by eapply elem_of_list_lookup_2.
Qed.
(** the same for indices *)
Definition fl (k : nat) : list nat := snd (nth k fano_lines ("", [])).
Definition points_ok : bool := forallb (fun i => forallb (fun j => (i =? j) || existsb (fun k => bool_decide (i ∈ fl k) && bool_decide (j ∈ fl k) &&
  forallb (fun k' => negb (bool_decide (i ∈ fl k') && bool_decide (j ∈ fl k')) || (k' =? k)) (seq 0 7)) (seq 0 7)) (seq 0 7)) (seq 0 7).
Definition edges_ok : bool := forallb (fun k => forallb (fun k' => (k =? k') || existsb (fun i => bool_decide (i ∈ fl k) && bool_decide (i ∈ fl k') &&
  forallb (fun i' => negb (bool_decide (i' ∈ fl k) && bool_decide (i' ∈ fl k')) || (i' =? i)) (seq 0 7)) (seq 0 7)) (seq 0 7)) (seq 0 7).
Lemma points_ok_true : points_ok = true. Proof. vm_compute. reflexivity. Qed.
Lemma edges_ok_true : edges_ok = true. Proof. vm_compute. reflexivity. Qed.
Lemma unfold_all P n : forallb P (seq 0 n) = true -> forall i, i < n -> P i = true.
Proof. intros H i Hi. rewrite forallb_forall in H. apply H. apply in_seq. lia. Qed.
Lemma unfold_some P n : existsb P (seq 0 n) = true -> exists i, i < n /\ P i = true.
Proof. intros H. apply existsb_exists in H as (i & Hi & HP). apply in_seq in Hi. exists i. split; [lia|done]. Qed.
Lemma points_plane i j : i < 7 -> j < 7 -> i <> j -> exists k, k < 7 /\ i ∈ fl k /\ j ∈ fl k /\ forall k', k' < 7 -> i ∈ fl k' -> j ∈ fl k' -> k' = k.
Proof.
  intros Hi Hj Hij. pose proof (unfold_all _ _ (unfold_all _ _ points_ok_true i Hi) j Hj) as H. apply orb_true_iff in H as [H|H]; [by apply Nat.eqb_eq in H|].
  apply unfold_some in H as (k & Hk & H). apply andb_true_iff in H as [H H2]. apply andb_true_iff in H as [H0 H1]. apply bool_decide_eq_true in H0, H1. exists k. do 3 (split; [done|]).
  intros k' Hk' A B. pose proof (unfold_all _ _ H2 k' Hk') as X. apply orb_true_iff in X as [X|X]; [|by apply Nat.eqb_eq in X]. by rewrite !bool_decide_eq_true_2 in X.
Qed.
Lemma edges_plane k k' : k < 7 -> k' < 7 -> k <> k' -> exists i, i < 7 /\ i ∈ fl k /\ i ∈ fl k' /\ forall i', i' < 7 -> i' ∈ fl k -> i' ∈ fl k' -> i' = i.
Proof.
  intros Hi Hj Hij. pose proof (unfold_all _ _ (unfold_all _ _ edges_ok_true k Hi) k' Hj) as H. apply orb_true_iff in H as [H|H]; [by apply Nat.eqb_eq in H|].
  apply unfold_some in H as (i & Hk & H). apply andb_true_iff in H as [H H2]. apply andb_true_iff in H as [H0 H1]. apply bool_decide_eq_true in H0, H1. exists i. do 3 (split; [done|]).
  intros i' Hk' A B. pose proof (unfold_all _ _ H2 i' Hk') as X. apply orb_true_iff in X as [X|X]; [|by apply Nat.eqb_eq in X]. by rewrite !bool_decide_eq_true_2 in X.
Qed.
Lemma fano_plane h ns es : length ns = 7 -> NoDup ns -> NoDup es -> Forall2 (joins_line h ns) es fano_lines -> projective h ns es.
Proof.
  intros Hl Hn He F. assert (Hle : length es = 7) by (by apply Forall2_length in F).
  assert (Hline : forall k e, es !! k = Some e -> forall n, on h e n <-> exists i, i ∈ fl k /\ ns !! i = Some n).
  { intros k e Hk n. destruct (Forall2_lookup_l _ _ _ _ _ F Hk) as (l & Hl1 & Hj). rewrite (on_line _ _ _ _ _ Hj). unfold fl. by rewrite (nth_lookup_Some _ _ _ _ Hl1). }
  assert (Hin : forall k e i n, es !! k = Some e -> ns !! i = Some n -> on h e n <-> i ∈ fl k).
  { intros k e i n Hk Hi. rewrite (Hline k e Hk). split; [|intros X; by exists i]. intros (j & Hj & Hx). assert (i = j) as -> by exact (NoDup_lookup ns i j n Hn Hi Hx). done. }
  split.
  - intros n n' Hn1 Hn2 Hne. apply elem_of_list_lookup in Hn1 as [i Hi]. apply elem_of_list_lookup in Hn2 as [j Hj].
    destruct (points_plane i j) as (k & Hk & A & B & U); [apply lookup_lt_Some in Hi; lia|apply lookup_lt_Some in Hj; lia|intros ->; congruence|].
    destruct (lookup_lt_is_Some_2 es k ltac:(lia)) as [e Hke]. exists e. split; [by eapply elem_of_list_lookup_2|]. split; [by rewrite (Hin k e i n)|]. split; [by rewrite (Hin k e j n')|].
    intros e' He' X Y. apply elem_of_list_lookup in He' as [k' Hk']. rewrite (Hin k' e' i n Hk' Hi) in X. rewrite (Hin k' e' j n' Hk' Hj) in Y.
    assert (k' = k) as -> by (apply U; [apply lookup_lt_Some in Hk'; lia|done|done]). congruence.
  - intros e e' He1 He2 Hne. apply elem_of_list_lookup in He1 as [k Hk]. apply elem_of_list_lookup in He2 as [k' Hk'].
    destruct (edges_plane k k') as (i & Hi & A & B & U); [apply lookup_lt_Some in Hk; lia|apply lookup_lt_Some in Hk'; lia|intros ->; congruence|].
    destruct (lookup_lt_is_Some_2 ns i ltac:(lia)) as [n Hni]. exists n. split; [by eapply elem_of_list_lookup_2|]. split; [by rewrite (Hin k e i n)|]. split; [by rewrite (Hin k' e' i n)|].
    intros n' X Y. apply (Hline k e Hk) in X as (i1 & X & Hn1). apply (Hline k' e' Hk') in Y as (i2 & Y & Hn2). assert (i1 = i2) as -> by exact (NoDup_lookup ns i1 i2 n' Hn Hn1 Hn2).
    assert (i2 = i) as -> by (apply U; [apply lookup_lt_Some in Hn1; lia|done|done]). congruence.
Qed.
Definition digits : list string := ["0"; "1"; "2"; "3"; "4"; "5"; "6"].
Lemma digits_eq : map (fun x => str_of_Z (Z.of_nat x)) (seq 0 7) = digits.
Proof. vm_compute. reflexivity. Qed.
Lemma fano_good : lines_good digits fano_lines.
Proof.
  split; [apply (bool_decide_eq_true_1 _); vm_compute; reflexivity|]. split; [apply (bool_decide_eq_true_1 _); vm_compute; reflexivity|].
  repeat (constructor; [split; [vm_compute; reflexivity|split; [apply (bool_decide_eq_true_1 _); vm_compute; reflexivity|repeat (constructor; [cbn; lia|]); constructor]]|]). constructor.
Qed.
Lemma fano_go ctx c s : reach s -> (forall a b, sha s a = sha s b -> a = b) ->
  exists p ns es s', create_fano_graph ctx c s = (Ok (mkFactory ctx c, p, ns, es), s') /\ reach s' /\ ~ exists_in (heap s) p /\ parent_of (heap s') p = None /\ kind_of (heap s') p = Some KNode /\
    name_of (heap s') p = ctx /\ graph_is (heap s') p digits fano_lines ns es /\ projective (heap s') ns es /\
    kept (heap s) (heap s') /\ unmoved (heap s) (heap s') /\ forall l, exists_in (heap s) l -> children (heap s') l = children (heap s) l.
Proof.
  intros R Hi. destruct (build_steps (mkFactory ctx c) ctx digits fano_lines s R Hi fano_good) as (p & ns & es & s1 & s2 & s' & E1 & E2 & E3 & (h & W & -> & Hh) & H1 & H2 & H3 & H4 & H5 & H6 & Hnd & H7).
  exists p, ns, es, s'. split.
  - unfold create_fano_graph. rewrite digits_eq. rewrite (bind_ok _ _ _ _ _ E1), (bind_ok _ _ _ _ _ E2), (bind_ok _ _ _ _ _ (check_kids p s2 ns W Hh)). by rewrite (bind_ok _ _ _ _ _ E3).
  - do 6 (split; [done|]). split; [|done]. apply NoDup_app in Hnd as (Hn & _ & He). apply fano_plane; [by apply (gi_nodes _ _ _ _ _ _), Forall2_length in H6|done|done|apply H6].
Qed.
