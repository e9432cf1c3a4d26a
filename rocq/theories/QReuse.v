(** * Proofs of C93: representations that are used again *)
From Verif Require Import Spec Hierarchy Elements Factory History PDict PPath PExec PBfs PWF PMono PReach PHist Traverse SpecTrav QTrav QTrav2 QTrav3 Homomorphism SpecHom QHom HTraverse Tensor SpecTensor QTensor QTensor2 QTensor3 Reuse SpecReuse.
Local Open Scope nat_scope.

Lemma fill_some_all l T T' : fill_all T l = Ok T' -> fill_some T l = (Ok tt, T').
Proof.
  revert T. induction l as [|t l IH]; intros T E; cbn [fill_all fill_some] in *; [by injection E as ->|].
  destruct (fill_tensors T t) as [T1|e]; [by apply IH|done].
Qed.
Lemma fill_some_fail l T e : fill_all T l = Exn e -> exists T', fill_some T l = (Exn e, T').
Proof.
  revert T. induction l as [|t l IH]; intros T E; cbn [fill_all fill_some] in *; [done|].
  destruct (fill_tensors T t) as [T1|e1]; [by apply IH|]. injection E as ->. by exists T.
Qed.
Lemma fill_some_dims l T r T' : fill_some T l = (r, T') -> te_E T' = te_E T /\ te_n T' = te_n T.
Proof.
  revert T. induction l as [|t l IH]; intros T E; cbn [fill_some] in *; [by injection E as <- <-|].
  unfold fill_tensors in E. destruct (_ && _); [|by injection E as <- <-]. by apply IH in E.
Qed.
(** On a new object it is the transformer. *)
Lemma rep_run_new lim d c s : let '(r, s', o) := transform lim d c s in
  exists p, rep_run lim d c s rep_new = (r, s', p) /\
    match r with Ok _ => exists x, o = Some (x, rp_T p) | Exn _ => True end.
Proof.
  unfold transform, rep_run. destruct (hom_execute lim tensor_conf c s hom0) as [[[tasks|e] s1] x]; [|by eexists].
  assert (E : rp_T (rep_synchronize rep_new x) = synchronize x).
  { unfold rep_synchronize, synchronize. cbn [rp_cnt rep_new default fst snd rp_T].
    destruct (decide (cnt_node x = 0 /\ cnt_edges x = 0)) as [[H1 H2]|H].
    - rewrite decide_False; [done|]. rewrite H1, H2. intros [?|?]; done.
    - rewrite decide_True; [done|]. destruct (decide (cnt_node x = 0)); [right; naive_solver|by left]. }
  set (p1 := rep_synchronize rep_new x) in *.
  destruct (h_execute _ _ _ _ _ _ _ _) as [[[u|e] s2] q]; [|by eexists].
  unfold rep_fill, fill_weights. rewrite E. destruct (concat q) as [|t l]; [eexists; split; [reflexivity|]; exists x; by rewrite <- E|].
  destruct (synchronize x) as [T|]; [|by eexists].
  destruct (fill_all T (t :: l)) as [T'|e] eqn:F.
  - rewrite (fill_some_all _ _ _ F). eexists. split; [reflexivity|]. by exists x.
  - destruct (fill_some_fail _ _ _ F) as [T' ->]. by eexists.
Qed.

(** The arrays of a used representation have the recorded sizes. *)
Definition rep_ok (p : rep) : Prop :=
  match rp_T p with
  | None => default (0, 0) (rp_cnt p) = (0, 0)
  | Some T => rp_cnt p = Some (te_n T, te_E T)
  end.
Lemma sync_ok p x : rep_ok p -> rep_ok (rep_synchronize p x).
Proof.
  unfold rep_ok, rep_synchronize. intros H. cbn [rp_T rp_cnt]. destruct (decide _) as [Hd|Hd]; [done|].
  assert (E1 : cnt_node x = fst (default (0, 0) (rp_cnt p))) by (destruct (decide (cnt_node x = fst (default (0, 0) (rp_cnt p)))); [done|]; by destruct Hd; left).
  assert (E2 : cnt_edges x = snd (default (0, 0) (rp_cnt p))) by (destruct (decide (cnt_edges x = snd (default (0, 0) (rp_cnt p)))); [done|]; by destruct Hd; right).
  destruct (rp_T p) as [T|].
  - rewrite E1, E2, H. done.
  - rewrite H in E1, E2. cbn in E1, E2. cbn [default]. by rewrite E1, E2.
Qed.
Lemma fill_ok p q r p' : rep_ok p -> rep_fill p q = (r, p') -> rep_ok p'.
Proof.
  unfold rep_fill. intros H E. destruct (concat q) as [|t l]; [by injection E as <- <-|]. destruct (rp_T p) as [T|] eqn:ET; [|by injection E as <- <-].
  destruct (fill_some T (t :: l)) as [r1 T'] eqn:F. injection E as <- <-. apply fill_some_dims in F as [F1 F2]. unfold rep_ok in *. cbn [rp_T rp_cnt]. rewrite ET in H. by rewrite F1, F2.
Qed.
Lemma used_ok p : used p -> rep_ok p.
Proof.
  induction 1 as [|lim d c s p r s' p' Hp IH R E]; [done|]. unfold rep_run in E.
  destruct (hom_execute lim tensor_conf c s hom0) as [[[tasks|e] s1] x]; [|by injection E as <- <- <-].
  destruct (h_execute _ _ _ _ _ _ _ _) as [[[u|e] s2] q]; [|injection E as <- <- <-; by apply sync_ok].
  destruct (rep_fill _ q) as [[u'|e] p2] eqn:F; injection E as <- <- <-; (eapply fill_ok; [|exact F]); by apply sync_ok.
Qed.

(** All weights written are not zero. *)
Section nz.
  Context (s : st) (c : loc).
  Lemma tuples_nonzero x t : t ∈ all_tuples s c x -> tu_w t <> 0%Qc.
  Proof.
    rewrite all_tuples_eq. intros Ht. apply elem_of_flat_map in Ht as (e & _ & Ht). apply elem_of_flat_map in Ht as (r & _ & Ht).
    unfold batches in Ht. destruct (ep_of (heap s) r) as [p|]; [|inversion Ht]. rewrite concat_app, elem_of_app in Ht.
    destruct Ht as [Ht|Ht]; destruct (decide _) as [|Hw]; cbn [concat] in Ht; try (by inversion Ht); rewrite app_nil_r in Ht; apply elem_tup in Ht as (y & _ & _ & ->); exact Hw.
  Qed.
End nz.
Lemma default_over (l : list (htuple nat)) v d : (forall t, t ∈ l -> tu_w t <> 0%Qc) -> default 0%Qc (last (map tu_w l)) = v -> default d (last (map tu_w l)) = over v d.
Proof.
  intros H E. unfold over. destruct (last (map tu_w l)) as [w|] eqn:L; cbn in *.
  - subst w. rewrite decide_False; [done|]. assert (Hv : v ∈ map tu_w l) by (apply last_Some_elem_of; exact L).
    apply elem_of_list_fmap in Hv as (t & -> & Ht). by apply H.
  - rewrite <- E. by rewrite decide_True.
Qed.

Definition base (p : rep) (n E : nat) : tensors :=
  if decide (rp_cnt p = Some (n, E)) then default (zeros E n) (rp_T p) else zeros E n.
Lemma rep_runs s c lim p : used p -> reach s -> closed_graph (heap s) c -> work (heap s) c < lim ->
  exists tasks p', rep_run lim (Some 1) c s p = (Ok tasks, s, p') /\ rp_cnt p' = Some (sizes (heap s) c) /\
    match rp_T p' with
    | Some T => overlaid (heap s) c (base p (length (nodes_of (heap s) c)) (length (edges_of (heap s) c))) T
    | None => sizes (heap s) c = (0, 0) /\ rp_T p = None
    end.
Proof.
  intros Up R G Hl. pose proof (reach_wf s R) as W. pose proof (used_ok p Up) as Op.
  assert (Hc : exists_in (heap s) c) by (pose proof (cg_node _ _ G) as Hk; unfold kind_of in Hk; destruct (heap s !! c) eqn:E; [by eexists|done]).
  destruct (q_C30_depth1 s c lim hom0 R Hc) as (r & x & Hx & Hix & Nn & Ne & Nv & _); [unfold work in Hl; lia|].
  fold (nodes_of (heap s) c) in Hix, Nn. fold (edges_of (heap s) c) in Hix, Ne.
  assert (Hn : forall i p, nodes_of (heap s) c !! i = Some p -> hom_node x (uuid_of (heap s) p) = Ok i).
  { intros i q Hi. destruct Hix as ((_ & _ & H & _) & _). apply H. rewrite list_lookup_fmap, Hi. split; [done|].
    intros j Hj. eapply NoDup_lookup in Nn; [|exact Hj|rewrite list_lookup_fmap, Hi; reflexivity]. lia. }
  assert (He : forall i p, edges_of (heap s) c !! i = Some p -> hom_edge x (uuid_of (heap s) p) = Ok i).
  { intros i q Hi. destruct Hix as (_ & (_ & _ & H & _) & _). apply H. rewrite list_lookup_fmap, Hi. split; [done|].
    intros j Hj. eapply NoDup_lookup in Ne; [|exact Hj|rewrite list_lookup_fmap, Hi; reflexivity]. lia. }
  destruct (reach_fr s R) as (_ & Hf & _).
  destruct (h_execute_ok s R c G x Hn He lim Hf Hl) as [tasks Ht].
  unfold rep_run. change tensor_conf with (mkHC true (Some 1)). rewrite Hx, Ht. unfold rep_fill. fold (all_tuples s c x).
  pose proof (all_in_bounds s c G x Hn He) as Hb.
  assert (Cn : cnt_node x = length (nodes_of (heap s) c)) by (destruct Hix as ((-> & _) & _); by rewrite map_length).
  assert (Ce : cnt_edges x = length (edges_of (heap s) c)) by (destruct Hix as (_ & (-> & _) & _); by rewrite map_length).
  set (n := length (nodes_of (heap s) c)) in *. set (E := length (edges_of (heap s) c)) in *.
  assert (B : rp_cnt (rep_synchronize p x) = Some (sizes (heap s) c) /\
    (rp_T (rep_synchronize p x) = Some (base p n E) /\ te_E (base p n E) = E /\ te_n (base p n E) = n \/
     rp_T (rep_synchronize p x) = None /\ n = 0 /\ E = 0 /\ rp_T p = None)).
  { unfold rep_synchronize, base. cbn [rp_cnt rp_T]. rewrite Cn, Ce. split; [done|]. unfold rep_ok in Op.
    destruct (rp_T p) as [T|] eqn:ET.
    - rewrite Op. cbn [default fst snd]. unfold id. cbn [fst snd]. destruct (decide (n <> te_n T \/ E <> te_E T)) as [D|D].
      + left. rewrite decide_False; [done|]. intros [= H1 H2]. destruct D; congruence.
      + assert (n = te_n T) by (destruct (decide (n = te_n T)); [done|by destruct D; left]).
        assert (E = te_E T) by (destruct (decide (E = te_E T)); [done|by destruct D; right]). left. rewrite decide_True by congruence. done.
    - rewrite Op. cbn [default fst snd]. unfold id. cbn [fst snd]. destruct (decide (n <> 0 \/ E <> 0)) as [D|D].
      + left. destruct (decide _); done.
      + right. split; [done|]. destruct (decide (n = 0)); [|by destruct D; left]. destruct (decide (E = 0)); [done|by destruct D; right]. }
  destruct B as [Bc [(BT & BE & Bn)|(BT & B1 & B2 & B3)]].
  - rewrite BT. destruct (fill_all_ok (all_tuples s c x) (base p n E)) as (T' & HT & D1 & D2 & D3 & D4 & D5).
    { intros t Htt. unfold in_bounds. rewrite BE, Bn. by apply Hb. }
    assert (Z : forall (P : htuple nat -> Prop) `{!forall t, Decision (P t)} t, t ∈ filter P (all_tuples s c x) -> tu_w t <> 0%Qc).
    { intros P HP t Hin. apply elem_of_list_filter in Hin as [_ Hin]. by eapply tuples_nonzero. }
    assert (O : overlaid (heap s) c (base p n E) T').
    { split; [by rewrite D1|]. split; [by rewrite D2|]. split.
      - intros k e i a j b H1 H2 H3. rewrite D3. apply default_over; [by apply Z|]. by apply W_entry.
      - intros k e i a H1 H2. rewrite D4, D5. split; (apply default_over; [by apply Z|]); [by apply Io_entry|by apply Ii_entry]. }
    destruct (all_tuples s c x) as [|t l] eqn:Et.
    + cbn [fill_all] in HT. injection HT as <-. eexists _, _. split; [reflexivity|]. split; [done|]. by rewrite BT.
    + rewrite (fill_some_all _ _ _ HT). eexists _, _. split; [reflexivity|]. split; [done|]. done.
  - assert (Ee : edges_of (heap s) c = []) by (by apply nil_length_inv).
    assert (Et : all_tuples s c x = []) by (unfold all_tuples; by rewrite Ee). rewrite Et. eexists _, _. split; [reflexivity|]. split; [done|].
    rewrite BT. split; [|done]. unfold sizes. by rewrite B1, B2 || (fold n E; by rewrite B1, B2).
Qed.

(** ** Statements *)
Lemma overlaid_zeros h c E n T : overlaid h c (zeros E n) T -> describes h c T.
Proof.
  intros (H1 & H2 & H3 & H4). split; [done|]. split; [done|].
  assert (O : forall q, over q 0%Qc = q) by (intros q; unfold over; by destruct (decide (q = 0%Qc))).
  split.
  - intros k e i a j b X Y Z. rewrite (H3 _ _ _ _ _ _ X Y Z). apply O.
  - intros k e i a X Y. destruct (H4 _ _ _ _ X Y) as [-> ->]. by rewrite !O.
Qed.
Lemma q_C93_runs s c lim p : used p -> reach s -> closed_graph (heap s) c -> work (heap s) c < lim ->
  exists tasks p', rep_run lim (Some 1) c s p = (Ok tasks, s, p') /\ used p' /\ rp_cnt p' = Some (sizes (heap s) c) /\
    (rp_cnt p <> Some (sizes (heap s) c) -> sizes (heap s) c <> (0, 0) -> exists T, rp_T p' = Some T /\ describes (heap s) c T) /\
    (forall T0, rp_cnt p = Some (sizes (heap s) c) -> rp_T p = Some T0 -> exists T, rp_T p' = Some T /\ overlaid (heap s) c T0 T).
Proof.
  intros U R G Hl. destruct (rep_runs s c lim p U R G Hl) as (tasks & p' & E & C & M). exists tasks, p'. split; [done|]. split; [by eapply used_run|]. split; [done|]. split.
  - intros H1 H2. destruct (rp_T p') as [T|]; [|by destruct M]. exists T. split; [done|]. unfold base in M. rewrite decide_False in M by done. by eapply overlaid_zeros.
  - intros T0 H1 H2. destruct (rp_T p') as [T|]; [|by destruct M as [_ M]; congruence]. exists T. split; [done|]. unfold base in M.
    rewrite decide_True in M by done. rewrite H2 in M. exact M.
Qed.
Lemma q_C93_right h c T0 T : overlaid h c T0 T -> describes h c T <-> no_more h c T0.
Proof.
  intros (H1 & H2 & H3 & H4).
  assert (O : forall q d, over q d = q <-> (q = 0%Qc -> d = 0%Qc)).
  { intros q d. unfold over. destruct (decide (q = 0%Qc)) as [->|n]; [naive_solver|]. split; [intros _ ?; contradiction|done]. }
  split.
  - intros (_ & _ & D3 & D4). split.
    + intros k e i a j b X Y Z. apply O. rewrite <- (H3 _ _ _ _ _ _ X Y Z). by apply D3.
    + intros k e i a X Y. destruct (H4 _ _ _ _ X Y) as [E1 E2], (D4 _ _ _ _ X Y) as [F1 F2]. split; apply O; congruence.
  - intros [N1 N2]. split; [done|]. split; [done|]. split.
    + intros k e i a j b X Y Z. rewrite (H3 _ _ _ _ _ _ X Y Z). apply O. by apply (N1 k e i a j b).
    + intros k e i a X Y. destruct (H4 _ _ _ _ X Y) as [E1 E2], (N2 _ _ _ _ X Y) as [F1 F2]. rewrite E1, E2. split; by apply O.
Qed.
Lemma q_C93_again h c T0 T : describes h c T0 -> overlaid h c T0 T -> describes h c T.
Proof.
  intros (_ & _ & D3 & D4) O. apply (q_C93_right _ _ _ _ O). split.
  - intros k e i a j b X Y Z <-. by apply D3.
  - intros k e i a X Y. destruct (D4 _ _ _ _ X Y) as [-> ->]. done.
Qed.

Lemma uses_used lim p l p' : used p -> uses lim p l p' -> used p'.
Proof. intros U H. induction H as [|p l p1 s c r s' p2 H IH R G Hl E]; [done|]. eapply used_run; [|exact R|exact E]. auto. Qed.
Lemma last_nonzero_snoc l q : last_nonzero (l ++ [q]) = over q (last_nonzero l).
Proof.
  unfold last_nonzero, over. rewrite filter_app, filter_cons, filter_nil. destruct (decide (q <> 0%Qc)) as [n|n].
  - rewrite last_snoc. by rewrite decide_False.
  - rewrite app_nil_r. rewrite decide_True; [done|]. by destruct (decide (q = 0%Qc)).
Qed.
Lemma uses_facts lim p l p' n E : used p -> uses lim p l p' -> rp_cnt p <> Some (n, E) -> (n, E) <> (0, 0) ->
  (forall g, g ∈ l -> sizes (heap (fst g)) (snd g) = (n, E)) -> l <> [] ->
  rp_cnt p' = Some (n, E) /\ exists T, rp_T p' = Some T /\ te_E T = E /\ te_n T = n /\
    forall k i j, k < E -> i < n -> j < n -> te_W T k i j = last_nonzero (map (fun g => at_W g k i j) l).
Proof.
  intros U H. induction H as [|p l p1 s c r s' p2 H IH R G Hl E1]; intros Hc H0 Hs Hne; [done|].
  pose proof (Hs (s, c) ltac:(apply elem_of_app; right; left)) as Hz. cbn [fst snd] in Hz.
  destruct (rep_runs s c lim p1 (uses_used _ _ _ _ U H) R G Hl) as (t & p'' & E2 & C & M). rewrite E1 in E2. injection E2 as Er Es Ep. subst t s' p''.
  rewrite Hz in C. split; [done|]. destruct (rp_T p2) as [T|]; [|destruct M as [M _]; congruence].
  exists T. split; [done|]. unfold sizes in Hz. injection Hz as Hz1 Hz2. rewrite Hz1, Hz2 in M. destruct M as (M1 & M2 & M3 & _).
  split; [congruence|]. split; [congruence|]. intros k i j Hk Hi Hj. rewrite map_app. cbn [map]. rewrite last_nonzero_snoc.
  rewrite <- Hz2 in Hk. rewrite <- Hz1 in Hi, Hj. apply lookup_lt_is_Some in Hk as [e He], Hi as [a Ha], Hj as [b Hb]. rewrite (M3 _ _ _ _ _ _ He Ha Hb).
  assert (A : at_W (s, c) k i j = entry_W (heap s) e a b) by (unfold at_W; cbn [fst snd]; by rewrite He, Ha, Hb). rewrite A. f_equal.
  apply lookup_lt_Some in He, Ha, Hb. rewrite Hz2 in He. rewrite Hz1 in Ha, Hb.
  destruct l as [|g l].
  - inversion H as [|? ? ? ? ? ? ? ? ? ? ? ? ? El]; [|by destruct l]. subst. unfold base. rewrite decide_False by done. done.
  - destruct (IH U Hc H0) as (C1 & T1 & ET & E1' & N1 & K); [intros g' Hg; apply Hs; apply elem_of_app; by left|done|].
    unfold base. rewrite decide_True by done. rewrite ET. cbn [default]. by apply K.
Qed.
