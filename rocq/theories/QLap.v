(** * Proofs of C94: Laplacians *)
From Verif Require Import Spec Hierarchy Elements Factory History PDict PPath PExec PBfs PWF PMono PReach PHist Traverse SpecTrav QTrav QTrav2 QTrav3 Homomorphism SpecHom QHom HTraverse Tensor SpecTensor QTensor QTensor2 QTensor3 SpecLap.
Local Open Scope nat_scope.

(** ** Sums *)
Lemma qsum_S n f : qsum (S n) f = (qsum n f + f n)%Qc.
Proof.
  unfold qsum. rewrite seq_S, map_app. cbn [map Nat.add]. unfold qsum_list. induction (map f (seq 0 n)) as [|x l IH]; cbn [foldr app]; [ring|]. rewrite IH. ring.
Qed.
Lemma qsum_0 f : qsum 0 f = 0%Qc.
Proof. done. Qed.
Lemma qsum_plus n f g : qsum n (fun i => (f i + g i)%Qc) = (qsum n f + qsum n g)%Qc.
Proof. exact (qsum_list_plus f g (seq 0 n)). Qed.
Lemma qsum_scale n f k : qsum n (fun i => (f i * k)%Qc) = (qsum n f * k)%Qc.
Proof. exact (qsum_list_scale f k (seq 0 n)). Qed.
Lemma qsum_const0 n : qsum n (fun _ => 0%Qc) = 0%Qc.
Proof. by apply qsum_list_zero. Qed.
Lemma qsum_swap n m f : qsum n (fun i => qsum m (fun j => f i j)) = qsum m (fun j => qsum n (fun i => f i j)).
Proof.
  induction n as [|n IH]; [rewrite qsum_0; symmetry; apply qsum_const0|]. rewrite qsum_S, IH, <- qsum_plus. apply qsum_ext. intros j _. by rewrite qsum_S.
Qed.
Lemma Qc_square_nonneg x : (0 <= x * x)%Qc.
Proof.
  destruct (Qclt_le_dec x 0) as [H|H].
  - apply Qclt_le_weak in H. assert (H1 : (0 <= - x)%Qc) by (apply (Qcopp_le_compat x 0) in H; exact H).
    replace (x * x)%Qc with (- x * - x)%Qc by ring. replace 0%Qc with (0 * - x)%Qc by ring. by apply Qcmult_le_compat_r.
  - replace 0%Qc with (0 * x)%Qc by ring. by apply Qcmult_le_compat_r.
Qed.
Lemma Qc_mult_nonneg x y : (0 <= x)%Qc -> (0 <= y)%Qc -> (0 <= x * y)%Qc.
Proof. intros H1 H2. replace 0%Qc with (0 * y)%Qc by ring. by apply Qcmult_le_compat_r. Qed.
Lemma Qc_plus_nonneg x y : (0 <= x)%Qc -> (0 <= y)%Qc -> (0 <= x + y)%Qc.
Proof. intros H1 H2. replace 0%Qc with (0 + 0)%Qc by ring. by apply Qcplus_le_compat. Qed.
Lemma Qc_sum_zero x y : (0 <= x)%Qc -> (0 <= y)%Qc -> (x + y)%Qc = 0%Qc -> x = 0%Qc /\ y = 0%Qc.
Proof.
  intros H1 H2 E. assert (H3 : (x <= 0)%Qc).
  { rewrite <- E. rewrite <- (Qcplus_0_r x) at 1. by apply Qcplus_le_compat; [apply Qcle_refl|]. }
  assert (x = 0%Qc) by (by apply Qcle_antisym). subst x. split; [done|]. rewrite <- E. ring.
Qed.
Lemma qsum_nonneg n f : (forall i, i < n -> (0 <= f i)%Qc) -> (0 <= qsum n f)%Qc.
Proof.
  induction n as [|n IH]; intros H; [apply Qcle_refl|]. rewrite qsum_S. apply Qc_plus_nonneg; [apply IH; intros; apply H; lia|apply H; lia].
Qed.
Lemma qsum_nonneg_zero n f : (forall i, i < n -> (0 <= f i)%Qc) -> qsum n f = 0%Qc -> forall i, i < n -> f i = 0%Qc.
Proof.
  induction n as [|n IH]; intros H E i Hi; [lia|]. rewrite qsum_S in E. apply Qc_sum_zero in E as [E1 E2].
  - destruct (decide (i = n)) as [->|]; [done|]. apply IH; [intros; apply H; lia|done|lia].
  - apply qsum_nonneg. intros; apply H; lia.
  - apply H; lia.
Qed.

(** ** The form of a matrix given by its row sums and its other entries *)
Section form.
  Context (n : nat) (M A : nat -> nat -> Qc).
  Context (Off : forall i j, i < n -> j < n -> i <> j -> M i j = (- A i j)%Qc).
  Context (Sym : forall i j, i < n -> j < n -> A i j = A j i).
  Lemma form_rows x : ((1 + 1) * qform n M x)%Qc =
    ((1 + 1) * qsum n (fun i => (qsum n (M i) * (x i * x i))%Qc) + qsum n (fun i => qsum n (fun j => (A i j * ((x i - x j) * (x i - x j)))%Qc)))%Qc.
  Proof.
    assert (E1 : qform n M x = (qsum n (fun i => (qsum n (M i) * (x i * x i))%Qc) + qsum n (fun i => qsum n (fun j => (A i j * (x i * (x i - x j)))%Qc)))%Qc).
    { unfold qform. rewrite <- qsum_plus. apply qsum_ext. intros i Hi. rewrite <- qsum_scale, <- qsum_plus. apply qsum_ext. intros j Hj.
      destruct (decide (i = j)) as [<-|Hne]; [ring|]. rewrite (Off i j) by done. ring. }
    assert (E2 : qsum n (fun i => qsum n (fun j => (A i j * (x i * (x i - x j)))%Qc)) = qsum n (fun i => qsum n (fun j => (A i j * (x j * (x j - x i)))%Qc))).
    { rewrite qsum_swap. apply qsum_ext. intros j Hj. apply qsum_ext. intros i Hi. by rewrite (Sym i j). }
    assert (E3 : qsum n (fun i => qsum n (fun j => (A i j * ((x i - x j) * (x i - x j)))%Qc)) =
      ((1 + 1) * qsum n (fun i => qsum n (fun j => (A i j * (x i * (x i - x j)))%Qc)))%Qc).
    { transitivity (qsum n (fun i => qsum n (fun j => (A i j * (x i * (x i - x j)))%Qc)) + qsum n (fun i => qsum n (fun j => (A i j * (x j * (x j - x i)))%Qc)))%Qc.
      - rewrite <- qsum_plus. apply qsum_ext. intros i Hi. rewrite <- qsum_plus. apply qsum_ext. intros j Hj. ring.
      - rewrite <- E2. ring. }
    rewrite E1, E3. ring.
  Qed.
End form.
Lemma two_pos : (0 < 1 + 1)%Qc.
Proof. vm_compute. reflexivity. Qed.
Lemma half_nonneg q : (0 <= (1 + 1) * q)%Qc -> (0 <= q)%Qc.
Proof.
  intros H. apply (Qcmult_lt_0_le_reg_r 0 q (1 + 1) two_pos). replace (0 * (1 + 1))%Qc with 0%Qc by ring. replace (q * (1 + 1))%Qc with ((1 + 1) * q)%Qc by ring. exact H.
Qed.
Lemma half_zero q : ((1 + 1) * q)%Qc = 0%Qc -> q = 0%Qc.
Proof. intros H. apply Qcmult_integral in H as [H|H]; [discriminate H|done]. Qed.

(** ** The Laplacians of undirected graphs *)
Section lap.
  Context (h : list obj) (c : loc) (W : WF0 h) (G : closed_graph h c) (T : tensors) (D : describes h c T).
  Context (U : unweighted h c) (V : undirected h c).
  Let ns := nodes_of h c.
  Let es := edges_of h c.
  Let n := te_n T.
  Let A i j := qsum (te_E T) (fun k => te_W T k i j).

  Lemma W_sym k i j : k < te_E T -> i < n -> j < n -> te_W T k i j = te_W T k j i.
  Proof. destruct (q_C34 h c G T D U V) as (H & _). apply H. Qed.
  Lemma W_cases k e i a j b : es !! k = Some e -> ns !! i = Some a -> ns !! j = Some b ->
    (connects h e a b /\ te_W T k i j = 1%Qc) \/ (~ connects h e a b /\ te_W T k i j = 0%Qc).
  Proof.
    intros He Ha Hb. rewrite (d_W h c T D _ _ _ _ _ _ He Ha Hb), (und_W h c U V) by (by eapply elem_of_list_lookup_2).
    unfold connects. destruct (decide _) as [J|J]; [by left|by right].
  Qed.
  Lemma W_nonneg k i j : k < te_E T -> i < n -> j < n -> (0 <= te_W T k i j)%Qc.
  Proof.
    intros Hk Hi Hj. destruct (edge_at h c T D k Hk) as (e & He & _). destruct (node_at h c T D i Hi) as (a & Ha & _). destruct (node_at h c T D j Hj) as (b & Hb & _).
    destruct (W_cases k e i a j b He Ha Hb) as [[_ ->]|[_ ->]]; vm_compute; discriminate.
  Qed.
  Lemma W_diag k i : k < te_E T -> i < n -> te_W T k i i = 0%Qc.
  Proof.
    intros Hk Hi. destruct (edge_at h c T D k Hk) as (e & He & _). destruct (node_at h c T D i Hi) as (a & Ha & _).
    destruct (W_cases k e i a i a He Ha Ha) as [[[X _] _]|[_ E]]; [done|exact E].
  Qed.
  Lemma A_sym i j : i < n -> j < n -> A i j = A j i.
  Proof. intros Hi Hj. apply qsum_ext. intros k Hk. by apply W_sym. Qed.
  Lemma A_nonneg i j : i < n -> j < n -> (0 <= A i j)%Qc.
  Proof. intros Hi Hj. apply qsum_nonneg. intros k Hk. by apply W_nonneg. Qed.
  Lemma Lp_off i j : i < n -> j < n -> i <> j -> projected_laplacian T i j = (- A i j)%Qc.
  Proof. intros Hi Hj Hne. unfold projected_laplacian, diag_degree_matrix, qdiag. rewrite decide_False by done. unfold A. ring. Qed.
  Lemma q_C94_symmetric i j : i < n -> j < n -> projected_laplacian T i j = projected_laplacian T j i.
  Proof. intros Hi Hj. destruct (decide (i = j)) as [->|Hne]; [done|]. rewrite !Lp_off by done. by rewrite (A_sym i j). Qed.

  Definition rows (a : loc) : Qc := qsum_list (map (fun e => (1 + 1 - qnat (arity h e))%Qc) (proper_edges h c a)).
  Lemma q_C94_rows i a : ns !! i = Some a -> qsum n (projected_laplacian T i) = rows a.
  Proof.
    intros Ha. assert (Hi : i < n) by (unfold n; rewrite (d_n h c T D); by apply lookup_lt_Some in Ha).
    assert (E1 : qsum n (projected_laplacian T i) = (degree_matrix T i - qsum n (A i))%Qc).
    { rewrite (qsum_ext n _ (fun j => ((if decide (i = j) then degree_matrix T j else 0) + A i j * (- (1)))%Qc)).
      - rewrite qsum_plus, qsum_scale, qsum_diag by done. ring.
      - intros j Hj. unfold projected_laplacian, diag_degree_matrix, qdiag, A. destruct (decide (i = j)) as [<-|]; ring. }
    rewrite E1. destruct (q_C34 h c G T D U V) as (_ & _ & Hdeg). rewrite (Hdeg i a Ha).
    assert (E2 : qsum n (A i) = qsum (te_E T) (fun k => col_sum T k i)).
    { unfold A. rewrite qsum_swap. apply qsum_ext. intros k Hk. by apply (und_row h c G T D U V). }
    rewrite E2. rewrite (d_E h c T D). rewrite (qsum_index (edges_of h c) _ (fun e => if decide (a ∈ endpoints h e) then (qnat (arity h e) - 1)%Qc else 0%Qc)).
    - unfold rows, proper_edges. clear -Ha. induction (edges_of h c) as [|e l IH]; [cbn; rewrite qnat_0; ring|].
      cbn [map qsum_list foldr]. unfold qsum_list in *. rewrite filter_cons. destruct (decide (a ∈ endpoints h e)) as [H1|H1].
      + destruct (decide (2 <= arity h e)) as [H2|H2].
        * rewrite decide_True by done. cbn [length map foldr]. rewrite qnat_S. rewrite <- IH. ring.
        * rewrite decide_False by naive_solver. rewrite <- IH, (arity_1 h e a H1 H2), qnat_S, qnat_0. ring.
      + rewrite decide_False by naive_solver. rewrite <- IH. ring.
    - intros k e Hk. exact (und_col h c W G T D U V k e i a Hk Ha).
  Qed.
  Lemma q_C94_form x : ((1 + 1) * qform n (projected_laplacian T) x)%Qc =
    ((1 + 1) * qsum n (fun i => (qsum n (projected_laplacian T i) * (x i * x i))%Qc) + qsum n (fun i => qsum n (fun j => (A i j * ((x i - x j) * (x i - x j)))%Qc)))%Qc.
  Proof. apply form_rows; [exact Lp_off|exact A_sym]. Qed.
  Lemma squares_nonneg x i : i < n -> (0 <= qsum n (fun j => (A i j * ((x i - x j) * (x i - x j)))%Qc))%Qc.
  Proof. intros Hi. apply qsum_nonneg. intros j Hj. apply Qc_mult_nonneg; [by apply A_nonneg|apply Qc_square_nonneg]. Qed.

  (** Graphs *)
  Lemma rows_zero a : (forall e, e ∈ es -> arity h e <= 2) -> rows a = 0%Qc.
  Proof.
    intros H. unfold rows. apply qsum_list_zero. intros e He. unfold proper_edges in He. apply elem_of_list_filter in He as [[_ H2] He].
    assert (arity h e = 2) as -> by (pose proof (H e He); lia). apply Qc_is_canon. vm_compute. reflexivity.
  Qed.
  Lemma graph_form x : (forall e, e ∈ es -> arity h e <= 2) ->
    ((1 + 1) * qform n (projected_laplacian T) x)%Qc = qsum n (fun i => qsum n (fun j => (A i j * ((x i - x j) * (x i - x j)))%Qc)).
  Proof.
    intros H. rewrite q_C94_form. rewrite (qsum_ext n (fun i => (qsum n (projected_laplacian T i) * (x i * x i))%Qc) (fun _ => 0%Qc)).
    - rewrite qsum_const0. ring.
    - intros i Hi. destruct (node_at h c T D i Hi) as (a & Ha & _). rewrite (q_C94_rows i a Ha), (rows_zero a H). ring.
  Qed.
  Lemma qnat_nonneg m : (0 <= qnat m)%Qc.
  Proof. induction m as [|m IH]; [rewrite qnat_0; apply Qcle_refl|]. rewrite qnat_S. apply Qc_plus_nonneg; [vm_compute; discriminate|done]. Qed.
  Lemma qnat_pos m : (0 < qnat (S m))%Qc.
  Proof.
    destruct (Qcle_lt_or_eq _ _ (qnat_nonneg (S m))) as [H|H]; [exact H|]. rewrite <- qnat_0 in H. apply qnat_inj in H. discriminate H.
  Qed.
  Lemma list_nonneg_zero {B} (f : B -> Qc) l : (forall y, y ∈ l -> (0 <= f y)%Qc) -> (0 <= qsum_list (map f l))%Qc /\ (qsum_list (map f l) = 0%Qc -> forall y, y ∈ l -> f y = 0%Qc).
  Proof.
    induction l as [|z l IH]; intros H; [split; [apply Qcle_refl|intros _ y Hy; inversion Hy]|]. cbn [map qsum_list foldr].
    destruct IH as [H1 H2]; [intros y Hy; apply H; by right|]. unfold qsum_list in *. pose proof (H z ltac:(left)) as Hz. split; [by apply Qc_plus_nonneg|].
    intros E y Hy. apply Qc_sum_zero in E as [E1 E2]; [|done|done]. apply elem_of_cons in Hy as [->|Hy]; [done|by apply H2].
  Qed.
  Lemma surplus_nonneg m : 2 <= m -> (0 <= qnat m - (1 + 1))%Qc /\ ((qnat m - (1 + 1))%Qc = 0%Qc -> m = 2).
  Proof.
    intros H. destruct m as [|[|m]]; [lia|lia|]. assert (E : (qnat (S (S m)) - (1 + 1))%Qc = qnat m) by (rewrite !qnat_S; ring). rewrite E. split; [apply qnat_nonneg|].
    rewrite <- qnat_0. intros X. apply qnat_inj in X. lia.
  Qed.
  Lemma rows_opp a : (- rows a)%Qc = qsum_list (map (fun e => (qnat (arity h e) - (1 + 1))%Qc) (proper_edges h c a)).
  Proof.
    unfold rows. induction (proper_edges h c a) as [|e l IH]; [cbn; ring|]. cbn [map qsum_list foldr]. unfold qsum_list in *. rewrite <- IH. ring.
  Qed.
  Lemma rows_nonpos a : (0 <= - rows a)%Qc /\ (rows a = 0%Qc -> forall e, e ∈ es -> a ∈ endpoints h e -> 2 <= arity h e -> arity h e = 2).
  Proof.
    assert (P : forall e, e ∈ proper_edges h c a -> 2 <= arity h e) by (intros e He; apply elem_of_list_filter in He as [[_ H2] _]; exact H2).
    destruct (list_nonneg_zero (fun e => (qnat (arity h e) - (1 + 1))%Qc) (proper_edges h c a)) as [H1 H2].
    { intros e He. apply surplus_nonneg. by apply P. }
    rewrite rows_opp. split; [exact H1|]. intros E e He Ha H. apply surplus_nonneg; [done|]. apply H2; [rewrite <- rows_opp, E; ring|].
    unfold proper_edges. apply elem_of_list_filter. done.
  Qed.
  Lemma q_C94_semidefinite : semidefinite n (projected_laplacian T) <-> forall e, e ∈ es -> arity h e <= 2.
  Proof.
    split.
    - intros Sd e He. destruct (decide (arity h e <= 2)) as [|Hn]; [done|]. exfalso.
      assert (E : forall i, i < n -> qsum n (projected_laplacian T i) = 0%Qc).
      { intros i Hi. assert (E0 : (- qsum n (projected_laplacian T i))%Qc = 0%Qc); [|rewrite <- (Qcopp_involutive (qsum n (projected_laplacian T i))), E0; ring].
        revert i Hi. apply (qsum_nonneg_zero n (fun i => (- qsum n (projected_laplacian T i))%Qc)).
        - intros i Hi. destruct (node_at h c T D i Hi) as (a & Ha & _). rewrite (q_C94_rows i a Ha). apply rows_nonpos.
        - apply Qcle_antisym.
          + pose proof (Sd (fun _ => 1%Qc)) as H0. assert (E1 : qform n (projected_laplacian T) (fun _ => 1%Qc) = qsum n (fun i => qsum n (projected_laplacian T i))).
            { unfold qform. apply qsum_ext. intros i Hi. apply qsum_ext. intros j Hj. ring. }
            rewrite E1 in H0. rewrite (qsum_ext n _ (fun i => (qsum n (projected_laplacian T i) * (- (1)))%Qc)) by (intros; ring). rewrite qsum_scale.
            apply (Qcopp_le_compat 0) in H0. replace (qsum n (fun i => qsum n (projected_laplacian T i)) * - (1))%Qc with (- qsum n (fun i => qsum n (projected_laplacian T i)))%Qc by ring. exact H0.
          + apply qsum_nonneg. intros i Hi. destruct (node_at h c T D i Hi) as (a & Ha & _). rewrite (q_C94_rows i a Ha). apply rows_nonpos. }
      assert (Hd : exists a, a ∈ endpoints h e).
      { unfold arity in Hn. destruct (remove_dups (endpoints h e)) as [|a l] eqn:Er; [simpl in Hn; lia|]. exists a. apply elem_of_remove_dups. rewrite Er. left. }
      destruct Hd as [a Ha]. pose proof (endpoints_nodes h c G e a He Ha) as Han. apply elem_of_list_lookup in Han as [i Hi].
      assert (Hin : i < n) by (unfold n; rewrite (d_n h c T D); by apply lookup_lt_Some in Hi).
      pose proof (E i Hin) as E1. rewrite (q_C94_rows i a Hi) in E1. pose proof (proj2 (rows_nonpos a) E1 e He Ha). lia.
    - intros H x. apply half_nonneg. rewrite (graph_form x H). apply qsum_nonneg. intros i Hi. by apply squares_nonneg.
  Qed.
  Lemma q_C94_kernel x : (forall e, e ∈ es -> arity h e <= 2) -> qform n (projected_laplacian T) x = 0%Qc <-> constant_on_edges h c x.
  Proof.
    intros H. split.
    - intros E k e i a j b He Ha Hb Hc.
      assert (Hk : k < te_E T) by (rewrite (d_E h c T D); by apply lookup_lt_Some in He).
      assert (Hi : i < n) by (unfold n; rewrite (d_n h c T D); by apply lookup_lt_Some in Ha). assert (Hj : j < n) by (unfold n; rewrite (d_n h c T D); by apply lookup_lt_Some in Hb).
      assert (E2 : qsum n (fun i => qsum n (fun j => (A i j * ((x i - x j) * (x i - x j)))%Qc)) = 0%Qc) by (rewrite <- (graph_form x H), E; ring).
      pose proof (qsum_nonneg_zero n _ (fun i Hi => squares_nonneg x i Hi) E2 i Hi) as E3. cbn beta in E3.
      pose proof (qsum_nonneg_zero n _ (fun j Hj => Qc_mult_nonneg _ _ (A_nonneg i j Hi Hj) (Qc_square_nonneg (x i - x j))) E3 j Hj) as E4. cbn beta in E4.
      apply Qcmult_integral in E4 as [E4|E4].
      + exfalso. pose proof (qsum_nonneg_zero (te_E T) _ (fun k Hk => W_nonneg k i j Hk Hi Hj) E4 k Hk) as E5. cbn beta in E5.
        destruct (W_cases k e i a j b He Ha Hb) as [[_ E6]|[X _]]; [|done]. rewrite E5 in E6. discriminate E6.
      + assert (E5 : (x i - x j)%Qc = 0%Qc) by (apply Qcmult_integral in E4 as [E4|E4]; exact E4).
        transitivity (x j + (x i - x j))%Qc; [ring|]. rewrite E5. ring.
    - intros Hx. apply half_zero. rewrite (graph_form x H).
      rewrite (qsum_ext n _ (fun _ => 0%Qc)); [apply qsum_const0|]. intros i Hi. rewrite (qsum_ext n _ (fun _ => 0%Qc)); [apply qsum_const0|]. intros j Hj.
      unfold A. destruct (decide (x i = x j)) as [->|Hne]; [ring|].
      rewrite (qsum_ext (te_E T) _ (fun _ => 0%Qc)); [rewrite qsum_const0; ring|]. intros k Hk.
      destruct (edge_at h c T D k Hk) as (e & He & _). destruct (node_at h c T D i Hi) as (a & Ha & _). destruct (node_at h c T D j Hj) as (b & Hb & _).
      destruct (W_cases k e i a j b He Ha Hb) as [[X _]|[_ X]]; [|exact X]. exfalso. apply Hne. by apply (Hx k e i a j b).
  Qed.

  (** The tensor Laplacian *)
  Lemma q_C94_tensor : es <> [] -> exists L, laplacian T = Ok L /\
    forall k e, es !! k = Some e ->
      (forall i a, ns !! i = Some a -> qsum n (L k i) = (if decide (a ∈ endpoints h e) then - ((qnat (arity h e) - 1) * (1 / (1 + 1))) else 0)%Qc) /\
      (2 <= arity h e -> ~ semidefinite n (L k)).
  Proof.
    intros Hne. destruct (laplacian_eq h c G T D U V) as (L & HL & Heq); [rewrite (d_E h c T D); intros X; by apply Hne, nil_length_inv|].
    exists L. split; [done|]. intros k e He. assert (Hk : k < te_E T) by (rewrite (d_E h c T D); by apply lookup_lt_Some in He).
    assert (R : forall i a, ns !! i = Some a -> qsum n (L k i) = (if decide (a ∈ endpoints h e) then - ((qnat (arity h e) - 1) * (1 / (1 + 1))) else 0)%Qc).
    { intros i a Ha. assert (Hi : i < n) by (unfold n; rewrite (d_n h c T D); by apply lookup_lt_Some in Ha).
      rewrite (qsum_ext n _ (fun j => ((if decide (i = j) then col_sum T k i * (1 / (1 + 1)) else 0) + te_W T k i j * (- (1)))%Qc)) by (intros j Hj; rewrite (Heq k i j) by done; ring).
      rewrite qsum_plus, qsum_scale. rewrite (qsum_diag n (fun _ => (col_sum T k i * (1 / (1 + 1)))%Qc) i Hi). fold (row_sum T k i).
      change (qsum n (te_W T k i)) with (row_sum T k i). rewrite (und_row h c G T D U V k i Hk Hi), (und_col h c W G T D U V k e i a He Ha).
      destruct (decide _); [|ring]. set (w := qnat (arity h e)). transitivity (w * (1 / (1 + 1)) - w - (1 / (1 + 1)) + 1)%Qc; [ring|].
      assert (Hh : (1 / (1 + 1) * (1 + 1))%Qc = 1%Qc) by (apply Qc_is_canon; vm_compute; reflexivity).
      transitivity (w * (1 / (1 + 1)) - w * (1 / (1 + 1) * (1 + 1)) - (1 / (1 + 1)) + (1 / (1 + 1) * (1 + 1)))%Qc; [rewrite Hh; ring|ring]. }
    split; [exact R|]. intros H2 Sd. pose proof (Sd (fun _ => 1%Qc)) as H0.
    assert (E1 : qform n (L k) (fun _ => 1%Qc) = qsum n (fun i => qsum n (L k i))).
    { unfold qform. apply qsum_ext. intros i Hi. apply qsum_ext. intros j Hj. ring. }
    rewrite E1 in H0. assert (Pos : (0 <= (qnat (arity h e) - 1) * (1 / (1 + 1)))%Qc).
    { apply Qc_mult_nonneg; [|vm_compute; discriminate]. destruct (arity h e) as [|m]; [lia|]. rewrite qnat_S. replace (1 + qnat m - 1)%Qc with (qnat m) by ring. apply qnat_nonneg. }
    assert (N : forall i, i < n -> (0 <= - qsum n (L k i))%Qc).
    { intros i Hi. destruct (node_at h c T D i Hi) as (a & Ha & _). rewrite (R i a Ha). destruct (decide _); [|vm_compute; discriminate]. rewrite Qcopp_involutive. exact Pos. }
    assert (Z : qsum n (fun i => (- qsum n (L k i))%Qc) = 0%Qc).
    { apply Qcle_antisym; [|by apply qsum_nonneg]. rewrite (qsum_ext n _ (fun i => (qsum n (L k i) * (- (1)))%Qc)) by (intros; ring). rewrite qsum_scale.
      apply (Qcopp_le_compat 0) in H0. replace (qsum n (fun i => qsum n (L k i)) * - (1))%Qc with (- qsum n (fun i => qsum n (L k i)))%Qc by ring. exact H0. }
    assert (Hd : exists a, a ∈ endpoints h e).
    { unfold arity in H2. destruct (remove_dups (endpoints h e)) as [|a l] eqn:Er; [simpl in H2; lia|]. exists a. apply elem_of_remove_dups. rewrite Er. left. }
    destruct Hd as [a Ha]. pose proof (endpoints_nodes h c G e a (elem_of_list_lookup_2 _ _ _ He) Ha) as Han. apply elem_of_list_lookup in Han as [i Hi].
    assert (Hin : i < n) by (unfold n; rewrite (d_n h c T D); by apply lookup_lt_Some in Hi).
    pose proof (qsum_nonneg_zero n _ N Z i Hin) as E2. cbn beta in E2. rewrite (R i a Hi), decide_True, Qcopp_involutive in E2 by done.
    apply Qcmult_integral in E2 as [E2|E2]; [|discriminate E2]. destruct (arity h e) as [|[|m]]; [lia|lia|]. rewrite qnat_S in E2.
    replace (1 + qnat (S m) - 1)%Qc with (qnat (S m)) in E2 by ring. rewrite <- qnat_0 in E2. apply qnat_inj in E2. discriminate E2.
  Qed.
End lap.

(** Assembled. *)
Section full.
  Context (s : st) (c lim : nat) (x : hom) (T : tensors) (R : reach s) (G : closed_graph (heap s) c) (Hl : work (heap s) c < lim) (HC : computes lim c s x T).
  Context (U : unweighted (heap s) c) (V : undirected (heap s) c).
  Lemma full_row_sums :
    (forall i j, i < te_n T -> j < te_n T -> projected_laplacian T i j = projected_laplacian T j i) /\
    (forall i a, nodes_of (heap s) c !! i = Some a ->
       qsum (te_n T) (projected_laplacian T i) = qsum_list (map (fun e => (1 + 1 - qnat (arity (heap s) e))%Qc) (proper_edges (heap s) c a))).
  Proof.
    destruct (q_computes s c lim x T R G Hl HC) as (D & _). split; [exact (q_C94_symmetric _ c G T D U V)|].
    intros i a. exact (q_C94_rows _ c (reach_wf s R) G T D U V i a).
  Qed.
  Lemma full_semidefinite : semidefinite (te_n T) (projected_laplacian T) <-> forall e, e ∈ edges_of (heap s) c -> arity (heap s) e <= 2.
  Proof. destruct (q_computes s c lim x T R G Hl HC) as (D & _). exact (q_C94_semidefinite _ c (reach_wf s R) G T D U V). Qed.
  Lemma full_kernel v : (forall e, e ∈ edges_of (heap s) c -> arity (heap s) e <= 2) ->
    qform (te_n T) (projected_laplacian T) v = 0%Qc <-> constant_on_edges (heap s) c v.
  Proof. destruct (q_computes s c lim x T R G Hl HC) as (D & _). exact (q_C94_kernel _ c (reach_wf s R) G T D U V v). Qed.
  Lemma full_tensor : edges_of (heap s) c <> [] -> exists L, laplacian T = Ok L /\
    forall k e, edges_of (heap s) c !! k = Some e ->
      (forall i a, nodes_of (heap s) c !! i = Some a ->
         qsum (te_n T) (L k i) = (if decide (a ∈ endpoints (heap s) e) then - ((qnat (arity (heap s) e) - 1) * (1 / (1 + 1))) else 0)%Qc) /\
      (2 <= arity (heap s) e -> ~ semidefinite (te_n T) (L k)).
  Proof. destruct (q_computes s c lim x T R G Hl HC) as (D & _). exact (q_C94_tensor _ c (reach_wf s R) G T D U V). Qed.
End full.
