(** * Proofs of C95: the projected entropy *)
From Verif Require Import Spec Hierarchy Elements Factory History PDict PPath PExec PBfs PWF PMono PReach PHist Traverse SpecTrav QTrav QTrav2 QTrav3 Homomorphism SpecHom QHom HTraverse Tensor SpecTensor QTensor QTensor2 QTensor3 SpecLap QLap SpecEntropy.
Local Open Scope nat_scope.

Lemma fsum_none v : None ∈ v -> foldr fadd (Some 0%Qc) v = None.
Proof. induction v as [|a v IH]; intros H; [inversion H|]. apply elem_of_cons in H as [<-|H]; [done|]. cbn [foldr]. rewrite (IH H). by destruct a. Qed.
Lemma fsum_some (f : Qc -> Qc) l : foldr fadd (Some 0%Qc) (map (fun v => Some (f v)) l) = Some (qsum_list (map f l)).
Proof. induction l as [|a l IH]; [done|]. cbn [map foldr]. rewrite IH. done. Qed.
Lemma perm_qsum l1 l2 : Permutation l1 l2 -> qsum_list l1 = qsum_list l2.
Proof. unfold qsum_list. induction 1 as [|x l1 l2 _ IH|x y l|l1 l2 l3 _ IH1 _ IH2]; cbn [foldr]; [done|by rewrite IH|ring|by rewrite IH1]. Qed.

Section ent.
  Context (eigs : nat -> (nat -> nat -> Qc) -> list Qc) (lg : Qc -> Qc) (T : tensors).
  Let M i j := (projected_laplacian T i j / total_deg T)%Qc.
  Lemma ent_refused : entropy_projected eigs lg T = LinAlgError <-> te_n T <> 0 /\ total_deg T = 0%Qc.
  Proof. unfold entropy_projected, entropy_projected_vector. destruct (decide _) as [H|H]; [done|]. by split. Qed.
  Lemma ent_nan : 0%Qc ∈ eigs (te_n T) M -> ~ (te_n T <> 0 /\ total_deg T = 0%Qc) -> entropy_projected eigs lg T = Value None.
  Proof.
    intros H Hn. unfold entropy_projected, entropy_projected_vector. rewrite decide_False by done. f_equal. apply fsum_none.
    apply (elem_of_list_fmap_1 (fun v => if decide (v = 0%Qc) then None else Some (- v * lg v)%Qc)) in H. rewrite decide_True in H by done. exact H.
  Qed.
  Lemma ent_number : 0%Qc ∉ eigs (te_n T) M -> ~ (te_n T <> 0 /\ total_deg T = 0%Qc) ->
    entropy_projected eigs lg T = Value (Some (qsum_list (map (fun v => (- v * lg v)%Qc) (eigs (te_n T) M)))).
  Proof.
    intros H Hn. unfold entropy_projected, entropy_projected_vector. rewrite decide_False by done. f_equal. fold M.
    rewrite <- (fsum_some (fun v => (- v * lg v)%Qc)). f_equal. apply map_ext_in. intros v Hv. apply elem_of_list_In in Hv. rewrite decide_False; [done|]. intros ->. done.
  Qed.
  Lemma sing_scale : total_deg T <> 0%Qc -> singular (te_n T) M <-> singular (te_n T) (projected_laplacian T).
  Proof.
    intros Ht. unfold singular. split; intros (x & Hx & H); exists x; (split; [exact Hx|]); intros i Hi; specialize (H i Hi).
    - transitivity (qsum (te_n T) (fun j => (M i j * x j)%Qc) * total_deg T)%Qc; [|rewrite H; ring]. rewrite <- qsum_scale. apply qsum_ext. intros j Hj. unfold M, Qcdiv.
      transitivity (projected_laplacian T i j * x j * (/ total_deg T * total_deg T))%Qc; [rewrite Qcmult_inv_l by done; ring|ring].
    - transitivity (qsum (te_n T) (fun j => (projected_laplacian T i j * x j)%Qc) * / total_deg T)%Qc; [|rewrite H; ring]. rewrite <- qsum_scale. apply qsum_ext. intros j Hj. unfold M, Qcdiv. ring.
  Qed.
  Context (F : finds_zero eigs).
  Lemma ent_cases : (te_n T <> 0 /\ total_deg T = 0%Qc /\ entropy_projected eigs lg T = LinAlgError) \/
    (te_n T <> 0 /\ total_deg T <> 0%Qc /\ singular (te_n T) (projected_laplacian T) /\ entropy_projected eigs lg T = Value None) \/
    ((te_n T = 0 \/ total_deg T <> 0%Qc /\ ~ singular (te_n T) (projected_laplacian T)) /\
     entropy_projected eigs lg T = Value (Some (qsum_list (map (fun v => (- v * lg v)%Qc) (eigs (te_n T) M))))).
  Proof.
    destruct (decide (te_n T = 0)) as [H0|H0].
    - right; right. split; [by left|]. apply ent_number; [|naive_solver]. intros X. apply F in X as (x & (i & Hi & _) & _). lia.
    - destruct (decide (total_deg T = 0%Qc)) as [Ht|Ht]; [left; split; [done|]; split; [done|]; by apply ent_refused|]. right.
      destruct (decide (0%Qc ∈ eigs (te_n T) M)) as [Hz|Hz].
      + left. split; [done|]. split; [done|]. split; [by apply sing_scale, F|]. apply ent_nan; naive_solver.
      + right. split; [right; split; [done|]; intros X; apply Hz, F; by apply sing_scale|]. apply ent_number; naive_solver.
  Qed.
End ent.

Section ent.
  Context (h : list obj) (c : loc) (W : WF0 h) (G : closed_graph h c) (T : tensors) (D : describes h c T).
  Let ns := nodes_of h c.
  Let es := edges_of h c.
  Let n := te_n T.
  Let A i j := qsum (te_E T) (fun k => te_W T k i j).

  Lemma Lp_row x i : i < n -> qsum n (fun j => (projected_laplacian T i j * x j)%Qc) = (degree_matrix T i * x i - qsum n (fun j => (A i j * x j)%Qc))%Qc.
  Proof.
    intros Hi. rewrite (qsum_ext n _ (fun j => ((if decide (i = j) then degree_matrix T j * x j else 0) + A i j * x j * (- (1)))%Qc)).
    - rewrite qsum_plus, qsum_scale. rewrite (qsum_diag n (fun j => (degree_matrix T j * x j)%Qc) i Hi). ring.
    - intros j Hj. unfold projected_laplacian, diag_degree_matrix, qdiag, A. destruct (decide (i = j)) as [<-|]; ring.
  Qed.
  Lemma isolated_zero i a k : ns !! i = Some a -> isolated h c a -> k < te_E T ->
    (forall j, j < n -> te_W T k i j = 0%Qc /\ te_W T k j i = 0%Qc) /\ te_Io T k i = 0%Qc /\ te_Ii T k i = 0%Qc.
  Proof.
    intros Ha I Hk. destruct (edge_at h c T D k Hk) as (e & He & Hin).
    assert (NO : a ∈ endpoints h e -> others h e a = []).
    { intros Hep. destruct (others h e a) as [|q l] eqn:E; [done|]. exfalso. assert (Hq : q ∈ others h e a) by (rewrite E; left).
      apply elem_of_list_filter in Hq as [Hne Hq]. apply (I e q Hin). split; [congruence|]. done. }
    split; [|split].
    - intros j Hj. destruct (node_at h c T D j Hj) as (b & Hb & _). rewrite (d_W h c T D _ _ _ _ _ _ He Ha Hb), (d_W h c T D _ _ _ _ _ _ He Hb Ha).
      unfold entry_W. rewrite !decide_False; [done| |].
      + intros (H1 & H2 & H3). apply (I e b Hin). split; [congruence|]. done.
      + intros (H1 & H2 & H3). apply (I e b Hin). done.
    - rewrite (d_Io h c T D _ _ _ _ He Ha). unfold entry_Io. rewrite decide_False; [done|]. intros [H1 H2]. by apply H2, NO.
    - rewrite (d_Ii h c T D _ _ _ _ He Ha). unfold entry_Ii. rewrite decide_False; [done|]. intros [H1 H2]. by apply H2, NO.
  Qed.
  Lemma deg_zero i : (forall k, k < te_E T -> te_Io T k i = 0%Qc /\ te_Ii T k i = 0%Qc) -> degree_matrix T i = 0%Qc.
  Proof.
    intros H. unfold degree_matrix. rewrite (qsum_ext (te_E T) (fun e => te_Io T e i) (fun _ => 0%Qc)) by (intros; by apply H).
    rewrite (qsum_ext (te_E T) (fun e => te_Ii T e i) (fun _ => 0%Qc)) by (intros; by apply H). rewrite qsum_const0. ring.
  Qed.
  Lemma column_singular i : i < n -> degree_matrix T i = 0%Qc -> (forall k j, k < te_E T -> j < n -> te_W T k j i = 0%Qc) -> singular n (projected_laplacian T).
  Proof.
    intros Hi Hd Hc. exists (fun j => if decide (i = j) then 1%Qc else 0%Qc). split; [exists i; split; [done|]; by rewrite decide_True|].
    intros j Hj. rewrite (Lp_row _ j Hj).
    assert (E : qsum n (fun m => (A j m * (if decide (i = m) then 1 else 0))%Qc) = 0%Qc).
    { rewrite (qsum_ext n _ (fun _ => 0%Qc)); [apply qsum_const0|]. intros m Hm. destruct (decide (i = m)) as [<-|]; [|ring].
      unfold A. rewrite (qsum_ext (te_E T) _ (fun _ => 0%Qc)) by (intros k Hk; by apply Hc). rewrite qsum_const0. ring. }
    rewrite E. destruct (decide (i = j)) as [<-|]; [rewrite Hd|]; ring.
  Qed.
  Lemma isolated_singular a : a ∈ ns -> isolated h c a -> singular n (projected_laplacian T).
  Proof.
    intros Ha I. apply elem_of_list_lookup in Ha as [i Ha]. assert (Hi : i < n) by (unfold n; rewrite (d_n h c T D); by apply lookup_lt_Some in Ha).
    apply (column_singular i Hi).
    - apply deg_zero. intros k Hk. by destruct (isolated_zero i a k Ha I Hk) as (_ & H).
    - intros k j Hk Hj. destruct (isolated_zero i a k Ha I Hk) as (H & _). by apply H.
  Qed.

  (** Without weights *)
  Section plain.
    Context (U : unweighted h c).
    Lemma coeff_pos (b : bool) : (0 < 1 / (b2q b + 1))%Qc.
    Proof. destruct b; vm_compute; reflexivity. Qed.
    Lemma inc_01 k i : k < te_E T -> i < n -> (te_Io T k i = 0%Qc \/ te_Io T k i = 1%Qc) /\ (te_Ii T k i = 0%Qc \/ te_Ii T k i = 1%Qc).
    Proof.
      intros Hk Hi. destruct (q_C32 h c G T D U) as (_ & HIo & HIi). destruct (HIo k i Hk Hi) as [O1 O2]. destruct (HIi k i Hk Hi) as [I1 I2].
      split.
      - destruct (decide (Exists (fun j => te_W T k i j <> 0%Qc) (seq 0 n))) as [H|H].
        + right. apply O1. apply Exists_exists in H as (j & Hj & H). apply elem_of_seq in Hj. exists j. split; [fold n; lia|done].
        + left. apply O2. intros j Hj. destruct (decide (te_W T k i j = 0%Qc)) as [|Hne]; [done|]. exfalso. apply H, Exists_exists. exists j. split; [apply elem_of_seq; fold n in Hj; lia|done].
      - destruct (decide (Exists (fun j => te_W T k j i <> 0%Qc) (seq 0 n))) as [H|H].
        + right. apply I1. apply Exists_exists in H as (j & Hj & H). apply elem_of_seq in Hj. exists j. split; [fold n; lia|done].
        + left. apply I2. intros j Hj. destruct (decide (te_W T k j i = 0%Qc)) as [|Hne]; [done|]. exfalso. apply H, Exists_exists. exists j. split; [apply elem_of_seq; fold n in Hj; lia|done].
    Qed.
    Lemma inc_nonneg k i : k < te_E T -> i < n -> (0 <= te_Io T k i)%Qc /\ (0 <= te_Ii T k i)%Qc.
    Proof. intros Hk Hi. destruct (inc_01 k i Hk Hi) as [[-> | ->] [-> | ->]]; split; vm_compute; discriminate. Qed.
    Lemma deg_nonneg i : i < n -> (0 <= degree_matrix T i)%Qc.
    Proof.
      intros Hi. unfold degree_matrix. apply Qc_mult_nonneg; [|apply Qclt_le_weak, coeff_pos].
      apply Qc_plus_nonneg; apply qsum_nonneg; intros k Hk; by apply inc_nonneg.
    Qed.
    Lemma deg_zero_inv i : i < n -> degree_matrix T i = 0%Qc -> forall k, k < te_E T -> te_Io T k i = 0%Qc /\ te_Ii T k i = 0%Qc.
    Proof.
      intros Hi E. unfold degree_matrix in E. apply Qcmult_integral in E as [E|E].
      - apply Qc_sum_zero in E as [E1 E2]; [|apply qsum_nonneg; intros k Hk; by apply inc_nonneg|apply qsum_nonneg; intros k Hk; by apply inc_nonneg].
        intros k Hk. split; [apply (qsum_nonneg_zero (te_E T) (fun e => te_Io T e i))|apply (qsum_nonneg_zero (te_E T) (fun e => te_Ii T e i))]; try done; intros m Hm; by apply inc_nonneg.
      - exfalso. match type of E with (1 / (b2q ?b + 1))%Qc = _ => pose proof (coeff_pos b) as P; rewrite E in P end. by apply Qclt_not_le in P; apply P; apply Qcle_refl.
    Qed.
    Lemma node_index a : a ∈ ns -> exists i, ns !! i = Some a /\ i < n.
    Proof. intros Ha. apply elem_of_list_lookup in Ha as [i Ha]. exists i. split; [done|]. unfold n. rewrite (d_n h c T D). by apply lookup_lt_Some in Ha. Qed.
    Lemma edge_index e : e ∈ es -> exists k, es !! k = Some e /\ k < te_E T.
    Proof. intros He. apply elem_of_list_lookup in He as [k He]. exists k. split; [done|]. rewrite (d_E h c T D). by apply lookup_lt_Some in He. Qed.
    Lemma adjacent_nodes e a b : e ∈ es -> adjacent h e a b -> a ∈ ns /\ b ∈ ns.
    Proof. intros He (_ & Ha & Hb & _). split; by eapply (endpoints_nodes h c G). Qed.
    (** degree 0: no edge touches the node *)
    Lemma deg_untouched i a : ns !! i = Some a -> degree_matrix T i = 0%Qc <-> untouched h c a.
    Proof.
      intros Ha. assert (Hi : i < n) by (unfold n; rewrite (d_n h c T D); by apply lookup_lt_Some in Ha).
      destruct (q_C32 h c G T D U) as (HW & HIo & HIi). split.
      - intros E e b He. destruct (edge_index e He) as (k & Hk & Hkl). destruct (deg_zero_inv i Hi E k Hkl) as [E1 E2]. split; intros X.
        + destruct (adjacent_nodes e a b He X) as [_ Hb]. destruct (node_index b Hb) as (j & Hj & Hjl). pose proof (proj1 (HW _ _ _ _ _ _ Hk Ha Hj) X) as E3.
          rewrite (proj1 (HIo k i Hkl Hi)) in E1; [discriminate E1|]. exists j. split; [exact Hjl|]. rewrite E3. discriminate.
        + destruct (adjacent_nodes e b a He X) as [Hb _]. destruct (node_index b Hb) as (j & Hj & Hjl). pose proof (proj1 (HW _ _ _ _ _ _ Hk Hj Ha) X) as E3.
          rewrite (proj1 (HIi k i Hkl Hi)) in E2; [discriminate E2|]. exists j. split; [exact Hjl|]. rewrite E3. discriminate.
      - intros Un. apply deg_zero. intros k Hk. destruct (edge_at h c T D k Hk) as (e & He & Hin). split.
        + apply (HIo k i Hk Hi). intros j Hj. destruct (node_at h c T D j Hj) as (b & Hb & _). apply (HW _ _ _ _ _ _ He Ha Hb). by apply Un.
        + apply (HIi k i Hk Hi). intros j Hj. destruct (node_at h c T D j Hj) as (b & Hb & _). apply (HW _ _ _ _ _ _ He Hb Ha). by apply Un.
    Qed.
    Lemma total_zero : total_deg T = 0%Qc <-> forall e a b, e ∈ es -> ~ adjacent h e a b.
    Proof.
      split.
      - intros E e a b He X. destruct (adjacent_nodes e a b He X) as [Ha _]. destruct (node_index a Ha) as (i & Hi & Hil).
        pose proof (qsum_nonneg_zero n (degree_matrix T) deg_nonneg E i Hil) as E1. destruct (proj1 (deg_untouched i a Hi) E1 e b He) as [Y _]. done.
      - intros H. unfold total_deg. rewrite (qsum_ext (te_n T) _ (fun _ => 0%Qc)); [apply qsum_const0|]. intros i Hi. destruct (node_at h c T D i Hi) as (a & Ha & _).
        apply (deg_untouched i a Ha). intros e b He. split; by apply H.
    Qed.
    Lemma untouched_singular a : a ∈ ns -> untouched h c a -> singular n (projected_laplacian T).
    Proof.
      intros Ha Un. destruct (node_index a Ha) as (i & Hi & Hil). apply (column_singular i Hil); [by apply (deg_untouched i a Hi)|].
      intros k j Hk Hj. destruct (edge_at h c T D k Hk) as (e & He & Hin). destruct (node_at h c T D j Hj) as (b & Hb & _).
      destruct (q_C32 h c G T D U) as (HW & _). apply (HW _ _ _ _ _ _ He Hb Hi). by apply Un.
    Qed.

    (** Acyclic graphs *)
    Context (rank : loc -> nat) (AC : acyclic h c rank).
    Lemma acyclic_A i j a b : ns !! i = Some a -> ns !! j = Some b -> A i j <> 0%Qc -> rank a < rank b.
    Proof.
      intros Ha Hb H. destruct (decide (rank a < rank b)) as [|Hn]; [done|]. exfalso. apply H. unfold A.
      rewrite (qsum_ext (te_E T) _ (fun _ => 0%Qc)); [apply qsum_const0|]. intros k Hk. destruct (edge_at h c T D k Hk) as (e & He & Hin).
      destruct (q_C32 h c G T D U) as (HW & _). apply (HW _ _ _ _ _ _ He Ha Hb). intros X. by apply Hn, (AC e a b Hin).
    Qed.
    Lemma acyclic_regular : (forall a, a ∈ ns -> ~ untouched h c a) -> ~ singular n (projected_laplacian T).
    Proof.
      intros HU (x & (i0 & Hi0 & Hx) & K). apply Hx.
      assert (B : exists R, forall a, a ∈ ns -> rank a < R).
      { clear. induction ns as [|a l [R IH]]; [exists 0; intros a H; inversion H|]. exists (S (rank a + R)). intros b Hb. apply elem_of_cons in Hb as [->|Hb]; [lia|]. specialize (IH b Hb). lia. }
      destruct B as [R B].
      assert (Z : forall m i a, ns !! i = Some a -> R <= rank a + m -> x i = 0%Qc).
      { induction m as [|m IH]; intros i a Ha Hr.
        - specialize (B a (elem_of_list_lookup_2 _ _ _ Ha)). lia.
        - assert (Hi : i < n) by (unfold n; rewrite (d_n h c T D); by apply lookup_lt_Some in Ha).
          specialize (K i Hi). rewrite (Lp_row x i Hi) in K. rewrite (qsum_ext n _ (fun _ => 0%Qc)) in K.
          + rewrite qsum_const0 in K. replace (degree_matrix T i * x i - 0)%Qc with (degree_matrix T i * x i)%Qc in K by ring. apply Qcmult_integral in K as [K|K]; [|done].
            exfalso. apply (HU a (elem_of_list_lookup_2 _ _ _ Ha)). by apply (deg_untouched i a Ha).
          + intros j Hj. destruct (node_at h c T D j Hj) as (b & Hb & _). destruct (decide (A i j = 0%Qc)) as [->|Hne]; [ring|].
            pose proof (acyclic_A i j a b Ha Hb Hne) as Hlt. rewrite (IH j b Hb) by lia. ring. }
      destruct (node_at h c T D i0 Hi0) as (a & Ha & _). apply (Z R i0 a Ha). lia.
    Qed.
  End plain.

  (** Undirected graphs *)
  Lemma graph_singular : unweighted h c -> undirected h c -> ns <> [] -> (forall e, e ∈ es -> arity h e <= 2) -> singular n (projected_laplacian T).
  Proof.
    intros U V Hne H. exists (fun _ => 1%Qc). split.
    - exists 0. split; [|discriminate]. unfold n. rewrite (d_n h c T D). destruct ns eqn:E; [done|]. unfold ns in E. rewrite E. cbn. lia.
    - intros i Hi. destruct (node_at h c T D i Hi) as (a & Ha & _). rewrite (qsum_ext n _ (projected_laplacian T i)) by (intros; ring).
      unfold n. rewrite (q_C94_rows h c W G T D U V i a Ha). by apply rows_zero.
  Qed.
  Lemma hyperedge_regular e : unweighted h c -> undirected h c -> es = [e] -> (forall a, a ∈ ns -> a ∈ endpoints h e) -> 3 <= arity h e -> ~ singular n (projected_laplacian T).
  Proof.
    intros U V He Hall H3 (x & (i0 & Hi0 & Hx) & K). apply Hx.
    assert (PE : forall a, a ∈ ns -> proper_edges h c a = [e]).
    { intros a Ha. unfold proper_edges. fold es. rewrite He, filter_cons, decide_True; [done|]. split; [by apply Hall|lia]. }
    assert (Ent : forall i j, i < n -> j < n -> A i j = if decide (i = j) then 0%Qc else 1%Qc).
    { intros i j Hi Hj. destruct (node_at h c T D i Hi) as (a & Ha & Hain). destruct (node_at h c T D j Hj) as (b & Hb & Hbin). unfold A.
      assert (HE : te_E T = 1) by (rewrite (d_E h c T D); fold es; by rewrite He). rewrite HE. rewrite qsum_S, qsum_0.
      destruct (W_cases h c T D U V 0 e i a j b) as [[X E]|[X E]]; [fold es; by rewrite He|done|done| |].
      - rewrite E. rewrite decide_False; [ring|]. intros ->. rewrite Ha in Hb. injection Hb as ->. by destruct X.
      - rewrite E. destruct (decide (i = j)) as [|Hne]; [ring|]. exfalso. apply X. split; [|split; by apply Hall]. intros ->.
        apply Hne. exact (proj1 (NoDup_alt _) (nodes_nodup h c W) i j b Ha Hb). }
    assert (Row : forall i, i < n -> ((1 + 1) * x i)%Qc = qsum n x).
    { intros i Hi. specialize (K i Hi). rewrite (Lp_row x i Hi) in K. destruct (node_at h c T D i Hi) as (a & Ha & Hain).
      destruct (q_C34 h c G T D U V) as (_ & _ & Hdeg). rewrite (Hdeg i a Ha), (PE a Hain) in K. cbn [length] in K.
      rewrite (qsum_ext n _ (fun j => (x j + (if decide (i = j) then x j else 0) * (- (1)))%Qc)) in K.
      - rewrite qsum_plus, qsum_scale, (qsum_diag n x i Hi), qnat_S, qnat_0 in K. replace ((1 + 1) * x i)%Qc with (((1 + 0) * x i - (qsum n x + x i * - (1))) + qsum n x)%Qc by ring. rewrite K. ring.
      - intros j Hj. rewrite (Ent i j Hi Hj). destruct (decide (i = j)); ring. }
    destruct (node_at h c T D i0 Hi0) as (a & Ha & Hain).
    assert (Eq : forall j, j < n -> x j = x i0).
    { intros j Hj. assert (E0 : ((1 + 1) * (x j - x i0))%Qc = 0%Qc).
      { replace ((1 + 1) * (x j - x i0))%Qc with ((1 + 1) * x j - (1 + 1) * x i0)%Qc by ring. rewrite (Row j Hj), (Row i0 Hi0). ring. }
      apply half_zero in E0. transitivity (x i0 + (x j - x i0))%Qc; [ring|]. rewrite E0. ring. }
    pose proof (K i0 Hi0) as K0. rewrite (qsum_ext n _ (fun j => (projected_laplacian T i0 j * x i0)%Qc)) in K0 by (intros j Hj; by rewrite (Eq j Hj)).
    rewrite qsum_scale in K0. apply Qcmult_integral in K0 as [K0|K0]; [|done]. exfalso. unfold n in K0. rewrite (q_C94_rows h c W G T D U V i0 a Ha) in K0.
    unfold rows in K0. rewrite (PE a Hain) in K0. cbn [map qsum_list foldr] in K0.
    assert (E2 : qnat (arity h e) = qnat 2).
    { rewrite !qnat_S, qnat_0. transitivity (1 + 1 - (1 + 1 - qnat (arity h e) + 0))%Qc; [ring|]. unfold qsum_list in K0. cbn [foldr] in K0. rewrite K0. ring. }
    apply qnat_inj in E2. lia.
  Qed.
End ent.

(** The diagonal of an acyclic graph *)
Section diag.
  Context (h : list obj) (c : loc) (W : WF0 h) (G : closed_graph h c) (T : tensors) (D : describes h c T) (U : unweighted h c).
  Context (rank : loc -> nat) (AC : acyclic h c rank).
  Let ns := nodes_of h c.
  Let n := te_n T.
  Let M i j := (projected_laplacian T i j / total_deg T)%Qc.
  Lemma total_nonneg : (0 <= total_deg T)%Qc.
  Proof. unfold total_deg. apply qsum_nonneg. exact (deg_nonneg h c G T D U). Qed.
  Lemma div_nonneg x t : (0 <= x)%Qc -> (0 <= t)%Qc -> t <> 0%Qc -> (0 <= x / t)%Qc.
  Proof.
    intros H1 H2 H3. assert (P : (0 < t)%Qc) by (destruct (Qcle_lt_or_eq _ _ H2) as [H|H]; [exact H|by symmetry in H]).
    apply (Qcmult_lt_0_le_reg_r 0 (x / t) t P). replace (0 * t)%Qc with 0%Qc by ring. unfold Qcdiv.
    replace (x * / t * t)%Qc with (x * (/ t * t))%Qc by ring. rewrite Qcmult_inv_l by done. replace (x * 1)%Qc with x by ring. exact H1.
  Qed.
  Lemma diag_deg i : i < n -> projected_laplacian T i i = degree_matrix T i.
  Proof.
    intros Hi. unfold projected_laplacian, diag_degree_matrix, qdiag. rewrite decide_True by done.
    rewrite (qsum_ext (te_E T) _ (fun _ => 0%Qc)); [rewrite qsum_const0; ring|]. intros k Hk. destruct (q_C33 h c T D) as [H _]. by apply H.
  Qed.
  Lemma diagonal_perm eigs : finds_diagonal eigs -> total_deg T <> 0%Qc -> Permutation (eigs n M) (map (fun i => (degree_matrix T i / total_deg T)%Qc) (seq 0 n)).
  Proof.
    intros F Ht. etransitivity; [apply (F n M (fun i => rank (default 0 (ns !! i))))|].
    - intros i j Hi Hj Hne H. destruct (node_at h c T D i Hi) as (a & Ha & _). destruct (node_at h c T D j Hj) as (b & Hb & _). unfold ns. rewrite Ha, Hb. cbn.
      apply (acyclic_A h c G T D U rank AC i j a b Ha Hb). intros X. apply H. unfold M, projected_laplacian, diag_degree_matrix, qdiag. rewrite decide_False by done. rewrite X. unfold Qcdiv. ring.
    - intros i Hi. unfold M. rewrite (diag_deg i Hi). apply div_nonneg; [by apply (deg_nonneg h c G T D U)|exact total_nonneg|done].
    - assert (E : map (fun i => M i i) (seq 0 n) = map (fun i => (degree_matrix T i / total_deg T)%Qc) (seq 0 n)); [|by rewrite E].
      apply map_ext_in. intros i Hi. apply in_seq in Hi. unfold M. rewrite diag_deg; [done|lia].
  Qed.
End diag.

(** Assembled. *)
Section full.
  Context (s : st) (c lim : nat) (x : hom) (T : tensors) (R : reach s) (G : closed_graph (heap s) c) (Hl : work (heap s) c < lim) (HC : computes lim c s x T).
  Context (eigs : nat -> (nat -> nat -> Qc) -> list Qc) (lg : Qc -> Qc) (F : finds_zero eigs).
  Let W : WF0 (heap s) := reach_wf s R.
  Lemma full_D : describes (heap s) c T.
  Proof. by destruct (q_computes s c lim x T R G Hl HC) as (D & _). Qed.
  Lemma n_ne : nodes_of (heap s) c <> [] <-> te_n T <> 0.
  Proof. rewrite (d_n (heap s) c T full_D). destruct (nodes_of (heap s) c); cbn; split; intros; [done|lia|lia|discriminate]. Qed.
  Lemma full_nan : (entropy_projected eigs lg T = LinAlgError <-> te_n T <> 0 /\ total_deg T = 0%Qc) /\
    (entropy_projected eigs lg T = Value None <-> te_n T <> 0 /\ total_deg T <> 0%Qc /\ singular (te_n T) (projected_laplacian T)).
  Proof.
    split; [apply ent_refused|]. destruct (ent_cases eigs lg T F) as [(A & B & ->)|[(A & B & C & ->)|(H & ->)]]; split; try done.
    - intros (_ & ? & _). done.
    - intros (H1 & H2 & H3). naive_solver.
  Qed.
  Lemma full_not_number : te_n T <> 0 -> singular (te_n T) (projected_laplacian T) -> forall q, entropy_projected eigs lg T <> Value (Some q).
  Proof. intros H1 H2 q. destruct (ent_cases eigs lg T F) as [(A & B & ->)|[(A & B & C & ->)|(H & ->)]]; [done|done|]. naive_solver. Qed.
  Lemma full_number : total_deg T <> 0%Qc -> ~ singular (te_n T) (projected_laplacian T) -> exists q, entropy_projected eigs lg T = Value (Some q).
  Proof. intros H1 H2. destruct (ent_cases eigs lg T F) as [(A & B & ->)|[(A & B & C & ->)|(H & ->)]]; [done|done|]. by eexists. Qed.
  Lemma full_refused : unweighted (heap s) c -> nodes_of (heap s) c <> [] ->
    entropy_projected eigs lg T = LinAlgError <-> forall e a b, e ∈ edges_of (heap s) c -> ~ adjacent (heap s) e a b.
  Proof. intros U Hn. rewrite ent_refused. rewrite (total_zero (heap s) c G T full_D U). apply n_ne in Hn. naive_solver. Qed.
  Lemma full_isolated a : a ∈ nodes_of (heap s) c -> isolated (heap s) c a -> forall q, entropy_projected eigs lg T <> Value (Some q).
  Proof.
    intros Ha I. apply full_not_number; [|exact (isolated_singular (heap s) c T full_D a Ha I)].
    apply n_ne. intros E. rewrite E in Ha. inversion Ha.
  Qed.
  Lemma connects_adjacent e a b : undirected (heap s) c -> e ∈ edges_of (heap s) c -> connects (heap s) e a b -> adjacent (heap s) e a b.
  Proof.
    intros V He (H1 & H2 & H3). split; [done|]. split; [done|]. split; [done|]. apply elem_of_list_omap in H2 as (r & Hr & Er). exists r. split; [done|]. left. split; [done|]. right. by apply (V e).
  Qed.
  Lemma full_graph : unweighted (heap s) c -> undirected (heap s) c -> nodes_of (heap s) c <> [] -> (forall e, e ∈ edges_of (heap s) c -> arity (heap s) e <= 2) ->
    (forall q, entropy_projected eigs lg T <> Value (Some q)) /\
    (forall e a b, e ∈ edges_of (heap s) c -> connects (heap s) e a b -> entropy_projected eigs lg T = Value None).
  Proof.
    intros U V Hn H. pose proof (graph_singular (heap s) c W G T full_D U V Hn H) as Sg. apply n_ne in Hn. split; [by apply full_not_number|].
    intros e a b He Hc. apply full_nan. split; [done|]. split; [|done]. intros Ht. apply (proj1 (total_zero (heap s) c G T full_D U) Ht e a b He).
    by apply connects_adjacent.
  Qed.
  Lemma touched_total : unweighted (heap s) c -> nodes_of (heap s) c <> [] -> (forall a, a ∈ nodes_of (heap s) c -> ~ untouched (heap s) c a) -> total_deg T <> 0%Qc.
  Proof.
    intros U Hn H Ht. pose proof (proj1 (total_zero (heap s) c G T full_D U) Ht) as Z. destruct (nodes_of (heap s) c) as [|a l] eqn:E; [done|].
    apply (H a ltac:(left)). intros e b He. split; by apply Z.
  Qed.
  Lemma full_acyclic rank : unweighted (heap s) c -> acyclic (heap s) c rank -> nodes_of (heap s) c <> [] ->
    (exists q, entropy_projected eigs lg T = Value (Some q)) <-> forall a, a ∈ nodes_of (heap s) c -> ~ untouched (heap s) c a.
  Proof.
    intros U AC Hn. split.
    - intros [q E] a Ha Un. apply (full_not_number (proj1 n_ne Hn) (untouched_singular (heap s) c G T full_D U a Ha Un) q E).
    - intros H. apply full_number; [by apply touched_total|]. exact (acyclic_regular (heap s) c G T full_D U rank AC H).
  Qed.
  Lemma full_hyperedge e : unweighted (heap s) c -> undirected (heap s) c -> edges_of (heap s) c = [e] -> (forall a, a ∈ nodes_of (heap s) c -> a ∈ endpoints (heap s) e) ->
    3 <= arity (heap s) e -> exists q, entropy_projected eigs lg T = Value (Some q).
  Proof.
    intros U V He Hall H3. apply full_number; [|exact (hyperedge_regular (heap s) c W G T full_D e U V He Hall H3)].
    intros Ht. assert (Hin : e ∈ edges_of (heap s) c) by (rewrite He; left). unfold arity in H3. 
    assert (ND : NoDup (remove_dups (endpoints (heap s) e))) by apply NoDup_remove_dups.
    destruct (remove_dups (endpoints (heap s) e)) as [|a [|b l]] eqn:Er; [simpl in H3; lia|simpl in H3; lia|].
    apply (proj1 (total_zero (heap s) c G T full_D U) Ht e a b Hin). apply connects_adjacent; [done|done|]. split.
    - intros ->. apply NoDup_cons in ND as [ND _]. apply ND. left.
    - split; apply elem_of_remove_dups; rewrite Er; [left|right; left].
  Qed.
End full.

Lemma full_shannon s c lim x T eigs lg rank : reach s -> closed_graph (heap s) c -> work (heap s) c < lim -> computes lim c s x T ->
  finds_diagonal eigs -> unweighted (heap s) c -> acyclic (heap s) c rank -> nodes_of (heap s) c <> [] ->
  (forall a, a ∈ nodes_of (heap s) c -> ~ untouched (heap s) c a) ->
  entropy_projected eigs lg T = Value (Some (qsum (te_n T) (fun i => let p := (degree_matrix T i / total_deg T)%Qc in (- p * lg p)%Qc))).
Proof.
  intros R G Hl HC FD U AC Hn H. pose proof (touched_total s c lim x T R G Hl HC U Hn H) as Ht. pose proof (full_D s c lim x T R G Hl HC) as D.
  pose proof (diagonal_perm (heap s) c G T D U rank AC eigs FD Ht) as P. rewrite ent_number.
  - f_equal. f_equal. unfold qsum. apply perm_qsum. rewrite P. by rewrite map_map.
  - intros X. rewrite P in X. apply elem_of_list_fmap in X as (i & E & Hi). apply elem_of_seq in Hi. destruct (node_at (heap s) c T D i) as (a & Ha & Hain); [lia|].
    apply (H a Hain). apply (deg_untouched (heap s) c G T D U i a Ha). unfold Qcdiv in E. symmetry in E. apply Qcmult_integral in E as [E|E]; [exact E|].
    exfalso. pose proof (Qcmult_inv_l (total_deg T) Ht) as X. rewrite E in X. replace (0 * total_deg T)%Qc with 0%Qc in X by ring. discriminate X.
  - intros [_ X]. done.
Qed.

(** Singularity can be decided: elimination of the last unknown *)
Definition solves (n : nat) (l : list (nat -> Qc)) (x : nat -> Qc) : Prop := forall r, r ∈ l -> qsum n (fun j => (r j * x j)%Qc) = 0%Qc.
Lemma solvable_dec n : forall l, {exists x, (exists i, i < n /\ x i <> 0%Qc) /\ solves n l x} + {~ exists x, (exists i, i < n /\ x i <> 0%Qc) /\ solves n l x}.
Proof.
  induction n as [|n IH]; intros l; [right; intros (x & (i & Hi & _) & _); lia|].
  destruct (list_find (fun r : nat -> Qc => r n <> 0%Qc) l) as [[k r]|] eqn:E.
  - apply list_find_Some in E as (Hk & Hr & _). set (q j := (r j / r n)%Qc).
    destruct (IH (map (fun t j => (t j - t n * q j)%Qc) l)) as [H|H]; [left|right].
    + destruct H as (x & (i & Hi & Hx) & Hs). set (y j := if decide (j = n) then (- qsum n (fun j => (q j * x j)%Qc))%Qc else x j). exists y.
      assert (Ey : forall (f : nat -> Qc), qsum n (fun j => (f j * y j)%Qc) = qsum n (fun j => (f j * x j)%Qc)).
      { intros f. apply qsum_ext. intros j Hj. unfold y. rewrite decide_False by lia. done. }
      split; [exists i; split; [lia|]; unfold y; rewrite decide_False by lia; done|].
      intros t Ht. rewrite qsum_S, Ey. unfold y. rewrite decide_True by done.
      rewrite <- (Hs (fun j => (t j - t n * q j)%Qc)) by (apply (elem_of_list_fmap_1 (fun t j => (t j - t n * q j)%Qc)); exact Ht).
      rewrite (qsum_ext n (fun j => ((t j - t n * q j) * x j)%Qc) (fun j => (t j * x j + q j * x j * (- t n))%Qc)) by (intros; ring).
      rewrite qsum_plus, qsum_scale. ring.
    + intros (y & (i & Hi & Hy) & Hs). apply H. exists y.
      assert (Er : (qsum n (fun j => (q j * y j)%Qc) + y n)%Qc = 0%Qc).
      { pose proof (Hs r (elem_of_list_lookup_2 _ _ _ Hk)) as E. rewrite qsum_S in E.
        transitivity ((qsum n (fun j => (r j * y j)%Qc) + r n * y n) * / r n)%Qc; [|rewrite E; ring].
        rewrite (qsum_ext n (fun j => (q j * y j)%Qc) (fun j => (r j * y j * / r n)%Qc)) by (intros; unfold q, Qcdiv; ring). rewrite qsum_scale.
        transitivity (qsum n (fun j => (r j * y j)%Qc) * / r n + y n * (/ r n * r n))%Qc; [rewrite Qcmult_inv_l by done; ring|ring]. }
      split.
      * destruct (decide (Exists (fun i => y i <> 0%Qc) (seq 0 n))) as [X|X].
        -- apply Exists_exists in X as (j & Hj & X). apply elem_of_seq in Hj. exists j. split; [lia|done].
        -- exfalso. assert (Z : forall j, j < n -> y j = 0%Qc).
           { intros j Hj. destruct (decide (y j = 0%Qc)) as [|Hne]; [done|]. exfalso. apply X, Exists_exists. exists j. split; [apply elem_of_seq; lia|done]. }
           rewrite (qsum_ext n _ (fun _ => 0%Qc)) in Er by (intros j Hj; rewrite (Z j Hj); ring). rewrite qsum_const0 in Er.
           apply Hy. destruct (decide (i = n)) as [->|]; [rewrite <- Er; ring|]. apply Z. lia.
      * intros t Ht. apply elem_of_list_fmap in Ht as (t' & -> & Ht'). pose proof (Hs t' Ht') as E. rewrite qsum_S in E.
        rewrite (qsum_ext n _ (fun j => (t' j * y j + q j * y j * (- t' n))%Qc)) by (intros; ring). rewrite qsum_plus, qsum_scale.
        transitivity (qsum n (fun j => (t' j * y j)%Qc) + t' n * y n - t' n * (qsum n (fun j => (q j * y j)%Qc) + y n))%Qc; [ring|]. rewrite E, Er. ring.
  - left. exists (fun j => if decide (j = n) then 1%Qc else 0%Qc). split; [exists n; split; [lia|]; by rewrite decide_True|].
    intros r Hr. apply list_find_None in E. rewrite Forall_forall in E. pose proof (E r Hr) as E'. rewrite qsum_S. rewrite decide_True by done.
    rewrite (qsum_ext n _ (fun _ => 0%Qc)) by (intros j Hj; rewrite decide_False by lia; ring). rewrite qsum_const0.
    destruct (decide (r n = 0%Qc)) as [->|Hne]; [ring|by destruct E'].
Qed.
Global Instance singular_dec n M : Decision (singular n M).
Proof.
  destruct (solvable_dec n (map M (seq 0 n))) as [H|H]; [left|right].
  - destruct H as (x & Hx & Hs). exists x. split; [exact Hx|]. intros i Hi. apply (Hs (M i)). apply elem_of_list_fmap_1. apply elem_of_seq. lia.
  - intros (x & Hx & K). apply H. exists x. split; [exact Hx|]. intros r Hr. apply elem_of_list_fmap in Hr as (i & -> & Hi). apply elem_of_seq in Hi. apply K. lia.
Defined.
