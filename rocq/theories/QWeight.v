(** * Proofs of C97: undirected graphs with weights *)
From Verif Require Import Spec Hierarchy Elements Factory History PDict PPath PExec PBfs PWF PMono PReach PHist Traverse SpecTrav QTrav QTrav2 QTrav3 Homomorphism SpecHom QHom HTraverse Tensor SpecTensor QTensor QTensor2 QTensor3 SpecLap QLap SpecEntropy QEntropy SpecWeight.
Local Open Scope nat_scope.

Lemma final_flat (h : list obj) (f : loc -> list Qc) (P : loc -> Prop) `{!forall r, Decision (P r)} l :
  (forall r, r ∈ l -> f r = if decide (P r /\ amount h r <> 0%Qc) then [amount h r] else []) ->
  flat_map f l = filter (fun q => q <> 0%Qc) (map (amount h) (filter P l)).
Proof.
  induction l as [|r l IH]; intros Hf; [done|]. cbn [flat_map]. rewrite IH by (intros y Hy; apply Hf; by right). rewrite (Hf r ltac:(left)), filter_cons.
  destruct (decide (P r)) as [K|K]; cbn [map]; [rewrite filter_cons|]; destruct (decide (amount h r <> 0%Qc)) as [K'|K'];
    first [rewrite decide_True by done; done|rewrite decide_False by tauto; done].
Qed.
Lemma last_amount_ext h e (P Q : loc -> Prop) `{!forall r, Decision (P r)} `{!forall r, Decision (Q r)} :
  (forall r, r ∈ rels_of h e -> P r <-> Q r) -> last_amount h e P = last_amount h e Q.
Proof.
  intros K. unfold last_amount. do 4 f_equal. induction (rels_of h e) as [|r l IH]; [done|]. rewrite !filter_cons, IH by (intros; apply K; by right).
  pose proof (K r ltac:(left)). destruct (decide (P r)), (decide (Q r)); tauto.
Qed.

Section wt.
  Context (h : list obj) (c : loc) (W : WF0 h) (G : closed_graph h c) (T : tensors) (D : describes h c T) (V : undirected h c).
  Let ns := nodes_of h c.
  Let es := edges_of h c.
  Let n := te_n T.
  Let A i j := qsum (te_E T) (fun k => te_W T k i j).

  Lemma und_in e r : e ∈ es -> r ∈ rels_of h e -> w_in h r = amount h r /\ w_out h r = amount h r.
  Proof. intros He Hr. pose proof (V e r He Hr) as X. unfold w_in, w_out. rewrite !decide_True by (by right). done. Qed.
  Lemma wt_W e a b : e ∈ es -> entry_W h e a b = if decide (a <> b /\ a ∈ endpoints h e /\ b ∈ endpoints h e) then pair_amount h e a b else 0%Qc.
  Proof.
    intros He. unfold entry_W. destruct (decide _) as [(Hab & Ha & Hb)|]; [|done]. unfold pair_amount, last_amount, final. do 2 f_equal.
    apply (final_flat h). intros r Hr. destruct (und_in e r He Hr) as [-> ->].
    destruct (decide (ep_of h r = Some a /\ amount h r <> 0%Qc)) as [[E1 E2]|N1].
    - rewrite (decide_False (P := ep_of h r = Some b /\ amount h r <> 0%Qc)) by (rewrite E1; intros [X _]; congruence). rewrite decide_True by tauto. done.
    - cbn [app]. destruct (decide (ep_of h r = Some b /\ amount h r <> 0%Qc)) as [[E1 E2]|N2]; [by rewrite decide_True by tauto|by rewrite decide_False by tauto].
  Qed.
  Lemma wt_Io e a : e ∈ es -> entry_Io h e a = if decide (a ∈ endpoints h e /\ 2 <= arity h e) then edge_amount h e else 0%Qc.
  Proof.
    intros He. unfold entry_Io. destruct (decide (a ∈ endpoints h e /\ others h e a <> [])) as [[Ha Ho]|N].
    - rewrite decide_True by (split; [done|]; by apply (arity_2 h e a)). unfold edge_amount, last_amount, final. do 2 f_equal.
      apply (final_flat h). intros r Hr. destruct (und_in e r He Hr) as [-> ->].
      destruct (decide (ep_of h r = Some a /\ amount h r <> 0%Qc)) as [[E1 E2]|N1].
      + rewrite (decide_False (P := ep_of h r <> Some a /\ amount h r <> 0%Qc)) by tauto. by rewrite decide_True by tauto.
      + cbn [app]. destruct (decide (ep_of h r <> Some a /\ amount h r <> 0%Qc)) as [[E1 E2]|N2]; [by rewrite decide_True by tauto|].
        rewrite decide_False; [done|]. intros [_ X]. destruct (decide (ep_of h r = Some a)); tauto.
    - rewrite decide_False; [done|]. intros [Ha H2]. apply N. split; [done|]. by apply (arity_2 h e a).
  Qed.
  Lemma wt_Ii e a : e ∈ es -> entry_Ii h e a = if decide (a ∈ endpoints h e /\ 2 <= arity h e) then edge_amount h e else 0%Qc.
  Proof.
    intros He. unfold entry_Ii. destruct (decide (a ∈ endpoints h e /\ others h e a <> [])) as [[Ha Ho]|N].
    - rewrite decide_True by (split; [done|]; by apply (arity_2 h e a)). unfold edge_amount, last_amount, final. do 2 f_equal.
      apply (final_flat h). intros r Hr. destruct (und_in e r He Hr) as [-> ->].
      destruct (decide (ep_of h r <> Some a /\ amount h r <> 0%Qc)) as [[E1 E2]|N1].
      + rewrite (decide_False (P := ep_of h r = Some a /\ amount h r <> 0%Qc)) by tauto. by rewrite decide_True by tauto.
      + cbn [app]. destruct (decide (ep_of h r = Some a /\ amount h r <> 0%Qc)) as [[E1 E2]|N2]; [by rewrite decide_True by tauto|].
        rewrite decide_False; [done|]. intros [_ X]. destruct (decide (ep_of h r = Some a)); tauto.
    - rewrite decide_False; [done|]. intros [Ha H2]. apply N. split; [done|]. by apply (arity_2 h e a).
  Qed.
  Lemma pair_sym e a b : pair_amount h e a b = pair_amount h e b a.
  Proof. apply last_amount_ext. intros r _. tauto. Qed.
  Lemma wt_entry k e i a j b : es !! k = Some e -> ns !! i = Some a -> ns !! j = Some b ->
    te_W T k i j = if decide (connects h e a b) then pair_amount h e a b else 0%Qc.
  Proof. intros He Ha Hb. rewrite (d_W h c T D _ _ _ _ _ _ He Ha Hb), wt_W by (by eapply elem_of_list_lookup_2). done. Qed.
  Lemma wt_sym k i j : k < te_E T -> i < n -> j < n -> te_W T k i j = te_W T k j i.
  Proof.
    intros Hk Hi Hj. destruct (edge_at h c T D k Hk) as (e & He & _). destruct (node_at h c T D i Hi) as (a & Ha & _). destruct (node_at h c T D j Hj) as (b & Hb & _).
    rewrite (wt_entry _ _ _ _ _ _ He Ha Hb), (wt_entry _ _ _ _ _ _ He Hb Ha), (pair_sym e a b). unfold connects.
    destruct (decide _) as [K1|K1], (decide _) as [K2|K2]; try done; exfalso; [apply K2|apply K1]; naive_solver.
  Qed.
  Lemma wt_inc k e i a : es !! k = Some e -> ns !! i = Some a ->
    te_Io T k i = (if decide (a ∈ endpoints h e /\ 2 <= arity h e) then edge_amount h e else 0%Qc) /\ te_Ii T k i = te_Io T k i.
  Proof.
    intros He Ha. rewrite (d_Io h c T D _ _ _ _ He Ha), (d_Ii h c T D _ _ _ _ He Ha).
    pose proof (elem_of_list_lookup_2 _ _ _ He). by rewrite wt_Io, wt_Ii.
  Qed.
  Lemma sum_filter {B} (P : B -> Prop) `{!forall x, Decision (P x)} (f : B -> Qc) l : qsum_list (map (fun x => if decide (P x) then f x else 0%Qc) l) = qsum_list (map f (filter P l)).
  Proof.
    induction l as [|y l IH]; [done|]. rewrite filter_cons. cbn [map]. change (qsum_list (?u :: ?v)) with (u + qsum_list v)%Qc. rewrite IH.
    destruct (decide (P y)); [done|]. ring.
  Qed.
  Lemma wt_degree i a : ns !! i = Some a -> degree_matrix T i = qsum_list (map (edge_amount h) (proper_edges h c a)).
  Proof.
    intros Ha. unfold degree_matrix.
    assert (E : forallb (fun e => bool_decide (te_Io T e i = te_Ii T e i)) (seq 0 (te_E T)) = true).
    { apply forallb_forall. intros k Hk. apply in_seq in Hk. apply bool_decide_eq_true_2. destruct (edge_at h c T D k) as (e & He & _); [lia|]. symmetry. by apply (wt_inc k e i a). }
    rewrite E. cbn [b2q]. rewrite (qsum_ext (te_E T) (fun e => te_Ii T e i) (fun e => te_Io T e i)).
    - assert (E1 : qsum (te_E T) (fun e => te_Io T e i) = qsum_list (map (edge_amount h) (proper_edges h c a))).
      { rewrite (d_E h c T D). rewrite (qsum_index (edges_of h c) _ (fun e => if decide (a ∈ endpoints h e /\ 2 <= arity h e) then edge_amount h e else 0%Qc)).
        - unfold proper_edges. apply sum_filter.
        - intros k e He. by apply (wt_inc k e i a). }
      rewrite E1. set (q := qsum_list _). transitivity (q * (1 / (1 + 1) * (1 + 1)))%Qc; [ring|]. rewrite QTensor2.half. ring.
    - intros k Hk. destruct (edge_at h c T D k Hk) as (e & He & _). by apply (wt_inc k e i a).
  Qed.
  Lemma wt_A_sym i j : i < n -> j < n -> A i j = A j i.
  Proof. intros Hi Hj. apply qsum_ext. intros k Hk. by apply wt_sym. Qed.
  Lemma wt_off i j : i < n -> j < n -> i <> j -> projected_laplacian T i j = (- A i j)%Qc.
  Proof. intros Hi Hj Hne. unfold projected_laplacian, diag_degree_matrix, qdiag. rewrite decide_False by done. unfold A. ring. Qed.
  Lemma wt_symmetric i j : i < n -> j < n -> projected_laplacian T i j = projected_laplacian T j i.
  Proof. intros Hi Hj. destruct (decide (i = j)) as [->|Hne]; [done|]. rewrite !wt_off by done. by rewrite (wt_A_sym i j). Qed.

  (** Edges with two endpoints *)
  Section two.
    Context (H2 : forall e, e ∈ es -> arity h e <= 2).
    Lemma two_pair e a b : e ∈ es -> connects h e a b -> pair_amount h e a b = edge_amount h e.
    Proof.
      intros He (Hab & Ha & Hb). apply last_amount_ext. intros r Hr. split; [done|]. intros _.
      destruct (cg_ep _ _ G e r He Hr) as (p & Hp & _). destruct (decide (p = a)) as [->|Hpa]; [by left|]. destruct (decide (p = b)) as [->|Hpb]; [by right|]. exfalso.
      assert (Hpe : p ∈ endpoints h e) by (unfold endpoints; apply elem_of_list_omap; by exists r).
      specialize (H2 e He). unfold arity in H2.
      assert (X : length [a; b; p] <= length (remove_dups (endpoints h e))).
      { apply NoDup_incl_length.
        - apply NoDup_ListNoDup. apply NoDup_cons. split; [|apply NoDup_cons; split; [|apply NoDup_singleton]].
          + intros Y. apply elem_of_cons in Y as [Y|Y]; [done|]. apply elem_of_list_singleton in Y. congruence.
          + intros Y. apply elem_of_list_singleton in Y. congruence.
        - intros y Hy. apply elem_of_list_In. apply elem_of_remove_dups. destruct Hy as [<-|[<-|[<-|[]]]]; done. }
      cbn [length] in X. lia.
    Qed.
    Lemma two_row k e i a : es !! k = Some e -> ns !! i = Some a ->
      qsum n (te_W T k i) = if decide (a ∈ endpoints h e /\ 2 <= arity h e) then edge_amount h e else 0%Qc.
    Proof.
      intros He Ha. pose proof (elem_of_list_lookup_2 _ _ _ He) as Hin. unfold n. rewrite (d_n h c T D).
      rewrite (qsum_index (nodes_of h c) _ (fun b => if decide (connects h e a b) then edge_amount h e else 0%Qc)).
      - rewrite (sum_filter (fun b => connects h e a b) (fun _ => edge_amount h e)).
        destruct (decide (a ∈ endpoints h e /\ 2 <= arity h e)) as [[Hae Har]|N].
        + assert (L : length (filter (fun b => connects h e a b) (nodes_of h c)) = 1).
          { apply (arity_2 h e a Hae) in Har. apply others_ne in Har as (b & Hb & Hba). assert (Hc : connects h e a b) by (split; [congruence|done]).
            assert (P : Permutation (filter (fun b => connects h e a b) (nodes_of h c)) [b]); [|by rewrite P].
            apply NoDup_Permutation; [apply NoDup_filter, (nodes_nodup h c W)|apply NoDup_singleton|]. intros y. rewrite elem_of_list_filter, elem_of_list_singleton. split.
            - intros [(Hay & _ & Hy) _]. destruct (decide (y = b)) as [|Hyb]; [done|]. exfalso. specialize (H2 e Hin). unfold arity in H2.
              assert (X : length [a; b; y] <= length (remove_dups (endpoints h e))).
              { apply NoDup_incl_length.
                - apply NoDup_ListNoDup. apply NoDup_cons. split; [|apply NoDup_cons; split; [|apply NoDup_singleton]].
                  + intros Y. apply elem_of_cons in Y as [Y|Y]; [congruence|]. apply elem_of_list_singleton in Y. congruence.
                  + intros Y. apply elem_of_list_singleton in Y. congruence.
                - intros z Hz. apply elem_of_list_In. apply elem_of_remove_dups. destruct Hz as [<-|[<-|[<-|[]]]]; done. }
              cbn [length] in X. lia.
            - intros ->. split; [done|]. by eapply (endpoints_nodes h c G). }
          destruct (filter _ _) as [|y [|z l]]; [discriminate L| |discriminate L]. cbn [map]. unfold qsum_list. cbn [foldr]. ring.
        + assert (E : filter (fun b => connects h e a b) (nodes_of h c) = []); [|by rewrite E].
          destruct (filter _ _) as [|b l] eqn:E; [done|]. exfalso. assert (Hb : b ∈ filter (fun b => connects h e a b) (nodes_of h c)) by (rewrite E; left).
          apply elem_of_list_filter in Hb as [(Hab & Hae & Hb) _]. apply N. split; [done|]. apply (arity_2 h e a); [done|]. apply others_ne. exists b. split; [done|congruence].
      - intros j b Hb. rewrite (wt_entry k e i a j b He Ha Hb). destruct (decide _) as [K|K]; [|done]. by apply two_pair.
    Qed.
    Lemma two_rows i : i < n -> qsum n (projected_laplacian T i) = 0%Qc.
    Proof.
      intros Hi. destruct (node_at h c T D i Hi) as (a & Ha & _).
      assert (E1 : qsum n (projected_laplacian T i) = (degree_matrix T i - qsum n (A i))%Qc).
      { rewrite (qsum_ext n _ (fun j => ((if decide (i = j) then degree_matrix T j else 0) + A i j * (- (1)))%Qc)).
        - rewrite qsum_plus, qsum_scale, qsum_diag by done. ring.
        - intros j Hj. unfold projected_laplacian, diag_degree_matrix, qdiag, A. destruct (decide (i = j)) as [<-|]; ring. }
      rewrite E1, (wt_degree i a Ha). assert (E2 : qsum n (A i) = qsum_list (map (edge_amount h) (proper_edges h c a))); [|rewrite E2; ring].
      unfold A. rewrite qsum_swap. rewrite (d_E h c T D). rewrite (qsum_index (edges_of h c) _ (fun e => if decide (a ∈ endpoints h e /\ 2 <= arity h e) then edge_amount h e else 0%Qc)).
      - unfold proper_edges. apply sum_filter.
      - intros k e He. by apply (two_row k e i a).
    Qed.
    Lemma two_form x : ((1 + 1) * qform n (projected_laplacian T) x)%Qc = qsum n (fun i => qsum n (fun j => (A i j * ((x i - x j) * (x i - x j)))%Qc)).
    Proof.
      rewrite (form_rows n (projected_laplacian T) A wt_off wt_A_sym x). rewrite (qsum_ext n (fun i => (qsum n (projected_laplacian T i) * (x i * x i))%Qc) (fun _ => 0%Qc)).
      - rewrite qsum_const0. ring.
      - intros i Hi. rewrite (two_rows i Hi). ring.
    Qed.
    Lemma two_singular : ns <> [] -> singular n (projected_laplacian T).
    Proof.
      intros Hne. exists (fun _ => 1%Qc). split.
      - exists 0. split; [|discriminate]. unfold n. rewrite (d_n h c T D). destruct ns eqn:E; [done|]. unfold ns in E. rewrite E. cbn. lia.
      - intros i Hi. rewrite (qsum_ext n _ (projected_laplacian T i)) by (intros; ring). by apply two_rows.
    Qed.
    Lemma two_W_nonneg : (forall e, e ∈ es -> (0 <= edge_amount h e)%Qc) -> forall k i j, k < te_E T -> i < n -> j < n -> (0 <= te_W T k i j)%Qc.
    Proof.
      intros P k i j Hk Hi Hj. destruct (edge_at h c T D k Hk) as (e & He & Hin). destruct (node_at h c T D i Hi) as (a & Ha & _). destruct (node_at h c T D j Hj) as (b & Hb & _).
      rewrite (wt_entry k e i a j b He Ha Hb). destruct (decide _) as [K|K]; [rewrite (two_pair e a b Hin K); by apply P|apply Qcle_refl].
    Qed.
    Lemma two_semidefinite : (forall e, e ∈ es -> (0 <= edge_amount h e)%Qc) -> semidefinite n (projected_laplacian T).
    Proof.
      intros P x. apply half_nonneg. rewrite (two_form x). apply qsum_nonneg. intros i Hi. apply qsum_nonneg. intros j Hj.
      apply Qc_mult_nonneg; [|apply Qc_square_nonneg]. apply qsum_nonneg. intros k Hk. by apply two_W_nonneg.
    Qed.
    Lemma two_kernel x : (forall e, e ∈ es -> (0 < edge_amount h e)%Qc) -> qform n (projected_laplacian T) x = 0%Qc <-> constant_on_edges h c x.
    Proof.
      intros P. assert (P' : forall e, e ∈ es -> (0 <= edge_amount h e)%Qc) by (intros e He; by apply Qclt_le_weak, P).
      assert (An : forall i j, i < n -> j < n -> (0 <= A i j)%Qc) by (intros i j Hi Hj; apply qsum_nonneg; intros k Hk; by apply two_W_nonneg). split.
      - intros E k e i a j b He Ha Hb Hc.
        assert (Hk : k < te_E T) by (rewrite (d_E h c T D); by apply lookup_lt_Some in He).
        assert (Hi : i < n) by (unfold n; rewrite (d_n h c T D); by apply lookup_lt_Some in Ha). assert (Hj : j < n) by (unfold n; rewrite (d_n h c T D); by apply lookup_lt_Some in Hb).
        assert (E2 : qsum n (fun i => qsum n (fun j => (A i j * ((x i - x j) * (x i - x j)))%Qc)) = 0%Qc) by (rewrite <- (two_form x), E; ring).
        assert (Sq : forall i, i < n -> (0 <= qsum n (fun j => (A i j * ((x i - x j) * (x i - x j)))%Qc))%Qc).
        { intros i' Hi'. apply qsum_nonneg. intros j' Hj'. apply Qc_mult_nonneg; [by apply An|apply Qc_square_nonneg]. }
        pose proof (qsum_nonneg_zero n _ Sq E2 i Hi) as E3. cbn beta in E3.
        pose proof (qsum_nonneg_zero n _ (fun j Hj => Qc_mult_nonneg _ _ (An i j Hi Hj) (Qc_square_nonneg (x i - x j))) E3 j Hj) as E4. cbn beta in E4.
        apply Qcmult_integral in E4 as [E4|E4].
        + exfalso. pose proof (qsum_nonneg_zero (te_E T) _ (fun k Hk => two_W_nonneg P' k i j Hk Hi Hj) E4 k Hk) as E5. cbn beta in E5.
          rewrite (wt_entry k e i a j b He Ha Hb), decide_True, two_pair in E5 by (try done; by eapply elem_of_list_lookup_2).
          pose proof (P e (elem_of_list_lookup_2 _ _ _ He)) as X. rewrite E5 in X. by apply Qclt_not_le in X; apply X; apply Qcle_refl.
        + assert (E5 : (x i - x j)%Qc = 0%Qc) by (apply Qcmult_integral in E4 as [E4|E4]; exact E4).
          transitivity (x j + (x i - x j))%Qc; [ring|]. rewrite E5. ring.
      - intros Hx. apply half_zero. rewrite (two_form x).
        rewrite (qsum_ext n _ (fun _ => 0%Qc)); [apply qsum_const0|]. intros i Hi. rewrite (qsum_ext n _ (fun _ => 0%Qc)); [apply qsum_const0|]. intros j Hj.
        unfold A. destruct (decide (x i = x j)) as [->|Hne]; [ring|].
        rewrite (qsum_ext (te_E T) _ (fun _ => 0%Qc)); [rewrite qsum_const0; ring|]. intros k Hk.
        destruct (edge_at h c T D k Hk) as (e & He & _). destruct (node_at h c T D i Hi) as (a & Ha & _). destruct (node_at h c T D j Hj) as (b & Hb & _).
        rewrite (wt_entry k e i a j b He Ha Hb). destruct (decide _) as [K|K]; [|done]. exfalso. apply Hne. by apply (Hx k e i a j b).
    Qed.
  End two.
End wt.

(** Assembled. *)
Section full.
  Context (s : st) (c lim : nat) (x : hom) (T : tensors) (R : reach s) (G : closed_graph (heap s) c) (Hl : work (heap s) c < lim) (HC : computes lim c s x T).
  Context (V : undirected (heap s) c).
  Let D := full_D s c lim x T R G Hl HC.
  Let W : WF0 (heap s) := reach_wf s R.
  Lemma full_wt_entries :
    (forall k e i a j b, edges_of (heap s) c !! k = Some e -> nodes_of (heap s) c !! i = Some a -> nodes_of (heap s) c !! j = Some b ->
       te_W T k i j = if decide (connects (heap s) e a b) then pair_amount (heap s) e a b else 0%Qc) /\
    (forall k e i a, edges_of (heap s) c !! k = Some e -> nodes_of (heap s) c !! i = Some a ->
       te_Io T k i = (if decide (a ∈ endpoints (heap s) e /\ 2 <= arity (heap s) e) then edge_amount (heap s) e else 0%Qc) /\ te_Ii T k i = te_Io T k i) /\
    (forall k i j, k < te_E T -> i < te_n T -> j < te_n T -> te_W T k i j = te_W T k j i) /\
    (forall i j, i < te_n T -> j < te_n T -> projected_laplacian T i j = projected_laplacian T j i).
  Proof.
    split; [exact (wt_entry _ c T D V)|]. split; [exact (wt_inc _ c T D V)|]. split; [exact (wt_sym _ c T D V)|exact (wt_symmetric _ c T D V)].
  Qed.
  Lemma full_wt_degree i a : nodes_of (heap s) c !! i = Some a -> degree_matrix T i = qsum_list (map (edge_amount (heap s)) (proper_edges (heap s) c a)).
  Proof. exact (wt_degree _ c T D V i a). Qed.
  Context (H2 : forall e, e ∈ edges_of (heap s) c -> arity (heap s) e <= 2).
  Lemma full_two :
    (forall i, i < te_n T -> qsum (te_n T) (projected_laplacian T i) = 0%Qc) /\
    ((forall e, e ∈ edges_of (heap s) c -> (0 <= edge_amount (heap s) e)%Qc) -> semidefinite (te_n T) (projected_laplacian T)) /\
    ((forall e, e ∈ edges_of (heap s) c -> (0 < edge_amount (heap s) e)%Qc) ->
      forall v, qform (te_n T) (projected_laplacian T) v = 0%Qc <-> constant_on_edges (heap s) c v) /\
    (nodes_of (heap s) c <> [] -> forall eigs lg q, finds_zero eigs -> entropy_projected eigs lg T <> Value (Some q)).
  Proof.
    split; [exact (two_rows _ c W G T D V H2)|]. split; [exact (two_semidefinite _ c W G T D V H2)|].
    split; [intros P v; exact (two_kernel _ c W G T D V H2 v P)|].
    intros Hn eigs lg q F. apply (full_not_number T eigs lg F); [by apply (n_ne s c lim x T R G Hl HC)|]. exact (two_singular _ c W G T D V H2 Hn).
  Qed.
End full.
