(** * Proofs of C96: the numbers of a graph do not depend on the order of its elements *)
From Verif Require Import Spec Hierarchy Elements Factory History PDict PPath PExec PBfs PWF PMono PReach PHist Traverse SpecTrav QTrav QTrav2 QTrav3 Homomorphism SpecHom QHom HTraverse Tensor SpecTensor QTensor QTensor2 QTensor3 SpecLap QLap SpecEntropy QEntropy SpecIso.
Local Open Scope nat_scope.

Section iso.
  Context (h : list obj) (c : loc) (W : WF0 h) (G : closed_graph h c) (T : tensors) (D : describes h c T) (U : unweighted h c).
  Let ns := nodes_of h c.
  Let es := edges_of h c.
  Let n := te_n T.
  Lemma leads_ne e a : e ∈ es -> leads_to h c e a <> [] <-> exists b, adjacent h e a b.
  Proof.
    intros He. split.
    - intros H. destruct (leads_to h c e a) as [|b l] eqn:E; [done|]. exists b. assert (X : b ∈ leads_to h c e a) by (rewrite E; left). by apply elem_of_list_filter in X as [X _].
    - intros [b H] E. assert (X : b ∈ leads_to h c e a); [|rewrite E in X; inversion X]. apply elem_of_list_filter. split; [done|]. by apply (adjacent_nodes h c G e a b He H).
  Qed.
  Lemma comes_ne e a : e ∈ es -> comes_from h c e a <> [] <-> exists b, adjacent h e b a.
  Proof.
    intros He. split.
    - intros H. destruct (comes_from h c e a) as [|b l] eqn:E; [done|]. exists b. assert (X : b ∈ comes_from h c e a) by (rewrite E; left). by apply elem_of_list_filter in X as [X _].
    - intros [b H] E. assert (X : b ∈ comes_from h c e a); [|rewrite E in X; inversion X]. apply elem_of_list_filter. split; [done|]. by apply (adjacent_nodes h c G e b a He H).
  Qed.
  Lemma W_val k e i a j b : es !! k = Some e -> ns !! i = Some a -> ns !! j = Some b -> te_W T k i j = if decide (adjacent h e a b) then 1%Qc else 0%Qc.
  Proof.
    intros He Ha Hb. destruct (q_C32 h c G T D U) as (HW & _). destruct (HW _ _ _ _ _ _ He Ha Hb) as [H1 H2]. destruct (decide _); [by apply H1|by apply H2].
  Qed.
  Lemma Io_val k e i a : es !! k = Some e -> ns !! i = Some a -> te_Io T k i = if decide (leads_to h c e a <> []) then 1%Qc else 0%Qc.
  Proof.
    intros He Ha. pose proof (elem_of_list_lookup_2 _ _ _ He) as Hin. rewrite (d_Io h c T D _ _ _ _ He Ha). destruct (entry_Io_adjacent h c G U e a Hin) as [H1 H2].
    destruct (decide _) as [H|H].
    - apply H1. by apply leads_ne.
    - apply H2. intros b X. apply H, leads_ne; [done|]. by exists b.
  Qed.
  Lemma Ii_val k e i a : es !! k = Some e -> ns !! i = Some a -> te_Ii T k i = if decide (comes_from h c e a <> []) then 1%Qc else 0%Qc.
  Proof.
    intros He Ha. pose proof (elem_of_list_lookup_2 _ _ _ He) as Hin. rewrite (d_Ii h c T D _ _ _ _ He Ha). destruct (entry_Ii_adjacent h c G U e a Hin) as [H1 H2].
    destruct (decide _) as [H|H].
    - apply H1. by apply comes_ne.
    - apply H2. intros b X. apply H, comes_ne; [done|]. by exists b.
  Qed.
  Lemma qnat_plus a b : qnat (a + b) = (qnat a + qnat b)%Qc.
  Proof. induction a as [|a IH]; [cbn [Nat.add]; rewrite qnat_0; ring|]. cbn [Nat.add]. rewrite !qnat_S, IH. ring. Qed.
  Lemma q_degree i a : ns !! i = Some a -> degree_matrix T i = node_degree h c a.
  Proof.
    intros Ha. unfold degree_matrix, node_degree.
    assert (E1 : qsum (te_E T) (fun e => te_Io T e i) = qnat (leaving h c a)).
    { rewrite (d_E h c T D). rewrite (qsum_index (edges_of h c) _ (fun e => if decide (leads_to h c e a <> []) then 1%Qc else 0%Qc)).
      - by rewrite qsum_list_count.
      - intros k e He. by apply (Io_val k e i a). }
    assert (E2 : qsum (te_E T) (fun e => te_Ii T e i) = qnat (entering h c a)).
    { rewrite (d_E h c T D). rewrite (qsum_index (edges_of h c) _ (fun e => if decide (comes_from h c e a <> []) then 1%Qc else 0%Qc)).
      - by rewrite qsum_list_count.
      - intros k e He. by apply (Ii_val k e i a). }
    rewrite E1, E2, <- qnat_plus.
    assert (E3 : forallb (fun e => bool_decide (te_Io T e i = te_Ii T e i)) (seq 0 (te_E T)) = bool_decide (Forall (fun e => leads_to h c e a = [] <-> comes_from h c e a = []) (edges_of h c))).
    {
      destruct (decide (Forall (fun e => leads_to h c e a = [] <-> comes_from h c e a = []) (edges_of h c))) as [H|H].
      - rewrite bool_decide_eq_true_2 by done. apply forallb_forall. intros k Hk. apply in_seq in Hk. apply bool_decide_eq_true_2.
        destruct (edge_at h c T D k) as (e & He & Hin); [lia|]. rewrite (Io_val k e i a He Ha), (Ii_val k e i a He Ha).
        rewrite Forall_forall in H. specialize (H e Hin). destruct (decide _) as [K1|K1], (decide _) as [K2|K2]; try done; tauto.
      - rewrite bool_decide_eq_false_2 by done. apply not_true_iff_false. intros X. apply H. apply Forall_forall. intros e He.
        destruct (edge_index h c T D e He) as (k & Hk & Hkl). rewrite forallb_forall in X. assert (Hs : In k (seq 0 (te_E T))) by (apply in_seq; lia). specialize (X k Hs). apply bool_decide_eq_true_1 in X.
        rewrite (Io_val k e i a Hk Ha), (Ii_val k e i a Hk Ha) in X.
        destruct (leads_to h c e a) as [|? ?], (comes_from h c e a) as [|? ?]; split; intros Y; try done; rewrite ?decide_True, ?decide_False in X by naive_solver; discriminate X. }
    rewrite E3. destruct (decide _) as [H|H].
    - rewrite bool_decide_eq_true_2 by done. done.
    - rewrite bool_decide_eq_false_2 by done. cbn [b2q]. assert (E : (1 / (0 + 1))%Qc = 1%Qc) by (apply Qc_is_canon; vm_compute; reflexivity). rewrite E. ring.
  Qed.
  Lemma q_col k e j b : es !! k = Some e -> ns !! j = Some b -> col_sum T k j = qnat (length (comes_from h c e b)).
  Proof.
    intros He Hb. unfold col_sum. rewrite (d_n h c T D). rewrite (qsum_index (nodes_of h c) _ (fun a => if decide (adjacent h e a b) then 1%Qc else 0%Qc)).
    - by rewrite qsum_list_count.
    - intros i a Ha. by apply (W_val k e i a j b).
  Qed.
  Lemma q_row k e i a : es !! k = Some e -> ns !! i = Some a -> row_sum T k i = qnat (length (leads_to h c e a)).
  Proof.
    intros He Ha. unfold row_sum. rewrite (d_n h c T D). rewrite (qsum_index (nodes_of h c) _ (fun b => if decide (adjacent h e a b) then 1%Qc else 0%Qc)).
    - by rewrite qsum_list_count.
    - intros j b Hb. by apply (W_val k e i a j b).
  Qed.
  Lemma q_laplacian : es <> [] -> exists L, laplacian T = Ok L /\
    forall k e i a j b, es !! k = Some e -> ns !! i = Some a -> ns !! j = Some b ->
      L k i j = (if decide (a = b) then edge_degree h c e a else if decide (adjacent h e a b) then - (1) else 0)%Qc.
  Proof.
    intros Hne. assert (HE : te_E T <> 0) by (rewrite (d_E h c T D); intros X; by apply Hne, nil_length_inv).
    unfold laplacian, diag_degree_tensor. rewrite (proj2 (Nat.eqb_neq _ _) HE). eexists. split; [reflexivity|].
    intros k e i a j b He Ha Hb. cbn beta.
    assert (Hi : i < te_n T) by (rewrite (d_n h c T D); by apply lookup_lt_Some in Ha). assert (Hj : j < te_n T) by (rewrite (d_n h c T D); by apply lookup_lt_Some in Hb).
    assert (Hk : k < te_E T) by (rewrite (d_E h c T D); by apply lookup_lt_Some in He).
    assert (Eq : i = j <-> a = b).
    { split; [intros ->; congruence|]. intros ->. exact (proj1 (NoDup_alt _) (nodes_nodup h c W) i j b Ha Hb). }
    rewrite (qsum_ext _ _ (fun m => if decide (i = m) then (if decide (i = j) then edge_degree h c e a else 0%Qc) else 0%Qc)).
    - rewrite (qsum_diag _ (fun _ => if decide (i = j) then edge_degree h c e a else 0%Qc)) by done.
      rewrite (W_val k e i a j b He Ha Hb). destruct (decide (i = j)) as [H|H], (decide (a = b)) as [H'|H']; try tauto.
      + rewrite decide_False; [ring|]. intros (X & _). done.
      + destruct (decide _); ring.
    - intros m Hm. unfold qdiag. destruct (decide (i = m)) as [<-|]; [|ring]. destruct (decide (i = j)) as [<-|]; [|ring].
      rewrite (q_col k e i a He Ha), (q_row k e i a He Ha). unfold edge_degree. destruct (decide _) as [K|K].
      + rewrite bool_decide_eq_true_2 by (by f_equal). done.
      + rewrite bool_decide_eq_false_2 by (intros X; apply qnat_inj in X; done). cbn [b2q]. assert (E : (1 / (0 + 1))%Qc = 1%Qc) by (apply Qc_is_canon; vm_compute; reflexivity). rewrite E. ring.
  Qed.
  Lemma q_entropy sq lg : 2 <= length es -> entropy sq lg T = Ok (graph_entropy sq lg h c).
  Proof.
    intros H2. destruct q_laplacian as (L & HL & K); [intros X; rewrite X in H2; cbn in H2; lia|].
    unfold entropy, entropy_vector, normalized_laplacian. rewrite (proj2 (Nat.eqb_neq _ 1)) by (rewrite (d_E h c T D); fold es; lia). rewrite HL. f_equal.
    unfold graph_entropy. rewrite (d_E h c T D). apply qsum_index. intros k e He. rewrite (d_n h c T D). apply qsum_index. intros i a Ha.
    rewrite (K k e i a i a He Ha Ha), decide_True by done. rewrite (q_degree i a Ha). unfold share.
    replace (Q2Qc (QArith_base.inject_Z (Z.of_nat (length (edges_of h c)) - 1))) with (qnat (length (edges_of h c) - 1)); [done|].
    unfold qnat. do 3 f_equal. fold es. lia.
  Qed.
  (** The projected Laplacian *)
  Definition lap_entry (a b : loc) : Qc :=
    ((if decide (a = b) then node_degree h c a else 0) - qsum_list (map (fun e => if decide (adjacent h e a b) then 1%Qc else 0%Qc) (edges_of h c)))%Qc.
  Lemma q_projected i a j b : ns !! i = Some a -> ns !! j = Some b -> projected_laplacian T i j = lap_entry a b.
  Proof.
    intros Ha Hb. unfold projected_laplacian, lap_entry, diag_degree_matrix, qdiag.
    assert (Eq : i = j <-> a = b).
    { split; [intros ->; congruence|]. intros ->. exact (proj1 (NoDup_alt _) (nodes_nodup h c W) i j b Ha Hb). }
    f_equal.
    - destruct (decide (i = j)) as [H|H], (decide (a = b)) as [H'|H']; try tauto. by apply q_degree.
    - rewrite (d_E h c T D). f_equal. apply qsum_index. intros k e He. by apply (W_val k e i a j b).
  Qed.
  Lemma q_total_deg : total_deg T = qsum_list (map (node_degree h c) ns).
  Proof. unfold total_deg. rewrite (d_n h c T D). apply qsum_index. intros i a Ha. by apply q_degree. Qed.
End iso.

(** ** Isomorphic graphs *)
Lemma perm_count {A B} (f : A -> B) (P : A -> Prop) (Q : B -> Prop) `{!forall x, Decision (P x)} `{!forall x, Decision (Q x)} l l' :
  Permutation (map f l) l' -> (forall x, x ∈ l -> P x <-> Q (f x)) -> length (filter Q l') = length (filter P l).
Proof.
  intros Hp K. rewrite <- Hp. clear Hp. induction l as [|x l IH]; [done|]. cbn [map]. rewrite !filter_cons.
  pose proof (K x ltac:(left)) as Kx. assert (IH' : length (filter Q (map f l)) = length (filter P l)) by (apply IH; intros y Hy; apply K; by right).
  destruct (decide (Q (f x))), (decide (P x)); cbn [length]; [by rewrite IH'|tauto|tauto|done].
Qed.
Section pair.
  Context (h : list obj) (c : loc) (h' : list obj) (c' : loc) (f g : loc -> loc) (I : isomorphic h c h' c' f g).
  Lemma iso_leads e a : e ∈ edges_of h c -> a ∈ nodes_of h c -> length (leads_to h' c' (g e) (f a)) = length (leads_to h c e a).
  Proof. intros He Ha. apply (perm_count f); [apply I|]. intros b Hb. by apply I. Qed.
  Lemma iso_comes e a : e ∈ edges_of h c -> a ∈ nodes_of h c -> length (comes_from h' c' (g e) (f a)) = length (comes_from h c e a).
  Proof. intros He Ha. apply (perm_count f); [apply I|]. intros b Hb. by apply I. Qed.
  Lemma nil_iff {A B} (l : list A) (l' : list B) : length l = length l' -> l = [] <-> l' = [].
  Proof. destruct l, l'; try done. Qed.
  Lemma iso_degree a : a ∈ nodes_of h c -> node_degree h' c' (f a) = node_degree h c a.
  Proof.
    intros Ha. unfold node_degree, leaving, entering.
    rewrite (perm_count g (fun e => leads_to h c e a <> []) (fun e => leads_to h' c' e (f a) <> []) (edges_of h c)).
    2: { apply I. }
    2: { intros e He. by rewrite (nil_iff _ _ (iso_leads e a He Ha)). }
    rewrite (perm_count g (fun e => comes_from h c e a <> []) (fun e => comes_from h' c' e (f a) <> []) (edges_of h c)).
    2: { apply I. }
    2: { intros e He. by rewrite (nil_iff _ _ (iso_comes e a He Ha)). }
    assert (E : Forall (fun e => leads_to h' c' e (f a) = [] <-> comes_from h' c' e (f a) = []) (edges_of h' c') <->
                Forall (fun e => leads_to h c e a = [] <-> comes_from h c e a = []) (edges_of h c)).
    { rewrite <- (is_edges _ _ _ _ _ _ I). rewrite !Forall_forall. split; intros H e He.
      - rewrite <- (nil_iff _ _ (iso_leads e a He Ha)), <- (nil_iff _ _ (iso_comes e a He Ha)). apply H. by apply elem_of_list_fmap_1.
      - apply elem_of_list_fmap in He as (e0 & -> & He). rewrite (nil_iff _ _ (iso_leads e0 a He Ha)), (nil_iff _ _ (iso_comes e0 a He Ha)). by apply H. }
    destruct (decide _) as [H1|H1], (decide _) as [H2|H2]; try done; tauto.
  Qed.
  Lemma iso_edge_degree e a : e ∈ edges_of h c -> a ∈ nodes_of h c -> edge_degree h' c' (g e) (f a) = edge_degree h c e a.
  Proof. intros He Ha. unfold edge_degree. by rewrite (iso_leads e a He Ha), (iso_comes e a He Ha). Qed.
  Lemma iso_edges_length : length (edges_of h' c') = length (edges_of h c).
  Proof. rewrite <- (is_edges _ _ _ _ _ _ I). apply map_length. Qed.
  Lemma iso_nodes_length : length (nodes_of h' c') = length (nodes_of h c).
  Proof. rewrite <- (is_nodes _ _ _ _ _ _ I). apply map_length. Qed.
  Lemma iso_sum (F F' : loc -> Qc) (m : loc -> loc) l l' : Permutation (map m l) l' -> (forall a, a ∈ l -> F' (m a) = F a) -> qsum_list (map F' l') = qsum_list (map F l).
  Proof.
    intros P H. transitivity (qsum_list (map F' (map m l))); [apply perm_qsum; by rewrite P|]. rewrite map_map. apply qsum_list_ext. done.
  Qed.
  Lemma iso_entropy sq lg : graph_entropy sq lg h' c' = graph_entropy sq lg h c.
  Proof.
    unfold graph_entropy. apply (iso_sum _ _ g); [apply I|]. intros e He. apply (iso_sum _ _ f); [apply I|]. intros a Ha.
    unfold share. by rewrite iso_edges_length, (iso_edge_degree e a He Ha), (iso_degree a Ha).
  Qed.
  Lemma iso_lap a b : NoDup (nodes_of h' c') -> a ∈ nodes_of h c -> b ∈ nodes_of h c -> lap_entry h' c' (f a) (f b) = lap_entry h c a b.
  Proof.
    intros N Ha Hb. unfold lap_entry. f_equal.
    - rewrite (iso_degree a Ha). assert (E : f a = f b <-> a = b).
      { split; [|congruence]. intros E. rewrite <- (is_nodes _ _ _ _ _ _ I) in N. apply elem_of_list_lookup in Ha as [i Hi], Hb as [j Hj].
        assert (i = j); [|congruence]. apply (proj1 (NoDup_alt _) N i j (f a)); rewrite list_lookup_fmap; [by rewrite Hi|rewrite Hj; cbn; by rewrite E]. }
      destruct (decide _), (decide _); try done; tauto.
    - apply (iso_sum _ _ g); [apply I|]. intros e He. pose proof (is_adj _ _ _ _ _ _ I e a b He Ha Hb) as E. destruct (decide _), (decide _); try done; tauto.
  Qed.
End pair.

(** Positions *)
Definition position (f : loc -> loc) (l l' : list loc) (i : nat) : nat :=
  match l !! i with Some a => match list_find (fun b => b = f a) l' with Some (j, _) => j | None => 0 end | None => 0 end.
Lemma position_at f l l' i a : Permutation (map f l) l' -> l !! i = Some a -> l' !! position f l l' i = Some (f a).
Proof.
  intros P Ha. unfold position. rewrite Ha. assert (X : f a ∈ l') by (rewrite <- P; apply elem_of_list_fmap_1; by eapply elem_of_list_lookup_2).
  destruct (list_find (fun b => b = f a) l') as [[j b]|] eqn:E.
  - apply list_find_Some in E as (E & -> & _). exact E.
  - apply list_find_None in E. rewrite Forall_forall in E. by destruct (E _ X).
Qed.

(** Assembled. *)
Section full.
  Context (s : st) (c lim : nat) (x : hom) (T : tensors) (R : reach s) (G : closed_graph (heap s) c) (Hl : work (heap s) c < lim) (HC : computes lim c s x T) (U : unweighted (heap s) c).
  Lemma full_degree i a : nodes_of (heap s) c !! i = Some a -> degree_matrix T i = node_degree (heap s) c a.
  Proof. exact (q_degree (heap s) c G T (full_D s c lim x T R G Hl HC) U i a). Qed.
  Lemma full_laplacian : edges_of (heap s) c <> [] -> exists L, laplacian T = Ok L /\
    forall k e i a j b, edges_of (heap s) c !! k = Some e -> nodes_of (heap s) c !! i = Some a -> nodes_of (heap s) c !! j = Some b ->
      L k i j = (if decide (a = b) then edge_degree (heap s) c e a else if decide (adjacent (heap s) e a b) then - (1) else 0)%Qc.
  Proof. exact (q_laplacian (heap s) c (reach_wf s R) G T (full_D s c lim x T R G Hl HC) U). Qed.
  Lemma full_entropy sq lg : 2 <= length (edges_of (heap s) c) -> entropy sq lg T = Ok (graph_entropy sq lg (heap s) c).
  Proof. exact (q_entropy (heap s) c (reach_wf s R) G T (full_D s c lim x T R G Hl HC) U sq lg). Qed.
  Context (s' : st) (c' lim' : nat) (x' : hom) (T' : tensors) (R' : reach s') (G' : closed_graph (heap s') c') (Hl' : work (heap s') c' < lim') (HC' : computes lim' c' s' x' T') (U' : unweighted (heap s') c').
  Context (f g : loc -> loc) (I : isomorphic (heap s) c (heap s') c' f g).
  Let D := full_D s c lim x T R G Hl HC.
  Let D' := full_D s' c' lim' x' T' R' G' Hl' HC'.
  Lemma full_total : total_deg T' = total_deg T.
  Proof.
    rewrite (q_total_deg (heap s) c G T D U), (q_total_deg (heap s') c' G' T' D' U').
    apply (iso_sum _ _ f); [apply I|]. intros a Ha. by apply (iso_degree _ _ _ _ f g I).
  Qed.
  Lemma full_iso_entropy sq lg : entropy sq lg T' = entropy sq lg T.
  Proof.
    pose proof (iso_edges_length _ _ _ _ f g I) as L. assert (E : te_E T' = te_E T) by (rewrite (d_E _ _ _ D), (d_E _ _ _ D'); exact L).
    destruct (q_C37 sq lg T) as (A1 & A0 & _). destruct (q_C37 sq lg T') as (B1 & B0 & _).
    destruct (te_E T) as [|[|m]] eqn:ET.
    - unfold entropy, entropy_vector. by rewrite (A0 eq_refl), (B0 E).
    - destruct (A1 eq_refl) as (_ & _ & ->). by destruct (B1 E) as (_ & _ & ->).
    - assert (L2 : 2 <= length (edges_of (heap s) c)) by (rewrite <- (d_E _ _ _ D); lia).
      rewrite (q_entropy (heap s) c (reach_wf s R) G T D U sq lg L2), (q_entropy (heap s') c' (reach_wf s' R') G' T' D' U' sq lg) by lia.
      f_equal. by apply (iso_entropy _ _ _ _ f g).
  Qed.
  Lemma full_iso_projected eigs lg : orderless eigs -> entropy_projected eigs lg T' = entropy_projected eigs lg T.
  Proof.
    intros O. assert (En : te_n T' = te_n T) by (rewrite (d_n _ _ _ D), (d_n _ _ _ D'); exact (iso_nodes_length _ _ _ _ f g I)).
    pose proof (nodes_nodup _ c' (reach_wf s' R')) as N'. pose proof (nodes_nodup _ c (reach_wf s R)) as N. pose proof (is_nodes _ _ _ _ _ _ I) as PN.
    set (p := position f (nodes_of (heap s) c) (nodes_of (heap s') c')).
    assert (P : Permutation (eigs (te_n T) (fun i j => (projected_laplacian T' i j / total_deg T)%Qc)) (eigs (te_n T) (fun i j => (projected_laplacian T i j / total_deg T)%Qc))).
    { apply (O _ _ _ p).
      - intros i Hi. destruct (node_at _ c T D i Hi) as (a & Ha & _). rewrite <- En, (d_n _ _ _ D'). eapply lookup_lt_Some. by apply position_at.
      - intros i j Hi Hj E. destruct (node_at _ c T D i Hi) as (a & Ha & _). destruct (node_at _ c T D j Hj) as (b & Hb & _).
        pose proof (position_at f _ _ i a PN Ha) as X. pose proof (position_at f _ _ j b PN Hb) as Y. fold p in X, Y. rewrite E in X. rewrite X in Y. injection Y as Y.
        rewrite <- PN in N'. apply (proj1 (NoDup_alt _) N' i j (f a)); rewrite list_lookup_fmap; [by rewrite Ha|rewrite Hb; cbn; by rewrite Y].
      - intros i j Hi Hj. destruct (node_at _ c T D i Hi) as (a & Ha & Hain). destruct (node_at _ c T D j Hj) as (b & Hb & Hbin). f_equal.
        pose proof (position_at f _ _ i a PN Ha) as X. pose proof (position_at f _ _ j b PN Hb) as Y. fold p in X, Y.
        rewrite (q_projected _ c (reach_wf s R) G T D U i a j b Ha Hb), (q_projected _ c' (reach_wf s' R') G' T' D' U' _ _ _ _ X Y).
        by apply (iso_lap _ _ _ _ f g I). }
    unfold entropy_projected, entropy_projected_vector. rewrite En, full_total.
    destruct (decide _); [done|]. f_equal. revert P. generalize (eigs (te_n T) (fun i j => (projected_laplacian T' i j / total_deg T)%Qc)) (eigs (te_n T) (fun i j => (projected_laplacian T i j / total_deg T)%Qc)).
    induction 1 as [|v l1 l2 _ IH|v w l|l1 l2 l3 _ IH1 _ IH2]; [done|cbn [map foldr]; by rewrite IH| |by rewrite IH1].
    cbn [map foldr]. generalize (foldr fadd (Some 0%Qc) (map (fun v => if decide (v = 0%Qc) then None else Some (- v * lg v)%Qc) l)). intros r.
    destruct (decide (v = 0%Qc)), (decide (w = 0%Qc)), r; cbn; try done. f_equal. ring.
  Qed.
End full.
Lemma full_undirected s c lim x T e a : reach s -> closed_graph (heap s) c -> work (heap s) c < lim -> computes lim c s x T ->
  unweighted (heap s) c -> undirected (heap s) c -> e ∈ edges_of (heap s) c -> a ∈ nodes_of (heap s) c ->
  node_degree (heap s) c a = qnat (length (proper_edges (heap s) c a)) /\
  edge_degree (heap s) c e a = (if decide (a ∈ endpoints (heap s) e) then (qnat (arity (heap s) e) - 1) * (1 / (1 + 1)) else 0)%Qc.
Proof.
  intros R G Hl HC U V He Ha. pose proof (full_D s c lim x T R G Hl HC) as D. apply elem_of_list_lookup in Ha as [i Hi]. split.
  - rewrite <- (q_degree _ c G T D U i a Hi). destruct (q_C34 _ c G T D U V) as (_ & _ & H). by apply H.
  - destruct (edge_index _ c T D e He) as (k & Hk & Hkl). pose proof (und_col _ c (reach_wf s R) G T D U V k e i a Hk Hi) as E.
    assert (Ec : col_sum T k i = qnat (length (comes_from (heap s) c e a))) by (eapply q_col; done).
    assert (Er : row_sum T k i = qnat (length (leads_to (heap s) c e a))) by (eapply q_row; done).
    assert (Hil : i < te_n T) by (rewrite (d_n _ _ _ D); by apply lookup_lt_Some in Hi).
    assert (El : length (comes_from (heap s) c e a) = length (leads_to (heap s) c e a)).
    { apply qnat_inj. rewrite <- Ec, <- Er. symmetry. by apply (und_row _ c G T D U V). }
    unfold edge_degree. rewrite decide_True by done. rewrite <- Ec, E. destruct (decide _); ring.
Qed.
