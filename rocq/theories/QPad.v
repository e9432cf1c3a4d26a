(** * Proofs of C98: nodes without edges do not count *)
From Verif Require Import Spec Hierarchy Elements Factory History PDict PPath PExec PBfs PWF PMono PReach PHist Traverse SpecTrav QTrav QTrav2 QTrav3 Homomorphism SpecHom QHom HTraverse Tensor SpecTensor QTensor QTensor2 QTensor3 SpecLap QLap SpecEntropy QEntropy SpecIso QIso SpecPad.
Local Open Scope nat_scope.

Lemma filter_none {A} (P : A -> Prop) `{!forall x, Decision (P x)} l : (forall x, x ∈ l -> ~ P x) -> filter P l = [].
Proof. induction l as [|y l IH]; intros K; [done|]. rewrite filter_cons_False; [apply IH; intros x Hx; apply K; by right|apply K; left]. Qed.
Lemma pad_count {A B} (f : A -> B) (P : A -> Prop) (Q : B -> Prop) `{!forall x, Decision (P x)} `{!forall x, Decision (Q x)} l x l' :
  Permutation (map f l ++ x) l' -> (forall a, a ∈ l -> P a <-> Q (f a)) -> (forall b, b ∈ x -> ~ Q b) -> length (filter Q l') = length (filter P l).
Proof.
  intros Hp K X. rewrite <- Hp, filter_app, app_length, (filter_none Q x X). cbn [length]. rewrite Nat.add_0_r.
  by apply (perm_count f).
Qed.
Lemma qsum_list_app l l' : qsum_list (l ++ l') = (qsum_list l + qsum_list l')%Qc.
Proof.
  induction l as [|q l IH]; [change (qsum_list l' = 0 + qsum_list l')%Qc; ring|].
  change (q + qsum_list (l ++ l') = q + qsum_list l + qsum_list l')%Qc. rewrite IH. ring.
Qed.
Lemma qsum_list_zero {A} (F : A -> Qc) l : (forall a, a ∈ l -> F a = 0%Qc) -> qsum_list (map F l) = 0%Qc.
Proof.
  induction l as [|a l IH]; intros H; [done|]. cbn [map]. change (qsum_list (F a :: map F l)) with (F a + qsum_list (map F l))%Qc.
  rewrite IH by (intros b Hb; apply H; by right). rewrite (H a) by left. ring.
Qed.
Section pair.
  Context (h : list obj) (c : loc) (h' : list obj) (c' : loc) (f g : loc -> loc) (extra : list loc) (I : padded h c h' c' f g extra).
  Lemma g_in e : e ∈ edges_of h c -> g e ∈ edges_of h' c'.
  Proof. intros He. rewrite <- (pd_edges _ _ _ _ _ _ _ I). by apply elem_of_list_fmap_1. Qed.
  Lemma pad_leads e a : e ∈ edges_of h c -> a ∈ nodes_of h c -> length (leads_to h' c' (g e) (f a)) = length (leads_to h c e a).
  Proof.
    intros He Ha. apply (pad_count f _ _ _ extra); [apply I| |].
    - intros b Hb. by apply I.
    - intros b Hb. by apply (pd_extra _ _ _ _ _ _ _ I b Hb (g e) (f a) (g_in e He)).
  Qed.
  Lemma pad_comes e a : e ∈ edges_of h c -> a ∈ nodes_of h c -> length (comes_from h' c' (g e) (f a)) = length (comes_from h c e a).
  Proof.
    intros He Ha. apply (pad_count f _ _ _ extra); [apply I| |].
    - intros b Hb. by apply I.
    - intros b Hb. by apply (pd_extra _ _ _ _ _ _ _ I b Hb (g e) (f a) (g_in e He)).
  Qed.
  Lemma extra_leads e a : e ∈ edges_of h' c' -> a ∈ extra -> leads_to h' c' e a = [].
  Proof. intros He Ha. apply filter_none. intros b _. by apply (pd_extra _ _ _ _ _ _ _ I a Ha e b He). Qed.
  Lemma extra_comes e a : e ∈ edges_of h' c' -> a ∈ extra -> comes_from h' c' e a = [].
  Proof. intros He Ha. apply filter_none. intros b _. by apply (pd_extra _ _ _ _ _ _ _ I a Ha e b He). Qed.
  Lemma pad_degree a : a ∈ nodes_of h c -> node_degree h' c' (f a) = node_degree h c a.
  Proof.
    intros Ha. unfold node_degree, leaving, entering.
    rewrite (perm_count g (fun e => leads_to h c e a <> []) (fun e => leads_to h' c' e (f a) <> []) (edges_of h c)).
    2: { apply I. }
    2: { intros e He. by rewrite (nil_iff _ _ (pad_leads e a He Ha)). }
    rewrite (perm_count g (fun e => comes_from h c e a <> []) (fun e => comes_from h' c' e (f a) <> []) (edges_of h c)).
    2: { apply I. }
    2: { intros e He. by rewrite (nil_iff _ _ (pad_comes e a He Ha)). }
    assert (E : Forall (fun e => leads_to h' c' e (f a) = [] <-> comes_from h' c' e (f a) = []) (edges_of h' c') <->
                Forall (fun e => leads_to h c e a = [] <-> comes_from h c e a = []) (edges_of h c)).
    { rewrite <- (pd_edges _ _ _ _ _ _ _ I). rewrite !Forall_forall. split; intros H e He.
      - rewrite <- (nil_iff _ _ (pad_leads e a He Ha)), <- (nil_iff _ _ (pad_comes e a He Ha)). apply H. by apply elem_of_list_fmap_1.
      - apply elem_of_list_fmap in He as (e0 & -> & He). rewrite (nil_iff _ _ (pad_leads e0 a He Ha)), (nil_iff _ _ (pad_comes e0 a He Ha)). by apply H. }
    destruct (decide _) as [H1|H1], (decide _) as [H2|H2]; try done; tauto.
  Qed.
  Lemma extra_degree a : a ∈ extra -> node_degree h' c' a = 0%Qc.
  Proof.
    intros Ha. unfold node_degree, leaving, entering.
    rewrite (filter_none (fun e => leads_to h' c' e a <> [])) by (intros e He X; apply X; by apply extra_leads).
    rewrite (filter_none (fun e => comes_from h' c' e a <> [])) by (intros e He X; apply X; by apply extra_comes).
    cbn [length Nat.add]. change (qnat 0) with 0%Qc. destruct (decide _); ring.
  Qed.
  Lemma pad_edge_degree e a : e ∈ edges_of h c -> a ∈ nodes_of h c -> edge_degree h' c' (g e) (f a) = edge_degree h c e a.
  Proof. intros He Ha. unfold edge_degree. by rewrite (pad_leads e a He Ha), (pad_comes e a He Ha). Qed.
  Lemma extra_edge_degree e a : e ∈ edges_of h' c' -> a ∈ extra -> edge_degree h' c' e a = 0%Qc.
  Proof. intros He Ha. unfold edge_degree. rewrite (extra_leads e a He Ha), (extra_comes e a He Ha). cbn [length]. change (qnat 0) with 0%Qc. destruct (decide _); ring. Qed.
  Lemma pad_edges_length : length (edges_of h' c') = length (edges_of h c).
  Proof. rewrite <- (pd_edges _ _ _ _ _ _ _ I). apply map_length. Qed.
  Lemma pad_sum (F F' : loc -> Qc) : (forall a, a ∈ nodes_of h c -> F' (f a) = F a) -> (forall a, a ∈ extra -> F' a = 0%Qc) ->
    qsum_list (map F' (nodes_of h' c')) = qsum_list (map F (nodes_of h c)).
  Proof.
    intros H X. transitivity (qsum_list (map F' (map f (nodes_of h c) ++ extra))); [apply perm_qsum; by rewrite (pd_nodes _ _ _ _ _ _ _ I)|].
    rewrite map_app, qsum_list_app, (qsum_list_zero F' extra X), map_map, (qsum_list_ext _ F); [ring|done].
  Qed.
  Lemma pad_entropy sq lg : graph_entropy sq lg h' c' = graph_entropy sq lg h c.
  Proof.
    unfold graph_entropy. apply (iso_sum _ _ g); [apply I|]. intros e He. apply pad_sum.
    - intros a Ha. unfold share. by rewrite pad_edges_length, (pad_edge_degree e a He Ha), (pad_degree a Ha).
    - intros a Ha. assert (E : share sq h' c' (g e) a = 0%Qc); [|rewrite E; ring].
      unfold share. rewrite (extra_edge_degree (g e) a (g_in e He) Ha). unfold Qcdiv. ring.
  Qed.
  Lemma extra_in a : a ∈ extra -> a ∈ nodes_of h' c'.
  Proof. intros Ha. rewrite <- (pd_nodes _ _ _ _ _ _ _ I). apply elem_of_app. by right. Qed.
End pair.

(** Assembled. *)
Section full.
  Context (s : st) (c lim : nat) (x : hom) (T : tensors) (R : reach s) (G : closed_graph (heap s) c) (Hl : work (heap s) c < lim) (HC : computes lim c s x T) (U : unweighted (heap s) c).
  Lemma full_untouched eigs lg a : finds_zero eigs -> a ∈ nodes_of (heap s) c -> untouched (heap s) c a ->
    entropy_projected eigs lg T = (if decide (total_deg T = 0%Qc) then LinAlgError else Value None).
  Proof.
    intros F Ha Un. pose proof (full_D s c lim x T R G Hl HC) as D.
    assert (Hn : te_n T <> 0) by (rewrite (d_n _ _ _ D); destruct (nodes_of (heap s) c); [inversion Ha|done]).
    pose proof (untouched_singular (heap s) c G T D U a Ha Un) as Sg.
    destruct (decide _) as [E|E].
    - by apply (proj2 (proj1 (full_nan T eigs lg F))).
    - by apply (proj2 (proj2 (full_nan T eigs lg F))).
  Qed.
  Context (s' : st) (c' lim' : nat) (x' : hom) (T' : tensors) (R' : reach s') (G' : closed_graph (heap s') c') (Hl' : work (heap s') c' < lim') (HC' : computes lim' c' s' x' T') (U' : unweighted (heap s') c').
  Context (f g : loc -> loc) (extra : list loc) (I : padded (heap s) c (heap s') c' f g extra).
  Let D := full_D s c lim x T R G Hl HC.
  Let D' := full_D s' c' lim' x' T' R' G' Hl' HC'.
  Lemma full_pad_degree i j a : nodes_of (heap s) c !! i = Some a -> nodes_of (heap s') c' !! j = Some (f a) -> degree_matrix T' j = degree_matrix T i.
  Proof.
    intros Ha Hb. rewrite (q_degree (heap s) c G T D U i a Ha), (q_degree (heap s') c' G' T' D' U' j (f a) Hb).
    apply (pad_degree _ _ _ _ f g extra I). by eapply elem_of_list_lookup_2.
  Qed.
  Lemma full_pad_extra j a : a ∈ extra -> nodes_of (heap s') c' !! j = Some a -> degree_matrix T' j = 0%Qc.
  Proof. intros Ha Hb. rewrite (q_degree (heap s') c' G' T' D' U' j a Hb). by apply (extra_degree _ _ _ _ f g extra I). Qed.
  Lemma full_pad_total : total_deg T' = total_deg T.
  Proof.
    rewrite (q_total_deg (heap s) c G T D U), (q_total_deg (heap s') c' G' T' D' U').
    apply (pad_sum _ _ _ _ f g extra I); intros a Ha; [by apply (pad_degree _ _ _ _ f g extra I)|by apply (extra_degree _ _ _ _ f g extra I)].
  Qed.
  Lemma full_pad_entropy sq lg : entropy sq lg T' = entropy sq lg T.
  Proof.
    pose proof (pad_edges_length _ _ _ _ f g extra I) as L. assert (E : te_E T' = te_E T) by (rewrite (d_E _ _ _ D), (d_E _ _ _ D'); exact L).
    destruct (q_C37 sq lg T) as (A1 & A0 & _). destruct (q_C37 sq lg T') as (B1 & B0 & _).
    destruct (te_E T) as [|[|m]] eqn:ET.
    - unfold entropy, entropy_vector. by rewrite (A0 eq_refl), (B0 E).
    - destruct (A1 eq_refl) as (_ & _ & ->). by destruct (B1 E) as (_ & _ & ->).
    - assert (L2 : 2 <= length (edges_of (heap s) c)) by (rewrite <- (d_E _ _ _ D); lia).
      rewrite (q_entropy (heap s) c (reach_wf s R) G T D U sq lg L2), (q_entropy (heap s') c' (reach_wf s' R') G' T' D' U' sq lg) by lia.
      f_equal. by apply (pad_entropy _ _ _ _ f g extra).
  Qed.
  Lemma full_pad_projected eigs lg : finds_zero eigs -> extra <> [] ->
    entropy_projected eigs lg T' = (if decide (total_deg T = 0%Qc) then LinAlgError else Value None).
  Proof.
    intros F Hx. destruct extra as [|a ex] eqn:E; [done|]. rewrite <- E in *. assert (Ha : a ∈ extra) by (rewrite E; left).
    rewrite <- full_pad_total. clear D. pose proof (pd_extra _ _ _ _ _ _ _ I a Ha) as Un. pose proof (extra_in _ _ _ _ f g extra I a Ha) as Hin.
    assert (Hn : te_n T' <> 0) by (rewrite (d_n _ _ _ D'); destruct (nodes_of (heap s') c'); [inversion Hin|done]).
    pose proof (untouched_singular (heap s') c' G' T' D' U' a Hin Un) as Sg.
    destruct (decide _) as [Et|Et].
    - by apply (proj2 (proj1 (full_nan T' eigs lg F))).
    - by apply (proj2 (proj2 (full_nan T' eigs lg F))).
  Qed.
End full.
