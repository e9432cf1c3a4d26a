(** * C32 - C37: assembled *)
From Verif Require Import Spec Hierarchy Elements Factory History PReach PWF QTrav Homomorphism SpecHom QHom HTraverse Tensor SpecTensor QTensor QTensor2.
Local Open Scope nat_scope.

Lemma q_computes s c lim x T : reach s -> closed_graph (heap s) c -> work (heap s) c < lim -> computes lim c s x T ->
  describes (heap s) c T /\
  (forall i p, nodes_of (heap s) c !! i = Some p <-> p ∈ nodes_of (heap s) c /\ hom_node x (uuid_of (heap s) p) = Ok i) /\
  (forall k e, edges_of (heap s) c !! k = Some e <-> e ∈ edges_of (heap s) c /\ hom_edge x (uuid_of (heap s) e) = Ok k).
Proof.
  intros R G Hl (tasks & s' & Ht). destruct (q_tensor s c lim R G Hl) as (tasks' & x' & T' & Ht' & Hix & HT).
  rewrite Ht in Ht'. injection Ht' as <- -> <- <-. destruct HT as [HT _]. split; [exact HT|].
  assert (Hc : exists_in (heap s) c) by (pose proof (cg_node _ _ G) as Hk; unfold kind_of in Hk; destruct (heap s !! c) eqn:E; [by eexists|done]).
  destruct (q_C30_depth1 s c lim hom0 R Hc) as (r & y & _ & _ & Nn & Ne & _); [unfold work in Hl; lia|].
  fold (nodes_of (heap s) c) in Nn. fold (edges_of (heap s) c) in Ne.
  assert (Hn : forall i p, nodes_of (heap s) c !! i = Some p -> hom_node x (uuid_of (heap s) p) = Ok i).
  { intros i p Hi. destruct Hix as ((_ & _ & H & _) & _). apply H. rewrite list_lookup_fmap, Hi. split; [done|].
    intros j Hj. eapply NoDup_lookup in Nn; [|exact Hj|rewrite list_lookup_fmap, Hi; reflexivity]. lia. }
  assert (He : forall i p, edges_of (heap s) c !! i = Some p -> hom_edge x (uuid_of (heap s) p) = Ok i).
  { intros i p Hi. destruct Hix as (_ & (_ & _ & H & _) & _). apply H. rewrite list_lookup_fmap, Hi. split; [done|].
    intros j Hj. eapply NoDup_lookup in Ne; [|exact Hj|rewrite list_lookup_fmap, Hi; reflexivity]. lia. }
  split; (split; [intros Hi; split; [by eapply elem_of_list_lookup_2|by auto]|]); intros [Hin Hh];
    apply elem_of_list_lookup in Hin as [j Hj]; [pose proof (Hn j _ Hj)|pose proof (He j _ Hj)]; congruence.
Qed.
Lemma q_total s c lim : reach s -> closed_graph (heap s) c -> work (heap s) c < lim -> nodes_of (heap s) c <> [] \/ edges_of (heap s) c <> [] ->
  exists x T, computes lim c s x T.
Proof.
  intros R G Hl Hne. destruct (q_tensor s c lim R G Hl) as (tasks & x & [T|] & Ht & _ & HT).
  - exists x, T. by exists tasks, s.
  - destruct HT as [E1 E2]. by destruct Hne.
Qed.
Lemma q_C32_conj s c lim x T e k a i b j r : reach s -> closed_graph (heap s) c -> work (heap s) c < lim -> computes lim c s x T -> unweighted (heap s) c ->
  edges_of (heap s) c !! k = Some e -> nodes_of (heap s) c !! i = Some a -> nodes_of (heap s) c !! j = Some b -> a <> b ->
  r ∈ rels_of (heap s) e -> ep_of (heap s) r = Some a -> inward (heap s) r -> b ∈ endpoints (heap s) e ->
  te_W T k i j = 1%Qc.
Proof.
  intros R G Hl HC U He Ha Hb Hab Hr Hp Hin Hbe. destruct (q_computes s c lim x T R G Hl HC) as (D & _ & _).
  apply (proj1 (q_C32 _ c G T D U) k e i a j b He Ha Hb). split; [done|]. split; [unfold endpoints; apply elem_of_list_omap; by exists r|]. split; [done|]. exists r. split; [done|]. by left.
Qed.
Lemma q_C37_edge s c lim e sq lg : reach s -> closed_graph (heap s) c -> work (heap s) c < lim -> edges_of (heap s) c = [e] ->
  exists x T, computes lim c s x T /\ normalized_laplacian sq T = Exn ZeroDivisionError /\
    entropy_vector sq lg T = Exn ZeroDivisionError /\ entropy sq lg T = Exn ZeroDivisionError.
Proof.
  intros R G Hl He. destruct (q_total s c lim R G Hl) as (x & T & HC); [right; by rewrite He|]. exists x, T. split; [done|].
  destruct (q_computes s c lim x T R G Hl HC) as ((DE & _) & _ & _). apply q_C37. by rewrite DE, He.
Qed.
Lemma q_C37_several s c lim x T sq lg : reach s -> closed_graph (heap s) c -> work (heap s) c < lim -> computes lim c s x T ->
  2 <= length (edges_of (heap s) c) -> (exists N, normalized_laplacian sq T = Ok N) /\ (exists v, entropy_vector sq lg T = Ok v) /\ exists y, entropy sq lg T = Ok y.
Proof.
  intros R G Hl HC He. destruct (q_computes s c lim x T R G Hl HC) as ((DE & _) & _ & _).
  destruct (proj2 (proj2 (q_C37 sq lg T))) as [[N HN] Hx]; [by rewrite DE|]. split; [by exists N|]. split; [|done].
  unfold entropy_vector. rewrite HN. by eexists.
Qed.
Lemma q_C32_succeeds s c lim : reach s -> closed_graph (heap s) c -> work (heap s) c < lim ->
  exists tasks x T, transform lim (Some 1) c s = (Ok tasks, s, Some (x, T)) /\
    (T = None <-> nodes_of (heap s) c = [] /\ edges_of (heap s) c = []).
Proof.
  intros R G Hl. destruct (q_tensor s c lim R G Hl) as (tasks & x & T & Ht & _ & HT). exists tasks, x, T. split; [exact Ht|].
  destruct T as [T|]; [|by split]. split; [done|]. intros [E1 E2]. destruct HT as [_ HT]. by destruct HT.
Qed.
Lemma q_C32_indices s c lim x T : reach s -> closed_graph (heap s) c -> work (heap s) c < lim -> computes lim c s x T ->
  te_E T = length (edges_of (heap s) c) /\ te_n T = length (nodes_of (heap s) c) /\
  (forall i p, nodes_of (heap s) c !! i = Some p <-> p ∈ nodes_of (heap s) c /\ hom_node x (uuid_of (heap s) p) = Ok i) /\
  (forall k e, edges_of (heap s) c !! k = Some e <-> e ∈ edges_of (heap s) c /\ hom_edge x (uuid_of (heap s) e) = Ok k).
Proof. intros R G Hl HC. destruct (q_computes s c lim x T R G Hl HC) as ((D1 & D2 & _) & H1 & H2). done. Qed.
Lemma q_C32_full s c lim x T : reach s -> closed_graph (heap s) c -> work (heap s) c < lim -> computes lim c s x T -> unweighted (heap s) c ->
  (forall k e i a j b, edges_of (heap s) c !! k = Some e -> nodes_of (heap s) c !! i = Some a -> nodes_of (heap s) c !! j = Some b ->
     (adjacent (heap s) e a b -> te_W T k i j = 1%Qc) /\ (~ adjacent (heap s) e a b -> te_W T k i j = 0%Qc)) /\
  (forall k i, k < te_E T -> i < te_n T ->
     ((exists j, j < te_n T /\ te_W T k i j <> 0%Qc) -> te_Io T k i = 1%Qc) /\
     ((forall j, j < te_n T -> te_W T k i j = 0%Qc) -> te_Io T k i = 0%Qc)) /\
  (forall k j, k < te_E T -> j < te_n T ->
     ((exists i, i < te_n T /\ te_W T k i j <> 0%Qc) -> te_Ii T k j = 1%Qc) /\
     ((forall i, i < te_n T -> te_W T k i j = 0%Qc) -> te_Ii T k j = 0%Qc)).
Proof. intros R G Hl HC U. destruct (q_computes s c lim x T R G Hl HC) as (D & _). exact (q_C32 (heap s) c G T D U). Qed.
Lemma q_C33_full s c lim x T : reach s -> closed_graph (heap s) c -> work (heap s) c < lim -> computes lim c s x T ->
  (forall k i, k < te_E T -> i < te_n T -> te_W T k i i = 0%Qc) /\
  qsum (te_n T) (fun i => projected_laplacian T i i) = total_deg T.
Proof. intros R G Hl HC. destruct (q_computes s c lim x T R G Hl HC) as (D & _). exact (q_C33 (heap s) c T D). Qed.
Lemma q_C34_full s c lim x T : reach s -> closed_graph (heap s) c -> work (heap s) c < lim -> computes lim c s x T ->
  unweighted (heap s) c -> undirected (heap s) c ->
  (forall k i j, k < te_E T -> i < te_n T -> j < te_n T -> te_W T k i j = te_W T k j i) /\
  (forall k i, k < te_E T -> i < te_n T -> te_Io T k i = te_Ii T k i) /\
  (forall i a, nodes_of (heap s) c !! i = Some a -> degree_matrix T i = qnat (length (proper_edges (heap s) c a))).
Proof. intros R G Hl HC U V. destruct (q_computes s c lim x T R G Hl HC) as (D & _). exact (q_C34 (heap s) c G T D U V). Qed.
Lemma q_C35_full s c lim x T : reach s -> closed_graph (heap s) c -> work (heap s) c < lim -> computes lim c s x T ->
  unweighted (heap s) c -> undirected (heap s) c -> edges_of (heap s) c <> [] ->
  exists L, laplacian T = Ok L /\
    forall i a j, nodes_of (heap s) c !! i = Some a -> j < te_n T ->
      qsum (te_E T) (fun k => L k i j) = (projected_laplacian T i j + (if decide (i = j) then excess (heap s) c a else 0))%Qc.
Proof. intros R G Hl HC U V. destruct (q_computes s c lim x T R G Hl HC) as (D & _). exact (q_C35 (heap s) c (reach_wf s R) G T D U V). Qed.
Lemma q_C35_unif s c lim x T m : reach s -> closed_graph (heap s) c -> work (heap s) c < lim -> computes lim c s x T ->
  unweighted (heap s) c -> undirected (heap s) c ->
  edges_of (heap s) c <> [] -> (forall e, e ∈ edges_of (heap s) c -> arity (heap s) e = m) ->
  exists L, laplacian T = Ok L /\
    (m = 3 -> forall i j, i < te_n T -> j < te_n T -> qsum (te_E T) (fun k => L k i j) = projected_laplacian T i j) /\
    (2 <= m -> m <> 3 -> exists i, i < te_n T /\ qsum (te_E T) (fun k => L k i i) <> projected_laplacian T i i).
Proof. intros R G Hl HC. destruct (q_computes s c lim x T R G Hl HC) as (D & _). exact (q_C35_uniform s c T m R G D). Qed.
Lemma q_C36_full s c lim x T k e i a j b : reach s -> closed_graph (heap s) c -> work (heap s) c < lim -> computes lim c s x T ->
  edges_of (heap s) c !! k = Some e -> nodes_of (heap s) c !! i = Some a -> nodes_of (heap s) c !! j = Some b ->
  (a <> b -> a ∈ endpoints (heap s) e -> b ∈ endpoints (heap s) e ->
    (forall l1 r l2 w, rels_of (heap s) e = l1 ++ r :: l2 -> writes_entry (heap s) a b r w ->
       (forall r' w', r' ∈ l2 -> ~ writes_entry (heap s) a b r' w') -> te_W T k i j = w) /\
    ((forall r w, r ∈ rels_of (heap s) e -> ~ writes_entry (heap s) a b r w) -> te_W T k i j = 0%Qc)) /\
  (~ (a <> b /\ a ∈ endpoints (heap s) e /\ b ∈ endpoints (heap s) e) -> te_W T k i j = 0%Qc).
Proof.
  intros R G Hl HC He Ha Hb. destruct (q_computes s c lim x T R G Hl HC) as (D & _). rewrite (d_W _ c T D _ _ _ _ _ _ He Ha Hb). split.
  - intros H1 H2 H3. by apply q_C36.
  - intros H. unfold entry_W. by rewrite decide_False.
Qed.
