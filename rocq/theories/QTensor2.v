(** * C32 - C37: consequences *)
From Coq Require Import QArith.
From Verif Require Import Spec Hierarchy Elements Factory History PDict PPath PExec PBfs PWF PMono PReach PHist Traverse SpecTrav QTrav QTrav2 QTrav3 Homomorphism SpecHom QHom HTraverse Tensor SpecTensor QTensor.
Local Open Scope nat_scope.

(** ** Sums *)
Lemma qnat_S n : qnat (S n) = (1 + qnat n)%Qc.
Proof.
  unfold qnat. apply Qc_is_canon. cbn [this Qcplus]. unfold Qcplus. rewrite !Q2Qc_correct || idtac. cbn.
  rewrite !Qred_correct. rewrite Nat2Z.inj_succ. unfold Z.succ. rewrite inject_Z_plus. rewrite Qplus_comm. reflexivity.
Qed.
Lemma qnat_0 : qnat 0 = 0%Qc.
Proof. apply Qc_is_canon. reflexivity. Qed.
Lemma qsum_index {A} (l : list A) (F : nat -> Qc) (g : A -> Qc) : (forall i a, l !! i = Some a -> F i = g a) -> qsum (length l) F = qsum_list (map g l).
Proof.
  unfold qsum. revert F. induction l as [|a l IH]; intros F H; [done|]. cbn [length seq map]. cbn [qsum_list foldr]. f_equal; [by apply (H 0)|].
  rewrite <- seq_shift, map_map. apply IH. intros i b Hb. by apply (H (S i)).
Qed.
Lemma qsum_list_ext {A} (f g : A -> Qc) l : (forall x, x ∈ l -> f x = g x) -> qsum_list (map f l) = qsum_list (map g l).
Proof. intros H. f_equal. apply map_ext_in. intros x Hx. apply H. by apply elem_of_list_In. Qed.
Lemma qsum_ext n f g : (forall i, i < n -> f i = g i) -> qsum n f = qsum n g.
Proof. intros H. apply qsum_list_ext. intros x Hx. apply H. apply elem_of_seq in Hx. lia. Qed.
Lemma qsum_list_plus {A} (f g : A -> Qc) l : qsum_list (map (fun x => f x + g x)%Qc l) = (qsum_list (map f l) + qsum_list (map g l))%Qc.
Proof. induction l as [|x l IH]; cbn [map qsum_list foldr]; [ring|]. unfold qsum_list in IH. rewrite IH. ring. Qed.
Lemma qsum_list_scale {A} (f : A -> Qc) k l : qsum_list (map (fun x => f x * k)%Qc l) = (qsum_list (map f l) * k)%Qc.
Proof. induction l as [|x l IH]; cbn [map qsum_list foldr]; [ring|]. unfold qsum_list in IH. rewrite IH. ring. Qed.
Lemma qsum_list_zero {A} (f : A -> Qc) l : (forall x, x ∈ l -> f x = 0%Qc) -> qsum_list (map f l) = 0%Qc.
Proof.
  induction l as [|x l IH]; intros H; [done|]. cbn [map qsum_list foldr]. rewrite (H x) by left. unfold qsum_list in IH.
  rewrite IH by (intros; apply H; by right). ring.
Qed.
Lemma qsum_list_count {A} (P : A -> Prop) `{!forall x, Decision (P x)} l :
  qsum_list (map (fun x => if decide (P x) then 1%Qc else 0%Qc) l) = qnat (length (filter P l)).
Proof.
  induction l as [|x l IH]; [symmetry; exact qnat_0|]. cbn [map qsum_list foldr]. unfold qsum_list in IH. rewrite IH, filter_cons.
  destruct (decide (P x)); [cbn [length]; by rewrite qnat_S|ring].
Qed.
Lemma qsum_diag n f i : i < n -> qsum n (fun k => if decide (i = k) then f k else 0%Qc) = f i.
Proof.
  unfold qsum. intros Hi. assert (G : forall m, m <= i -> i < m + n -> qsum_list (map (fun k => if decide (i = k) then f k else 0%Qc) (seq m n)) = f i).
  - clear Hi. induction n as [|n IH]; intros m H1 H2; [lia|]. cbn [seq map qsum_list foldr]. destruct (decide (i = m)) as [->|Hne].
    + unfold qsum_list in *. change (foldr Qcplus 0%Qc) with qsum_list. rewrite qsum_list_zero; [ring|]. intros x Hx. apply elem_of_seq in Hx. rewrite decide_False by lia. done.
    + unfold qsum_list in IH. rewrite IH by lia. ring.
  - apply G; lia.
Qed.

Lemma others_ne h e p : others h e p <> [] <-> exists q, q ∈ endpoints h e /\ q <> p.
Proof.
  unfold others. split.
  - intros H. destruct (filter _ _) as [|q l] eqn:E; [done|]. assert (Hq : q ∈ q :: l) by left. rewrite <- E in Hq. apply elem_of_list_filter in Hq as [H1 H2]. by exists q.
  - intros (q & Hq & Hne) E. assert (Hx : q ∈ filter (fun p0 => p0 <> p) (endpoints h e)) by (by apply elem_of_list_filter). rewrite E in Hx. inversion Hx.
Qed.

(** ** Unweighted relations *)
Section unw.
  Context (h : list obj) (c : loc) (G : closed_graph h c) (U : unweighted h c).

  Lemma amount_1 e r : e ∈ edges_of h c -> r ∈ rels_of h e -> amount h r = 1%Qc.
  Proof. intros H1 H2. unfold amount. by rewrite (U e r H1 H2). Qed.
  Lemma one_ne_0 : 1%Qc <> 0%Qc.
  Proof. intros H. discriminate H. Qed.
  Lemma w_in_ne e r : e ∈ edges_of h c -> r ∈ rels_of h e -> w_in h r <> 0%Qc <-> inward h r.
  Proof. intros H1 H2. unfold w_in, inward. rewrite (amount_1 e r H1 H2). destruct (decide _); split; try done; intros _; exact one_ne_0. Qed.
  Lemma w_out_ne e r : e ∈ edges_of h c -> r ∈ rels_of h e -> w_out h r <> 0%Qc <-> outward h r.
  Proof. intros H1 H2. unfold w_out, outward. rewrite (amount_1 e r H1 H2). destruct (decide _); split; try done; intros _; exact one_ne_0. Qed.
  Lemma w_in_one e r : e ∈ edges_of h c -> r ∈ rels_of h e -> w_in h r <> 0%Qc -> w_in h r = 1%Qc.
  Proof. intros H1 H2. unfold w_in. rewrite (amount_1 e r H1 H2). by destruct (decide _). Qed.
  Lemma w_out_one e r : e ∈ edges_of h c -> r ∈ rels_of h e -> w_out h r <> 0%Qc -> w_out h r = 1%Qc.
  Proof. intros H1 H2. unfold w_out. rewrite (amount_1 e r H1 H2). by destruct (decide _). Qed.

  Lemma final_one (l : list Qc) : (forall w, w ∈ l -> w = 1%Qc) -> l <> [] -> final l = 1%Qc.
  Proof.
    intros H Hne. unfold final. destruct l as [|w l _] using rev_ind; [done|]. rewrite last_snoc. apply H. apply elem_of_app. right. left.
  Qed.
  Lemma final_nil (l : list Qc) : (forall w, w ∉ l) -> final l = 0%Qc.
  Proof. intros H. destruct l as [|w l]; [done|]. destruct (H w). left. Qed.

  Lemma entry_W_adjacent e a b : e ∈ edges_of h c -> (adjacent h e a b -> entry_W h e a b = 1%Qc) /\ (~ adjacent h e a b -> entry_W h e a b = 0%Qc).
  Proof.
    intros He. unfold entry_W. split.
    - intros (H1 & H2 & H3 & r & Hr & Hd). rewrite decide_True by done. apply final_one.
      + intros w Hw. apply elem_of_flat_map in Hw as (r' & Hr' & Hw). apply elem_of_app in Hw as [Hw|Hw]; destruct (decide _) as [[D1 D2]|]; try (by inversion Hw);
        apply elem_of_list_singleton in Hw as ->; [by eapply w_in_one|by eapply w_out_one].
      + intros E. destruct Hd as [[D1 D2]|[D1 D2]].
        * assert (X : w_in h r ∈ @nil Qc); [|inversion X]. rewrite <- E. apply elem_of_flat_map. exists r. split; [done|]. apply elem_of_app. left.
          rewrite decide_True; [left|]. split; [done|]. by eapply w_in_ne.
        * assert (X : w_out h r ∈ @nil Qc); [|inversion X]. rewrite <- E. apply elem_of_flat_map. exists r. split; [done|]. apply elem_of_app. right.
          rewrite decide_True; [left|]. split; [done|]. by eapply w_out_ne.
    - intros Hna. destruct (decide _) as [(H1 & H2 & H3)|]; [|done]. apply final_nil. intros w Hw. apply Hna. split; [done|]. split; [done|]. split; [done|].
      apply elem_of_flat_map in Hw as (r & Hr & Hw). exists r. split; [done|]. apply elem_of_app in Hw as [Hw|Hw]; destruct (decide _) as [[D1 D2]|]; try (by inversion Hw).
      + left. split; [done|]. by eapply w_in_ne.
      + right. split; [done|]. by eapply w_out_ne.
  Qed.
  Lemma entry_Io_adjacent e a : e ∈ edges_of h c -> ((exists b, adjacent h e a b) -> entry_Io h e a = 1%Qc) /\ ((forall b, ~ adjacent h e a b) -> entry_Io h e a = 0%Qc).
  Proof.
    intros He. unfold entry_Io. split.
    - intros (b & H1 & H2 & H3 & r & Hr & Hd).
      assert (Ho : others h e a <> []) by (apply others_ne; exists b; split; [done|congruence]). rewrite decide_True by done. apply final_one.
      + intros w Hw. apply elem_of_flat_map in Hw as (r' & Hr' & Hw). apply elem_of_app in Hw as [Hw|Hw]; destruct (decide _) as [[D1 D2]|]; try (by inversion Hw);
        apply elem_of_list_singleton in Hw as ->; [by eapply w_in_one|by eapply w_out_one].
      + intros E. destruct Hd as [[D1 D2]|[D1 D2]].
        * assert (X : w_in h r ∈ @nil Qc); [|inversion X]. rewrite <- E. apply elem_of_flat_map. exists r. split; [done|]. apply elem_of_app. left.
          rewrite decide_True; [left|]. split; [done|]. by eapply w_in_ne.
        * assert (X : w_out h r ∈ @nil Qc); [|inversion X]. rewrite <- E. apply elem_of_flat_map. exists r. split; [done|]. apply elem_of_app. right.
          rewrite decide_True; [left|]. split; [congruence|]. by eapply w_out_ne.
    - intros Hna. destruct (decide _) as [(H2 & H3)|]; [|done]. apply others_ne in H3 as (q & Hq & Hqa). apply final_nil. intros w Hw.
      apply elem_of_flat_map in Hw as (r & Hr & Hw). apply elem_of_app in Hw as [Hw|Hw]; destruct (decide _) as [[D1 D2]|]; try (by inversion Hw).
      + apply (Hna q). split; [congruence|]. split; [done|]. split; [done|]. exists r. split; [done|]. left. split; [done|]. by eapply w_in_ne.
      + destruct (cg_ep _ _ G e r He Hr) as (p & Hp & _). apply (Hna p). split; [congruence|]. split; [done|].
        split; [unfold endpoints; apply elem_of_list_omap; by exists r|]. exists r. split; [done|]. right. split; [done|]. by eapply w_out_ne.
  Qed.
  Lemma entry_Ii_adjacent e b : e ∈ edges_of h c -> ((exists a, adjacent h e a b) -> entry_Ii h e b = 1%Qc) /\ ((forall a, ~ adjacent h e a b) -> entry_Ii h e b = 0%Qc).
  Proof.
    intros He. unfold entry_Ii. split.
    - intros (a & H1 & H2 & H3 & r & Hr & Hd).
      assert (Ho : others h e b <> []) by (apply others_ne; by exists a). rewrite decide_True by done. apply final_one.
      + intros w Hw. apply elem_of_flat_map in Hw as (r' & Hr' & Hw). apply elem_of_app in Hw as [Hw|Hw]; destruct (decide _) as [[D1 D2]|]; try (by inversion Hw);
        apply elem_of_list_singleton in Hw as ->; [by eapply w_in_one|by eapply w_out_one].
      + intros E. destruct Hd as [[D1 D2]|[D1 D2]].
        * assert (X : w_in h r ∈ @nil Qc); [|inversion X]. rewrite <- E. apply elem_of_flat_map. exists r. split; [done|]. apply elem_of_app. left.
          rewrite decide_True; [left|]. split; [congruence|]. by eapply w_in_ne.
        * assert (X : w_out h r ∈ @nil Qc); [|inversion X]. rewrite <- E. apply elem_of_flat_map. exists r. split; [done|]. apply elem_of_app. right.
          rewrite decide_True; [left|]. split; [done|]. by eapply w_out_ne.
    - intros Hna. destruct (decide _) as [(H2 & H3)|]; [|done]. apply others_ne in H3 as (q & Hq & Hqa). apply final_nil. intros w Hw.
      apply elem_of_flat_map in Hw as (r & Hr & Hw). apply elem_of_app in Hw as [Hw|Hw]; destruct (decide _) as [[D1 D2]|]; try (by inversion Hw).
      + destruct (cg_ep _ _ G e r He Hr) as (p & Hp & _). apply (Hna p). split; [congruence|].
        split; [unfold endpoints; apply elem_of_list_omap; by exists r|]. split; [done|]. exists r. split; [done|]. left. split; [done|]. by eapply w_in_ne.
      + apply (Hna q). split; [done|]. split; [done|]. split; [done|]. exists r. split; [done|]. right. split; [done|]. by eapply w_out_ne.
  Qed.
  Lemma endpoints_nodes e p : e ∈ edges_of h c -> p ∈ endpoints h e -> p ∈ nodes_of h c.
  Proof.
    intros H1 H2. unfold endpoints in H2. apply elem_of_list_omap in H2 as (r & Hr & Hp). destruct (cg_ep _ _ G e r H1 Hr) as (p' & Hp' & Hin). congruence.
  Qed.
End unw.

Section desc.
  Context (h : list obj) (c : loc) (G : closed_graph h c) (T : tensors) (D : describes h c T).
  Let ns := nodes_of h c.
  Let es := edges_of h c.

  Lemma d_E : te_E T = length es. Proof. apply D. Qed.
  Lemma d_n : te_n T = length ns. Proof. apply D. Qed.
  Lemma d_W k e i a j b : es !! k = Some e -> ns !! i = Some a -> ns !! j = Some b -> te_W T k i j = entry_W h e a b.
  Proof. apply D. Qed.
  Lemma d_Io k e i a : es !! k = Some e -> ns !! i = Some a -> te_Io T k i = entry_Io h e a.
  Proof. intros. by eapply D. Qed.
  Lemma d_Ii k e i a : es !! k = Some e -> ns !! i = Some a -> te_Ii T k i = entry_Ii h e a.
  Proof. intros. by eapply D. Qed.
  Lemma edge_at k : k < te_E T -> exists e, es !! k = Some e /\ e ∈ es.
  Proof. rewrite d_E. intros H. destruct (lookup_lt_is_Some_2 _ _ H) as [e He]. exists e. split; [done|]. by eapply elem_of_list_lookup_2. Qed.
  Lemma node_at i : i < te_n T -> exists a, ns !! i = Some a /\ a ∈ ns.
  Proof. rewrite d_n. intros H. destruct (lookup_lt_is_Some_2 _ _ H) as [e He]. exists e. split; [done|]. by eapply elem_of_list_lookup_2. Qed.

  Lemma q_C32 : unweighted h c ->
    (forall k e i a j b, es !! k = Some e -> ns !! i = Some a -> ns !! j = Some b ->
       (adjacent h e a b -> te_W T k i j = 1%Qc) /\ (~ adjacent h e a b -> te_W T k i j = 0%Qc)) /\
    (forall k i, k < te_E T -> i < te_n T ->
       ((exists j, j < te_n T /\ te_W T k i j <> 0%Qc) -> te_Io T k i = 1%Qc) /\
       ((forall j, j < te_n T -> te_W T k i j = 0%Qc) -> te_Io T k i = 0%Qc)) /\
    (forall k j, k < te_E T -> j < te_n T ->
       ((exists i, i < te_n T /\ te_W T k i j <> 0%Qc) -> te_Ii T k j = 1%Qc) /\
       ((forall i, i < te_n T -> te_W T k i j = 0%Qc) -> te_Ii T k j = 0%Qc)).
  Proof.
    intros U.
    assert (P1 : forall k e i a j b, es !! k = Some e -> ns !! i = Some a -> ns !! j = Some b ->
       (adjacent h e a b -> te_W T k i j = 1%Qc) /\ (~ adjacent h e a b -> te_W T k i j = 0%Qc)).
    { intros k e i a j b H1 H2 H3. rewrite (d_W _ _ _ _ _ _ H1 H2 H3). apply (entry_W_adjacent h c U). by eapply elem_of_list_lookup_2. }
    assert (Q : forall P : Prop, ~ ~ P -> forall w : Qc, (P -> w = 1%Qc) -> w = 1%Qc).
    { intros P HP w Hw. destruct (decide (w = 1%Qc)); [done|]. destruct HP. intros p. by apply n, Hw. }
    split; [exact P1|]. split.
    - intros k i Hk Hi. destruct (edge_at k Hk) as (e & He & Hin). destruct (node_at i Hi) as (a & Ha & Han). rewrite (d_Io _ _ _ _ He Ha).
      destruct (entry_Io_adjacent h c G U e a Hin) as [E1 E2]. split.
      + intros (j & Hj & Hw). destruct (node_at j Hj) as (b & Hb & _). destruct (P1 k e i a j b He Ha Hb) as [_ N].
        apply (Q (adjacent h e a b)); [intros Hn; by apply Hw, N|]. intros A. apply E1. by exists b.
      + intros Hz. apply E2. intros b A. assert (Hb : b ∈ ns) by (eapply endpoints_nodes; [done|exact Hin|apply A]).
        apply elem_of_list_lookup in Hb as [j Hj]. destruct (P1 k e i a j b He Ha Hj) as [Y _].
        rewrite Hz in Y by (rewrite d_n; by apply lookup_lt_Some in Hj). specialize (Y A). discriminate Y.
    - intros k j Hk Hj. destruct (edge_at k Hk) as (e & He & Hin). destruct (node_at j Hj) as (b & Hb & Hbn). rewrite (d_Ii _ _ _ _ He Hb).
      destruct (entry_Ii_adjacent h c G U e b Hin) as [E1 E2]. split.
      + intros (i & Hi & Hw). destruct (node_at i Hi) as (a & Ha & _). destruct (P1 k e i a j b He Ha Hb) as [_ N].
        apply (Q (adjacent h e a b)); [intros Hn; by apply Hw, N|]. intros A. apply E1. by exists a.
      + intros Hz. apply E2. intros a A. assert (Ha : a ∈ ns) by (eapply endpoints_nodes; [done|exact Hin|apply A]).
        apply elem_of_list_lookup in Ha as [i Hi]. destruct (P1 k e i a j b He Hi Hb) as [Y _].
        rewrite Hz in Y by (rewrite d_n; by apply lookup_lt_Some in Hi). specialize (Y A). discriminate Y.
  Qed.

  (** C33 *)
  Lemma W_diag k i : k < te_E T -> i < te_n T -> te_W T k i i = 0%Qc.
  Proof.
    intros Hk Hi. destruct (edge_at k Hk) as (e & He & _). destruct (node_at i Hi) as (a & Ha & _). rewrite (d_W _ _ _ _ _ _ He Ha Ha).
    unfold entry_W. rewrite decide_False; [done|]. by intros [? _].
  Qed.
  Lemma q_C33 : (forall k i, k < te_E T -> i < te_n T -> te_W T k i i = 0%Qc) /\
    qsum (te_n T) (fun i => projected_laplacian T i i) = total_deg T.
  Proof.
    split; [apply W_diag|]. unfold total_deg. apply qsum_ext. intros i Hi. unfold projected_laplacian, diag_degree_matrix, qdiag.
    rewrite decide_True by done. assert (E : qsum (te_E T) (fun e => te_W T e i i) = 0%Qc).
    { apply qsum_list_zero. intros k Hk. apply elem_of_seq in Hk. apply W_diag; [lia|done]. }
    rewrite E. ring.
  Qed.
End desc.

(** ** Undirected *)
Section und.
  Context (h : list obj) (c : loc) (W : WF0 h) (G : closed_graph h c) (T : tensors) (D : describes h c T).
  Context (U : unweighted h c) (V : undirected h c).
  Let ns := nodes_of h c.
  Let es := edges_of h c.

  Definition joined (e a b : loc) : Prop := a <> b /\ a ∈ endpoints h e /\ b ∈ endpoints h e.
  Lemma joined_adjacent e a b : e ∈ es -> joined e a b -> adjacent h e a b.
  Proof.
    intros He (H1 & H2 & H3). split; [done|]. split; [done|]. split; [done|]. pose proof H2 as H2'. unfold endpoints in H2'.
    apply elem_of_list_omap in H2' as (r & Hr & Hp). exists r. split; [done|]. left. split; [done|]. right. by apply (V e).
  Qed.
  Lemma und_W e a b : e ∈ es -> entry_W h e a b = if decide (joined e a b) then 1%Qc else 0%Qc.
  Proof.
    intros He. destruct (entry_W_adjacent h c U e a b He) as [H1 H2]. destruct (decide (joined e a b)) as [J|J].
    - apply H1. by apply joined_adjacent.
    - apply H2. intros (A1 & A2 & A3 & _). by apply J.
  Qed.
  Lemma arity_2 e a : a ∈ endpoints h e -> others h e a <> [] <-> 2 <= arity h e.
  Proof.
    intros Ha. rewrite others_ne. unfold arity. assert (Hin : a ∈ remove_dups (endpoints h e)) by (by apply elem_of_remove_dups). split.
    - intros (q & Hq & Hne). apply elem_of_remove_dups in Hq. destruct (remove_dups (endpoints h e)) as [|x [|y l]]; [inversion Hin| |simpl; lia].
      apply elem_of_list_singleton in Hin, Hq. congruence.
    - intros Hl. pose proof (NoDup_remove_dups (endpoints h e)) as Hnd.
      assert (Hs : forall q, q ∈ remove_dups (endpoints h e) -> q ∈ endpoints h e) by (intros q; by rewrite elem_of_remove_dups).
      destruct (remove_dups (endpoints h e)) as [|x [|y l]]; [simpl in Hl; lia|simpl in Hl; lia|]. apply NoDup_cons in Hnd as [Hxy _].
      destruct (decide (x = a)) as [->|Hx].
      + exists y. split; [apply Hs; right; left|]. intros ->. apply Hxy. left.
      + exists x. split; [apply Hs; left|done].
  Qed.
  Lemma und_Io e a : e ∈ es -> entry_Io h e a = if decide (a ∈ endpoints h e /\ 2 <= arity h e) then 1%Qc else 0%Qc.
  Proof.
    intros He. destruct (entry_Io_adjacent h c G U e a He) as [H1 H2]. destruct (decide _) as [[J1 J2]|J].
    - apply H1. apply (arity_2 e a J1) in J2. apply others_ne in J2 as (q & Hq & Hne). exists q. apply joined_adjacent; [done|]. by split.
    - apply H2. intros b (A1 & A2 & A3 & _). apply J. split; [done|]. apply (arity_2 e a); [done|]. apply others_ne. by exists b.
  Qed.
  Lemma und_Ii e a : e ∈ es -> entry_Ii h e a = if decide (a ∈ endpoints h e /\ 2 <= arity h e) then 1%Qc else 0%Qc.
  Proof.
    intros He. destruct (entry_Ii_adjacent h c G U e a He) as [H1 H2]. destruct (decide _) as [[J1 J2]|J].
    - apply H1. apply (arity_2 e a J1) in J2. apply others_ne in J2 as (q & Hq & Hne). exists q. apply joined_adjacent; [done|]. by split.
    - apply H2. intros b (A1 & A2 & A3 & _). apply J. split; [done|]. apply (arity_2 e a); [done|]. apply others_ne. by exists b.
  Qed.
  Lemma half : (1 / (1 + 1) * (1 + 1))%Qc = 1%Qc.
  Proof. apply Qc_is_canon. vm_compute. reflexivity. Qed.

  Lemma q_C34 :
    (forall k i j, k < te_E T -> i < te_n T -> j < te_n T -> te_W T k i j = te_W T k j i) /\
    (forall k i, k < te_E T -> i < te_n T -> te_Io T k i = te_Ii T k i) /\
    (forall i a, ns !! i = Some a -> degree_matrix T i = qnat (length (proper_edges h c a))).
  Proof.
    assert (P2 : forall k i, k < te_E T -> i < te_n T -> te_Io T k i = te_Ii T k i).
    { intros k i Hk Hi. destruct (edge_at h c T D k Hk) as (e & He & Hin). destruct (node_at h c T D i Hi) as (a & Ha & _).
      rewrite (d_Io h c T D _ _ _ _ He Ha), (d_Ii h c T D _ _ _ _ He Ha). by rewrite und_Io, und_Ii. }
    split; [|split; [done|]].
    - intros k i j Hk Hi Hj. destruct (edge_at h c T D k Hk) as (e & He & Hin). destruct (node_at h c T D i Hi) as (a & Ha & _).
      destruct (node_at h c T D j Hj) as (b & Hb & _). rewrite (d_W h c T D _ _ _ _ _ _ He Ha Hb), (d_W h c T D _ _ _ _ _ _ He Hb Ha).
      rewrite !und_W by done. apply decide_ext. unfold joined. naive_solver.
    - intros i a Ha. assert (Hi : i < te_n T) by (rewrite (d_n h c T D); by apply lookup_lt_Some in Ha). unfold degree_matrix.
      assert (F : forallb (fun e => bool_decide (te_Io T e i = te_Ii T e i)) (seq 0 (te_E T)) = true).
      { apply forallb_forall. intros k Hk. apply in_seq in Hk. apply bool_decide_eq_true. apply P2; [lia|done]. }
      rewrite F. cbn [b2q].
      assert (S1 : qsum (te_E T) (fun e => te_Io T e i) = qnat (length (proper_edges h c a))).
      { rewrite (d_E h c T D). unfold proper_edges. rewrite <- qsum_list_count. apply qsum_index. intros k e He. rewrite (d_Io h c T D _ _ _ _ He Ha).
        apply und_Io. by eapply elem_of_list_lookup_2. }
      assert (S2 : qsum (te_E T) (fun e => te_Ii T e i) = qsum (te_E T) (fun e => te_Io T e i)) by (apply qsum_ext; intros k Hk; symmetry; by apply P2).
      rewrite S2, S1. generalize (qnat (length (proper_edges h c a))). intros w.
      transitivity (w * (1 / (1 + 1) * (1 + 1)))%Qc; [ring|]. rewrite half. ring.
  Qed.

  (** C35 *)
  Lemma nodes_nodup : NoDup ns.
  Proof. apply NoDup_filter. by apply wf0_children_nd. Qed.
  Lemma count_joined e b : e ∈ es -> b ∈ endpoints h e -> S (length (filter (fun a => joined e a b) ns)) = arity h e.
  Proof.
    intros He Hb. unfold arity.
    assert (P : b :: filter (fun a => joined e a b) ns ≡ₚ remove_dups (endpoints h e)).
    { apply NoDup_Permutation.
      - apply NoDup_cons. split; [|apply NoDup_filter, nodes_nodup]. intros X. apply elem_of_list_filter in X as [[X _] _]. done.
      - apply NoDup_remove_dups.
      - intros x. rewrite elem_of_cons, elem_of_list_filter, elem_of_remove_dups. split.
        + intros [->|[(_ & X & _) _]]; done.
        + intros X. destruct (decide (x = b)) as [->|Hx]; [by left|]. right. split; [by split|]. by eapply endpoints_nodes. }
    apply Permutation_length in P. done.
  Qed.
  Lemma und_col k e j b : es !! k = Some e -> ns !! j = Some b ->
    col_sum T k j = if decide (b ∈ endpoints h e) then (qnat (arity h e) - 1)%Qc else 0%Qc.
  Proof.
    intros Hk Hj. pose proof (elem_of_list_lookup_2 _ _ _ Hk) as He. unfold col_sum. rewrite (d_n h c T D). fold ns.
    rewrite (qsum_index ns (fun i => te_W T k i j) (fun a => if decide (joined e a b) then 1%Qc else 0%Qc)).
    - rewrite qsum_list_count. destruct (decide (b ∈ endpoints h e)) as [Hb|Hb].
      + rewrite <- (count_joined e b He Hb), qnat_S. ring.
      + rewrite filter_none; [exact qnat_0|]. intros x _ (_ & _ & X). done.
    - intros i a Ha. rewrite (d_W h c T D _ _ _ _ _ _ Hk Ha Hj). by apply und_W.
  Qed.
  Lemma und_row k i : k < te_E T -> i < te_n T -> row_sum T k i = col_sum T k i.
  Proof. intros Hk Hi. unfold row_sum, col_sum. apply qsum_ext. intros j Hj. by apply q_C34. Qed.

  Lemma laplacian_eq : te_E T <> 0 -> exists L, laplacian T = Ok L /\
    forall k i j, k < te_E T -> i < te_n T -> j < te_n T -> L k i j = ((if decide (i = j) then col_sum T k i * (1 / (1 + 1)) else 0) - te_W T k i j)%Qc.
  Proof.
    intros HE. unfold laplacian, diag_degree_tensor. rewrite (proj2 (Nat.eqb_neq _ _) HE). eexists. split; [reflexivity|].
    intros k i j Hk Hi Hj. cbn beta. f_equal. rewrite (qsum_ext _ _ (fun m => if decide (i = m) then (if decide (i = j) then (col_sum T k i * (1 / (1 + 1)))%Qc else 0%Qc) else 0%Qc)).
    - apply (qsum_diag _ (fun _ => if decide (i = j) then (col_sum T k i * (1 / (1 + 1)))%Qc else 0%Qc)). done.
    - intros m Hm. unfold qdiag. destruct (decide (i = m)) as [<-|]; [|ring]. destruct (decide (i = j)) as [<-|]; [|ring].
      rewrite (bool_decide_eq_true_2 (col_sum T k i = row_sum T k i)) by (symmetry; by apply und_row). done.
  Qed.
  Lemma arity_1 e a : a ∈ endpoints h e -> ~ 2 <= arity h e -> arity h e = 1.
  Proof.
    intros Ha Hl. unfold arity in *. assert (Hin : a ∈ remove_dups (endpoints h e)) by (by apply elem_of_remove_dups).
    destruct (remove_dups (endpoints h e)) as [|x l]; [inversion Hin|]. simpl in *. lia.
  Qed.
  Lemma q_C35 : es <> [] -> exists L, laplacian T = Ok L /\
    forall i a j, ns !! i = Some a -> j < te_n T ->
      qsum (te_E T) (fun k => L k i j) = (projected_laplacian T i j + (if decide (i = j) then excess h c a else 0))%Qc.
  Proof.
    intros Hne. destruct laplacian_eq as (L & HL & Heq); [rewrite (d_E h c T D); intros X; by apply Hne, nil_length_inv|].
    exists L. split; [done|]. intros i a j Ha Hj. assert (Hi : i < te_n T) by (rewrite (d_n h c T D); by apply lookup_lt_Some in Ha).
    rewrite (qsum_ext _ _ (fun k => ((if decide (i = j) then col_sum T k i * (1 / (1 + 1)) else 0) + - te_W T k i j)%Qc)) by (intros k Hk; rewrite Heq by done; ring).
    unfold qsum. rewrite qsum_list_plus. change (qsum_list (map ?f (seq 0 (te_E T)))) with (qsum (te_E T) f).
    unfold projected_laplacian, diag_degree_matrix, qdiag.
    assert (Neg : qsum (te_E T) (fun k => (- te_W T k i j)%Qc) = (- qsum (te_E T) (fun k => te_W T k i j))%Qc).
    { unfold qsum. rewrite (map_ext _ (fun k => (te_W T k i j * (- (1)))%Qc)) by (intros; ring). rewrite qsum_list_scale. ring. }
    fold (qsum (te_E T) (fun k => (- te_W T k i j)%Qc)). rewrite Neg. destruct (decide (i = j)) as [<-|Hij].
    - destruct q_C34 as (_ & _ & Hdeg). rewrite (Hdeg i a Ha).
      assert (E : qsum (te_E T) (fun k => (col_sum T k i * (1 / (1 + 1)))%Qc) = (qnat (length (proper_edges h c a)) + excess h c a)%Qc).
      { rewrite (d_E h c T D). rewrite (qsum_index es _ (fun e => if decide (a ∈ endpoints h e) then ((qnat (arity h e) - 1) * (1 / (1 + 1)))%Qc else 0%Qc)).
        - unfold excess, proper_edges. fold es. clear -Ha. induction es as [|e l IH]; [cbn; change (qnat 0) with (qnat 0); rewrite qnat_0; ring|].
          cbn [map qsum_list foldr]. unfold qsum_list in IH. rewrite IH, filter_cons. destruct (decide (a ∈ endpoints h e)) as [H1|H1].
          + destruct (decide (2 <= arity h e)) as [H2|H2].
            * rewrite decide_True by done. cbn [length map qsum_list foldr]. rewrite qnat_S. set (w := qnat (arity h e)). set (y := qnat _).
              set (z := foldr _ _ _). transitivity (w * (1 / (1 + 1)) - 1 / (1 + 1) + y + z)%Qc; [ring|].
              transitivity (w * (1 / (1 + 1)) + (1 - (1 + 1 + 1) * (1 / (1 + 1))) + y + z)%Qc; [|ring]. f_equal.
            * rewrite decide_False by naive_solver. rewrite (arity_1 e a H1 H2), qnat_S, qnat_0. unfold qsum_list. ring.
          + rewrite decide_False by naive_solver. unfold qsum_list. ring.
        - intros k e Hk. rewrite (und_col k e i a Hk Ha). destruct (decide _); [done|ring]. }
      rewrite E. ring.
    - unfold qsum at 1. rewrite qsum_list_zero by done. ring.
  Qed.
End und.

(** C35: uniform graphs *)
Lemma excess_uniform h c a m : (forall e, e ∈ edges_of h c -> arity h e = m) ->
  excess h c a = (qnat (length (proper_edges h c a)) * ((qnat m - (1 + 1 + 1)) * (1 / (1 + 1))))%Qc.
Proof.
  intros Hm. unfold excess. assert (Hp : forall e, e ∈ proper_edges h c a -> arity h e = m).
  { intros e He. apply elem_of_list_filter in He as [_ He]. by apply Hm. }
  clear Hm. induction (proper_edges h c a) as [|e l IH]; [cbn; rewrite qnat_0; ring|]. cbn [map qsum_list foldr length]. rewrite qnat_S.
  unfold qsum_list in IH. rewrite IH by (intros; apply Hp; by right). rewrite (Hp e) by left. ring.
Qed.
Lemma qnat_inj n m : qnat n = qnat m -> n = m.
Proof.
  unfold qnat. intros H. apply Q2Qc_eq_iff in H. unfold Qeq, inject_Z in H. simpl in H. lia.
Qed.
Lemma q_C35_uniform s c T m : reach s -> closed_graph (heap s) c -> describes (heap s) c T -> unweighted (heap s) c -> undirected (heap s) c ->
  edges_of (heap s) c <> [] -> (forall e, e ∈ edges_of (heap s) c -> arity (heap s) e = m) ->
  exists L, laplacian T = Ok L /\
    (m = 3 -> forall i j, i < te_n T -> j < te_n T -> qsum (te_E T) (fun k => L k i j) = projected_laplacian T i j) /\
    (2 <= m -> m <> 3 -> exists i, i < te_n T /\ qsum (te_E T) (fun k => L k i i) <> projected_laplacian T i i).
Proof.
  intros R G D U V Hne Hm. pose proof (reach_wf s R) as W. destruct (q_C35 (heap s) c W G T D U V Hne) as (L & HL & Heq). exists L. split; [done|]. split.
  - intros -> i j Hi Hj. destruct (node_at _ c T D i Hi) as (a & Ha & _). rewrite (Heq i a j Ha Hj). destruct (decide _); [|ring].
    rewrite (excess_uniform _ c a 3 Hm). assert (X : (qnat 3 - (1 + 1 + 1))%Qc = 0%Qc) by (apply Qc_is_canon; vm_compute; reflexivity). rewrite X. ring.
  - intros H2 H3. destruct (edges_of (heap s) c) as [|e l] eqn:Ee; [done|]. assert (He : e ∈ edges_of (heap s) c) by (rewrite Ee; left).
    assert (Ar : arity (heap s) e = m) by (apply Hm; left). assert (Hd : exists a, a ∈ endpoints (heap s) e).
    { unfold arity in Ar. destruct (remove_dups (endpoints (heap s) e)) as [|a l'] eqn:Er; [simpl in Ar; lia|]. exists a. apply elem_of_remove_dups. rewrite Er. left. }
    destruct Hd as [a Ha]. pose proof (endpoints_nodes _ c G e a He Ha) as Han. apply elem_of_list_lookup in Han as [i Hi]. exists i.
    assert (Hin : i < te_n T) by (rewrite (d_n _ c T D); by apply lookup_lt_Some in Hi). split; [done|]. rewrite (Heq i a i Hi Hin), decide_True by done.
    rewrite (excess_uniform _ c a m) by (rewrite Ee; exact Hm). intros X.
    assert (Y : (qnat (length (proper_edges (heap s) c a)) * ((qnat m - (1 + 1 + 1)) * (1 / (1 + 1))))%Qc = 0%Qc).
    { match goal with |- ?z = _ => transitivity (projected_laplacian T i i + z - projected_laplacian T i i)%Qc; [ring|] end. rewrite X. ring. }
    apply Qcmult_integral in Y as [Y|Y].
    + change 0%Qc with (qnat 0) in Y. assert (Y' := qnat_inj _ _ (eq_trans Y eq_refl)). apply nil_length_inv in Y'.
      assert (Z : e ∈ proper_edges (heap s) c a) by (apply elem_of_list_filter; split; [split; [done|lia]|done]). rewrite Y' in Z. inversion Z.
    + apply Qcmult_integral in Y as [Y|Y]; [|discriminate Y]. apply H3. apply qnat_inj.
      transitivity (qnat m - (1 + 1 + 1) + (1 + 1 + 1))%Qc; [ring|]. rewrite Y. apply Qc_is_canon. vm_compute. reflexivity.
Qed.

(** C36 *)
Lemma q_C36 h e a b : a <> b -> a ∈ endpoints h e -> b ∈ endpoints h e ->
  (forall l1 r l2 w, rels_of h e = l1 ++ r :: l2 -> writes_entry h a b r w -> (forall r' w', r' ∈ l2 -> ~ writes_entry h a b r' w') -> entry_W h e a b = w) /\
  ((forall r w, r ∈ rels_of h e -> ~ writes_entry h a b r w) -> entry_W h e a b = 0%Qc).
Proof.
  intros Hab Ha Hb. unfold entry_W. rewrite decide_True by done. set (f := fun r : loc => _).
  assert (Hf : forall r w, w ∈ f r <-> writes_entry h a b r w).
  { intros r w. unfold f, writes_entry. rewrite elem_of_app. split.
    - intros [H|H]; destruct (decide _) as [[D1 D2]|]; try (by inversion H); apply elem_of_list_singleton in H as ->; auto.
    - intros (Hw & [[H1 ->]|[H1 ->]]); [left|right]; rewrite decide_True by done; left. }
  split.
  - intros l1 r l2 w -> Hw Hno. rewrite flat_map_app'. cbn [flat_map]. unfold final. rewrite !last_app.
    assert (E2 : flat_map f l2 = []).
    { clear -Hno Hf. induction l2 as [|x l IH]; [done|]. cbn [flat_map]. rewrite IH by (intros r' w' Hr; apply Hno; by right).
      rewrite app_nil_r. destruct (f x) as [|w' ws] eqn:E; [done|]. destruct (Hno x w' ltac:(left)). apply Hf. rewrite E. left. }
    rewrite E2. cbn [last]. unfold writes_entry in Hw. destruct Hw as (Hw & Hd). unfold f. rewrite last_app.
    destruct Hd as [[H1 ->]|[H1 ->]].
    + rewrite (decide_False (P := ep_of h r = Some b /\ w_out h r <> 0%Qc)) by (intros [? _]; congruence). cbn [last]. by rewrite decide_True.
    + rewrite (decide_True (P := ep_of h r = Some b /\ w_out h r <> 0%Qc)) by done. done.
  - intros Hno. assert (E : flat_map f (rels_of h e) = []); [|by rewrite E].
    induction (rels_of h e) as [|x l IH]; [done|]. cbn [flat_map]. rewrite IH by (intros r' w' Hr; apply Hno; by right).
    rewrite app_nil_r. destruct (f x) as [|w' ws] eqn:E; [done|]. destruct (Hno x w' ltac:(left)). apply Hf. rewrite E. left.
Qed.

(** C37 *)
Lemma q_C37 sq lg T :
  (te_E T = 1 -> normalized_laplacian sq T = Exn ZeroDivisionError /\ entropy_vector sq lg T = Exn ZeroDivisionError /\ entropy sq lg T = Exn ZeroDivisionError) /\
  (te_E T = 0 -> normalized_laplacian sq T = Exn ValueError) /\
  (2 <= te_E T -> (exists N, normalized_laplacian sq T = Ok N) /\ exists x, entropy sq lg T = Ok x).
Proof.
  unfold entropy, entropy_vector, normalized_laplacian, laplacian, diag_degree_tensor. split; [|split].
  - intros ->. done.
  - intros ->. done.
  - intros H. rewrite (proj2 (Nat.eqb_neq _ 1)) by lia. rewrite (proj2 (Nat.eqb_neq _ 0)) by lia. split; by eexists.
Qed.
