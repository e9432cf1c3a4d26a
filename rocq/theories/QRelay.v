(** * Proofs of C90: sending a graph on *)
From stdpp Require Import relations.
From Verif Require Import Spec Hierarchy Elements Factory History PDict PPath PExec PBfs PWF PAdd PMono PStep PRemove PReach PPrim PHist QHier QHier2 QHier3 QHier4 QHier5 QHier6 QFac SpecFac QFac2 SpecTrav QTrav QTrav2 QTrav3 QHom QTensor QEnc Encode SpecEnc QEnc2 QEnc3 QEnc4 QEnc5 QEnc6 QConv3 SpecHom SpecDecode QDec2 SpecRelay.

Lemma map_imap {A B} (g : A -> B) (f : nat -> A -> B) l : (forall i a, l !! i = Some a -> g a = f i a) -> map g l = imap f l.
Proof.
  revert f. induction l as [|a l IH]; intros f H; [done|]. cbn [map imap]. f_equal; [by apply (H 0)|].
  apply IH. intros i b Hb. by apply (H (S i)).
Qed.
Lemma index_pos us index at_ cnt i u : indexes us index at_ cnt -> NoDup us -> us !! i = Some u -> index u = Ok i.
Proof.
  intros (_ & _ & A & _) N H. apply A. split; [done|]. intros j Hj. by rewrite (NoDup_lookup _ _ _ _ N Hj H).
Qed.

(** ** When the message is the standard one *)
Section standard.
  Variables (s : st) (c : loc) (x : hom).
  Let h := heap s.
  Hypothesis Hp : parent_of h c = None.
  Hypothesis (Hn : forall i y, (c :: nodes_of h c) !! i = Some y -> hom_node x (uuid_of h y) = Ok i).
  Hypothesis (He : forall i y, edges_of h c !! i = Some y -> hom_edge x (uuid_of h y) = Ok i).
  Hypothesis (Hv : forall i y, values_of h c !! i = Some y -> hom_val x (uuid_of h y) = Ok i).
  Hypothesis Hd : forall e r, e ∈ edges_of h c -> r ∈ rels_of h e -> dir_of h r = Some BIDIRECTIONAL.
  Hypothesis (Hq : forall y, within h c y -> full_name h y (qualified_of h y)).
  Hypothesis W : WF0 h.

  Lemma q_root : exists_in h c -> qualified_of h c = name_of h c.
  Proof.
    intros Hc. destruct (Hq c) as (ls & P & ->); [by left|]. inversion P as [? _ _|? q ? _ H]; subst; [done|congruence].
  Qed.
  Lemma q_kid y : y ∈ children h c -> qualified_of h y = slash (name_of h c) (name_of h y).
  Proof.
    intros Hy. destruct (wf0_child h W c y Hy) as [_ Hpy]. destruct (Hq y) as (ls & P & ->); [right; by apply anc_parent|].
    inversion P as [? _ H|? q ls' _ H P']; subst; [congruence|]. assert (q = c) as -> by congruence.
    inversion P' as [? _ _|? q ? _ H']; subst; [done|congruence].
  Qed.
  Lemma q_rel e y : e ∈ children h c -> y ∈ children h e -> qualified_of h y = slash (name_of h c) (slash (name_of h e) (name_of h y)).
  Proof.
    intros Hy0 Hy. destruct (wf0_child h W c e Hy0) as [_ Hpe]. destruct (wf0_child h W e y Hy) as [_ Hpy].
    destruct (Hq y) as (ls & P & ->). { right. eapply anc_up; [exact Hpy|]. by apply anc_parent. }
    inversion P as [? _ H|? q ls' _ H P']; subst; [congruence|]. assert (q = e) as -> by congruence.
    inversion P' as [? _ ?|? q ls'' _ H' P'']; subst; [congruence|]. assert (q = c) as -> by congruence.
    inversion P'' as [? _ _|? q ? _ H'']; subst; [done|congruence].
  Qed.
  Lemma sent_standard k : sendable h c -> co_tens k = [] -> co_out k = [] -> co_in k = [] -> sent_msg s c x [] k = standard h c.
  Proof.
    intros G K1 K2 K3. assert (Hc : exists_in h c). { pose proof (sd_node _ _ G) as H. unfold kind_of in H. destruct (h !! c) eqn:Ec; [by eexists|done]. }
    assert (Hk : forall k y, y ∈ fkids (is_kind k) h c -> y ∈ children h c) by (intros k' y H; by apply fkids_el in H as [H _]).
    unfold sent_msg, standard. rewrite K1, K2, K3. cbn [app]. f_equal.
    - f_equal.
      + unfold mN. fold h. rewrite (Hn 0 c eq_refl). change (qn_of h c) with (qualified_of h c). by rewrite (q_root Hc).
      + apply map_imap. intros i l Hl. unfold mN. fold h. rewrite (Hn (S i) l Hl). change (qn_of h l) with (qualified_of h l).
        by rewrite (q_kid l) by (eapply Hk, elem_of_list_lookup_2, Hl).
    - apply map_imap. intros i l Hl. unfold mE. fold h. rewrite (He i l Hl). change (qn_of h l) with (qualified_of h l).
      by rewrite (q_kid l) by (eapply Hk, elem_of_list_lookup_2, Hl).
    - unfold mRs. apply flat_map_eq. intros e He0. apply map_eq'. intros r Hr. unfold mR. fold h. rewrite (Hd e r He0 Hr). change (qn_of h r) with (qualified_of h r). rewrite (q_rel e r); [done|by eapply Hk|]. by apply fkids_el in Hr as [Hr _].
    - apply map_imap. intros i l Hl. unfold mV. fold h. rewrite (Hv i l Hl). change (qn_of h l) with (qualified_of h l).
      by rewrite (q_kid l) by (eapply Hk, elem_of_list_lookup_2, Hl).
  Qed.
End standard.

(** ** The indices are positions *)
Lemma order_flat k h c ls : bfs_order (hom_trav k coo_conf) h c ls -> (forall y, y ∈ fkids (is_kind k) h c -> fkids (is_kind k) h y = []) ->
  ls = root_part (hom_trav k coo_conf) h c ++ fkids (is_kind k) h c.
Proof.
  intros O H. eapply bfs_order_fun; [exact O|]. exists 1. split; [|by rewrite level_order_1].
  cbn [hom_trav coo_conf hc_depth t_max t_filter level]. revert H. generalize (fkids (is_kind k) h c). induction l as [|y l IH]; intros H; [done|].
  cbn [flat_map]. rewrite (H y) by left. cbn [app]. apply IH. intros z Hz. apply H. by right.
Qed.
Lemma order_prefix k h c ls : bfs_order (hom_trav k coo_conf) h c ls -> exists ls', ls = root_part (hom_trav k coo_conf) h c ++ fkids (is_kind k) h c ++ ls'.
Proof.
  intros (n & Hn & ->). cbn [hom_trav coo_conf hc_depth t_max t_filter] in *. destruct n as [|n].
  - cbn [level] in Hn. exists []. rewrite Hn. done.
  - rewrite level_order_S_in. by eexists.
Qed.
Lemma root_part_kind k h c : root_part (hom_trav k coo_conf) h c = if bool_decide (k <$> kind_of h c = Some true) then [c] else [].
Proof.
  unfold root_part, accepts, is_kind, kind_of. cbn [hom_trav coo_conf t_filter t_ignore hc_ignore negb]. destruct (h !! c) as [o|]; cbn; [|done].
  change (is_kind k c o) with (k (o_kind o)). destruct (k (o_kind o)); cbn [andb]; [rewrite bool_decide_eq_true_2 by reflexivity; reflexivity|rewrite bool_decide_eq_false_2 by discriminate; reflexivity].
Qed.

(** ** Copies *)
Lemma map2_eq {A B C} (f : A -> C) (g : B -> C) l k : Forall2 (fun a b => f a = g b) l k -> map f l = map g k.
Proof. induction 1; [done|]. cbn. congruence. Qed.
Lemma imap2_eq {A B C} (f : nat -> A -> C) (g : nat -> B -> C) l k : Forall2 (fun a b => forall i, f i a = g i b) l k -> imap f l = imap g k.
Proof.
  intros H. revert f g H. revert k. induction l as [|a l IH]; intros k f g H; inversion H as [|? b ? k' H1 H2]; subst; [done|]. cbn [imap]. f_equal; [apply H1|].
  apply IH. eapply Forall2_impl; [exact H2|]. intros x y Hxy i. apply Hxy.
Qed.
Lemma flat_map2_eq {A B C} (f : A -> list C) (g : B -> list C) l k : Forall2 (fun a b => f a = g b) l k -> flat_map f l = flat_map g k.
Proof. induction 1; [done|]. cbn. congruence. Qed.
Lemma decoded_standard h c h0 h' root : decoded h c h0 h' root -> standard h' root = standard h c.
Proof.
  intros D. destruct (de_root _ _ _ _ _ D) as (_ & (_ & Ur & Nr) & _). unfold standard. rewrite Ur, Nr. f_equal.
  - f_equal. symmetry. apply imap2_eq. eapply Forall2_impl; [apply (de_nodes _ _ _ _ _ D)|]. intros a b [(_ & H1 & H2) _] i. cbn. by rewrite H1, H2.
  - symmetry. apply imap2_eq. eapply Forall2_impl; [apply (de_edges _ _ _ _ _ D)|]. intros a b [(_ & H1 & H2) _] i. cbn. by rewrite H1, H2.
  - symmetry. apply flat_map2_eq. eapply Forall2_impl; [apply (de_edges _ _ _ _ _ D)|]. intros a b ((_ & H1 & H2) & _ & F). cbn. rewrite H1, H2.
    apply map2_eq. eapply Forall2_impl; [exact F|]. intros r r' ((_ & H3 & H4) & H5 & _). cbn. by rewrite H3, H4, H5.
  - symmetry. apply imap2_eq. eapply Forall2_impl; [apply (de_values _ _ _ _ _ D)|]. intros a b [(_ & H1 & H2) [H3 _]] i. cbn. by rewrite H1, H2, H3.
Qed.
Lemma decoded_sendable h c h0 h' root : sendable h c -> decoded h c h0 h' root -> sendable h' root.
Proof.
  intros G D. destruct (de_root _ _ _ _ _ D) as (_ & (Kr & Ur & Nr) & Pr). constructor.
  - rewrite Kr. apply G.
  - done.
  - intros y Hy. rewrite Ur. apply elem_of_app in Hy as [Hy|Hy].
    + destruct (forall2_right _ _ _ _ (de_nodes _ _ _ _ _ D) Hy) as (z & Hz & (_ & E & _) & _). rewrite E. apply G. apply elem_of_app. by left.
    + destruct (forall2_right _ _ _ _ (de_edges _ _ _ _ _ D) Hy) as (z & Hz & (_ & E & _) & _). rewrite E. apply G. apply elem_of_app. by right.
  - intros e r He Hr. destruct (forall2_right _ _ _ _ (de_edges _ _ _ _ _ D) He) as (z & Hz & _ & _ & F).
    destruct (forall2_right _ _ _ _ F Hr) as (t & Ht & _ & _ & _ & p & Hp & Hin). by exists p, p.
  - intros v Hv. destruct (forall2_right _ _ _ _ (de_values _ _ _ _ _ D) Hv) as (z & Hz & _ & E & _). rewrite E. by apply G.
Qed.


(** ** A decoded graph *)
Lemma new_below h0 h' root y : (forall l, exists_in h0 l -> h' !! l = h0 !! l) -> WF0 h0 -> ~ exists_in h0 root -> within h' root y -> ~ exists_in h0 y.
Proof.
  intros Ho W Hr [->|A]; [done|]. revert Hr. induction A as [a l Hp|a q l Hp A IH]; intros Hr Hl; unfold parent_of in Hp; rewrite (Ho l Hl) in Hp;
    pose proof (wf0_parent_exists h0 l _ W Hp) as Hq; [by apply Hr|by apply (IH Hr)].
Qed.
Lemma new_index m h0 h' y : built m h0 h' -> ~ exists_in h0 y -> exists_in h' y -> exists i t, items m !! i = Some t /\ y = length h0 + i.
Proof.
  intros B Hn [o Ho]. assert (H1 : length h0 <= y). { destruct (decide (y < length h0)) as [H|H]; [|lia]. exfalso. apply Hn. by apply lookup_lt_is_Some. }
  apply lookup_lt_Some in Ho. rewrite (bu_len _ _ _ B) in Ho. destruct (lookup_lt_is_Some_2 (items m) (y - length h0)) as [t Ht]; [lia|].
  exists (y - length h0), t. split; [done|lia].
Qed.
Lemma nodup_kids h k c : WF0 h -> NoDup (map (uuid_of h) (fkids (is_kind k) h c)).
Proof. intros W. unfold fkids. apply map_filter_nodup. by apply child_uuids_nodup. Qed.
Lemma nodup_ctx h c : WF0 h -> sendable h c -> NoDup (map (uuid_of h) (c :: nodes_of h c)).
Proof.
  intros W G. cbn [map]. apply NoDup_cons. split; [|by apply nodup_kids]. intros H. apply elem_of_list_fmap in H as (y & E & Hy).
  apply (sd_uuid _ _ G y); [apply elem_of_app; by left|done].
Qed.
Lemma map_lookup {A B} (f : A -> B) l i a : l !! i = Some a -> map f l !! i = Some (f a).
Proof. intros H. change (map f l) with (f <$> l). by rewrite list_lookup_fmap, H. Qed.
Lemma sends_inv lim s c m : reach s -> sendable (heap s) c -> sends lim s c m ->
  exists r x k, hom_execute lim coo_conf c s hom0 = (Ok r, s, x) /\ m = sent_msg s c x [] k /\ co_tens k = [] /\ co_out k = [] /\ co_in k = [].
Proof.
  intros R G (ck & r & s' & g & g' & U & F). apply context_update in U as (x & U & ->). pose proof (reach_wf s R) as W.
  destruct (hom_sent s c lim hom0 r s' x R G U) as (-> & Hn & He & Hv & _).
  match type of F with full_msg s ?gg = _ => set (g1 := gg) in F end. assert (H1 : co_context (ic_coo g1) = c) by done. assert (H2 : co_hom (ic_coo g1) = Some x) by done.
  rewrite (full_msg_ok s c x W G Hn He Hv g1 H1 H2) in F. injection F as <- _. by exists r, x, (ic_coo g1).
Qed.
Lemma sends_copy m lim s0 g s1 g1 root x1 h c m' : reach s0 -> sendable h c -> create_graph m s0 g = (Ok (Some root, x1), s1, g1) ->
  decoded h c (heap s0) (heap s1) root -> sends lim s1 root m' -> m' = standard h c.
Proof.
  intros R0 G E D S. destruct (q_C89_built _ _ _ _ _ _ _ R0 E) as (R1 & B & _). pose proof (reach_wf _ R0) as W0. pose proof (reach_wf _ R1) as W1.
  pose proof (decoded_sendable _ _ _ _ _ G D) as G1. rewrite <- (decoded_standard _ _ _ _ _ D).
  destruct (sends_inv _ _ _ _ R1 G1 S) as (r & x & k & U & -> & K1 & K2 & K3).
  assert (Hr : exists_in (heap s1) root). { pose proof (sd_node _ _ G1) as H. unfold kind_of in H. destruct (heap s1 !! root) eqn:Ec; [by eexists|done]. }
  destruct (hom_shape s1 coo_conf root lim hom0 r s1 x R1 Hr U) as (_ & ns & es & vs & O1 & O2 & O3 & I1 & I2 & I3).
  pose proof (sd_node _ _ G1) as Kr.
  assert (Fn : ns = root :: nodes_of (heap s1) root).
  { rewrite (order_flat _ _ _ _ O1), root_part_kind.
    - rewrite bool_decide_true by (by rewrite Kr). done.
    - intros y Hy. destruct (forall2_right _ _ _ _ (de_nodes _ _ _ _ _ D) Hy) as (z & _ & _ & H). unfold fkids. by rewrite H. }
  assert (Fe : es = edges_of (heap s1) root).
  { rewrite (order_flat _ _ _ _ O2), root_part_kind.
    - rewrite bool_decide_false by (by rewrite Kr). done.
    - intros y Hy. destruct (forall2_right _ _ _ _ (de_edges _ _ _ _ _ D) Hy) as (z & _ & _ & H & _). unfold fkids. rewrite H. apply filter_none.
      intros w Hw. apply fkids_el in Hw as (_ & o & Ho & Hk). unfold accepts, is_kind. rewrite Ho. by destruct (o_kind o). }
  assert (Fv : vs = values_of (heap s1) root).
  { rewrite (order_flat _ _ _ _ O3), root_part_kind.
    - rewrite bool_decide_false by (by rewrite Kr). done.
    - intros y Hy. destruct (forall2_right _ _ _ _ (de_values _ _ _ _ _ D) Hy) as (z & _ & _ & _ & H). unfold fkids. by rewrite H. }
  assert (New : forall y, within (heap s1) root y -> ~ exists_in (heap s0) y).
  { intros y Hy. eapply new_below; [apply (de_old _ _ _ _ _ D)|done| |exact Hy]. apply (de_root _ _ _ _ _ D). }
  subst ns es vs. apply sent_standard; try done.
  - apply G1.
  - intros i y Hy. eapply index_pos; [exact I1|by apply nodup_ctx|]. by apply (map_lookup (uuid_of (heap s1))).
  - intros i y Hy. eapply index_pos; [exact I2|by apply nodup_kids|]. by apply map_lookup.
  - intros i y Hy. eapply index_pos; [exact I3|by apply nodup_kids|]. by apply map_lookup.
  - intros e y He Hy. apply fkids_el in He as (He & _). apply fkids_el in Hy as (Hy & _).
    destruct (wf0_child _ W1 root e He) as [_ Hpe]. destruct (wf0_child _ W1 e y Hy) as [Hey Hpy].
    assert (Hw : within (heap s1) root y). { right. eapply anc_up; [exact Hpy|]. by apply anc_parent. }
    destruct (new_index _ _ _ y B (New y Hw) Hey) as (i & t & Hi & ->). apply (bu_item _ _ _ B i t Hi).
  - intros y Hw. assert (Hey : exists_in (heap s1) y). { destruct Hw as [->|A]; [done|]. inversion A as [a l Hp|a q l Hp _]; subst; unfold parent_of in Hp; destruct (heap s1 !! y) eqn:Ey; try done; by eexists. }
    destruct (bu_names _ _ _ B y (New y Hw) Hey) as (q & Hq & Hf). unfold qualified_of, attr_of in *. by rewrite Hq.
Qed.

(** ** C90 *)
Lemma q_C90_relayed s c lim m m' : reach s -> sendable (heap s) c -> sends lim s c m -> relayed m m' -> m' = standard (heap s) c.
Proof.
  intros R G (ck & r & s' & g & g' & U & F) (s0 & g0 & root & x & s1 & g1 & lim' & R0 & E & S).
  destruct (q_C44 s c lim (new_icon ck c) r s' g R G eq_refl eq_refl U) as (x1 & m1 & g2 & -> & _ & F1 & K). rewrite F in F1. injection F1 as <- _.
  destruct (K s0 g0 R0) as (root' & x' & s3 & g3 & E' & R3 & _ & _ & D & _). rewrite E in E'. injection E' as <- <- <- <-.
  exact (sends_copy _ _ _ _ _ _ _ _ _ _ _ R0 G E D S).
Qed.
Lemma q_C90_decoded s c lim m m' : reach s -> sendable (heap s) c -> sends lim s c m -> relayed m m' ->
  exists s' c' lim', reach s' /\ sendable (heap s') c' /\ sends lim' s' c' m' /\ standard (heap s') c' = standard (heap s) c.
Proof.
  intros R G (ck & r & s' & g & g' & U & F) (s0 & g0 & root & x & s1 & g1 & lim' & R0 & E & S).
  destruct (q_C44 s c lim (new_icon ck c) r s' g R G eq_refl eq_refl U) as (x1 & m1 & g2 & -> & _ & F1 & K). rewrite F in F1. injection F1 as <- _.
  destruct (K s0 g0 R0) as (root' & x' & s3 & g3 & E' & R3 & _ & _ & D & _). rewrite E in E'. injection E' as <- <- <- <-.
  exists s1, root, lim'. split; [done|]. split; [by eapply decoded_sendable|]. split; [done|]. by eapply decoded_standard.
Qed.
Lemma relayed_n_graph n m m' : relayed_n n m m' -> forall s c lim, reach s -> sendable (heap s) c -> sends lim s c m ->
  (n = 0 /\ m' = m \/ m' = standard (heap s) c) /\
  exists s' c' lim', reach s' /\ sendable (heap s') c' /\ sends lim' s' c' m' /\ standard (heap s') c' = standard (heap s) c.
Proof.
  induction 1 as [m|n m m1 m2 H IH H2]; intros s c lim R G S.
  - split; [by left|]. by exists s, c, lim.
  - destruct (IH s c lim R G S) as (_ & s' & c' & lim' & R' & G' & S' & E). split.
    + right. rewrite <- E. by eapply q_C90_relayed.
    + destruct (q_C90_decoded _ _ _ _ _ R' G' S' H2) as (s2 & c2 & lim2 & R2 & G2 & S2 & E2). exists s2, c2, lim2. rewrite <- E. done.
Qed.
Lemma q_C90_any_number s c lim m n m' : reach s -> sendable (heap s) c -> sends lim s c m -> relayed_n (S n) m m' -> m' = standard (heap s) c.
Proof. intros R G S H. by destruct (relayed_n_graph _ _ _ H _ _ _ R G S) as [[[? _]|?] _]. Qed.
Lemma can_send s c (g : clockid) : reach s -> sendable (heap s) c -> exists n, forall lim, n < lim -> exists m, sends lim s c m.
Proof.
  intros R G. assert (Hc : exists_in (heap s) c). { pose proof (sd_node _ _ G) as H. unfold kind_of in H. destruct (heap s !! c) eqn:Ec; [by eexists|done]. }
  destruct (context_updatable s c (new_icon g c) R Hc) as (n & H). exists n. intros lim Hl. destruct (H lim Hl) as (r & g1 & U).
  destruct (q_C44 s c lim (new_icon g c) r s g1 R G eq_refl eq_refl U) as (x1 & m1 & g2 & _ & _ & F1 & _). by exists m1, g, r, s, g1, g2.
Qed.
Lemma q_C90_possible s c lim m : reach s -> sendable (heap s) c -> sends lim s c m -> forall n, exists m', relayed_n n m m'.
Proof.
  intros R G S n. induction n as [|n (m' & H)]; [exists m; constructor|].
  destruct (relayed_n_graph _ _ _ H _ _ _ R G S) as (_ & s' & c' & lim' & R' & G' & (ck & r & s'' & g & g' & U & F) & _).
  destruct (q_C44 s' c' lim' (new_icon ck c') r s'' g R' G' eq_refl eq_refl U) as (x1 & m1 & g2 & -> & _ & F1 & K). rewrite F in F1. injection F1 as <- _.
  destruct (K s' (new_icon 0 0) R') as (root' & x' & s3 & g3 & E' & R3 & _ & _ & D & _).
  destruct (can_send s3 root' 0 R3 (decoded_sendable _ _ _ _ _ G' D)) as (k & Hk). destruct (Hk (k + 1) ltac:(lia)) as (m2 & S2).
  exists m2. econstructor; [exact H|]. by exists s', (new_icon 0 0), root', x', s3, g3, (k + 1).
Qed.

(** A regular graph sends its standard message. *)
Lemma through_within f h c y : through f h c y -> within h c y /\ accepts f h y = true.
Proof. intros H. split; [right; by eapply through_ancestor|]. by destruct H. Qed.
Lemma order_distinct k h c ls : WF0 h -> exists_in h c -> bfs_order (hom_trav k coo_conf) h c ls -> distinct_uuids k h c -> NoDup (map (uuid_of h) ls).
Proof.
  intros W Hc (n & Hn & ->) Hd. cbn [hom_trav coo_conf hc_depth t_max t_filter] in *.
  assert (N : NoDup (root_part (hom_trav k coo_conf) h c ++ level_order (fkids (is_kind k) h) n (fkids (is_kind k) h c))).
  { pose proof (fkids_nodup h W (is_kind k) n c Hc) as N. rewrite root_part_kind. case_bool_decide; [done|]. by apply NoDup_cons in N as [_ N]. }
  assert (P : forall y, y ∈ root_part (hom_trav k coo_conf) h c ++ level_order (fkids (is_kind k) h) n (fkids (is_kind k) h c) -> within h c y /\ k <$> kind_of h y = Some true).
  { intros y Hy. apply elem_of_app in Hy as [Hy|Hy].
    - rewrite root_part_kind in Hy. case_bool_decide; [|inversion Hy]. apply elem_of_list_singleton in Hy as ->. split; [by left|done].
    - apply elem_of_level_order in Hy as (i & _ & Hy). apply (level_through h W) in Hy. apply through_within in Hy as [H1 H2]. split; [done|].
      unfold accepts, is_kind, kind_of in *. destruct (h !! y); [|done]. cbn. by rewrite H2. }
  revert N P. generalize (root_part (hom_trav k coo_conf) h c ++ level_order (fkids (is_kind k) h) n (fkids (is_kind k) h c)).
  induction l as [|a l IH]; intros N P; [constructor|]. cbn [map]. apply NoDup_cons in N as [Na N]. apply NoDup_cons. split.
  - intros H. apply elem_of_list_fmap in H as (b & E & Hb). apply Na. destruct (P a ltac:(left)) as [A1 A2]. destruct (P b ltac:(by right)) as [B1 B2].
    by rewrite (Hd a b A1 B1 A2 B2 E).
  - apply IH; [done|]. intros y Hy. apply P. by right.
Qed.
Lemma q_C90_unchanged s c lim m : reach s -> sendable (heap s) c -> regular (heap s) c -> sends lim s c m -> m = standard (heap s) c.
Proof.
  intros R G [Rd Rn (U1 & U2 & U3)] S. pose proof (reach_wf s R) as W. destruct (sends_inv _ _ _ _ R G S) as (r & x & k & U & -> & K1 & K2 & K3).
  assert (Hc : exists_in (heap s) c). { pose proof (sd_node _ _ G) as H. unfold kind_of in H. destruct (heap s !! c) eqn:Ec; [by eexists|done]. }
  destruct (hom_shape s coo_conf c lim hom0 r s x R Hc U) as (_ & ns & es & vs & O1 & O2 & O3 & I1 & I2 & I3). pose proof (sd_node _ _ G) as Kr.
  pose proof (order_distinct _ _ _ _ W Hc O1 U1) as N1. pose proof (order_distinct _ _ _ _ W Hc O2 U2) as N2. pose proof (order_distinct _ _ _ _ W Hc O3 U3) as N3.
  destruct (order_prefix _ _ _ _ O1) as (ns' & Fn). rewrite root_part_kind, bool_decide_true in Fn by (by rewrite Kr). 
  destruct (order_prefix _ _ _ _ O2) as (es' & Fe). rewrite root_part_kind, bool_decide_false in Fe by (by rewrite Kr). cbn [app] in Fe.
  destruct (order_prefix _ _ _ _ O3) as (vs' & Fv). rewrite root_part_kind, bool_decide_false in Fv by (by rewrite Kr). cbn [app] in Fv.
  change ([c] ++ fkids (is_kind k_node) (heap s) c ++ ns') with ((c :: nodes_of (heap s) c) ++ ns') in Fn.
  subst ns es vs. apply sent_standard; try done.
  - apply G.
  - intros i y Hy. eapply index_pos; [exact I1|done|]. apply (map_lookup (uuid_of (heap s))). by apply lookup_app_l_Some.
  - intros i y Hy. eapply index_pos; [exact I2|done|]. apply map_lookup. by apply lookup_app_l_Some.
  - intros i y Hy. eapply index_pos; [exact I3|done|]. apply map_lookup. by apply lookup_app_l_Some.
Qed.
