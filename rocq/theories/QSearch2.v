(** * C42 *)
From Verif Require Import Spec Hierarchy Elements Factory History PDict PPath PExec PBfs PWF PMono PReach PHist Traverse SpecTrav QTrav QTrav2 Search SpecSearch QSearch.

Lemma within_up h r x p : parent_of h x = Some p -> ancestor h r x -> within h r p.
Proof. intros Hp Ha. destruct Ha as [? ? H|? ? ? H Ha]; rewrite Hp in H; injection H as ->; [by left|by right]. Qed.
Lemma within_parent h r x p : parent_of h x = Some p -> within h r p -> within h r x.
Proof. intros Hp [->|Ha]; right; [by apply anc_parent|by eapply anc_up]. Qed.
Lemma within_trans h a b c : within h a b -> within h b c -> within h a c.
Proof. intros [->|H1] [->|H2]; [by left|by right|by right|right; by eapply ancestor_trans]. Qed.
Lemma same_tree_up h a x p : parent_of h x = Some p -> same_tree h a x -> same_tree h a p.
Proof.
  intros Hp (r & H1 & [->|H2]).
  - exists p. split; [|by left]. eapply within_trans; [|done]. by apply (within_parent h p r p); [|left].
  - exists r. split; [done|]. by apply (within_up h r x p).
Qed.
Lemma same_tree_down h a x p : parent_of h x = Some p -> same_tree h a p -> same_tree h a x.
Proof. intros Hp (r & H1 & H2). exists r. split; [done|]. by apply (within_parent h r x p). Qed.

Section whole.
  Context (s : st) (W : WF0 (heap s)) (start : loc) (Hstart : exists_in (heap s) start) (d : string).
  Let h := heap s.
  Definition seen (V : list loc) (u : uid) : Prop := u ∈ map (uuid_of h) V.
  Instance seen_dec V u : Decision (seen V u).
  Proof. unfold seen. apply _. Defined.
  Record Inv (q V : list loc) : Prop := {
    iv_q : forall l, l ∈ q -> exists_in h l /\ same_tree h start l;
    iv_V : forall l, l ∈ V -> exists_in h l /\ same_tree h start l /\ qname_of h l <> d;
    iv_start : start ∈ q \/ start ∈ V;
    iv_par : forall l p, l ∈ V -> parent_of h l = Some p -> p ∈ V \/ p ∈ q;
    iv_kid : forall l c, l ∈ V -> c ∈ children h l -> seen V (uuid_of h c) \/ c ∈ q }.
  Definition knows (x : searcher) (V : list loc) : Prop :=
    sr_def x = d /\ sr_result x = [] /\ sr_visited x = map (uuid_of h) V.
  (** What holds at the end. *)
  Definition post (x' : searcher) : Prop :=
    (exists y, sr_result x' = [y] /\ qname_of h y = d /\ same_tree h start y /\ exists_in h y) \/
    (sr_result x' = [] /\ exists V, Inv [] V).
  Definition good (q : list loc) (x : searcher) : Prop :=
    exists N q' x', (forall lim, N <= lim -> search WholeTree lim s q x = (Ok tt, q', x')) /\ post x'.
  Definition next (V : list loc) (l : loc) : list loc :=
    filter (fun c => ~ seen V (uuid_of h c)) (children h l) ++ match parent_of h l with Some p => [p] | None => [] end.

  Lemma whole_succ l o x V : h !! l = Some o -> sr_visited x = map (uuid_of h) V -> successors WholeTree s o l x = Ok (next V l).
  Proof.
    intros Ho Hv. unfold successors. rewrite subs_all by (done || by eexists). f_equal. unfold next. f_equal.
    - rewrite filter_bool. fold h. rewrite Hv. assert (Hk : forall c, c ∈ children h l -> exists_in h c) by (intros c Hc; by apply (wf0_child h W l)).
      revert Hk. generalize (children h l). induction l0 as [|c cs IH]; intros Hk; [done|]. rewrite !filter_cons.
      destruct (Hk c ltac:(left)) as [oc Hc]. rewrite Hc. assert (E : uuid_of h c = o_uuid oc) by (unfold uuid_of; by rewrite Hc).
      assert (D : bool_decide (o_uuid oc ∉ map (uuid_of h) V) = true <-> ~ seen V (uuid_of h c)) by (rewrite bool_decide_eq_true, E; done).
      rewrite IH by (intros; apply Hk; by right). destruct (decide (~ seen V (uuid_of h c))) as [H1|H1].
      + by rewrite decide_True by (by apply D).
      + rewrite decide_False; [done|]. intros X. by apply H1, D.
    - unfold parent_of. rewrite Ho. done.
  Qed.

  Lemma inv_step l q V : Inv (l :: q) V -> qname_of h l <> d -> Inv (q ++ next (V ++ [l]) l) (V ++ [l]).
  Proof.
    intros I Hn. destruct (iv_q _ _ I l ltac:(left)) as [Hex Htr]. split.
    - intros y Hy. apply elem_of_app in Hy as [Hy|Hy]; [apply (iv_q _ _ I); by right|]. unfold next in Hy. apply elem_of_app in Hy as [Hy|Hy].
      + apply elem_of_list_filter in Hy as [_ Hy]. destruct (wf0_child h W l y Hy) as [H1 H2]. split; [done|]. by eapply same_tree_down.
      + destruct (parent_of h l) as [p|] eqn:Ep; [|inversion Hy]. apply elem_of_list_singleton in Hy as ->. split; [by eapply wf0_parent_exists|by eapply same_tree_up].
    - intros y Hy. apply elem_of_app in Hy as [Hy|Hy]; [by apply (iv_V _ _ I)|]. apply elem_of_list_singleton in Hy as ->. done.
    - destruct (iv_start _ _ I) as [Hs|Hs]; [|right; apply elem_of_app; by left]. apply elem_of_cons in Hs as [->|Hs]; [right; apply elem_of_app; right; left|left; apply elem_of_app; by left].
    - intros v p Hv Hp. apply elem_of_app in Hv as [Hv|Hv].
      + destruct (iv_par _ _ I v p Hv Hp) as [H|H]; [left; apply elem_of_app; by left|]. apply elem_of_cons in H as [->|H]; [left; apply elem_of_app; right; left|right; apply elem_of_app; by left].
      + apply elem_of_list_singleton in Hv as ->. right. apply elem_of_app. right. unfold next. apply elem_of_app. right. rewrite Hp. left.
    - intros v c Hv Hc. unfold seen. apply elem_of_app in Hv as [Hv|Hv].
      + destruct (iv_kid _ _ I v c Hv Hc) as [H|H].
        * left. rewrite map_app. apply elem_of_app. by left.
        * apply elem_of_cons in H as [->|H]; [left; rewrite map_app; apply elem_of_app; right; left|right; apply elem_of_app; by left].
      + apply elem_of_list_singleton in Hv as ->. destruct (decide (seen (V ++ [l]) (uuid_of h c))) as [H|H]; [by left|].
        right. apply elem_of_app. right. unfold next. apply elem_of_app. left. by apply elem_of_list_filter.
  Qed.

  Lemma good_nil V x : Inv [] V -> knows x V -> good [] x.
  Proof.
    intros I (_ & Hr & _). exists 1, [], x. split; [|right; split; [done|by exists V]]. intros [|lim] Hl; [lia|done].
  Qed.
  Lemma good_hit l q V x : Inv (l :: q) V -> knows x V -> qname_of h l = d -> good (l :: q) x.
  Proof.
    intros I (Hd & Hr & _) Hq. destruct (iv_q _ _ I l ltac:(left)) as [[o Ho] Htr]. exists 1, q, (found l o (mark WholeTree (o_uuid o) x)). split.
    - intros [|lim] Hl; [lia|]. cbn [search]. fold h. rewrite Ho. rewrite decide_True; [done|]. by rewrite Hd, <- (qname_lookup _ _ _ Ho).
    - left. exists l. cbn. rewrite Hr. split; [done|]. split; [done|]. split; [done|]. by eexists.
  Qed.
  Lemma good_step l q V x : Inv (l :: q) V -> knows x V -> qname_of h l <> d ->
    (forall x', knows x' (V ++ [l]) -> good (q ++ next (V ++ [l]) l) x') -> good (l :: q) x.
  Proof.
    intros I (Hd & Hr & Hv) Hq Hnext. destruct (iv_q _ _ I l ltac:(left)) as [[o Ho] Htr].
    assert (Hu : uuid_of h l = o_uuid o) by (unfold uuid_of; by rewrite Ho).
    assert (Hk : knows (mark WholeTree (o_uuid o) x) (V ++ [l])).
    { split; [done|]. split; [done|]. cbn. by rewrite Hv, map_app, <- Hu. }
    destruct (Hnext _ Hk) as (N & q' & x' & HN & Hp). exists (S N), q', x'. split; [|done]. intros [|lim] Hl; [lia|]. cbn [search]. fold h. rewrite Ho.
    rewrite decide_False by (by rewrite Hd, <- (qname_lookup _ _ _ Ho)). rewrite (whole_succ l o _ (V ++ [l]) Ho) by apply Hk. apply HN. lia.
  Qed.

  (** Number of elements with a uuid not seen *)
  Definition unseen (V : list loc) : list loc := filter (fun l => ~ seen V (uuid_of h l)) (seq 0 (length h)).
  Lemma seen_snoc V l u : seen (V ++ [l]) u <-> seen V u \/ u = uuid_of h l.
  Proof. unfold seen. rewrite map_app, elem_of_app. cbn. by rewrite elem_of_list_singleton. Qed.
  Lemma unseen_le V l : length (unseen (V ++ [l])) <= length (unseen V).
  Proof.
    unfold unseen. generalize (seq 0 (length h)). induction l0 as [|a l0 IH]; [done|]. rewrite !filter_cons.
    destruct (decide (~ seen (V ++ [l]) (uuid_of h a))) as [H1|H1], (decide (~ seen V (uuid_of h a))) as [H2|H2]; cbn; try lia.
    exfalso. apply H2. intros X. apply H1. apply seen_snoc. by left.
  Qed.
  Lemma unseen_lt V l : exists_in h l -> ~ seen V (uuid_of h l) -> length (unseen (V ++ [l])) < length (unseen V).
  Proof.
    intros Hex Hns. unfold unseen. assert (Hin : l ∈ seq 0 (length h)) by (apply elem_of_seq; destruct Hex as [o Ho]; apply lookup_lt_Some in Ho; lia).
    apply elem_of_list_split in Hin as (l1 & l2 & ->). rewrite !filter_app, !app_length, !filter_cons.
    rewrite (decide_True (P := ~ seen V _)) by done. rewrite decide_False by (intros X; apply X, seen_snoc; by right).
    assert (G : forall k, length (filter (fun a => ~ seen (V ++ [l]) (uuid_of h a)) k) <= length (filter (fun a => ~ seen V (uuid_of h a)) k)).
    { induction k as [|a k IH]; [done|]. rewrite !filter_cons.
      destruct (decide (~ seen (V ++ [l]) (uuid_of h a))) as [H1|H1], (decide (~ seen V (uuid_of h a))) as [H2|H2]; cbn; try lia.
      exfalso. apply H2. intros X. apply H1. apply seen_snoc. by left. }
    pose proof (G l1). pose proof (G l2). cbn [length]. lia.
  Qed.

  Definition all_good (n : nat) : Prop := forall q V x, Inv q V -> knows x V -> length (unseen V) < n -> good q x.
  Lemma good_unseen n : all_good n -> forall p q V x z, Inv q V -> knows x V -> length (unseen V) < S n -> q !! p = Some z -> ~ seen V (uuid_of h z) -> good q x.
  Proof.
    intros IHn. induction p as [|p IHp]; intros q V x z I Hk Hn Hz Hns; (destruct q as [|l q]; [done|]); cbn in Hz.
    - injection Hz as ->. destruct (decide (qname_of h z = d)) as [Hd|Hd]; [by eapply good_hit|].
      eapply good_step; [done|done|done|]. intros x' Hk'. eapply IHn; [by apply inv_step|done|].
      pose proof (unseen_lt V z (proj1 (iv_q _ _ I z ltac:(left))) Hns). lia.
    - destruct (decide (qname_of h l = d)) as [Hd|Hd]; [by eapply good_hit|]. eapply good_step; [done|done|done|]. intros x' Hk'.
      destruct (decide (seen V (uuid_of h l))) as [Hs|Hs].
      + eapply (IHp _ _ _ z); [by apply inv_step|done| | |].
        * pose proof (unseen_le V l). lia.
        * apply lookup_app_l_Some. done.
        * intros X. apply seen_snoc in X as [X|X]; [done|]. rewrite X in Hns. done.
      + eapply IHn; [by apply inv_step|done|]. pose proof (unseen_lt V l (proj1 (iv_q _ _ I l ltac:(left))) Hs). lia.
  Qed.
  Lemma good_depth n : all_good n -> forall c q ps V x, Inv q V -> knows x V -> length (unseen V) < S n -> Forall2 (path h) q ps ->
    length (concat ps) <= c -> good q x.
  Proof.
    intros IHn. induction c as [|c IHc]; intros q ps V x I Hk Hn Hps Hc.
    - destruct Hps as [|l p q ps Hl Hps]; [by eapply good_nil|]. destruct (path_cons _ _ _ Hl) as [p' ->]. cbn in Hc. lia.
    - destruct Hps as [|l p q ps Hl Hps]; [by eapply good_nil|].
      destruct (decide (qname_of h l = d)) as [Hd|Hd]; [by eapply good_hit|]. eapply good_step; [done|done|done|]. intros x' Hk'.
      pose proof (inv_step l q V I Hd) as I'. destruct (decide (seen V (uuid_of h l))) as [Hs|Hs].
      2: { eapply IHn; [done|done|]. pose proof (unseen_lt V l (proj1 (iv_q _ _ I l ltac:(left))) Hs). lia. }
      pose proof (unseen_le V l) as Hle.
      destruct (decide (filter (fun c => ~ seen (V ++ [l]) (uuid_of h c)) (children h l) = [])) as [E|E].
      + unfold next in *. rewrite E in *. cbn [app] in *. destruct Hl as [l Hlx Hlp|l p' pl Hlx Hlp Hlq]; cbn in Hc.
        * rewrite Hlp in *. rewrite app_nil_r in *. eapply (IHc q ps); [done|done|lia|done|lia].
        * rewrite Hlp in *. eapply (IHc _ (ps ++ [pl])); [done|done|lia| |].
          -- apply Forall2_app; [done|]. by constructor.
          -- rewrite concat_app, app_length. cbn. rewrite app_nil_r. rewrite app_length in Hc. lia.
      + destruct (filter _ _) as [|z zs] eqn:Ef; [done|]. assert (Hz : z ∈ z :: zs) by left. rewrite <- Ef in Hz. apply elem_of_list_filter in Hz as [Hz1 Hz2].
        eapply (good_unseen n IHn (length q) _ _ _ z); [done|done|lia| |done]. unfold next. rewrite lookup_app_r by done. rewrite Nat.sub_diag, Ef. done.
  Qed.
  Lemma paths_of q : (forall l, l ∈ q -> exists_in h l) -> exists ps, Forall2 (path h) q ps.
  Proof.
    induction q as [|l q IH]; intros H; [by exists []|]. destruct IH as [ps Hps]; [intros; apply H; by right|]. destruct (wf_acy h W l (H l ltac:(left))) as [p Hp].
    exists (p :: ps). by constructor.
  Qed.
  Lemma all_good_n n : all_good n.
  Proof.
    induction n as [|n IH]; intros q V x I Hk Hn; [lia|]. destruct (paths_of q) as [ps Hps]; [intros l Hl; by apply (iv_q _ _ I)|].
    by eapply (good_depth n IH (length (concat ps)) q ps V).
  Qed.
  Lemma inv_init : Inv [start] [].
  Proof.
    split.
    - intros l Hl. apply elem_of_list_singleton in Hl as ->. split; [done|]. exists start. split; by left.
    - intros l Hl. inversion Hl.
    - left. left.
    - intros l p Hl. inversion Hl.
    - intros l p Hl. inversion Hl.
  Qed.
  Lemma whole_good x : knows x [] -> good [start] x.
  Proof. intros Hk. eapply (all_good_n (S (length (unseen [])))); [apply inv_init|done|lia]. Qed.

  (** Everything has been visited. *)
  Lemma inv_end V : Inv [] V -> (forall a b, same_tree h start a -> same_tree h start b -> exists_in h a -> exists_in h b -> uuid_of h a = uuid_of h b -> a = b) ->
    forall z, same_tree h start z -> exists_in h z -> z ∈ V.
  Proof.
    intros I U. assert (Hup : forall r l, l ∈ V -> within h r l -> r ∈ V).
    { intros r l Hl [->|Ha]; [done|]. induction Ha as [a l Hp|a q l Hp Ha IH]; destruct (iv_par _ _ I l _ Hl Hp) as [H|H]; try (by inversion H); [done|by apply IH]. }
    assert (Hdn : forall r l, r ∈ V -> within h r l -> exists_in h l -> l ∈ V).
    { intros r l Hr [->|Ha] Hex; [done|].
      assert (Hstep : forall p c, p ∈ V -> parent_of h c = Some p -> exists_in h c -> c ∈ V).
      { intros p c Hp Hpar Hc. pose proof (wf0_parent h W p c Hc Hpar) as Hkid. destruct (iv_kid _ _ I p c Hp Hkid) as [Hs|Hs]; [|inversion Hs].
        apply elem_of_list_fmap in Hs as (w & Hw & HwV). destruct (iv_V _ _ I w HwV) as (Hwe & Hwt & _). destruct (iv_V _ _ I p Hp) as (_ & Hpt & _).
        rewrite (U c w); [done| |done|done|done|done]. by eapply same_tree_down. }
      induction Ha as [a l Hp|a q l Hp Ha IH]; [by eapply Hstep|]. eapply Hstep; [|done|done]. apply IH; [done|]. by eapply wf0_parent_exists. }
    intros z (r & Hr1 & Hr2) Hz. apply (Hdn r z); [|done|done]. apply (Hup r start); [|done]. destruct (iv_start _ _ I) as [H|H]; [inversion H|done].
  Qed.
End whole.

Lemma q_C42 s start d : reach s -> exists_in (heap s) start ->
  exists N s' x', (forall lim, N <= lim -> search_execute WholeTree lim start s (new_searcher d) = (Ok [], s', x')) /\ heap s' = heap s /\
    (sr_result x' = [] \/ exists y, sr_result x' = [y] /\ qname_of (heap s) y = d /\ same_tree (heap s) start y /\ exists_in (heap s) y) /\
    (distinct_uuids (heap s) start -> (exists z, same_tree (heap s) start z /\ exists_in (heap s) z /\ qname_of (heap s) z = d) -> sr_result x' <> []).
Proof.
  intros R Hs. pose proof (reach_wf s R) as W. destruct (reach_fr s R) as (_ & _ & Hq).
  destruct (whole_good s W start Hs d (new_searcher d)) as (N & q' & x' & HN & Hp); [done|].
  exists N, (set_fr_query q' s), x'. split.
  - intros lim Hl. unfold search_execute, new_searcher. cbn [sr_def sr_cache dget]. rewrite Hq. cbn [app]. unfold new_searcher in HN. by rewrite HN.
  - split; [by destruct s|]. split.
    + destruct Hp as [Hp|[Hp _]]; [by right|by left].
    + intros U (z & Hz1 & Hz2 & Hz3). destruct Hp as [(y & -> & _)|[Hp (V & I)]]; [done|]. exfalso.
      pose proof (inv_end s W start d V I U z Hz1 Hz2) as Hin. destruct (iv_V _ _ _ _ _ I z Hin) as (_ & _ & Hn). exact (Hn Hz3).
Qed.
