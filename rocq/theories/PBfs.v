(** * Levels of a forest; the refresh of a whole subtree *)
From Verif Require Import Spec Hierarchy PDict PPath PExec.

Lemma elem_of_flat_map {A B} (f : A -> list B) l y :
  y ∈ flat_map f l <-> exists x, x ∈ l /\ y ∈ f x.
Proof.
  rewrite elem_of_list_In, in_flat_map.
  split; intros [x [H1 H2]]; exists x; rewrite ?elem_of_list_In in *; auto.
Qed.
Lemma flat_map_app' {A B} (f : A -> list B) l l' : flat_map f (l ++ l') = flat_map f l ++ flat_map f l'.
Proof. apply flat_map_app. Qed.

Lemma level_S_in {A} (kids : A -> list A) n xs : level kids (S n) xs = level kids n (flat_map kids xs).
Proof. induction n as [|n IH]; [done|]. cbn [level]. f_equal. exact IH. Qed.

Lemma level_nil {A} (kids : A -> list A) n : level kids n [] = [].
Proof. induction n as [|n IH]; [done|]. cbn [level]. by rewrite IH. Qed.

Lemma level_order_S {A} (kids : A -> list A) n xs : level_order kids (S n) xs = level_order kids n xs ++ level kids n xs.
Proof.
  unfold level_order. rewrite seq_S, flat_map_app'. simpl. by rewrite app_nil_r.
Qed.
Lemma level_order_S_in {A} (kids : A -> list A) n xs :
  level_order kids (S n) xs = xs ++ level_order kids n (flat_map kids xs).
Proof.
  induction n as [|n IH].
  - unfold level_order. simpl. done.
  - rewrite level_order_S, IH, (level_order_S kids n (flat_map kids xs)), <- app_assoc.
    f_equal. f_equal. apply level_S_in.
Qed.
Lemma elem_of_level_order {A} (kids : A -> list A) n xs y :
  y ∈ level_order kids n xs <-> exists k, k < n /\ y ∈ level kids k xs.
Proof.
  unfold level_order. rewrite elem_of_flat_map. split.
  - intros (k & Hk & Hy). apply elem_of_seq in Hk. exists k. split; [lia|done].
  - intros (k & Hk & Hy). exists k. split; [apply elem_of_seq; lia|done].
Qed.

Section forest.
  Context (h : list obj) (kids : loc -> list loc).
  Hypothesis Hkid : forall p c, c ∈ kids p -> exists_in h c /\ parent_of h c = Some p.
  Hypothesis Hnd : forall p, NoDup (kids p).
  Hypothesis Hacy : forall l, exists_in h l -> exists ls, path h l ls.

  Lemma level_path c lc n x : path h c lc -> x ∈ level kids n [c] ->
    exists ls, path h x ls /\ length ls = n + length lc /\ c ∈ ls.
  Proof.
    intros Hc. revert x. induction n as [|n IH]; intros x Hx; simpl in Hx.
    - apply elem_of_list_singleton in Hx as ->. exists lc. split; [done|]. split; [done|].
      destruct (path_cons _ _ _ Hc) as [? ->]. left.
    - apply elem_of_flat_map in Hx as (p & Hp & Hx). destruct (IH p Hp) as (lp & Hlp & Hlen & Hin).
      destruct (Hkid _ _ Hx) as [He Hpar]. exists (x :: lp).
      split; [by eapply path_step|]. split; [simpl; lia|by right].
  Qed.

  Lemma flat_map_nodup xs : NoDup xs -> NoDup (flat_map kids xs).
  Proof.
    induction xs as [|x xs IH]; simpl; intros H; [constructor|].
    apply NoDup_cons in H as [Hx H]. apply NoDup_app. split; [apply Hnd|]. split; [|by apply IH].
    intros y Hy Hy'. apply elem_of_flat_map in Hy' as (x' & Hx' & Hy'').
    destruct (Hkid _ _ Hy) as [_ H1]. destruct (Hkid _ _ Hy'') as [_ H2].
    apply Hx. congruence.
  Qed.
  Lemma level_nodup n c : NoDup (level kids n [c]).
  Proof. induction n as [|n IH]; simpl; [apply NoDup_singleton|by apply flat_map_nodup]. Qed.

  Lemma level_order_nodup n c lc : path h c lc -> NoDup (level_order kids n [c]).
  Proof.
    intros Hc. induction n as [|n IH]; [constructor|]. rewrite level_order_S. apply NoDup_app.
    split; [done|]. split; [|apply level_nodup].
    intros x Hx Hx'. apply elem_of_level_order in Hx as (k & Hk & Hx).
    destruct (level_path c lc k x Hc Hx) as (l1 & H1 & Hl1 & _).
    destruct (level_path c lc n x Hc Hx') as (l2 & H2 & Hl2 & _).
    rewrite (path_det _ _ _ _ H1 H2) in Hl1. lia.
  Qed.
  Lemma level_order_bound n c lc : path h c lc -> length (level_order kids n [c]) <= length h.
  Proof.
    intros Hc. assert (Hsub : level_order kids n [c] ⊆+ seq 0 (length h)).
    { apply NoDup_submseteq; [by eapply level_order_nodup|]. intros x Hx.
      apply elem_of_level_order in Hx as (k & _ & Hx).
      destruct (level_path c lc k x Hc Hx) as (l1 & H1 & _).
      destruct (path_exists _ _ _ H1) as [o Ho]. apply lookup_lt_Some in Ho. apply elem_of_seq. lia. }
    apply submseteq_length in Hsub. by rewrite seq_length in Hsub.
  Qed.
  Lemma level_empty c lc : path h c lc -> level kids (length h) [c] = [].
  Proof.
    intros Hc. assert (Hge : forall n, level kids n [c] <> [] -> S n <= length (level_order kids (S n) [c])).
    { induction n as [|n IH]; intros Hne; rewrite level_order_S, app_length.
      - simpl. lia.
      - assert (H1 : level kids n [c] <> []) by (intros E; apply Hne; simpl; by rewrite E).
        specialize (IH H1). assert (Hl : length (level kids (S n) [c]) <> 0) by (destruct (level kids (S n) [c]); done). lia. }
    destruct (level kids (length h) [c]) eqn:E; [done|].
    specialize (Hge (length h)). rewrite E in Hge.
    pose proof (level_order_bound (S (length h)) c lc Hc). specialize (Hge ltac:(done)). lia.
  Qed.
End forest.

(** Elements of the subtree, by levels. *)
Lemma within_level h a x :
  (forall p c, exists_in h c -> parent_of h c = Some p -> c ∈ children h p) ->
  (forall l, exists_in h l -> exists ls, path h l ls) ->
  exists_in h x -> within h a x -> exists n, x ∈ level (children h) n [a].
Proof.
  intros Hch Hacy Hx [->|Ha].
  - exists 0. simpl. by left.
  - destruct (Hacy x Hx) as [ls Hp]. revert Ha.
    induction Hp as [l He Hp|l q ls He Hp Hq IH]; intros Ha; inversion Ha; subst.
    + congruence.
    + congruence.
    + assert (a = q) as -> by congruence. exists 1. simpl. rewrite app_nil_r. by apply Hch.
    + assert (q0 = q) as -> by congruence.
      destruct IH as [n Hn]; [by eapply path_exists|done|]. exists (S n). simpl.
      apply elem_of_flat_map. exists q. split; [done|]. by apply Hch.
Qed.

(** One level of the loop of __update_element. *)
Lemma update_loop_level s fuel xs ys :
  (forall x, x ∈ xs -> exists ls, path (heap s) x ls) ->
  (forall x, x ∈ xs -> clocked (heap s) x) ->
  length xs <= fuel ->
  exists s', touch xs s s' /\
    update_loop fuel (xs ++ ys) s
    = update_loop (fuel - length xs) (ys ++ flat_map (children (heap s)) xs) s'.
Proof.
  revert s fuel ys. induction xs as [|x xs IH]; intros s fuel ys Hp Hc Hf; simpl in *.
  - exists s. split; [apply touch_refl|]. by rewrite app_nil_r, Nat.sub_0_r.
  - destruct fuel as [|fuel]; [lia|]. destruct (Hp x) as [ls Hx]; [by left|].
    destruct (update_ok s x ls Hx) as (s1 & E1 & T1); [apply Hc; by left|].
    pose proof (touch_heq _ _ _ T1) as Hq.
    destruct (IH s1 fuel (ys ++ children (heap s) x)) as (s2 & T2 & E2).
    + intros y Hy. destruct (Hp y) as [ls' Hy']; [by right|]. exists ls'. by eapply heq_path.
    + intros y Hy. eapply heq_clocked; [done|]. apply Hc. by right.
    + lia.
    + exists s2. split.
      * change (x :: xs) with ([x] ++ xs). by eapply touch_trans.
      * cbn [update_loop]. rewrite (bind_ok _ _ _ _ _ E1).
        destruct (path_exists _ _ _ Hx) as [o Ho].
        destruct (heq_lookup _ _ _ _ Hq Ho) as (o1 & Ho1 & Hb).
        rewrite (bind_ok _ _ _ _ _ (deref_ok _ _ _ Ho1)).
        assert (Hsub : dvals (o_subs o1) = children (heap s) x).
        { unfold children. rewrite Ho. apply (f_equal o_subs) in Hb. simpl in Hb. by rewrite Hb. }
        rewrite Hsub, <- app_assoc, E2. f_equal.
        rewrite <- app_assoc. f_equal. f_equal.
        apply flat_map_ext. intros y. by apply heq_children.
Qed.

Lemma update_loop_levels s fuel n xs :
  (forall k x, x ∈ level (children (heap s)) k xs -> exists ls, path (heap s) x ls) ->
  (forall k x, x ∈ level (children (heap s)) k xs -> clocked (heap s) x) ->
  level (children (heap s)) n xs = [] ->
  length (level_order (children (heap s)) n xs) <= fuel ->
  exists s', touch (level_order (children (heap s)) n xs) s s' /\ update_loop fuel xs s = (Ok tt, s').
Proof.
  revert s fuel xs. induction n as [|n IH]; intros s fuel xs Hp Hc Hn Hf.
  - simpl in Hn. subst xs. exists s. split; [apply touch_refl|]. by destruct fuel.
  - rewrite level_order_S_in, app_length in Hf.
    destruct (update_loop_level s fuel xs []) as (s1 & T1 & E1).
    + apply (Hp 0).
    + apply (Hc 0).
    + lia.
    + pose proof (touch_heq _ _ _ T1) as Hq.
      assert (Hk : forall m ys, level (children (heap s1)) m ys = level (children (heap s)) m ys).
      { intros m ys. induction m as [|m IHm]; [done|]. simpl. rewrite IHm. apply flat_map_ext.
        intros y. by apply heq_children. }
      assert (Ho : forall m ys, level_order (children (heap s1)) m ys = level_order (children (heap s)) m ys).
      { intros m ys. unfold level_order. apply flat_map_ext. intros k. apply Hk. }
      destruct (IH s1 (fuel - length xs) (flat_map (children (heap s)) xs)) as (s2 & T2 & E2).
      * intros k x Hx. rewrite Hk, <- level_S_in in Hx. destruct (Hp _ _ Hx) as [ls Hx'].
        exists ls. by eapply heq_path.
      * intros k x Hx. rewrite Hk, <- level_S_in in Hx. eapply heq_clocked; [done|]. by eapply Hc.
      * by rewrite Hk, <- level_S_in.
      * rewrite Ho. lia.
      * exists s2. rewrite Ho in T2. split.
        -- rewrite level_order_S_in. by eapply touch_trans.
        -- rewrite app_nil_r in E1. rewrite E1. exact E2.
Qed.

(** The part of well-formedness that the refresh of a subtree needs. *)
Record forest_ok (h : list obj) : Prop := {
  fo_kid : forall p c, c ∈ children h p -> exists_in h c /\ parent_of h c = Some p;
  fo_par : forall p c, exists_in h c -> parent_of h c = Some p -> c ∈ children h p;
  fo_nd : forall p, NoDup (children h p);
  fo_acy : forall l, exists_in h l -> exists ls, path h l ls;
  fo_clk : forall l, clocked h l
}.

Lemma update_subtree_ok s c :
  forest_ok (heap s) -> exists_in (heap s) c ->
  exists T s', update_subtree c s = (Ok tt, s') /\ touch T s s' /\
    (forall x, exists_in (heap s) x -> x ∈ T <-> within (heap s) c x).
Proof.
  intros F Hc. destruct (fo_acy _ F c Hc) as [lc Hlc].
  pose proof (level_empty (heap s) (children (heap s)) (fo_kid _ F) (fo_nd _ F) c lc Hlc) as Hemp.
  pose proof (level_path (heap s) (children (heap s)) (fo_kid _ F) c lc) as Hlp.
  destruct (update_loop_levels s (length (heap s)) (length (heap s)) [c]) as (s' & T & E).
  - intros k x Hx. destruct (Hlp k x Hlc Hx) as (ls & H & _). eauto.
  - intros k x Hx. apply (fo_clk _ F).
  - done.
  - eapply level_order_bound; [apply F|apply F|done].
  - exists (level_order (children (heap s)) (length (heap s)) [c]), s'. split; [exact E|]. split; [done|].
    intros x Hx. rewrite elem_of_level_order. split.
    + intros (k & Hk & Hxk). destruct (Hlp k x Hlc Hxk) as (ls & H & _ & Hin).
      by apply (path_within _ _ _ c H).
    + intros Hw. destruct (within_level (heap s) c x (fo_par _ F) (fo_acy _ F) Hx Hw) as [n Hn].
      exists n. split; [|done]. destruct (decide (n < length (heap s))) as [|Hge]; [done|].
      exfalso. assert (Hz : level (children (heap s)) n [c] = []).
      { replace n with (length (heap s) + (n - length (heap s))) by lia.
        generalize (n - length (heap s)). intros m. induction m as [|m IHm].
        - by rewrite Nat.add_0_r.
        - rewrite Nat.add_succ_r. simpl. by rewrite IHm. }
      rewrite Hz in Hn. inversion Hn.
Qed.
