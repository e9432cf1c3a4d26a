(** * C84: every order is attained *)
From Verif Require Import Spec Hierarchy Elements Factory History PDict PBfs PWF PReach Traverse SpecTrav QTrav QTrav2 QTrav3 QueryEngine SpecQuery QQuery QQuery2.

Lemma reorder {A B} (f : A -> list B) (p : list B) : (forall a, length (f a) <= 1) -> forall l, flat_map f l ≡ₚ p -> exists l', l' ≡ₚ l /\ flat_map f l' = p.
Proof.
  intros H1. induction p as [|b p IH]; intros l Hp.
  - exists l. split; [done|]. by apply Permutation_nil; symmetry.
  - assert (Hb : b ∈ flat_map f l) by (rewrite Hp; left). apply elem_of_list_In, in_flat_map in Hb as (a & Ha & Hb). apply elem_of_list_In in Ha, Hb.
    assert (Ef : f a = [b]). { specialize (H1 a). destruct (f a) as [|c [|d k]]; [by apply elem_of_nil in Hb| |cbn in H1; lia]. by apply elem_of_list_singleton in Hb as ->. }
    apply elem_of_Permutation in Ha as [l1 Hl1]. assert (Hp1 : flat_map f l1 ≡ₚ p).
    { rewrite Hl1 in Hp. cbn [flat_map] in Hp. rewrite Ef in Hp. cbn [app] in Hp. by apply Permutation_cons_inv in Hp. }
    destruct (IH l1 Hp1) as (l2 & Hl2 & E2). exists (a :: l2). split; [by rewrite Hl1, Hl2|]. cbn [flat_map]. by rewrite Ef, E2.
Qed.
Lemma Forall2_in {A B} (P Q : A -> B -> Prop) l k : Forall2 P l k -> (forall x y, x ∈ l -> P x y -> Q x y) -> Forall2 Q l k.
Proof. induction 1 as [|x y l k Hxy H IH]; intros HQ; constructor; [apply HQ; [left|done]|]. apply IH. intros a b Ha. apply HQ. by right. Qed.
Lemma conj_Forall2 {A B} (P Q : A -> B -> Prop) l k : Forall2 P l k -> Forall2 Q l k -> Forall2 (fun x y => P x y /\ Q x y) l k.
Proof. induction 1 as [|x y l k Hxy H IH]; intros HQ; [constructor|]. apply Forall2_cons in HQ as [? ?]. constructor; [done|by apply IH]. Qed.
Section s.
  Context (s : st) (R : reach s).
  Let h := heap s.
  Lemma schedule qs1 is parts : NoDup is ->
    Forall2 (fun i p => exists q1, qs1 !! i = Some q1 /\ filter (q_matches s q1) (waiting q1) ≡ₚ p) is parts ->
    exists sch, NoDup sch /\ (forall t, t ∈ sch <-> t.1 ∈ is /\ exists q1, qs1 !! t.1 = Some q1 /\ t.2 < length (q_tasks q1)) /\
      Forall2 (fun i p => flat_map (out s qs1) (filter (fun t => t.1 = i) sch) = p) is parts.
  Proof.
    intros Hnd HF. induction HF as [|i p is parts (q1 & Hq1 & Hp) HF IH].
    - exists []. split; [constructor|]. split; [|done]. intros t. split; [by intros ?%elem_of_nil|by intros [?%elem_of_nil _]].
    - apply NoDup_cons in Hnd as [Hi Hnd]. destruct (IH Hnd) as (sch & S1 & S2 & S3).
      rewrite <- (out_seq s qs1 i q1 Hq1) in Hp. destruct (reorder (out s qs1) p) with (l := map (pair i) (seq 0 (length (q_tasks q1)))) as (l' & L1 & L2); [|done|].
      { intros t. unfold out. destruct (qs1 !! t.1) as [q|]; [|cbn; lia]. destruct (q_tasks q !! t.2) as [[l []]|]; [cbn; lia| |cbn; lia]. destruct (decide _); cbn; lia. }
      assert (Lin : forall t, t ∈ l' <-> t.1 = i /\ t.2 < length (q_tasks q1)).
      { intros t. rewrite L1. rewrite elem_of_list_In, in_map_iff. split.
        - intros (k & <- & Hk). apply in_seq in Hk. cbn. split; [done|lia].
        - intros [E Hk]. exists t.2. split; [by destruct t; cbn in *; subst|]. apply in_seq. lia. }
      exists (l' ++ sch). split; [|split].
      + apply NoDup_app. split; [rewrite L1; apply NoDup_fmap; [by intros ?? [=]|apply NoDup_seq]|]. split; [|done].
        intros t Ht Ht'. apply Lin in Ht as [Ht _]. apply S2 in Ht' as [Ht' _]. by rewrite Ht in Ht'.
      + intros t. rewrite elem_of_app, Lin, S2, elem_of_cons. split.
        * intros [[E Hk]|[Ht Hq]]; [split; [by left|]; exists q1; by rewrite E|split; [by right|done]].
        * intros [[E|Ht] Hq]; [left; split; [done|]|right; done]. destruct Hq as (q1' & E' & Hk). rewrite E, Hq1 in E'. by injection E' as <-.
      + constructor.
        * rewrite filter_app. rewrite (filter_all _ l') by (intros t Ht; by apply Lin in Ht as [? _]). rewrite (filter_none _ sch); [by rewrite app_nil_r|].
          intros t Ht E. apply S2 in Ht as [Ht _]. by rewrite E in Ht.
        * eapply Forall2_in; [exact S3|].
          intros j p' Hj Hf. rewrite filter_app. rewrite (filter_none _ l'); [done|]. intros t Ht E. apply Lin in Ht as [Ht _]. rewrite Ht in E. by rewrite E in Hi.
  Qed.
  Lemma q_C84 lim e qs parts : NoDup (dvals e) ->
    (forall i, i ∈ dvals e -> exists q, qs !! i = Some q /\ exists_in h (q_start q) /\ fits h lim q /\ idle q) ->
    (exists i q x, i ∈ dvals e /\ qs !! i = Some q /\ q_visits h q x) ->
    Forall2 (part_of s qs) (dvals e) parts -> exists qs', engine_run lim e s qs (Ok (mjoin parts)) s qs'.
  Proof.
    intros Hnd Hr (i0 & q0 & x0 & Hi0 & Hq0 & Hx0) HF.
    destruct (prefilter_all_eq s R lim (dvals e) qs []) as (ts & qs1 & E & H1 & H2).
    { intros i Hi. destruct (Hr i Hi) as (q & ? & ? & ? & ?). by exists q. }
    assert (Ht1 : forall i, i ∈ dvals e -> times i (dvals e) = 1).
    { intros i Hi. unfold times. assert (Hf : filter (fun j => j = i) (dvals e) ≡ₚ [i]); [|by rewrite Hf].
      apply NoDup_Permutation; [by apply NoDup_filter|apply NoDup_singleton|]. intros j. rewrite elem_of_list_filter, elem_of_list_singleton. naive_solver. }
    assert (Hw : forall i q, i ∈ dvals e -> qs !! i = Some q -> exists q1, qs1 !! i = Some q1 /\ same_def q q1 /\ q_result q1 = [] /\ q_tasks q1 = q_tasks q ++ fresh (vis s q) /\ waiting q1 = vis s q).
    { intros i q Hi Hq. destruct (Hr i Hi) as (q' & Hq' & Hex & Hfit & Hid). rewrite Hq in Hq'. injection Hq' as <-.
      destruct (H1 i q Hq) as (q1 & Hq1 & D1 & R1 & T1). rewrite (Ht1 i Hi) in T1. cbn [replicate] in T1. cbn in T1. rewrite app_nil_r in T1.
      exists q1. split; [done|]. split; [done|]. split; [by rewrite R1, (proj2 Hid)|]. split; [done|].
      unfold waiting. rewrite T1, filter_app, map_app, fresh_waiting. pose proof (idle_waiting q Hid) as Z. unfold waiting in Z. by rewrite Z. }
    destruct (schedule qs1 (dvals e) parts Hnd) as (sch & S1 & S2 & S3).
    { eapply Forall2_in; [exact HF|]. intros i p Hi (q & Hq & Hnp & Hp). destruct (Hw i q Hi Hq) as (q1 & Hq1 & D1 & _ & _ & W1). exists q1. split; [done|].
      destruct (Hr i Hi) as (q' & Hq' & Hex & _). rewrite Hq in Hq'. injection Hq' as <-. destruct (vis_spec s R q Hex) as (V1 & V2 & _).
      apply NoDup_Permutation; [apply NoDup_filter; by rewrite W1|done|]. intros x. rewrite elem_of_list_filter, W1, V2, Hp. unfold q_matches. destruct D1 as (_ & -> & _). fold h. tauto. }
    assert (Hts : ts <> []).
    { intros ->. assert (Hl : (i0, 0) ∈ @nil (nat * nat)); [|by apply elem_of_nil in Hl]. apply H2. right. cbn. split; [done|].
      destruct (Hw i0 q0 Hi0 Hq0) as (q1 & Hq1 & _ & _ & T1 & _). exists q1. split; [done|]. destruct (Hr i0 Hi0) as (q' & Hq' & Hex & _). rewrite Hq0 in Hq'. injection Hq' as <-.
      apply (vis_spec s R q0 Hex) in Hx0. rewrite T1, app_length. unfold fresh. rewrite map_length. destruct (vis s q0); [by apply elem_of_nil in Hx0|cbn; lia]. }
    assert (Hs : sch ≡ₚ remove_dups ts).
    { apply NoDup_Permutation; [done|apply NoDup_remove_dups|]. intros t. rewrite elem_of_remove_dups, S2, H2. split; [by right|]. intros [?%elem_of_nil|?]; done. }
    destruct (drain_all_eq (dvals e) (run_tasks s sch qs1)) as (rs & qs2 & Ed & Hrs & _ & _). specialize (Hrs Hnd).
    assert (Em : map (res_of (run_tasks s sch qs1)) (dvals e) = parts).
    { clear -S3 S1 Hw HF. assert (HF' : Forall2 (fun i p => res_of (run_tasks s sch qs1) i = p) (dvals e) parts).
      { eapply Forall2_in; [exact (conj_Forall2 _ _ _ _ S3 HF)|]. intros i p Hi [Hf (q & Hq & _)]. destruct (Hw i q Hi Hq) as (q1 & Hq1 & _ & R1 & _).
        destruct (run_eq s sch S1 qs1 i q1 Hq1) as (q2 & Hq2 & _ & _ & R2 & _). unfold res_of. rewrite Hq2, R2, R1. done. }
      clear -HF'. induction HF' as [|i p is ps Hip H IH]; [done|]. cbn [map]. by rewrite Hip, IH. }
    exists qs2. eapply run_done; [exact E|exact Hts|exact Hs|]. rewrite Ed, Hrs, Em. done.
  Qed.
End s.
