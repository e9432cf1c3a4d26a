(** * Lemmas about ordered dictionaries and lists *)
From Verif Require Import Py.

Section dict_lemmas.
  Context {K V : Type} `{EqDecision K}.
  Implicit Types (d : list (K * V)) (k : K) (v : V).

  Lemma dget_Some_in k v d : dget k d = Some v -> (k, v) ∈ d.
  Proof.
    induction d as [|[k' v'] d IH]; simpl; [done|].
    destruct (decide (k = k')) as [->|Hne]; intros H.
    - injection H as ->. left.
    - right. auto.
  Qed.

  Lemma dget_None k d : dget k d = None <-> k ∉ dkeys d.
  Proof.
    induction d as [|[k' v'] d IH]; simpl.
    - split; [intros _ H; inversion H|done].
    - rewrite not_elem_of_cons. destruct (decide (k = k')) as [->|Hne].
      + split; [done|intros [H _]; done].
      + rewrite IH. tauto.
  Qed.

  Lemma dget_in_nodup k v d : NoDup (dkeys d) -> (k, v) ∈ d -> dget k d = Some v.
  Proof.
    induction d as [|[k' v'] d IH]; simpl; intros Hnd Hin.
    - inversion Hin.
    - apply NoDup_cons in Hnd as [Hk Hnd]. apply elem_of_cons in Hin as [Heq|Hin].
      + injection Heq as -> ->. by rewrite decide_True.
      + rewrite decide_False; [by apply IH|]. intros ->. apply Hk.
        apply elem_of_list_fmap. exists (k', v). done.
  Qed.

  Lemma dget_Some_nodup k v d : NoDup (dkeys d) -> dget k d = Some v <-> (k, v) ∈ d.
  Proof. intros Hnd. split; [apply dget_Some_in|by apply dget_in_nodup]. Qed.

  Lemma dget_is_Some k d : is_Some (dget k d) <-> k ∈ dkeys d.
  Proof.
    rewrite <- not_eq_None_Some, dget_None. split.
    - intros H. by destruct (decide (k ∈ dkeys d)).
    - tauto.
  Qed.

  Lemma dset_new k v d : dget k d = None -> dset k v d = d ++ [(k, v)].
  Proof.
    induction d as [|[k' v'] d IH]; simpl; [done|].
    destruct (decide (k = k')); [done|]. intros H. by rewrite IH.
  Qed.

  Lemma dget_dset k k' v d :
    dget k' (dset k v d) = if decide (k' = k) then Some v else dget k' d.
  Proof.
    induction d as [|[k1 v1] d IH]; simpl.
    - by destruct (decide (k' = k)).
    - destruct (decide (k = k1)) as [->|Hne]; simpl.
      + by destruct (decide (k' = k1)).
      + destruct (decide (k' = k1)) as [->|]; [by rewrite decide_False by congruence|]. apply IH.
  Qed.

  Lemma dset_id k v d : dget k d = Some v -> dset k v d = d.
  Proof.
    induction d as [|[k1 v1] d IH]; simpl; [done|].
    destruct (decide (k = k1)) as [->|]; [by intros [= ->]|]. intros H. by rewrite IH.
  Qed.

  Lemma dset_dset k v v' d : dset k v (dset k v' d) = dset k v d.
  Proof.
    induction d as [|[k1 v1] d IH]; simpl.
    - by rewrite decide_True.
    - destruct (decide (k = k1)) as [->|] eqn:E; simpl; rewrite E; [done|by rewrite IH].
  Qed.

  Lemma dkeys_dset_new k v d : dget k d = None -> dkeys (dset k v d) = dkeys d ++ [k].
  Proof. intros H. rewrite dset_new by done. unfold dkeys. by rewrite map_app. Qed.

  Lemma ddel_notin k d : k ∉ dkeys d -> ddel k d = d.
  Proof.
    induction d as [|[k' v'] d IH]; simpl; [done|]. rewrite not_elem_of_cons.
    intros [H1 H2]. rewrite decide_False by done. by rewrite IH.
  Qed.

  Lemma ddel_filter k d : NoDup (dkeys d) -> ddel k d = filter (fun x => x.1 <> k) d.
  Proof.
    induction d as [|[k' v'] d IH]; [done|]. intros [Hk Hnd]%NoDup_cons. simpl.
    destruct (decide (k = k')) as [->|Hne].
    - rewrite filter_cons_False by (simpl; tauto).
      rewrite <- IH by done. by rewrite ddel_notin.
    - rewrite filter_cons_True by (simpl; congruence). by rewrite IH.
  Qed.

  Lemma dget_ddel k k' d : NoDup (dkeys d) ->
    dget k' (ddel k d) = if decide (k' = k) then None else dget k' d.
  Proof.
    induction d as [|[k1 v1] d IH]; simpl; intros Hnd.
    - by destruct (decide (k' = k)).
    - apply NoDup_cons in Hnd as [Hk Hnd].
      destruct (decide (k = k1)) as [->|Hne]; simpl.
      + destruct (decide (k' = k1)) as [->|]; [by apply dget_None|done].
      + destruct (decide (k' = k1)) as [->|]; [by rewrite decide_False by congruence|by apply IH].
  Qed.

  Lemma dkeys_ddel_sub k k' d : k' ∈ dkeys (ddel k d) -> k' ∈ dkeys d.
  Proof.
    induction d as [|[k1 v1] d IH]; simpl; [done|].
    destruct (decide (k = k1)); [intros; by right|].
    simpl. rewrite !elem_of_cons. tauto.
  Qed.

  Lemma ddel_nodup k d : NoDup (dkeys d) -> NoDup (dkeys (ddel k d)).
  Proof.
    induction d as [|[k1 v1] d IH]; simpl; [done|]. intros [Hk Hnd]%NoDup_cons.
    destruct (decide (k = k1)); [done|]. simpl. apply NoDup_cons. split; [|by apply IH].
    intros H. apply Hk. by eapply dkeys_ddel_sub.
  Qed.

  Lemma dset_nodup k v d : NoDup (dkeys d) -> NoDup (dkeys (dset k v d)).
  Proof.
    induction d as [|[k1 v1] d IH]; simpl; intros Hnd.
    - apply NoDup_singleton.
    - apply NoDup_cons in Hnd as [Hk Hnd]. destruct (decide (k = k1)) as [->|]; simpl.
      + by apply NoDup_cons.
      + apply NoDup_cons. split; [|by apply IH]. intros Hin. apply Hk.
        clear -Hin n. induction d as [|[k2 v2] d IH]; simpl in *.
        * apply elem_of_cons in Hin as [?|Hin]; [congruence|inversion Hin].
        * destruct (decide (k = k2)); simpl in *; [done|].
          apply elem_of_cons in Hin as [->|?]; [left|right; auto].
  Qed.

  Lemma ddel_length k d : k ∈ dkeys d -> S (length (ddel k d)) = length d.
  Proof.
    induction d as [|[k1 v1] d IH]; simpl.
    - intros H. inversion H.
    - destruct (decide (k = k1)); [done|]. intros [?|?]%elem_of_cons; [done|]. simpl. rewrite IH; done.
  Qed.

  Lemma elem_of_ddel k x d : NoDup (dkeys d) -> x ∈ ddel k d <-> x ∈ d /\ x.1 <> k.
  Proof. intros Hnd. rewrite ddel_filter by done. rewrite elem_of_list_filter. tauto. Qed.
End dict_lemmas.

Lemma filter_ext_in {A} (P Q : A -> Prop) {HP : forall x, Decision (P x)} {HQ : forall x, Decision (Q x)} (l : list A) :
  (forall x, x ∈ l -> P x <-> Q x) -> filter P l = filter Q l.
Proof.
  induction l as [|x l IH]; intros H; [done|].
  assert (Hx : P x <-> Q x) by (apply H; left).
  assert (IH' : filter P l = filter Q l) by (apply IH; intros y Hy; apply H; by right).
  rewrite !filter_cons. destruct (decide (P x)), (decide (Q x)); try tauto; by rewrite IH'.
Qed.

Lemma filter_filter_and {A} (P Q : A -> Prop) {HP : forall x, Decision (P x)} {HQ : forall x, Decision (Q x)} (l : list A) :
  filter P (filter Q l) = filter (fun x => Q x /\ P x) l.
Proof.
  induction l as [|x l IH]; [done|]. rewrite (filter_cons Q), (filter_cons (fun x => Q x /\ P x)).
  destruct (decide (Q x)), (decide (Q x /\ P x)); try tauto.
  - rewrite filter_cons_True by tauto. by rewrite IH.
  - rewrite filter_cons_False by tauto. done.
Qed.

Lemma filter_comm {A} (P Q : A -> Prop) {HP : forall x, Decision (P x)} {HQ : forall x, Decision (Q x)} (l : list A) :
  filter P (filter Q l) = filter Q (filter P l).
Proof. rewrite !filter_filter_and. apply filter_ext_in. tauto. Qed.

Lemma filter_all {A} (P : A -> Prop) {HP : forall x, Decision (P x)} (l : list A) :
  (forall x, x ∈ l -> P x) -> filter P l = l.
Proof.
  induction l as [|x l IH]; intros H; [done|]. rewrite filter_cons_True by (apply H; left).
  f_equal. apply IH. intros y Hy. apply H. by right.
Qed.

Lemma filter_none {A} (P : A -> Prop) {HP : forall x, Decision (P x)} (l : list A) :
  (forall x, x ∈ l -> ~ P x) -> filter P l = [].
Proof.
  induction l as [|x l IH]; intros H; [done|]. rewrite filter_cons_False by (apply H; left).
  apply IH. intros y Hy. apply H. by right.
Qed.

Lemma List_filter_stdpp {A} (f : A -> bool) (l : list A) :
  List.filter f l = filter (fun x => f x = true) l.
Proof.
  induction l as [|x l IH]; [done|]. simpl. destruct (f x) eqn:E.
  - rewrite filter_cons_True by done. by rewrite IH.
  - rewrite filter_cons_False by congruence. done.
Qed.

Lemma map_filter_comm {A B} (f : A -> B) (P : B -> Prop) {HP : forall x, Decision (P x)} (l : list A) :
  filter P (map f l) = map f (filter (fun x => P (f x)) l).
Proof.
  induction l as [|x l IH]; [done|]. simpl. rewrite !filter_cons.
  destruct (decide (P (f x))); simpl; by rewrite IH.
Qed.

Lemma dkeys_vals_nodup {K V} (d : list (K * V)) (g : V -> K) :
  NoDup (map fst d) -> (forall k v, (k, v) ∈ d -> g v = k) -> NoDup (map snd d).
Proof.
  induction d as [|[k v] d IH]; simpl; intros Hnd Hg; [constructor|].
  apply NoDup_cons in Hnd as [Hk Hnd]. apply NoDup_cons. split.
  - intros Hin. apply elem_of_list_fmap in Hin as [[k' v'] [Heq Hin]]. simpl in Heq. subst v'.
    apply Hk. apply elem_of_list_fmap. exists (k', v). split; [|done]. simpl.
    rewrite <- (Hg k v) by left. apply Hg. by right.
  - apply IH; [done|]. intros k' v' Hin. apply Hg. by right.
Qed.
