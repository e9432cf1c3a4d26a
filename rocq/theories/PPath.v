(** * Paths, ancestors, names *)
From Verif Require Import Spec Hierarchy.

Lemma parent_of_lookup h l o : h !! l = Some o -> parent_of h l = o_parent o.
Proof. intros H. unfold parent_of. by rewrite H. Qed.

Lemma path_exists h l ls : path h l ls -> exists_in h l.
Proof. by inversion 1. Qed.

Lemma path_cons h l ls : path h l ls -> exists ls', ls = l :: ls'.
Proof. inversion 1; eauto. Qed.

Lemma path_det h l ls ls' : path h l ls -> path h l ls' -> ls = ls'.
Proof.
  intros H. revert ls'. induction H as [l He Hp|l q ls He Hp Hq IH]; intros ls' H'; inversion H'; subst; try congruence.
  f_equal. apply IH. congruence.
Qed.

Lemma path_in h l ls x : path h l ls -> x ∈ ls -> exists ls', path h x ls' /\ ls' `suffix_of` ls.
Proof.
  induction 1 as [l He Hp|l q ls He Hp Hq IH]; intros Hin.
  - apply elem_of_list_singleton in Hin as ->. exists [l]. split; [by constructor|done].
  - apply elem_of_cons in Hin as [->|Hin].
    + exists (l :: ls). split; [by econstructor|done].
    + destruct (IH Hin) as (ls' & Hp' & Hs). exists ls'. split; [done|]. by apply suffix_cons_r.
Qed.

Lemma path_in_exists h l ls x : path h l ls -> x ∈ ls -> exists_in h x.
Proof. intros H Hin. destruct (path_in _ _ _ _ H Hin) as (ls' & Hp & _). by eapply path_exists. Qed.

Lemma path_nodup h l ls : path h l ls -> NoDup ls.
Proof.
  induction 1 as [l He Hp|l q ls He Hp Hq IH]; [apply NoDup_singleton|].
  apply NoDup_cons. split; [|done]. intros Hin.
  destruct (path_in _ _ _ _ Hq Hin) as (ls' & Hp' & [pre Hs]).
  assert (Hl : path h l (l :: ls)) by (econstructor; eauto).
  pose proof (path_det _ _ _ _ Hl Hp') as Heq. apply (f_equal length) in Hs. rewrite <- Heq, app_length in Hs. simpl in Hs. lia.
Qed.

Lemma path_bound h l ls : path h l ls -> length ls <= length h.
Proof.
  intros H. assert (Hsub : ls ⊆+ seq 0 (length h)).
  { apply NoDup_submseteq; [by eapply path_nodup|]. intros x Hx.
    destruct (path_in_exists _ _ _ _ H Hx) as [o Ho]. apply lookup_lt_Some in Ho.
    apply elem_of_seq. lia. }
  apply submseteq_length in Hsub. by rewrite seq_length in Hsub.
Qed.

(** Paths only look at parents. *)
Lemma path_ext h h' l ls :
  path h l ls ->
  (forall x, x ∈ ls -> exists_in h' x /\ parent_of h' x = parent_of h x) ->
  path h' l ls.
Proof.
  induction 1 as [l He Hp|l q ls He Hp Hq IH]; intros Hx.
  - destruct (Hx l) as [H1 H2]; [left|]. apply path_root; [done|congruence].
  - destruct (Hx l) as [H1 H2]; [left|]. apply path_step with q; [done|congruence|].
    apply IH. intros x Hin. apply Hx. by right.
Qed.

Lemma names_up_path h l ls fuel :
  path h l ls -> length ls <= fuel -> names_up h fuel l = Ok (map (name_of h) ls).
Proof.
  intros H. revert fuel.
  induction H as [l He Hp|l q ls He Hp Hq IH]; intros fuel Hf; simpl in Hf; (destruct fuel as [|fuel]; [lia|]); simpl.
  - destruct He as [o Ho]. unfold parent_of, name_of in *. rewrite Ho in *. simpl in *. by rewrite Hp.
  - destruct He as [o Ho]. unfold parent_of, name_of in *. rewrite Ho in *. simpl in *. rewrite Hp.
    rewrite IH by lia. done.
Qed.

Lemma path_ancestor h l ls a : path h l ls -> ancestor h a l <-> a ∈ tail ls.
Proof.
  induction 1 as [l He Hp|l q ls He Hp Hq IH]; simpl.
  - split; [|intros H; inversion H]. inversion 1; congruence.
  - destruct (path_cons _ _ _ Hq) as [ls' ->]. simpl in IH. rewrite elem_of_cons, <- IH. split.
    + inversion 1; subst; [left; congruence|right; congruence].
    + intros [->|Ha]; [by constructor|by eapply anc_up].
Qed.

Lemma path_within h l ls a : path h l ls -> within h a l <-> a ∈ ls.
Proof.
  intros H. unfold within. rewrite (path_ancestor _ _ _ _ H).
  destruct (path_cons _ _ _ H) as [ls' ->]. simpl. rewrite elem_of_cons. naive_solver.
Qed.

Lemma ancestor_trans h a b c : ancestor h a b -> ancestor h b c -> ancestor h a c.
Proof. intros Hab Hbc. induction Hbc; eauto using anc_up. Qed.

Lemma full_name_det h l q q' : full_name h l q -> full_name h l q' -> q = q'.
Proof.
  intros (ls & H1 & ->) (ls' & H2 & ->). by rewrite (path_det _ _ _ _ H1 H2).
Qed.
