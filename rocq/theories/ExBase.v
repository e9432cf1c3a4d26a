(** * Concrete runs: tools for the non-vacuity examples

    [allowedb] decides [allowed]; with it a concrete list of API calls is shown
    to lead to a reachable state by computation. *)
From Verif Require Import Spec Hierarchy Elements Factory History PPath.

Fixpoint climb (h : list obj) (fuel : nat) (l : loc) : option (list loc) :=
  match fuel with
  | 0 => None
  | S f => match h !! l with
           | None => None
           | Some o => match o_parent o with
                       | None => Some [l]
                       | Some q => match climb h f q with Some ls => Some (l :: ls) | None => None end
                       end
           end
  end.
Lemma climb_path h f l ls : climb h f l = Some ls -> path h l ls.
Proof.
  revert l ls. induction f as [|f IH]; simpl; intros l ls H; [done|]. destruct (h !! l) as [o|] eqn:E; [|done].
  destruct (o_parent o) as [q|] eqn:Eq.
  - destruct (climb h f q) as [ls'|] eqn:E'; [|done]. injection H as <-. eapply path_step; [by eexists| |by apply IH].
    unfold parent_of. by rewrite E.
  - injection H as <-. apply path_root; [by eexists|]. unfold parent_of. by rewrite E.
Qed.
(** proper ancestors *)
Definition ancb (h : list obj) (a l : loc) : option bool :=
  match climb h (length h) l with Some (_ :: ls) => Some (bool_decide (a ∈ ls)) | _ => None end.
Lemma ancb_false h a l : ancb h a l = Some false -> ~ ancestor h a l.
Proof.
  unfold ancb. destruct (climb h _ l) as [[|x ls]|] eqn:E; try done. intros H Ha. injection H as H.
  apply bool_decide_eq_false in H. apply climb_path in E. apply H. by apply (path_ancestor _ _ _ _ E).
Qed.
Lemma ancb_true h a l : ancb h a l = Some true -> ancestor h a l.
Proof.
  unfold ancb. destruct (climb h _ l) as [[|x ls]|] eqn:E; try done. intros H. injection H as H.
  apply bool_decide_eq_true in H. apply climb_path in E. by apply (path_ancestor _ _ _ _ E).
Qed.

Definition existsb_in (h : list obj) (l : loc) : bool := l <? length h.
Lemma existsb_in_ok h l : existsb_in h l = true -> exists_in h l.
Proof. unfold existsb_in. intros H%Nat.ltb_lt. by apply lookup_lt_is_Some. Qed.
Definition removableb (h : list obj) (c : loc) : bool :=
  match parent_of h c with
  | None => true
  | Some q => bool_decide (kind_of h q <> Some KEdge) && bool_decide (kind_of h q <> Some KRel)
  end.
Lemma removableb_ok h c : removableb h c = true -> removable h c.
Proof.
  unfold removableb. intros H q Hq. rewrite Hq in H. apply andb_true_iff in H as [H1 H2].
  split; by eapply bool_decide_eq_true.
Qed.
Definition add_okb (h : list obj) (p c : loc) : bool :=
  existsb_in h p && existsb_in h c && bool_decide (ancb h c p = Some false) && removableb h c.
Lemma add_okb_ok h p c : add_okb h p c = true -> add_ok h p c.
Proof.
  unfold add_okb. intros H. apply andb_true_iff in H as [H H4]. apply andb_true_iff in H as [H H3].
  apply andb_true_iff in H as [H1 H2]. split; [by apply existsb_in_ok|]. split; [by apply existsb_in_ok|].
  split; [|by apply removableb_ok]. apply ancb_false. by eapply bool_decide_eq_true.
Qed.
Definition ex_optb (h : list obj) (x : option loc) : bool := match x with Some l => existsb_in h l | None => true end.
Lemma ex_optb_ok h x : ex_optb h x = true -> ex_opt h x.
Proof. destruct x; [apply existsb_in_ok|done]. Qed.

Definition allowedb (h : list obj) (o : op) : bool :=
  match o with
  | ONew k _ _ _ _ parent => is_conceptual k && ex_optb h parent
  | ONewRel _ _ _ ep _ _ _ => existsb_in h ep
  | ONewPort _ _ _ ep => existsb_in h ep
  | ONewValue _ _ _ _ => true
  | ONewSem _ _ _ _ _ => true
  | OAdd p c => add_okb h p c
  | ORemove p nm u =>
      existsb_in h p && bool_decide (kind_of h p <> Some KEdge) && bool_decide (kind_of h p <> Some KRel) &&
      match u with
      | Some u' => bool_decide (nm = "") ||
                   bool_decide (Forall (fun c => uuid_of h c = u' -> name_of h c = nm) (children h p))
      | None => true
      end
  | ORegister x p => add_okb h p x
  | ODeregister x => existsb_in h x && removableb h x
  | OConnect x r => existsb_in h x && existsb_in h r
  | ODisconnect x r => existsb_in h x && existsb_in h r
  | OUnary e n _ _ sem =>
      existsb_in h e && existsb_in h n &&
      match sem with
      | Some sv => existsb_in h sv && removableb h sv && bool_decide (ancb h sv e = Some false) && bool_decide (e <> sv)
      | None => true
      end
  | OUpdate x => existsb_in h x
  | OSetClock x _ => existsb_in h x
  | OSetValue v _ _ | OSetValues v _ => existsb_in h v
  | OSetAttr x _ _ | ODelAttr x _ => existsb_in h x
  | OGenNode _ _ parent => ex_optb h parent
  | OGenNodes _ _ parent => ex_optb h parent
  | OHyperedge _ p _ => existsb_in h p
  | OConnectNodes _ p _ ns _ _ => existsb_in h p && forallb (existsb_in h) ns
  | OConnect2 _ p _ ins outs _ _ => existsb_in h p && forallb (existsb_in h) ins && forallb (existsb_in h) outs
  | OCreateValue _ p _ _ => ex_optb h p
  | OSemantic _ _ _ p _ _ => existsb_in h p
  end.

Lemma forall_existsb h l : forallb (existsb_in h) l = true -> Forall (exists_in h) l.
Proof.
  intros H. apply Forall_forall. intros x Hx. rewrite forallb_forall in H. apply existsb_in_ok, H. by apply elem_of_list_In.
Qed.
Lemma allowedb_ok h o : allowedb h o = true -> allowed h o.
Proof.
  destruct o; cbn [allowedb allowed]; intros H; repeat (match goal with
    | H : _ && _ = true |- _ => apply andb_true_iff in H as [? ?]
    | H : bool_decide _ = true |- _ => apply bool_decide_eq_true in H
    | H : existsb_in _ _ = true |- _ => apply existsb_in_ok in H
    | H : ex_optb _ _ = true |- _ => apply ex_optb_ok in H
    | H : removableb _ _ = true |- _ => apply removableb_ok in H
    | H : add_okb _ _ _ = true |- _ => apply add_okb_ok in H
    | H : forallb _ _ = true |- _ => apply forall_existsb in H
    | |- _ /\ _ => split end); try done.
  - intros u' Hn ->. apply orb_true_iff in H0 as [H0|H0]; apply bool_decide_eq_true in H0; [done|].
    intros c Hc Hu. rewrite Forall_forall in H0. by apply H0.
  - destruct sem as [sv|]; [|done]. repeat (match goal with
    | H : _ && _ = true |- _ => apply andb_true_iff in H as [? ?]
    | H : bool_decide _ = true |- _ => apply bool_decide_eq_true in H
    | H : existsb_in _ _ = true |- _ => apply existsb_in_ok in H
    | H : removableb _ _ = true |- _ => apply removableb_ok in H end).
    split; [done|]. split; [done|]. intros [->|Ha]; [done|]. by eapply ancb_false.
Qed.

(** Run a list of calls, checking that each is allowed. *)
Fixpoint run (os : list op) (s : st) : st :=
  match os with [] => s | o :: os' => run os' (snd (exec o s)) end.
Fixpoint runb (os : list op) (s : st) : bool :=
  match os with [] => true | o :: os' => allowedb (heap s) o && runb os' (snd (exec o s)) end.
Lemma run_reach os s : reach s -> runb os s = true -> reach (run os s).
Proof.
  revert s. induction os as [|o os IH]; intros s R H; [done|]. cbn [run runb] in *. apply andb_true_iff in H as [H1 H2].
  apply IH; [|done]. apply reach_step; [done|]. by apply allowedb_ok.
Qed.
Lemma run_history os s : runb os s = true -> history MAny s (run os s).
Proof.
  intros H. assert (G : forall s0, history MAny s0 s -> history MAny s0 (run os s)); [|apply G; apply hist_nil].
  revert s H. induction os as [|o os IH]; intros s H s0 Hh; [done|]. cbn [run runb] in *. apply andb_true_iff in H as [H1 H2].
  apply IH; [done|]. apply hist_step; [done|by apply allowedb_ok|done].
Qed.

(** A clock that counts its readings and the identity as hash. *)
Definition s0 : st := init_st (fun _ n => Z.of_nat n) (fun x => x).
(** The clock that stands still (framework_python tests, DummyClock). *)
Definition s0_const : st := init_st (fun _ _ => 0%Z) (fun x => x).
