(** * Non-vacuity of C101 *)
From stdpp Require Import relations.
From Verif Require Import Spec SpecTrav Hierarchy Elements Factory History SpecTensor Factorization SpecFact SpecFact2 QFact5 ExBase Ex1 Ex8 Props38.

(** Checkers. *)
Definition wholeb (h : list obj) (sel : list loc) : bool :=
  forallb (fun l => bool_decide (is_Some (h !! l))) sel &&
  forallb (fun r => eqb (bool_decide (r ∈ sel /\ kind_of h r = Some KRel))
                        (existsb (fun e => bool_decide (kind_of h e = Some KEdge /\ r ∈ rels_of h e /\ ep_selected h sel r)) sel)) (seq 0 (length h)) &&
  forallb (fun e => forallb (fun e' => bool_decide (kind_of h e = Some KEdge -> kind_of h e' = Some KEdge -> uuid_of h e = uuid_of h e' -> e = e')) sel) sel.
Lemma forallb_all {A} (f : A -> bool) l : forallb f l = true -> forall x, x ∈ l -> f x = true.
Proof. intros H x Hx. apply (proj1 (forallb_forall f l) H). by apply elem_of_list_In. Qed.
Lemma wholeb_ok h sel : wholeb h sel = true -> whole_selection h sel.
Proof.
  intros E. unfold wholeb in E. apply andb_prop in E as [E E3]. apply andb_prop in E as [E1 E2]. split; [|split].
  - intros l Hl. apply (forallb_all _ _ E1) in Hl. by apply bool_decide_eq_true in Hl.
  - intros r. destruct (h !! r) as [o|] eqn:Er.
    + assert (Hr : r ∈ seq 0 (length h)) by (apply elem_of_seq; apply lookup_lt_Some in Er; lia). apply (forallb_all _ _ E2), eqb_prop in Hr.
      rewrite <- (bool_decide_spec (r ∈ sel /\ kind_of h r = Some KRel)), Hr. split.
      * intros K. apply Is_true_eq_true, existsb_exists in K as (e & He & K). apply bool_decide_eq_true in K as (K1 & K2 & K3). apply elem_of_list_In in He. by exists e.
      * intros (e & He & K). apply Is_true_eq_left, existsb_exists. exists e. split; [by apply elem_of_list_In|]. by apply bool_decide_eq_true.
    + split.
      * intros [_ K]. unfold kind_of in K. by rewrite Er in K.
      * intros (e & _ & _ & _ & K). unfold ep_selected, ep_of in K. by rewrite Er in K.
  - intros e e' He He' K1 K2 K3. apply (forallb_all _ _ E3) in He. apply (forallb_all _ _ He) in He'. apply bool_decide_eq_true in He'. auto.
Qed.
Definition balb (h : list obj) (sel : list loc) : bool :=
  forallb (fun e => forallb (fun r => bool_decide (kind_of h e = Some KEdge -> r ∈ rels_of h e -> inward h r -> Exists (fun r' => r' ∈ rels_of h e /\ dir_of h r' = Some OUTWARDS) sel)) sel) sel.
Lemma balb_ok h sel : balb h sel = true <-> edges_balanced h sel.
Proof.
  unfold balb. split.
  - intros E e r He Hk Hr Hre Hi. apply (forallb_all _ _ E) in He. apply (forallb_all _ _ He) in Hr. apply bool_decide_eq_true in Hr. specialize (Hr Hk Hre Hi).
    apply Exists_exists in Hr as (r' & A & B & C). by exists r'.
  - intros B. apply forallb_forall. intros e He. apply forallb_forall. intros r Hr. apply elem_of_list_In in He, Hr. apply bool_decide_eq_true. intros Hk Hre Hi.
    destruct (B e r He Hk Hr Hre Hi) as (r' & A & C & D). apply Exists_exists. by exists r'.
Qed.
Definition onewayb (h : list obj) (sel : list loc) : bool := forallb (fun r => bool_decide (kind_of h r = Some KRel -> dir_of h r <> Some BIDIRECTIONAL)) sel.
Lemma onewayb_ok h sel : onewayb h sel = true -> one_way h sel.
Proof. intros E r Hr. apply (forallb_all _ _ E) in Hr. by apply bool_decide_eq_true in Hr. Qed.
Lemma nodup_ok (l : list nat) : bool_decide (NoDup l) = true -> NoDup l.
Proof. apply bool_decide_eq_true. Qed.

Definition selA : list loc := [1; 2; 3; 4; 5; 7; 9].
Definition selB : list loc := [1; 2; 4; 5; 7].
Definition selC : list loc := [1; 2; 3; 4; 5; 7; 9; 11; 12].
Example c101_whole : whole_selection (heap s8) selA /\ whole_selection (heap s8) selB /\ whole_selection (heap s8) selC.
Proof. split; [|split]; apply wholeb_ok; vm_compute; reflexivity. Qed.
Example c101_bal : edges_balanced (heap s8) selA /\ edges_balanced (heap s8) selB /\ ~ edges_balanced (heap s8) selC.
Proof.
  split; [apply balb_ok; vm_compute; reflexivity|]. split; [apply balb_ok; vm_compute; reflexivity|]. intros B. apply (proj2 (balb_ok _ _)) in B.
  assert (E : balb (heap s8) selC = false) by (vm_compute; reflexivity). rewrite E in B. discriminate B.
Qed.
Example c101_one_way : one_way (heap s8) selB /\ NoDup selB.
Proof. split; [apply onewayb_ok; vm_compute; reflexivity|apply nodup_ok; vm_compute; reflexivity]. Qed.
Example c101_bidi : kind_of (heap s8) 9 = Some KRel /\ dir_of (heap s8) 9 = Some BIDIRECTIONAL.
Proof. vm_compute. split; reflexivity. Qed.
Example c101_values : fact_subset false selA s8 = Ok [(5, 7); (5, 9); (9, 7)] /\ fact_relations false selA s8 = Ok [(5, 7); (9, 7)] /\
  fact_subset true selB s8 = Ok [(5, 7)] /\ fact_relations true selB s8 = Ok [(5, 7)] /\ fact_relations true selC s8 = Exn KeyError /\
  fact_subset true selC s8 = Ok [(5, 7); (5, 9); (9, 7); (9, 9)].
Proof. vm_compute. repeat split. Qed.
(** All theorems apply. *)
Example c101_applies : (exists ps qs, fact_subset true selB s8 = Ok ps /\ fact_relations true selB s8 = Ok qs /\ ps ≡ₚ qs) /\
  (exists ps qs, fact_subset true selA s8 = Ok ps /\ fact_relations true selA s8 = Ok qs /\ (9, 9) ∈ ps /\ (9, 9) ∉ qs) /\
  fact_relations false selC s8 = Exn KeyError.
Proof.
  destruct c101_whole as (wA & wB & wC). destruct c101_bal as (bA & bB & bC). destruct c101_one_way as [o n]. destruct c101_bidi as [k d].
  assert (H9 : 9 ∈ selA) by (unfold selA; apply elem_of_list_In; cbn; auto 10).
  split; [exact (C101_agree true selB s8 s8_reach wB bB o n)|]. split; [exact (C101_differ selA s8 9 s8_reach wA bA H9 k d)|].
  exact (proj2 (C101_unbalanced false selC s8 s8_reach wC bC)).
Qed.
