(** * Non-vacuity of C79, C80 *)
From Verif Require Import Spec SpecTrav SpecPrint Hierarchy Elements Factory History Print SpecBulk ExBase Ex1 Props21.
Local Open Scope nat_scope.
Definition h1 : list obj := Eval vm_compute in heap s1.
Lemma h1_eq : heap s1 = h1.
Proof. vm_compute. reflexivity. Qed.
(** C79: all elements of Ex1 but the ports and the value are printed. *)
Example ex_print_hyp : exists_in (heap s1) 0 /\ ~ loose_edge (heap s1) 0 /\ level (children (heap s1)) 4 (children (heap s1) 0) = [].
Proof.
  rewrite h1_eq. split; [apply existsb_in_ok; vm_compute; reflexivity|]. split; [|vm_compute; reflexivity].
  intros [K _]. vm_compute in K. discriminate K.
Qed.
Example ex_print : map fst (snd (print_graph_hierarchy 100 0 s1 [])) =
  ["node root: root"; "node root/a: a <- root"; "node root/a: a <- root"; "edge root/e: e 2 <- root"; "node root/a/b: b <- a";
   "relation root/e/rele.a.23: <- a:: "; "relation root/e/rele.b.24: <- b:: "; "node root/a/b/c: c <- b"].
Proof. vm_compute. reflexivity. Qed.
(** ... an edge taken out of its parent *)
Definition s_loose : st := run [ODeregister 5] s1.
Example ex_loose : loose_edge (heap s_loose) 5 /\ fst (fst (print_graph_hierarchy 100 5 s_loose [])) = Exn AttributeError.
Proof. split; [split; vm_compute; reflexivity|vm_compute; reflexivity]. Qed.

(** C80: 2 and 4 are put into 1; *)
Definition withinb (h : list obj) (a l : loc) : bool := (a =? l) || match ancb h a l with Some b => b | None => true end.
Lemma withinb_false h a l : withinb h a l = false -> ~ within h a l.
Proof.
  unfold withinb. intros H [->|A].
  - rewrite Nat.eqb_refl in H. discriminate H.
  - destruct (ancb h a l) as [[]|] eqn:E; try (rewrite orb_true_r in H; discriminate H). exact (ancb_false _ _ _ E A).
Qed.
Lemma joining : can_join (heap s1) 1 [2; 4].
Proof.
  rewrite h1_eq. split.
  - intros x Hx. assert (E : forallb (fun x => existsb_in h1 x && negb (withinb h1 x 1) && removableb h1 x) [2; 4] = true) by (vm_compute; reflexivity).
    rewrite forallb_forall in E. apply elem_of_list_In in Hx. specialize (E x Hx). apply andb_true_iff in E as [E E3]. apply andb_true_iff in E as [E1 E2].
    split; [exact (existsb_in_ok _ _ E1)|]. split; [|exact (removableb_ok _ _ E3)]. apply withinb_false. apply negb_true_iff. exact E2.
  - apply (bool_decide_eq_true_1 _). vm_compute. reflexivity.
Qed.
Example ex_join : fst (add_elements_awaited 1 [2; 4] s1) = Ok tt /\
  map (children (heap (snd (add_elements_awaited 1 [2; 4] s1)))) [0; 1; 3] = [[1; 5]; [3; 7; 2; 4]; [9]].
Proof. vm_compute. split; reflexivity. Qed.
(** ... the third one is refused, the fourth not looked at; *)
Example ex_refused : uuid_of h1 3 ∈ map (uuid_of h1) (children h1 1 ++ [2; 4]) /\
  fst (add_elements_awaited 1 [2; 4; 3; 10] s1) = Exn ErrorDuplicateElement /\
  children (heap (snd (add_elements_awaited 1 [2; 4; 3; 10] s1))) 1 = [3; 7; 2; 4].
Proof. split; [|vm_compute; split; reflexivity]. apply (bool_decide_eq_true_1 _). vm_compute. reflexivity. Qed.
(** ... run as the tests run single operations, only the first is added; *)
Example ex_run : children (heap (snd (add_elements_run 1 [2; 4] s1))) 1 = [3; 7; 2].
Proof. vm_compute. reflexivity. Qed.
(** ... another task takes the added element away between the rounds; *)
Example ex_between : exists s', interleaved 1 (AtPending [2; 4]) s1 AtDone s' /\ map (children (heap s')) [0; 1] = [[1; 5; 2]; [3; 7; 4]].
Proof.
  eexists. split.
  - eapply il_round; [intros x xs [= <- <-]; apply add_okb_ok; vm_compute; reflexivity|vm_compute; reflexivity|].
    eapply il_other; [apply (run_history [OAdd 0 2]); vm_compute; reflexivity|].
    eapply il_round; [intros x xs [= <- <-]; apply add_okb_ok; vm_compute; reflexivity|vm_compute; reflexivity|].
    eapply il_round; [intros x xs E; discriminate E|vm_compute; reflexivity|]. apply il_end.
  - vm_compute. reflexivity.
Qed.
(** ... removals. *)
Example ex_remove : let args := [("", Some (uuid_of h1 1)); ("a", Some (uuid_of h1 2))] in
  fst (remove_elements_awaited 0 args s1) = Exn RuntimeError /\ children (heap (snd (remove_elements_awaited 0 args s1))) 0 = [5] /\
  Forall2 (fun c a => snd a = Some (uuid_of h1 c) /\ (fst a = "" \/ fst a = name_of h1 c)) [1; 2] args.
Proof.
  cbv zeta. split; [vm_compute; reflexivity|]. split; [vm_compute; reflexivity|]. constructor; [|constructor; [|constructor]].
  - split; [reflexivity|left; reflexivity].
  - split; [reflexivity|right; vm_compute; reflexivity].
Qed.
Example ex_remove_name : filter (fun c => name_of (heap s1) c = "a") (children (heap s1) 0) = [1; 2] /\
  fst (remove_elements_awaited 0 [("a", None)] s1) = Exn RuntimeError /\ children (heap (snd (remove_elements_awaited 0 [("a", None)] s1))) 0 = [2; 5].
Proof. split; [vm_compute; reflexivity|]. split; vm_compute; reflexivity. Qed.
