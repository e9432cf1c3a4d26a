(** * Non-vacuity of C49, C50, C52 *)
From Verif Require Import Spec SpecTrav Hierarchy Elements Factory History Traverse Mapping SpecVal ExBase Ex1 Props11.
Local Open Scope nat_scope.

(** C49: a value node with two values; the index -2 means position 0, -3 nothing. *)
Example ex_designates : designates 2 (-2) 0 /\ designates 2 1 1 /\ (forall k, ~ designates 2 (-3) k) /\ (forall k, ~ designates 2 2 k).
Proof. unfold designates. split_and!; intros; lia. Qed.
Definition made11 := create_value fac (Some 3) "w" (Some [PStr "a"; PStr "b"]) s1.
Definition s11 : st := snd made11.
Example s11_born : exists v, born s1 (Some [PStr "a"; PStr "b"]) v (snd (create_value fac (Some 3) "w" (Some [PStr "a"; PStr "b"]) s1)) /\ v = 11.
Proof.
  exists 11. split; [|exact eq_refl]. apply (born_made _ _ _ _ fac (Some 3) "w").
  - apply (existsb_in_ok (heap s1) 3). vm_compute. reflexivity.
  - vm_compute. reflexivity.
Qed.
(** after longer and shorter lists *)
Definition longer := [OSetValues 11 [PStr "x"; PStr "y"; PStr "z"]; OSetValue 11 (-1) PNone; OGenNode fac "n" (Some 0)].
Example s11_longer : history MAny s11 (run longer s11).
Proof. apply run_history. vm_compute. reflexivity. Qed.
Example s11_truncated : fst (get_values 11 (run longer s11)) = Ok [PStr "x"; PStr "y"; PNone] /\ fst (iter_values 11 (run longer s11)) = Ok [PStr "x"; PStr "y"].
Proof. vm_compute. split; reflexivity. Qed.
Example s11_shorter : fst (iter_values 11 (run [OSetValues 11 [PStr "x"]] s11)) = Exn IndexError.
Proof. vm_compute. reflexivity. Qed.

(** C50 *)
Example ex_typed : typed_as " Kinematic_Link_ " "kinematiclink".
Proof.
  exists " ", "Kinematic_Link_", " ". split; [exact eq_refl|]. split; [split; [apply (bool_decide_eq_true_1 (nat_of_ascii " " ∈ [9; 10; 11; 12; 13; 28; 29; 30; 31; 32])); vm_compute; reflexivity|exact I]|]. split; [split; [apply (bool_decide_eq_true_1 (nat_of_ascii " " ∈ [9; 10; 11; 12; 13; 28; 29; 30; 31; 32])); vm_compute; reflexivity|exact I]|].
  repeat first [apply sp_nil | apply sp_underscore | apply sp_letter; [first [left; exact eq_refl | right; split; [vm_compute; lia|vm_compute; reflexivity]]|]].
Qed.
Example ex_made : fst (generate_semantic_element fac " Kinematic_Link_ " "l" 3 [("name", PStr "l")] (Some (PList [])) s1) = Ok 11.
Proof. vm_compute. reflexivity. Qed.
Example ex_fresh : forallb (fun x => bool_decide (uuid_of (heap s1) x <> sha s1 (uid_text (f_name fac) "l" (clk s1 (f_clock fac) (tick s1))))) (children (heap s1) 3) = true.
Proof. vm_compute. reflexivity. Qed.
Example ex_unknown : fst (generate_semantic_element fac "kinematic link" "l" 3 [("name", PStr "l")] None s1) = Exn InvalidSemanticType.
Proof. vm_compute. reflexivity. Qed.
