(** * Non-vacuity of C01 - C09: a concrete history meets the hypotheses *)
From Verif Require Import Spec Hierarchy Elements Factory History ExBase.

Definition fac := mkFactory "f" 0.
(** A root with two nodes of the same name, a nested node, an edge with two
    relations, a value; then a move and a removal. *)
Definition ops1 : list op :=
  [ OGenNode fac "root" None;                    (* 0 *)
    OGenNode fac "a" (Some 0);                   (* 1 *)
    OGenNode fac "a" (Some 0);                   (* 2 *)
    OGenNode fac "b" (Some 1);                   (* 3 *)
    OGenNode fac "c" (Some 3);                   (* 4 *)
    OConnectNodes fac 0 "e" [1; 3] INWARDS None; (* edge 5; relations 6, 8; ports 7, 9 *)
    OCreateValue fac (Some 4) "v" (Some [PStr "x"]) (* 10 *) ].
Definition s1 : st := run ops1 s0.
Lemma s1_reach : reach s1.
Proof. apply run_reach; [apply reach_init|]. vm_compute. reflexivity. Qed.

Example s1_shape : map (children (heap s1)) (seq 0 11) = [[1; 2; 5]; [3; 7]; []; [4; 9]; [10]; [6; 8]; []; []; []; []; []].
Proof. vm_compute. reflexivity. Qed.
(** C02: two elements are found. *)
Example s1_lookup : fst (get_element_by_id_name 0 "a" s1) = Ok [1; 2].
Proof. vm_compute. reflexivity. Qed.
(** C05, C08: moving the subtree of 3 below 2. *)
Example s1_move_ok : add_ok (heap s1) 2 3.
Proof. apply add_okb_ok. vm_compute. reflexivity. Qed.
Definition s2 : st := snd (add_element 2 3 s1).
Example s1_move : fst (add_element 2 3 s1) = Ok tt /\
  map (children (heap s2)) (seq 0 5) = [[1; 2; 5]; [7]; [3]; [4; 9]; [10]] /\
  attr_of o_qname (heap s2) 10 = Some "root/a/b/c/v".
Proof. vm_compute. repeat split. Qed.
(** C08: the hypotheses *)
Example s1_move_hyp : exists op oc, heap s1 !! 2 = Some op /\ heap s1 !! 3 = Some oc /\ ~ ancestor (heap s1) 3 2 /\
  removable (heap s1) 3 /\ (forall x, x ∈ children (heap s1) 2 -> uuid_of (heap s1) x <> o_uuid oc) /\ o_kind op = KNode.
Proof.
  eexists _, _. split; [vm_compute; reflexivity|]. split; [vm_compute; reflexivity|]. split.
  - apply ancb_false. vm_compute. reflexivity.
  - split; [apply removableb_ok; vm_compute; reflexivity|]. split; [|vm_compute; reflexivity].
    intros x Hx. vm_compute in Hx. inversion Hx.
Qed.
(** C06, C09: removing both elements called "a"; 3 and 4 stay below 1 with stale names. *)
Example s1_remove_ok : allowed (heap s1) (ORemove 0 "a" None).
Proof. apply allowedb_ok. vm_compute. reflexivity. Qed.
Example s1_remove : fst (remove_all 0 "a" None s1) = Ok [1; 2] /\
  filter (matches (heap s1) "a" None) (children (heap s1) 0) = [1; 2] /\
  attr_of o_qname (heap s1) 4 = Some "root/a/b/c" /\
  attr_of o_qname (heap (snd (remove_all 0 "a" None s1))) 4 = Some "root/a/b/c".
Proof. vm_compute. repeat split. Qed.
Example s1_stale_hyp : ancestor (heap s1) 1 4 /\ full_name (heap s1) 4 "root/a/b/c".
Proof.
  split; [apply ancb_true; vm_compute; reflexivity|]. exists [4; 3; 1; 0]. split; [|vm_compute; reflexivity].
  apply (climb_path _ 20). vm_compute. reflexivity.
Qed.
(** C04 over a history: remove 2, add a new node: its cid is 3, not reused. *)
Example s1_history : history MAny s1 (run [ORemove 0 "" (Some (uuid_of (heap s1) 2)); OGenNode fac "d" (Some 0)] s1).
Proof. apply run_history. vm_compute. reflexivity. Qed.
Example s1_history_cids :
  let s := run [ORemove 0 "" (Some (uuid_of (heap s1) 2)); OGenNode fac "d" (Some 0)] s1 in
  children (heap s) 0 = [1; 5; 11] /\ map (fun l => attr_of o_cid (heap s) l) [1; 5; 11] = [Some 0; Some 2; Some 3].
Proof. vm_compute. repeat split. Qed.
(** C07: a duplicate is offered. *)
Example s1_duplicate : fst (add_element 0 1 s1) = Exn ErrorDuplicateElement /\ heap (snd (add_element 0 1 s1)) = heap s1.
Proof. vm_compute. repeat split. Qed.
(** C09: nothing to remove, with a known and an unknown name. *)
Example s1_nothing : fst (remove_all 1 "zz" None s1) = Exn KeyError /\
  fst (remove_all 1 "b" None s2) = Ok [] /\ fst (remove_all 1 "" (Some "zz") s1) = Exn KeyError.
Proof. vm_compute. repeat split. Qed.
