(** * Non-vacuity of C77, C78 *)
From stdpp Require Import relations.
From Verif Require Import Spec Hierarchy Elements Factory History CogniLang Encode Convert SpecFrame ExBase Ex1 Ex13 Ex15 Props20.
Local Open Scope nat_scope.

(** A second tree beside that of Ex1; an edge of the first is connected to a node of the second. *)
Definition s20 : st := run [OGenNode fac "other" None (* 11 *); OGenNode fac "x" (Some 11) (* 12 *); OGenNode fac "y" (Some 11) (* 13 *);
  OConnectNodes fac 0 "bridge" [1; 13] OUTWARDS None (* 14; 15, 17; ports 16, 18 *)] s1.
Definition h20 : list obj := Eval vm_compute in heap s20.
Lemma h20_eq : heap s20 = h20.
Proof. vm_compute. reflexivity. Qed.
Definition colour (l : loc) : nat := if decide (l ∈ [11; 12; 13; 18]) then 1 else 0.
Definition colouredb : bool := forallb (fun l => match h20 !! l with
  | Some o => forallb (fun x => colour x =? colour l) (olist (o_parent o) ++ map snd (o_subs o)) | None => true end) (seq 0 (length h20)).
Lemma same_colour a b : same_tree (heap s20) a b -> colour a = colour b.
Proof.
  assert (C : forall x y, holds (heap s20) x y -> colour x = colour y).
  { intros x y H. rewrite h20_eq in H. assert (K : colouredb = true) by (vm_compute; reflexivity). unfold colouredb in K. rewrite forallb_forall in K.
    assert (E : exists o, h20 !! x = Some o). { unfold holds, parent_of, children in H. destruct (h20 !! x) as [o|]; [by exists o|]. destruct H as [H|H]; [discriminate H|]. by apply elem_of_nil in H. }
    destruct E as [o E]. specialize (K x). rewrite E in K. assert (L : In x (seq 0 (length h20))). { apply in_seq. apply lookup_lt_Some in E. lia. }
    specialize (K L). rewrite forallb_forall in K. symmetry. apply Nat.eqb_eq. apply K. apply in_app_iff.
    unfold holds, parent_of, children in H. rewrite E in H. destruct H as [H|H].
    - left. cbn [mbind option_bind] in H. rewrite H. left. reflexivity.
    - right. apply elem_of_list_In. exact H. }
  intros H. induction H as [|x y z [Hxy|Hxy] _ IH]; [reflexivity| |].
  - rewrite (C _ _ Hxy). exact IH.
  - rewrite <- (C _ _ Hxy). exact IH.
Qed.
(** C77: moving 3 below 2 does not change 12; the bridge does not matter. *)
Example ex_other : exists_in (heap s20) 12 /\ (forall a, a ∈ targets (OAdd 2 3) -> ~ same_tree (heap s20) a 12) /\
  fst (exec (OAdd 2 3) s20) = Ok tt /\ heap (snd (exec (OAdd 2 3) s20)) !! 12 = heap s20 !! 12.
Proof.
  assert (E : exists_in (heap s20) 12) by (rewrite h20_eq; eexists; reflexivity).
  assert (T : forall a, a ∈ targets (OAdd 2 3) -> ~ same_tree (heap s20) a 12).
  { intros a Ha H. apply same_colour in H. repeat (apply elem_of_cons in Ha as [->|Ha]; [vm_compute in H; discriminate H|]). apply elem_of_nil in Ha. exact Ha. }
  split; [exact E|]. split; [exact T|]. split; [vm_compute; reflexivity|]. exact (C77_other_trees s20 (OAdd 2 3) 12 E T).
Qed.
(** ... and an operation that fails half-way: a removal under the wrong name (C11). *)
Definition wrong20 : op := ORemove 0 "b" (Some (uuid_of h20 1)).
Example ex_other_fails : fst (exec wrong20 s20) = Exn KeyError /\ heap (snd (exec wrong20 s20)) !! 0 <> heap s20 !! 0 /\ heap (snd (exec wrong20 s20)) !! 12 = heap s20 !! 12.
Proof.
  split; [vm_compute; reflexivity|]. split; [vm_compute; intros X; discriminate X|]. apply C77_other_trees.
  - rewrite h20_eq. eexists. reflexivity.
  - intros a Ha H. apply same_colour in H. cbn [targets wrong20] in Ha. apply elem_of_list_singleton in Ha as ->. vm_compute in H. discriminate H.
Qed.
(** ... a generator of which one element is taken *)
Example ex_gen : fst (gen_take 1 (GNew 0 "a" None) s20) = Ok [1] /\ heap (snd (gen_take 1 (GNew 0 "a" None) s20)) !! 12 = heap s20 !! 12.
Proof.
  split; [vm_compute; reflexivity|]. apply C77_generators.
  - rewrite h20_eq. eexists. reflexivity.
  - intros H. apply same_colour in H. vm_compute in H. discriminate H.
Qed.
(** ... connect_tuple_nodes *)
Example ex_tuples : fst (connect_tuple_nodes fac 0 "t" [(1, INWARDS, WNone, None); (3, OUTWARDS, WNone, None)] s20) = Ok 19 /\
  heap (snd (connect_tuple_nodes fac 0 "t" [(1, INWARDS, WNone, None); (3, OUTWARDS, WNone, None)] s20)) !! 12 = heap s20 !! 12.
Proof.
  split; [vm_compute; reflexivity|]. apply C77_tuples.
  - rewrite h20_eq. eexists. reflexivity.
  - intros H. apply same_colour in H. vm_compute in H. discriminate H.
  - intros n d w sv Hx. repeat (apply elem_of_cons in Hx as [Hx|Hx]; [injection Hx as -> -> -> ->; split; [intros H; apply same_colour in H; vm_compute in H; discriminate H|intros y Y; discriminate Y]|]).
    apply elem_of_nil in Hx. destruct Hx.
Qed.
(** ... a sequence of calls on the first tree and on new elements *)
Example ex_history : exists s', confined (fun l => colour l = 0) s20 s' /\ heap s' !! 12 = heap s20 !! 12 /\ children (heap s') 19 = [20].
Proof.
  eexists (snd (exec (OGenNode fac "below" (Some 19)) (snd (exec (OGenNode fac "new" (Some 3)) s20)))).
  match goal with |- confined _ _ ?s /\ _ => assert (K : confined (fun l => colour l = 0) s20 s) end.
  { apply cf_step; [apply cf_step; [apply cf_nil|]|].
    - constructor; [|constructor]. left. vm_compute. reflexivity.
    - constructor; [|constructor]. right. rewrite h20_eq. vm_compute. repeat constructor. }
  split; [exact K|]. split; [|vm_compute; reflexivity]. eapply (C77_histories (fun l => colour l = 0)); [|exact K| |].
  - intros a b Ha H. apply same_colour in H. rewrite <- H. exact Ha.
  - rewrite h20_eq. eexists. reflexivity.
  - intros X. vm_compute in X. discriminate X.
Qed.
(** C78: a description that fails after some elements have been made *)
Definition e20 : centity := mkEntity "robot" [EiParams [("len", "1")]; EiKin "chassis" [KiLink base13; KiJoint (mkJoint "j" [mkCrel "fix" "->" "missing" None None])]].
Example ex_load_fails : fst (load fl13 rad13 "cogni_lang_file" 0 e20 s20) = Exn IndexError /\ length h20 < length (heap (snd (load fl13 rad13 "cogni_lang_file" 0 e20 s20))) /\
  heap (snd (load fl13 rad13 "cogni_lang_file" 0 e20 s20)) !! 12 = heap s20 !! 12.
Proof.
  split; [vm_compute; reflexivity|]. split; [vm_compute; repeat constructor|]. apply C78_load. rewrite h20_eq. eexists. reflexivity.
Qed.
Example ex_convert_fails : exists s', convert_run fl13 rad13 100 0 e20 s20 (Exn IndexError) s' /\ heap s' !! 12 = heap s20 !! 12.
Proof.
  destruct (load fl13 rad13 "cogni_lang_file" 0 e20 s20) as [r s'] eqn:E. pose proof ex_load_fails as (F & _). rewrite E in F. cbn [fst] in F. subst r.
  exists s'. assert (K : convert_run fl13 rad13 100 0 e20 s20 (Exn IndexError) s') by (apply cv_load; exact E). split; [exact K|].
  eapply C78_convert; [|exact K]. rewrite h20_eq. eexists. reflexivity.
Qed.
(** ... a malformed message: the second node names a parent that does not exist *)

Definition m20 : message := mkMsg [mkMN "ur" "r" 0 None "ur"; mkMN "un" "n" 1 (Some "nobody") "un"] [] [] [] [] [] [].
Example ex_decode_fails : exists s' g', create_graph m20 s20 (Encode.new_icon 1 0) = (Exn KeyError, s', g') /\ length h20 < length (heap s') /\ heap s' !! 12 = heap s20 !! 12.
Proof.
  assert (F : match create_graph m20 s20 (Encode.new_icon 1 0) with (Exn KeyError, s', _) => length h20 <? length (heap s') | _ => false end = true) by (vm_compute; reflexivity).
  destruct (create_graph m20 s20 (Encode.new_icon 1 0)) as [[r s'] g'] eqn:E. destruct r as [|[]]; try discriminate F.
  exists s', g'. split; [reflexivity|]. split; [apply Nat.ltb_lt; exact F|]. eapply C78_decode; [|exact E]. rewrite h20_eq. eexists. reflexivity.
Qed.
(** ... a value message for the value 10, which is a sub-element of the node 4 *)
Definition g20 : Encode.icon := Encode.mkIcon (new_coo 4) 1 (Some 4) (Some (decoded_hom (mkMsg [] [] [] [mkMV (uuid_of h20 10) "v" 5 "" "" []] [] [] []))).
Example ex_updates : fst (apply_updates g20 [(5, [PStr "z"])] s20) = Ok tt /\ attr_of o_vals (heap (snd (apply_updates g20 [(5, [PStr "z"])] s20))) 10 = Some [PStr "z"] /\
  heap (snd (apply_updates g20 [(5, [PStr "z"])] s20)) !! 12 = heap s20 !! 12.
Proof.
  split; [vm_compute; reflexivity|]. split; [vm_compute; reflexivity|]. apply C78_updates. intros c E. injection E as <-. rewrite h20_eq.
  intros X. vm_compute in X. repeat (apply elem_of_cons in X as [X|X]; [discriminate X|]). apply elem_of_nil in X. exact X.
Qed.
