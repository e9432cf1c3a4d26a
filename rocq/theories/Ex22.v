(** * Non-vacuity of C81, C82 *)
From Verif Require Import Spec SpecFac SpecCogni Hierarchy Elements Factory History ExBase Ex1 Apps SpecApps Props21 Props22.
Local Open Scope nat_scope.
Definition h1 : list obj := Eval vm_compute in heap s1.
Lemma h1_eq : heap s1 = h1.
Proof. vm_compute. reflexivity. Qed.
(** C79: the relations of Ex1 *)
Example ex_endpoints : map (fun r => attr_of o_endpoint (heap s1) r) [6; 8] = [Some (Some 1); Some (Some 3)].
Proof. vm_compute. reflexivity. Qed.
(** C81: an edge in the root of Ex1 to 2, inwards, and 4, outwards, *)
Definition ts1 : list (loc * direction * weight) := [(2, INWARDS, WNone); (4, OUTWARDS, WOther [PStr "w"])].
Example ex_tuples : fst (connect_tuple_nodes fac 0 "t" (map (fun t => (t, None)) ts1) s1) = Ok 11 /\
  let s' := snd (connect_tuple_nodes fac 0 "t" (map (fun t => (t, None)) ts1) s1) in
  children (heap s') 11 = [12; 14] /\ fst (incoming_relations 11 s') = Ok [12] /\ fst (outgoing_relations 11 s') = Ok [14].
Proof. vm_compute. repeat split. Qed.
Example ex_tuples_hyp : Forall (exists_in (heap s1)) (map tnode ts1) /\ 0 ∉ map tnode ts1 /\
  Forall (fun n => exists on, heap s1 !! n = Some on /\ is_hyperelement (o_kind on) = true /\ o_ready on = true) (map tnode ts1) /\
  NoDup (map (fun t => name_of (heap s1) (tnode t)) ts1).
Proof.
  rewrite h1_eq. cbn [map ts1 tnode fst].
  split; [repeat constructor; apply existsb_in_ok; vm_compute; reflexivity|].
  split; [intros H; apply (bool_decide_eq_true_2 _) in H; vm_compute in H; discriminate H|].
  split; [repeat constructor; eexists; (split; [vm_compute; reflexivity|split; vm_compute; reflexivity])|].
  apply (bool_decide_eq_true_1 _). vm_compute. reflexivity.
Qed.
(** ... and the value 10 of 4 moved into a new relation of the edge 5. *)
Example ex_sem_hyp : exists o, heap s1 !! 10 = Some o /\ is_hyperelement (o_kind o) = false /\ o_kind o <> KPort /\ removable (heap s1) 10 /\ ~ within (heap s1) 10 5.
Proof.
  rewrite h1_eq. eexists. split; [vm_compute; reflexivity|]. split; [vm_compute; reflexivity|]. split; [discriminate|]. split; [apply removableb_ok; vm_compute; reflexivity|].
  intros [H|H]; [discriminate H|]. revert H. apply ancb_false. vm_compute. reflexivity.
Qed.
Example ex_sem : fst (unary_connect 5 4 WNone INWARDS (Some 10) s1) = Ok 11 /\
  let h := heap (snd (unary_connect 5 4 WNone INWARDS (Some 10) s1)) in
  kids h 11 = [10] /\ kids h 4 = [] /\ parent_of h 10 = Some 11 /\ kids h 5 = [6; 8; 11].
Proof. vm_compute. repeat split. Qed.
(** The same by tuples: an edge in the root to 2 and 4, the second relation with the value 10. *)
Example ex_sem_tuples_hyp : forall v, v ∈ omap snd [(2, INWARDS, WNone, None); (4, OUTWARDS, WNone, Some 10)] ->
  exists o, heap s1 !! v = Some o /\ is_hyperelement (o_kind o) = false /\ o_kind o <> KPort /\ removable (heap s1) v /\ ~ within (heap s1) v 0.
Proof.
  intros v Hv. change (v ∈ [10]) in Hv. apply elem_of_list_singleton in Hv as ->. rewrite h1_eq. eexists. split; [vm_compute; reflexivity|]. split; [vm_compute; reflexivity|]. split; [discriminate|]. split; [apply removableb_ok; vm_compute; reflexivity|].
  intros [H|H]; [discriminate H|]. revert H. apply ancb_false. vm_compute. reflexivity.
Qed.
Example ex_sem_tuples : let r := connect_tuple_nodes fac 0 "t" [(2, INWARDS, WNone, None); (4, OUTWARDS, WNone, Some 10)] s1 in
  fst r = Ok 11 /\ let h := heap (snd r) in kids h 11 = [12; 14] /\ kids h 12 = [] /\ kids h 14 = [10] /\ kids h 4 = [] /\ parent_of h 10 = Some 14 /\ attr_of o_sem h 14 = Some (Some 10).
Proof. vm_compute. repeat split. Qed.
(** C82: next to Ex1.  (The hash of Ex1 is injective.) *)
Example ex_fuzzy : match fst (accu_fuzzy 0 s1) with Ok (sys, battery, dyn, sta, res, infer, ext, printed) => [sys; battery; dyn; sta; res; infer; ext] ++ printed | Exn _ => [] end =
  [11; 12; 13; 16; 19; 21; 28; 22; 24].
Proof. vm_compute. reflexivity. Qed.
Example ex_fuzzy_hyp : reach s1 /\ forall a b, sha s1 a = sha s1 b -> a = b.
Proof. split; [exact s1_reach|]. intros a b E. vm_compute in E. exact E. Qed.
