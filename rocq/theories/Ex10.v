(** * Non-vacuity of C44 - C48 *)
From Coq Require Import QArith.
From Verif Require Import Spec SpecTrav Hierarchy Elements Factory History Traverse Homomorphism SpecHom HTraverse Tensor SpecTensor Encode SpecEnc ExBase Ex1 Ex6 Props10.
Local Open Scope nat_scope.

(** Deciding [sendable] *)
Definition sendableb (h : list obj) (c : loc) : bool :=
  match kind_of h c, parent_of h c with Some KNode, None => true | _, _ => false end &&
  forallb (fun x => bool_decide (uuid_of h x <> uuid_of h c)) (nodes_of h c ++ edges_of h c) &&
  forallb (fun r => match ep_of h r with
                    | Some p => existsb (fun y => bool_decide (uuid_of h p = uuid_of h y)) (c :: nodes_of h c ++ edges_of h c)
                    | None => false end) (all_rels h c) &&
  forallb (fun v => forallb encodable (vals_of h v)) (values_of h c).
Lemma sendableb_ok h c : sendableb h c = true -> sendable h c.
Proof.
  unfold sendableb. intros H. apply andb_true_iff in H as [H H4]. apply andb_true_iff in H as [H H3]. apply andb_true_iff in H as [H1 H2].
  pose proof (proj1 (forallb_forall _ _) H2) as K2. pose proof (proj1 (forallb_forall _ _) H3) as K3. pose proof (proj1 (forallb_forall _ _) H4) as K4.
  destruct (kind_of h c) as [[]|] eqn:Ek; try done. destruct (parent_of h c) eqn:Ep; [done|]. split; [done|done| | |].
  - intros x Hx. apply elem_of_list_In in Hx. specialize (K2 x Hx). by apply bool_decide_eq_true in K2.
  - intros e r He Hr. specialize (K3 r (all_rels_in h c e r He Hr)). cbv beta in K3. destruct (ep_of h r) as [p|]; [|done].
    apply existsb_exists in K3 as (y & Hy & Hu). apply bool_decide_eq_true in Hu. apply elem_of_list_In in Hy. by exists p, y.
  - intros v Hv. apply elem_of_list_In in Hv. exact (K4 v Hv).
Qed.

(** three nodes, a directed edge, an edge to the context, two value nodes *)
Definition ops10 := three ++ [OHyperedge fac 0 "e12"; OUnary 4 1 WNone INWARDS None; OUnary 4 2 WNone OUTWARDS None;
  OCreateValue fac (Some 0) "mass" (Some [PNum (Q2Qc (inject_Z 2)); PStr "kg"]); OCreateValue fac (Some 0) "size" (Some [PList [PNum 1%Qc]]);
  OHyperedge fac 0 "up"; OUnary 11 0 WNone BIDIRECTIONAL None].
Definition s10 : st := run ops10 s0.
Lemma s10_reach : reach s10.
Proof. apply run_reach; [apply reach_init|]. vm_compute. reflexivity. Qed.
Example s10_shape : nodes_of (heap s10) 0 = [1; 2; 3] /\ edges_of (heap s10) 0 = [4; 11] /\ values_of (heap s10) 0 = [9; 10] /\
  map (length ∘ rels_of (heap s10)) [4; 11] = [2; 1].
Proof. vm_compute. repeat split. Qed.
Lemma s10_sendable : sendable (heap s10) 0.
Proof. apply sendableb_ok. vm_compute. reflexivity. Qed.

Definition upd10 := update_context 100 0 s10 (new_icon 0 0).
Lemma upd10_ok : exists r g1, update_context 100 0 s10 (new_icon 0 0) = (Ok r, s10, g1).
Proof.
  assert (H : match update_context 100 0 s10 (new_icon 0 0) with (Ok _, _, _) => true | _ => false end = true) by (vm_compute; reflexivity).
  destruct (update_context 100 0 s10 (new_icon 0 0)) as [[[r|e] s1] g1] eqn:E; [|discriminate H].
  destruct (C44_round_trip s10 0 100 (new_icon 0 0) r s1 g1 s10_reach s10_sendable eq_refl eq_refl E) as (x & m & g2 & Es & _).
  exists r, g1. rewrite Es. reflexivity.
Qed.
Lemma in10a : 4 ∈ edges_of (heap s10) 0.
Proof. assert (E : edges_of (heap s10) 0 = [4; 11]) by (vm_compute; reflexivity). rewrite E. left. Qed.
Lemma in10b : 5 ∈ rels_of (heap s10) 4.
Proof. assert (E : rels_of (heap s10) 4 = [5; 7]) by (vm_compute; reflexivity). rewrite E. left. Qed.
Example contents10 : exists m, tells (heap s10) 0 m /\ map mr_dir (m_rels m) = [0; 1; 2].
Proof.
  destruct upd10_ok as (r & g1 & E).
  destruct (C44_round_trip s10 0 100 (new_icon 0 0) r s10 g1 s10_reach s10_sendable eq_refl eq_refl E) as (x & m & g2 & _ & _ & F & D).
  exists m. pose proof (C44_contents s10 0 100 (new_icon 0 0) r s10 g1 m g2 s10_reach s10_sendable eq_refl eq_refl E F) as T0. split; [exact T0|].
  pose proof (te_dirs _ _ _ T0) as Hd. match type of Hd with _ = ?r => let v := eval vm_compute in r in assert (Ev : r = v) by (vm_compute; reflexivity); rewrite Ev in Hd end.
  clear - Hd. destruct (m_rels m) as [|a [|b [|d [|]]]]; try discriminate Hd. injection Hd as H1 H2 H3. cbn [map]. rewrite H1, H2, H3. reflexivity.
Qed.
(** C44 and C45 for it, decoded next to the graph of Ex1 *)
Example round_trip10 : exists m root x' s3 g3 g1 g2, full_msg s10 g1 = (Ok m, g2) /\ create_graph m s1 (new_icon 1 0) = (Ok (Some root, x'), s3, g3) /\
  decoded (heap s10) 0 (heap s1) (heap s3) root /\
  exists e' r', e' ∈ edges_of (heap s3) root /\ r' ∈ rels_of (heap s3) e' /\ dir_of (heap s3) r' = Some BIDIRECTIONAL.
Proof.
  destruct upd10_ok as (r & g1 & E).
  destruct (C44_round_trip s10 0 100 (new_icon 0 0) r s10 g1 s10_reach s10_sendable eq_refl eq_refl E) as (x & m & g2 & _ & _ & F & D).
  destruct (D s1 (new_icon 1 0) s1_reach) as (root & x' & s3 & g3 & C & R3 & _ & _ & Dec & _).
  exists m, root, x', s3, g3, g1, g2. split; [exact F|]. split; [exact C|]. split; [exact Dec|].
  pose proof in10a as H1.
  assert (H2 : exists r0, r0 ∈ rels_of (heap s10) 4 /\ dir_of (heap s10) r0 = Some INWARDS).
  { exists 5. split; [exact in10b|]. vm_compute. reflexivity. }
  destruct H2 as (r0 & Hr0 & Hd).
  destruct (C45_directions_refuted _ _ _ _ _ _ _ _ _ 4 r0 INWARDS s1_reach R3 C Dec H1 Hr0 Hd ltac:(discriminate)) as (e' & r' & A1 & _ & A2 & _ & A3 & _).
  exists e', r'. split; [exact A1|]. split; [exact A2|exact A3].
Qed.
(** what is decoded, computed *)
Definition m10 : option message :=
  match upd10 with (_, s, g) => match full_msg s g with (Ok m, _) => Some m | _ => None end end.
Definition copy10 : option (list string * list string * list (list pyval)) :=
  match m10 with
  | Some m => match create_graph m s1 (new_icon 1 0) with
              | (Ok (Some root, _), s3, _) => Some (map (name_of (heap s3)) (nodes_of (heap s3) root), map (name_of (heap s3)) (edges_of (heap s3) root), map (vals_of (heap s3)) (values_of (heap s3) root))
              | _ => None
              end
  | None => None
  end.
Example copy10_is : copy10 = Some (["n0"; "n1"; "n2"], ["e12"; "up"], [[PNum (Q2Qc (inject_Z 2)); PStr "kg"]; [PList [PNum 1%Qc]]])%string.
Proof. vm_compute. reflexivity. Qed.
(** C47: its hypothesis *)
Example rels10 : exists e, e ∈ edges_of (heap s10) 0 /\ rels_of (heap s10) e <> [].
Proof.
  exists 4. split; [exact in10a|].
  assert (E : rels_of (heap s10) 4 = [5; 7]) by (vm_compute; reflexivity). rewrite E. discriminate.
Qed.
(** C46: the context 1 has the parent 0 *)
Example non_root10 : parent_of (heap s10) 1 = Some 0 /\
  match full_msg s10 (let '(_, _, g) := update_context 100 1 s10 (new_icon 0 1) in g) with (Ok _, _) => true | _ => false end = true /\
  bool_decide (uuid_of (heap s10) 0 = uuid_of (heap s10) 1) = false.
Proof. vm_compute. repeat split. Qed.
(** C48: new values in the source, applied to the copy *)
Definition s10b : st := run (ops10 ++ [OSetValues 9 [PNum 1%Qc]; OSetValue 10 0 (PStr "x")]) s0.
Lemma s10b_reach : reach s10b.
Proof. apply run_reach; [apply reach_init|]. vm_compute. reflexivity. Qed.
Example same_uuids10 : map (uuid_of (heap s10b)) (values_of (heap s10b) 0) = map (uuid_of (heap s10)) (values_of (heap s10) 0).
Proof. vm_compute. reflexivity. Qed.
Definition synced10 : option (list (list pyval)) :=
  match upd10, m10 with
  | (_, _, g), Some m =>
      match create_graph m s1 (new_icon 1 0), msg_value_update s10b g with
      | (Ok (Some root, _), s3, g3), Ok us => match apply_updates g3 us s3 with (Ok _, s5) => Some (map (vals_of (heap s5)) (values_of (heap s5) root)) | _ => None end
      | _, _ => None
      end
  | _, None => None
  end.
Example synced10_is : synced10 = Some [[PNum 1%Qc]; [PStr "x"]]%string.
Proof. vm_compute. reflexivity. Qed.
