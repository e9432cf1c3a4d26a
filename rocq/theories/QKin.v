(** * Proofs about the SDF export: poses, joints, links *)
From stdpp Require Import relations.
From Verif Require Import Spec Hierarchy Elements Factory History Phys SpecPhys SpecPhys2 SpecKin PDict PPath PWF PReach QFac2 QPhys QPhys2.

Lemma is_text_true t v : v = PStr t -> is_text t v = true.
Proof. intros ->. simpl. by apply bool_decide_eq_true. Qed.
Lemma is_text_false t v : v <> PStr t -> is_text t v = false.
Proof. intros H. destruct v; try done. simpl. apply bool_decide_eq_false. intros ->. by apply H. Qed.
Lemma pose_enc rad h x t : posed rad h x t -> pose_text h rad x = Ok t.
Proof.
  intros P. unfold pose_text. rewrite !sattr_attr. destruct P as [x0 x1 x2 xs a b c rest Ht Hr Hd|x0 x1 x2 xs r0 r1 r2 rest Ht Hr Hd]; rewrite Ht, Hr.
  - rewrite is_text_true by done. cbn [py_list rbind].
    assert (E : r_map (fun v => rbind (py_num v) (fun q => Ok (PNum (rad * q)%Qc))) (map PNum (a :: b :: c :: rest)) = Ok (map (fun q => PNum (rad * q)%Qc) (a :: b :: c :: rest))).
    { apply r_map_ok. generalize (a :: b :: c :: rest). intros l. induction l; constructor; done. }
    change (PNum a :: PNum b :: PNum c :: map PNum rest) with (map PNum (a :: b :: c :: rest)). rewrite E. reflexivity.
  - rewrite is_text_false by done. reflexivity.
Qed.
Lemma join1 nm prefix : join_prefix [nm] prefix = xml_name prefix nm.
Proof. unfold join_prefix, xml_name. destruct (decide (prefix = "")); reflexivity. Qed.
Lemma type_enc h d t : joint_type_of h d t -> encode_joint_type (attribute h d "joint_type") = t.
Proof.
  unfold encode_joint_type. intros [[-> ->]|[H ->]]; [done|]. rewrite (is_text_false "rev") by done. by destruct (is_text _ _).
Qed.
Lemma head_opt {A} (l : list A) x : head l = Some x -> exists l', l = x :: l'.
Proof. destruct l as [|y l]; [done|]. intros [= ->]. by exists l. Qed.
Lemma joint_endpoint_enc rad h j0 j1 d n0 nm child prefix x : ep_of h j0 = Some n0 -> kind_of h j0 = Some KRel -> joint_of h j1 d ->
  joint_xml rad h d n0 nm child prefix x -> joint_base_element_endpoint h rad j0 j1 nm child prefix = Ok x.
Proof.
  intros H0 K0 Hd (a & b & c & t & poses & Ha & Ht & Hp & ->). unfold joint_base_element_endpoint.
  rewrite (pendpoint_of _ _ _ H0 (or_introl K0)). cbn [rbind]. rewrite subs_parts, Hd. cbn [r_opt rbind]. rewrite !sattr_attr, subs_parts, !join1, !pname_of, (type_enc _ _ _ Ht).
  assert (E : r_map (fun x => rbind (pose_text h rad x) (fun t => Ok (Xml "pose" [("relative_to", xml_name prefix (name_of h n0))] t []))) (parts h SRigidTransformation d) =
    Ok (map (fun p => Xml "pose" [("relative_to", xml_name prefix (name_of h n0))] p []) poses)).
  { apply r_map_ok. clear -Hp. induction Hp as [|y p l l' H _ IH]; [constructor|]. constructor; [|done]. by rewrite (pose_enc _ _ _ _ H). }
  rewrite E. destruct Ha as [[rest ->]|(-> & -> & -> & ->)]; reflexivity.
Qed.
Lemma q_joint rad h j0 j1 d n0 n1 prefix x : ep_of h j0 = Some n0 -> kind_of h j0 = Some KRel -> ep_of h j1 = Some n1 -> kind_of h j1 = Some KRel -> joint_of h j1 d ->
  joint_xml rad h d n0 (xml_name prefix (name_of h d)) (name_of h n1) prefix x -> joint_base_element h rad j0 j1 prefix = Ok x.
Proof.
  intros H0 K0 H1 K1 Hd Hx. unfold joint_base_element. rewrite subs_parts, Hd. cbn [r_opt rbind]. rewrite (pendpoint_of _ _ _ H1 (or_introl K1)). cbn [rbind].
  rewrite join1, !pname_of. by apply (joint_endpoint_enc rad h j0 j1 d n0).
Qed.
Lemma q_no_joint rad h j0 j1 prefix : parts h SKinematicJoint j1 = [] -> joint_base_element h rad j0 j1 prefix = Exn IndexError.
Proof. intros H. unfold joint_base_element. by rewrite subs_parts, H. Qed.

(** ** Frames *)
Lemma graph_of s n : reach s -> exists_in (heap s) n ->
  (exists d x, nearest_graph (heap s) n x /\ get_parent_kinematic_graph (heap s) n = Ok (Some (d, x))) \/
  (no_graph (heap s) n /\ get_parent_kinematic_graph (heap s) n = Ok None).
Proof.
  intros R Hn. destruct (q_C53 s n R Hn) as (ls & P & [(d & x & F & E)|[N E]]); [left|right].
  - exists d, x. split; [|done]. by exists ls, d.
  - split; [|done]. by exists ls.
Qed.
Lemma first_graph_det h ls d d' x x' : first_graph h ls d x -> first_graph h ls d' x' -> d = d' /\ x = x'.
Proof.
  intros (b & a & -> & H2 & H3) (b' & a' & E & H2' & H3'). revert b' a' E H3'. induction b as [|y b IH]; intros b' a' E H3'.
  - destruct b' as [|y' b']; simpl in E; injection E as -> E; [split; congruence|].
    rewrite (H3' y') in H2 by left. done.
  - destruct b' as [|y' b']; simpl in E; injection E as -> E.
    + rewrite (H3 x') in H2' by left. done.
    + apply (IH) with b' a'; [|done|]; intros w Hw; [apply H3|apply H3']; by right.
Qed.
Lemma nearest_det h n x x' : nearest_graph h n x -> nearest_graph h n x' -> x = x'.
Proof. intros (ls & d & P & F) (ls' & d' & P' & F'). rewrite (path_det _ _ _ _ P' P) in F'. by destruct (first_graph_det _ _ _ _ _ _ F F'). Qed.
Lemma nearest_no h n x : nearest_graph h n x -> no_graph h n -> False.
Proof.
  intros (ls & d & P & b & a & E & H & _) (ls' & P' & N). rewrite (path_det _ _ _ _ P' P) in N. rewrite (N x) in H; [done|]. rewrite E. apply elem_of_app. right. left.
Qed.
Lemma nearest_val s n x : reach s -> exists_in (heap s) n -> nearest_graph (heap s) n x -> exists d, get_parent_kinematic_graph (heap s) n = Ok (Some (d, x)).
Proof.
  intros R Hn Hx. destruct (graph_of s n R Hn) as [(d & x' & N & E)|[N E]].
  - exists d. by rewrite (nearest_det _ _ _ _ Hx N).
  - by destruct (nearest_no _ _ _ Hx N).
Qed.
Lemma no_val s n : reach s -> no_graph (heap s) n -> get_parent_kinematic_graph (heap s) n = Ok None.
Proof.
  intros R N. assert (Hn : exists_in (heap s) n) by (destruct N as (ls & P & _); by eapply path_exists).
  destruct (graph_of s n R Hn) as [(d & x' & N' & E)|[_ E]]; [|done]. by destruct (nearest_no _ _ _ N' N).
Qed.
(** nearest_graph start exists *)
Lemma nearest_ex h n x : nearest_graph h n x -> exists_in h n.
Proof. intros (ls & d & P & _). by eapply path_exists. Qed.

Lemma map_eps h l : (forall x, x ∈ l -> is_Some (ep_of h x)) -> Forall (fun y => kind_of h y = Some KRel) l -> r_map (pendpoint h) l = Ok (omap (ep_of h) l).
Proof.
  intros H F. induction l as [|x l IH]; [done|]. apply Forall_cons in F as [F1 F]. cbn [r_map]. destruct (H x) as [e E]; [left|]. rewrite (pendpoint_of _ _ _ E (or_introl F1)). cbn [rbind].
  rewrite IH; [|intros y Hy; apply H; by right|done]. cbn [omap list_omap rbind]. by rewrite E.
Qed.
Lemma incoming_rels h e : Forall (fun y => kind_of h y = Some KRel) (incoming_of h e).
Proof. apply Forall_forall. intros y Hy. unfold incoming_of in Hy. apply elem_of_list_filter in Hy. tauto. Qed.
Section frames.
  Context (s : st) (R : reach s) (n : loc).
  Notation h := (heap s).
  (** the enclosing graph as computed *)
  Definition kg_is (kg : option loc) : Prop := (exists k, kg = Some k /\ nearest_graph h n k) \/ (kg = None /\ no_graph h n).

  Lemma lead_parts p r d : p ∈ ports_of h n -> leads h p r d -> pendpoint h p = Ok r /\ head (subs_of h (k_sem_is SKinematicJoint) r) = Some d /\ exists o, h !! r = Some o /\ o_kind o = KRel /\ o_dir o = default OUTWARDS (dir_of h r) /\ o_parent o = parent_of h r.
  Proof.
    intros Hp (He & Hk & Hd). split; [|split].
    - apply pendpoint_of; [done|]. right. unfold ports_of in Hp. apply elem_of_list_filter in Hp. tauto.
    - by rewrite subs_parts.
    - unfold kind_of in Hk. unfold dir_of, parent_of. destruct (h !! r) as [o|]; [|done]. exists o. simpl in *. by injection Hk as ->.
  Qed.
  Lemma frame_driven kg p r d ps cur : p ∈ ports_of h n -> leads h p r d -> driven h r -> relative_frame h n kg (p :: ps) cur = Ok (Some (name_of h d)).
  Proof.
    intros Hp Hl (Hd & e & Hpe & He & Hc & x & m & Hx & Hm & Hw). destruct (lead_parts p r d Hp Hl) as (E1 & E2 & o & Ho & Hk & Hdo & Hpo). cbn [relative_frame].
    rewrite E1. cbn [rbind]. rewrite E2. cbn [r_opt rbind]. rewrite Ho, decide_True by done. rewrite Hd in Hdo. rewrite (decide_True (P := o_dir o = OUTWARDS)) by done.
    rewrite Hpo, Hpe. cbn [r_opt rbind]. rewrite (in_rels_eq _ _ He). cbn [rbind]. rewrite (map_eps _ _ Hc (incoming_rels _ _)). cbn [rbind].
    assert (existsb (fun n => bool_decide (pname h n <> "world")) (omap (ep_of h) (incoming_of h e)) = true) as ->.
    { apply existsb_exists. exists m. split; [|apply bool_decide_eq_true; by rewrite pname_of]. apply elem_of_list_In, elem_of_list_omap. by exists x. }
    by rewrite pname_of.
  Qed.
  Lemma frame_world kg p r d ps cur : p ∈ ports_of h n -> leads h p r d -> from_world h r -> relative_frame h n kg (p :: ps) cur = relative_frame h n kg ps cur.
  Proof.
    intros Hp Hl (Hd & e & Hpe & He & Hc & Hw). destruct (lead_parts p r d Hp Hl) as (E1 & E2 & o & Ho & Hk & Hdo & Hpo). cbn [relative_frame].
    rewrite E1. cbn [rbind]. rewrite E2. cbn [r_opt rbind]. rewrite Ho, decide_True by done. rewrite Hd in Hdo. rewrite (decide_True (P := o_dir o = OUTWARDS)) by done.
    rewrite Hpo, Hpe. cbn [r_opt rbind]. rewrite (in_rels_eq _ _ He). cbn [rbind]. rewrite (map_eps _ _ Hc (incoming_rels _ _)). cbn [rbind].
    assert (existsb (fun n => bool_decide (pname h n <> "world")) (omap (ep_of h) (incoming_of h e)) = false) as ->; [|done].
    apply not_true_iff_false. intros Hx. apply existsb_exists in Hx as (m & Hm & Hx). apply bool_decide_eq_true in Hx. apply elem_of_list_In, elem_of_list_omap in Hm as (x & H1 & H2).
    apply Hx. rewrite pname_of. by apply (Hw x m).
  Qed.
  Lemma dir_ne r o : h !! r = Some o -> dir_of h r <> Some OUTWARDS -> o_dir o <> OUTWARDS.
  Proof. unfold dir_of. intros -> H E. apply H. by rewrite <- E. Qed.
  Lemma frame_nested kg p r d ps cur : kg_is kg -> p ∈ ports_of h n -> leads h p r d -> dir_of h r <> Some OUTWARDS -> nested_graph h n ->
    relative_frame h n kg (p :: ps) cur = relative_frame h n kg ps (Some ("connect." +:+ name_of h n)).
  Proof.
    intros K Hp Hl Hd (k & q & x & Hk & Hq & Hx). destruct (lead_parts p r d Hp Hl) as (E1 & E2 & o & Ho & Hko & _ & _). cbn [relative_frame].
    rewrite E1. cbn [rbind]. rewrite E2. cbn [r_opt rbind]. rewrite Ho, decide_True by done. rewrite decide_False by (by apply (dir_ne r)).
    destruct K as [(k' & -> & Hk')|[_ N]]; [|by destruct (nearest_no _ _ _ Hk N)]. rewrite (nearest_det _ _ _ _ Hk' Hk). cbn [r_opt rbind].
    rewrite pparent_of, Hq. cbn [r_opt rbind]. destruct (nearest_val s q x R (nearest_ex _ _ _ Hx) Hx) as [d' E]. rewrite E. cbn [rbind]. by rewrite pname_of.
  Qed.
  Lemma frame_outer kg p r d ps cur : kg_is kg -> p ∈ ports_of h n -> leads h p r d -> dir_of h r <> Some OUTWARDS -> outermost_graph h n ->
    relative_frame h n kg (p :: ps) cur = relative_frame h n kg ps cur.
  Proof.
    intros K Hp Hl Hd (k & q & Hk & Hq & Hx). destruct (lead_parts p r d Hp Hl) as (E1 & E2 & o & Ho & Hko & _ & _). cbn [relative_frame].
    rewrite E1. cbn [rbind]. rewrite E2. cbn [r_opt rbind]. rewrite Ho, decide_True by done. rewrite decide_False by (by apply (dir_ne r)).
    destruct K as [(k' & -> & Hk')|[_ N]]; [|by destruct (nearest_no _ _ _ Hk N)]. rewrite (nearest_det _ _ _ _ Hk' Hk). cbn [r_opt rbind].
    rewrite pparent_of, Hq. cbn [r_opt rbind]. rewrite (no_val s q R Hx). done.
  Qed.
  Lemma frame_top kg p r d ps cur : kg_is kg -> p ∈ ports_of h n -> leads h p r d -> dir_of h r <> Some OUTWARDS -> top_graph h n ->
    relative_frame h n kg (p :: ps) cur = Exn AttributeError.
  Proof.
    intros K Hp Hl Hd T. destruct (lead_parts p r d Hp Hl) as (E1 & E2 & o & Ho & Hko & _ & _). cbn [relative_frame].
    rewrite E1. cbn [rbind]. rewrite E2. cbn [r_opt rbind]. rewrite Ho, decide_True by done. rewrite decide_False by (by apply (dir_ne r)).
    destruct K as [(k' & -> & Hk')|[-> N]]; [|done]. destruct T as [N|(k & Hk & Hp')]; [by destruct (nearest_no _ _ _ Hk' N)|].
    rewrite (nearest_det _ _ _ _ Hk' Hk). cbn [r_opt rbind]. rewrite pparent_of, Hp'. done.
  Qed.
  Lemma nested_outer : nested_graph h n -> outermost_graph h n -> False.
  Proof.
    intros (k & q & x & Hk & Hq & Hx) (k' & q' & Hk' & Hq' & N). rewrite (nearest_det _ _ _ _ Hk' Hk) in Hq'. assert (q' = q) as -> by congruence.
    by apply (nearest_no _ _ _ Hx N).
  Qed.
  (** running over harmless ports *)
  Lemma frame_skip kg ps qs cur : kg_is kg -> (forall p, p ∈ ps -> p ∈ ports_of h n /\ exists r d, leads h p r d /\ harmless h n r) ->
    exists cur', relative_frame h n kg (ps ++ qs) cur = relative_frame h n kg qs cur' /\
      ((forall p r d, p ∈ ps -> leads h p r d -> from_world h r \/ outermost_graph h n) -> cur' = cur) /\
      ((nested_graph h n /\ exists p r d, p ∈ ps /\ leads h p r d /\ dir_of h r <> Some OUTWARDS) -> cur' = Some ("connect." +:+ name_of h n)).
  Proof.
    intros K. revert cur. induction ps as [|p ps IH]; intros cur H.
    { exists cur. split; [done|]. split; [done|]. intros (_ & p & r & d & Hp & _). by apply elem_of_nil in Hp. }
    destruct (H p) as (Hp & r & d & Hl & Hh); [left|].
    assert (Hps : forall p, p ∈ ps -> p ∈ ports_of h n /\ exists r d, leads h p r d /\ harmless h n r) by (intros p' Hp'; apply H; by right).
    assert (LD : forall r' d', leads h p r' d' -> r' = r) by (intros r' d' (L1 & _); destruct Hl as (L2 & _); congruence).
    destruct Hh as [Hw|[Hd [Hn|Ho]]].
    - destruct (IH cur Hps) as (cur' & E & E1 & E2). exists cur'. cbn [app]. rewrite (frame_world kg p r d) by done. split; [done|]. split.
      + intros Hall. apply E1. intros p' r' d' Hp' Hl'. apply (Hall p' r' d'); [by right|done].
      + intros (Hn & p' & r' & d' & Hp' & Hl' & Hd'). apply E2. split; [done|]. apply elem_of_cons in Hp' as [->|Hp']; [|by exists p', r', d'].
        rewrite (LD _ _ Hl') in Hd'. destruct Hw as [Hw _]. done.
    - destruct (IH (Some ("connect." +:+ name_of h n)) Hps) as (cur' & E & E1 & E2). exists cur'. cbn [app]. rewrite (frame_nested kg p r d) by done. split; [done|]. split.
      + intros Hall. exfalso. destruct (Hall p r d) as [[Hw _]|Ho]; [left|done|done|]. by apply nested_outer.
      + intros _. assert (X : Exists (fun p' => exists r', ep_of h p' = Some r' /\ dir_of h r' <> Some OUTWARDS) ps \/ ~ Exists (fun p' => exists r', ep_of h p' = Some r' /\ dir_of h r' <> Some OUTWARDS) ps).
        { clear. induction ps as [|y l IH]; [right; intros H; inversion H|]. destruct IH as [IH|IH]; [left; by right|].
          destruct (ep_of h y) as [r'|] eqn:E; [destruct (decide (dir_of h r' = Some OUTWARDS)) as [D|D]|].
          - right. intros H. inversion H as [? ? (r0 & E0 & D0)|]; subst; [|done]. congruence.
          - left. left. by exists r'.
          - right. intros H. inversion H as [? ? (r0 & E0 & D0)|]; subst; [|done]. congruence. }
        destruct X as [X|X].
        * apply E2. split; [done|]. apply Exists_exists in X as (p' & Hp' & r' & L & D). destruct (Hps p' Hp') as (_ & r'' & d'' & L' & _). exists p', r'', d''. split; [done|]. split; [done|].
          destruct L' as (L' & _). congruence.
        * apply E1. intros p' r' d' Hp' Hl'. left. destruct (Hps p' Hp') as (_ & r'' & d'' & L' & [Hw|[Hd' _]]).
          -- destruct L' as (L' & _), Hl' as (L & _). congruence.
          -- exfalso. apply X. apply Exists_exists. exists p'. split; [done|]. exists r''. by destruct L' as (L' & _).
    - destruct (IH cur Hps) as (cur' & E & E1 & E2). exists cur'. cbn [app]. rewrite (frame_outer kg p r d) by done. split; [done|]. split.
      + intros Hall. apply E1. intros p' r' d' Hp' Hl'. by right.
      + intros (Hn & _). by destruct (nested_outer Hn Ho).
  Qed.
End frames.
Lemma frame_start s n : reach s -> kind_of (heap s) n = Some KNode -> exists kg, kg_is s n kg /\ obtain_relative_frame_name (heap s) n = relative_frame (heap s) n kg (ports_of (heap s) n) None.
Proof.
  intros R Hk. assert (Hx : exists_in (heap s) n) by (unfold kind_of in Hk; destruct (heap s !! n) eqn:E; [by eexists|done]).
  unfold obtain_relative_frame_name. rewrite (pkind_of _ _ _ Hk), ports_subs. destruct (graph_of s n R Hx) as [(d & x & N & ->)|[N ->]]; cbn [rbind fmap option_fmap option_map snd is_hyperelement].
  - exists (Some x). split; [|done]. left. by exists x.
  - exists None. split; [|done]. right. done.
Qed.
Lemma harmless_sub h n (ps qs : list loc) : harmless_ports h n ps -> (forall p, p ∈ ps -> p ∈ qs) -> forall p, p ∈ ps -> p ∈ qs /\ exists r d, leads h p r d /\ harmless h n r.
Proof. intros H Hs p Hp. split; [by apply Hs|by apply H]. Qed.
Lemma q_framed s n f : reach s -> kind_of (heap s) n = Some KNode -> framed (heap s) n f -> obtain_relative_frame_name (heap s) n = Ok f.
Proof.
  intros R Hk F. destruct (frame_start s n R Hk) as (kg & K & ->). destruct F as [ps p qs r d E Hh Hl Hd|p r d Hh Hn Hp Hl Hd|H].
  - destruct (frame_skip s R n kg ps (p :: qs) None K) as (cur & E1 & _ & _).
    { apply harmless_sub; [done|]. intros y Hy. rewrite E. apply elem_of_app. by left. }
    rewrite E, E1. apply frame_driven with r; [|done|done]. rewrite E. apply elem_of_app. right. left.
  - destruct (frame_skip s R n kg (ports_of (heap s) n) [] None K) as (cur & E1 & _ & E2); [by apply harmless_sub|]. rewrite app_nil_r in E1. rewrite E1. cbn [relative_frame].
    rewrite E2; [done|]. split; [done|]. by exists p, r, d.
  - destruct (frame_skip s R n kg (ports_of (heap s) n) [] None K) as (cur & E1 & E2 & _).
    { intros p Hp. split; [done|]. destruct (H p Hp) as (r & d & Hl & [Hw|[Hd Ho]]); exists r, d; (split; [done|]); [by left|right; auto]. }
    rewrite app_nil_r in E1. rewrite E1. cbn [relative_frame]. rewrite E2; [done|]. intros p r d Hp Hl. destruct (H p Hp) as (r' & d' & Hl' & [Hw|[_ Ho]]); [left|by right].
    destruct Hl as (L & _), Hl' as (L' & _). congruence.
Qed.
Lemma q_frame_no_joint s n ps p qs r : reach s -> kind_of (heap s) n = Some KNode -> ports_of (heap s) n = ps ++ p :: qs -> harmless_ports (heap s) n ps ->
  ep_of (heap s) p = Some r -> parts (heap s) SKinematicJoint r = [] -> obtain_relative_frame_name (heap s) n = Exn StopIteration.
Proof.
  intros R Hk E Hh He Hj. destruct (frame_start s n R Hk) as (kg & K & ->).
  destruct (frame_skip s R n kg ps (p :: qs) None K) as (cur & E1 & _ & _).
  { apply harmless_sub; [done|]. intros y Hy. rewrite E. apply elem_of_app. by left. }
  rewrite E, E1. cbn [relative_frame]. assert (Hp : p ∈ ports_of (heap s) n) by (rewrite E; apply elem_of_app; right; left).
  unfold ports_of in Hp. apply elem_of_list_filter in Hp as [Hp _]. rewrite (pendpoint_of _ _ _ He (or_intror Hp)). cbn [rbind]. by rewrite subs_parts, Hj.
Qed.
Lemma q_frame_top s n ps p qs r d : reach s -> kind_of (heap s) n = Some KNode -> ports_of (heap s) n = ps ++ p :: qs -> harmless_ports (heap s) n ps ->
  leads (heap s) p r d -> dir_of (heap s) r <> Some OUTWARDS -> top_graph (heap s) n -> obtain_relative_frame_name (heap s) n = Exn AttributeError.
Proof.
  intros R Hk E Hh Hl Hd Ht. destruct (frame_start s n R Hk) as (kg & K & ->).
  destruct (frame_skip s R n kg ps (p :: qs) None K) as (cur & E1 & _ & _).
  { apply harmless_sub; [done|]. intros y Hy. rewrite E. apply elem_of_app. by left. }
  rewrite E, E1. apply (frame_top s n kg p r d); try done. rewrite E; apply elem_of_app; right; left.
Qed.
Lemma solid_enc h prefix cont gs : solid h prefix cont gs -> encode_geometry_element h cont prefix = Ok gs.
Proof. intros S. destruct S; [by apply q_C54_none|by eapply q_C54_single]. Qed.
Lemma q_link rad s prefix el x : reach s -> link_xml rad (heap s) prefix el x -> encode_link_element (heap s) rad el prefix = Ok x.
Proof.
  intros R (cont & f & gs & t & Hp & Hk & F & S & P & ->). unfold encode_link_element. rewrite pparent_of, Hp. cbn [r_opt rbind].
  rewrite (q_framed s cont f R Hk F). cbn [rbind]. rewrite subs_parts, (solid_enc _ _ _ _ S), !join1, pname_of.
  assert (E : (match parts (heap s) SRigidTransformation el with x :: _ => pose_text (heap s) rad x | [] => Ok [PT "0.0 0.0 0.0 0.0 0.0 0.0"] end) = Ok t).
  { destruct P as [[-> ->]|(x & Hx & Hpo)]; [done|]. destruct (head_opt _ _ Hx) as [l' ->]. by apply pose_enc. }
  rewrite E. cbn [rbind]. destruct f; [by rewrite join1|done].
Qed.
