(** * Loading: for plain references, bound and resolvable are the same *)
From stdpp Require Import relations.
From Verif Require Import Spec Hierarchy Elements Factory History CogniLang QHier QCog3 QCog4 QCog5 QCog8 QGo6 SpecScope SpecBound.

Section plain.
  Context (fl : string -> option Qc) (rad : Qc) (J : list string).
  Definition edge_ok (t : tree) : Prop := match t with T (LEdge nm) _ => nm ∈ J \/ exists t, nm = "ref_" +:+ t | _ => True end.
  Definition joint_plain (j : cjoint) : Prop := jt_name j ∈ J /\ Forall (fun r => plain_reference J (jr_ref r)) (jt_rels j).

  Lemma plain_found ts ref : Forall edge_ok ts -> plain_reference J ref -> reference_bound ts ref -> reference_found ts ref.
  Proof.
    intros F P B. destruct (decide (ref = "world")) as [Hw|Hw]; [by left|]. destruct P as [P|(H1 & H2 & H3 & H4)]; [done|]. right. split; [done|]. split; [done|].
    destruct B as [B|[B|(t & Ht & Hc)]]; [done|congruence|].
    assert (Hin : t ∈ filter (fun t => tree_name t = ref) ts) by (destruct (filter _ ts); [done|injection Ht as ->; left]).
    apply elem_of_list_filter in Hin as [Hn Hin]. rewrite Forall_forall in F. specialize (F t Hin). destruct t as [lb sub]. destruct lb as [nm|nm| | |]; try done; cbn [tree_name] in Hn; subst nm.
    - by exists sub.
    - exfalso. cbn in F. destruct F as [F|[t F]]; [done|by apply (H4 t)].
  Qed.
  Lemma plain_short ref : plain_reference J ref -> short_name ref = ref.
  Proof. unfold short_name. intros [->|(H & _)]; [done|]. by rewrite (has_char_split _ _ H). Qed.
  Lemma joint_plain_found ts j : Forall edge_ok ts -> joint_plain j -> joint_bound ts j -> joint_found ts j.
  Proof.
    intros F [_ P] [Hn B]. split.
    - assert (E : map (fun r => short_name (jr_ref r)) (jt_rels j) = map jr_ref (jt_rels j)); [|by rewrite <- E]. clear -P. induction P as [|r rs Hr P IH]; [done|]. cbn [map]. by rewrite IH, plain_short.
    - apply Forall_forall. intros r Hr. rewrite Forall_forall in P, B. apply plain_found; auto.
  Qed.

  Lemma thread_edges {A} (f : list string -> A -> option (list tree * list string)) : forall l seen ts seen',
    Forall (fun x => forall seen ts seen', f seen x = Some (ts, seen') -> Forall edge_ok ts) l -> thread f seen l = Some (ts, seen') -> Forall edge_ok ts.
  Proof.
    induction l as [|x l IH]; intros seen ts seen' F E.
    - injection E as <- _. constructor.
    - inversion F as [|? ? F1 F2]; subst. rewrite thread_cons in E. destruct (f seen x) as [[t1 s1]|] eqn:E1; [|done]. destruct (thread f s1 l) as [[t2 s2]|] eqn:E2; [|done]. injection E as <- _.
      apply Forall_app. split; [by eapply F1|by eapply IH].
  Qed.
  Lemma kitem_edges env it path seen ts seen' : Forall joint_plain (kitem_joints it) -> kitem_trees fl rad env path seen it = Some (ts, seen') -> Forall edge_ok ts.
  Proof.
    intros P E. destruct it as [l|j|nm its|]; cbn [kitem_trees kitem_joints] in *.
    - unfold link_tree in E. destruct (link_head fl rad env l); [|done].
      assert (X : forall y, thread (reference_tree (path ++ [lk_name l])) seen (link_parts l) = Some (y, seen') -> Forall edge_ok y).
      { intros y Hy. eapply thread_edges; [|exact Hy]. apply Forall_forall. intros pt _ sn tt sn' Hr. unfold reference_tree in Hr. destruct (part_geometry pt); [injection Hr as <- _; constructor|].
        case_decide; injection Hr as <- _; constructor; [|constructor]. right. by eexists. }
      destruct (thread (reference_tree (path ++ [lk_name l])) seen (link_parts l)) as [[y sn]|] eqn:Ey; [|destruct (lk_body l) as [[? ?]|]; [destruct (fl _); [destruct (part_trees _ _ _ _)|]|]; done].
      destruct (lk_body l) as [[i ps]|].
      + destruct (fl (in_mass i)); [|done]. destruct (part_trees fl env (path ++ [lk_name l]) ps); [|done]. injection E as <- <-. constructor; [done|by apply X].
      + injection E as <- <-. constructor; [done|by apply X].
    - unfold joint_tree in E. destruct (relation_trees _ _ _ _ _ _); [|done]. injection E as <- _. constructor; [|constructor]. left. inversion P as [|? ? Hj _]; subst. apply Hj.
    - destruct (thread _ _ _) as [[y sn]|]; [|done]. injection E as <- _. by repeat constructor.
    - injection E as <- _. constructor.
  Qed.
  Lemma aitem_edges env it path seen ts seen' : Forall joint_plain (aitem_joints it) -> aitem_trees fl rad env path seen it = Some (ts, seen') -> Forall edge_ok ts.
  Proof.
    intros P E. destruct it as [n|n|nm its|nm its|]; cbn [aitem_trees] in E; try (injection E as <- _; by repeat constructor).
    - destruct (thread _ _ _) as [[y sn]|]; [|done]. injection E as <- _. by repeat constructor.
    - by eapply (kitem_edges env (KiKin nm its)).
  Qed.
  Lemma in_turn_mono {A} (tr : list string -> A -> option (list tree * list string)) (en : A -> entries) (ok ok' : list tree -> entries -> list string -> A -> Prop) : forall l,
    Forall (fun x => (forall ts es seen, Forall edge_ok ts -> ok ts es seen x -> ok' ts es seen x) /\ forall seen ts seen', tr seen x = Some (ts, seen') -> Forall edge_ok ts) l ->
    forall ts es seen, Forall edge_ok ts -> in_turn tr en ok ts es seen l -> in_turn tr en ok' ts es seen l.
  Proof.
    induction l as [|x l IH]; intros F ts es seen Ht H; [done|]. inversion F as [|? ? [F1 F2] F']; subst. cbn [in_turn] in *. destruct H as [H1 H2]. split; [by apply F1|].
    destruct (tr seen x) as [[ts' seen']|] eqn:E; [|done]. apply IH; [done| |done]. apply Forall_app. split; [done|by eapply F2].
  Qed.
  Lemma flat_plain {A} (f : A -> list cjoint) (l : list A) x : Forall joint_plain (flat_map f l) -> x ∈ l -> Forall joint_plain (f x).
  Proof. intros F Hx. induction l as [|a l IH]; [inversion Hx|]. cbn [flat_map] in F. apply Forall_app in F as [F1 F2]. apply elem_of_cons in Hx as [->|Hx]; auto. Qed.

  Lemma kitem_plain env : forall it path, Forall joint_plain (kitem_joints it) -> forall ts es seen, Forall edge_ok ts -> kitem_bound fl rad env path ts es seen it -> kitem_found fl rad env path ts es seen it.
  Proof.
    induction it as [l|j|nm its IH|] using kitem_rect'; intros path P ts es seen Ht B; cbn [kitem_bound kitem_found kitem_joints] in *; [done| | |done].
    - inversion P; subst. by apply joint_plain_found.
    - eapply in_turn_mono; [| |exact B]; [|by repeat constructor]. apply Forall_forall. intros it Hit. pose proof (flat_plain _ _ _ P Hit) as Pi. split.
      + rewrite Forall_forall in IH. by apply (IH it Hit).
      + intros sn tt sn'. by apply kitem_edges.
  Qed.
  Lemma aitem_plain env : forall it path, Forall joint_plain (aitem_joints it) -> forall ts es seen, Forall edge_ok ts -> aitem_bound fl rad env path ts es seen it -> aitem_found fl rad env path ts es seen it.
  Proof.
    induction it as [n|n|nm its IH|nm its|] using aitem_rect'; intros path P ts es seen Ht B; cbn [aitem_bound aitem_found aitem_joints] in *; [done|done| | |done].
    - eapply in_turn_mono; [| |exact B]; [|by repeat constructor]. apply Forall_forall. intros it Hit. pose proof (flat_plain _ _ _ P Hit) as Pi. split.
      + rewrite Forall_forall in IH. by apply (IH it Hit).
      + intros sn tt sn'. by apply aitem_edges.
    - by apply (kitem_plain env (KiKin nm its)).
  Qed.
  Lemma items_plain path : forall its env ts es seen, Forall joint_plain (flat_map eitem_joints its) -> Forall edge_ok ts -> items_bound fl rad path env ts es seen its -> items_found fl rad path env ts es seen its.
  Proof.
    induction its as [|it its IH]; intros env ts es seen P Ht B; [done|]. cbn [items_bound items_found flat_map] in *. apply Forall_app in P as [P1 P2]. destruct B as [B1 B2]. split.
    - destruct it as [j|nm its'|nm its'|ps|]; cbn [eitem_bound eitem_found eitem_joints] in *; [|by apply (aitem_plain env (AiAmbient nm its'))|by apply (kitem_plain env (KiKin nm its'))|done|done].
      by apply (kitem_plain env (KiJoint j)).
    - destruct (eitem_trees fl rad env path seen it) as [[ts' seen']|] eqn:E; [|done]. apply IH; [done| |done]. apply Forall_app. split; [done|].
      destruct it as [j|nm its'|nm its'|ps|]; cbn [eitem_trees eitem_joints] in *; [by eapply (kitem_edges env (KiJoint j))|by eapply (aitem_edges env (AiAmbient nm its'))|by eapply (kitem_edges env (KiKin nm its'))| |];
        injection E as <- _; constructor.
  Qed.
End plain.
Lemma plainly_resolvable fl rad e : plainly e -> bound fl rad e -> resolvable fl rad e.
Proof.
  intros P B. unfold resolvable. eapply (items_plain fl rad (map jt_name (entity_joints e))); [|by repeat constructor|exact B].
  unfold plainly in P. change (flat_map eitem_joints (en_items e)) with (entity_joints e). apply Forall_forall. intros j Hj. split; [by apply elem_of_list_fmap_1|]. rewrite Forall_forall in P. by apply P.
Qed.
