(** * Conversion: the links and joints in the tree of a description *)
From stdpp Require Import relations.
From Verif Require Import Spec Hierarchy Elements Factory History SpecCogni QCog3 QCog5 QCog8 SpecConv QConv3 SpecCogni.

(** ** Where nodes, links, relations and joints occur *)
Definition kid_ok (lb : label) (first : bool) (k : label) : bool :=
  match k with
  | LNode _ | LEdge _ => is_lnode lb
  | LSem SKinematicLink _ _ => is_lnode lb && first
  | LSem SKinematicJoint _ _ => match lb with LRel _ _ _ => first | _ => false end
  | LRel _ _ _ => match lb with LEdge _ => true | _ => false end
  | LSem SCognitiveEntity _ _ => false
  | _ => true
  end.
Definition kids_ok (lb : label) (ts : list tree) : bool :=
  match ts with [] => true | t :: ts' => kid_ok lb true (rt t) && forallb (fun t' => kid_ok lb false (rt t')) ts' end.
Definition joint_rel_tree (t : tree) : bool := match t with T (LRel _ _ _) (T (LSem SKinematicJoint _ _) _ :: _) => true | _ => false end.
(** either all relations of an edge have a joint, or none *)
Definition edge_ok (lb : label) (ts : list tree) : bool :=
  match lb with LEdge _ => forallb joint_rel_tree ts || forallb (fun t => negb (joint_rel_tree t)) ts | _ => true end.
Fixpoint shaped (t : tree) : bool := match t with T lb ts => kids_ok lb ts && edge_ok lb ts && forallb shaped ts end.
Lemma shaped_nodes t : shaped t = true -> nodes_ok t = true.
Proof.
  induction t as [lb ts IH] using tree_ind'. cbn [shaped nodes_ok]. intros H. apply andb_true_iff in H as [H1 H2]. apply andb_true_iff in H1 as [H1 _]. apply forallb_forall. intros t Ht. apply andb_true_iff. split.
  - assert (Hk : exists b, kid_ok lb b (rt t) = true).
    { destruct ts as [|u ts]; [done|]. cbn in H1. apply andb_true_iff in H1 as [A B]. destruct Ht as [<-|Ht]; [by exists true|]. exists false. rewrite forallb_forall in B. by apply B. }
    destruct Hk as [b Hk]. destruct (rt t) as [nm|nm|d w q|c nm a|nm vs]; cbn in *; try by rewrite orb_true_r. by rewrite Hk.
  - rewrite Forall_forall in IH. apply IH; [by apply elem_of_list_In|]. rewrite forallb_forall in H2. by apply H2.
Qed.
(** a list of trees that may follow below a node *)
Definition tail_ok (ts : list tree) : bool := forallb (fun t => kid_ok (LNode "") false (rt t) && shaped t) ts.
Lemma tail_ok_app a b : tail_ok (a ++ b) = tail_ok a && tail_ok b.
Proof. apply forallb_app. Qed.
Lemma shaped_node nm t ts : kid_ok (LNode "") true (rt t) = true -> shaped t = true -> tail_ok ts = true -> shaped (T (LNode nm) (t :: ts)) = true.
Proof.
  intros H1 H2 H3. cbn [shaped kids_ok edge_ok forallb]. rewrite andb_true_r. change (kid_ok (LNode nm)) with (kid_ok (LNode "")). rewrite H1, H2. cbn [andb]. apply andb_true_iff. unfold tail_ok in H3. rewrite forallb_forall in H3.
  split; apply forallb_forall; intros u Hu; specialize (H3 u Hu); apply andb_true_iff in H3 as [? ?]; done.
Qed.

Lemma tail_node t nm : rt t = LNode nm -> shaped t = true -> kid_ok (LNode "") false (rt t) && shaped t = true.
Proof. by intros -> ->. Qed.
Lemma shaped_node_tail nm ts : tail_ok ts = true -> shaped (T (LNode nm) ts) = true.
Proof.
  destruct ts as [|t ts]; [done|]. intros H. cbn [tail_ok forallb] in H. apply andb_true_iff in H as [H1 H2]. apply andb_true_iff in H1 as [H0 H1]. apply shaped_node; [|done|done].
  destruct (rt t) as [| | |c nm' a|]; try done. by destruct c.
Qed.
Section shaped.
  Context (fl : string -> option Qc) (rad : Qc).
  Lemma rigid_tree_shaped owner x : shaped (rigid_tree owner x) = true /\ exists nm a, rt (rigid_tree owner x) = LSem SRigidTransformation nm a.
  Proof. destruct x as [[t q] u]. split; [done|]. by eexists _, _. Qed.
  Lemma geometry_shaped env nm g t : geometry_tree fl env nm g = Some t -> rt t = LNode nm /\ shaped t = true.
  Proof.
    destruct g as [ty [v|]|]; cbn; [|done|by intros [= <-]]. destruct (geometry_class ty) as [c|] eqn:Ec; [|done]. destruct (numbers fl env v); [|done]. intros [= <-]. split; [done|].
    destruct ty; cbn in Ec; try done; injection Ec as <-; done.
  Qed.
  Lemma part_shaped env path p t : part_tree fl env path p = Some t -> rt t = LNode (part_name path p) /\ shaped t = true.
  Proof.
    unfold part_tree. cbv zeta. destruct (geometry_tree fl env ("geom_" +:+ part_name path p) (part_geometry p)) as [g|] eqn:E; [|done]. intros [= <-]. apply geometry_shaped in E as [E1 E2].
    split; [done|]. apply shaped_node; [by rewrite E1|done|]. by destruct p.
  Qed.
  Lemma parts_shaped env path ps ts : part_trees fl env path ps = Some ts -> tail_ok ts = true /\ Forall (fun t => exists nm, rt t = LNode nm) ts.
  Proof.
    revert ts. induction ps as [|p ps IH]; intros ts H; cbn [part_trees] in H; [injection H as <-; split; [done|constructor]|]. destruct (part_tree fl env path p) as [t|] eqn:E; [|done].
    destruct (part_trees fl env path ps) as [us|]; [|done]. injection H as <-. destruct (IH us eq_refl) as [A B]. apply part_shaped in E as [E1 E2]. split; [|constructor; [by eexists|done]].
    cbn [tail_ok forallb]. fold (tail_ok us). rewrite A, E1, E2. done.
  Qed.
  Lemma head_shaped env l t : link_head fl rad env l = Some t -> shaped t = true /\ exists a, rt t = LSem SKinematicLink (lk_name l) a.
  Proof.
    unfold link_head. cbv zeta. destruct (lk_pose l) as [r|].
    - destruct (rigid fl env r) as [[[tr q] u]|]; [|done]. intros [= <-]. split; [done|by eexists].
    - intros [= <-]. split; [done|by eexists].
  Qed.
  (** A link: a node, first its link element, then elements that are neither links nor joints *)
  Lemma link_tree_inv env path l t : link_tree fl rad env path l = Some t -> exists hd rest, t = T (LNode (lk_name l)) (hd :: rest) /\ link_head fl rad env l = Some hd /\
    Forall (fun t => (exists nm, rt t = LNode nm) \/ exists nm a, rt t = LSem SInertiaElement nm a /\ subs t = []) rest /\ tail_ok rest = true.
  Proof.
    unfold link_tree. cbv zeta. destruct (link_head fl rad env l) as [hd|]; [|done]. destruct (lk_body l) as [[i ps]|].
    - destruct (fl (in_mass i)) as [m|]; [|done]. destruct (part_trees fl env (path ++ [lk_name l]) ps) as [ts|] eqn:E; [|done]. intros [= <-]. apply parts_shaped in E as [E1 E2].
      eexists hd, _. split; [done|]. split; [done|]. split.
      + constructor; [right; by eexists _, _|]. eapply Forall_impl; [exact E2|]. cbn. auto.
      + done.
    - intros [= <-]. exists hd, []. split; [done|]. split; [done|]. split; [constructor|done].
  Qed.
  Lemma link_shaped env path l t : link_tree fl rad env path l = Some t -> shaped t = true.
  Proof.
    intros H. apply link_tree_inv in H as (hd & rest & -> & Hh & _ & Ht). apply head_shaped in Hh as [H1 [a H2]]. apply shaped_node; [by rewrite H2|done|done].
  Qed.
  Lemma relation_tree_inv env path joint r t : relation_tree fl rad env path joint r = Some t -> exists d w q a ts, relation_direction (jr_dir r) = Some d /\ q = endpoint_name path (jr_ref r) /\
    t = T (LRel d w q) [T (LSem SKinematicJoint (joint +:+ "." +:+ jr_ref r) a) ts] /\ Forall (fun u => exists nm b, rt u = LSem SRigidTransformation nm b /\ subs u = []) ts.
  Proof.
    unfold relation_tree. cbv zeta. destruct (relation_direction (jr_dir r)) as [d|]; [|done]. destruct (axis_attr fl env r) as [ax|]; [|done]. destruct (jr_rigid r) as [rg|].
    - destruct (rigid fl env rg) as [[[t0 q] u]|]; [|done]. intros [= <-]. eexists d, _, _, _, _. split; [done|]. split; [done|]. split; [done|]. constructor; [by eexists _, _|constructor].
    - intros [= <-]. eexists d, _, _, _, _. split; [done|]. split; [done|]. split; [done|]. constructor.
  Qed.
  Lemma rigid_leafs ts : Forall (fun u => exists nm b, rt u = LSem SRigidTransformation nm b /\ subs u = []) ts -> forall lb, kids_ok lb ts = true /\ forallb shaped ts = true.
  Proof.
    intros H lb. split.
    - destruct H as [|u ts (nm & b & E & _) H]; [done|]. cbn. rewrite E. cbn. apply forallb_forall. intros v Hv. rewrite Forall_forall in H. destruct (H v) as (nm' & b' & -> & _); [by apply elem_of_list_In|done].
    - apply forallb_forall. intros v Hv. rewrite Forall_forall in H. destruct (H v) as (nm' & b' & E & E'); [by apply elem_of_list_In|]. destruct v as [lb' ts']. cbn in *. by subst.
  Qed.
  Lemma relation_shaped env path joint r t : relation_tree fl rad env path joint r = Some t -> shaped t = true.
  Proof.
    intros H. apply relation_tree_inv in H as (d & w & q & a & ts & _ & _ & -> & F). destruct (rigid_leafs ts F (LSem SKinematicJoint (joint +:+ "." +:+ jr_ref r) a)) as [A B].
    cbn [shaped kids_ok edge_ok forallb rt kid_ok]. rewrite A, B. done.
  Qed.
  Definition is_rel (t : tree) : Prop := exists d w q, rt t = LRel d w q.
  Lemma rels_shaped e ts : Forall is_rel ts -> edge_ok (LEdge e) ts = true -> Forall (fun t => shaped t = true) ts -> shaped (T (LEdge e) ts) = true.
  Proof.
    intros F Ek G. cbn [shaped]. rewrite Ek, andb_true_r. apply andb_true_iff. split.
    - assert (K : forallb (fun t' => kid_ok (LEdge e) false (rt t')) ts = true). { apply forallb_forall. intros t Ht. rewrite Forall_forall in F. destruct (F t) as (d & w & q & ->); [by apply elem_of_list_In|done]. }
      destruct ts as [|t ts]; [done|]. cbn in K |- *. apply andb_true_iff in K as [K1 K2]. rewrite K2. inversion F as [|? ? (d & w & q & E) _]; subst. by rewrite E.
    - apply forallb_forall. intros t Ht. rewrite Forall_forall in G. apply G. by apply elem_of_list_In.
  Qed.
  Lemma relations_inv env path joint rs ts : relation_trees fl rad env path joint rs = Some ts -> Forall2 (fun r t => relation_tree fl rad env path joint r = Some t) rs ts.
  Proof.
    revert ts. induction rs as [|r rs IH]; intros ts H; cbn [relation_trees] in H; [injection H as <-; constructor|]. destruct (relation_tree fl rad env path joint r) as [t|] eqn:E; [|done].
    destruct (relation_trees fl rad env path joint rs) as [us|]; [|done]. injection H as <-. constructor; [done|]. by apply IH.
  Qed.
  Lemma joint_tree_inv env path j t : joint_tree fl rad env path j = Some t -> exists ts, t = T (LEdge (jt_name j)) ts /\ Forall2 (fun r t => relation_tree fl rad env path (jt_name j) r = Some t) (jt_rels j) ts.
  Proof. unfold joint_tree. destruct (relation_trees fl rad env path (jt_name j) (jt_rels j)) as [ts|] eqn:E; [|done]. intros [= <-]. exists ts. split; [done|]. by apply relations_inv. Qed.
  Lemma joint_shaped env path j t : joint_tree fl rad env path j = Some t -> shaped t = true.
  Proof.
    intros H. apply joint_tree_inv in H as (ts & -> & F). apply rels_shaped.
    - induction F as [|r t rs ts H _ IH]; constructor; [|done]. apply relation_tree_inv in H as (d & w & q & a & us & _ & _ & -> & _). by eexists _, _, _.
    - cbn [edge_ok]. apply orb_true_iff. left. induction F as [|r t rs ts H _ IH]; [done|]. cbn [forallb]. rewrite IH, andb_true_r. by apply relation_tree_inv in H as (d & w & q & a & us & _ & _ & -> & _).
    - induction F as [|r t rs ts H _ IH]; constructor; [|done]. by eapply relation_shaped.
  Qed.
  (** The edges of references *)
  Definition ref_edge (t : tree) : Prop := exists nm q1 q2, t = T (LEdge nm) [T (LRel OUTWARDS WNone q1) []; T (LRel INWARDS WNone q2) []].
  Lemma thread_Forall {A} (f : list string -> A -> option (list tree * list string)) (P : tree -> Prop) (l : list A) : Forall (fun x => forall seen ts seen', f seen x = Some (ts, seen') -> Forall P ts) l ->
    forall seen ts seen', thread f seen l = Some (ts, seen') -> Forall P ts.
  Proof.
    induction 1 as [|x l Hx _ IH]; intros seen ts seen' H; [injection H as <- <-; constructor|]. rewrite thread_cons in H. destruct (f seen x) as [[ts1 seen1]|] eqn:E1; [|done].
    destruct (thread f seen1 l) as [[ts2 seen2]|] eqn:E2; [|done]. injection H as <- <-. apply Forall_app. split; [by eapply Hx|by eapply IH].
  Qed.
  Lemma references_inv path ps seen ts seen' : thread (reference_tree path) seen ps = Some (ts, seen') -> Forall ref_edge ts.
  Proof.
    apply thread_Forall. apply Forall_forall. intros p _ s1 us s2 H. unfold reference_tree in H. destruct (part_geometry p) as [|ref]; [injection H as <- <-; constructor|]. cbv zeta in H.
    case_decide; injection H as <- <-; [constructor|]. constructor; [by eexists _, _, _|constructor].
  Qed.
  Lemma Forall_tail ts : Forall (fun t => kid_ok (LNode "") false (rt t) && shaped t = true) ts -> tail_ok ts = true.
  Proof. intros H. apply forallb_forall. intros t Ht. rewrite Forall_forall in H. apply H. by apply elem_of_list_In. Qed.
  Definition good_kid (t : tree) : Prop := kid_ok (LNode "") false (rt t) && shaped t = true.
  Lemma ref_edge_good t : ref_edge t -> good_kid t.
  Proof. by intros (nm & q1 & q2 & ->). Qed.
  Lemma kitem_good env it : forall path seen ts seen', kitem_trees fl rad env path seen it = Some (ts, seen') -> Forall good_kid ts.
  Proof.
    induction it as [l|j|nm items IH|] using kitem_rect'; intros path seen ts seen' H; cbn [kitem_trees] in H.
    - destruct (link_tree fl rad env path l) as [t|] eqn:E; [|done]. destruct (thread (reference_tree (path ++ [lk_name l])) seen (link_parts l)) as [[es s1]|] eqn:E1; [|done]. injection H as <- <-.
      constructor; [|eapply Forall_impl; [by eapply references_inv|apply ref_edge_good]]. pose proof (link_shaped _ _ _ _ E) as S. apply link_tree_inv in E as (hd & rest & -> & _). unfold good_kid. by rewrite S.
    - destruct (joint_tree fl rad env path j) as [t|] eqn:E; [|done]. injection H as <- <-. constructor; [|constructor]. pose proof (joint_shaped _ _ _ _ E) as S. apply joint_tree_inv in E as (us & -> & _). unfold good_kid. by rewrite S.
    - destruct (thread _ seen items) as [[us s1]|] eqn:E; [|done]. injection H as <- <-. constructor; [|constructor]. unfold good_kid. cbn [rt kid_ok is_lnode andb]. apply shaped_node; [done|done|].
      apply Forall_tail. eapply thread_Forall; [|exact E]. eapply Forall_impl; [exact IH|]. cbn. intros x Hx s2 vs s3. apply Hx.
    - injection H as <- <-. constructor.
  Qed.
  Lemma aitem_good env it : forall path seen ts seen', aitem_trees fl rad env path seen it = Some (ts, seen') -> Forall good_kid ts.
  Proof.
    induction it as [nm|nm|nm items IH|nm items|] using aitem_rect'; intros path seen ts seen' H; [| | |by apply (kitem_good env (KiKin nm items)) in H|]; cbn [aitem_trees] in H.
    - injection H as <- <-. constructor; [done|constructor].
    - injection H as <- <-. constructor; [done|constructor].
    - destruct (thread _ seen items) as [[us s1]|] eqn:E; [|done]. injection H as <- <-. constructor; [|constructor]. unfold good_kid. cbn [rt kid_ok is_lnode andb]. apply shaped_node_tail.
      apply Forall_tail. eapply thread_Forall; [|exact E]. eapply Forall_impl; [exact IH|]. cbn. intros x Hx s2 vs s3. apply Hx.
    - injection H as <- <-. constructor.
  Qed.
  Lemma eitem_good env it path seen ts seen' : eitem_trees fl rad env path seen it = Some (ts, seen') -> Forall good_kid ts.
  Proof.
    destruct it as [j|nm items|nm items|ps|]; unfold eitem_trees; intros H; [by apply kitem_good in H|by apply aitem_good in H|by apply kitem_good in H|injection H as <- <-; constructor|injection H as <- <-; constructor].
  Qed.
  Lemma items_good path its : forall env seen ts seen', items_trees fl rad path env seen its = Some (ts, seen') -> Forall good_kid ts.
  Proof.
    induction its as [|it its IH]; intros env seen ts seen' H; cbn [items_trees] in H; [injection H as <- <-; constructor|]. destruct (eitem_trees fl rad env path seen it) as [[t1 s1]|] eqn:E1; [|done].
    destruct (items_trees fl rad path (env ++ item_params it) s1 its) as [[t2 s2]|] eqn:E2; [|done]. injection H as <- <-. apply Forall_app. split; [by eapply eitem_good|by eapply IH].
  Qed.
  Lemma meaning_shaped e t : meaning fl rad e = Some t -> exists ts, t = T (LNode (en_name e)) (sem_leaf SCognitiveEntity (en_name e) [("name", PStr (en_name e))] :: ts) /\ Forall good_kid ts.
  Proof.
    unfold meaning. destruct (items_trees fl rad [en_name e] [] [] (en_items e)) as [[ts seen]|] eqn:E; [|done]. intros [= <-]. exists ts. split; [done|]. by eapply items_good.
  Qed.
  Lemma meaning_nodes e t : meaning fl rad e = Some t -> nodes_ok t = true.
  Proof.
    intros H. apply meaning_shaped in H as (ts & -> & G). cbn [nodes_ok forallb rt is_lnode negb orb andb sem_leaf]. apply forallb_forall. intros u Hu. rewrite Forall_forall in G. apply elem_of_list_In in Hu. apply G in Hu.
    apply andb_true_iff in Hu as [_ Hu]. by apply shaped_nodes.
  Qed.
End shaped.
