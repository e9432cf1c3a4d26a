(** * Conversion: the links and joints that the queries find in the tree *)
From stdpp Require Import relations.
From Verif Require Import Spec Hierarchy Elements Factory History SpecCogni QCog3 QCog5 QCog8 SpecConv QConv3 QConv4 SpecCogni.

Definition acc_at (k n : nat) (lb : label) : bool := match lb with LNode _ => n <=? k | LValue _ _ => false | _ => true end.
Definition sel_link (t : tree) : bool := match t with T (LNode _) (T (LSem SKinematicLink _ _) _ :: _) => true | _ => false end.
Definition sel_joint (t : tree) : bool := match t with T (LEdge _) ts => forallb joint_rel_tree ts | _ => false end.
Definition found (sel : tree -> bool) (acc : nat -> label -> bool) (n : nat) (ts : list tree) : list tree :=
  List.filter sel (flat_map (fun t => if acc (S n) (rt t) then t :: visited acc (S n) t else []) ts).
Lemma found_cons sel acc n t ts : found sel acc n (t :: ts) = found sel acc n [t] ++ found sel acc n ts.
Proof. unfold found. cbn [flat_map]. by rewrite app_nil_r, List.filter_app. Qed.
Lemma found_app sel acc n a b : found sel acc n (a ++ b) = found sel acc n a ++ found sel acc n b.
Proof. induction a as [|t a IH]; [done|]. cbn [app]. rewrite found_cons, IH, (found_cons _ _ _ t a). by rewrite app_assoc. Qed.
Lemma found_one sel acc n lb ts : found sel acc n [T lb ts] = if acc (S n) lb then (if sel (T lb ts) then [T lb ts] else []) ++ found sel acc (S n) ts else [].
Proof. unfold found. cbn [flat_map rt]. rewrite app_nil_r. destruct (acc (S n) lb); [|done]. cbn [List.filter visited]. by destruct (sel (T lb ts)). Qed.
Lemma found_none sel acc n ts : Forall (fun t => found sel acc n [t] = []) ts -> found sel acc n ts = [].
Proof. induction 1 as [|t ts H _ IH]; [done|]. by rewrite found_cons, H, IH. Qed.
Lemma found_visited sel acc n lb ts : List.filter sel (visited acc n (T lb ts)) = found sel acc n ts.
Proof. done. Qed.

Definition is_ledge (lb : label) : bool := match lb with LEdge _ => true | _ => false end.
Lemma shaped_kids lb ts : shaped (T lb ts) = true -> Forall (fun t => (exists b, kid_ok lb b (rt t) = true) /\ shaped t = true) ts.
Proof.
  cbn [shaped]. intros H. apply andb_true_iff in H as [H1 H2]. apply andb_true_iff in H1 as [H1 _]. rewrite forallb_forall in H2. apply Forall_forall. intros t Ht. apply elem_of_list_In in Ht. split; [|by apply H2].
  destruct ts as [|u ts]; [done|]. cbn in H1. apply andb_true_iff in H1 as [A B]. destruct Ht as [<-|Ht]; [by exists true|]. exists false. rewrite forallb_forall in B. by apply B.
Qed.
(** Below an element that is not a node there are no nodes and no edges. *)
Lemma nothing_below sel acc : (forall t, is_lnode (rt t) = false -> is_ledge (rt t) = false -> sel t = false) ->
  forall t n, shaped t = true -> is_lnode (rt t) = false -> found sel acc n (subs t) = [].
Proof.
  intros Hs. induction t as [lb ts IH] using tree_ind'. intros n Sh Hn. cbn [rt subs] in *. apply found_none. apply shaped_kids in Sh. rewrite Forall_forall in IH. rewrite Forall_forall in Sh. apply Forall_forall. intros t Ht.
  destruct (Sh t Ht) as [[b Hk] St]. destruct t as [lb' ts']. cbn [rt] in Hk. assert (H1 : is_lnode lb' = false /\ is_ledge lb' = false).
  { destruct lb' as [nm|nm|d w q|c nm a|nm vs]; cbn in Hk |- *; try done; by rewrite Hn in Hk. }
  destruct H1 as [H1 H2]. rewrite found_one. destruct (acc (S n) lb'); [|done]. rewrite (Hs (T lb' ts') H1 H2). cbn [app]. by apply (IH (T lb' ts') Ht (Datatypes.S n)).
Qed.
Lemma sel_link_no t : is_lnode (rt t) = false -> sel_link t = false.
Proof. destruct t as [[] ts]; done. Qed.
Lemma sel_joint_no t : is_ledge (rt t) = false -> sel_joint t = false.
Proof. destruct t as [[] ts]; done. Qed.
Lemma link_nothing n t : shaped t = true -> is_lnode (rt t) = false -> found sel_link (acc_at 2) n [t] = [].
Proof.
  intros S H. destruct t as [lb ts]. rewrite found_one. destruct (acc_at 2 (Datatypes.S n) lb); [|done]. rewrite (sel_link_no (T lb ts) H). apply (nothing_below sel_link (acc_at 2)) with (t := T lb ts); [|done|done].
  intros t H1 _. by apply sel_link_no.
Qed.
Lemma joint_edge n t : shaped t = true -> is_lnode (rt t) = false -> found sel_joint (acc_at 1) n [t] = if sel_joint t then [t] else [].
Proof.
  intros S H. destruct t as [lb ts]. rewrite found_one. assert (Hn : found sel_joint (acc_at 1) (Datatypes.S n) ts = []).
  { apply (nothing_below sel_joint (acc_at 1)) with (t := T lb ts); [|done|done]. intros t _ H2. by apply sel_joint_no. }
  rewrite Hn, app_nil_r. destruct lb; done.
Qed.
Lemma link_deep n ts : 2 <= n -> Forall (fun t => shaped t = true) ts -> found sel_link (acc_at 2) n ts = [].
Proof.
  intros Hn F. apply found_none. eapply Forall_impl; [exact F|]. intros t S. destruct (is_lnode (rt t)) eqn:E; [|by apply link_nothing]. destruct t as [lb ts']. rewrite found_one. destruct lb; try done. cbn [acc_at].
  destruct (Datatypes.S n <=? 2) eqn:El; [|done]. apply Nat.leb_le in El. lia.
Qed.
Lemma joint_deep n nm ts : 1 <= n -> found sel_joint (acc_at 1) n [T (LNode nm) ts] = [].
Proof. intros Hn. rewrite found_one. cbn [acc_at]. destruct (Datatypes.S n <=? 1) eqn:El; [|done]. apply Nat.leb_le in El. lia. Qed.
Lemma good_shaped ts : Forall good_kid ts -> Forall (fun t => shaped t = true) ts.
Proof. intros F. eapply Forall_impl; [exact F|]. intros t H. by apply andb_true_iff in H as [_ ?]. Qed.
Lemma shaped_subs lb ts : shaped (T lb ts) = true -> Forall (fun t => shaped t = true) ts.
Proof. intros H. apply shaped_kids in H. eapply Forall_impl; [exact H|]. by intros t [_ ?]. Qed.
Lemma plain_node_sel nm ts : Forall good_kid ts -> sel_link (T (LNode nm) ts) = false.
Proof. intros F. destruct F as [|[lb us] ts H _]; [done|]. cbn. destruct lb as [| | |c nm' a|]; try done. by destruct c. Qed.

Definition entries {A} (f : entry A -> tree -> Prop) : list (entry A) -> list tree -> Prop := Forall2 f.
Section entries.
  Context (fl : string -> option Qc) (rad : Qc).
  Definition link_entry (x : entry clink) (t : tree) : Prop := link_tree fl rad x.1.1 x.1.2 x.2 = Some t.
  Definition joint_entry (x : entry cjoint) (t : tree) : Prop := joint_tree fl rad x.1.1 x.1.2 x.2 = Some t.
  Lemma thread_found {A B} (R : B -> tree -> Prop) (g : A -> list B) (f : list string -> A -> option (list tree * list string)) sel acc n (l : list A) :
    Forall (fun x => forall seen ts seen', f seen x = Some (ts, seen') -> Forall2 R (g x) (found sel acc n ts)) l ->
    forall seen ts seen', thread f seen l = Some (ts, seen') -> Forall2 R (flat_map g l) (found sel acc n ts).
  Proof.
    induction 1 as [|x l Hx _ IH]; intros seen ts seen' H; [injection H as <- <-; constructor|]. rewrite thread_cons in H. destruct (f seen x) as [[ts1 seen1]|] eqn:E1; [|done].
    destruct (thread f seen1 l) as [[ts2 seen2]|] eqn:E2; [|done]. injection H as <- <-. cbn [flat_map]. rewrite found_app. apply Forall2_app; [by eapply Hx|by eapply IH].
  Qed.
  Lemma refs_no_link n es : Forall ref_edge es -> found sel_link (acc_at 2) n es = [].
  Proof. intros F. apply found_none. eapply Forall_impl; [exact F|]. intros t (nm & q1 & q2 & ->). by apply link_nothing. Qed.
  Lemma refs_no_joint n es : Forall ref_edge es -> found sel_joint (acc_at 1) n es = [].
  Proof. intros F. apply found_none. eapply Forall_impl; [exact F|]. intros t (nm & q1 & q2 & ->). by rewrite joint_edge. Qed.
  Lemma joint_selected env path j t : joint_tree fl rad env path j = Some t -> sel_joint t = true.
  Proof.
    intros H. apply joint_tree_inv in H as (ts & -> & F). cbn. apply forallb_forall. intros u Hu. apply elem_of_list_In, elem_of_list_lookup in Hu as [i Hu].
    destruct (Forall2_lookup_r _ _ _ _ _ F Hu) as (r & _ & Hr). by apply relation_tree_inv in Hr as (d & w & q & a & us & _ & _ & -> & _).
  Qed.
  Definition klinks (env : list (string * string)) (path : list string) (k : kitem) : list (entry clink) := match k with KiLink l => [(env, path, l)] | _ => [] end.
  Definition kjoints (env : list (string * string)) (path : list string) (k : kitem) : list (entry cjoint) := match k with KiJoint j => [(env, path, j)] | _ => [] end.
  Lemma kitem_links_found env it path seen ts seen' : kitem_trees fl rad env path seen it = Some (ts, seen') -> Forall2 link_entry (klinks env path it) (found sel_link (acc_at 2) 1 ts).
  Proof.
    intros H. pose proof (kitem_good fl rad env it path seen ts seen' H) as Hg. destruct it as [l|j|nm items|]; cbn [kitem_trees] in H.
    - destruct (link_tree fl rad env path l) as [t|] eqn:E; [|done]. destruct (thread (reference_tree (path ++ [lk_name l])) seen (link_parts l)) as [[es s1]|] eqn:E1; [|done]. injection H as <- <-.
      rewrite found_cons, (refs_no_link 1 es), app_nil_r by (by eapply references_inv). pose proof E as E'. pose proof (link_shaped _ _ _ _ _ _ E) as S. apply link_tree_inv in E as (hd & rest & -> & Hh & _). rewrite found_one. cbn [acc_at Nat.leb].
      rewrite link_deep by (try lia; by eapply shaped_subs). rewrite app_nil_r. apply head_shaped in Hh as [_ [a Hh]]. destruct hd as [lb us]. cbn [rt] in Hh. subst lb. cbn. constructor; [exact E'|constructor].
    - destruct (joint_tree fl rad env path j) as [t|] eqn:E; [|done]. injection H as <- <-. pose proof (joint_shaped _ _ _ _ _ _ E) as S. apply joint_tree_inv in E as (us & -> & _). rewrite link_nothing by done. constructor.
    - destruct (thread _ seen items) as [[us s1]|] eqn:E; [|done]. injection H as <- <-. rewrite found_one. cbn [acc_at Nat.leb]. apply good_shaped in Hg. apply Forall_cons in Hg as [Hg _]. rewrite link_deep by (try lia; by eapply shaped_subs). constructor.
    - injection H as <- <-. constructor.
  Qed.
  Lemma kitem_joints_found env it path seen ts seen' : kitem_trees fl rad env path seen it = Some (ts, seen') -> Forall2 joint_entry (kjoints env path it) (found sel_joint (acc_at 1) 1 ts).
  Proof.
    intros H. destruct it as [l|j|nm items|]; cbn [kitem_trees] in H.
    - destruct (link_tree fl rad env path l) as [t|] eqn:E; [|done]. destruct (thread (reference_tree (path ++ [lk_name l])) seen (link_parts l)) as [[es s1]|] eqn:E1; [|done]. injection H as <- <-.
      rewrite found_cons, (refs_no_joint 1 es), app_nil_r by (by eapply references_inv). apply link_tree_inv in E as (hd & rest & -> & _). rewrite joint_deep by lia. constructor.
    - destruct (joint_tree fl rad env path j) as [t|] eqn:E; [|done]. injection H as <- <-. pose proof E as E'. pose proof (joint_shaped _ _ _ _ _ _ E) as S. pose proof (joint_selected _ _ _ _ E) as Sj. apply joint_tree_inv in E as (us & -> & _).
      rewrite joint_edge, Sj by done. constructor; [exact E'|constructor].
    - destruct (thread _ seen items) as [[us s1]|] eqn:E; [|done]. injection H as <- <-. rewrite joint_deep by lia. constructor.
    - injection H as <- <-. constructor.
  Qed.
  Lemma aitem_nodes env it path seen ts seen' : aitem_trees fl rad env path seen it = Some (ts, seen') -> Forall (fun t => exists nm us, t = T (LNode nm) us /\ sel_link t = false) ts.
  Proof.
    intros H. pose proof (aitem_good fl rad env it path seen ts seen' H) as Hg. destruct it as [nm|nm|nm items|nm items|]; cbn [aitem_trees kitem_trees] in H.
    - injection H as <- <-. constructor; [by eexists _, _|constructor].
    - injection H as <- <-. constructor; [by eexists _, _|constructor].
    - destruct (thread _ seen items) as [[us s1]|] eqn:E; [|done]. injection H as <- <-. constructor; [|constructor]. eexists _, _. split; [done|]. apply plain_node_sel. eapply thread_Forall; [|exact E].
      apply Forall_forall. intros x _ s2 vs s3. apply aitem_good.
    - destruct (thread _ seen items) as [[us s1]|] eqn:E; [|done]. injection H as <- <-. constructor; [|constructor]. by eexists _, _.
    - injection H as <- <-. constructor.
  Qed.
  Lemma eitem_links_found env it path seen ts seen' : eitem_trees fl rad env path seen it = Some (ts, seen') -> Forall2 link_entry (item_links path env it) (found sel_link (acc_at 2) 0 ts).
  Proof.
    intros H. destruct it as [j|nm items|nm items|ps|]; cbn [eitem_trees item_links] in *; [| | |injection H as <- <-; constructor|injection H as <- <-; constructor].
    - cbn [kitem_trees] in H. destruct (joint_tree fl rad env path j) as [t|] eqn:E; [|done]. injection H as <- <-. pose proof (joint_shaped _ _ _ _ _ _ E) as S. apply joint_tree_inv in E as (us & -> & _). rewrite link_nothing by done. constructor.
    - pose proof (aitem_nodes _ _ _ _ _ _ H) as Hn. cbn [aitem_trees] in H. destruct (thread _ seen items) as [[us s1]|] eqn:E; [|done]. injection H as <- <-. rewrite found_one. cbn [acc_at Nat.leb].
      apply Forall_cons in Hn as [(nm' & us' & _ & ->) _]. cbn [app]. rewrite found_none; [constructor|]. eapply thread_Forall; [|exact E]. apply Forall_forall. intros x _ s2 vs s3 Hx.
      pose proof (good_shaped _ (aitem_good _ _ _ _ _ _ _ _ Hx)) as Sx. apply aitem_nodes in Hx. apply Forall_forall. intros t Ht. rewrite Forall_forall in Hx. destruct (Hx t Ht) as (nm2 & us2 & -> & Hs). rewrite found_one. cbn [acc_at Nat.leb]. rewrite Hs.
      rewrite Forall_forall in Sx. apply link_deep; [lia|]. eapply shaped_subs. by apply Sx.
    - cbn [kitem_trees] in H. destruct (thread _ seen items) as [[us s1]|] eqn:E; [|done]. injection H as <- <-. rewrite found_one. cbn [acc_at Nat.leb sel_link sem_leaf app]. rewrite found_cons, link_nothing by done. cbn [app].
      apply (thread_found link_entry (klinks env (path ++ [nm])) (kitem_trees fl rad env (path ++ [nm])) sel_link (acc_at 2) 1 items) with (seen := seen) (seen' := s1); [|exact E].
      apply Forall_forall. intros x _ s2 vs s3. apply kitem_links_found.
  Qed.
  Lemma eitem_joints_found env it path seen ts seen' : eitem_trees fl rad env path seen it = Some (ts, seen') -> Forall2 joint_entry (item_joints path env it) (found sel_joint (acc_at 1) 0 ts).
  Proof.
    intros H. destruct it as [j|nm items|nm items|ps|]; cbn [eitem_trees item_joints] in *; [| | |injection H as <- <-; constructor|injection H as <- <-; constructor].
    - cbn [kitem_trees] in H. destruct (joint_tree fl rad env path j) as [t|] eqn:E; [|done]. injection H as <- <-. pose proof E as E'. pose proof (joint_shaped _ _ _ _ _ _ E) as S. pose proof (joint_selected _ _ _ _ E) as Sj.
      apply joint_tree_inv in E as (us & -> & _). rewrite joint_edge, Sj by done. constructor; [exact E'|constructor].
    - cbn [aitem_trees] in H. destruct (thread _ seen items) as [[us s1]|] eqn:E; [|done]. injection H as <- <-. rewrite found_one. cbn [acc_at Nat.leb sel_joint app]. rewrite found_none; [constructor|].
      eapply thread_Forall; [|exact E]. apply Forall_forall. intros x _ s2 vs s3 Hx. apply aitem_nodes in Hx. eapply Forall_impl; [exact Hx|]. intros t (nm' & us' & -> & _). by apply joint_deep.
    - cbn [kitem_trees] in H. destruct (thread _ seen items) as [[us s1]|] eqn:E; [|done]. injection H as <- <-. rewrite found_one. cbn [acc_at Nat.leb sel_joint app]. rewrite found_cons, joint_edge by done. cbn [sel_joint sem_leaf app].
      apply (thread_found joint_entry (kjoints env (path ++ [nm])) (kitem_trees fl rad env (path ++ [nm])) sel_joint (acc_at 1) 1 items) with (seen := seen) (seen' := s1); [|exact E].
      apply Forall_forall. intros x _ s2 vs s3. apply kitem_joints_found.
  Qed.
  Lemma items_found {A} (R : A -> tree -> Prop) (g : list (string * string) -> eitem -> list A) sel acc path :
    (forall env it seen ts seen', eitem_trees fl rad env path seen it = Some (ts, seen') -> Forall2 R (g env it) (found sel acc 0 ts)) ->
    forall its env seen ts seen', items_trees fl rad path env seen its = Some (ts, seen') -> Forall2 R (along g env its) (found sel acc 0 ts).
  Proof.
    intros Hi. induction its as [|it its IH]; intros env seen ts seen' H; cbn [items_trees] in H; [injection H as <- <-; constructor|]. destruct (eitem_trees fl rad env path seen it) as [[t1 s1]|] eqn:E1; [|done].
    destruct (items_trees fl rad path (env ++ item_params it) s1 its) as [[t2 s2]|] eqn:E2; [|done]. injection H as <- <-. cbn [along]. rewrite found_app. apply Forall2_app; [by eapply Hi|by eapply IH].
  Qed.
  Lemma meaning_links e t : meaning fl rad e = Some t -> Forall2 link_entry (top_links e) (List.filter sel_link (visited (acc_at 2) 0 t)).
  Proof.
    unfold meaning. destruct (items_trees fl rad [en_name e] [] [] (en_items e)) as [[ts seen]|] eqn:E; [|done]. intros [= <-]. rewrite found_visited, found_cons, link_nothing by done. cbn [app].
    apply (items_found link_entry (item_links [en_name e]) sel_link (acc_at 2) [en_name e]) with (seen := []) (seen' := seen); [|exact E]. intros. by eapply eitem_links_found.
  Qed.
  Lemma meaning_joints e t : meaning fl rad e = Some t -> Forall2 joint_entry (top_joints e) (List.filter sel_joint (visited (acc_at 1) 0 t)).
  Proof.
    unfold meaning. destruct (items_trees fl rad [en_name e] [] [] (en_items e)) as [[ts seen]|] eqn:E; [|done]. intros [= <-]. rewrite found_visited, found_cons, joint_edge by done. cbn [sel_joint sem_leaf app].
    apply (items_found joint_entry (item_joints [en_name e]) sel_joint (acc_at 1) [en_name e]) with (seen := []) (seen' := seen); [|exact E]. intros. by eapply eitem_joints_found.
  Qed.
End entries.
