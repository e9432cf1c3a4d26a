(** * Loading: consequences *)
From stdpp Require Import relations.
From Verif Require Import Spec Hierarchy Elements Factory History PDict PPath PExec PBfs PWF PAdd PMono PStep PRemove PReach PPrim PHist QHier QHier2 QHier3 QHier4 QHier5 QHier6 QFac SpecFac QFac2 CogniLang SpecCogni QCog QCog2 QCog3 QCog4 QCog5 QCog6 QCog7 QCog8.

(** ** Descriptions that are never accepted *)
Section reject.
  Context (fl : string -> option Qc) (rad : Qc).
  Definition link_fine (env : list (string * string)) (l : clink) : Prop :=
    Forall (fun v => number fl env v <> None) (link_numbers l) /\ (forall i ps, lk_body l = Some (i, ps) -> fl (in_mass i) <> None) /\
    Forall (fun p => geometry_supported (part_geometry p)) (link_parts l).
  Definition joint_fine (env : list (string * string)) (j : cjoint) : Prop := Forall (fun v => number fl env v <> None) (joint_numbers j).
  Lemma numbers_fine env vs qs : numbers fl env vs = Some qs -> Forall (fun v => number fl env v <> None) vs.
  Proof.
    revert qs. induction vs as [|v vs IH]; intros qs H; constructor; cbn [numbers] in H; destruct (number fl env v) as [q|]; try done.
    destruct (numbers fl env vs) as [l|]; [|done]. by apply (IH l).
  Qed.
  Lemma rigid_fine env r x : rigid fl env r = Some x -> Forall (fun v => number fl env v <> None) (rigid_numbers r).
  Proof.
    unfold rigid, rigid_numbers. destruct (numbers fl env (rg_trans r)) as [t|] eqn:E1; [|done]. intros H. apply Forall_app. split; [by eapply numbers_fine|].
    destruct (rg_rot r) as [ro|]; [|constructor]. destruct (numbers fl env (ro_vec ro)) as [q|] eqn:E2; [|done]. by eapply numbers_fine.
  Qed.
  Lemma part_fine env path p t : part_tree fl env path p = Some t -> Forall (fun v => number fl env v <> None) (part_numbers p) /\ geometry_supported (part_geometry p).
  Proof.
    unfold part_tree. cbv zeta. destruct (geometry_tree fl env ("geom_" +:+ part_name path p) (part_geometry p)) as [g|] eqn:E; [|done]. intros _. unfold part_numbers.
    destruct (part_geometry p) as [ty [v|]|]; cbn in E; [|done|split; constructor]. destruct (geometry_class ty) eqn:Ec; [|done]. destruct (numbers fl env v) eqn:Ev; [|done].
    split; [by eapply numbers_fine|]. by destruct ty.
  Qed.
  Lemma parts_fine env path ps ts : part_trees fl env path ps = Some ts -> Forall (fun v => number fl env v <> None) (flat_map part_numbers ps) /\ Forall (fun p => geometry_supported (part_geometry p)) ps.
  Proof.
    revert ts. induction ps as [|p ps IH]; intros ts H; [split; constructor|]. cbn [part_trees] in H. destruct (part_tree fl env path p) as [t|] eqn:E; [|done].
    destruct (part_trees fl env path ps) as [us|]; [|done]. destruct (IH us eq_refl) as [A B]. destruct (part_fine _ _ _ _ E) as [A1 B1]. split; [apply Forall_app; done|by constructor].
  Qed.
  Lemma link_tree_fine env path l t : link_tree fl rad env path l = Some t -> link_fine env l.
  Proof.
    unfold link_tree. cbv zeta. destruct (link_head fl rad env l) as [hd|] eqn:E; [|done]. intros H.
    assert (Hp : Forall (fun v => number fl env v <> None) (pose_numbers (lk_pose l))).
    { unfold link_head in E. cbv zeta in E. destruct (lk_pose l) as [r|]; [|constructor]. destruct (rigid fl env r) as [x|] eqn:Er; [|done]. by eapply rigid_fine. }
    unfold link_fine, link_numbers, link_parts. destruct (lk_body l) as [[i ps]|].
    - destruct (fl (in_mass i)) as [m|] eqn:Em; [|done]. destruct (part_trees fl env (path ++ [lk_name l]) ps) as [ts|] eqn:Et; [|done]. destruct (parts_fine _ _ _ _ Et) as [A B].
      split; [by apply Forall_app|]. split; [|done]. intros i' ps' [= <- <-]. congruence.
    - split; [cbn; rewrite ?app_nil_r; exact Hp|]. split; [done|constructor].
  Qed.
  Lemma joint_tree_fine env path j t : joint_tree fl rad env path j = Some t -> joint_fine env j.
  Proof.
    unfold joint_tree, joint_fine, joint_numbers. destruct (relation_trees fl rad env path (jt_name j) (jt_rels j)) as [ts|] eqn:E; [|done]. intros _. revert ts E. induction (jt_rels j) as [|r rs IH]; intros ts E; [constructor|].
    cbn [relation_trees] in E. destruct (relation_tree fl rad env path (jt_name j) r) as [u|] eqn:Er; [|done]. destruct (relation_trees fl rad env path (jt_name j) rs) as [us|]; [|done].
    cbn [flat_map]. apply Forall_app. split; [|by apply (IH us)]. unfold relation_tree in Er. cbv zeta in Er. destruct (relation_direction (jr_dir r)); [|done].
    destruct (axis_attr fl env r) as [ax|] eqn:Ea; [|done]. apply Forall_app. split.
    - unfold axis_attr in Ea. destruct (jr_axis r) as [v|]; [|constructor]. destruct (numbers fl env v) eqn:Ev; [|done]. by eapply numbers_fine.
    - destruct (jr_rigid r) as [rg|]; [|constructor]. destruct (rigid fl env rg) as [x|] eqn:Eg; [|done]. by eapply rigid_fine.
  Qed.
  Lemma thread_fine {A} (f : list string -> A -> option (list tree * list string)) (P : A -> Prop) (l : list A) : Forall (fun x => forall seen r, f seen x = Some r -> P x) l ->
    forall seen r, thread f seen l = Some r -> Forall P l.
  Proof.
    induction l as [|x l IH]; intros F seen r H; [constructor|]. inversion F as [|? ? F1 F2]; subst. rewrite thread_cons in H. destruct (f seen x) as [[ts seen1]|] eqn:E; [|done].
    destruct (thread f seen1 l) as [[us seen2]|] eqn:E2; [|done]. constructor; [by eapply F1|by eapply IH].
  Qed.
  Lemma flat_map_Forall {A B} (f : A -> list B) (P : B -> Prop) (l : list A) : Forall (fun x => Forall P (f x)) l -> Forall P (flat_map f l).
  Proof. induction 1; [constructor|]. cbn. by apply Forall_app. Qed.
  Lemma kitem_fine env it : forall path seen r, kitem_trees fl rad env path seen it = Some r -> Forall (link_fine env) (kitem_links it) /\ Forall (joint_fine env) (kitem_joints it).
  Proof.
    induction it as [l|j|nm its IH|] using kitem_rect'; intros path seen r H; cbn [kitem_trees kitem_links kitem_joints] in *; [| | |by split].
    - destruct (link_tree fl rad env path l) as [t|] eqn:E; [|done]. split; [|constructor]. constructor; [by eapply link_tree_fine|constructor].
    - destruct (joint_tree fl rad env path j) as [t|] eqn:E; [|done]. split; [constructor|]. constructor; [by eapply joint_tree_fine|constructor].
    - destruct (thread (kitem_trees fl rad env (path ++ [nm])) seen its) as [[ts seen1]|] eqn:E; [|done].
      apply (thread_fine _ (fun it => Forall (link_fine env) (kitem_links it) /\ Forall (joint_fine env) (kitem_joints it))) in E.
      + split; apply flat_map_Forall; eapply Forall_impl; try exact E; by intros ? [].
      + eapply Forall_impl; [exact IH|]. cbn. intros it Hit seen' r'. apply Hit.
  Qed.
  Lemma aitem_fine env it : forall path seen r, aitem_trees fl rad env path seen it = Some r -> Forall (link_fine env) (aitem_links it) /\ Forall (joint_fine env) (aitem_joints it).
  Proof.
    induction it as [n|n|nm its IH|nm its|] using aitem_rect'; intros path seen r H; cbn [aitem_trees aitem_links aitem_joints] in *; [by split|by split| | |by split].
    - destruct (thread (aitem_trees fl rad env (path ++ [nm])) seen its) as [[ts seen1]|] eqn:E; [|done].
      apply (thread_fine _ (fun it => Forall (link_fine env) (aitem_links it) /\ Forall (joint_fine env) (aitem_joints it))) in E.
      + split; apply flat_map_Forall; eapply Forall_impl; try exact E; by intros ? [].
      + eapply Forall_impl; [exact IH|]. cbn. intros it Hit seen' r'. apply Hit.
    - apply (kitem_fine env (KiKin nm its) path seen r H).
  Qed.
  Lemma eitem_fine env it path seen r : eitem_trees fl rad env path seen it = Some r -> Forall (link_fine env) (eitem_links it) /\ Forall (joint_fine env) (eitem_joints it).
  Proof.
    destruct it as [j|nm its|nm its|ps|]; cbn [eitem_trees]; intros H; [|by apply (aitem_fine env (AiAmbient nm its) path seen r)|by apply (kitem_fine env (KiKin nm its) path seen r)|split; constructor|split; constructor].
    by apply (kitem_fine env (KiJoint j) path seen r).
  Qed.
  Lemma items_fine path pre it post : forall env seen r, items_trees fl rad path env seen (pre ++ it :: post) = Some r ->
    Forall (link_fine (env ++ flat_map item_params pre)) (eitem_links it) /\ Forall (joint_fine (env ++ flat_map item_params pre)) (eitem_joints it).
  Proof.
    induction pre as [|x pre IH]; intros env seen r H; cbn [app items_trees flat_map] in H.
    - destruct (eitem_trees fl rad env path seen it) as [[ts seen1]|] eqn:E; [|done]. cbn. rewrite app_nil_r. by eapply eitem_fine.
    - destruct (eitem_trees fl rad env path seen x) as [[ts seen1]|]; [|done]. destruct (items_trees fl rad path (env ++ item_params x) seen1 (pre ++ it :: post)) as [[us seen2]|] eqn:E; [|done].
      apply IH in E. rewrite <- app_assoc in E. exact E.
  Qed.
  Lemma load_fails icon c e s : clean s -> meaning fl rad e = None -> exists ex s', load fl rad icon c e s = (Exn ex, s').
  Proof.
    intros C H. destruct (load fl rad icon c e s) as [[d|ex] s'] eqn:E; [|by exists ex, s']. destruct (load_meaning _ _ _ _ _ _ _ _ C E) as (root & t & _ & Hm & _). congruence.
  Qed.
  Lemma load_fine icon c e s d s' pre it post : clean s -> load fl rad icon c e s = (Ok d, s') -> en_items e = pre ++ it :: post ->
    Forall (link_fine (flat_map item_params pre)) (eitem_links it) /\ Forall (joint_fine (flat_map item_params pre)) (eitem_joints it).
  Proof.
    intros C E Hi. destruct (load_meaning _ _ _ _ _ _ _ _ C E) as (root & t & _ & Hm & _). unfold meaning in Hm. rewrite Hi in Hm.
    destruct (items_trees fl rad [en_name e] [] [] (pre ++ it :: post)) as [[ts seen]|] eqn:Et; [|done]. by apply items_fine in Et.
  Qed.
  (** An unreadable number, an unreadable mass, a mesh, a vector by reference *)
  Lemma q_reject icon c e s pre it post : clean s -> en_items e = pre ++ it :: post ->
    (exists v, v ∈ eitem_numbers it /\ number fl (flat_map item_params pre) v = None) \/
    (exists l i ps, l ∈ eitem_links it /\ lk_body l = Some (i, ps) /\ fl (in_mass i) = None) \/
    (exists l p, l ∈ eitem_links it /\ p ∈ link_parts l /\ ~ geometry_supported (part_geometry p)) ->
    exists ex s', load fl rad icon c e s = (Exn ex, s').
  Proof.
    intros C Hi H. destruct (load fl rad icon c e s) as [[d|ex] s'] eqn:E; [|by exists ex, s']. exfalso.
    destruct (load_fine icon c e s d s' pre it post C E Hi) as [Fl Fj]. rewrite Forall_forall in Fl. rewrite Forall_forall in Fj.
    destruct H as [(v & Hv & Hn)|[(l & i & ps & Hl & Hb & Hm)|(l & p & Hl & Hp & Hg)]].
    - unfold eitem_numbers in Hv. apply elem_of_app in Hv as [Hv|Hv]; apply elem_of_flat_map in Hv as (x & Hx & Hv).
      + destruct (Fl x Hx) as (A & _). rewrite Forall_forall in A. by apply (A v Hv).
      + specialize (Fj x Hx). unfold joint_fine in Fj. rewrite Forall_forall in Fj. by apply (Fj v Hv).
    - destruct (Fl l Hl) as (_ & A & _). by apply (A i ps Hb).
    - destruct (Fl l Hl) as (_ & _ & A). rewrite Forall_forall in A. by apply Hg, A.
  Qed.

  (** ** What is not read *)
  Definition same_m {A} (m m' : M A) : Prop := forall s, m s = m' s.
  Lemma bind_same {A B} (m : M A) (k k' : A -> M B) : (forall a, same_m (k a) (k' a)) -> same_m (bind m k) (bind m k').
  Proof. intros H s. unfold bind. destruct (m s) as [[a|] s1]; [apply H|done]. Qed.
  Lemma fold_app {A B} (f : A -> B -> M B) l l' d : same_m (fold_m f (l ++ l') d) (bind (fold_m f l d) (fun d' => fold_m f l' d')).
  Proof.
    revert d. induction l as [|x l IH]; intros d s; [done|]. cbn [app]. rewrite !fold_cons. unfold bind at 1 2 3. destruct (f x d s) as [[d1|] s1]; [|done]. apply IH.
  Qed.
  Lemma fold_strip {A B} (f : A -> B -> M B) (g : A -> list A) l : Forall (fun x => forall d, same_m (fold_m f (g x) d) (f x d)) l -> forall d, same_m (fold_m f (flat_map g l) d) (fold_m f l d).
  Proof.
    induction 1 as [|x l Hx _ IH]; intros d s; [done|]. cbn [flat_map]. rewrite fold_app, fold_cons. unfold bind. rewrite Hx. destruct (f x d s) as [[d1|] s1]; [apply IH|done].
  Qed.
  Lemma fold_one {A B} (f : A -> B -> M B) x d : same_m (fold_m f [x] d) (f x d).
  Proof. intros s. rewrite fold_cons. unfold bind. by destruct (f x d s) as [[d1|] s1]. Qed.
  Lemma strip_link_same path l d : same_m (visit_link fl rad path (strip_link l) d) (visit_link fl rad path l d).
  Proof.
    intros s. unfold visit_link, strip_link. cbn [lk_name lk_pose lk_body]. do 4 (apply bind_same; intros ?). apply bind_same. intros d2. destruct (lk_body l) as [[i ps]|]; done.
  Qed.
  Lemma strip_kitem_same it : forall path d, same_m (fold_m (visit_kitem fl rad path) (strip_kitem it) d) (visit_kitem fl rad path it d).
  Proof.
    induction it as [l|j|nm its IH|] using kitem_rect'; intros path d; cbn [strip_kitem].
    - intros s. rewrite fold_one. apply strip_link_same.
    - apply fold_one.
    - intros s. rewrite fold_one. cbn [visit_kitem]. apply bind_same. intros d1. apply fold_strip. eapply Forall_impl; [exact IH|]. cbn. intros it Hit d2. apply Hit.
    - done.
  Qed.
  Lemma strip_aitem_same it : forall path d, same_m (fold_m (visit_aitem fl rad path) (strip_aitem it) d) (visit_aitem fl rad path it d).
  Proof.
    induction it as [n|n|nm its IH|nm its|] using aitem_rect'; intros path d; cbn [strip_aitem].
    - apply fold_one. - apply fold_one.
    - intros s. rewrite fold_one. cbn [visit_aitem]. apply bind_same. intros d1. apply fold_strip. eapply Forall_impl; [exact IH|]. cbn. intros it Hit d2. apply Hit.
    - intros s. rewrite fold_one. cbn [visit_aitem visit_kitem]. apply bind_same. intros d1. apply fold_strip. apply Forall_forall. intros it _ d2. apply strip_kitem_same.
    - done.
  Qed.
  Lemma strip_eitem_same it path d : same_m (fold_m (visit_eitem fl rad path) (strip_eitem it) d) (visit_eitem fl rad path it d).
  Proof.
    destruct it as [j|nm its|nm its|ps|]; cbn [strip_eitem].
    - apply fold_one.
    - intros s. rewrite fold_one. cbn [visit_eitem visit_aitem]. apply bind_same. intros d1. apply fold_strip. apply Forall_forall. intros it _ d2. apply strip_aitem_same.
    - intros s. rewrite fold_one. cbn [visit_eitem visit_kitem]. apply bind_same. intros d1. apply fold_strip. apply Forall_forall. intros it _ d2. apply strip_kitem_same.
    - apply fold_one.
    - done.
  Qed.
  Lemma q_stripped icon c e s : load fl rad icon c (stripped e) s = load fl rad icon c e s.
  Proof.
    unfold load. apply bind_same. intros d. unfold visit_entity. cbn [en_name en_items stripped]. do 3 (apply bind_same; intros ?). apply fold_strip.
    apply Forall_forall. intros it _ d2. apply strip_eitem_same.
  Qed.

  (** ** References between geometries *)
  Definition edges_of (ts : list tree) : list string := flat_map reference_edges ts.
  Lemma firsts_app seen l l' : firsts seen (l ++ l') = firsts seen l ++ firsts (seen ++ firsts seen l) l'.
  Proof.
    revert seen. induction l as [|x l IH]; intros seen; cbn [app firsts]; [by rewrite app_nil_r|]. case_decide; [apply IH|]. cbn [app]. rewrite IH. by rewrite <- app_assoc.
  Qed.
  (** The new edges lead to the references not seen before. *)
  Definition refs_ok (seen : list string) (r : list tree * list string) (l : list string) : Prop :=
    edges_of (fst r) = firsts seen l /\ snd r = seen ++ firsts seen l.
  Lemma thread_refs {A} (f : list string -> A -> option (list tree * list string)) (g : A -> list string) (l : list A) :
    Forall (fun x => forall seen r, f seen x = Some r -> refs_ok seen r (g x)) l -> forall seen r, thread f seen l = Some r -> refs_ok seen r (flat_map g l).
  Proof.
    induction l as [|x l IH]; intros F seen r H; [injection H as <-; split; cbn; by rewrite ?app_nil_r|]. inversion F as [|? ? F1 F2]; subst. rewrite thread_cons in H.
    destruct (f seen x) as [[ts seen1]|] eqn:E; [|done]. destruct (thread f seen1 l) as [[us seen2]|] eqn:E2; [|done]. injection H as <-. apply F1 in E as [A1 A2]. apply (IH F2) in E2 as [B1 B2].
    cbn [fst snd] in *. subst seen1. unfold refs_ok. cbn [flat_map fst snd]. rewrite firsts_app. unfold edges_of in *. rewrite flat_map_app, A1, B1. split; [done|]. by rewrite B2, app_assoc.
  Qed.
  Lemma refs_nil seen ts : edges_of ts = [] -> refs_ok seen (ts, seen) [].
  Proof. intros H. split; cbn; [done|by rewrite app_nil_r]. Qed.
  Lemma node_edges nm ts : reference_edges (T (LNode nm) ts) = edges_of ts.
  Proof. done. Qed.
  Lemma sem_edges c nm a ts : reference_edges (T (LSem c nm a) ts) = edges_of ts.
  Proof. done. Qed.
  Lemma rel_edges d w q ts : reference_edges (T (LRel d w q) ts) = edges_of ts.
  Proof. done. Qed.
  Lemma part_edges env path p t : part_tree fl env path p = Some t -> reference_edges t = [].
  Proof.
    unfold part_tree. cbv zeta. destruct (geometry_tree fl env ("geom_" +:+ part_name path p) (part_geometry p)) as [g|] eqn:E; [|done]. injection 1 as <-.
    assert (Hg : reference_edges g = []).
    { destruct (part_geometry p) as [ty [v|]|]; cbn in E; [|done|by injection E as <-]. destruct (geometry_class ty); [|done]. destruct (numbers fl env v); [|done]. by injection E as <-. }
    rewrite node_edges. unfold edges_of. cbn [flat_map]. rewrite Hg. by destruct p.
  Qed.
  Lemma link_edges env path l t : link_tree fl rad env path l = Some t -> reference_edges t = [].
  Proof.
    unfold link_tree. cbv zeta. destruct (link_head fl rad env l) as [hd|] eqn:E; [|done].
    assert (Hh : reference_edges hd = []).
    { unfold link_head in E. cbv zeta in E. destruct (lk_pose l) as [r|]; [|by injection E as <-]. destruct (rigid fl env r) as [[[? ?] ?]|]; [|done]. by injection E as <-. }
    destruct (lk_body l) as [[i ps]|].
    - destruct (fl (in_mass i)); [|done]. destruct (part_trees fl env (path ++ [lk_name l]) ps) as [ts|] eqn:Et; [|done]. injection 1 as <-. rewrite node_edges. unfold edges_of. cbn [flat_map]. rewrite Hh. cbn [app].
      change (reference_edges (sem_leaf _ _ _)) with (@nil string). cbn [app]. revert ts Et. induction ps as [|p ps IH]; intros ts Et; [by injection Et as <-|]. cbn [part_trees] in Et.
      destruct (part_tree fl env (path ++ [lk_name l]) p) as [u|] eqn:Eu; [|done]. destruct (part_trees fl env (path ++ [lk_name l]) ps) as [us|]; [|done]. injection Et as <-. cbn [flat_map].
      rewrite (part_edges _ _ _ _ Eu). by apply IH.
    - injection 1 as <-. rewrite node_edges. unfold edges_of. cbn [flat_map]. by rewrite Hh.
  Qed.
  Lemma relation_edges env path nm r t : relation_tree fl rad env path nm r = Some t -> exists d w q u, t = T (LRel d w q) [u] /\ reference_edges t = [].
  Proof.
    unfold relation_tree. cbv zeta. destruct (relation_direction (jr_dir r)); [|done]. destruct (axis_attr fl env r); [|done]. destruct (jr_rigid r) as [rg|].
    - destruct (rigid fl env rg) as [[[? ?] ?]|]; [|done]. injection 1 as <-. by eexists _, _, _, _.
    - injection 1 as <-. by eexists _, _, _, _.
  Qed.
  Lemma joint_edges env path j t : joint_tree fl rad env path j = Some t -> reference_edges t = [].
  Proof.
    unfold joint_tree. destruct (relation_trees fl rad env path (jt_name j) (jt_rels j)) as [ts|] eqn:E; [|done]. injection 1 as <-.
    assert (F : Forall (fun t => exists d w q u, t = T (LRel d w q) [u] /\ reference_edges t = []) ts).
    { revert ts E. induction (jt_rels j) as [|r rs IH]; intros ts E; [injection E as <-; constructor|]. cbn [relation_trees] in E. destruct (relation_tree fl rad env path (jt_name j) r) as [u|] eqn:Er; [|done].
      destruct (relation_trees fl rad env path (jt_name j) rs) as [us|]; [|done]. injection E as <-. constructor; [by eapply relation_edges|by apply IH]. }
    assert (Z : flat_map reference_edges ts = []).
    { clear E. induction F as [|x ts (d & w & q & u & _ & Hx) _ IH]; [done|]. cbn [flat_map]. by rewrite Hx, IH. }
    clear E. destruct ts as [|x ts]; [done|]. inversion F as [|? ? (d & w & q & u & -> & Hx) F']; subst.
    change (reference_edges (T (LEdge (jt_name j)) (T (LRel d w q) [u] :: ts)) = []).
    transitivity (flat_map reference_edges (T (LRel d w q) [u] :: ts)); [|exact Z].
    destruct d, w, ts as [|[[] []] []]; reflexivity.
  Qed.
  Lemma reference_refs path seen p r : reference_tree path seen p = Some r -> refs_ok seen r (match part_geometry p with GRef ref => [target path p ref] | GOwn _ _ => [] end).
  Proof.
    unfold reference_tree. cbv zeta. destruct (part_geometry p) as [ty f|ref]; [injection 1 as <-; by apply refs_nil|]. case_decide as Hs; injection 1 as <-; unfold refs_ok; cbn [fst snd firsts].
    - rewrite decide_True by done. split; [done|]. by rewrite app_nil_r.
    - rewrite decide_False by done. done.
  Qed.
  Lemma kitem_refs env it : forall path seen r, kitem_trees fl rad env path seen it = Some r -> refs_ok seen r (kitem_references path it).
  Proof.
    induction it as [l|j|nm its IH|] using kitem_rect'; intros path seen r H; cbn [kitem_trees kitem_references] in *.
    - destruct (link_tree fl rad env path l) as [t|] eqn:E; [|done]. destruct (thread (reference_tree (path ++ [lk_name l])) seen (link_parts l)) as [[es seen1]|] eqn:E2; [|done]. injection H as <-.
      apply (thread_refs _ (fun p => match part_geometry p with GRef ref => [target (path ++ [lk_name l]) p ref] | GOwn _ _ => [] end)) in E2 as [A B].
      + split; [|exact B]. cbn [fst snd] in *. unfold edges_of in *. cbn [flat_map]. rewrite (link_edges _ _ _ _ E). exact A.
      + apply Forall_forall. intros p _ sn r'. apply reference_refs.
    - destruct (joint_tree fl rad env path j) as [t|] eqn:E; [|done]. injection H as <-. apply refs_nil. unfold edges_of. cbn [flat_map]. by rewrite (joint_edges _ _ _ _ E).
    - destruct (thread (kitem_trees fl rad env (path ++ [nm])) seen its) as [[ts seen1]|] eqn:E; [|done]. injection H as <-.
      apply (thread_refs _ (kitem_references (path ++ [nm]))) in E as [A B].
      + split; [|exact B]. cbn [fst snd] in *. unfold edges_of in *. cbn [flat_map]. rewrite node_edges. unfold edges_of. cbn [flat_map]. rewrite app_nil_r. exact A.
      + eapply Forall_impl; [exact IH|]. cbn. intros it Hit sn r'. apply Hit.
    - injection H as <-. by apply refs_nil.
  Qed.
  Lemma aitem_refs env it : forall path seen r, aitem_trees fl rad env path seen it = Some r -> refs_ok seen r (aitem_references path it).
  Proof.
    induction it as [n|n|nm its IH|nm its|] using aitem_rect'; intros path seen r H; cbn [aitem_trees aitem_references] in *.
    - injection H as <-. by apply refs_nil.
    - injection H as <-. by apply refs_nil.
    - destruct (thread (aitem_trees fl rad env (path ++ [nm])) seen its) as [[ts seen1]|] eqn:E; [|done]. injection H as <-.
      apply (thread_refs _ (aitem_references (path ++ [nm]))) in E as [A B].
      + split; [|exact B]. cbn [fst snd] in *. unfold edges_of in *. cbn [flat_map]. rewrite node_edges, app_nil_r. exact A.
      + eapply Forall_impl; [exact IH|]. cbn. intros it Hit sn r'. apply Hit.
    - exact (kitem_refs env (KiKin nm its) path seen r H).
    - injection H as <-. by apply refs_nil.
  Qed.
  Lemma eitem_refs env it path seen r : eitem_trees fl rad env path seen it = Some r -> refs_ok seen r (eitem_references path it).
  Proof.
    destruct it as [j|nm its|nm its|ps|]; cbn [eitem_trees eitem_references]; intros H.
    - exact (kitem_refs env (KiJoint j) path seen r H).
    - exact (aitem_refs env (AiAmbient nm its) path seen r H).
    - exact (kitem_refs env (KiKin nm its) path seen r H).
    - injection H as <-. by apply refs_nil.
    - injection H as <-. by apply refs_nil.
  Qed.
  Lemma items_refs path its : forall env seen r, items_trees fl rad path env seen its = Some r -> refs_ok seen r (flat_map (eitem_references path) its).
  Proof.
    induction its as [|it its IH]; intros env seen r H; cbn [items_trees flat_map] in *; [injection H as <-; by apply refs_nil|].
    destruct (eitem_trees fl rad env path seen it) as [[ts seen1]|] eqn:E; [|done]. destruct (items_trees fl rad path (env ++ item_params it) seen1 its) as [[us seen2]|] eqn:E2; [|done].
    injection H as <-. apply eitem_refs in E as [A1 A2]. apply IH in E2 as [B1 B2]. cbn [fst snd] in *. subst seen1. unfold refs_ok. cbn [fst snd]. rewrite firsts_app.
    unfold edges_of in *. rewrite flat_map_app, A1, B1. split; [done|]. by rewrite B2, app_assoc.
  Qed.
  Lemma meaning_refs e t : meaning fl rad e = Some t -> reference_edges t = firsts [] (references e).
  Proof.
    unfold meaning. destruct (items_trees fl rad [en_name e] [] [] (en_items e)) as [[ts seen]|] eqn:E; [|done]. injection 1 as <-. apply items_refs in E as [A _]. exact A.
  Qed.
End reject.
