(** * Conversion: what the elements of a description are *)
From stdpp Require Import relations.
From Verif Require Import Spec Hierarchy Elements Factory History PDict SpecCogni QCog3 QCog5 QCog8 SpecConv QConv3 QConv4 QConv8 SpecExport SpecCogni.

Lemma flat_in {A B} (f : A -> list B) l y : y ∈ flat_map f l <-> exists x, x ∈ l /\ y ∈ f x.
Proof. rewrite elem_of_list_In, in_flat_map. by setoid_rewrite <- elem_of_list_In. Qed.
(** The sub-trees, each with the names down to its container *)
Fixpoint sub_at (path : list string) (t : tree) : list (list string * tree) :=
  match t with T lb ts => (path, t) :: flat_map (sub_at (path ++ [tree_name (T lb [])])) ts end.
Lemma sub_at_here path t : (path, t) ∈ sub_at path t.
Proof. destruct t. left. Qed.
Lemma sub_at_T path lb ts x : x ∈ sub_at path (T lb ts) <-> x = (path, T lb ts) \/ exists t, t ∈ ts /\ x ∈ sub_at (path ++ [tree_name (T lb [])]) t.
Proof. cbn [sub_at]. by rewrite elem_of_cons, flat_in. Qed.
Lemma tree_name_T lb ts us : tree_name (T lb ts) = tree_name (T lb us).
Proof. by destruct lb. Qed.
Lemma sub_at_trans t : forall path p u x, (p, u) ∈ sub_at path t -> x ∈ sub_at p u -> x ∈ sub_at path t.
Proof.
  induction t as [lb ts IH] using tree_ind'. intros path p u x Hu Hx. rewrite sub_at_T in Hu. destruct Hu as [[= -> ->]|(t & Ht & Hu)]; [done|].
  rewrite sub_at_T. right. exists t. split; [done|]. rewrite Forall_forall in IH. by eapply IH.
Qed.

Lemma thread_in {A} (f : list string -> A -> option (list tree * list string)) l : forall seen ts seen', thread f seen l = Some (ts, seen') ->
  (forall t, t ∈ ts -> exists x s1 ts1 s2, x ∈ l /\ f s1 x = Some (ts1, s2) /\ t ∈ ts1) /\ (forall x, x ∈ l -> exists s1 ts1 s2, f s1 x = Some (ts1, s2) /\ forall t, t ∈ ts1 -> t ∈ ts).
Proof.
  induction l as [|x l IH]; intros seen ts seen' H; [injection H as <- <-; split; intros ? ?%elem_of_nil; done|]. rewrite thread_cons in H. destruct (f seen x) as [[ts1 s1]|] eqn:E; [|done].
  destruct (thread f s1 l) as [[ts2 s2]|] eqn:E2; [|done]. injection H as <- <-. destruct (IH _ _ _ E2) as [A1 A2]. split.
  - intros t Ht. apply elem_of_app in Ht as [Ht|Ht]; [exists x, seen, ts1, s1; by repeat split; [left| |]|]. destruct (A1 t Ht) as (y & s3 & ts3 & s4 & Hy & Ey & Hty). exists y, s3, ts3, s4. by repeat split; [right| |].
  - intros y Hy. apply elem_of_cons in Hy as [->|Hy]; [exists seen, ts1, s1; split; [done|]; intros t Ht; apply elem_of_app; by left|]. destruct (A2 y Hy) as (s3 & ts3 & s4 & Ey & Ht). exists s3, ts3, s4. split; [done|].
    intros t Ht'. apply elem_of_app. right. by apply Ht.
Qed.

Section known.
  Context (fl : string -> option Qc) (rad : Qc).
  (** what can be drawn *)
  Definition values_fit (c : sclass) (q : list Qc) : Prop :=
    match c with SCylinderGeometry => 2 <= length q | SPolyhedronGeometry => 1 <= length q <= 3 | _ => True end.
  Definition is_geom (c : sclass) : bool := match c with SCylinderGeometry | SEllipsoidGeometry | SPolyhedronGeometry => true | _ => false end.
  Definition plain_kid (u : tree) : Prop := match rt u with LSem SKinematicLink _ _ | LSem SKinematicGraph _ _ => False | _ => True end.
  (** no link either *)
  Definition tame (u : tree) : Prop := plain_kid u /\ match subs u with v :: _ => match rt v with LSem SKinematicLink _ _ => False | _ => True end | [] => True end.
  Lemma tame_plain ts : Forall tame ts -> Forall plain_kid ts.
  Proof. intros H. eapply Forall_impl; [exact H|]. by intros u [? _]. Qed.
  Definition known (D : list place) (x : list string * tree) : Prop :=
    match x.2 with
    | T (LNode nm) ts =>
        (exists env l, (x.1, KiLink l) ∈ D /\ link_tree fl rad env x.1 l = Some x.2) \/
        (exists env its seen seen' us, (x.1, KiKin nm its) ∈ D /\ ts = sem_leaf SKinematicGraph nm [("name", PStr nm)] :: us /\ thread (kitem_trees fl rad env (x.1 ++ [nm])) seen its = Some (us, seen')) \/
        Forall tame ts
    | T (LEdge nm) ts =>
        (exists env j, (x.1, KiJoint j) ∈ D /\ joint_tree fl rad env x.1 j = Some x.2) \/
        (exists q1 q2, q1 ∈ flat_map place_ends D /\ q2 ∈ flat_map place_ends D /\ ts = [T (LRel OUTWARDS WNone q1) []; T (LRel INWARDS WNone q2) []])
    | T (LSem c _ a) ts => Forall plain_kid ts /\ (is_geom c = true -> exists nm q, a = plain [("name", PStr nm); ("values", qlist q)] /\ values_fit c q)
    | T _ ts => Forall plain_kid ts
    end.
  Lemma numbers_len env v q : numbers fl env v = Some q -> length q = length v.
  Proof.
    revert q. induction v as [|x v IH]; intros q H; cbn [numbers] in H; [by injection H as <-|]. destruct (number fl env x); [|done]. destruct (numbers fl env v) as [qs|]; [|done]. injection H as <-. cbn. f_equal. by apply IH.
  Qed.
  Lemma geometry_known D env nm g t path : geometry_tree fl env nm g = Some t -> drawable g -> forall x, x ∈ sub_at path t -> known D x.
  Proof.
    intros H Hd x Hx. destruct g as [ty [v|]|]; cbn [geometry_tree] in H; [| |].
    - destruct (geometry_class ty) as [c|] eqn:Ec; [|done]. destruct (numbers fl env v) as [q|] eqn:Eq; [|done]. injection H as <-. pose proof (numbers_len _ _ _ Eq) as El. rewrite sub_at_T in Hx. destruct Hx as [->|(t & Ht & Hx)].
      + right. right. constructor; [|constructor]. destruct ty; cbn in Ec; try done; injection Ec as <-; done.
      + apply elem_of_list_singleton in Ht as ->. unfold sem_leaf in Hx. rewrite sub_at_T in Hx. destruct Hx as [->|(t & Ht%elem_of_nil & _)]; [|done]. split; [constructor|]. intros _. exists nm, q. split; [done|].
        destruct ty; cbn in Ec; try done; injection Ec as <-; cbn in Hd |- *; rewrite ?El; done.
    - done.
    - injection H as <-. rewrite sub_at_T in Hx. destruct Hx as [->|(t & Ht%elem_of_nil & _)]; [|done]. right. right. constructor.
  Qed.
  Lemma geometry_tame env nm g t : geometry_tree fl env nm g = Some t -> tame t.
  Proof.
    destruct g as [ty [v|]|]; cbn; [|done|by intros [= <-]]. destruct (geometry_class ty) as [c|] eqn:Ec; [|done]. destruct (numbers fl env v); [|done]. intros [= <-]. split; [done|].
    destruct ty; cbn in Ec; try done; injection Ec as <-; done.
  Qed.
  Lemma part_known D env here p t path : part_tree fl env here p = Some t -> drawable (part_geometry p) -> forall x, x ∈ sub_at path t -> known D x.
  Proof.
    unfold part_tree. cbv zeta. destruct (geometry_tree fl env ("geom_" +:+ part_name here p) (part_geometry p)) as [g|] eqn:E; [|done]. intros [= <-] Hd x Hx. rewrite sub_at_T in Hx. destruct Hx as [->|(t & Ht & Hx)].
    - right. right. constructor; [|destruct p; repeat constructor]. by eapply geometry_tame.
    - apply elem_of_cons in Ht as [->|Ht]; [by eapply geometry_known|]. destruct p; [|by apply elem_of_nil in Ht]. apply elem_of_list_singleton in Ht as ->. unfold sem_leaf in Hx. rewrite sub_at_T in Hx.
      destruct Hx as [->|(t & Ht%elem_of_nil & _)]; [|done]. done.
  Qed.
  Lemma parts_in env here ps ts t : part_trees fl env here ps = Some ts -> t ∈ ts -> exists p, p ∈ ps /\ part_tree fl env here p = Some t.
  Proof.
    revert ts. induction ps as [|p ps IH]; intros ts H Ht; cbn [part_trees] in H; [injection H as <-; by apply elem_of_nil in Ht|]. destruct (part_tree fl env here p) as [u|] eqn:E; [|done]. destruct (part_trees fl env here ps) as [us|]; [|done].
    injection H as <-. apply elem_of_cons in Ht as [->|Ht]; [exists p; split; [left|done]|]. destruct (IH us eq_refl Ht) as (p' & Hp & E'). exists p'. split; [by right|done].
  Qed.
  Lemma rigid_known D path owner q x : x ∈ sub_at path (rigid_tree owner q) -> known D x.
  Proof. destruct q as [[t q] u]. cbn [rigid_tree]. unfold sem_leaf. rewrite sub_at_T. intros [->|(v & Hv%elem_of_nil & _)]; done. Qed.
  Lemma link_head_known D env l hd path x : link_head fl rad env l = Some hd -> x ∈ sub_at path hd -> known D x.
  Proof.
    unfold link_head. cbv zeta. destruct (lk_pose l) as [r|].
    - destruct (rigid fl env r) as [[[t q] u]|]; [|done]. intros [= <-] Hx. rewrite sub_at_T in Hx. destruct Hx as [->|(v & Hv & Hx)]; [split; [by repeat constructor|done]|]. apply elem_of_list_singleton in Hv as ->. exact (rigid_known D _ (lk_name l) (t, q, u) x Hx).
    - intros [= <-] Hx. rewrite sub_at_T in Hx. destruct Hx as [->|(v & Hv%elem_of_nil & Hx)]; done.
  Qed.
  Lemma link_known D env path l t : link_tree fl rad env path l = Some t -> (path, KiLink l) ∈ D -> Forall (fun p => drawable (part_geometry p)) (link_parts l) -> forall x, x ∈ sub_at path t -> known D x.
  Proof.
    intros H Hin Hd x Hx. pose proof H as H0. unfold link_tree in H. cbv zeta in H. destruct (link_head fl rad env l) as [hd|] eqn:Eh; [|done]. unfold link_parts in Hd. destruct (lk_body l) as [[i ps]|].
    - destruct (fl (in_mass i)) as [m|]; [|done]. destruct (part_trees fl env (path ++ [lk_name l]) ps) as [ts|] eqn:Ep; [|done]. injection H as <-. rewrite sub_at_T in Hx. destruct Hx as [->|(t & Ht & Hx)].
      + left. by exists env, l.
      + apply elem_of_cons in Ht as [->|Ht]; [by eapply link_head_known|]. apply elem_of_cons in Ht as [->|Ht].
        * unfold sem_leaf in Hx. rewrite sub_at_T in Hx. destruct Hx as [->|(v & Hv%elem_of_nil & Hx)]; done.
        * destruct (parts_in _ _ _ _ _ Ep Ht) as (p & Hp & E). rewrite Forall_forall in Hd. eapply part_known; [exact E|by apply Hd|done].
    - injection H as <-. rewrite sub_at_T in Hx. destruct Hx as [->|(t & Ht & Hx)]; [left; by exists env, l|]. apply elem_of_list_singleton in Ht as ->. by eapply link_head_known.
  Qed.
  Lemma joint_known D env path j t : joint_tree fl rad env path j = Some t -> (path, KiJoint j) ∈ D -> forall x, x ∈ sub_at path t -> known D x.
  Proof.
    intros H Hin x Hx. pose proof H as H0. apply joint_tree_inv in H as (ts & -> & F). rewrite sub_at_T in Hx. destruct Hx as [->|(t & Ht & Hx)]; [left; by exists env, j|].
    apply elem_of_list_lookup in Ht as [i Hi]. destruct (Forall2_lookup_r _ _ _ _ _ F Hi) as (r & _ & Hr). apply relation_tree_inv in Hr as (d & w & q & a & us & _ & _ & -> & Fu).
    rewrite sub_at_T in Hx. destruct Hx as [->|(t & Ht & Hx)]; [by repeat constructor|]. apply elem_of_list_singleton in Ht as ->. rewrite sub_at_T in Hx. destruct Hx as [->|(t & Ht & Hx)].
    { split; [|done]. eapply Forall_impl; [exact Fu|]. intros u (nm & b & E & _). unfold plain_kid. by rewrite E. }
    rewrite Forall_forall in Fu. destruct (Fu t Ht) as (nm & b & Et & Es). destruct t as [lb vs]. cbn in Et, Es. subst. rewrite sub_at_T in Hx. destruct Hx as [->|(v & Hv%elem_of_nil & Hx)]; done.
  Qed.
  Lemma refs_known D path l seen ts seen' : thread (reference_tree (path ++ [lk_name l])) seen (link_parts l) = Some (ts, seen') -> (path, KiLink l) ∈ D -> forall t x, t ∈ ts -> x ∈ sub_at path t -> known D x.
  Proof.
    intros H Hin t x Ht Hx. destruct (thread_in _ _ _ _ _ H) as [A _]. destruct (A t Ht) as (p & s1 & ts1 & s2 & Hp & E & Ht1). unfold reference_tree in E. destruct (part_geometry p) as [|ref] eqn:Eg; [injection E as <- <-; by apply elem_of_nil in Ht1|].
    cbv zeta in E. destruct (decide (target (path ++ [lk_name l]) p ref ∈ s1)); injection E as <- <-; [by apply elem_of_nil in Ht1|]. apply elem_of_list_singleton in Ht1 as ->. rewrite sub_at_T in Hx. destruct Hx as [->|(v & Hv & Hx)].
    - right. eexists _, _. split; [|split; [|reflexivity]]; apply flat_in; (eexists; split; [exact Hin|]); cbn [place_ends]; cbv zeta; apply flat_in; exists p; (split; [done|]); rewrite Eg; [left|right; left].
    - apply elem_of_cons in Hv as [->|Hv]; [|apply elem_of_list_singleton in Hv as ->]; rewrite sub_at_T in Hx; (destruct Hx as [->|(v & Hv%elem_of_nil & Hx)]; [apply Forall_nil_2|done]).
  Qed.
  Definition all_drawable (D : list place) : Prop := forall p l, (p, KiLink l) ∈ D -> Forall (fun p => drawable (part_geometry p)) (link_parts l).
  Lemma kitem_plain env it path seen ts seen' : kitem_trees fl rad env path seen it = Some (ts, seen') -> match it with KiLink _ => True | _ => Forall tame ts end.
  Proof.
    intros H. destruct it as [l|j|nm items|]; cbn [kitem_trees] in H.
    - done.
    - destruct (joint_tree fl rad env path j) as [t|] eqn:E; [|done]. injection H as <- <-. apply joint_tree_inv in E as (us & -> & F). constructor; [|constructor]. split; [done|]. cbn [subs]. inversion F as [|r u rs us' Hr]; subst; [done|]. apply relation_tree_inv in Hr as (? & ? & ? & ? & ? & _ & _ & -> & _). done.
    - destruct (thread _ seen items) as [[us s1]|]; [|done]. injection H as <- <-. by repeat constructor.
    - injection H as <- <-. constructor.
  Qed.
  Lemma kitem_known D (Hd : all_drawable D) env it : forall path seen ts seen', kitem_trees fl rad env path seen it = Some (ts, seen') -> (forall x, x ∈ kitem_places path it -> x ∈ D) -> forall t x, t ∈ ts -> x ∈ sub_at path t -> known D x.
  Proof.
    induction it as [l|j|nm items IH|] using kitem_rect'; intros path seen ts seen' H HD t x Ht Hx; cbn [kitem_trees] in H.
    - assert (Hin : (path, KiLink l) ∈ D) by (apply HD; left). destruct (link_tree fl rad env path l) as [t0|] eqn:E; [|done]. destruct (thread _ seen (link_parts l)) as [[es s1]|] eqn:E1; [|done]. injection H as <- <-.
      apply elem_of_cons in Ht as [->|Ht]; [|by eapply refs_known]. eapply link_known; [exact E|done|by eapply Hd|done].
    - destruct (joint_tree fl rad env path j) as [t0|] eqn:E; [|done]. injection H as <- <-. apply elem_of_list_singleton in Ht as ->. eapply joint_known; [exact E|apply HD; left|done].
    - destruct (thread (kitem_trees fl rad env (path ++ [nm])) seen items) as [[us s1]|] eqn:E; [|done]. injection H as <- <-. apply elem_of_list_singleton in Ht as ->. rewrite sub_at_T in Hx. destruct Hx as [->|(t & Ht & Hx)].
      + right. left. exists env, items, seen, s1, us. split; [apply HD; left|done].
      + apply elem_of_cons in Ht as [->|Ht]; [unfold sem_leaf in Hx; rewrite sub_at_T in Hx; destruct Hx as [->|(v & Hv%elem_of_nil & Hx)]; done|].
        destruct (thread_in _ _ _ _ _ E) as [A _]. destruct (A t Ht) as (it & s2 & ts2 & s3 & Hit & Eit & Ht2). rewrite Forall_forall in IH. eapply (IH it Hit); [exact Eit| |exact Ht2|exact Hx].
        intros y Hy. apply HD. cbn [kitem_places]. right. apply flat_in. by exists it.
    - injection H as <- <-. by apply elem_of_nil in Ht.
  Qed.
  Lemma aitem_known D (Hd : all_drawable D) env it : forall path seen ts seen', aitem_trees fl rad env path seen it = Some (ts, seen') -> (forall x, x ∈ aitem_places path it -> x ∈ D) -> Forall tame ts /\ forall t x, t ∈ ts -> x ∈ sub_at path t -> known D x.
  Proof.
    induction it as [nm|nm|nm items IH|nm items|] using aitem_rect'; intros path seen ts seen' H HD; [| | |split; [exact (kitem_plain env (KiKin nm items) path seen ts seen' H)|exact (kitem_known D Hd env (KiKin nm items) path seen ts seen' H HD)]|]; cbn [aitem_trees] in H.
    - injection H as <- <-. split; [by repeat constructor|]. intros t x Ht Hx. apply elem_of_list_singleton in Ht as ->. rewrite sub_at_T in Hx. destruct Hx as [->|(v & Hv%elem_of_nil & Hx)]; [|done]. right. right. constructor.
    - injection H as <- <-. split; [by repeat constructor|]. intros t x Ht Hx. apply elem_of_list_singleton in Ht as ->. rewrite sub_at_T in Hx. destruct Hx as [->|(v & Hv%elem_of_nil & Hx)]; [|done]. right. right. constructor.
    - destruct (thread (aitem_trees fl rad env (path ++ [nm])) seen items) as [[us s1]|] eqn:E; [|done]. injection H as <- <-.
      destruct (thread_in _ _ _ _ _ E) as [A _]. rewrite Forall_forall in IH.
      assert (B : forall it, it ∈ items -> forall y, y ∈ aitem_places (path ++ [nm]) it -> y ∈ D). { intros it Hit y Hy. apply HD. cbn [aitem_places]. apply flat_in. by exists it. }
      assert (Q : Forall tame us). { apply Forall_forall. intros u Hu. destruct (A u Hu) as (it & s2 & ts2 & s3 & Hit & Eit & Ht2). destruct (IH it Hit _ _ _ _ Eit (B it Hit)) as [P _]. rewrite Forall_forall in P. by apply P. }
      split. { constructor; [|constructor]. split; [done|]. cbn [subs]. destruct us as [|u us]; [done|]. apply Forall_cons in Q as [[Q _] _]. unfold plain_kid in Q. by destruct (rt u) as [| | |[] ? ?|]. }
      intros t x Ht Hx. apply elem_of_list_singleton in Ht as ->. rewrite sub_at_T in Hx. destruct Hx as [->|(t & Ht & Hx)].
      + by right; right.
      + destruct (A t Ht) as (it & s2 & ts2 & s3 & Hit & Eit & Ht2). eapply (IH it Hit); [exact Eit|by apply B|exact Ht2|exact Hx].
    - injection H as <- <-. split; [constructor|]. by intros t x ?%elem_of_nil.
  Qed.
  Lemma eitem_known D (Hd : all_drawable D) env it path seen ts seen' : eitem_trees fl rad env path seen it = Some (ts, seen') -> (forall x, x ∈ eitem_places path it -> x ∈ D) -> Forall tame ts /\ forall t x, t ∈ ts -> x ∈ sub_at path t -> known D x.
  Proof.
    destruct it as [j|nm items|nm items|ps|]; unfold eitem_trees; intros H HD.
    - split; [exact (kitem_plain _ _ _ _ _ _ H)|by eapply kitem_known].
    - by eapply aitem_known.
    - split; [exact (kitem_plain _ _ _ _ _ _ H)|by eapply kitem_known].
    - injection H as <- <-. split; [constructor|]. by intros t x ?%elem_of_nil.
    - injection H as <- <-. split; [constructor|]. by intros t x ?%elem_of_nil.
  Qed.
  Lemma items_known D (Hd : all_drawable D) path its : forall env seen ts seen', items_trees fl rad path env seen its = Some (ts, seen') -> (forall x, x ∈ flat_map (eitem_places path) its -> x ∈ D) -> Forall tame ts /\ forall t x, t ∈ ts -> x ∈ sub_at path t -> known D x.
  Proof.
    induction its as [|it its IH]; intros env seen ts seen' H HD; cbn [items_trees] in H.
    - injection H as <- <-. split; [constructor|]. by intros t x ?%elem_of_nil.
    - destruct (eitem_trees fl rad env path seen it) as [[ts1 s1]|] eqn:E; [|done]. destruct (items_trees fl rad path (env ++ item_params it) s1 its) as [[ts2 s2]|] eqn:E2; [|done]. injection H as <- <-.
      destruct (eitem_known D Hd _ _ _ _ _ _ E) as [P1 K1]; [intros x Hx; apply HD; cbn [flat_map]; apply elem_of_app; by left|]. destruct (IH _ _ _ _ E2) as [P2 K2]; [intros x Hx; apply HD; cbn [flat_map]; apply elem_of_app; by right|].
      split; [by apply Forall_app|]. intros t x Ht. apply elem_of_app in Ht as [Ht|Ht]; [by apply K1|by apply K2].
  Qed.
  Lemma meaning_known e t : meaning fl rad e = Some t -> all_drawable (places e) -> (exists ts, t = T (LNode (en_name e)) ts /\ Forall tame ts) /\ forall x, x ∈ sub_at [] t -> known (places e) x.
  Proof.
    unfold meaning. destruct (items_trees fl rad [en_name e] [] [] (en_items e)) as [[ts s1]|] eqn:E; [|done]. intros [= <-] Hd. destruct (items_known (places e) Hd _ _ _ _ _ _ E) as [P K]; [done|].
    assert (P' : Forall tame (sem_leaf SCognitiveEntity (en_name e) [("name", PStr (en_name e))] :: ts)) by (by constructor).
    split; [by eexists|]. intros x Hx. rewrite sub_at_T in Hx. destruct Hx as [->|(t & Ht & Hx)]; [by right; right|]. apply elem_of_cons in Ht as [->|Ht]; [|by eapply K].
    unfold sem_leaf in Hx. rewrite sub_at_T in Hx. destruct Hx as [->|(v & Hv%elem_of_nil & Hx)]; done.
  Qed.
  (** A graph's own places *)
  Lemma graph_known env path its seen us seen' : thread (kitem_trees fl rad env path) seen its = Some (us, seen') -> all_drawable (flat_map (kitem_places path) its) -> forall u x, u ∈ us -> x ∈ sub_at path u -> known (flat_map (kitem_places path) its) x.
  Proof.
    intros H Hd u x Hu Hx. destruct (thread_in _ _ _ _ _ H) as [A _]. destruct (A u Hu) as (it & s2 & ts2 & s3 & Hit & Eit & Ht2). eapply (kitem_known _ Hd env it); [exact Eit| |exact Ht2|exact Hx]. intros y Hy. apply flat_in. by exists it.
  Qed.
  Lemma links_placed env it : forall path seen ts seen' p l, kitem_trees fl rad env path seen it = Some (ts, seen') -> (p, KiLink l) ∈ kitem_places path it -> exists t u, t ∈ ts /\ (p, u) ∈ sub_at path t /\ link_tree fl rad env p l = Some u.
  Proof.
    induction it as [l'|j|nm items IH|] using kitem_rect'; intros path seen ts seen' p l H Hin; cbn [kitem_places] in Hin; cbn [kitem_trees] in H.
    - apply elem_of_list_singleton in Hin. injection Hin as -> ->. destruct (link_tree fl rad env path l') as [t0|] eqn:E; [|done]. destruct (thread _ seen (link_parts l')) as [[es s1]|] eqn:E1; [|done]. injection H as <- <-.
      exists t0, t0. split; [left|]. split; [apply sub_at_here|done].
    - apply elem_of_list_singleton in Hin. done.
    - destruct (thread (kitem_trees fl rad env (path ++ [nm])) seen items) as [[us s1]|] eqn:E; [|done]. injection H as <- <-. apply elem_of_cons in Hin as [?|Hin]; [done|]. apply flat_in in Hin as (it & Hit & Hin).
      destruct (thread_in _ _ _ _ _ E) as [_ A]. destruct (A it Hit) as (s2 & ts2 & s3 & Eit & Hts). rewrite Forall_forall in IH. destruct (IH it Hit _ _ _ _ _ _ Eit Hin) as (t & u & Ht & Hu & El).
      eexists _, u. split; [left|]. split; [|done]. rewrite sub_at_T. right. exists t. split; [right; by apply Hts|done].
    - apply elem_of_list_singleton in Hin. done.
  Qed.
  Lemma graph_links env path its seen us seen' p l : thread (kitem_trees fl rad env path) seen its = Some (us, seen') -> (p, KiLink l) ∈ flat_map (kitem_places path) its -> exists t u, t ∈ us /\ (p, u) ∈ sub_at path t /\ link_tree fl rad env p l = Some u.
  Proof.
    intros H Hin. apply flat_in in Hin as (it & Hit & Hin). destruct (thread_in _ _ _ _ _ H) as [_ A]. destruct (A it Hit) as (s2 & ts2 & s3 & Eit & Hts). destruct (links_placed env it _ _ _ _ _ _ Eit Hin) as (t & u & Ht & Hu). exists t, u. split; [by apply Hts|done].
  Qed.
End known.
