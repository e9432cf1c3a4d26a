(** * Conversion: every link of an exportable description can be written *)
From stdpp Require Import relations.
From Verif Require Import Spec Hierarchy Elements Factory History PDict PPath PExec PMono PWF PReach QCog QCog3 QCog5 QCog8 QGo SpecConv QConv3 QConv4 QConv6 QConv8 QExp QExp2 SpecKin SpecPhys2 QPhys QPhys2 QKin QSdf QConv5 QConv7 QConv10 SpecExport SpecCogni.

Lemma map_each {A B} (f : A -> res B) l : (forall x, x ∈ l -> exists y, f x = Ok y) -> exists ys, r_map f l = Ok ys.
Proof.
  induction l as [|x l IH]; intros H; [by exists []|]. destruct (H x) as [y Hy]; [left|]. destruct IH as [ys Hys]; [intros z Hz; apply H; by right|]. exists (y :: ys). cbn [r_map]. rewrite Hy. cbn [rbind]. by rewrite Hys.
Qed.
Lemma each_ex {A B} (R : A -> B -> Prop) l : (forall x, x ∈ l -> exists y, R x y) -> exists ys, Forall2 R l ys.
Proof.
  induction l as [|x l IH]; intros H; [by exists []|]. destruct (H x) as [y Hy]; [left|]. destruct IH as [ys Hys]; [intros z Hz; apply H; by right|]. exists (y :: ys). by constructor.
Qed.
Lemma part_kid_tame fl rad env path l lb us v : link_tree fl rad env path l = Some (T lb us) -> v ∈ us -> tame v \/ exists a, rt v = LSem SKinematicLink (lk_name l) a.
Proof.
  unfold link_tree. cbv zeta. destruct (link_head fl rad env l) as [hd|] eqn:Eh; [|done]. apply head_shaped in Eh as [_ Eh]. destruct (lk_body l) as [[i ps]|].
  - destruct (fl (in_mass i)) as [m|]; [|done]. destruct (part_trees fl env (path ++ [lk_name l]) ps) as [ts|] eqn:Ep; [|done]. intros [= <- <-] Hv. apply elem_of_cons in Hv as [->|Hv]; [by right|]. left. apply elem_of_cons in Hv as [->|Hv]; [done|].
    destruct (parts_in _ _ _ _ _ _ Ep Hv) as (p & _ & E). unfold part_tree in E. cbv zeta in E. destruct (geometry_tree fl env ("geom_" +:+ part_name (path ++ [lk_name l]) p) (part_geometry p)) as [g|] eqn:Eg; [|done]. apply (inj Some) in E. subst v. split; [done|]. cbn [subs].
    apply geometry_shaped in Eg as [-> _]. done.
  - intros [= <- <-] Hv. apply elem_of_list_singleton in Hv as ->. by right.
Qed.

Lemma pose_ok fl rad h env x owner r y : pose_fits (Some r) -> rigid fl env r = Some y -> view h x (rigid_tree owner y) -> exists txt, posed rad h x txt.
Proof.
  intros [H1 H2] Hr V. destruct y as [[tr q] u]. unfold rigid in Hr. destruct (numbers fl env (rg_trans r)) as [tr'|] eqn:Et; [|done]. apply numbers_len in Et.
  assert (Hl : 3 <= length tr /\ 3 <= length q). { destruct (rg_rot r) as [ro|]; [|injection Hr as -> <- _; cbn; lia]. destruct (numbers fl env (ro_vec ro)) as [q'|] eqn:Eq; [|done]. apply numbers_len in Eq. injection Hr as -> -> _. lia. }
  clear -V Hl. destruct Hl as [L1 L2]. destruct tr as [|a [|b [|c tr]]]; cbn in L1; try lia. destruct q as [|a' [|b' [|c' q]]]; cbn in L2; try lia. apply view_labelled in V. cbn [rigid_tree sem_leaf rt] in V.
  pose proof (plain_sattr _ _ _ _ _ "translation" V) as T1. pose proof (plain_sattr _ _ _ _ _ "rotation" V) as T2. pose proof (plain_sattr _ _ _ _ _ "rotation_type" V) as T3. rewrite sattr_attr in T1, T2, T3. change (attribute h x "translation" = qlist (a :: b :: c :: tr)) in T1.
  change (attribute h x "rotation" = qlist (a' :: b' :: c' :: q)) in T2. change (attribute h x "rotation_type" = PStr u) in T3. destruct (decide (u = "deg")) as [->|N]; eexists; [eapply posed_deg|eapply posed_rad]; [exact T1|exact T2|exact T3|exact T1|exact T2|congruence].
Qed.
Lemma moments_ok fl env here m ps ts : part_trees fl env here ps = Some ts -> weighable ps -> Forall (fun p => drawable (part_geometry p)) ps -> exists mo, moments fl env m ps = Some mo.
Proof.
  revert ts. induction ps as [|p ps IH]; intros ts H Hw Hd; cbn [part_trees weighable moments] in *; [by eexists|]. destruct (part_tree fl env here p) as [u|] eqn:E; [|done]. destruct (part_trees fl env here ps) as [us|] eqn:E2; [|done]. apply Forall_cons in Hd as [Hd Hds].
  unfold part_tree in E. cbv zeta in E. destruct (geometry_tree fl env ("geom_" +:+ part_name here p) (part_geometry p)) as [g|] eqn:Eg; [|done]. destruct (part_geometry p) as [t [v|]|r]; cbn [geometry_tree] in Eg; [|done|by eapply IH].
  destruct (geometry_class t) as [cl|] eqn:Ec; [|done]. destruct (numbers fl env v) as [q|] eqn:Eq; [|done]. apply numbers_len in Eq. cbn in Hd, Hw. destruct t; cbn in Ec; try done; cbn in Hw, Hd.
  - destruct q as [|a [|b q]]; cbn in Eq; [lia|lia|by eexists].
  - by eexists.
  - destruct q as [|a [|b q]]; cbn in Eq; [lia|by eexists|lia].
Qed.
Lemma one_inertia_ok fl h env here ps ns i m mo : Forall2 (part_is fl h env here) ps ns -> sattr h i "mass" = PNum m -> moments fl env m ps = Some mo -> exists is, encode_one_inertia h (inertia_geometries h ns) i = Ok is.
Proof.
  intros F Hm Hmo. pose proof (inertia_geoms fl h env here ps ns F) as G. rewrite sattr_attr in Hm. destruct (inertia_geometries h ns) as [|g0 gs0] eqn:Eg.
  - eexists. eapply one_inertia; [exact Hm|constructor].
  - destruct G as (g & t & v & q & c & nm & Egs & V & Ec & En & Hmo'). rewrite Egs in *. rewrite Hmo', En in Hmo. apply view_labelled in V. cbn [sem_leaf rt] in V. pose proof (labelled_kind _ _ _ V) as Kg. pose proof (plain_sattr _ _ _ _ _ "values" V) as Vg.
    change (sattr h g "values" = qlist q) in Vg. rewrite sattr_attr in Vg. destruct t; cbn in Ec; try done; injection Ec as <-.
    + destruct q as [|a [|b q]]; try done. eexists. eapply one_inertia; [exact Hm|]. econstructor; [|constructor]. apply gv_cylinder. split; [exact Kg|]. eexists. exact Vg.
    + eexists. eapply one_inertia; [exact Hm|]. econstructor; [|constructor]. by apply gv_box.
    + destruct q as [|a [|b q]]; try done. eexists. eapply one_inertia; [exact Hm|]. econstructor; [|constructor]. apply gv_sphere. split; [exact Kg|]. exact Vg.
Qed.

Section links.
  Context (fl : string -> option Qc) (rad : Qc) (e : centity) (n0 : nat) (c : clockid) (s : st) (t : tree) (L : laid fl rad e n0 c s t).
  Notation h := (heap s).
  Notation root := (S (S n0)).
  Notation described := (described s t).
  Lemma la_reach : reach s.
  Proof. apply L. Qed.
  Lemma top_is y : n0 <= y -> parent_of h y = None -> exists_in h y -> y = n0 \/ y = S n0 \/ y = root.
  Proof. intros Hy Hp [o Ho]. pose proof (dv_tied _ _ _ (la_dinv _ _ _ _ _ _ _ L) y o Hy Ho) as Ht. unfold parent_of in Hp. rewrite Ho in Hp. specialize (Ht Hp). lia. Qed.
  (** What is at the top has no plain, graph or link definition first *)
  Lemma top_kid y x cl : n0 <= y -> parent_of h y = None -> x ∈ kids h y -> kind_of h x = Some (KSem cl) -> y = root /\ cl <> SKinematicLink /\ cl <> SKinematicGraph.
  Proof.
    intros Hy Hp Hx Hk. assert (He : exists_in h y). { apply (QConv3.kid_iff _ (la_wf _ _ _ _ _ _ _ L)) in Hx as [Hx _]. exact (wf0_parent_exists _ _ _ (la_wf _ _ _ _ _ _ _ L) Hx). }
    destruct (top_is y Hy Hp He) as [->|[->| ->]].
    - destruct (la_world _ _ _ _ _ _ _ L) as (_ & _ & E). rewrite E in Hx. by apply elem_of_nil in Hx.
    - destruct (la_params _ _ _ _ _ _ _ L) as (_ & ps & V). pose proof (view_kids _ _ _ _ V) as F. apply elem_of_list_lookup in Hx as [i Hi]. destruct (Forall2_lookup_l _ _ _ _ _ F Hi) as (v & Hv & Vv). apply elem_of_list_lookup_2 in Hv. apply elem_of_list_fmap in Hv as (z & -> & _).
      rewrite (v_kind _ _ _ Vv) in Hk. done.
    - split; [done|]. destruct (la_plain _ _ _ _ _ _ _ L) as (ts & Et & P). destruct (la_root _ _ _ _ _ _ _ L) as [_ V]. rewrite Et in V. pose proof (view_kids _ _ _ _ V) as F. apply elem_of_list_lookup in Hx as [i Hi]. destruct (Forall2_lookup_l _ _ _ _ _ F Hi) as (v' & Hv' & Vv').
      pose proof (v_kind _ _ _ Vv') as Hk'. rewrite Hk in Hk'. rewrite Forall_forall in P. specialize (P v' (elem_of_list_lookup_2 _ _ _ Hv')). unfold plain_kid in P. destruct (rt v') as [| | |c2 nm2 a2|]; try done. cbn in Hk'. injection Hk' as <-. by destruct cl.
  Qed.
  Lemma part_kid cl x y : y ∈ parts h cl x -> parent_of h y = Some x /\ kind_of h y = Some (KSem cl) /\ y ∈ kids h x.
  Proof.
    intros H. rewrite <- subs_parts in H. pose proof (sub_parent h (k_sem_is cl) x y (la_wf _ _ _ _ _ _ _ L) eq_refl H) as Hp. rewrite subs_parts in H. unfold parts in H. apply elem_of_list_filter in H as [Hk _]. split; [done|]. split; [done|]. apply (QConv3.kid_iff _ (la_wf _ _ _ _ _ _ _ L)). split; [done|congruence].
  Qed.
  Lemma kid_part cl x y : y ∈ kids h x -> kind_of h y = Some (KSem cl) -> y ∈ parts h cl x.
  Proof. intros Hy Hk. unfold parts. apply elem_of_list_filter. split; [done|]. unfold kids in Hy. by apply elem_of_list_filter in Hy as [_ Hy]. Qed.
  (** a kinematic graph is never at the top *)
  Lemma graph_inner g d : n0 <= g -> d ∈ parts h SKinematicGraph g -> exists q, parent_of h g = Some q.
  Proof. intros Hg Hd. apply part_kid in Hd as (_ & Hk & Hd). destruct (parent_of h g) as [q|] eqn:E; [by exists q|]. destruct (top_kid g d _ Hg E Hd Hk) as (_ & _ & ?). done. Qed.
  (** the container of a link is in a graph *)
  Lemma link_up el cont : n0 <= cont -> kind_of h cont = Some KNode -> head (kids h cont) = Some el -> kind_of h el = Some (KSem SKinematicLink) -> exists g d, parent_of h cont = Some g /\ n0 <= g /\ d ∈ parts h SKinematicGraph g.
  Proof.
    intros Hc Kc Hh Hk. assert (H0 : kids h cont !! 0 = Some el) by (by rewrite <- head_lookup). assert (Hin : el ∈ kids h cont) by (by apply elem_of_list_lookup_2 in H0).
    destruct (parent_of h cont) as [g|] eqn:Hp; [|destruct (top_kid cont el _ Hc Hp Hin Hk) as (_ & ? & _); done]. destruct (under_place _ _ _ _ _ _ _ L cont g _ Hc Hp Kc) as (p & u & i & v & Hg & Hu & Hi & Hv & Hd & Hkv & Hok); [done|done|].
    destruct Hok as [Hok|?]; [|done]. destruct v as [lv vs]. cbn in Hkv. destruct lv as [nmv| | | |]; try done. destruct u as [lb us]. cbn [kid_ok rt is_lnode] in Hok. destruct lb as [nm| | | |]; try done. cbn [subs] in Hv.
    assert (Ht : ~ tame (T (LNode nmv) vs)). { intros [_ X]. destruct Hd as (_ & V & _). pose proof (view_kids _ _ _ _ V) as F. destruct (Forall2_lookup_l _ _ _ _ _ F H0) as (w & Hw & Vw). pose proof (v_kind _ _ _ Vw) as Kw. rewrite Hk in Kw.
      destruct vs as [|w' vs]; [done|]. cbn in Hw. injection Hw as ->. cbn [subs] in X. destruct (rt w) as [| | |c2 ? ?|]; try done. cbn in Kw. injection Kw as <-. done. }
    pose proof (la_known _ _ _ _ _ _ _ L _ (proj1 Hu)) as K. cbn in K. destruct K as [(env & l & Hl & El)|[(env & its & seen & seen' & us' & Hg' & E & Et)|P]].
    - exfalso. destruct (part_kid_tame _ _ _ _ _ _ _ _ El (elem_of_list_lookup_2 _ _ _ Hv)) as [?|[a Ea]]; [done|done].
    - destruct Hu as (_ & V & _). pose proof (view_kids _ _ _ _ V) as F. rewrite E in F. inversion F as [|d ? ds ? Vd _ Ed]; subst. exists g, d. split; [done|]. split; [done|]. apply kid_part; [rewrite <- Ed; left|]. by rewrite (v_kind _ _ _ Vd).
    - exfalso. rewrite Forall_forall in P. apply Ht. apply P. exact (elem_of_list_lookup_2 _ _ _ Hv).
  Qed.
  Lemma link_graph el cont : n0 <= cont -> kind_of h cont = Some KNode -> head (kids h cont) = Some el -> kind_of h el = Some (KSem SKinematicLink) -> nested_graph h cont \/ outermost_graph h cont.
  Proof.
    intros Hc Kc Hh Hk. destruct (link_up el cont Hc Kc Hh Hk) as (g & d & Hg & Hg0 & Hd). pose proof (la_wf _ _ _ _ _ _ _ L) as W.
    assert (exists k, nearest_graph h cont k /\ n0 <= k /\ exists d, d ∈ parts h SKinematicGraph k) as (k & Hn & Hk0 & d' & Hd').
    { assert (X : forall y dy, y = cont \/ y = g -> dy ∈ parts h SKinematicGraph y -> n0 <= y) by (intros y dy [->| ->] _; done).
      destruct (wf_acy _ W g) as [ls Pg]; [exact (wf0_parent_exists _ _ _ W Hg)|]. assert (Pc : path h cont (cont :: ls)) by (econstructor; [by eapply k_exists|done|done]). 
      destruct (parts h SKinematicGraph cont) as [|dc ds] eqn:Ec.
      - exists g. split; [|split; [done|by exists d]]. destruct (parts h SKinematicGraph g) as [|dg dgs] eqn:Eg; [by apply elem_of_nil in Hd|]. exists (cont :: ls), dg. split; [done|]. inversion Pg; subst.
        + exists [cont], []. split; [done|]. split; [by rewrite Eg|]. intros y Hy. by apply elem_of_list_singleton in Hy as ->.
        + eexists [cont], _. split; [done|]. split; [by rewrite Eg|]. intros y Hy. by apply elem_of_list_singleton in Hy as ->.
      - exists cont. split; [|split; [done|exists dc; rewrite Ec; left]]. exists (cont :: ls), dc. split; [done|]. exists [], ls. split; [done|]. split; [by rewrite Ec|]. intros y Hy. by apply elem_of_nil in Hy. }
    destruct (graph_inner k d' Hk0 Hd') as [q Hq]. destruct (q_C53 s q la_reach (wf0_parent_exists _ _ _ W Hq)) as (ls & Pq & [(d2 & x & F & _)|[N _]]).
    - left. exists k, q, x. split; [done|]. split; [done|]. by exists ls, d2.
    - right. exists k, q. split; [done|]. split; [done|]. by exists ls.
  Qed.
  (** ** The frame of its pose *)
  Lemma frame_ok el cont nm : n0 <= cont -> kind_of h cont = Some KNode -> head (kids h cont) = Some el -> kind_of h el = Some (KSem SKinematicLink) -> full_name h cont nm -> nm ∉ reference_ends e ->
    exists f, obtain_relative_frame_name h cont = Ok f.
  Proof.
    intros Hc Kc Hh Hk Hf Hr. destruct (frame_start s cont la_reach Kc) as (kg & Hkg & ->). assert (G : forall ps cur, (forall p, p ∈ ps -> p ∈ ports_of h cont) -> exists f, relative_frame h cont kg ps cur = Ok f); [|by apply G].
    induction ps as [|p ps IH]; intros cur Hps; [by exists cur|]. assert (Hp : p ∈ ports_of h cont) by (apply Hps; left). assert (Hps' : forall p, p ∈ ps -> p ∈ ports_of h cont) by (intros; apply Hps; by right).
    destruct (port_leads _ _ _ _ _ _ _ L cont p nm Hc Hf Hr Hp) as (r & d & Hl & Hr0). destruct (decide (dir_of h r = Some OUTWARDS)) as [Ho|Ho].
    - destruct (lead_parts s cont p r d Hp Hl) as (E1 & E2 & o & Hor & Hko & Hdo & Hpo). rewrite Ho in Hdo. cbn [relative_frame]. rewrite E1. cbn [rbind]. rewrite E2. cbn [r_opt rbind]. rewrite Hor, decide_True by done. rewrite (decide_True (P := o_dir o = OUTWARDS)) by done.
      destruct Hl as (_ & Hkr & _). destruct (relation_place _ _ _ _ _ _ _ L r Hr0 Hkr) as (ed & path & u & Hpe & Hed & Hke & _). rewrite Hpo, Hpe. cbn [r_opt rbind]. rewrite (in_rels_eq _ _ Hke). cbn [rbind]. rewrite map_eps; [|intros x Hx|apply incoming_rels].
      + cbn [rbind]. match goal with |- context [existsb ?f ?l] => destruct (existsb f l) end; [by eexists|]. by apply IH.
      + unfold incoming_of in Hx. apply elem_of_list_filter in Hx as [[Hkx _] Hx]. destruct (wf0_child _ (la_wf _ _ _ _ _ _ _ L) ed x Hx) as [_ Hpx].
        assert (n0 <= x). { destruct (decide (n0 <= x)); [done|]. pose proof (dv_old _ _ _ (la_dinv _ _ _ _ _ _ _ L) x ed ltac:(lia) Hpx). lia. } destruct (rel_ep _ _ _ _ _ _ _ L x ltac:(done) Hkx) as (y & -> & _). by eexists.
    - destruct (link_graph el cont Hc Kc Hh Hk) as [Hn|Hn]; [rewrite (frame_nested s la_reach cont kg p r d ps cur) by done|rewrite (frame_outer s la_reach cont kg p r d ps cur) by done]; by apply IH.
  Qed.
  (** ** Geometries *)
  Lemma shape_ok g : n0 <= g -> is_geometry h g -> exists x, shape h g (Some x).
  Proof.
    intros Hg Hk. assert (K : exists cl, kind_of h g = Some (KSem cl) /\ is_geom cl = true) by (destruct Hk as [K|[K|K]]; (eexists; split; [exact K|done])). destruct K as (cl & K & Hcl).
    destruct (geometry_place _ _ _ _ _ _ _ L g cl Hg K Hcl) as (q & Hq & Hv). unfold qlist in Hq. destruct cl; try done; cbn in Hv.
    - destruct q as [|a [|b q]]; cbn in Hv, Hq; [lia|lia|]. eexists. eapply sh_cylinder; [done|exact Hq].
    - destruct q as [|a [|b q]]; cbn in Hv, Hq; eexists; [by apply sh_no_radii|by apply sh_sphere|eapply sh_ellipsoid; [done|exact Hq]].
    - destruct q as [|a [|b [|c' [|d q]]]]; cbn in Hv, Hq; [lia| | | |lia]; eexists; [by apply sh_cube|by eapply sh_flat|by eapply sh_box].
  Qed.
  Lemma child_new x y : n0 <= x -> y ∈ children h x -> n0 <= y.
  Proof. intros Hx Hy. destruct (wf0_child _ (la_wf _ _ _ _ _ _ _ L) x y Hy) as [_ Hp]. destruct (decide (n0 <= y)); [done|]. pose proof (dv_old _ _ _ (la_dinv _ _ _ _ _ _ _ L) y x ltac:(lia) Hp). lia. Qed.
  Lemma outs_ok ed : n0 <= ed -> exists ns, Forall2 (fun x n => ep_of h x = Some n) (outgoing_of h ed) ns /\ forall n, n ∈ ns -> n0 <= n.
  Proof.
    intros He. destruct (each_ex (fun x n => ep_of h x = Some n /\ n0 <= n) (outgoing_of h ed)) as [ns F].
    - intros x Hx. unfold outgoing_of in Hx. apply elem_of_list_filter in Hx as [[Hk _] Hx]. destruct (rel_ep _ _ _ _ _ _ _ L x (child_new _ _ He Hx) Hk) as (y & E & Hy). by exists y.
    - exists ns. split; [eapply Forall2_impl; [exact F|]; by intros ? ? [? _]|]. intros n Hn. apply elem_of_list_lookup in Hn as [i Hi]. destruct (Forall2_lookup_r _ _ _ _ _ F Hi) as (x & _ & _ & H). done.
  Qed.
  Lemma drawn_ok n : n0 <= n -> exists xs, drawn h n xs.
  Proof.
    intros Hn. destruct (each_ex (fun g x => shape h g (Some x)) (geometries h n)) as [own Fo].
    { intros g Hg. unfold geometries in Hg. apply elem_of_list_filter in Hg as [Hk Hg]. apply shape_ok; [by eapply child_new|done]. }
    destruct (each_ex (fun p gs => refers h p gs /\ forall g, g ∈ gs -> n0 <= g /\ is_geometry h g) (ports_of h n)) as [refs Fr].
    { intros p Hp. destruct (port_rel _ _ _ _ _ _ _ L n p Hn Hp) as (r & Hr & Hr0 & Hkr & _). destruct (relation_place _ _ _ _ _ _ _ L r Hr0 Hkr) as (ed & path & u & Hpe & Hed & Hke & _). destruct (outs_ok ed Hed) as (ns & F & Hns).
      eexists. split; [by econstructor|]. intros g Hg. apply flat_in in Hg as (y & Hy & Hg). apply flat_in in Hg as (z & Hz & Hg). unfold geometries in Hg. apply elem_of_list_filter in Hg as [Hk Hg]. split; [|done].
      eapply child_new; [|exact Hg]. eapply child_new; [by apply Hns|]. by apply subnode_child. }
    destruct (each_ex (fun g x => shape h g (Some x)) (concat refs)) as [shapes Fs].
    { intros g Hg. apply elem_of_list_In, in_concat in Hg as (gs & Hgs & Hg). apply elem_of_list_In in Hgs, Hg. apply elem_of_list_lookup in Hgs as [i Hi]. destruct (Forall2_lookup_r _ _ _ _ _ Fr Hi) as (p & _ & _ & H). apply shape_ok; by apply H. }
    eexists. exists (map Some own), refs, shapes. split; [|split; [|split; [exact Fs|reflexivity]]].
    - clear -Fo. induction Fo; constructor; done.
    - eapply Forall2_impl; [exact Fr|]. by intros ? ? [? _].
  Qed.
  Lemma subnode_new x y : n0 <= x -> y ∈ subs_of h k_node x -> n0 <= y.
  Proof. intros Hx Hy. rewrite subs_nodes in Hy. eapply child_new; [exact Hx|]. by apply subnode_child. Qed.
  Lemma geoms_new ns : (forall n, n ∈ ns -> n0 <= n) -> forall g, g ∈ geoms h ns -> n0 <= g.
  Proof. intros H g Hg. unfold geoms in Hg. apply flat_in in Hg as (n & Hn & Hg). eapply subnode_new; [by apply H|done]. Qed.
  Lemma solids_ok env here ps cont prefix : n0 <= cont -> Forall2 (part_is fl h env here) ps (subs_of h k_node cont) -> length (List.filter is_visual ps) <= 1 -> exists gs, encode_geometry_element h cont prefix = Ok gs.
  Proof.
    intros Hc F Hv. unfold encode_geometry_element. rewrite sort_split. cbn [app]. destruct (parts_split fl h env here _ _ F) as [FV FC]. assert (Hnew : forall n, n ∈ subs_of h k_node cont -> n0 <= n) by (intros n; by apply subnode_new).
    assert (Hf : forall (P : loc -> bool) n, n ∈ List.filter P (subs_of h k_node cont) -> n0 <= n). { intros P n Hn. apply Hnew. rewrite elem_of_list_In in Hn |- *. by apply filter_In in Hn as [? _]. }
    assert (Hcs : exists cs, r_map (fun c => encode_collision_elements h c prefix) (geoms h (List.filter (fun n => negb (is_v h n)) (subs_of h k_node cont))) = Ok cs).
    { apply map_each. intros g Hg. assert (Hg0 : n0 <= g) by (eapply geoms_new; [|exact Hg]; intros n; apply Hf). destruct (drawn_ok g Hg0) as [xs Hx]. eexists. eapply collision_enc. by exists xs. }
    destruct Hcs as [cs Ecs]. 
    assert (Hvs : exists vs, r_map (fun v => let? m := r_opt KeyError (dget v (match last (List.filter (is_v h) (subs_of h k_node cont)) with Some n => mats_of h n | None => [] end)) in encode_visual_elements h v m prefix) (geoms h (List.filter (is_v h) (subs_of h k_node cont))) = Ok vs).
    { pose proof (Hf (is_v h)) as Hn. pose proof (List.filter_In is_visual) as Hiv. assert (HV : Forall (fun p => is_visual p = true) (List.filter is_visual ps)) by (apply Forall_forall; intros p Hp%elem_of_list_In; by apply filter_In in Hp as [_ ?]). clear Hiv.
      revert FV Hv Hn HV. generalize (List.filter is_visual ps) (List.filter (is_v h) (subs_of h k_node cont)). intros pv nv FV Hv Hn HV. destruct FV as [|p n pv nv Hp FV]; [by exists []|]. destruct FV; [|cbn in Hv; lia]. apply Forall_cons in HV as [HV _].
      destruct (part_subs fl h env here p n Hp) as (g & tg & _ & _ & Hg & Hm). destruct p as [id m gm|]; [|done]. destruct Hm as (ma & Hma & Hat). cbn [last geoms flat_map]. rewrite Hg. cbn [app]. apply map_each. intros g' Hg'. apply elem_of_list_singleton in Hg' as ->.
      unfold mats_of. rewrite Hma, Hg. cbn [fold_left]. rewrite dget_dset, decide_True by done. cbn [r_opt rbind]. assert (Hg0 : n0 <= g) by (eapply subnode_new; [apply Hn; left|rewrite Hg; left]). destruct (drawn_ok g Hg0) as [xs Hx]. eexists. eapply visual_enc; [by rewrite <- sattr_attr|]. by exists xs. }
    destruct Hvs as [vs Evs]. exists (vs ++ cs). rewrite Evs. cbn [rbind]. rewrite Ecs. done.
  Qed.
  (** ** Links *)
  Context (X : Forall (place_fits e) (places e)).
  Lemma link_ok el prefix : n0 <= el -> kind_of h el = Some (KSem SKinematicLink) -> (exists x, encode_link_element h rad el prefix = Ok x) /\ exists is, encode_inertia_element h el = Ok is.
  Proof.
    intros Hel Hk. destruct (link_place _ _ _ _ _ _ _ L el Hel Hk) as (cont & env & path & l & lt & Hp & Hc & Hin & Hlt & Hd & Hh). rewrite Forall_forall in X. pose proof (X _ Hin) as (X1 & X2 & X3 & X4 & X5). destruct Hd as (_ & V & Hf).
    pose proof (link_tree_inv _ _ _ _ _ _ Hlt) as (hd & rest & Elt & Eh & _). rewrite Elt in Hf. specialize (Hf I). cbn [tree_name] in Hf. assert (Kc : kind_of h cont = Some KNode) by (rewrite (v_kind _ _ _ V), Elt; done).
    unfold encode_link_element, encode_inertia_element. rewrite pparent_of, Hp. cbn [r_opt rbind]. destruct (frame_ok el cont _ Hc Kc Hh Hk Hf X5) as [f ->]. cbn [rbind].
    assert (Vh : view h el hd). { rewrite Elt in V. apply view_kids in V. inversion V as [|x ? xs ? Vx Fx Ex]; subst. rewrite <- Ex in Hh. cbn in Hh. by injection Hh as ->. }
    assert (Pose : exists txt, match subs_of h (k_sem_is SRigidTransformation) el with x :: _ => pose_text h rad x | [] => Ok [PT "0.0 0.0 0.0 0.0 0.0 0.0"] end = Ok txt).
    { unfold link_head in Eh. cbv zeta in Eh. destruct (lk_pose l) as [r|].
      - destruct (rigid fl env r) as [[[tr q] u]|] eqn:Er; [|done]. injection Eh as <-. pose proof (view_subs h (k_sem_is SRigidTransformation) el _ _ eq_refl Vh) as F. cbn in F. apply Forall2_one in F as (x & Ex & Vx). rewrite Ex.
        destruct (pose_ok fl rad h env x (lk_name l) r (tr, q, u) X1 Er Vx) as [txt Ht]. exists txt. by apply pose_enc.
      - injection Eh as <-. pose proof (view_subs h (k_sem_is SRigidTransformation) el _ _ eq_refl Vh) as F. cbn in F. apply Forall2_nil_inv_r in F. rewrite F. by eexists. }
    destruct Pose as [txt ->]. cbn [rbind]. destruct (head_shaped fl rad env l hd Eh) as [_ [a Rh]]. unfold visuals, link_parts in *. clear Elt. unfold link_tree in Hlt. cbv zeta in Hlt. rewrite Eh in Hlt. destruct (lk_body l) as [[i ps]|].
    - destruct (fl (in_mass i)) as [m|] eqn:Em; [|done]. destruct (part_trees fl env (path ++ [lk_name l]) ps) as [ts|] eqn:Ep; [|done]. injection Hlt as <-.
      pose proof (parts_shaped fl env _ _ _ Ep) as [_ Lts]. pose proof (view_subs h k_node cont _ _ eq_refl V) as F. unfold of_lkind in F. cbn [List.filter] in F. rewrite Rh in F. cbn [lkind k_node sem_leaf rt] in F. fold (of_lkind k_node ts) in F.
      rewrite of_lkind_all in F by (eapply Forall_impl; [exact Lts|]; intros u [nm ->]; done). pose proof (parts_are _ _ _ _ _ _ _ Ep F) as FP.
      pose proof (view_subs h (k_sem_is SInertiaElement) cont _ _ eq_refl V) as Fi. unfold of_lkind in Fi. cbn [List.filter] in Fi. rewrite Rh in Fi. cbn [lkind k_sem_is sem_leaf rt] in Fi. fold (of_lkind (k_sem_is SInertiaElement) ts) in Fi.
      rewrite of_lkind_none in Fi by (eapply Forall_impl; [exact Lts|]; intros u [nm ->]; done). rewrite bool_decide_eq_false_2 in Fi by done. rewrite bool_decide_eq_true_2 in Fi by done. apply Forall2_one in Fi as (ie & Ei & Vi). rewrite Ei.
      destruct (solids_ok env _ ps cont prefix Hc FP X2) as [gs Egs]. rewrite Egs. cbn [rbind]. split; [by eexists|]. destruct (moments_ok fl env _ m ps ts Ep X4 X3) as [mo Hmo]. apply view_labelled in Vi. cbn [sem_leaf rt] in Vi.
      destruct (one_inertia_ok fl h env _ ps _ ie m mo FP (plain_sattr _ _ _ _ _ "mass" Vi) Hmo) as [is Eis]. cbn [r_map]. rewrite Eis. by eexists.
    - injection Hlt as <-. pose proof (view_subs h k_node cont _ _ eq_refl V) as F. unfold of_lkind in F. cbn [List.filter] in F. rewrite Rh in F. cbn [lkind k_node] in F. apply Forall2_nil_inv_r in F.
      pose proof (view_subs h (k_sem_is SInertiaElement) cont _ _ eq_refl V) as Fi. unfold of_lkind in Fi. cbn [List.filter] in Fi. rewrite Rh in Fi. cbn [lkind k_sem_is] in Fi. rewrite bool_decide_eq_false_2 in Fi by done. apply Forall2_nil_inv_r in Fi. rewrite Fi. split; [|by eexists].
      destruct (solids_ok env [] [] cont prefix Hc) as [gs ->]; [rewrite F; constructor|cbn; lia|]. by eexists.
  Qed.
End links.
