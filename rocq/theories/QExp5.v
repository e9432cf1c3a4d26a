(** * Conversion: kinematic graphs that can be written *)
From stdpp Require Import relations.
From Verif Require Import Spec Hierarchy Elements Factory History PDict PPath PExec PMono PWF PReach SpecTrav SpecFact QFact4 QCog QCog3 QCog5 QCog8 QGo SpecConv QConv3 QConv4 QConv6 QConv8 QExp QExp2 QExp3 SpecTensor SpecKin SpecSdf SpecPhys2 QPhys QPhys2 QKin QSdf QSdf2 QConv2 QConv5 QConv7 QConv9 QConv10 QConv13 QExp4 SpecExport SpecCogni.

Lemma kitem_inside it : forall p path nm its, (path, KiKin nm its) ∈ kitem_places p it -> forall x, x ∈ flat_map (kitem_places (path ++ [nm])) its -> x ∈ kitem_places p it.
Proof.
  induction it as [l|j|nm' items IH|] using kitem_rect'; intros p path nm its H x Hx; cbn [kitem_places] in *.
  - by apply elem_of_list_singleton in H.
  - by apply elem_of_list_singleton in H.
  - apply elem_of_cons in H as [[= <- <- <-]|H]; [by right|]. right. apply flat_in in H as (it & Hit & H). apply flat_in. exists it. split; [done|]. rewrite Forall_forall in IH. by eapply IH.
  - by apply elem_of_list_singleton in H.
Qed.
Lemma aitem_inside it : forall p path nm its, (path, KiKin nm its) ∈ aitem_places p it -> forall x, x ∈ flat_map (kitem_places (path ++ [nm])) its -> x ∈ aitem_places p it.
Proof.
  induction it as [nm'|nm'|nm' items IH|nm' items|] using aitem_rect'; intros p path nm its H x Hx; cbn [aitem_places] in H |- *; [by apply elem_of_nil in H|by apply elem_of_nil in H| | |by apply elem_of_nil in H].
  - apply flat_in in H as (it & Hit & H). apply flat_in. exists it. split; [done|]. rewrite Forall_forall in IH. by eapply IH.
  - exact (kitem_inside (KiKin nm' items) _ _ _ _ H x Hx).
Qed.
Lemma inside_places e path nm its x : (path, KiKin nm its) ∈ places e -> x ∈ flat_map (kitem_places (path ++ [nm])) its -> x ∈ places e.
Proof.
  unfold places. intros H Hx. apply flat_in in H as (it & Hit & H). apply flat_in. exists it. split; [done|]. destruct it as [j|nm' items|nm' items|ps|]; cbn [eitem_places] in H |- *.
  - by eapply kitem_inside.
  - by eapply aitem_inside.
  - by eapply kitem_inside.
  - by apply elem_of_nil in H.
  - by apply elem_of_nil in H.
Qed.
Lemma not_world b x : b +:+ "/" +:+ x = "world" -> False.
Proof. intros H. do 6 (destruct b as [|? b]; [discriminate H|]; injection H as -> H || discriminate H). Qed.
Definition walks : loc -> obj -> bool := fun _ o => match o_kind o with KNode | KEdge | KRel | KSem _ => true | _ => false end.
Lemma longer h f g y b a : through f h g y -> full_name h g b -> full_name h y a -> String.length b < String.length a.
Proof.
  intros H Hb. revert a. induction H as [y Hp Ha|y q _ IH Hp Ha]; intros a Hf; (assert (He : exists_in h y) by (unfold parent_of in Hp; destruct (h !! y) eqn:E; [by eexists|done])).
  - rewrite (full_name_det _ _ _ _ Hf (child_name _ _ _ _ Hb He Hp)), !slen_app. cbn. lia.
  - destruct Hf as (ls & Pl & ->). assert (exists lq, path h q lq) as [lq Hq] by (inversion Pl; subst; [congruence|]; eexists; assert (q0 = q) as -> by congruence; done).
    assert (Fq : full_name h q (join "/" (rev (map (name_of h) lq)))) by (by exists lq). specialize (IH _ Fq). assert (Fy : full_name h y (join "/" (rev (map (name_of h) ls)))) by (by exists ls).
    rewrite (full_name_det _ _ _ _ Fy (child_name _ _ _ _ Fq He Hp)), !slen_app. lia.
Qed.
Lemma names_bounded h : WF0 h -> exists M, forall q a, full_name h q a -> String.length a <= M.
Proof.
  intros W. assert (G : forall k, exists M, forall q a, q < k -> full_name h q a -> String.length a <= M).
  { induction k as [|k [M IH]]; [exists 0; lia|]. destruct (h !! k) as [o|] eqn:E.
    - destruct (wf_acy _ W k) as [ls Hl]; [by eexists|]. exists (M + String.length (join "/" (rev (map (name_of h) ls)))). intros q a Hq Ha. destruct (decide (q = k)) as [->|]; [|assert (String.length a <= M) by (apply (IH q); [lia|done]); lia].
      rewrite (full_name_det _ _ _ (join "/" (rev (map (name_of h) ls))) Ha); [lia|by exists ls].
    - exists M. intros q a Hq Ha. destruct (decide (q = k)) as [->|]; [|apply (IH q); [lia|done]]. destruct Ha as (ls & Pl & _). assert (exists_in h k) as [o Ho] by (by eapply path_exists). congruence. }
  destruct (G (length h)) as [M HM]. exists M. intros q a Ha. apply (HM q); [|done]. destruct Ha as (ls & Pl & _). assert (exists_in h q) as [o Ho] by (by eapply path_exists). by eapply lookup_lt_Some.
Qed.

Section graphs.
  Context (fl : string -> option Qc) (rad : Qc) (e : centity) (n0 : nat) (c : clockid) (s : st) (t : tree) (L : laid fl rad e n0 c s t).
  Notation h := (heap s).
  Notation root := (S (S n0)).
  Notation described := (described s t).
  Lemma walks_port y : accepts walks h y = true -> kind_of h y <> Some KPort.
  Proof. unfold accepts, walks, kind_of. destruct (h !! y) as [o|]; [|done]. cbn. by destruct (o_kind o). Qed.
  Lemma kind_walks y k : kind_of h y = Some k -> match k with KNode | KEdge | KRel | KSem _ => True | _ => False end -> accepts walks h y = true.
  Proof. unfold accepts, walks, kind_of. destruct (h !! y) as [o|]; [|done]. cbn. intros [= ->]. by destruct k. Qed.
  Lemma lnode_kind u : is_lnode (rt u) = true -> lkind (rt u) = KNode.
  Proof. by destruct (rt u). Qed.
  Lemma descend u : forall y p0, described y p0 u -> forall p v, (p, v) ∈ sub_at p0 u -> is_lnode (rt v) = true -> is_lnode (rt u) = true /\ exists z, described z p v /\ (z = y \/ through walks h y z).
  Proof.
    induction u as [lb ts IH] using tree_ind'. intros y p0 Hd p v Hv Hn. rewrite sub_at_T in Hv. destruct Hv as [[= -> ->]|(w & Hw & Hv)]; [split; [done|]; exists y; by split; [|left]|].
    destruct Hd as (Hin & V & Hf). pose proof (view_kids _ _ _ _ V) as F. apply elem_of_list_lookup in Hw as [i Hi]. destruct (Forall2_lookup_r _ _ _ _ _ F Hi) as (z1 & Hz1 & Vz). assert (Hk : z1 ∈ kids h y) by (by eapply elem_of_list_lookup_2).
    apply (QConv3.kid_iff _ (la_wf _ _ _ _ _ _ _ L)) in Hk as [Hp Hk]. destruct (described_kid _ _ _ _ _ _ _ L y p0 (T lb ts) z1) as (i' & w' & Hi1 & Hi2 & Hd' & Hok); [by split|done|done|]. cbn [subs] in Hi2.
    assert (NoDup (kids h y)) as Nd by (apply NoDup_filter, (wf0_children_nd h (la_wf _ _ _ _ _ _ _ L))). assert (i = i') as <- by (eapply (NoDup_lookup (kids h y) i i' z1); done). assert (w = w') as <- by congruence.
    rewrite Forall_forall in IH. assert (Hwt : w ∈ ts) by (by eapply elem_of_list_lookup_2). rewrite (tree_name_T lb [] ts) in Hv. destruct (IH w Hwt z1 _ Hd' p v Hv Hn) as [Hlw (z & Hz & Hzz)]. split.
    - destruct Hok as [Hok|(_ & nm & a & E)]; [|by rewrite E in Hlw]. cbn [rt] in Hok |- *. destruct (rt w); by destruct lb.
    - exists z. split; [done|]. right. assert (A1 : accepts walks h z1 = true) by (eapply kind_walks; [exact (v_kind _ _ _ Vz)|by rewrite (lnode_kind _ Hlw)]). destruct Hzz as [->|Hzz]; [by constructor|by eapply through_cons].
  Qed.
  Lemma below y z p0 u : through walks h y z -> described y p0 u -> exists p v w, described z p v /\ w ∈ subs u /\ (p, v) ∈ sub_at (p0 ++ [tree_name u]) w.
  Proof.
    intros H Hd. induction H as [z Hp Ha|z q _ IH Hp Ha].
    - destruct (described_kid _ _ _ _ _ _ _ L y p0 u z Hd Hp (walks_port _ Ha)) as (i & v & _ & Hv & Hz & _). exists (p0 ++ [tree_name u]), v, v. split; [done|]. split; [by eapply elem_of_list_lookup_2|apply sub_at_here].
    - destruct IH as (p & v & w & Hq & Hw & Hin). destruct (described_kid _ _ _ _ _ _ _ L q p v z Hq Hp (walks_port _ Ha)) as (i & v' & _ & Hv & Hz & _). exists (p ++ [tree_name v]), v', w. split; [done|]. split; [done|]. eapply sub_at_trans; [exact Hin|]. destruct v as [lb vs]. rewrite sub_at_T. right.
      exists v'. split; [by eapply elem_of_list_lookup_2|]. rewrite (tree_name_T lb [] vs). apply sub_at_here.
  Qed.
  Lemma through_new y z : n0 <= y -> through walks h y z -> n0 <= z.
  Proof.
    intros Hy H. assert (G : forall a b, n0 <= a -> parent_of h b = Some a -> n0 <= b). { intros a b Ha Hp. destruct (decide (n0 <= b)); [done|]. pose proof (dv_old _ _ _ (la_dinv _ _ _ _ _ _ _ L) b a ltac:(lia) Hp). lia. }
    induction H as [z Hp _|z q _ IH Hp _]; by eapply G.
  Qed.
  (** the relation and the edge of a joint in a graph are in the graph *)
  Lemma joint_in g d : n0 <= g -> kind_of h g = Some KNode -> in_graph h g SKinematicJoint d -> exists r ed env path jt u, parent_of h d = Some r /\ n0 <= d /\ n0 <= r /\ kind_of h r = Some KRel /\ parent_of h r = Some ed /\ n0 <= ed /\ kind_of h ed = Some KEdge /\
    (path, KiJoint jt) ∈ places e /\ joint_tree fl rad env path jt = Some u /\ described ed path u /\ through walks h g ed.
  Proof.
    intros Hg Kg [Ht Kd]. change (through walks h g d) in Ht. pose proof (through_new _ _ Hg Ht) as Hd0. destruct (joint_place _ _ _ _ _ _ _ L d Hd0 Kd) as (r & ed & env & path & jt & u & H1 & H2 & H3 & H4 & H5 & H6 & H7 & H8 & H9). exists r, ed, env, path, jt, u.
    repeat (split; [done|]). apply through_last in Ht as (_ & q & Hq & Ht). assert (q = r) as -> by congruence. destruct Ht as [->|Ht]; [congruence|]. apply through_last in Ht as (_ & q & Hq' & Ht). assert (q = ed) as -> by congruence. destruct Ht as [->|Ht]; [congruence|done].
  Qed.
  Lemma graph_joints_ok g : n0 <= g -> kind_of h g = Some KNode -> joints_ok h g.
  Proof.
    intros Hg Kg d Hd. destruct (joint_in g d Hg Kg Hd) as (r & ed & env & path & jt & u & H1 & _ & H2 & H3 & H4 & H5 & H6 & _). exists r, ed. repeat (split; [done|]). intros x Hx. unfold outgoing_of in Hx. apply elem_of_list_filter in Hx as [[Hk _] Hx].
    destruct (rel_ep _ _ _ _ _ _ _ L x (child_new _ _ _ _ _ _ _ L _ _ H5 Hx) Hk) as (y & -> & _). by eexists.
  Qed.
  Lemma outward_is x r l : rel_is fl rad h x r l -> outward h l -> driving r = true.
  Proof.
    intros H. apply rel_is_inv in H as (d & w & y & dl & ts & Ed & El & _). unfold driving, outgoing, undirected, outward. rewrite El, orb_true_iff, !bool_decide_eq_true. unfold relation_direction in Ed.
    repeat case_match; simplify_eq; intros X; destruct X; try congruence; auto.
  Qed.
  Context (X : Forall (place_fits e) (places e)).
  Lemma graph_canon g nm : n0 <= g -> parts h SKinematicGraph g <> [] -> full_name h g nm -> nm ∈ flat_map (led_to outgoing) (places e) -> kind_of h g = Some KNode /\ exists l, canonical h g l.
  Proof.
    intros Hg Hne Hf Hled. destruct (parts h SKinematicGraph g) as [|d ds] eqn:Ep; [done|]. clear Hne. assert (Hd : d ∈ parts h SKinematicGraph g) by (rewrite Ep; left). clear Ep ds. destruct (part_kid _ _ _ _ _ _ _ L _ _ _ Hd) as (Hpd & Kd & Hkd).
    assert (Hd0 : n0 <= d). { eapply child_new; [exact L|exact Hg|]. by apply elem_of_list_filter in Hkd as [_ ?]. }
    destruct (graph_place _ _ _ _ _ _ _ L d Hd0 Kd) as (g' & env & path & nm' & its & seen & seen' & us & Hpd' & _ & _ & Hin & Eth & Hdes). assert (g' = g) as -> by congruence.
    pose proof Hdes as (Hsub & Vg & Hfg). specialize (Hfg I). cbn [tree_name] in Hfg. rewrite (full_name_det _ _ _ _ Hf Hfg) in Hled. assert (Kg : kind_of h g = Some KNode) by (by rewrite (v_kind _ _ _ Vg)). split; [done|].
    pose proof X as X0. rewrite Forall_forall in X0. specialize (X0 _ Hin). cbn [place_fits] in X0. destruct (X0 Hled) as (p & l & Hl & Hnot). clear X0 Hled Hf.
    destruct (graph_links fl rad env _ its seen us seen' p l Eth Hl) as (w & lt & Hw & Hlt & Elt). pose proof (link_tree_inv _ _ _ _ _ _ Elt) as (hd & rest & Et & Eh & _).
    destruct (descend _ g path Hdes p lt) as [_ (z & Hz & Hzz)]; [rewrite sub_at_T; right; exists w; split; [by right|done]|by rewrite Et|].
    destruct Hz as (_ & Vz & Fz). rewrite Et in Vz, Fz. specialize (Fz I). cbn [tree_name] in Fz. pose proof (view_kids _ _ _ _ Vz) as F. inversion F as [|el ? els ? Ve _ Ez]; subst. destruct (head_shaped fl rad env l hd Eh) as [_ [a Rh]].
    assert (Ke : kind_of h el = Some (KSem SKinematicLink)) by (by rewrite (v_kind _ _ _ Ve), Rh). assert (Hpe : parent_of h el = Some z) by (apply (kid_parent h z el (la_wf _ _ _ _ _ _ _ L)); rewrite <- Ez; left).
    exists el. split.
    - split; [|done]. change (through walks h g el). assert (Ae : accepts walks h el = true) by (by eapply kind_walks). destruct Hzz as [->|Hzz]; [by constructor|by eapply through_step].
    - intros j Hj (r & ed & x & n & Hr & Hed & Hx & Hn & Hel). destruct (part_kid _ _ _ _ _ _ _ L _ _ _ Hel) as (Hpn & _ & _). assert (n = z) as -> by congruence. apply Hnot.
      destruct (joint_in g j Hg Kg Hj) as (r' & ed' & env1 & path1 & jt1 & u1 & G1 & _ & G2 & G3 & G4 & G5 & G6 & _ & _ & _ & G7). assert (r' = r) as -> by congruence. assert (ed' = ed) as -> by congruence.
      destruct (below g ed path _ G7 Hdes) as (p2 & v & w2 & Hd2 & Hw2 & Hin2). cbn [subs tree_name] in Hw2, Hin2. pose proof (v_kind _ _ _ (proj1 (proj2 Hd2))) as Kv. rewrite G6 in Kv. injection Kv as Kv.
      apply elem_of_cons in Hw2 as [->|Hw2]. { unfold sem_leaf in Hin2. rewrite sub_at_T in Hin2. destruct Hin2 as [[= -> ->]|(? & Hv%elem_of_nil & _)]; [done|done]. }
      assert (K : QExp.known fl rad (flat_map (kitem_places (path ++ [nm'])) its) (p2, v)). { eapply graph_known; [exact Eth| |exact Hw2|exact Hin2]. intros q l2 Hq. eapply (la_draw _ _ _ _ _ _ _ L). by eapply inside_places. }
      unfold outgoing_of in Hx. apply elem_of_list_filter in Hx as [[Kx Ox] Hx]. assert (Hxk : x ∈ kids h ed) by (apply elem_of_list_filter; split; [congruence|done]).
      destruct v as [[nv|nv|dv wv qv|cv nv av|nv vv] vs]; try done. cbn in K. destruct K as [(env2 & j2 & Hj2 & Ej2)|(q1 & q2 & _ & _ & ->)].
      + destruct (joint_rels_are fl rad h _ ed (QExp2.joint_edge _ _ _ _ _ _ _ _ _ Hd2 Ej2)) as [_ FR]. apply elem_of_list_lookup in Hxk as [k Hk]. destruct (Forall2_lookup_r _ _ _ _ _ FR Hk) as (cr & Hcr & Hrel). pose proof (outward_is _ _ _ Hrel Ox) as Hdr.
        destruct (rel_is_inv _ _ _ _ _ _ Hrel) as (d' & w' & y & dl & ts & _ & _ & _ & _ & Ey & Fy & _). assert (y = z) as -> by congruence. cbn [fst snd] in Fy, Hcr. rewrite (full_name_det _ _ _ _ Fz Fy). apply flat_in. exists (p2, KiJoint j2). split; [done|]. cbn [led_to].
        apply elem_of_list_fmap. exists cr. split; [done|]. apply elem_of_list_In, filter_In. split; [|done]. apply elem_of_list_In. by eapply elem_of_list_lookup_2.
      + exfalso. pose proof (view_kids _ _ _ _ (proj1 (proj2 Hd2))) as FE. assert (Hrk : r ∈ kids h ed) by (apply (QConv3.kid_iff _ (la_wf _ _ _ _ _ _ _ L)); split; [done|congruence]). apply elem_of_list_lookup in Hrk as [k Hk].
        destruct (Forall2_lookup_l _ _ _ _ _ FE Hk) as (w3 & Hw3 & Vw). assert (Hk0 : kids h r = []). { destruct k as [|[|k]]; cbn in Hw3; [injection Hw3 as <-|injection Hw3 as <-|done]; by inversion Vw as [? ? ? _ F2]; subst; inversion F2. }
        assert (Hjk : j ∈ kids h r). { apply (QConv3.kid_iff _ (la_wf _ _ _ _ _ _ _ L)). split; [done|]. destruct Hj as [_ Kj]. congruence. } rewrite Hk0 in Hjk. by apply elem_of_nil in Hjk.
  Qed.
End graphs.
