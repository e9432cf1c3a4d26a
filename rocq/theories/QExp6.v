(** * Conversion: every exportable description is converted *)
From stdpp Require Import relations.
From Verif Require Import Spec Hierarchy Elements Factory History PDict PPath PExec PMono PWF PReach SpecTrav SpecFact QFact4 QueryEngine SpecQuery QQuery2 Convert QCog QCog3 QCog5 QCog8 QGo QGo6 SpecConv QConv3 QConv4 QConv6 QConv8 QExp QExp2 QExp3 SpecTensor SpecKin SpecSdf SpecPhys2 QPhys QPhys2 QKin QSdf QSdf2 QConv2 QConv5 QConv7 QConv9 QConv10 QConv13 QExp4 QExp5 SpecExport SpecCogni.

Section all.
  Context (fl : string -> option Qc) (rad : Qc) (e : centity) (n0 : nat) (c : clockid) (s : st) (t : tree) (L : laid fl rad e n0 c s t).
  Notation h := (heap s).
  Notation described := (described s t).
  Context (X : Forall (place_fits e) (places e)) (lim : nat) (Hlim : length h < lim).
  Definition joint_els (els : list loc) (d r ed : loc) : Prop := d ∈ els /\ kind_of h d = Some (KSem SKinematicJoint) /\ parent_of h d = Some r /\ parent_of h r = Some ed.
  Definition closed (els : list loc) : Prop := forall d r ed r' d', joint_els els d r ed -> r' ∈ kids h ed -> joint_of h r' d' -> d' ∈ els.
  Definition far (M n : nat) (els : list loc) : Prop := forall d r ed q a, joint_els els d r ed -> parent_of h ed = Some q -> full_name h q a -> M < String.length a + n.

  Lemma in_joint_rels els r : (forall x, x ∈ els -> n0 <= x) -> r ∈ joint_rels h els -> exists d ed env path jt u cr, joint_els els d r ed /\ n0 <= r /\ kind_of h r = Some KRel /\ n0 <= ed /\ kind_of h ed = Some KEdge /\
    (path, KiJoint jt) ∈ places e /\ described ed path u /\ Forall2 (rel_is fl rad h (env, path, jt)) (jt_rels jt) (kids h ed) /\ cr ∈ jt_rels jt /\ rel_is fl rad h (env, path, jt) cr r.
  Proof.
    intros Hnew Hr. unfold joint_rels, selected in Hr. apply elem_of_list_filter in Hr as [Kr Hr]. apply elem_of_app in Hr as [Hr|Hr]; apply elem_of_list_omap in Hr as (d & Hd & Hp); unfold of_sem in Hd; apply elem_of_list_filter in Hd as [Kd Hd].
    - exfalso. destruct (link_place _ _ _ _ _ _ _ L d (Hnew _ Hd) Kd) as (cont & env & path & l & lt & Hp' & _ & _ & El & (_ & V & _) & _). assert (cont = r) as -> by congruence. rewrite (v_kind _ _ _ V) in Kr. apply link_tree_inv in El as (hd & rest & -> & _). done.
    - destruct (joint_place _ _ _ _ _ _ _ L d (Hnew _ Hd) Kd) as (r' & ed & env & path & jt & u & H1 & H2 & H3 & H4 & H5 & H6 & H7 & H8 & H9). assert (r' = r) as -> by congruence.
      destruct (joint_rels_are fl rad h _ ed (QExp2.joint_edge _ _ _ _ _ _ _ _ _ H9 H8)) as [_ F]. assert (Hrk : r ∈ kids h ed) by (apply (QConv3.kid_iff _ (la_wf _ _ _ _ _ _ _ L)); split; [done|congruence]).
      apply elem_of_list_lookup in Hrk as [k Hk]. destruct (Forall2_lookup_r _ _ _ _ _ F Hk) as (cr & Hcr & Hrel). exists d, ed, env, path, jt, u, cr. repeat (split; [done|]). split; [by eapply elem_of_list_lookup_2|done].
  Qed.
  Lemma pairs_ok els : (forall x, x ∈ els -> n0 <= x) -> closed els -> joint_pairs s els = Ok (rel_pairs h false (joint_rels h els)) /\
    forall i o, (i, o) ∈ rel_pairs h false (joint_rels h els) -> i ∈ joint_rels h els /\ o ∈ joint_rels h els /\ purely_out h o.
  Proof.
    intros Hnew Hcl. set (sel := omap (parent_of h) (of_sem h SKinematicLink els) ++ omap (parent_of h) (of_sem h SKinematicJoint els)). assert (Hsel : selected h KRel sel = joint_rels h els) by done.
    assert (HC : rels_complete h sel). { intros r Hr Hk. assert (Hin : r ∈ joint_rels h els) by (apply elem_of_list_filter; done). destruct (in_joint_rels els r Hnew Hin) as (d & ed & env & path & jt & u & cr & (_ & _ & _ & Hp) & Hr0 & Kr & _). split; [by eexists|].
      destruct (rel_ep _ _ _ _ _ _ _ L r Hr0 Kr) as (y & -> & _). by eexists. }
    assert (HB : balanced h sel). { intros r Hr Hi. rewrite Hsel in Hr |- *. destruct (in_joint_rels els r Hnew Hr) as (d & ed & env & path & jt & u & cr & Hj & Hr0 & Kr & He0 & Ke & Hin & Hd & F & Hcr & Hrel).
      apply (incoming_is fl rad h _ _ _ Hrel) in Hi. pose proof X as X0. rewrite Forall_forall in X0. destruct (X0 _ Hin) as [XB _]. destruct XB as (r0 & Hr0' & Ho); [by exists cr|]. apply elem_of_list_lookup in Hr0' as [k Hk]. destruct (Forall2_lookup_l _ _ _ _ _ F Hk) as (l' & Hl' & Hrel').
      apply elem_of_list_lookup_2 in Hl'. apply (outgoing_is fl rad h _ _ _ Hrel') in Ho. destruct (rel_joint fl rad s _ _ _ Hrel') as (d' & _ & Hd' & Hkd). exists l'. pose proof (kid_parent h ed l' (la_wf _ _ _ _ _ _ _ L) Hl') as Hp'.
      split; [|split; [done|]; unfold puuid; destruct Hj as (_ & _ & _ & Hp); by rewrite Hp, Hp']. pose proof (Hcl d r ed l' d' Hj Hl' Hd') as Hin'. destruct (part_kid _ _ _ _ _ _ _ L SKinematicJoint l' d') as (Hpd & Kd' & _); [unfold joint_of in Hd'; by apply head_Some_elem_of|].
      apply elem_of_list_filter. split; [apply (rel_is_inv fl rad h _ _ _) in Hrel' as (? & ? & ? & ? & ? & _ & _ & ? & _); done|]. apply elem_of_app. right. apply elem_of_list_omap. exists d'. split; [|done]. by apply elem_of_list_filter. }
    destruct (r_C39 false sel s (la_reach _ _ _ _ _ _ _ L) HC) as (P & _ & Pin). specialize (P HB). rewrite Hsel in P, Pin. split.
    - unfold joint_pairs. by rewrite !of_class_sem, !omap_parent.
    - intros i o Hio. apply Pin in Hio as (H1 & H2 & _ & H3 & _). done.
  Qed.
  Lemma graph_els g els : n0 <= g -> kind_of h g = Some KNode -> graph_elements h g els -> (forall x, x ∈ els -> n0 <= x) /\ closed els /\ (forall d r ed, joint_els els d r ed -> in_graph h g SKinematicJoint d).
  Proof.
    intros Hg Kg (ls & js & -> & _ & _ & Hls & Hjs). assert (HJ : forall d r ed, joint_els (ls ++ js) d r ed -> in_graph h g SKinematicJoint d). { intros d r ed (Hd & Kd & _). apply elem_of_app in Hd as [Hd|Hd]; [apply Hls in Hd as [_ Kd']; congruence|by apply Hjs]. }
    split; [|split; [|done]].
    - intros x Hx. assert (through walks h g x) as Ht by (apply elem_of_app in Hx as [Hx|Hx]; [apply Hls in Hx as [? _]|apply Hjs in Hx as [? _]]; done). by eapply through_new.
    - intros d r ed r' d' Hj Hr' Hd'. pose proof (HJ _ _ _ Hj) as Hin. destruct (joint_in _ _ _ _ _ _ _ L g d Hg Kg Hin) as (r1 & ed1 & env & path & jt & u & G1 & _ & _ & _ & G2 & _ & Ke & _ & _ & _ & G3). destruct Hj as (_ & _ & Hp & Hp2). assert (r1 = r) as -> by congruence. assert (ed1 = ed) as -> by congruence.
      destruct (part_kid _ _ _ _ _ _ _ L SKinematicJoint r' d') as (Hpd & Kd' & _); [unfold joint_of in Hd'; by apply head_Some_elem_of|]. pose proof (kid_parent h ed r' (la_wf _ _ _ _ _ _ _ L) Hr') as Hpr.
      assert (Kr' : kind_of h r' = Some KRel). { pose proof (dv_up _ _ _ (la_dinv _ _ _ _ _ _ _ L) d' r') as _. destruct (joint_place _ _ _ _ _ _ _ L d') as (r2 & _ & _ & _ & _ & _ & E2 & _ & K2 & _); [|done|congruence].
        assert (n0 <= ed) by (by eapply through_new). assert (G : forall a b, n0 <= a -> parent_of h b = Some a -> n0 <= b). { intros a b Ha Hpp. destruct (decide (n0 <= b)); [done|]. pose proof (dv_old _ _ _ (la_dinv _ _ _ _ _ _ _ L) b a ltac:(lia) Hpp). lia. }
        eapply G; [|exact Hpd]. by eapply G. }
      apply elem_of_app. right. apply Hjs. split; [|done]. change (through walks h g d'). eapply through_step; [eapply through_step; [exact G3|exact Hpr|by eapply kind_walks]|exact Hpd|by eapply kind_walks].
  Qed.
  Lemma all_ok M : (forall q a, full_name h q a -> String.length a <= M) -> forall n els, (forall x, x ∈ els -> n0 <= x) -> closed els -> far M n els -> ok_enc lim rad s els.
  Proof.
    intros HM. pose proof (la_reach _ _ _ _ _ _ _ L) as R. pose proof (la_wf _ _ _ _ _ _ _ L) as W. induction n as [|n IH]; intros els Hnew Hcl Hfar; destruct (pairs_ok els Hnew Hcl) as [HP HPin]; (eapply encoded; [exact R| |exact HP|]);
      try (intros el prefix Hel; unfold of_sem in Hel; apply elem_of_list_filter in Hel as [Kel Hel]; eapply link_ok; [exact L|exact X|by apply Hnew|done]).
    all: apply Forall_forall; intros [i o] Hio; destruct (HPin i o Hio) as (Hi & Ho & Hout); destruct (in_joint_rels els o Hnew Ho) as (d & ed & env & path & jt & u & cr & Hj & Hr0 & Kr & He0 & Ke & Hin & Hd & F & Hcr & Hrel);
      destruct Hj as (Hde & Kd & Hpd & Hpo).
    all: assert (Hcont : exists q a, parent_of h ed = Some q /\ full_name h q a /\ path <> [] /\ String.length a = String.length (join "/" path)).
    1, 3: destruct (inner_place _ _ _ _ _ _ _ L ed _ He0 Ke) as (q & _ & _ & _ & _ & Hq & _ & _); [by split|]; exists q; destruct (wf_acy _ W q (wf0_parent_exists _ _ _ W Hq)) as [ls Hls]; eexists; split; [done|]; split; [by exists ls|];
      assert (Fq : full_name h q (join "/" (rev (map (name_of h) ls)))) by (by exists ls); pose proof (child_name _ _ _ _ Fq (k_exists _ _ _ Ke) Hq) as Fe; destruct Hd as (_ & Vd & Fd);
      assert (Hlb : hyper_label (rt u)) by (rewrite (v_kind _ _ _ Vd) in Ke; injection Ke as Ke; destruct (rt u); done); specialize (Fd Hlb); pose proof (full_name_det _ _ _ _ Fe Fd) as E; rewrite (view_name s _ _ Vd Hlb) in E;
      (assert (path <> []) by (intros ->; cbn [app join] in E; apply (f_equal String.length) in E; rewrite !slen_app in E; cbn in E; lia)); split; [done|]; rewrite join_snoc in E by done; apply (f_equal String.length) in E; rewrite !slen_app in E; lia.
    - exfalso. destruct Hcont as (q & a & Hq & Ha & _). pose proof (Hfar d o ed q a (conj Hde (conj Kd (conj Hpd Hpo))) Hq Ha) as Hf. pose proof (HM q a Ha). lia.
    - destruct Hcont as (q & a & Hq & Ha & Hpath & Hlen). pose proof (Hfar d o ed q a (conj Hde (conj Kd (conj Hpd Hpo))) Hq Ha) as Hf.
      destruct (in_joint_rels els i Hnew Hi) as (d2 & ed2 & env2 & path2 & jt2 & u2 & cr2 & _ & Hr2 & Kr2 & _). destruct (rel_ep _ _ _ _ _ _ _ L i Hr2 Kr2) as (n1 & En1 & _). destruct (rel_ep _ _ _ _ _ _ _ L o Hr0 Kr) as (n2 & En2 & Hn2).
      pose proof Hout as Hog. apply (outgoing_is fl rad h _ _ _ Hrel) in Hog. pose proof X as X0. rewrite Forall_forall in X0. destruct (X0 _ Hin) as [_ XF]. rewrite Forall_forall in XF. destruct (XF cr Hcr Hog) as [XA XP].
      destruct (joint_ready_ok fl rad h _ cr o Hrel XA XP) as (dj & Hdj & Hready). exists n1, n2, dj. cbn [fst snd]. repeat (split; [done|]). destruct (parts h SKinematicGraph n2) as [|dg dgs] eqn:Eg; [by left|]. right. exists ed.
      destruct (rel_is_inv _ _ _ _ _ _ Hrel) as (d' & w' & y & dl & ts & _ & _ & _ & _ & Ey & Fy & _). assert (y = n2) as -> by congruence. cbn [fst snd] in Fy.
      assert (Hled : endpoint_name path (jr_ref cr) ∈ flat_map (led_to outgoing) (places e)). { apply flat_in. exists (path, KiJoint jt). split; [done|]. cbn [led_to]. apply elem_of_list_fmap. exists cr. split; [done|]. apply elem_of_list_In, filter_In. split; [by apply elem_of_list_In|done]. }
      destruct (graph_canon _ _ _ _ _ _ _ L X n2 _ Hn2 ltac:(by rewrite Eg) Fy Hled) as [K2 Hcan]. split; [|split; [by apply fits_all|split; [done|]]].
      { split; [done|done|split; [done|by rewrite Eg]|done|by eapply graph_joints_ok]. }
      intros els' Hels'. destruct (graph_els n2 els' Hn2 K2 Hels') as (Hnew' & Hcl' & HJ'). apply IH; [done|done|]. intros d3 r3 ed3 q3 a3 Hj3 Hq3 Ha3.
      destruct (joint_in _ _ _ _ _ _ _ L n2 d3 Hn2 K2 (HJ' _ _ _ Hj3)) as (r4 & ed4 & env4 & path4 & jt4 & u4 & G1 & _ & _ & _ & G2 & _ & _ & _ & _ & _ & G3). destruct Hj3 as (_ & _ & Hp3 & Hp4). assert (r4 = r3) as -> by congruence. assert (ed4 = ed3) as -> by congruence.
      assert (Hlong : String.length a < String.length (endpoint_name path (jr_ref cr))). { unfold endpoint_name in *. destruct (decide (jr_ref cr = "world")) as [Ew|Nw].
        - exfalso. destruct (graph_inner _ _ _ _ _ _ _ L n2 dg Hn2) as [qg Hqg]; [rewrite Eg; left|]. destruct (wf_acy _ W qg (wf0_parent_exists _ _ _ W Hqg)) as [ls Hls]. assert (Fq : full_name h qg (join "/" (rev (map (name_of h) ls)))) by (by exists ls).
          pose proof (child_name _ _ _ _ Fq (k_exists _ _ _ K2) Hqg) as Fe. exact (not_world _ _ (full_name_det _ _ _ _ Fe Fy)).
        - rewrite join_snoc by done. rewrite !slen_app. cbn. lia. }
      assert (Hle : String.length (endpoint_name path (jr_ref cr)) <= String.length a3). { apply through_last in G3 as (_ & q5 & Hq5 & [->|G3]).
        - assert (q3 = n2) as -> by congruence. by rewrite (full_name_det _ _ _ _ Ha3 Fy).
        - assert (q5 = q3) as -> by congruence. pose proof (longer _ _ _ _ _ _ G3 Fy Ha3). lia. }
      lia.
  Qed.
End all.

Lemma drawable_all e : Forall (place_fits e) (places e) -> all_drawable (places e).
Proof. intros X p l Hl. rewrite Forall_forall in X. specialize (X _ Hl). by destruct X as (_ & _ & ? & _). Qed.
Lemma exportable_converted fl rad lim c e s : clean s -> (forall a b, sha s a = sha s b -> a = b) -> (forall k k', clk s c k = clk s c k' -> k = k') -> exportable fl rad e ->
  (forall d s1, load fl rad "cogni_lang_file" c e s = (Ok d, s1) -> length (heap s1) < lim) ->
  (exists files s', convert_run fl rad lim c e s (Ok files) s') /\ forall r s', convert_run fl rad lim c e s r s' -> exists files, r = Ok files.
Proof.
  intros C H1 H2 [Hr X] Hlim. destruct (load_go fl rad "cogni_lang_file" c e s C H1 H2 Hr) as (d & s1 & E & D). destruct (load_laid fl rad e c s d s1 C E D (drawable_all e X)) as (t & L & Hroot). specialize (Hlim d s1 E).
  set (root := S (S (length (heap s)))) in *. pose proof (la_reach _ _ _ _ _ _ _ L) as R. pose proof (la_wf _ _ _ _ _ _ _ L) as W.
  assert (Kr : kind_of (heap s1) root = Some KNode). { destruct (la_root _ _ _ _ _ _ _ L) as [_ V]. destruct (la_plain _ _ _ _ _ _ _ L) as (ts & -> & _). exact (v_kind _ _ _ V). }
  destruct (q_C43 s1 R lim converter_engine (converter_queries root)) as [Q _].
  { rewrite engine_vals. repeat constructor; set_solver. }
  { rewrite engine_vals. intros i Hi. rewrite !elem_of_cons, elem_of_nil in Hi. destruct Hi as [->|[->|[->|[]]]]; eexists; (split; [reflexivity|]); (split; [exact (k_exists _ _ _ Kr)|]); (split; [by apply fits_all|by apply pristine_idle]). }
  destruct Q as [(r0 & s0 & qs0 & Q0) Q].
  { exists 2, (new_query root (class_prep SCognitiveEntity) (fun _ _ => true)), root. rewrite engine_vals. split; [do 2 right; left|]. split; [done|]. left. split; [done|]. unfold accepts. unfold kind_of in Kr. destruct (heap s1 !! root) as [o|]; [|done]. cbn in Kr. injection Kr as Kr. change (q_kinds (o_kind o) && true = true); by rewrite Kr. }
  assert (G : forall r s' qs, engine_run lim converter_engine s1 (converter_queries root) r s' qs -> exists els, r = Ok els /\ s' = s1 /\ ok_enc lim rad s1 els).
  { intros r s' qs Er. destruct (Q _ _ _ Er) as (-> & (parts & -> & F) & _). eexists. split; [done|]. split; [done|]. destruct (engine_hands _ _ _ _ _ _ _ _ _ _ _ _ _ C E Hroot Er) as (_ & _ & N & EE & Hh).
    destruct (names_bounded _ W) as [M HM]. apply (all_ok _ _ _ _ _ _ _ L X lim Hlim M HM (S M)).
    - intros x Hx. apply elem_of_list_join in Hx as (p & Hx & Hp). apply elem_of_list_lookup in Hp as [i Hi]. destruct (Forall2_lookup_r _ _ _ _ _ F Hi) as (k & Hk & (q & Hq & _ & Hiff)). apply Hiff in Hx as [Hv _].
      rewrite engine_vals in Hk. assert (Hs : q_start q = root). { destruct i as [|[|[|i]]]; cbn in Hk; try done; injection Hk as <-; cbn in Hq; injection Hq as <-; done. }
      destruct Hv as [[-> _]|Hv]; [rewrite Hs; unfold root; lia|]. rewrite Hs in Hv. clear -Hv L. assert (G : forall a b, length (heap s) <= a -> parent_of (heap s1) b = Some a -> length (heap s) <= b).
      { intros a b Ha Hpp. destruct (decide (length (heap s) <= b)); [done|]. pose proof (dv_old _ _ _ (la_dinv _ _ _ _ _ _ _ L) b a ltac:(lia) Hpp). lia. }
      assert (length (heap s) <= root) by (unfold root; lia). induction Hv as [z Hp _|z q' _ IH Hp _]; by eapply G.
    - intros d1 r1 ed1 r' d' (Hin & Kd & Hp1 & Hp2) Hr' Hd'. destruct (hd_els _ _ _ _ _ _ _ _ Hh) as (P0 & P1 & z & Eels & PP0 & PP1 & _ & Kz). destruct (hd_kinds _ _ _ _ _ _ _ _ Hh) as [K0 _]. rewrite Eels in Hin |- *.
      assert (Hin1 : d1 ∈ P1). { apply elem_of_app in Hin as [Hin|Hin]; [rewrite PP0 in Hin; apply K0 in Hin; congruence|]. apply elem_of_app in Hin as [Hin|Hin]; [done|]. apply elem_of_list_singleton in Hin as ->. congruence. }
      rewrite PP1 in Hin1. apply first_kids_in in Hin1 as (r2 & Hr2 & Hh2). apply all_kids_in in Hr2 as (e2 & He2 & Hr2). assert (r2 = r1) as ->. { pose proof (kid_parent _ r2 d1 W ltac:(by apply head_Some_elem_of)). congruence. }
      assert (e2 = ed1) as -> by (pose proof (kid_parent _ _ _ W Hr2); congruence). apply elem_of_app. right. apply elem_of_app. left. rewrite PP1. apply first_kids_in. exists r'. split; [apply all_kids_in; by exists ed1|].
      apply elem_of_list_lookup in He2 as [k Hk]. destruct (Forall2_lookup_r _ _ _ _ _ (hd_joints _ _ _ _ _ _ _ _ Hh) Hk) as (x & _ & Hst). destruct (joint_rels_are fl rad _ _ _ Hst) as [_ FR]. apply elem_of_list_lookup in Hr' as [k' Hk'].
      destruct (Forall2_lookup_r _ _ _ _ _ FR Hk') as (cr & _ & Hrel). destruct (rel_joint fl rad s1 _ _ _ Hrel) as (d2 & Hpar & Hd2 & ->). unfold joint_of in Hd', Hd2. cbn. congruence.
    - intros d1 r1 ed1 q a _ _ _. lia. }
  split.
  - destruct (G _ _ _ Q0) as (els & -> & -> & Hok). destruct (Hok "" new_icon) as [[ic He] _]. eexists _, _. eapply cv_done; [exact E|exact Hroot|exact Q0|exact He].
  - intros r s' Hc. inversion Hc as [x s2 E2|d2 s2 root2 x s3 qs E2 Hr2 Hq|d2 s2 root2 els s3 qs x ic E2 Hr2 Hq He|d2 s2 root2 els s3 qs ic E2 Hr2 Hq He]; subst; rewrite E in E2; try discriminate E2; injection E2 as <- <-; rewrite Hroot in Hr2; injection Hr2 as <-; destruct (G _ _ _ Hq) as (els' & Ee & -> & Hok); try discriminate Ee.
    + injection Ee as <-. apply Hok in He. discriminate He.
    + by eexists.
Qed.
