(** * Conversion: what the elements of a loaded description are *)
From stdpp Require Import relations.
From Verif Require Import Spec Hierarchy Elements Factory History PDict PPath PExec PMono PWF PReach QCog QCog3 QCog5 QCog8 QGo SpecConv QConv3 QConv4 QConv6 QConv8 QExp SpecKin SpecPhys2 QPhys QPhys2 QConv5 QConv7 QConv10 SpecExport SpecCogni.

Record laid (fl : string -> option Qc) (rad : Qc) (e : centity) (n0 : nat) (c : clockid) (s : st) (t : tree) : Prop := {
  la_clean : clean s;
  la_dinv : dinv n0 c s;
  la_new : forall l p, n0 <= l -> kind_of (heap s) l <> Some KPort -> parent_of (heap s) l = Some p -> n0 <= p;
  la_world : labelled (heap s) n0 (LNode "world") /\ parent_of (heap s) n0 = None /\ kids (heap s) n0 = [];
  la_params : parent_of (heap s) (S n0) = None /\ exists ps, view (heap s) (S n0) (params_tree ps);
  la_root : parent_of (heap s) (S (S n0)) = None /\ view (heap s) (S (S n0)) t;
  la_mean : meaning fl rad e = Some t;
  la_draw : all_drawable (places e)
}.
Lemma load_laid fl rad e c s d s' : clean s -> load fl rad "cogni_lang_file" c e s = (Ok d, s') -> dinv (length (heap s)) c s' -> all_drawable (places e) -> exists t, laid fl rad e (length (heap s)) c s' t /\ ld_root d = Some (S (S (length (heap s)))).
Proof.
  intros C E D Hd. destruct (load_meaning_full fl rad _ c e s d s' C E) as (root & t & Hr & M & _ & Hrp & V & _ & Hpp & Vp & G & C' & (-> & Hps & Lw & Hwp & Hwk) & _). exists t. split; [|done]. rewrite Hps in *. pose proof (clean_wf _ C') as W'. pose proof (clean_wf _ C) as W.
  split; try done; [|by split; [|by eexists]]. intros l p Hl Hk Hp. destruct (decide (p < length (heap s))) as [Hlt|]; [|lia]. exfalso.
  assert (He : exists_in (heap s) p) by (by apply exists_in_lt). assert (Hin : l ∈ kids (heap s') p) by (by apply (QConv3.kid_iff _ W')). rewrite (gs_kids _ _ _ G p He), app_nil_r in Hin.
  apply (QConv3.kid_iff _ W) in Hin as [Hin _]. unfold parent_of in Hin. destruct (heap s !! l) eqn:E2; [|done]. apply lookup_lt_Some in E2. lia.
Qed.

Lemma v_kid h x u y : WF0 h -> view h x u -> parent_of h y = Some x -> kind_of h y <> Some KPort -> exists i v, kids h x !! i = Some y /\ subs u !! i = Some v /\ view h y v.
Proof.
  intros W Vx Hp Hk. inversion Vx as [x' lb us L F]; subst. assert (Hy : y ∈ kids h x) by (by apply (QConv3.kid_iff h W)). apply elem_of_list_lookup in Hy as [i Hi]. destruct (Forall2_lookup_l _ _ _ _ _ F Hi) as (v & Hv & Vv). by exists i, v.
Qed.
Lemma v_kind h x u : view h x u -> kind_of h x = Some (lkind (rt u)).
Proof. intros V. inversion V as [x' lb us (o & Ho & H) F]; subst. unfold kind_of. rewrite Ho. cbn. f_equal. destruct lb; by destruct H as [-> _]. Qed.

Section laid.
  Context (fl : string -> option Qc) (rad : Qc) (e : centity) (n0 : nat) (c : clockid) (s : st) (t : tree) (L : laid fl rad e n0 c s t).
  Notation h := (heap s).
  Notation root := (S (S n0)).
  Lemma la_wf : WF0 h.
  Proof. apply clean_wf. apply L. Qed.
  Lemma la_known x : x ∈ sub_at [] t -> QExp.known fl rad (places e) x.
  Proof. apply (meaning_known fl rad e t (la_mean _ _ _ _ _ _ _ L) (la_draw _ _ _ _ _ _ _ L)). Qed.
  Lemma la_tame : exists ts, t = T (LNode (en_name e)) ts /\ Forall tame ts.
  Proof. apply (meaning_known fl rad e t (la_mean _ _ _ _ _ _ _ L) (la_draw _ _ _ _ _ _ _ L)). Qed.
  Lemma la_plain : exists ts, t = T (LNode (en_name e)) ts /\ Forall plain_kid ts.
  Proof. destruct la_tame as (ts & E & P). exists ts. split; [done|]. by apply tame_plain. Qed.
  Lemma shaped_sub u : shaped u = true -> forall path x, x ∈ sub_at path u -> shaped x.2 = true.
  Proof.
    induction u as [lb ts IH] using tree_ind'. intros H path x Hx. rewrite sub_at_T in Hx. destruct Hx as [->|(v & Hv & Hx)]; [done|]. rewrite Forall_forall in IH. eapply (IH v Hv); [|exact Hx].
    cbn [shaped] in H. apply andb_true_iff in H as [_ H]. rewrite forallb_forall in H. apply H. by apply elem_of_list_In.
  Qed.
  Lemma la_shaped x : x ∈ sub_at [] t -> x = ([], t) \/ shaped x.2 = true.
  Proof.
    destruct (meaning_shaped fl rad e t (la_mean _ _ _ _ _ _ _ L)) as (ts & -> & G). intros Hx. rewrite sub_at_T in Hx. destruct Hx as [->|(v & Hv & Hx)]; [by left|]. right. eapply shaped_sub; [|exact Hx].
    apply elem_of_cons in Hv as [->|Hv]; [done|]. rewrite Forall_forall in G. apply G in Hv. by apply andb_true_iff in Hv as [_ Hv].
  Qed.
  (** a sub-tree of a sub-tree *)
  Lemma la_kid p lb us i v : (p, T lb us) ∈ sub_at [] t -> us !! i = Some v ->
    (p ++ [tree_name (T lb us)], v) ∈ sub_at [] t /\ (kid_ok lb (bool_decide (i = 0)) (rt v) = true \/ (p, T lb us) = ([], t) /\ i = 0 /\ exists nm a, rt v = LSem SCognitiveEntity nm a).
  Proof.
    intros Hu Hi. assert (Hv : v ∈ us) by (apply elem_of_list_lookup; by exists i). split.
    - eapply sub_at_trans; [exact Hu|]. rewrite sub_at_T. right. exists v. split; [done|]. rewrite (tree_name_T lb [] us). apply sub_at_here.
    - destruct (la_shaped _ Hu) as [E|E]; [|left; exact (kid_of_shaped 0 0 ltac:(done) lb us i v E Hi)]. destruct (meaning_shaped fl rad e t (la_mean _ _ _ _ _ _ _ L)) as (ts & Et & G). rewrite Et in E. injection E as -> -> ->.
      destruct i as [|i]; [right; cbn in Hi; injection Hi as <-; split; [by rewrite Et|]; split; [done|]; by eexists _, _|]. left. rewrite bool_decide_eq_false_2 by lia. cbn in Hi. assert (Hin : v ∈ ts) by (apply elem_of_list_lookup; by exists i).
      rewrite Forall_forall in G. apply G in Hin. by apply andb_true_iff in Hin as [Hin _].
  Qed.
  (** Where an element is described *)
  Definition hyper_label (lb : label) : Prop := match lb with LNode _ | LEdge _ => True | _ => False end.
  Definition described (y : loc) (p : list string) (u : tree) : Prop :=
    (p, u) ∈ sub_at [] t /\ view h y u /\ (hyper_label (rt u) -> full_name h y (join "/" (p ++ [tree_name u]))).
  Lemma view_name y u : view h y u -> hyper_label (rt u) -> name_of h y = tree_name u.
  Proof. intros Hv Hl. inversion Hv as [y' lb us (o & Ho & Hlb) F]; subst. unfold name_of. rewrite Ho. destruct lb; try done; by destruct Hlb as [_ ?]. Qed.
  Lemma described_kid y p u z : described y p u -> parent_of h z = Some y -> kind_of h z <> Some KPort ->
    exists i v, kids h y !! i = Some z /\ subs u !! i = Some v /\ described z (p ++ [tree_name u]) v /\ (kid_ok (rt u) (bool_decide (i = 0)) (rt v) = true \/ i = 0 /\ exists nm a, rt v = LSem SCognitiveEntity nm a).
  Proof.
    intros (Hu & Vu & Nu) Hp Hk. destruct (v_kid h y u z la_wf Vu Hp Hk) as (i & v & Hi & Hv & Vv). destruct u as [lb us]. cbn [subs] in Hv. destruct (la_kid p lb us i v Hu Hv) as [Hin Hok]. exists i, v. split; [done|]. split; [done|]. split.
    - split; [done|]. split; [done|]. intros Hl. assert (Hlb : hyper_label lb). { destruct Hok as [Hok|(_ & _ & nm & a & E)]; [|rewrite E in Hl; done]. destruct (rt v); try done; destruct lb; done. }
      assert (Hex : exists_in h z) by (unfold parent_of in Hp; destruct (h !! z) eqn:E; [by eexists|done]). pose proof (child_name h y z _ (Nu Hlb) Hex Hp) as F. rewrite (view_name z v Vv Hl) in F. rewrite (join_snoc "/" (p ++ [tree_name (T lb us)])); [done|by destruct p].
    - destruct Hok as [Hok|(E & -> & Hv')]; [by left|by right].
  Qed.
  Lemma described_root : described root [] t.
  Proof.
    split; [apply sub_at_here|]. destruct (la_root _ _ _ _ _ _ _ L) as [Hp V]. split; [done|]. intros Hl. rewrite <- (view_name root t V Hl). cbn [app join]. apply root_name; [|done]. inversion V as [y' lb us (o & Ho & _) F]. by eexists.
  Qed.
  (** Everything new is the world node, a parameter or described. *)
  Lemma all_described y : exists_in h y -> n0 <= y -> kind_of h y <> Some KPort ->
    y = n0 \/ y = S n0 \/ (exists nm vs, view h y (T (LValue nm vs) [])) \/ exists p u, described y p u.
  Proof.
    intros He. destruct (wf_acy _ la_wf y He) as [ls Hls]. induction Hls as [y He' Hn|y q ls He' Hp Hq IH]; intros Hy Hk.
    - destruct He' as [o Ho]. pose proof (dv_tied _ _ _ (la_dinv _ _ _ _ _ _ _ L) y o Hy Ho) as Ht. unfold parent_of in Hn. rewrite Ho in Hn. specialize (Ht Hn). assert (Hor : y = n0 \/ y = S n0 \/ y = root) by lia.
      destruct Hor as [->|[->| ->]]; [by left|by right; left|]. right. right. right. exists [], t. apply described_root.
    - pose proof (la_new _ _ _ _ _ _ _ L y q Hy Hk Hp) as Hq0. pose proof (dv_up _ _ _ (la_dinv _ _ _ _ _ _ _ L) y q Hy Hp) as Hqk. assert (Hin : y ∈ kids h q) by (by apply (QConv3.kid_iff _ la_wf)).
      destruct IH as [->|[->|[(nm & vs & V)|(p & u & Hu)]]]; [by eapply path_exists|done|done| | | |].
      + destruct (la_world _ _ _ _ _ _ _ L) as (_ & _ & E). rewrite E in Hin. by apply elem_of_nil in Hin.
      + destruct (la_params _ _ _ _ _ _ _ L) as (_ & ps & V). pose proof (view_kids _ _ _ _ V) as F. apply elem_of_list_lookup in Hin as [i Hi]. destruct (Forall2_lookup_l _ _ _ _ _ F Hi) as (v & Hv & Vv). apply elem_of_list_lookup_2 in Hv. apply elem_of_list_fmap in Hv as (x & -> & _).
        right. right. left. by eexists _, _.
      + exfalso. pose proof (view_kids _ _ _ _ V) as F. inversion F as [E|]. rewrite <- E in Hin. by apply elem_of_nil in Hin.
      + right. right. right. destruct (described_kid q p u y Hu Hp Hk) as (i & v & _ & _ & Hd & _). by exists (p ++ [tree_name u]), v.
  Qed.
  Lemma top_node y : n0 <= y -> parent_of h y = None -> exists_in h y -> kind_of h y = Some KNode.
  Proof.
    intros Hy Hp [o Ho]. pose proof (dv_tied _ _ _ (la_dinv _ _ _ _ _ _ _ L) y o Hy Ho) as Ht. unfold parent_of in Hp. rewrite Ho in Hp. specialize (Ht Hp). assert (Hor : y = n0 \/ y = S n0 \/ y = root) by lia. destruct Hor as [->|[->| ->]].
    - destruct (la_world _ _ _ _ _ _ _ L) as ((o' & Ho' & Hk & _) & _). unfold kind_of. rewrite Ho'. cbn. by rewrite Hk.
    - destruct (la_params _ _ _ _ _ _ _ L) as (_ & ps & V). by rewrite (v_kind _ _ _ V).
    - destruct (la_root _ _ _ _ _ _ _ L) as (_ & V). destruct la_plain as (ts & -> & _). by rewrite (v_kind _ _ _ V).
  Qed.
  Lemma k_exists y k : kind_of h y = Some k -> exists_in h y.
  Proof. unfold kind_of. destruct (h !! y) eqn:E; [by eexists|done]. Qed.
  Lemma under_place y q k : n0 <= y -> parent_of h y = Some q -> kind_of h y = Some k -> k <> KValue -> k <> KPort ->
    exists p u i v, n0 <= q /\ described q p u /\ kids h q !! i = Some y /\ subs u !! i = Some v /\ described y (p ++ [tree_name u]) v /\ lkind (rt v) = k /\
      (kid_ok (rt u) (bool_decide (i = 0)) (rt v) = true \/ k = KSem SCognitiveEntity).
  Proof.
    intros Hy Hp Hk K2 K3. assert (Hkp : kind_of h y <> Some KPort) by congruence.
    pose proof (la_new _ _ _ _ _ _ _ L y q Hy Hkp Hp) as Hq0. pose proof (dv_up _ _ _ (la_dinv _ _ _ _ _ _ _ L) y q Hy Hp) as Hqk. pose proof (wf0_parent_exists _ _ _ la_wf Hp) as Heq. assert (Hin : y ∈ kids h q) by (by apply (QConv3.kid_iff _ la_wf)).
    destruct (all_described q Heq Hq0 Hqk) as [->|[->|[(nm & vs & V)|(p & u & Hu)]]].
    - destruct (la_world _ _ _ _ _ _ _ L) as (_ & _ & E). rewrite E in Hin. by apply elem_of_nil in Hin.
    - destruct (la_params _ _ _ _ _ _ _ L) as (_ & ps & V). pose proof (view_kids _ _ _ _ V) as F. apply elem_of_list_lookup in Hin as [i Hi]. destruct (Forall2_lookup_l _ _ _ _ _ F Hi) as (v & Hv & Vv). apply elem_of_list_lookup_2 in Hv. apply elem_of_list_fmap in Hv as (x & -> & _).
      rewrite (v_kind _ _ _ Vv) in Hk. cbn in Hk. congruence.
    - pose proof (view_kids _ _ _ _ V) as F. inversion F as [E|]. rewrite <- E in Hin. by apply elem_of_nil in Hin.
    - destruct (described_kid q p u y Hu Hp Hkp) as (i & v & Hi & Hv & Hd & Hok). exists p, u, i, v. split; [done|]. split; [done|]. split; [done|]. split; [done|]. split; [done|]. assert (Hkv : lkind (rt v) = k) by (destruct Hd as (_ & Vv & _); rewrite (v_kind _ _ _ Vv) in Hk; congruence).
      split; [done|]. destruct Hok as [Hok|(_ & nm & a & E)]; [by left|]. right. rewrite E in Hkv. by rewrite <- Hkv.
  Qed.
  Definition inner (k : kind) : Prop := k <> KNode /\ k <> KValue /\ k <> KPort.
  Lemma inner_place y k : n0 <= y -> kind_of h y = Some k -> inner k ->
    exists q p u i v, parent_of h y = Some q /\ n0 <= q /\ described q p u /\ kids h q !! i = Some y /\ subs u !! i = Some v /\ described y (p ++ [tree_name u]) v /\ lkind (rt v) = k /\
      (kid_ok (rt u) (bool_decide (i = 0)) (rt v) = true \/ k = KSem SCognitiveEntity).
  Proof.
    intros Hy Hk (K1 & K2 & K3). pose proof (k_exists _ _ Hk) as He. destruct (parent_of h y) as [q|] eqn:Hp; [|pose proof (top_node y Hy Hp He); congruence].
    exists q. destruct (under_place y q k Hy Hp Hk K2 K3) as (p & u & i & v & H). by exists p, u, i, v.
  Qed.
  (** ** Links *)
  Lemma link_place el : n0 <= el -> kind_of h el = Some (KSem SKinematicLink) ->
    exists cont env path l lt, parent_of h el = Some cont /\ n0 <= cont /\ (path, KiLink l) ∈ places e /\ link_tree fl rad env path l = Some lt /\ described cont path lt /\ head (kids h cont) = Some el.
  Proof.
    intros Hy Hk. destruct (inner_place el _ Hy Hk) as (q & p & u & i & v & Hp & Hq & Hu & Hi & Hv & Hd & Hkv & Hok); [by split|]. destruct Hok as [Hok|?]; [|done]. destruct (rt v) as [| | |c' nm a|] eqn:Ev; try done. cbn in Hkv. injection Hkv as ->. cbn [kid_ok] in Hok.
    apply andb_true_iff in Hok as [Hn H0]. apply bool_decide_eq_true in H0 as ->. destruct u as [lb us]. cbn [rt] in Hn. destruct lb as [nm'| | | |]; try done. cbn [subs] in Hv. pose proof (proj1 Hu) as Hin. pose proof (la_known _ Hin) as K. cbn in K.
    destruct K as [(env & l & Hl & El)|[(env & its & seen & seen' & us' & Hg & E & _)|P]].
    - exists q, env, p, l, (T (LNode nm') us). by rewrite head_lookup.
    - subst us. cbn in Hv. injection Hv as <-. done.
    - destruct us as [|w us]; [done|]. cbn in Hv. injection Hv as ->. apply tame_plain in P. inversion P as [|? ? P1 _]. unfold plain_kid in P1. by rewrite Ev in P1.
  Qed.
  (** ** Graphs *)
  Lemma graph_place d : n0 <= d -> kind_of h d = Some (KSem SKinematicGraph) ->
    exists g env path nm its seen seen' us, parent_of h d = Some g /\ n0 <= g /\ g <> root /\ (path, KiKin nm its) ∈ places e /\ thread (kitem_trees fl rad env (path ++ [nm])) seen its = Some (us, seen') /\
      described g path (T (LNode nm) (sem_leaf SKinematicGraph nm [("name", PStr nm)] :: us)).
  Proof.
    intros Hy Hk. destruct (inner_place d _ Hy Hk) as (q & p & u & i & v & Hp & Hq & Hu & Hi & Hv & Hd & Hkv & Hok); [by split|]. destruct (rt v) as [| | |c' nm a|] eqn:Ev; try done. cbn in Hkv. injection Hkv as ->. clear Hok.
    destruct u as [lb us]. cbn [subs] in Hv. assert (Hvin : v ∈ us) by (apply elem_of_list_lookup; by exists i). pose proof (proj1 Hu) as Hin. pose proof (la_known _ Hin) as K.
    assert (Hr : q <> root). { intros ->. destruct la_plain as (ts & Et & P). destruct (la_root _ _ _ _ _ _ _ L) as [_ V]. rewrite Et in V. pose proof (view_kids _ _ _ _ V) as F. destruct (Forall2_lookup_l _ _ _ _ _ F Hi) as (v' & Hv' & Vv').
      pose proof (v_kind _ _ _ Vv') as Hk'. rewrite Hk in Hk'. rewrite Forall_forall in P. specialize (P v' (elem_of_list_lookup_2 _ _ _ Hv')). unfold plain_kid in P. destruct (rt v') as [| | |c2 nm2 a2|]; try done. cbn in Hk'. injection Hk' as <-. done. }
    destruct lb as [nm'|nm'|d' w' q'|c' nm' a'|nm' vs']; cbn in K.
    - destruct K as [(env & l & Hl & El)|[(env & its & seen & seen' & us' & Hg & E & Et)|P]].
      + exfalso. apply link_tree_inv in El as (hd & rest & E & Hh & F & _). injection E as -> ->. apply elem_of_cons in Hvin as [->|Hvin]; [apply head_shaped in Hh as [_ [a' E]]; congruence|].
        rewrite Forall_forall in F. destruct (F v Hvin) as [[nm2 E]|(nm2 & a2 & E & _)]; congruence.
      + subst us. exists q, env, p, nm', its, seen, seen', us'. done.
      + exfalso. apply tame_plain in P. rewrite Forall_forall in P. specialize (P v Hvin). unfold plain_kid in P. by rewrite Ev in P.
    - exfalso. destruct K as [(env & j & Hj & Ej)|(q1 & q2 & _ & _ & ->)].
      + apply joint_tree_inv in Ej as (ts & E & F). injection E as _ ->. destruct (Forall2_lookup_r _ _ _ _ _ F Hv) as (r & _ & Hr'). apply relation_tree_inv in Hr' as (d1 & w1 & q1 & a1 & us1 & _ & _ & -> & _). done.
      + apply elem_of_cons in Hvin as [->|Hvin]; [done|]. apply elem_of_list_singleton in Hvin as ->. done.
    - exfalso. rewrite Forall_forall in K. specialize (K v Hvin). unfold plain_kid in K. by rewrite Ev in K.
    - exfalso. destruct K as [K _]. rewrite Forall_forall in K. specialize (K v Hvin). unfold plain_kid in K. by rewrite Ev in K.
    - exfalso. rewrite Forall_forall in K. specialize (K v Hvin). unfold plain_kid in K. by rewrite Ev in K.
  Qed.
  (** ** Edges *)
  Lemma edge_place ed : n0 <= ed -> kind_of h ed = Some KEdge ->
    exists path u, described ed path u /\
      ((exists env j, (path, KiJoint j) ∈ places e /\ joint_tree fl rad env path j = Some u) \/
       (exists nm q1 q2, u = T (LEdge nm) [T (LRel OUTWARDS WNone q1) []; T (LRel INWARDS WNone q2) []] /\ q1 ∈ reference_ends e /\ q2 ∈ reference_ends e)).
  Proof.
    intros Hy Hk. destruct (inner_place ed _ Hy Hk) as (q & p & u & i & v & Hp & Hq & Hu & Hi & Hv & Hd & Hkv & _); [by split|]. eexists _, v. split; [exact Hd|]. pose proof (la_known _ (proj1 Hd)) as K. destruct v as [[nm|nm|d w x|c' nm a|nm vs] us]; try done. cbn in K.
    destruct K as [(env & j & Hj & Ej)|(q1 & q2 & H1 & H2 & ->)]; [left; by exists env, j|]. right. by exists nm, q1, q2.
  Qed.
  Lemma relation_place r : n0 <= r -> kind_of h r = Some KRel ->
    exists ed path u, parent_of h r = Some ed /\ n0 <= ed /\ kind_of h ed = Some KEdge /\ r ∈ kids h ed /\ described ed path u /\
      ((exists env j, (path, KiJoint j) ∈ places e /\ joint_tree fl rad env path j = Some u) \/
       (exists q nm q1 q2, full_name h q q1 /\ ep_of h r = Some q /\ q1 ∈ reference_ends e /\ u = T (LEdge nm) q2)).
  Proof.
    intros Hy Hk. destruct (inner_place r _ Hy Hk) as (ed & p & u & i & v & Hp & Hq & Hu & Hi & Hv & Hd & Hkv & Hok); [by split|]. pose proof (dv_rel _ _ _ (la_dinv _ _ _ _ _ _ _ L) r ed Hy Hk Hp) as Hke.
    destruct (edge_place ed Hq Hke) as (p' & u' & Hu' & Hor). exists ed, p', u'. split; [done|]. split; [done|]. split; [done|]. split; [apply elem_of_list_lookup; by exists i|]. split; [done|].
    destruct Hor as [Hj|(nm & q1 & q2 & -> & H1 & H2)]; [by left|]. right. pose proof (view_kids _ _ _ _ (proj1 (proj2 Hu'))) as F. destruct (Forall2_lookup_l _ _ _ _ _ F Hi) as (w & Hw & Vw).
    assert (Hq12 : exists d q, (q = q1 \/ q = q2) /\ w = T (LRel d WNone q) []). { destruct i as [|[|i]]; cbn in Hw; [injection Hw as <-; eauto|injection Hw as <-; eauto|done]. }
    destruct Hq12 as (d & q & Hqq & ->). destruct (view_labelled _ _ _ Vw) as (o & Ho & _ & _ & _ & _ & y & Hy' & Fy). exists y, nm, q. eexists. split; [done|]. split; [unfold ep_of; by rewrite Ho|]. split; [by destruct Hqq as [->| ->]|done].
  Qed.
  (** ** Joints *)
  Lemma joint_place j : n0 <= j -> kind_of h j = Some (KSem SKinematicJoint) ->
    exists r ed env path jt u, parent_of h j = Some r /\ n0 <= r /\ kind_of h r = Some KRel /\ parent_of h r = Some ed /\ n0 <= ed /\ kind_of h ed = Some KEdge /\ (path, KiJoint jt) ∈ places e /\ joint_tree fl rad env path jt = Some u /\ described ed path u.
  Proof.
    intros Hy Hk. destruct (inner_place j _ Hy Hk) as (r & p & u & i & v & Hp & Hr & Hu & Hi & Hv & Hd & Hkv & Hok); [by split|]. destruct Hok as [Hok|?]; [|done]. destruct (rt v) as [| | |c' nm a|] eqn:Ev; try done. cbn in Hkv. injection Hkv as ->. cbn [kid_ok] in Hok.
    destruct u as [[ | |d w x| |] us]; try done. pose proof (v_kind _ _ _ (proj1 (proj2 Hu))) as Hkr. cbn in Hkr.
    destruct (inner_place r _ Hr Hkr) as (ed & p' & u' & i' & v' & Hp' & He & Hu' & Hi' & Hv' & Hd' & Hkv' & _); [by split|]. pose proof (dv_rel _ _ _ (la_dinv _ _ _ _ _ _ _ L) r ed Hr Hkr Hp') as Hke.
    destruct (edge_place ed He Hke) as (p2 & u2 & Hu2 & Hor). destruct Hor as [(env & jt & Hj & Ej)|(nm2 & q1 & q2 & -> & H1 & H2)]; [exists r, ed, env, p2, jt, u2; done|]. exfalso.
    pose proof (view_kids _ _ _ _ (proj1 (proj2 Hu2))) as F. destruct (Forall2_lookup_l _ _ _ _ _ F Hi') as (w2 & Hw & Vw). assert (Hk0 : kids h r = []). { destruct i' as [|[|i']]; cbn in Hw; [injection Hw as <-|injection Hw as <-|done]; by inversion Vw as [? ? ? _ F2]; subst; inversion F2. }
    rewrite Hk0 in Hi. done.
  Qed.
  (** ** Geometries *)
  Lemma geometry_place g cl : n0 <= g -> kind_of h g = Some (KSem cl) -> is_geom cl = true -> exists q, attribute h g "values" = qlist q /\ values_fit cl q.
  Proof.
    intros Hy Hk Hg. destruct (inner_place g _ Hy Hk) as (r & p & u & i & v & Hp & Hr & Hu & Hi & Hv & Hd & Hkv & Hok); [by split|]. pose proof (la_known _ (proj1 Hd)) as K. destruct v as [[nm|nm|d w x|c' nm a|nm vs] us]; try done. cbn in Hkv. injection Hkv as ->.
    destruct K as [_ K]. destruct (K Hg) as (nm2 & q & -> & Hq). exists q. split; [|done]. destruct Hd as (_ & V & _). pose proof (view_labelled _ _ _ V) as Hl. cbn [rt] in Hl. rewrite <- sattr_attr, (plain_sattr _ _ _ _ _ "values" Hl). reflexivity.
  Qed.
  (** ** Relations and ports *)
  Lemma rel_ep r : n0 <= r -> kind_of h r = Some KRel -> exists y, ep_of h r = Some y /\ n0 <= y.
  Proof.
    intros Hy Hk. destruct (inner_place r _ Hy Hk) as (ed & p & u & i & v & Hp & Hq & Hu & Hi & Hv & Hd & Hkv & Hok); [by split|]. destruct Hd as (_ & V & _). destruct v as [[nm|nm|d w x|c' nm a|nm vs] us]; try done.
    destruct (view_labelled _ _ _ V) as (o & Ho & _ & _ & _ & _ & y & Hy' & Fy). assert (E : ep_of h r = Some y) by (unfold ep_of; by rewrite Ho). exists y. split; [done|]. exact (dv_ep _ _ _ (la_dinv _ _ _ _ _ _ _ L) r y Hy Hk E).
  Qed.
  Lemma port_rel n p : n0 <= n -> p ∈ ports_of h n -> exists r, ep_of h p = Some r /\ n0 <= r /\ kind_of h r = Some KRel /\ ep_of h r = Some n.
  Proof.
    intros Hn Hp. unfold ports_of in Hp. apply elem_of_list_filter in Hp as [Hk Hp]. destruct (wf0_child _ la_wf n p Hp) as [[o Ho] Hpp]. assert (n0 <= p). { destruct (decide (n0 <= p)); [done|]. pose proof (dv_old _ _ _ (la_dinv _ _ _ _ _ _ _ L) p n ltac:(lia) Hpp). lia. }
    destruct (dv_port _ _ _ (la_dinv _ _ _ _ _ _ _ L) p o) as (r & Hr & Hn0 & Hkr & He); [done|done|unfold kind_of in Hk; rewrite Ho in Hk; cbn in Hk; congruence|]. exists r. split; [unfold ep_of; by rewrite Ho|]. split; [done|]. split; [done|]. rewrite He. unfold parent_of in Hpp. by rewrite Ho in Hpp.
  Qed.
  Lemma joint_edge ed path env j u : described ed path u -> joint_tree fl rad env path j = Some u -> stands_for h (joint_entry fl rad) (env, path, j) ed.
  Proof. intros (_ & V & _) E. by exists u. Qed.
  Lemma rel_joint x r l : rel_is fl rad h x r l -> exists d, parts h SKinematicJoint l = [d] /\ joint_of h l d /\ kids h l = [d].
  Proof.
    intros H. destruct (rel_is_inv fl rad h x r l H) as (d & w & y & dl & ts & _ & _ & _ & _ & _ & _ & Hkid & V & ax & us & -> & _). exists dl. assert (E : parts h SKinematicJoint l = [dl]); [|split; [done|]; split; [unfold joint_of; by rewrite E|done]].
    rewrite <- subs_parts, (subs_kids h _ _ eq_refl), Hkid. cbn [List.filter]. pose proof (v_kind _ _ _ V) as K. unfold kind_of in K. destruct (h !! dl) as [o|]; [|done]. cbn in K. injection K as K. rewrite K. done.
  Qed.
  Lemma port_leads n p nm : n0 <= n -> full_name h n nm -> nm ∉ reference_ends e -> p ∈ ports_of h n -> exists r d, leads h p r d /\ n0 <= r.
  Proof.
    intros Hn Hf Hnr Hp. destruct (port_rel n p Hn Hp) as (r & Hr & Hn0 & Hk & He). destruct (relation_place r Hn0 Hk) as (ed & path & u & _ & _ & _ & Hin & Hu & [(env & j & Hj & Ej)|(q & nm' & q1 & q2 & Hq & He' & Hq1 & _)]).
    - destruct (joint_rels_are fl rad h _ ed (joint_edge _ _ _ _ _ Hu Ej)) as [_ F]. apply elem_of_list_lookup in Hin as [i Hi]. destruct (Forall2_lookup_r _ _ _ _ _ F Hi) as (cr & _ & Hrel). destruct (rel_joint _ _ _ Hrel) as (d & _ & Hd & _). exists r, d. done.
    - exfalso. assert (q = n) by congruence. subst q. rewrite (full_name_det h n nm q1 Hf Hq) in Hnr. done.
  Qed.
End laid.
