(** * Conversion: what the three queries find after a load *)
From stdpp Require Import relations.
From Verif Require Import Spec Hierarchy Elements Factory History PDict PPath PExec PMono PWF PReach QFac Traverse SpecTrav QueryEngine SpecQuery CogniLang SpecCogni QCog QCog2 QCog3 QCog5 QCog8 Convert SpecSdf QConv QConv2 QConv3 SpecConv QConv4 QConv5 SpecCogni.

(** ** Depths after a load *)
Lemma load_deep fl rad icon c e s d s' root : clean s -> load fl rad icon c e s = (Ok d, s') -> ld_root d = Some root ->
  deep (length (heap s)) (heap s') /\ length (heap s) <= root /\ o_depth <$> heap s' !! root = Some 0.
Proof.
  intros C E Hr. destruct (load_meaning_full fl rad icon c e s d s' C E) as (root' & t & Hr' & M & Hnew & _ & V & _ & _ & _ & G & C' & _ & f & d1 & s2 & s3 & E3 & C2 & E4). rewrite Hr in Hr'. injection Hr' as <-.
  pose proof (clean_wf _ C) as W. pose proof (clean_wf _ C') as W'.
  assert (N : nd (length (heap s)) (heap s)).
  { split.
    - intros l o p Ho Hp. destruct (wf_par _ W l o p Ho Hp) as (op & Hop & _). by exists op.
    - intros l o p op Hl Ho. apply lookup_lt_Some in Ho. lia. }
  pose proof (load_ndm fl rad (length (heap s)) icon c e s N) as [[N1 N2] NS]. rewrite E in N1, N2, NS. cbn [snd] in N1, N2, NS.
  assert (Hnl : length (heap s) <= root). { destruct (decide (length (heap s) <= root)); [done|]. exfalso. apply Hnew. unfold exists_in. apply lookup_lt_is_Some. lia. }
  assert (Hup : forall l p, length (heap s) <= p -> parent_of (heap s') l = Some p -> length (heap s) <= l).
  { intros l p Hp Hl. destruct (decide (length (heap s) <= l)) as [|n]; [done|]. exfalso.
    assert (Hex : exists_in (heap s) l) by (unfold exists_in; apply lookup_lt_is_Some; lia). rewrite (gs_unmoved _ _ _ G l Hex) in Hl. unfold parent_of in Hl. destruct Hex as [o Ho]. rewrite Ho in Hl. cbn in Hl.
    destruct (wf_par _ W l o p Ho Hl) as (op & Hop & _). apply lookup_lt_Some in Hop. lia. }
  split; [|split; [done|]].
  - split; [exact Hup|]. intros l o p op Hp Ho Hk Hpar Hop Hkp. apply (N2 l o p op); try done. eapply Hup; [exact Hp|]. unfold parent_of. by rewrite Ho.
  - pose proof (clean_wf _ C2) as W2. destruct (root_born _ _ _ _ _ C2 E3) as (C3 & _). pose proof (clean_wf _ C3) as W3.
    assert (N3 : nd (length (heap s3)) (heap s3)).
    { split.
      - intros l o p Ho Hp. destruct (wf_par _ W3 l o p Ho Hp) as (op & Hop & _). by exists op.
      - intros l o p op Hl Ho. apply lookup_lt_Some in Ho. lia. }
    assert (NS3 : nodes_same (heap s3) (heap s')).
    { assert (X : ndm (length (heap s3)) s3 (generate_semantic_element (ld_sems d1) "cognitiveentity" (en_name e) root [("name", PStr (en_name e))] None ;;
       let! d2 := cache_element root d1 in fold_m (visit_eitem fl rad [en_name e]) (en_items e) d2)).
      { apply ndm_bind; [apply sem_ndm|]. intros a s4 _. apply ndm_bind; [apply calm_ndm; calm|]. intros d2 s5 _. apply fold_ndm, Forall_forall. intros x _ d' s6. apply eitem_ndm. }
      destruct (X N3) as [_ Y]. by rewrite E4 in Y. }
    rewrite gen_root_eq in E3. unfold new_conceptual in E3. set (sa := set_tick (S (S (tick s2))) s2) in E3.
    rewrite (bind_ok (now (f_clock f)) _ sa (clk sa (f_clock f) (tick sa)) (set_tick (S (tick sa)) sa)) in E3 by done.
    set (o := s_ready _ _) in E3. rewrite (bind_ok _ _ _ _ _ (alloc_state _ o)) in E3. set (sb := set_tick (S (tick sa)) sa) in E3.
    change (heap sb) with (heap s2) in E3. rewrite (bind_ok (ret tt) _ _ tt (set_heap (heap s2 ++ [o]) sb)) in E3 by done.
    assert (Ho : heap (set_heap (heap s2 ++ [o]) sb) !! length (heap s2) = Some o) by (simpl; by rewrite lookup_app_r, Nat.sub_diag by lia).
    rewrite (bind_ok _ _ _ _ _ (upd_ok _ (s_ready true) _ o Ho)) in E3. injection E3 as Er E3.
    assert (Hx : heap s3 !! root = Some (s_ready true o)). { rewrite <- E3, <- Er. cbn [heap set_heap]. rewrite list_lookup_alter. by rewrite lookup_app_r, Nat.sub_diag by lia. }
    destruct (NS3 root _ Hx eq_refl) as (o' & Ho' & _ & Hd). rewrite Ho'. cbn. by rewrite Hd.
Qed.

(** ** Lists *)
Lemma Forall2_sel {A B} (R : A -> B -> Prop) (sel : B -> bool) (ls : list A) (ts : list B) : Forall2 R ls ts ->
  exists N, (forall x, x ∈ N -> x ∈ ls) /\ (NoDup ls -> NoDup N) /\ Forall2 R N (List.filter sel ts) /\ forall i x t, ls !! i = Some x -> ts !! i = Some t -> sel t = true -> x ∈ N.
Proof.
  induction 1 as [|a b ls ts H F (N & S & Nd & FN & K)]; [exists []; split; [done|]; split; [constructor|]; split; [constructor|]; intros [|i]; done|].
  cbn [List.filter]. destruct (sel b) eqn:E.
  - exists (a :: N). split; [intros x Hx; apply elem_of_cons in Hx as [->|Hx]; [left|right; by apply S]|]. split; [intros Hn; apply NoDup_cons in Hn as [Hn1 Hn2]; apply NoDup_cons; split; [by intros ?%S|by apply Nd]|].
    split; [by constructor|]. intros [|i] x t Hx Ht Hs; cbn in Hx, Ht; [injection Hx as <-; left|right; by eapply K].
  - exists N. split; [intros x Hx; right; by apply S|]. split; [intros Hn; apply NoDup_cons in Hn as [_ Hn2]; by apply Nd|]. split; [done|]. intros [|i] x t Hx Ht Hs; cbn in Hx, Ht; [congruence|by eapply K].
Qed.
Lemma visited_shaped acc t n : shaped t = true -> Forall (fun u => shaped u = true) (visited acc n t).
Proof.
  revert n. induction t as [lb ts IH] using tree_ind'. intros n H. apply shaped_subs in H. cbn [visited]. induction H as [|t ts Ht _ IHts]; [constructor|]. apply Forall_cons in IH as [IHt IH]. cbn [flat_map].
  apply Forall_app. split; [|by apply IHts]. destruct (acc (S n) (rt t)); [|constructor]. constructor; [done|]. by apply IHt.
Qed.
Lemma through_last f h x y : through f h x y -> accepts f h y = true /\ exists p, parent_of h y = Some p /\ (p = x \/ through f h x p).
Proof. intros H. destruct H as [y Hp Ha|y p Hq Hp Ha]; (split; [done|]); eauto. Qed.

(** ** What the queries look at *)
Definition everywhere (n : nat) (lb : label) : bool := match lb with LValue _ _ => false | _ => true end.
Lemma sees_at root c k h x lb n : labelled h x lb -> at_depth h x lb n -> accepts (q_sees (new_query root (class_prep c) (stmt_node_depth k))) h x = acc_at k n lb.
Proof.
  intros (o & Ho & H) Hd. unfold accepts, q_sees. rewrite Ho. cbn [q_stmt new_query]. unfold stmt_node_depth. destruct lb as [nm|nm|d w q|c' nm a|nm vs]; destruct H as (-> & _); try done.
  specialize (Hd eq_refl). rewrite Ho in Hd. cbn in Hd. injection Hd as ->. done.
Qed.
Lemma sees_all root c h x lb n : labelled h x lb -> at_depth h x lb n -> accepts (q_sees (new_query root (class_prep c) (fun _ _ => true))) h x = everywhere n lb.
Proof. intros (o & Ho & H) _. unfold accepts, q_sees. rewrite Ho. cbn [q_stmt new_query]. destruct lb as [nm|nm|d w q|c' nm a|nm vs]; destruct H as (-> & _); done. Qed.
Lemma sees_port q (h : list obj) x o : h !! x = Some o -> o_kind o = KPort -> q_sees q x o = false.
Proof. intros _ H. unfold q_sees. by rewrite H. Qed.
Lemma sees_depth k n lb : acc_at k n lb = true -> is_lnode lb = false -> everywhere n lb = true.
Proof. by destruct lb. Qed.

Lemma view_kids h x lb us : view h x (T lb us) -> Forall2 (view h) (kids h x) us.
Proof. by inversion 1. Qed.
Section loaded.
  Context (s1 : st) (root n0 : nat) (t : tree) (W : WF0 (heap s1)) (D : deep n0 (heap s1)) (Hr : n0 <= root) (Hd : o_depth <$> heap s1 !! root = Some 0) (V : view (heap s1) root t).
  Context (nm : string) (ts : list tree) (Ht : t = T (LNode nm) (sem_leaf SCognitiveEntity nm [("name", PStr nm)] :: ts)) (G : Forall good_kid ts).
  Notation h := (heap s1).
  Lemma loaded_nodes : nodes_ok t = true.
  Proof.
    subst t. cbn [nodes_ok forallb rt is_lnode negb orb andb sem_leaf]. apply forallb_forall. intros u Hu. rewrite Forall_forall in G. apply elem_of_list_In in Hu. apply G in Hu.
    apply andb_true_iff in Hu as [_ Hu]. by apply shaped_nodes.
  Qed.
  Lemma loaded_collect q acc : q_start q = root -> (forall x lb n, labelled h x lb -> at_depth h x lb n -> accepts (q_sees q) h x = acc n lb) ->
    exists ls, NoDup ls /\ (forall y, y ∈ ls <-> through (q_sees q) h root y) /\ Forall2 (view h) ls (visited acc 0 t).
  Proof.
    intros _ Hacc. apply (QConv3.collect h W n0 D (q_sees q) acc (sees_port q h) Hacc t root 0 V loaded_nodes Hr). by intros _.
  Qed.
  Lemma loaded_shaped acc : Forall (fun u => shaped u = true) (visited acc 0 t).
  Proof.
    subst t. cbn [visited flat_map]. apply Forall_app. split; [destruct (acc 1 _); [|constructor]; constructor; [done|constructor]|]. clear V. revert G. clear. induction 1 as [|u us Hu _ IH]; [constructor|]. cbn [flat_map]. apply Forall_app. split; [|apply IH; by inversion G].
    destruct (acc 1 (rt u)); [|constructor]. apply andb_true_iff in Hu as [_ Hu]. constructor; [done|]. by apply visited_shaped.
  Qed.
  (** A found element with its tree *)
  Lemma found_tree f acc ls y : (forall y, y ∈ ls <-> through f h root y) -> Forall2 (view h) ls (visited acc 0 t) -> through f h root y ->
    exists i u, ls !! i = Some y /\ visited acc 0 t !! i = Some u /\ view h y u /\ shaped u = true.
  Proof.
    intros L F Hy. apply L in Hy. apply elem_of_list_lookup in Hy as [i Hi]. destruct (Forall2_lookup_l _ _ _ _ _ F Hi) as (u & Hu & Vu). exists i, u. split; [done|]. split; [done|]. split; [done|].
    pose proof (loaded_shaped acc) as S. rewrite Forall_forall in S. apply S. apply elem_of_list_lookup. by exists i.
  Qed.
  Lemma view_kid x u y : view h x u -> parent_of h y = Some x -> kind_of h y <> Some KPort -> exists i v, kids h x !! i = Some y /\ subs u !! i = Some v /\ view h y v.
  Proof.
    intros Vx Hp Hk. inversion Vx as [x' lb us L F]; subst. assert (Hy : y ∈ kids h x) by (by apply (QConv3.kid_iff h W)). apply elem_of_list_lookup in Hy as [i Hi]. destruct (Forall2_lookup_l _ _ _ _ _ F Hi) as (v & Hv & Vv). by exists i, v.
  Qed.
  Lemma view_sem x u c : view h x u -> kind_of h x = Some (KSem c) -> exists nm' a us, u = T (LSem c nm' a) us.
  Proof.
    intros Vx Hk. inversion Vx as [x' lb us (o & Ho & L) F]; subst. unfold kind_of in Hk. rewrite Ho in Hk. cbn in Hk. injection Hk as Hk. destruct lb as [| | |c' nm' a|]; destruct L as (E & _); try congruence.
    assert (c' = c) as -> by congruence. by eexists _, _, _.
  Qed.
  Lemma view_rt x u : view h x u -> labelled h x (rt u).
  Proof. by destruct 1. Qed.
  Lemma view_rel x u : view h x u -> kind_of h x = Some KRel -> is_rel u.
  Proof.
    intros Vx Hk. apply view_rt in Vx as (o & Ho & L). unfold kind_of in Hk. rewrite Ho in Hk. cbn in Hk. injection Hk as Hk. unfold is_rel. destruct (rt u); destruct L as (E & _); try congruence. by eexists _, _, _.
  Qed.
  Lemma kid_of_shaped lb us i v : shaped (T lb us) = true -> us !! i = Some v -> kid_ok lb (bool_decide (i = 0)) (rt v) = true.
  Proof.
    cbn [shaped]. intros H Hi. apply andb_true_iff in H as [H _]. apply andb_true_iff in H as [H _]. destruct us as [|w us]; [done|]. cbn [kids_ok] in H. apply andb_true_iff in H as [H1 H2]. destruct i as [|i].
    - cbn in Hi. injection Hi as ->. done.
    - cbn in Hi. rewrite bool_decide_eq_false_2 by lia. rewrite forallb_forall in H2. apply H2. apply elem_of_list_In, elem_of_list_lookup. by exists i.
  Qed.
  Lemma root_kid y i v : kids h root !! i = Some y -> subs t !! i = Some v -> view h y v -> (i = 0 /\ exists a us, v = T (LSem SCognitiveEntity nm a) us) \/ kid_ok (LNode "") false (rt v) = true.
  Proof.
    intros _ Hv _. subst t. cbn [subs] in Hv. destruct i as [|i]; cbn in Hv; [left; injection Hv as <-; split; [done|]; by eexists _, _|]. right. rewrite Forall_forall in G.
    assert (Hin : v ∈ ts) by (apply elem_of_list_lookup; by exists i). apply G in Hin. by apply andb_true_iff in Hin as [? _].
  Qed.
  Lemma root_labelled : labelled h root (LNode nm).
  Proof. rewrite Ht in V. by inversion V. Qed.

  (** *** Links *)
  Lemma links_found f acc ls : (forall y, y ∈ ls <-> through f h root y) -> NoDup ls -> Forall2 (view h) ls (visited acc 0 t) ->
    (forall x nm a, labelled h x (LSem SKinematicLink nm a) -> accepts f h x = true) ->
    exists N, NoDup N /\ Forall2 (view h) N (List.filter sel_link (visited acc 0 t)) /\
      forall y, through f h root y /\ kind_of h y = Some (KSem SKinematicLink) <-> exists x, x ∈ N /\ head (kids h x) = Some y.
  Proof.
    intros L Nd F Ha. destruct (Forall2_sel (view h) sel_link ls (visited acc 0 t) F) as (N & Hs & Hnd & FN & K). exists N. split; [by apply Hnd|]. split; [done|]. intros y. split.
    - intros [Hy Hk]. apply through_last in Hy as (_ & p & Hp & Hpp). assert (Hkp : kind_of h y <> Some KPort) by (rewrite Hk; congruence). destruct Hpp as [->|Hpp].
      + exfalso. destruct (view_kid root t y V Hp Hkp) as (i & v & Hi & Hv & Vy). destruct (view_sem y v _ Vy Hk) as (nm' & a & us & ->). destruct (root_kid y i _ Hi Hv Vy) as [[_ (a' & us' & E)]|E]; [congruence|]. cbn in E. congruence.
      + destruct (found_tree f acc ls p L F Hpp) as (j & u & Hj & Hu & Vp & Su). destruct (view_kid p u y Vp Hp Hkp) as (i & v & Hi & Hv & Vy). destruct (view_sem y v _ Vy Hk) as (nm' & a & us & ->). destruct u as [lb ws].
        cbn [subs] in Hv. pose proof (kid_of_shaped _ _ _ _ Su Hv) as Ek. cbn [rt kid_ok] in Ek. apply andb_true_iff in Ek as [E1 E2]. apply bool_decide_eq_true in E2 as ->. exists p. split.
        * apply (K j p (T lb ws)); [done|done|]. destruct lb; try done. destruct ws as [|w ws]; [done|]. cbn in Hv. injection Hv as ->. done.
        * by rewrite head_lookup.
    - intros (x & Hx & Hy). pose proof Hx as Hx0. apply elem_of_list_lookup in Hx as [i Hi]. destruct (Forall2_lookup_l _ _ _ _ _ FN Hi) as (u & Hu & Vu).
      assert (Su : sel_link u = true). { assert (Hin : In u (List.filter sel_link (visited acc 0 t))) by (apply elem_of_list_In, elem_of_list_lookup; by exists i). by apply filter_In in Hin as [_ ?]. }
      assert (Tx : through f h root x) by (apply L; by apply Hs).
      destruct u as [[] [|[[| | |[] nm' a|] us] ws]]; try discriminate Su. inversion Vu as [x' lb us' Lx Fx]; subst. rewrite head_lookup in Hy. destruct (Forall2_lookup_l _ _ _ _ _ Fx Hy) as (v & Hv & Vv). cbn in Hv. injection Hv as <-.
      inversion Vv as [y' lb' us' Ly Fy]; subst. assert (Hpy : parent_of h y = Some x). { apply (QConv3.kid_iff h W). apply elem_of_list_lookup. by exists 0. } split; [eapply through_step; [exact Tx|done|by eapply Ha]|].
      destruct Ly as (o & Ho & Hko & _). unfold kind_of. by rewrite Ho, <- Hko.
  Qed.

  (** *** Joints *)
  Lemma joints_found f acc ls : (forall y, y ∈ ls <-> through f h root y) -> NoDup ls -> Forall2 (view h) ls (visited acc 0 t) ->
    (forall x c nm a, labelled h x (LSem c nm a) -> accepts f h x = true) -> (forall x d w q, labelled h x (LRel d w q) -> accepts f h x = true) ->
    exists E, NoDup E /\ Forall2 (view h) E (List.filter sel_joint (visited acc 0 t)) /\
      forall y, through f h root y /\ kind_of h y = Some (KSem SKinematicJoint) <-> exists e r, e ∈ E /\ r ∈ kids h e /\ head (kids h r) = Some y.
  Proof.
    intros L Nd F Ha Har. destruct (Forall2_sel (view h) sel_joint ls (visited acc 0 t) F) as (N & Hs & Hnd & FN & K). exists N. split; [by apply Hnd|]. split; [done|]. intros y. split.
    - intros [Hy Hk]. apply through_last in Hy as (_ & r & Hp & Hpp). assert (Hkp : kind_of h y <> Some KPort) by (rewrite Hk; congruence). destruct Hpp as [->|Hpp].
      + exfalso. destruct (view_kid root t y V Hp Hkp) as (i & v & Hi & Hv & Vy). destruct (view_sem y v _ Vy Hk) as (nm' & a & us & ->). destruct (root_kid y i _ Hi Hv Vy) as [[_ (a' & us' & E)]|E]; [congruence|]. cbn in E. congruence.
      + destruct (found_tree f acc ls r L F Hpp) as (j & u & Hj & Hu & Vp & Su). destruct (view_kid r u y Vp Hp Hkp) as (i & v & Hi & Hv & Vy). destruct (view_sem y v _ Vy Hk) as (nm' & a & us & ->). destruct u as [lb ws].
        cbn [subs] in Hv. pose proof (kid_of_shaped _ _ _ _ Su Hv) as Ek. cbn [rt kid_ok] in Ek. destruct lb as [| |d w q| |]; try discriminate Ek. apply bool_decide_eq_true in Ek as ->. destruct ws as [|w0 ws]; [done|]. cbn in Hv. injection Hv as ->.
        assert (Hkr0 : kind_of h r = Some KRel). { apply view_rt in Vp as (o & Ho & Lo & _). unfold kind_of. by rewrite Ho, <- Lo. }
        assert (Hkr : kind_of h r <> Some KPort) by (rewrite Hkr0; congruence).
        apply through_last in Hpp as (_ & e & He & Hpe). destruct Hpe as [->|Hpe].
        * exfalso. destruct (view_kid root t r V He Hkr) as (i & v & Hi' & Hv & Vr). destruct (view_rel r v Vr Hkr0) as (d' & w' & q' & Ev).
          destruct (root_kid r i _ Hi' Hv Vr) as [[_ (a' & us' & E)]|E]; [subst v; done|]. rewrite Ev in E. done.
        * destruct (found_tree f acc ls e L F Hpe) as (j' & ue & Hj' & Hue & Ve & Se). destruct (view_kid e ue r Ve He Hkr) as (i & v & Hi' & Hv & Vr). destruct ue as [lbe wse]. cbn [subs] in Hv.
          pose proof (view_rel r v Vr Hkr0) as Lk.
          destruct Lk as (d' & w' & q' & Lk). pose proof (kid_of_shaped _ _ _ _ Se Hv) as Ek. rewrite Lk in Ek. cbn in Ek. destruct lbe as [|en| | |]; try discriminate Ek.
          exists e, r. split; [|split; [apply elem_of_list_lookup; by exists i|by rewrite head_lookup]]. apply (K j' e (T (LEdge en) wse)); [done|done|]. cbn [sel_joint].
          cbn [shaped] in Se. apply andb_true_iff in Se as [Se _]. apply andb_true_iff in Se as [_ Se]. cbn [edge_ok] in Se. apply orb_true_iff in Se as [Se|Se]; [done|]. exfalso.
          rewrite forallb_forall in Se. specialize (Se v). rewrite negb_true_iff in Se. assert (joint_rel_tree v = true); [|rewrite Se in *; [done|apply elem_of_list_In, elem_of_list_lookup; by exists i]].
          destruct v as [lbv vs]. cbn [rt] in Lk. subst lbv. pose proof (view_kids _ _ _ _ Vr) as F2. destruct (Forall2_lookup_l _ _ _ _ _ F2 Hi) as (v' & Hv' & Vv'). destruct (view_sem y v' _ Vv' Hk) as (nm2 & a2 & us2 & ->).
          destruct vs; [done|]. cbn in Hv'. injection Hv' as ->. done.
    - intros (e & r & He & Hre & Hy). pose proof He as He0. apply elem_of_list_lookup in He as [i Hi]. destruct (Forall2_lookup_l _ _ _ _ _ FN Hi) as (u & Hu & Vu).
      assert (Su : sel_joint u = true). { assert (Hin : In u (List.filter sel_joint (visited acc 0 t))) by (apply elem_of_list_In, elem_of_list_lookup; by exists i). by apply filter_In in Hin as [_ ?]. }
      assert (Te : through f h root e) by (apply L; by apply Hs). destruct u as [[] us]; try discriminate Su. cbn in Su. rewrite forallb_forall in Su. pose proof (view_kids _ _ _ _ Vu) as Fx.
      pose proof Hre as Hre0. apply elem_of_list_lookup in Hre as [j Hj]. destruct (Forall2_lookup_l _ _ _ _ _ Fx Hj) as (v & Hv & Vv). assert (Sv : joint_rel_tree v = true) by (apply Su, elem_of_list_In, elem_of_list_lookup; by exists j).
      destruct v as [[] [|[[| | |[] nm' a|] ws'] ws]]; try discriminate Sv. pose proof (view_kids _ _ _ _ Vv) as Fr. pose proof (view_rt _ _ Vv) as Lr. rewrite head_lookup in Hy. destruct (Forall2_lookup_l _ _ _ _ _ Fr Hy) as (vy & Hvy & Vy). cbn in Hvy. injection Hvy as <-.
      pose proof (view_rt _ _ Vy) as Ly. assert (Hpy : parent_of h y = Some r). { apply (QConv3.kid_iff h W). apply elem_of_list_lookup. by exists 0. } assert (Hpr : parent_of h r = Some e) by (by apply (QConv3.kid_iff h W)).
      split; [eapply through_step; [eapply through_step; [exact Te|done|by eapply Har]|done|by eapply Ha]|]. destruct Ly as (o & Ho & Hko & _). unfold kind_of. by rewrite Ho, <- Hko.
  Qed.
  (** *** The entity *)
  Lemma entity_found f acc ls : (forall y, y ∈ ls <-> through f h root y) -> Forall2 (view h) ls (visited acc 0 t) ->
    (forall x c nm a, labelled h x (LSem c nm a) -> accepts f h x = true) ->
    exists z, name_of h z = nm /\ forall y, through f h root y /\ kind_of h y = Some (KSem SCognitiveEntity) <-> y = z.
  Proof.
    intros L F Ha. pose proof V as V'. rewrite Ht in V'. pose proof (view_kids _ _ _ _ V') as Fx. inversion Fx as [|z v zs vs Vz Fz Ez]. subst v vs. pose proof (view_rt _ _ Vz) as Ly. exists z. split; [destruct Ly as (o & Ho & _ & Hn & _); unfold name_of; by rewrite Ho|].
    assert (Hz : z ∈ kids h root) by (rewrite <- Ez; left). assert (Hpz : parent_of h z = Some root) by (by apply (QConv3.kid_iff h W)). assert (Hkz : kind_of h z = Some (KSem SCognitiveEntity)) by (destruct Ly as (o & Ho & Hko & _); unfold kind_of; by rewrite Ho, <- Hko). intros y. split.
    - intros [Hy Hk]. apply through_last in Hy as (_ & p & Hp & Hpp). assert (Hkp : kind_of h y <> Some KPort) by (rewrite Hk; congruence). destruct Hpp as [->|Hpp].
      + destruct (view_kid root _ y V' Hp Hkp) as (i & v0 & Hi & Hv & Vy). destruct (view_sem y v0 _ Vy Hk) as (nm' & a & us & ->). destruct i as [|i]; [rewrite <- Ez in Hi; cbn in Hi; congruence|]. cbn in Hv.
        exfalso. rewrite Forall_forall in G. assert (Hin : T (LSem SCognitiveEntity nm' a) us ∈ ts) by (apply elem_of_list_lookup; by exists i). apply G in Hin. unfold good_kid in Hin. cbn in Hin. discriminate Hin.
      + exfalso. destruct (found_tree f acc ls p L F Hpp) as (j & u & Hj & Hu & Vp & Su). destruct (view_kid p u y Vp Hp Hkp) as (i & v0 & Hi & Hv & Vy). destruct (view_sem y v0 _ Vy Hk) as (nm' & a & us & ->). destruct u as [lb ws].
        cbn [subs] in Hv. pose proof (kid_of_shaped _ _ _ _ Su Hv) as Ek. done.
    - intros ->. split; [|done]. apply through_kid; [exact Hpz|]. exact (Ha _ _ _ _ Ly).
  Qed.
End loaded.
