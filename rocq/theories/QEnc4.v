(** * Decoding a message of a sendable graph *)
From stdpp Require Import relations.
From Verif Require Import Spec Hierarchy Elements Factory History PDict PPath PExec PBfs PWF PAdd PMono PStep PRemove PReach PPrim PHist QHier QHier2 QHier3 QHier4 QHier5 QHier6 QFac SpecFac QFac2 SpecTrav QTrav QTrav2 QTrav3 QHom QTensor QEnc Encode SpecEnc QEnc2 QEnc3.

Lemma placed_none k ads l : (forall a, a ∈ ads -> a.1 <> l) -> placed k ads l = [].
Proof.
  revert k. induction ads as [|a ads IH]; intros k H; [done|]. cbn [placed]. rewrite decide_False by (apply H; left). cbn [app]. apply IH. intros. apply H. by right.
Qed.
Lemma children_fresh h l : ~ exists_in h l -> children h l = [].
Proof. intros H. unfold children. destruct (h !! l) eqn:E; [|done]. destruct H. by eexists. Qed.
Lemma forall2_right {A B} (P : A -> B -> Prop) l k y : Forall2 P l k -> y ∈ k -> exists x, x ∈ l /\ P x y.
Proof.
  induction 1 as [|a b l k Hab _ IH]; intros Hy; [inversion Hy|]. apply elem_of_cons in Hy as [->|Hy].
  - exists a. split; [left|done].
  - destruct (IH Hy) as (x & Hx & Hp). exists x. split; [by right|done].
Qed.
Lemma forall2_left {A B} (P : A -> B -> Prop) l k x : Forall2 P l k -> x ∈ l -> exists y, y ∈ k /\ P x y.
Proof.
  induction 1 as [|a b l k Hab _ IH]; intros Hy; [inversion Hy|]. apply elem_of_cons in Hy as [->|Hy].
  - exists b. split; [left|done].
  - destruct (IH Hy) as (y & Hx & Hp). exists y. split; [by right|done].
Qed.
Lemma filter_none {A} (P : A -> Prop) {D : forall x, Decision (P x)} (l : list A) : (forall x, x ∈ l -> ~ P x) -> filter P l = [].
Proof. induction l as [|a l IH]; intros H; [done|]. rewrite filter_cons, decide_False by (apply H; left). apply IH. intros. apply H. by right. Qed.
Lemma filter_all {A} (P : A -> Prop) {D : forall x, Decision (P x)} (l : list A) : (forall x, x ∈ l -> P x) -> filter P l = l.
Proof. induction l as [|a l IH]; intros H; [done|]. rewrite filter_cons, decide_True by (apply H; left). f_equal. apply IH. intros. apply H. by right. Qed.

Lemma Forall2_impl_in {A B} (P Q : A -> B -> Prop) l k : Forall2 P l k -> (forall x y, x ∈ l -> y ∈ k -> P x y -> Q x y) -> Forall2 Q l k.
Proof.
  induction 1 as [|a b l k Hab F IH]; intros H; [constructor|]. constructor; [apply H; [left|left|done]|]. apply IH. intros. apply H; [by right|by right|done].
Qed.

Section decode.
  Variables (s : st) (c : loc) (x : hom).
  Let h := heap s.
  Hypothesis (W : WF0 h) (G : sendable h c).
  Let u0 := uuid_of h c.
  Let N := nodes_of h c.
  Let E := edges_of h c.
  Let V := values_of h c.
  Let mnodes := map (mN s x (Some u0)) N.
  Let medges := map (mE s c x) E.
  Let mvalues := map (mV s c x) V.

  Lemma kind_kids k y : y ∈ fkids (is_kind k) h c -> exists q, kind_of h y = Some q /\ k q = true.
  Proof. intros H. apply fkids_el in H as (_ & o & Ho & Hk). exists (o_kind o). unfold kind_of. by rewrite Ho. Qed.
  Lemma kids_apart k k' y z : y ∈ fkids (is_kind k) h c -> z ∈ fkids (is_kind k') h c -> (forall q, k q = true -> k' q = true -> False) ->
    uuid_of h y <> uuid_of h z.
  Proof.
    intros Hy Hz Hk Hu. destruct (kind_kids _ _ Hy) as (q & Hq & K1). destruct (kind_kids _ _ Hz) as (q' & Hq' & K2).
    apply fkids_el in Hy as [Hy _]. apply fkids_el in Hz as [Hz _]. pose proof (same_uuid_child h c y z W Hy Hz Hu) as ->. apply (Hk q); congruence.
  Qed.
  Lemma kids_uuids k e : NoDup (map (uuid_of h) (fkids (is_kind k) h e)).
  Proof. apply map_filter_nodup. by apply child_uuids_nodup. Qed.
  Lemma kids_inj k y z : y ∈ fkids (is_kind k) h c -> z ∈ fkids (is_kind k) h c -> uuid_of h y = uuid_of h z -> y = z.
  Proof. intros Hy Hz. apply fkids_el in Hy as [Hy _]. apply fkids_el in Hz as [Hz _]. by apply (same_uuid_child h c). Qed.

  Variables (s2 : st) (g' : icon).
  Hypothesis (R2 : reach s2).
  Let c' := ic_clock g'.
  Let root := length (heap s2).

  (** The state after nodes and edges. *)
  Lemma skeleton : exists sR sN sE els1 els,
    decode_nodes c' (mN s x None c :: mnodes) [] None s2 = (Ok (els1, Some root), sN) /\
    decode_edges c' medges els1 sN = (Ok els, sE) /\
    reach sE /\ (exists t, heap sR = heap s2 ++ [s_time t (con_obj KNode u0 (name_of h c) (qn_of h c) c')]) /\
    grows (heap sR) (map (node_ad c' root) mnodes ++ map (edge_ad c' root) medges) (heap sE) /\
    dget u0 els = Some root /\ WF0 (heap sR) /\
    (forall n, n ∈ mnodes -> exists l, dget (mn_uuid n) els = Some l /\ made (heap sE) (node_ad c' root n) l) /\
    (forall n, n ∈ medges -> exists l, dget (me_uuid n) els = Some l /\ made (heap sE) (edge_ad c' root n) l).
  Proof.
    destruct (new_root_eq KNode (name_of h c) u0 (qn_of h c) c' s2) as (t & sR & E1 & H1). fold root in E1.
    assert (RR : reach sR).
    { eapply (reach_void s2 _ (ONew KNode (name_of h c) u0 (qn_of h c) (Some c') None)); [done| |reflexivity|exact E1]. done. }
    assert (HR : heap sR !! root = Some (s_time t (con_obj KNode u0 (name_of h c) (qn_of h c) c'))).
    { rewrite H1. unfold root. by rewrite lookup_app_r, Nat.sub_diag by lia. }
    assert (TR : target (heap sR) root) by (eexists; split; [exact HR|]; split; [by left|done]).
    assert (CR : children (heap sR) root = []) by (unfold children; by rewrite HR).
    assert (Hu1 : map mn_uuid mnodes = map (uuid_of h) N) by (unfold mnodes; by rewrite map_map).
    assert (Hu2 : map me_uuid medges = map (uuid_of h) E) by (unfold medges; by rewrite map_map).
    destruct (decode_nodes_ok c' u0 root mnodes sR (dset u0 root []) (Some root) RR TR) as (els1 & sN & D1 & RN & GN & K1 & K2).
    { apply dget_dset_eq. }
    { unfold mnodes. apply Forall_map. by apply Forall_true. }
    { rewrite Hu1. intros Hin. apply elem_of_list_fmap in Hin as (y & Hy & Hin). apply (sd_uuid _ _ G y); [apply elem_of_app; by left|done]. }
    { rewrite Hu1. apply kids_uuids. }
    { intros y n Hy. rewrite CR in Hy. inversion Hy. }
    assert (TN : target (heap sN) root) by (by eapply target_keep).
    destruct (decode_edges_ok c' u0 root medges sN els1 RN TN) as (els & sE & D2 & RE & GE & K3 & K4).
    { rewrite K1; [apply dget_dset_eq|]. rewrite Hu1. intros Hin. apply elem_of_list_fmap in Hin as (y & Hy & Hin). apply (sd_uuid _ _ G y); [apply elem_of_app; by left|done]. }
    { unfold medges. apply Forall_map. by apply Forall_true. }
    { rewrite Hu2. intros Hin. apply elem_of_list_fmap in Hin as (y & Hy & Hin). apply (sd_uuid _ _ G y); [apply elem_of_app; by right|done]. }
    { rewrite Hu2. apply kids_uuids. }
    { intros y n Hy Hn. rewrite (grows_children _ _ _ root GN), CR in Hy. cbn [app] in Hy.
      destruct (forall2_right _ _ _ _ (grows_placed _ _ _ root GN) Hy) as (a & Ha & Hm). apply elem_of_list_filter in Ha as [_ Ha].
      apply elem_of_list_fmap in Ha as (n1 & -> & Ha). apply elem_of_list_fmap in Ha as (z & -> & Hz). rewrite (made_uuid _ _ _ Hm). cbn.
      apply elem_of_list_fmap in Hn as (w & -> & Hw). cbn. eapply kids_apart; [exact Hz|exact Hw|]. by intros []. }
    exists sR, sN, sE, els1, els. split.
    { cbn [decode_nodes mN mn_name mn_uuid mn_qname mn_parent]. unfold new_node. fold h u0. rewrite (bind_ok _ _ _ _ _ E1). exact D1. }
    split; [done|]. split; [done|]. split; [by exists t|]. split; [by eapply grows_app|]. split.
    { rewrite K3, K1; [apply dget_dset_eq| |].
      - rewrite Hu1. intros Hin. apply elem_of_list_fmap in Hin as (y & Hy & Hin). apply (sd_uuid _ _ G y); [apply elem_of_app; by left|done].
      - rewrite Hu2. intros Hin. apply elem_of_list_fmap in Hin as (y & Hy & Hin). apply (sd_uuid _ _ G y); [apply elem_of_app; by right|done]. }
    split; [by apply reach_wf|]. split; [|exact K4].
    intros n Hn. destruct (K2 n Hn) as (l & Hl & Hm). exists l. split; [|by eapply made_keep].
    rewrite K3; [done|]. rewrite Hu2. intros Hin. apply elem_of_list_fmap in Hin as (w & Hw & Hin). apply elem_of_list_fmap in Hn as (z & -> & Hz). cbn in Hw.
    eapply (kids_apart k_node k_edge z w); [exact Hz|exact Hin| |exact Hw]. by intros [].
  Qed.

  (** From here on: a fixed skeleton. *)
  Variables (sR sE : st) (els : dict uid loc) (t0 : Z).
  Hypothesis (RE : reach sE) (HR : heap sR = heap s2 ++ [s_time t0 (con_obj KNode u0 (name_of h c) (qn_of h c) c')]).
  Let ads1 := map (node_ad c' root) mnodes ++ map (edge_ad c' root) medges.
  Hypothesis (G1 : grows (heap sR) ads1 (heap sE)).
  Hypothesis (D0 : dget u0 els = Some root) (WR : WF0 (heap sR)).
  Hypothesis (DN : forall n, n ∈ mnodes -> exists l, dget (mn_uuid n) els = Some l /\ made (heap sE) (node_ad c' root n) l).
  Hypothesis (DE : forall n, n ∈ medges -> exists l, dget (me_uuid n) els = Some l /\ made (heap sE) (edge_ad c' root n) l).

  Lemma root_new : ~ exists_in (heap s2) root.
  Proof. rewrite exists_in_lt. unfold root. lia. Qed.
  Lemma root_obj : heap sR !! root = Some (s_time t0 (con_obj KNode u0 (name_of h c) (qn_of h c) c')).
  Proof. rewrite HR. unfold root. by rewrite lookup_app_r, Nat.sub_diag by lia. Qed.
  Lemma root_R : exists_in (heap sR) root.
  Proof. eexists. exact root_obj. Qed.
  Lemma root_kids : children (heap sR) root = [].
  Proof. unfold children. by rewrite root_obj. Qed.
  Lemma root_E : target (heap sE) root.
  Proof. eapply target_keep; [exact G1|]. eexists. split; [exact root_obj|]. split; [by left|done]. Qed.
  Lemma R_old l : exists_in (heap s2) l -> heap sR !! l = heap s2 !! l.
  Proof. intros H. apply exists_in_lt in H. rewrite HR. by rewrite lookup_app_l. Qed.
  Lemma R_new l : ~ exists_in (heap s2) l -> exists_in (heap sR) l -> l = root.
  Proof. rewrite !exists_in_lt. rewrite HR, app_length. cbn. unfold root. lia. Qed.
  (** below the root: new *)
  Lemma below_new ads h3 a l : grows (heap sR) ads h3 -> made h3 a l -> a.1 = root -> ~ exists_in (heap sR) l.
  Proof.
    intros G3 [_ Hm] Ha Hl. rewrite (grows_parent _ _ _ _ G3 Hl), Ha in Hm. destruct (decide (exists_in (heap s2) l)) as [H|H].
    - assert (Hp : parent_of (heap s2) l = Some root) by (unfold parent_of in *; by rewrite (R_old l H) in Hm).
      apply root_new. by eapply wf0_parent_exists; [apply reach_wf|].
    - rewrite (R_new l H Hl) in Hm. unfold parent_of in Hm. by rewrite root_obj in Hm.
  Qed.
  Lemma edge_loc e : e ∈ E -> exists l, dget (uuid_of h e) els = Some l /\ made (heap sE) (edge_ad c' root (mE s c x e)) l.
  Proof. intros He. apply (DE (mE s c x e)). by apply elem_of_list_fmap_1. Qed.
  Lemma node_loc n : n ∈ N -> exists l, dget (uuid_of h n) els = Some l /\ made (heap sE) (node_ad c' root (mN s x (Some u0) n)) l.
  Proof. intros Hn. apply (DN (mN s x (Some u0) n)). by apply elem_of_list_fmap_1. Qed.
  Lemma ads1_root a : a ∈ ads1 -> a.1 = root.
  Proof.
    intros Ha. apply elem_of_app in Ha as [Ha|Ha]; apply elem_of_list_fmap in Ha as (n & -> & _); done.
  Qed.
  Lemma edge_empty e l : made (heap sE) (edge_ad c' root (mE s c x e)) l -> children (heap sE) l = [].
  Proof.
    intros Hm. pose proof (below_new _ _ _ _ G1 Hm eq_refl) as Hl. rewrite (grows_children _ _ _ l G1), children_fresh by done. cbn [app].
    apply placed_none. intros a Ha Hal. rewrite (ads1_root a Ha) in Hal. apply Hl. rewrite <- Hal. exact root_R.
  Qed.
  Lemma mRs_el r : r ∈ mRs s c -> exists e l, e ∈ E /\ l ∈ rels_of h e /\ r = mR s e l.
  Proof. intros Hr. apply elem_of_flat_map in Hr as (e & He & Hr). apply elem_of_list_fmap in Hr as (l & -> & Hl). by exists e, l. Qed.
  Lemma rel_target e l : e ∈ E -> exists e', dget (uuid_of h e) els = Some e' /\ made (heap sE) (edge_ad c' root (mE s c x e)) e' /\ (rel_ad els (mR s e l)).1 = e'.
  Proof. intros He. destruct (edge_loc e He) as (e' & H1 & H2). exists e'. split; [done|]. split; [done|]. cbn. fold h. by rewrite H1. Qed.
  Lemma all_found : Forall (rel_found (heap sE) els) (mRs s c).
  Proof.
    apply Forall_forall. intros r Hr. destruct (mRs_el r Hr) as (e & l & He & Hl & ->). destruct (edge_loc e He) as (e' & H1 & H2).
    destruct (sd_ep _ _ G e l He Hl) as (p & y & P1 & P2 & P3). unfold rel_found. cbn [mr_parent mr_ep mR]. fold h. unfold ep_uuid_of. rewrite P1. cbn [fmap option_fmap option_map default from_option id].
    rewrite P3. exists e'.
    assert (T : target (heap sE) e') by (eapply target_made; [exact H2|by right|done]).
    apply elem_of_cons in P2 as [->|P2].
    - exists root. fold u0. split; [done|]. split; [done|]. split; [done|]. destruct root_E as (o & Ho & _). by eexists.
    - apply elem_of_app in P2 as [P2|P2].
      + destruct (node_loc y P2) as (n' & N1 & N2). exists n'. split; [done|]. split; [done|]. split; [done|]. by eapply made_exists.
      + destruct (edge_loc y P2) as (n' & N1 & N2). exists n'. split; [done|]. split; [done|]. split; [done|]. by eapply made_exists.
  Qed.
  Lemma nodup_flat {A B} (f : A -> list B) l : NoDup l -> (forall a, a ∈ l -> NoDup (f a)) ->
    (forall a b y, a ∈ l -> b ∈ l -> y ∈ f a -> y ∈ f b -> a = b) -> NoDup (flat_map f l).
  Proof.
    induction l as [|a l IH]; intros Hl Hf Hd; [constructor|]. apply NoDup_cons in Hl as [Ha Hl]. cbn [flat_map]. apply NoDup_app. split; [apply Hf; left|]. split.
    - intros y Hy Hy'. apply elem_of_flat_map in Hy' as (b & Hb & Hy'). assert (a = b) as -> by (eapply Hd; [left|by right|done|done]). done.
    - apply IH; [done| |]. + intros. apply Hf. by right. + intros b b' y Hb Hb'. apply Hd; by right.
  Qed.
  Lemma rels_nodup : NoDup (map (fun r => ((rel_ad els r).1, mr_uuid r)) (mRs s c)).
  Proof.
    assert (Eq : map (fun r => ((rel_ad els r).1, mr_uuid r)) (mRs s c) =
      flat_map (fun e => map (fun l => (default 0 (dget (uuid_of h e) els), uuid_of h l)) (rels_of h e)) E).
    { unfold mRs. fold h E. generalize E. intros es. induction es as [|e es IH]; [done|]. cbn [flat_map]. rewrite map_app, IH. f_equal. rewrite map_map. done. }
    rewrite Eq. apply nodup_flat.
    - eapply NoDup_fmap_1 with (f := uuid_of h). apply kids_uuids.
    - intros e He. eapply NoDup_fmap_1 with (f := snd). change (NoDup (map snd (map (fun l => (default 0 (dget (uuid_of h e) els), uuid_of h l)) (rels_of h e)))). rewrite map_map. cbn [snd]. apply kids_uuids.
    - intros e1 e2 y He1 He2 H1 H2. apply elem_of_list_fmap in H1 as (l1 & -> & _). apply elem_of_list_fmap in H2 as (l2 & H2 & _).
      injection H2 as H2 _. destruct (edge_loc e1 He1) as (p1 & P1 & M1). destruct (edge_loc e2 He2) as (p2 & P2 & M2). rewrite P1, P2 in H2. cbn in H2. subst p2.
      eapply kids_inj; [exact He1|exact He2|]. pose proof (made_uuid _ _ _ M1) as Q1. pose proof (made_uuid _ _ _ M2) as Q2. rewrite Q1 in Q2. exact Q2.
  Qed.
  Lemma rels_decoded : exists sL, decode_rels (mRs s c) els sE = (Ok tt, sL) /\ reach sL /\ grows (heap sE) (map (rel_ad els) (mRs s c)) (heap sL).
  Proof.
    apply decode_rels_ok; [done|exact all_found|exact rels_nodup|].
    intros r y Hr Hy. destruct (mRs_el r Hr) as (e & l & He & Hl & ->). destruct (rel_target e l He) as (e' & H1 & H2 & H3). rewrite H3, (edge_empty _ _ H2) in Hy. inversion Hy.
  Qed.
  Lemma rel_not_root sL a l : grows (heap sE) (map (rel_ad els) (mRs s c)) (heap sL) -> a ∈ map (rel_ad els) (mRs s c) -> a.1 = l ->
    exists e, e ∈ E /\ made (heap sE) (edge_ad c' root (mE s c x e)) l /\ l <> root.
  Proof.
    intros GL Ha Hl. apply elem_of_list_fmap in Ha as (r & -> & Hr). destruct (mRs_el r Hr) as (e & k & He & Hk & ->).
    destruct (rel_target e k He) as (e' & H1 & H2 & H3). rewrite H3 in Hl. subst e'. exists e. split; [done|]. split; [done|]. intros ->.
    apply (below_new _ _ _ _ G1 H2 eq_refl). exact root_R.
  Qed.
  Lemma values_decoded sL : reach sL -> grows (heap sE) (map (rel_ad els) (mRs s c)) (heap sL) ->
    exists s3, decode_values mvalues els sL = (Ok tt, s3) /\ reach s3 /\ grows (heap sL) (map (value_ad root) mvalues) (heap s3).
  Proof.
    intros RL GL. apply (decode_values_ok u0 root els D0); [done|eapply target_keep; [exact GL|exact root_E]| | |].
    - unfold mvalues. apply Forall_map. by apply Forall_true.
    - unfold mvalues. rewrite map_map. cbn. apply kids_uuids.
    - intros y n Hy Hn. rewrite (grows_children _ _ _ root GL) in Hy. rewrite placed_none in Hy.
      2:{ intros a Ha Hr. by destruct (rel_not_root sL a root GL Ha Hr) as (e & _ & _ & ?). }
      rewrite app_nil_r, (grows_children _ _ _ root G1), root_kids in Hy. cbn [app] in Hy.
      destruct (forall2_right _ _ _ _ (grows_placed _ _ _ root G1) Hy) as (a & Ha & Hm). apply elem_of_list_filter in Ha as [_ Ha].
      apply elem_of_list_fmap in Hn as (w & -> & Hw). cbn.
      assert (Hu : uuid_of (heap sL) y = o_uuid a.2) by (apply made_uuid; by eapply made_keep). rewrite Hu.
      apply elem_of_app in Ha as [Ha|Ha]; apply elem_of_list_fmap in Ha as (n1 & -> & Ha); apply elem_of_list_fmap in Ha as (z & -> & Hz); cbn.
      + eapply (kids_apart k_node k_value); [exact Hz|exact Hw|]. by intros [].
      + eapply (kids_apart k_edge k_value); [exact Hz|exact Hw|]. by intros [].
  Qed.
  (** ** The result *)
  Variables (s3 : st).
  Let h3 := heap s3.
  Let adsR := map (rel_ad els) (mRs s c).
  Let adsV := map (value_ad root) mvalues.
  Hypothesis (GL3 : grows (heap sE) (adsR ++ adsV) h3) (R3 : reach s3).
  Lemma G3 : grows (heap sR) (ads1 ++ adsR ++ adsV) h3.
  Proof. by eapply grows_app. Qed.
  Lemma W3 : WF0 h3.
  Proof. by apply reach_wf. Qed.
  Lemma adsR_target a : a ∈ adsR -> exists e, e ∈ E /\ made h3 (edge_ad c' root (mE s c x e)) a.1 /\ ~ exists_in (heap sR) a.1.
  Proof.
    intros Ha. apply elem_of_list_fmap in Ha as (r & -> & Hr). destruct (mRs_el r Hr) as (e & k & He & Hk & ->).
    destruct (rel_target e k He) as (e' & H1 & H2 & H3). rewrite H3. exists e. split; [done|]. split; [by eapply made_keep|].
    by apply (below_new _ _ _ _ G1 H2).
  Qed.
  Lemma adsV_root a : a ∈ adsV -> a.1 = root.
  Proof. intros Ha. by apply elem_of_list_fmap in Ha as (n & -> & _). Qed.
  Lemma leaf l : ~ exists_in (heap sR) l -> kind_of h3 l <> Some KEdge -> children h3 l = [].
  Proof.
    intros Hl Hk. rewrite (grows_children _ _ _ l G3), children_fresh by done. cbn [app]. apply placed_none. intros a Ha Hal.
    apply elem_of_app in Ha as [Ha|Ha]; [|apply elem_of_app in Ha as [Ha|Ha]].
    - rewrite (ads1_root a Ha) in Hal. apply Hl. rewrite <- Hal. exact root_R.
    - destruct (adsR_target a Ha) as (e & _ & Hm & _). apply Hk. rewrite <- Hal. by rewrite (made_kind _ _ _ Hm).
    - rewrite (adsV_root a Ha) in Hal. apply Hl. rewrite <- Hal. exact root_R.
  Qed.
  Lemma top : exists P1 P2 P3, children h3 root = P1 ++ P2 ++ P3 /\
    Forall2 (fun n l => made h3 (node_ad c' root (mN s x (Some u0) n)) l) N P1 /\
    Forall2 (fun n l => made h3 (edge_ad c' root (mE s c x n)) l) E P2 /\
    Forall2 (fun n l => made h3 (value_ad root (mV s c x n)) l) V P3.
  Proof.
    pose proof (grows_children _ _ _ root G3) as Hc. rewrite root_kids in Hc. cbn [app] in Hc.
    pose proof (grows_placed _ _ _ root G3) as Hp. rewrite <- Hc in Hp. rewrite !filter_app in Hp.
    rewrite (filter_all _ ads1) in Hp by (intros a Ha; by apply ads1_root).
    rewrite (filter_none _ adsR) in Hp. 2:{ intros a Ha Hal. destruct (adsR_target a Ha) as (e & _ & _ & Hn). apply Hn. rewrite Hal. exact root_R. }
    rewrite (filter_all _ adsV) in Hp by (intros a Ha; by apply adsV_root). cbn [app] in Hp. unfold ads1 in Hp. rewrite <- app_assoc in Hp.
    apply Forall2_app_inv_l in Hp as (P1 & P2' & F1 & Hp & HP). apply Forall2_app_inv_l in Hp as (P2 & P3 & F2 & F3 & HP2). subst P2'.
    exists P1, P2, P3. split; [done|]. unfold mnodes, medges, adsV, mvalues in F1, F2, F3. rewrite !map_map in F1, F2, F3.
    split; [exact (proj1 (Forall2_fmap_l _ _ _ _) F1)|split; [exact (proj1 (Forall2_fmap_l _ _ _ _) F2)|exact (proj1 (Forall2_fmap_l _ _ _ _) F3)]].
  Qed.
  Lemma select (k : kind -> bool) q P : (forall l, l ∈ P -> kind_of h3 l = Some q) -> filter (fun l => accepts (is_kind k) h3 l = true) P = if k q then P else [].
  Proof.
    intros H. destruct (k q) eqn:Ek; [apply filter_all|apply filter_none]; intros l Hl; specialize (H l Hl); unfold kind_of, accepts, is_kind in *;
      destruct (h3 !! l) as [o|]; try done; injection H as ->; congruence.
  Qed.
  Lemma kind_right {A} (f : A -> loc * obj) q ns P : Forall2 (fun n l => made h3 (f n) l) ns P -> (forall n, o_kind (f n).2 = q) -> forall l, l ∈ P -> kind_of h3 l = Some q.
  Proof. intros F Hq l Hl. destruct (forall2_right _ _ _ _ F Hl) as (n & _ & Hm). by rewrite (made_kind _ _ _ Hm), Hq. Qed.
  Lemma tops : exists P1 P2 P3, children h3 root = P1 ++ P2 ++ P3 /\ nodes_of h3 root = P1 /\ edges_of h3 root = P2 /\ values_of h3 root = P3 /\
    Forall2 (fun n l => made h3 (node_ad c' root (mN s x (Some u0) n)) l) N P1 /\
    Forall2 (fun n l => made h3 (edge_ad c' root (mE s c x n)) l) E P2 /\
    Forall2 (fun n l => made h3 (value_ad root (mV s c x n)) l) V P3.
  Proof.
    destruct top as (P1 & P2 & P3 & Hc & F1 & F2 & F3). exists P1, P2, P3. split; [done|].
    pose proof (kind_right _ KNode _ _ F1 (fun _ => eq_refl)) as K1. pose proof (kind_right _ KEdge _ _ F2 (fun _ => eq_refl)) as K2.
    pose proof (kind_right _ KValue _ _ F3 (fun _ => eq_refl)) as K3.
    unfold nodes_of, edges_of, values_of, fkids. rewrite Hc, !filter_app.
    rewrite !(select _ KNode P1), !(select _ KEdge P2), !(select _ KValue P3) by done. cbn. rewrite !app_nil_r. done.
  Qed.
  Lemma loc_of y : y ∈ c :: N ++ E -> exists l, dget (uuid_of h y) els = Some l /\ uuid_of h3 l = uuid_of h y /\ l ∈ root :: nodes_of h3 root ++ edges_of h3 root.
  Proof.
    intros Hy. apply elem_of_cons in Hy as [->|Hy].
    - exists root. split; [done|]. split; [|left]. unfold uuid_of at 1. rewrite (fixed_get o_uuid h3 root (s_time t0 (con_obj KNode u0 (name_of h c) (qn_of h c) c')) (fun _ => eq_refl)).
      + done.
      + rewrite (grows_fixed _ _ _ _ G3 root_R), root_obj. done.
    - assert (K : forall k a l, made (heap sE) a l -> a.1 = root -> k (o_kind a.2) = true -> l ∈ fkids (is_kind k) h3 root).
      { intros k a l Hm Ha Hk. apply (made_keep _ _ _ _ _ GL3) in Hm. apply elem_of_list_filter. split.
        - pose proof (made_kind _ _ _ Hm) as Hq. unfold kind_of in Hq. unfold accepts, is_kind. destruct (h3 !! l); [|done]. injection Hq as ->. done.
        - apply wf0_parent; [exact W3|by eapply made_exists|]. destruct Hm as [_ Hm]. by rewrite Hm, Ha. }
      apply elem_of_app in Hy as [Hy|Hy].
      + destruct (node_loc y Hy) as (l & H1 & H2). exists l. split; [done|]. split; [by rewrite (made_uuid _ _ _ (made_keep _ _ _ _ _ GL3 H2))|].
        right. apply elem_of_app. left. by eapply K.
      + destruct (edge_loc y Hy) as (l & H1 & H2). exists l. split; [done|]. split; [by rewrite (made_uuid _ _ _ (made_keep _ _ _ _ _ GL3 H2))|].
        right. apply elem_of_app. right. by eapply K.
  Qed.
  (** The relations of one edge. *)
  Lemma edge_rels e e' : e ∈ E -> made h3 (edge_ad c' root (mE s c x e)) e' ->
    Forall2 (fun r l => made h3 (rel_ad els (mR s e r)) l) (rels_of h e) (children h3 e').
  Proof.
    intros He Hm. pose proof (below_new _ _ _ _ G3 Hm eq_refl) as Hn.
    pose proof (grows_children _ _ _ e' G3) as Hc. rewrite (children_fresh (heap sR)) in Hc by done. cbn [app] in Hc.
    pose proof (grows_placed _ _ _ e' G3) as Hp. rewrite <- Hc in Hp. rewrite !filter_app in Hp.
    rewrite (filter_none _ ads1) in Hp. 2:{ intros a Ha Hal. rewrite (ads1_root a Ha) in Hal. apply Hn. rewrite <- Hal. exact root_R. }
    rewrite (filter_none _ adsV) in Hp. 2:{ intros a Ha Hal. rewrite (adsV_root a Ha) in Hal. apply Hn. rewrite <- Hal. exact root_R. }
    cbn [app] in Hp. rewrite app_nil_r in Hp.
    assert (Hin : e' ∈ children h3 root). { apply wf0_parent; [exact W3|by eapply made_exists|]. by destruct Hm. }
    assert (Ef : filter (fun a => a.1 = e') adsR = map (rel_ad els) (map (mR s e) (rels_of h e))).
    { assert (Hd : forall e1, e1 ∈ E -> (default 0 (dget (uuid_of h e1) els) = e' <-> e1 = e)).
      { intros e1 He1. destruct (edge_loc e1 He1) as (l & H1 & H2). apply (made_keep _ _ _ _ _ GL3) in H2. rewrite H1. cbn [default from_option id]. split.
        - intros ->. eapply kids_inj; [exact He1|exact He|]. pose proof (made_uuid _ _ _ Hm) as Q1. rewrite (made_uuid _ _ _ H2) in Q1. exact Q1.
        - intros ->. eapply (same_uuid_child h3 root); [exact W3| |done|].
          + apply wf0_parent; [exact W3|by eapply made_exists|]. by destruct H2.
          + by rewrite (made_uuid _ _ _ H2), (made_uuid _ _ _ Hm). }
      assert (Hnd : NoDup E) by (eapply NoDup_fmap_1 with (f := uuid_of h); apply kids_uuids).
      unfold adsR, mRs. fold h E. clear -Hd Hnd He. induction E as [|e1 es IH]; [inversion He|]. apply NoDup_cons in Hnd as [Hn1 Hnd].
      cbn [flat_map]. rewrite map_app, filter_app. apply elem_of_cons in He as [->|He].
      - rewrite filter_all. 2:{ intros a Ha. apply elem_of_list_fmap in Ha as (r & -> & Hr). apply elem_of_list_fmap in Hr as (l & -> & _). cbn. apply Hd; [left|done]. }
        rewrite filter_none; [by rewrite app_nil_r|]. intros a Ha Hal. apply elem_of_list_fmap in Ha as (r & -> & Hr). apply elem_of_flat_map in Hr as (e2 & He2 & Hr).
        apply elem_of_list_fmap in Hr as (l & -> & _). cbn in Hal. apply Hd in Hal; [|by right]. by subst.
      - rewrite filter_none. 2:{ intros a Ha Hal. apply elem_of_list_fmap in Ha as (r & -> & Hr). apply elem_of_list_fmap in Hr as (l & -> & _). cbn in Hal. apply Hd in Hal; [|left]. by subst. }
        cbn [app]. apply IH; [done| |done]. intros e2 He2. apply Hd. by right. }
    rewrite Ef, map_map in Hp. exact (proj1 (Forall2_fmap_l _ _ _ _) Hp).
  Qed.
  Lemma made_copy k y a l : made h3 a l -> o_kind a.2 = k -> kind_of h y = Some k -> o_uuid a.2 = uuid_of h y -> o_name a.2 = name_of h y -> copy_of h h3 y l.
  Proof. intros Hm Hk Hy Hu Hn. split; [by rewrite (made_kind _ _ _ Hm), Hk, Hy|]. split; [by rewrite (made_uuid _ _ _ Hm), Hu|by rewrite (made_name _ _ _ Hm), Hn]. Qed.
  Lemma kind_exact k q y a : (forall q', k q' = true -> q' = q) -> y ∈ fkids (is_kind k) h a -> kind_of h y = Some q.
  Proof. intros Hk Hy. apply fkids_el in Hy as (_ & o & Ho & H). unfold kind_of. rewrite Ho. cbn. f_equal. by apply Hk. Qed.
  Lemma edge_copy e e' : e ∈ E -> made h3 (edge_ad c' root (mE s c x e)) e' ->
    copy_of h h3 e e' /\ children h3 e' = rels_of h3 e' /\
      Forall2 (fun r r' => copy_of h h3 r r' /\ ep_uuid_of h3 r' = ep_uuid_of h r /\ children h3 r' = [] /\
         exists p, ep_of h3 r' = Some p /\ p ∈ root :: nodes_of h3 root ++ edges_of h3 root) (rels_of h e) (rels_of h3 e').
  Proof.
    intros He Hm. split. { eapply made_copy; [exact Hm|reflexivity| |done|done]. eapply kind_exact; [|exact He]. by intros []. }
    pose proof (edge_rels e e' He Hm) as F. assert (Eq : rels_of h3 e' = children h3 e').
    { unfold rels_of, fkids. rewrite (select k_rel KRel); [done|]. intros l Hl. destruct (forall2_right _ _ _ _ F Hl) as (r & _ & Hr). by rewrite (made_kind _ _ _ Hr). }
    split; [done|]. rewrite Eq. eapply Forall2_impl_in; [exact F|]. intros r r' Hr _ Hmr. cbn beta in Hmr.
    split. { eapply made_copy; [exact Hmr|reflexivity| |done|done]. eapply kind_exact; [|exact Hr]. by intros []. }
    destruct (sd_ep _ _ G e r He Hr) as (p & y & P1 & P2 & P3). destruct (loc_of y P2) as (l & L1 & L2 & L3).
    assert (Hep : ep_of h3 r' = Some l).
    { pose proof (made_get o_endpoint _ _ _ (fun _ => eq_refl) Hmr) as Q. cbn in Q. fold h in Q. unfold ep_uuid_of in Q. rewrite P1 in Q. cbn in Q. rewrite P3, L1 in Q.
      unfold ep_of. destruct (h3 !! r'); [|done]. cbn in *. by injection Q. }
    split; [unfold ep_uuid_of; rewrite Hep, P1; cbn; by rewrite L2, P3|]. split; [|by exists l].
    pose proof (below_new _ _ _ _ G3 Hm eq_refl) as Hn. destruct (rel_target e r He) as (e1 & T1 & T2 & T3).
    assert (e1 = e') as ->.
    { apply (made_keep _ _ _ _ _ GL3) in T2. eapply (same_uuid_child h3 root); [exact W3| | |].
      - apply wf0_parent; [exact W3|by eapply made_exists|]. by destruct T2.
      - apply wf0_parent; [exact W3|by eapply made_exists|]. by destruct Hm.
      - by rewrite (made_uuid _ _ _ T2), (made_uuid _ _ _ Hm). }
    apply leaf; [|by rewrite (made_kind _ _ _ Hmr)]. intros Hl. destruct Hmr as [_ Hpar]. rewrite (grows_parent _ _ _ _ G3 Hl), T3 in Hpar.
    apply Hn. by eapply wf0_parent_exists.
  Qed.
  Lemma result : decoded h c (heap s2) h3 root.
  Proof.
    destruct tops as (P1 & P2 & P3 & Hc & H1 & H2 & H3 & F1 & F2 & F3). split.
    - intros l Hl. rewrite <- (R_old l Hl). apply (grows_exact _ _ _ l G3).
      + destruct Hl as [o Ho]. exists o. rewrite R_old; [done|by eexists].
      + intros a Ha Hal. apply elem_of_app in Ha as [Ha|Ha]; [|apply elem_of_app in Ha as [Ha|Ha]].
        * rewrite (ads1_root a Ha) in Hal. apply root_new. by rewrite Hal.
        * destruct (adsR_target a Ha) as (e & _ & _ & Hn). rewrite Hal in Hn. apply Hn. destruct Hl as [o Ho]. exists o. rewrite R_old; [done|by eexists].
        * rewrite (adsV_root a Ha) in Hal. apply root_new. by rewrite Hal.
    - intros l Hl He. destruct (decide (exists_in (heap sR) l)) as [Hr|Hr]; [left; by apply R_new|right].
      destruct (grows_new_inv _ _ _ l G3 Hr He) as (a & Ha & [_ Hm]).
      apply elem_of_app in Ha as [Ha|Ha]; [|apply elem_of_app in Ha as [Ha|Ha]].
      + rewrite (ads1_root a Ha) in Hm. by apply anc_parent.
      + destruct (adsR_target a Ha) as (e & _ & [_ Hm'] & _). eapply anc_up; [exact Hm|]. by apply anc_parent.
      + rewrite (adsV_root a Ha) in Hm. by apply anc_parent.
    - split; [exact root_new|].
      assert (Q : forall {A} (f : obj -> A), (forall o, f (fixed_part o) = f o) -> f <$> h3 !! root = Some (f (s_time t0 (con_obj KNode u0 (name_of h c) (qn_of h c) c')))).
      { intros A f Hf. apply fixed_get; [done|]. by rewrite (grows_fixed _ _ _ _ G3 root_R), root_obj. }
      split; [split; [|split]|].
      + rewrite (sd_node _ _ G). unfold kind_of. by rewrite (Q _ o_kind).
      + unfold uuid_of at 1. by rewrite (Q _ o_uuid).
      + unfold name_of at 1. by rewrite (Q _ o_name).
      + rewrite (grows_parent _ _ _ _ G3 root_R). unfold parent_of. by rewrite root_obj.
    - by rewrite Hc, H1, H2, H3.
    - rewrite H1. eapply Forall2_impl_in; [exact F1|]. intros n n' Hn _ Hm. cbn beta in Hm. split.
      + eapply made_copy; [exact Hm|reflexivity| |done|done]. eapply kind_exact; [|exact Hn]. by intros [].
      + apply leaf; [by eapply below_new; [exact G3|exact Hm|]|by rewrite (made_kind _ _ _ Hm)].
    - rewrite <- H2 in F2. eapply Forall2_impl_in; [exact F2|]. intros n n' Hn _ Hm. by apply edge_copy.
    - rewrite H3. eapply Forall2_impl_in; [exact F3|]. intros n n' Hn _ Hm. cbn beta in Hm. split; [|split].
      + eapply made_copy; [exact Hm|reflexivity| |done|done]. eapply kind_exact; [|exact Hn]. by intros [].
      + unfold vals_of at 1. by rewrite (made_get o_vals _ _ _ (fun _ => eq_refl) Hm).
      + apply leaf; [by eapply below_new; [exact G3|exact Hm|]|by rewrite (made_kind _ _ _ Hm)].
  Qed.
End decode.
