(** * Decoding: the four loops *)
From stdpp Require Import relations.
From Verif Require Import Spec Hierarchy Elements Factory History PDict PPath PExec PBfs PWF PAdd PMono PStep PRemove PReach PPrim PHist QHier QHier2 QHier3 QHier4 QHier5 QHier6 QFac SpecFac QFac2 QEnc Encode SpecEnc.

Lemma step1_time h h' p c o t : step1 h h' p c (s_time t o) -> step1 h h' p c o.
Proof. intros [[] ? ? ? ? ?]. split; [|done..]. by split. Qed.
Lemma alter_last {A} (f : A -> A) (h : list A) o : alter f (length h) (h ++ [o]) = h ++ [f o].
Proof. induction h as [|a h IH]; [done|]. change ((a :: h) ++ [o]) with (a :: (h ++ [o])). cbn [length]. unfold alter, list_alter in *. by rewrite IH. Qed.
Lemma con_plain k u nm prog c t : is_conceptual k = true -> plain_new (s_time t (con_obj k u nm prog c)).
Proof. intros Hk. split; try done. simpl. by intros ->. Qed.

Lemma new_root_eq k nm u prog c s : exists t s1, new_conceptual k nm u prog (Some c) None s = (Ok (length (heap s)), s1) /\
  heap s1 = heap s ++ [s_time t (con_obj k u nm prog c)].
Proof.
  unfold new_conceptual. set (s1 := set_tick (S (tick s)) s).
  rewrite (bind_ok (now c) _ s (clk s c (tick s)) s1) by done. rewrite (bind_ok _ _ _ _ _ (alloc_state s1 _)).
  set (s2 := set_heap _ s1). rewrite (bind_ok (ret tt) _ s2 tt s2) by done.
  assert (Hl : exists o, heap s2 !! length (heap s1) = Some o). { unfold s2. cbn [heap set_heap]. rewrite lookup_app_r, Nat.sub_diag by lia. by eexists. }
  destruct Hl as [o Ho]. rewrite (bind_ok _ _ _ _ _ (upd_ok _ _ s2 o Ho)). eexists _, _. split; [reflexivity|].
  unfold s2. cbn [heap set_heap set_tick s1]. rewrite alter_last. reflexivity.
Qed.
Lemma new_edge_cases s k nm u prog c p : WF0 (heap s) -> is_hyperelement k = true -> target (heap s) p ->
  ((exists x, x ∈ children (heap s) p /\ uuid_of (heap s) x = u) /\
     exists s1, new_conceptual k nm u prog (Some c) (Some p) s = (Exn ErrorDuplicateElement, s1)) \/
  ((forall x, x ∈ children (heap s) p -> uuid_of (heap s) x <> u) /\
     exists s', new_conceptual k nm u prog (Some c) (Some p) s = (Ok (length (heap s)), s') /\
       step1 (heap s) (heap s') p (length (heap s)) (con_obj k u nm prog c)).
Proof.
  intros W Hhk Ht. assert (Hk : is_conceptual k = true) by (by destruct k).
  assert (Hpe : exists_in (heap s) p) by (destruct Ht as (op & H & _); by eexists).
  pose proof (new_conceptual_wf s k nm u prog (Some c) (Some p) W Hk Hpe) as W'.
  unfold new_conceptual in *. set (s1 := set_tick (S (tick s)) s).
  rewrite (bind_ok (now c) _ s (clk s c (tick s)) s1) in * by done.
  set (o := s_ready _ _) in *. rewrite (bind_ok _ _ _ _ _ (alloc_state s1 o)) in *.
  set (s2 := set_heap (heap s1 ++ [o]) s1) in *. change (length (heap s1)) with (length (heap s)) in *.
  assert (Hpn : plain_new o) by (split; try done; unfold o; simpl; by intros ->).
  destruct (add_cases s s2 o p W Ht Hpn) as [(Hx & E)|(Hx & s3 & E & S)]; [done|done| |].
  - left. split; [exact Hx|]. eexists. by rewrite (bind_exn _ _ _ _ _ E).
  - right. split; [exact Hx|]. rewrite (bind_ok _ _ _ _ _ E) in *.
    destruct (made_exists _ _ _ (step1_made _ _ _ _ _ S)) as [o3 Ho3].
    rewrite (bind_ok _ _ _ _ _ (upd_ok _ (s_ready true) s3 o3 Ho3)) in *. eexists. split; [reflexivity|]. cbn [snd ret heap set_heap] in *.
    pose proof (s1_grown _ _ _ _ _ S) as G. assert (Hpl : p <> length (heap s)). { apply exists_in_lt in Hpe. lia. }
    split.
    + eapply grown_upd; [exact G|exact W'|done|done|lia|].
      intros y Hy. destruct y, o3. unfold fixed_part, con_obj, blank, o in *. simpl in *. inversion Hy; subst. done.
    + done.
    + intros l Hl Hlp. rewrite list_lookup_alter_ne. * by apply S. * apply exists_in_lt in Hl. lia.
    + rewrite list_lookup_alter_ne by done. apply S.
    + rewrite list_lookup_alter_ne by done. apply S.
    + destruct (s1_named _ _ _ _ _ S) as (q & H1 & H2). exists q. split.
      * unfold attr_of in *. rewrite list_lookup_alter. destruct (heap s3 !! length (heap s)); [|done]. cbn in *. injection H1 as <-. done.
      * eapply full_name_ext; [exact H2|]. intros y Hy _. unfold exists_in, parent_of, name_of.
        destruct (decide (length (heap s) = y)) as [<-|Hn]; [rewrite list_lookup_alter|by rewrite list_lookup_alter_ne].
        rewrite Ho3. cbn. split; [by eexists|done].
Qed.

Lemma attach_ok s s1 o p : reach s -> reach s1 -> target (heap s) p -> plain_new o -> (forall e, o_endpoint o = Some e -> exists_in (heap s) e) ->
  heap s1 = heap s ++ [o] -> (forall x, x ∈ children (heap s) p -> uuid_of (heap s) x <> o_uuid o) ->
  exists s', add_element p (length (heap s)) s1 = (Ok tt, s') /\ reach s' /\ step1 (heap s) (heap s') p (length (heap s)) o.
Proof.
  intros R R1 Ht N He Hs Hu. destruct (add_cases s s1 o p (reach_wf s R) Ht N He Hs) as [((x & Hx & Hx') & _)|(_ & s' & E & S)].
  - by destruct (Hu x Hx).
  - exists s'. split; [done|]. split; [|done].
    assert (Ha : allowed (heap s1) (OAdd p (length (heap s)))).
    { cbn [allowed]. rewrite Hs. apply add_fresh_ok; [rewrite <- Hs; by apply reach_wf|destruct Ht as (op & Hp & _); by eexists|apply N|apply N]. }
    pose proof (reach_step s1 _ R1 Ha) as R'. cbn [exec] in R'. by rewrite E in R'.
Qed.

Lemma dget_dset_ne {V} (k k' : uid) (v : V) d : k' <> k -> dget k' (dset k v d) = dget k' d.
Proof. intros. rewrite dget_dset. by rewrite decide_False. Qed.
Lemma dget_dset_eq {V} (k : uid) (v : V) d : dget k (dset k v d) = Some v.
Proof. rewrite dget_dset. by rewrite decide_True. Qed.

Section phases.
  Variables (c : clockid).
  Definition node_ad (rt : loc) (n : msg_node) : loc * obj := (rt, con_obj KNode (mn_uuid n) (mn_name n) (mn_qname n) c).
  Definition edge_ad (rt : loc) (n : msg_edge) : loc * obj := (rt, con_obj KEdge (me_uuid n) (me_name n) (me_qname n) c).
  Definition value_ad (rt : loc) (v : msg_value) : loc * obj :=
    (rt, s_dim (length (mv_vals v)) (s_vals (mv_vals v) (blank KValue (mv_uuid v) (mv_name v) (mv_qname v)))).
  Definition rel_ad (els : dict uid loc) (r : msg_rel) : loc * obj :=
    (default 0 (dget (mr_parent r) els), s_endpoint (dget (mr_ep r) els) (blank KRel (mr_uuid r) (mr_name r) (mr_qname r))).

  Lemma decode_nodes_ok u0 rt : forall ns s els root, reach s -> target (heap s) rt -> dget u0 els = Some rt ->
    Forall (fun n => mn_parent n = Some u0) ns -> u0 ∉ map mn_uuid ns -> NoDup (map mn_uuid ns) ->
    (forall x n, x ∈ children (heap s) rt -> n ∈ ns -> uuid_of (heap s) x <> mn_uuid n) ->
    exists els' s', decode_nodes c ns els root s = (Ok (els', root), s') /\ reach s' /\ grows (heap s) (map (node_ad rt) ns) (heap s') /\
      (forall u, u ∉ map mn_uuid ns -> dget u els' = dget u els) /\
      (forall n, n ∈ ns -> exists l, dget (mn_uuid n) els' = Some l /\ made (heap s') (node_ad rt n) l).
  Proof.
    induction ns as [|n ns IH]; intros s els root R Ht Hd Hp Hu Hnd Hf.
    - exists els, s. split; [done|]. split; [done|]. split; [constructor|]. split; [done|]. by intros n Hn%elem_of_nil.
    - apply Forall_cons in Hp as [Hp1 Hp]. cbn [map] in *. apply NoDup_cons in Hnd as [Hn1 Hnd]. apply not_elem_of_cons in Hu as [Hu1 Hu].
      destruct (new_root_eq KNode (mn_name n) (mn_uuid n) (mn_qname n) c s) as (t & s1 & E1 & H1).
      assert (R1 : reach s1).
      { eapply (reach_void s _ (ONew KNode (mn_name n) (mn_uuid n) (mn_qname n) (Some c) None)); [done| |reflexivity|exact E1]. done. }
      destruct (attach_ok s s1 _ rt R R1 Ht (con_plain KNode _ _ _ _ _ eq_refl) ltac:(done) H1) as (s2 & E2 & R2 & S).
      { intros x Hx. cbn. apply Hf; [done|left]. }
      apply step1_time in S. set (l := length (heap s)) in *. pose proof (grows_one _ _ _ _ S) as G1.
      set (els1 := dset (mn_uuid n) l els).
      assert (Hd1 : dget u0 els1 = Some rt) by (unfold els1; rewrite dget_dset_ne by congruence; done).
      destruct (IH s2 els1 root R2 (target_keep _ _ _ _ G1 Ht) Hd1 Hp Hu Hnd) as (els' & s' & E' & R' & G' & K1 & K2).
      { intros x m Hx Hm. rewrite (step1_children _ _ _ _ _ S) in Hx. rewrite decide_True in Hx by done.
        apply elem_of_app in Hx as [Hx|Hx%elem_of_list_singleton].
        - assert (exists_in (heap s) x) by (by eapply wf_children_exist; [apply reach_wf|]).
          pose proof (step1_fixed _ _ _ _ _ x S H) as Fx. unfold uuid_of.
          assert (Eu : o_uuid <$> heap s2 !! x = o_uuid <$> heap s !! x).
          { apply (f_equal (fmap o_uuid)) in Fx. rewrite <- !option_fmap_compose in Fx. exact Fx. }
          rewrite Eu. apply (Hf x m Hx). by right.
        - change (x = l) in Hx; rewrite Hx, (made_uuid _ _ _ (step1_made _ _ _ _ _ S)). cbn. intros E. apply Hn1. rewrite E. by apply elem_of_list_fmap_1. }
      exists els', s'. split; [|split; [done|split; [|split]]].
      + cbn [decode_nodes]. unfold new_node. rewrite (bind_ok _ _ _ _ _ E1). cbv zeta. rewrite Hp1. fold els1.
        rewrite Hd1. cbn [of_opt]. rewrite (bind_ok (ret rt) _ s1 rt s1) by done. rewrite (bind_ok _ _ _ _ _ E2). done.
      + econstructor; [exact S|exact G'].
      + intros u Hu'. apply not_elem_of_cons in Hu' as [Hu2 Hu3]. rewrite K1 by done. unfold els1. by rewrite dget_dset_ne.
      + intros m Hm. apply elem_of_cons in Hm as [->|Hm]; [|by apply K2]. exists l. split.
        * rewrite K1 by done. unfold els1. by rewrite dget_dset_eq.
        * eapply (made_keep _ _ _ _ _ G'). by eapply step1_made.
  Qed.

  Lemma uuid_step1 h h' p k o x : step1 h h' p k o -> exists_in h x -> uuid_of h' x = uuid_of h x.
  Proof.
    intros S H. pose proof (step1_fixed _ _ _ _ _ x S H) as Fx. unfold uuid_of.
    apply (f_equal (fmap o_uuid)) in Fx. rewrite <- !option_fmap_compose in Fx. f_equal. exact Fx.
  Qed.
  Lemma decode_edges_ok u0 rt : forall es s els, reach s -> target (heap s) rt -> dget u0 els = Some rt ->
    Forall (fun n => me_parent n = u0) es -> u0 ∉ map me_uuid es -> NoDup (map me_uuid es) ->
    (forall x n, x ∈ children (heap s) rt -> n ∈ es -> uuid_of (heap s) x <> me_uuid n) ->
    exists els' s', decode_edges c es els s = (Ok els', s') /\ reach s' /\ grows (heap s) (map (edge_ad rt) es) (heap s') /\
      (forall u, u ∉ map me_uuid es -> dget u els' = dget u els) /\
      (forall n, n ∈ es -> exists l, dget (me_uuid n) els' = Some l /\ made (heap s') (edge_ad rt n) l).
  Proof.
    induction es as [|n ns IH]; intros s els R Ht Hd Hp Hu Hnd Hf.
    - exists els, s. split; [done|]. split; [done|]. split; [constructor|]. split; [done|]. by intros n Hn%elem_of_nil.
    - apply Forall_cons in Hp as [Hp1 Hp]. cbn [map] in *. apply NoDup_cons in Hnd as [Hn1 Hnd]. apply not_elem_of_cons in Hu as [Hu1 Hu].
      destruct (new_edge_cases s KEdge (me_name n) (me_uuid n) (me_qname n) c rt (reach_wf s R) eq_refl Ht) as [((x & Hx & Hx') & _)|(_ & s2 & E2 & S)].
      { exfalso. eapply Hf; [exact Hx|left|exact Hx']. }
      assert (R2 : reach s2).
      { eapply (reach_void s _ (ONew KEdge (me_name n) (me_uuid n) (me_qname n) (Some c) (Some rt))); [done| |reflexivity|exact E2].
        split; [done|]. destruct Ht as (op & Hop & _). by eexists. }
      set (l := length (heap s)) in *. pose proof (grows_one _ _ _ _ S) as G1. set (els1 := dset (me_uuid n) l els).
      assert (Hd1 : dget u0 els1 = Some rt) by (unfold els1; rewrite dget_dset_ne by congruence; done).
      destruct (IH s2 els1 R2 (target_keep _ _ _ _ G1 Ht) Hd1 Hp Hu Hnd) as (els' & s' & E' & R' & G' & K1 & K2).
      { intros x m Hx Hm. rewrite (step1_children _ _ _ _ _ S) in Hx. rewrite decide_True in Hx by done.
        apply elem_of_app in Hx as [Hx|Hx%elem_of_list_singleton].
        - assert (exists_in (heap s) x) by (by eapply wf_children_exist; [apply reach_wf|]).
          rewrite (uuid_step1 _ _ _ _ _ x S) by done. apply (Hf x m Hx). by right.
        - change (x = l) in Hx; rewrite Hx, (made_uuid _ _ _ (step1_made _ _ _ _ _ S)). cbn. intros E. apply Hn1. rewrite E. by apply elem_of_list_fmap_1. }
      exists els', s'. split; [|split; [done|split; [|split]]].
      + cbn [decode_edges]. rewrite Hp1, Hd. cbn [of_opt]. rewrite (bind_ok (ret rt) _ s rt s) by done. unfold new_edge. rewrite (bind_ok _ _ _ _ _ E2). exact E'.
      + econstructor; [exact S|exact G'].
      + intros u Hu'. apply not_elem_of_cons in Hu' as [Hu2 Hu3]. rewrite K1 by done. unfold els1. by rewrite dget_dset_ne.
      + intros m Hm. apply elem_of_cons in Hm as [->|Hm]; [|by apply K2]. exists l. split.
        * rewrite K1 by done. unfold els1. by rewrite dget_dset_eq.
        * eapply (made_keep _ _ _ _ _ G'). by eapply step1_made.
  Qed.

  Definition rel_found (h : list obj) (els : dict uid loc) (r : msg_rel) : Prop :=
    exists p ep, dget (mr_parent r) els = Some p /\ target h p /\ dget (mr_ep r) els = Some ep /\ exists_in h ep.
  Lemma decode_rels_ok els : forall rs s, reach s -> Forall (rel_found (heap s) els) rs ->
    NoDup (map (fun r => ((rel_ad els r).1, mr_uuid r)) rs) ->
    (forall r x, r ∈ rs -> x ∈ children (heap s) (rel_ad els r).1 -> uuid_of (heap s) x <> mr_uuid r) ->
    exists s', decode_rels rs els s = (Ok tt, s') /\ reach s' /\ grows (heap s) (map (rel_ad els) rs) (heap s').
  Proof.
    induction rs as [|r rs IH]; intros s R Hp Hnd Hf.
    - exists s. split; [done|]. split; [done|constructor].
    - apply Forall_cons in Hp as [(p & ep & Hp1 & Ht & Hep & Hee) Hp]. cbn [map] in *. apply NoDup_cons in Hnd as [Hn1 Hnd].
      set (o := s_endpoint (Some ep) (blank KRel (mr_uuid r) (mr_name r) (mr_qname r))).
      assert (Ead : rel_ad els r = (p, o)) by (unfold rel_ad; by rewrite Hp1, Hep).
      set (s1 := set_heap (heap s ++ [o]) s).
      assert (E1 : new_rel (mr_uuid r) (mr_name r) (mr_qname r) ep WNone BIDIRECTIONAL None s = (Ok (length (heap s)), s1)) by reflexivity.
      assert (R1 : reach s1).
      { eapply (reach_void s _ (ONewRel (mr_uuid r) (mr_name r) (mr_qname r) ep WNone BIDIRECTIONAL None)); [done| |reflexivity|exact E1]. done. }
      destruct (attach_ok s s1 o p R R1 Ht) as (s2 & E2 & R2 & S); [by split| |done| |].
      { cbn. by intros e [= <-]. }
      { intros x Hx. cbn. apply Hf; [left|by rewrite Ead]. }
      pose proof (grows_one _ _ _ _ S) as G1.
      destruct (IH s2 R2) as (s' & E' & R' & G').
      { eapply Forall_impl; [exact Hp|]. intros r' (p' & ep' & A1 & A2 & A3 & A4). exists p', ep'. split; [done|]. split; [by eapply target_keep|]. split; [done|]. by eapply step1_exists. }
      { done. }
      { intros r' x Hr' Hx. rewrite (step1_children _ _ _ _ _ S) in Hx. apply elem_of_app in Hx as [Hx|Hx].
        - assert (exists_in (heap s) x) by (by eapply wf_children_exist; [apply reach_wf|]).
          rewrite (uuid_step1 _ _ _ _ _ x S) by done. apply Hf; [by right|done].
        - case_decide as Hd; [|inversion Hx]. apply elem_of_list_singleton in Hx as ->. rewrite (made_uuid _ _ _ (step1_made _ _ _ _ _ S)). cbn. intros E.
          apply Hn1. apply elem_of_list_fmap. exists r'. split; [|done]. rewrite Ead, E. cbn [fst]. by rewrite Hd. }
      exists s'. split; [|split; [done|]].
      + cbn [decode_rels]. rewrite Hep, Hp1. cbn [of_opt]. rewrite (bind_ok (ret ep) _ s ep s), (bind_ok (ret p) _ s p s) by done.
        rewrite (bind_ok _ _ _ _ _ E1), (bind_ok _ _ _ _ _ E2). done.
      + rewrite Ead. econstructor; [exact S|exact G'].
  Qed.
  Lemma decode_rels_app els rs rs' s s' : decode_rels rs els s = (Ok tt, s') -> decode_rels (rs ++ rs') els s = decode_rels rs' els s'.
  Proof.
    revert s. induction rs as [|r rs IH]; intros s E; [by injection E as ->|].
    change ((r :: rs) ++ rs') with (r :: (rs ++ rs')). cbn [decode_rels] in *. unfold bind in *.
    repeat match type of E with context [match ?m with _ => _ end] => destruct m as [[] ?] eqn:?; try done end. by apply IH.
  Qed.
  Lemma decode_rels_dup els r rs s x : reach s -> rel_found (heap s) els r -> x ∈ children (heap s) (rel_ad els r).1 -> uuid_of (heap s) x = mr_uuid r ->
    exists s', decode_rels (r :: rs) els s = (Exn ErrorDuplicateElement, s').
  Proof.
    intros R (p & ep & Hp1 & Ht & Hep & Hee) Hx Hu.
    set (o := s_endpoint (Some ep) (blank KRel (mr_uuid r) (mr_name r) (mr_qname r))).
    assert (Ead : rel_ad els r = (p, o)) by (unfold rel_ad; by rewrite Hp1, Hep). rewrite Ead in Hx. cbn [fst] in Hx.
    set (s1 := set_heap (heap s ++ [o]) s).
    assert (E1 : new_rel (mr_uuid r) (mr_name r) (mr_qname r) ep WNone BIDIRECTIONAL None s = (Ok (length (heap s)), s1)) by reflexivity.
    destruct (add_cases s s1 o p (reach_wf s R) Ht) as [(_ & E)|(Hn & _)]; [by split|cbn; by intros e [= <-]|done| |].
    - eexists. cbn [decode_rels]. rewrite Hep, Hp1. cbn [of_opt]. rewrite (bind_ok (ret ep) _ s ep s), (bind_ok (ret p) _ s p s) by done.
      rewrite (bind_ok _ _ _ _ _ E1), (bind_exn _ _ _ _ _ E). reflexivity.
    - by destruct (Hn x Hx).
  Qed.

  Lemma decode_values_ok u0 rt els : dget u0 els = Some rt -> forall vs s, reach s -> target (heap s) rt ->
    Forall (fun n => mv_parent n = u0) vs -> NoDup (map mv_uuid vs) ->
    (forall x n, x ∈ children (heap s) rt -> n ∈ vs -> uuid_of (heap s) x <> mv_uuid n) ->
    exists s', decode_values vs els s = (Ok tt, s') /\ reach s' /\ grows (heap s) (map (value_ad rt) vs) (heap s').
  Proof.
    intros Hd. induction vs as [|n vs IH]; intros s R Ht Hp Hnd Hf.
    - exists s. split; [done|]. split; [done|constructor].
    - apply Forall_cons in Hp as [Hp1 Hp]. cbn [map] in *. apply NoDup_cons in Hnd as [Hn1 Hnd].
      set (o := (value_ad rt n).2). set (s1 := set_heap (heap s ++ [o]) s).
      assert (E1 : new_value (mv_uuid n) (mv_name n) (mv_qname n) (Some (mv_vals n)) s = (Ok (length (heap s)), s1)) by reflexivity.
      assert (R1 : reach s1).
      { eapply (reach_void s _ (ONewValue (mv_uuid n) (mv_name n) (mv_qname n) (Some (mv_vals n)))); [done| |reflexivity|exact E1]. done. }
      destruct (attach_ok s s1 o rt R R1 Ht) as (s2 & E2 & R2 & S); [by split|done|done| |].
      { intros x Hx. cbn. apply Hf; [done|left]. }
      pose proof (grows_one _ _ _ _ S) as G1.
      destruct (IH s2 R2 (target_keep _ _ _ _ G1 Ht) Hp Hnd) as (s' & E' & R' & G').
      { intros x m Hx Hm. rewrite (step1_children _ _ _ _ _ S) in Hx. rewrite decide_True in Hx by done.
        apply elem_of_app in Hx as [Hx|Hx%elem_of_list_singleton].
        - assert (exists_in (heap s) x) by (by eapply wf_children_exist; [apply reach_wf|]).
          rewrite (uuid_step1 _ _ _ _ _ x S) by done. apply (Hf x m Hx). by right.
        - rewrite Hx, (made_uuid _ _ _ (step1_made _ _ _ _ _ S)). cbn. intros E. apply Hn1. rewrite E. by apply elem_of_list_fmap_1. }
      exists s'. split; [|split; [done|]].
      + cbn [decode_values]. rewrite (bind_ok _ _ _ _ _ E1), Hp1, Hd. cbn [of_opt]. rewrite (bind_ok (ret rt) _ s1 rt s1) by done. rewrite (bind_ok _ _ _ _ _ E2). done.
      + econstructor; [exact S|exact G'].
  Qed.
End phases.
