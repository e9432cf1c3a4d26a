(** * C23 - C25 *)
From stdpp Require Import relations.
From Verif Require Import Spec Hierarchy Elements Factory History PDict PPath PExec PBfs PWF PAdd PMono PStep PRemove PReach PPrim PHist QHier QHier2 QHier3 QHier4 QHier5 QHier6 QFac SpecFac.

Lemma same_uuid_child h e x y : WF0 h -> x ∈ children h e -> y ∈ children h e -> uuid_of h x = uuid_of h y -> x = y.
Proof.
  intros W3 Hr' Hr2 Heq. unfold children in *. destruct (h !! e) as [o|] eqn:Eo; [|inversion Hr2].
  apply elem_of_list_fmap in Hr' as [[u x'] [-> H1]]. apply elem_of_list_fmap in Hr2 as [[u' y'] [-> H2]]. cbn [snd] in *.
  destruct (wf_sub _ W3 e o u x' Eo H1) as (ox & Hx & <- & _). destruct (wf_sub _ W3 e o u' y' Eo H2) as (oy & Hy & <- & _).
  unfold uuid_of in Heq. rewrite Hx, Hy in Heq. cbn in Heq.
  pose proof (wf_nd _ W3 e o Eo) as Hnd.
  assert (D1 : dget (o_uuid ox) (o_subs o) = Some x') by (by apply dget_in_nodup).
  assert (D2 : dget (o_uuid oy) (o_subs o) = Some y') by (by apply dget_in_nodup).
  congruence.
Qed.

Lemma unary_inv s e n w d r s' : WF0 (heap s) -> exists_in (heap s) e -> exists_in (heap s) n -> n <> e ->
  unary_connect e n w d None s = (Ok r, s') ->
  exists oe on c, heap s !! e = Some oe /\ heap s !! n = Some on /\ o_kind oe = KEdge /\
  let nm := rel_name (o_name oe) (o_name on) (clk s c (tick s)) in
  let ur := sha s (elem_id_text (o_name oe) (o_name on)) in
  let up := sha s (elem_id_text (o_name on) nm) in
  r = length (heap s) /\
  (forall x, x ∈ children (heap s) e -> uuid_of (heap s) x <> ur) /\
  connected (heap s) (heap s') e n r (S r) (rel_obj ur nm (join "/" [o_name oe; nm]) n w d None)
      (port_obj up (port_name (o_name on) nm) r) /\ mono s s'.
Proof.
  intros W Hee Hne' Hne E. assert (Ha : allowed (heap s) (OUnary e n w d None)) by done.
  destruct Hee as [oe He]. destruct Hne' as [on Hn].
  destruct (unary_result s e n w d None r s' W Ha E) as (Hr & Hru & Hke & Hrn).
  pose proof (unary_connect_wf s e n w d None W Ha) as W'. rewrite E in W'. cbn [snd] in W'.
  pose proof (pres_unary_connect e n w d None s) as M. rewrite E in M. cbn [snd] in M.
  assert (Hu1 : forall x, x ∈ children (heap s) e -> uuid_of (heap s) x <> sha s (elem_id_text (o_name oe) (o_name on))).
  { intros x Hx Hux.
    assert (P : prims MAny s s').
    { pose proof (unary_connect_prims MAny s e n w d None W Ha) as P. rewrite E in P. apply P. by intros ?. }
    assert (Hx' : x ∈ children (heap s') e).
    { clear -P Hx Hke. revert Hke Hx. induction P as [s|s s1 s' Hp _ IH]; intros Hk Hr; [done|].
      destruct (prim_edge MAny s s1 e Hp Hk) as [H1 H2]. apply IH; [done|by apply H2]. }
    assert (x = r) as ->; [|apply Hrn; by eapply wf_children_exist].
    apply (same_uuid_child (heap s') e); [done|done|done|]. rewrite Hru. unfold name_of. rewrite He, Hn. cbn.
    destruct (wf_children_exist _ _ _ W Hx) as [ox Hox]. destruct (m_obj _ _ M x ox Hox) as (ox' & Hox' & Hm).
    unfold uuid_of in *. rewrite Hox'. rewrite Hox in Hux. cbn in *. by rewrite (om_uuid _ _ _ _ Hm), Hux. }
  pose proof E as E0. unfold unary_connect in E. rewrite (bind_ok _ _ _ _ _ (deref_ok _ _ _ He)), (bind_ok _ _ _ _ _ (deref_ok _ _ _ Hn)) in E.
  case_decide as Hk; [|done]. destruct (o_clock oe) as [c|] eqn:Hclk; [|done]. cbn [of_opt] in E.
  set (nm := rel_name (o_name oe) (o_name on) (clk s c (tick s))).
  set (ur := sha s (elem_id_text (o_name oe) (o_name on))) in *.
  rewrite (bind_ok (ret c) _ s c s) in E by done. rewrite (bind_ok (now c) _ s (clk s c (tick s)) (set_tick (S (tick s)) s)) in E by done.
  destruct (o_ready oe) eqn:Hrd; [|done]. cbv zeta in E. rewrite (bind_ok (hash _) _ _ ur (set_tick (S (tick s)) s)) in E by done.
  unfold new_rel in E. rewrite (bind_ok _ _ _ _ _ (alloc_state _ _)) in E. set (sa := set_heap _ _) in E. set (ra := length _) in E.
  assert (Hoa : exists oa, heap sa !! ra = Some oa /\ o_name oa = nm).
  { unfold sa, ra. cbn [heap set_heap set_tick]. rewrite lookup_app_r, Nat.sub_diag by lia. eexists. split; [done|]. done. }
  destruct Hoa as (oa & Hoa & Hna).
  assert (Wa : WF0 (heap sa)).
  { unfold sa. cbn [heap set_heap set_tick]. apply alloc_wf0; try done. simpl. intros y [= <-]. by eexists. }
  assert (Hn2 : heap sa !! n = Some on) by (unfold sa; simpl; rewrite lookup_app_l; [done|by apply lookup_lt_Some in Hn]).
  assert (Hfin : is_hyperelement (o_kind on) = true -> o_ready on = true ->
    dget (sha s (elem_id_text (o_name on) nm)) (o_subs on) = None ->
    exists oe0 on0 c0, Some oe = Some oe0 /\ Some on = Some on0 /\ o_kind oe0 = KEdge /\
    let nm := rel_name (o_name oe0) (o_name on0) (clk s c0 (tick s)) in
    let ur := sha s (elem_id_text (o_name oe0) (o_name on0)) in
    let up := sha s (elem_id_text (o_name on0) nm) in
    r = length (heap s) /\ (forall x, x ∈ children (heap s) e -> uuid_of (heap s) x <> ur) /\
    connected (heap s) (heap s') e n r (S r) (rel_obj ur nm (join "/" [o_name oe0; nm]) n w d None)
      (port_obj up (port_name (o_name on0) nm) r) /\ mono s s').
  { intros H1 H2 H3. pose proof (children_uuid_old _ _ _ _ W Hn H3) as Hu2.
    destruct (unary_ok s e n oe on c w d W He Hn Hne Hk Hrd Hclk H1 H2 Hu1 Hu2) as (s'' & E'' & C & M'' & _).
    rewrite E'' in E0. injection E0 as <- <-. exists oe, on, c. do 3 (split; [done|]). split; [done|]. split; [done|]. split; [exact C|done]. }
  destruct (connect_cases sa n ra on oa Wa Hn2 Hoa) as [[_ Ec]|(Hg & [[_ Ec]|(Hd & _)])].
  - by rewrite (bind_exn _ _ _ _ _ Ec) in E.
  - by rewrite (bind_exn _ _ _ _ _ Ec) in E.
  - apply andb_true_iff in Hg as [H1 H2]. rewrite Hna in Hd. rewrite He, Hn. apply Hfin; [done|done|exact Hd].
Qed.

(** A list of (endpoint, direction, weight). *)
Fixpoint connect_list (e : loc) (ts : list (loc * direction * weight)) : M unit :=
  match ts with [] => ret tt | (n, d, w) :: ts' => unary_connect e n w d None ;; connect_list e ts' end.
Lemma connect_each_list e d nv s : connect_each e d nv s = connect_list e (map (fun x => (x.1, d, x.2)) nv) s.
Proof.
  revert s. induction nv as [|[n w] nv IH]; intros s; [done|]. cbn [connect_each connect_list map fst snd]. unfold bind.
  destruct (unary_connect e n w d None s) as [[r|ex] s1]; [apply IH|done].
Qed.
Lemma connect_list_app e ts ts' s : connect_list e (ts ++ ts') s = (connect_list e ts ;; connect_list e ts') s.
Proof.
  revert s. induction ts as [|[[n d] w] ts IH]; intros s; [done|]. cbn [connect_list app]. unfold bind.
  destruct (unary_connect e n w d None s) as [[r|ex] s1]; [|done]. rewrite IH. done.
Qed.

(** [r] is a relation of [e] to [n], [pt] the port made for it. *)
Definition rel_made (h h' : list obj) (e : loc) (r : loc) (t : loc * direction * weight) : Prop :=
  let '(n, d, w) := t in
  ~ exists_in h r /\ kind_of h' r = Some KRel /\ parent_of h' r = Some e /\ children h' r = [] /\
  attr_of o_endpoint h' r = Some (Some n) /\ attr_of o_dir h' r = Some d /\ attr_of o_weight h' r = Some w /\
  exists pt, ~ exists_in h pt /\ children h' n = children h n ++ [pt] /\ kind_of h' pt = Some KPort /\
    attr_of o_endpoint h' pt = Some (Some r) /\ parent_of h' pt = Some n.

Lemma connect_list_inv e : forall ts s s', WF0 (heap s) -> exists_in (heap s) e -> Forall (fun t => exists_in (heap s) (tnode t) /\ tnode t <> e) ts ->
  connect_list e ts s = (Ok tt, s') ->
  exists rs, children (heap s') e = children (heap s) e ++ rs /\ Forall2 (rel_made (heap s) (heap s') e) rs ts /\
    WF0 (heap s') /\ kept (heap s) (heap s') /\ unmoved (heap s) (heap s') /\ mono s s' /\ NoDup (map tnode ts) /\
    NoDup (map (fun t => name_of (heap s) (tnode t)) ts) /\
    (forall x t, x ∈ children (heap s) e -> t ∈ ts -> uuid_of (heap s) x <> sha s (elem_id_text (name_of (heap s) e) (name_of (heap s) (tnode t)))) /\
    (forall l, exists_in (heap s) l -> l <> e -> l ∉ map tnode ts -> children (heap s') l = children (heap s) l).
Proof.
  induction ts as [|[[n d] w] ts IH]; intros s s' W Hee Hts E.
  - injection E as <-. exists []. rewrite app_nil_r. split; [done|]. split; [constructor|]. split; [done|]. split; [apply kept_refl|].
    split; [done|]. split; [apply mono_refl|]. split; [constructor|]. split; [constructor|]. split; [by intros x t _ Hx%elem_of_nil|done].
  - apply Forall_cons in Hts as [[Hn Hne] Hts]. cbn [tnode fst] in Hn, Hne. cbn [connect_list] in E.
    destruct (unary_connect e n w d None s) as [[r|ex] s1] eqn:E1; [|by rewrite (bind_exn _ _ _ _ _ E1) in E].
    rewrite (bind_ok _ _ _ _ _ E1) in E.
    destruct (unary_inv s e n w d r s1 W Hee Hn Hne E1) as (oe & on & c & He & Hon & Hk & Hr & Hu & C & M).
    set (nm := rel_name _ _ _) in *. set (ur := sha s (elem_id_text (o_name oe) (o_name on))) in *. set (up := sha s (elem_id_text (o_name on) nm)) in *.
    pose proof (cn_kept _ _ _ _ _ _ _ _ C) as K1.
    destruct (cn_fr _ _ _ _ _ _ _ _ C) as (Fr1 & Fr2 & Fr3 & Fr4). destruct (cn_fp _ _ _ _ _ _ _ _ C) as (Fp1 & Fp2 & Fp3 & Fp4).
    assert (Hex1 : forall l, exists_in (heap s) l -> exists_in (heap s1) l) by (intros l; by apply kept_exists).
    assert (Hre : exists_in (heap s1) r) by (destruct (heap s1 !! r) eqn:Er; [by eexists|done]).
    assert (Hpte : exists_in (heap s1) (S r)) by (destruct (heap s1 !! S r) eqn:Er; [by eexists|done]).
    destruct (IH s1 s') as (rs & I1 & I2 & I3 & I4 & I5 & I6 & I7 & I7' & I8 & I9); [by apply C|by apply Hex1| |done|].
    { eapply Forall_impl; [exact Hts|]. intros t [H1 H2]. split; [by apply Hex1|done]. }
    assert (Hnm : forall l, exists_in (heap s) l -> name_of (heap s1) l = name_of (heap s) l) by (intros l; by apply kept_name).
    assert (Hni : forall t, t ∈ ts -> name_of (heap s) (tnode t) <> name_of (heap s) n).
    { intros t Ht Hname. rewrite Forall_forall in Hts. destruct (Hts t Ht) as [Hte _]. apply (I8 r t); [|done|].
      - rewrite (cn_e _ _ _ _ _ _ _ _ C). apply elem_of_app. right. left.
      - rewrite (m_sha _ _ M). rewrite !Hnm by done. rewrite Hname. unfold uuid_of. rewrite (fixed_get o_uuid _ _ _ (fun _ => eq_refl) Fr4).
        cbn [default]. unfold rel_obj. cbn. unfold name_of. by rewrite He, Hon. }
    assert (Hnn : n ∉ map tnode ts).
    { intros Hin. apply elem_of_list_fmap in Hin as [t [-> Ht]]. by apply (Hni t Ht). }
    exists (r :: rs). split; [by rewrite I1, (cn_e _ _ _ _ _ _ _ _ C), <- app_assoc|].
    split; [|split; [done|split; [by eapply kept_trans|split; [eapply unmoved_trans; [exact Hex1|apply C|done]|split; [by eapply mono_trans|]]]]].
    + constructor.
      * cbn [rel_made]. split; [done|].
        split; [rewrite (kept_kind _ _ _ I4) by done; unfold kind_of; by rewrite (fixed_get o_kind _ _ _ (fun _ => eq_refl) Fr4)|].
        split; [by rewrite I5|]. assert (Hrne : r <> e) by (intros ->; done).
        assert (Hrts : forall x, ~ exists_in (heap s) x -> x ∉ map tnode ts).
        { intros x Hx Hin. apply elem_of_list_fmap in Hin as [t [-> Ht]]. rewrite Forall_forall in Hts. by apply Hx, Hts. }
        split; [rewrite I9; [done|done|done|by apply Hrts]|].
        split; [unfold attr_of; rewrite (kept_attr o_endpoint _ _ r (fun _ => eq_refl) I4 Hre); by rewrite (fixed_get o_endpoint _ _ _ (fun _ => eq_refl) Fr4)|].
        split; [unfold attr_of; rewrite (kept_attr o_dir _ _ r (fun _ => eq_refl) I4 Hre); by rewrite (fixed_get o_dir _ _ _ (fun _ => eq_refl) Fr4)|].
        split; [unfold attr_of; rewrite (kept_attr o_weight _ _ r (fun _ => eq_refl) I4 Hre); by rewrite (fixed_get o_weight _ _ _ (fun _ => eq_refl) Fr4)|].
        exists (S r). split; [done|]. split; [rewrite I9 by (done || by apply Hex1); apply C|].
        split; [rewrite (kept_kind _ _ _ I4) by done; unfold kind_of; by rewrite (fixed_get o_kind _ _ _ (fun _ => eq_refl) Fp4)|].
        split; [unfold attr_of; rewrite (kept_attr o_endpoint _ _ (S r) (fun _ => eq_refl) I4 Hpte); by rewrite (fixed_get o_endpoint _ _ _ (fun _ => eq_refl) Fp4)|].
        by rewrite I5.
      * clear IH E E1 I1. assert (Hgo : forall rs ts, Forall2 (rel_made (heap s1) (heap s') e) rs ts -> n ∉ map tnode ts ->
          Forall (fun t => exists_in (heap s) (tnode t) /\ tnode t <> e) ts -> Forall2 (rel_made (heap s) (heap s') e) rs ts).
        { clear -K1 C Hex1. intros rs ts F Hn Hex. induction F as [|r' t rs ts Hm F IH]; [constructor|].
          cbn [map] in Hn. apply not_elem_of_cons in Hn as [Hn1 Hn2]. apply Forall_cons in Hex as [[Hx1 Hx2] Hex].
          constructor; [|by apply IH]. destruct t as [[n' d'] w']. cbn [rel_made tnode fst] in *.
          destruct Hm as (A1 & A2 & A3 & A4 & A5 & A6 & A7 & pt & B1 & B2 & B3 & B4 & B5).
          do 7 (split; [first [done|intros Hy; by apply A1, Hex1]|]). exists pt. split; [intros Hy; by apply B1, Hex1|].
          split; [|done]. rewrite B2. f_equal. by apply C. }
        by apply Hgo.
    + split; [cbn [map tnode fst]; by constructor|]. split.
      { cbn [map]. constructor.
        - intros Hin. apply elem_of_list_fmap in Hin as [t [Ht Hin]]. by apply (Hni t Hin).
        - erewrite map_ext_in; [exact I7'|]. intros t Ht. symmetry. apply Hnm. apply elem_of_list_In in Ht. rewrite Forall_forall in Hts. by apply Hts. }
      split.
      * intros x t Hx Ht. apply elem_of_cons in Ht as [->|Ht].
        { cbn [tnode fst]. unfold name_of. rewrite He, Hon. cbn. by apply Hu. }
        rewrite Forall_forall in Hts. destruct (Hts t Ht) as [Hte _].
        rewrite <- (kept_uuid _ _ x K1) by (by eapply wf_children_exist). rewrite <- (Hnm e), <- (Hnm (tnode t)) by done.
        rewrite <- (m_sha _ _ M). apply I8; [|done]. rewrite (cn_e _ _ _ _ _ _ _ _ C). apply elem_of_app. by left.
      * intros l Hl Hle Hlt. cbn [map tnode fst] in Hlt. apply not_elem_of_cons in Hlt as [H1 H2].
        rewrite I9 by (done || by apply Hex1). by apply C.
Qed.

(** ** Edges made by the factory *)
Lemma hyperedge_eq f p nm op s : heap s !! p = Some op -> is_conceptual (o_kind op) = true ->
  create_hyperedge f p nm s =
  new_conceptual KEdge nm (sha s (uid_text (f_name f) nm (clk s (f_clock f) (tick s))))
    (join "/" [o_qname op; nm] +:+ "." +:+ str_of_Z (clk s (f_clock f) (S (tick s)))) (o_clock op) (Some p) (set_tick (S (S (tick s))) s).
Proof.
  intros Hp Hk. unfold create_hyperedge. rewrite (bind_ok _ _ _ _ _ (gen_uid_eq f nm s)). set (s1 := set_tick (S (tick s)) s).
  unfold stamped_name. rewrite bind_assoc. rewrite (bind_ok _ _ _ _ _ (deref_ok p s1 op Hp)). rewrite bind_assoc.
  rewrite (bind_ok (now (f_clock f)) _ s1 (clk s (f_clock f) (S (tick s))) (set_tick (S (S (tick s))) s)) by done.
  set (s2 := set_tick (S (S (tick s))) s). rewrite (bind_ok (ret _) _ s2 _ s2) by done.
  unfold clock_of. rewrite bind_assoc. rewrite (bind_ok _ _ _ _ _ (deref_ok p s2 op Hp)), Hk. done.
Qed.
Lemma mono_ticks (f : factory) s : mono s (set_tick (S (S (tick s))) s).
Proof. eapply mono_trans; [apply (pres_now (f_clock f) s)|]. exact (pres_now (f_clock f) (set_tick (S (tick s)) s)). Qed.

Lemma hyperedge_cases s f p nm op : WF0 (heap s) -> heap s !! p = Some op ->
  let u := sha s (uid_text (f_name f) nm (clk s (f_clock f) (tick s))) in
  (is_conceptual (o_kind op) = false /\ exists s', create_hyperedge f p nm s = (Exn AttributeError, s') /\ heap s' = heap s) \/
  (is_conceptual (o_kind op) = true /\
   (((exists x, x ∈ children (heap s) p /\ uuid_of (heap s) x = u) /\
       exists s', create_hyperedge f p nm s = (Exn ErrorDuplicateElement, s') /\ (forall x, exists_in (heap s) x -> heap s' !! x = heap s !! x)) \/
    ((forall x, x ∈ children (heap s) p -> uuid_of (heap s) x <> u) /\
       exists c s' prog, o_clock op = Some c /\ create_hyperedge f p nm s = (Ok (length (heap s)), s') /\
         grown (heap s) (heap s') p (length (heap s)) (con_obj KEdge u nm prog c) /\ mono s s'))).
Proof.
  intros W Hp u. destruct (is_conceptual (o_kind op)) eqn:Hk.
  - right. split; [done|]. rewrite (hyperedge_eq f p nm op s Hp Hk). fold u. destruct (wf_clk _ W p op Hp Hk) as [c Hc]. rewrite Hc.
    set (prog := join _ _ +:+ _). set (s2 := set_tick _ s).
    assert (Hkr : o_kind op <> KRel) by (by intros Hx; rewrite Hx in Hk).
    destruct (new_con_cases s2 KEdge nm u prog c p op W eq_refl Hp Hkr) as [[Hd (s' & E & F)]|[Hn (s' & E & G & M & _)]].
    + left. split; [done|]. exists s'. split; [done|exact F].
    + right. split; [done|]. exists c, s', prog. split; [done|]. split; [exact E|]. split; [exact G|]. eapply mono_trans; [apply (mono_ticks f s)|exact M].
  - left. split; [done|]. unfold create_hyperedge. rewrite (bind_ok _ _ _ _ _ (gen_uid_eq f nm s)). set (s1 := set_tick (S (tick s)) s).
    unfold stamped_name. rewrite bind_assoc. rewrite (bind_ok _ _ _ _ _ (deref_ok p s1 op Hp)). rewrite bind_assoc.
    rewrite (bind_ok (now (f_clock f)) _ s1 (clk s (f_clock f) (S (tick s))) (set_tick (S (S (tick s))) s)) by done.
    set (s2 := set_tick (S (S (tick s))) s). rewrite (bind_ok (ret _) _ s2 _ s2) by done.
    unfold clock_of. rewrite bind_assoc. rewrite (bind_ok _ _ _ _ _ (deref_ok p s2 op Hp)), Hk. exists s2. done.
Qed.

Lemma sub_edges_ok s e o : heap s !! e = Some o -> sub_edges e s = (Ok (filter (fun c => kind_of (heap s) c = Some KEdge) (children (heap s) e)), s).
Proof.
  intros He. apply (subelements_ok e _ s o); [done|]. intros c Hc. unfold is_kind, kind_of. destruct (heap s !! c) as [oc|]; [|done].
  simpl. destruct (o_kind oc); simpl; split; intros; congruence.
Qed.

Lemma edge_made_intro s s1 s' p nm u prog c ts op : WF0 (heap s) -> heap s !! p = Some op ->
  grown (heap s) (heap s1) p (length (heap s)) (con_obj KEdge u nm prog c) -> mono s s1 ->
  Forall (exists_in (heap s)) (map tnode ts) -> connect_list (length (heap s)) ts s1 = (Ok tt, s') ->
  exists rs, edge_made s s' p (length (heap s)) nm ts rs.
Proof.
  intros W Hp G M Hts E. set (e := length (heap s)) in *. pose proof (gr_kept _ _ _ _ _ G) as K1.
  destruct (gr_fresh _ _ _ _ _ G) as (F1 & F2 & F3 & F4).
  assert (Hex1 : forall l, exists_in (heap s) l -> exists_in (heap s1) l) by (intros l; by apply kept_exists).
  assert (Hee : exists_in (heap s1) e) by (destruct (heap s1 !! e) eqn:Er; [by eexists|done]).
  assert (Hpe : exists_in (heap s) p) by (by eexists). assert (Hpne : p <> e) by (intros ->; done).
  rewrite Forall_map in Hts.
  destruct (connect_list_inv e ts s1 s') as (rs & I1 & I2 & I3 & I4 & I5 & I6 & I7 & I7' & I8 & I9); [by apply G|done| |done|].
  { eapply Forall_impl; [exact Hts|]. intros t Ht. split; [by apply Hex1|intros <-; done]. }
  exists rs. destruct (kept_exists _ _ p (kept_trans _ _ _ K1 I4) Hpe) as [op' Hp'].
  assert (Hk' : kind_of (heap s') e = Some KEdge).
  { rewrite (kept_kind _ _ _ I4) by done. unfold kind_of. by rewrite (fixed_get o_kind _ _ _ (fun _ => eq_refl) F4). }
  assert (Hmade : Forall2 (fun r t => let '(n, d, w) := t in
     ~ exists_in (heap s) r /\ kind_of (heap s') r = Some KRel /\ parent_of (heap s') r = Some e /\ children (heap s') r = [] /\
     attr_of o_endpoint (heap s') r = Some (Some n) /\ attr_of o_dir (heap s') r = Some d /\ attr_of o_weight (heap s') r = Some w /\
     exists pt, ~ exists_in (heap s) pt /\ children (heap s') n = (children (heap s) n ++ (if decide (n = p) then [e] else [])) ++ [pt] /\
       kind_of (heap s') pt = Some KPort /\ attr_of o_endpoint (heap s') pt = Some (Some r)) rs ts).
  { clear -I2 Hex1 G Hts. induction I2 as [|r [[n d] w] rs ts Hm F IH]; [constructor|]. apply Forall_cons in Hts as [Hn Hts].
    constructor; [|by apply IH]. cbn [rel_made tnode fst] in *.
    destruct Hm as (A1 & A2 & A3 & A4 & A5 & A6 & A7 & pt & B1 & B2 & B3 & B4 & B5).
    do 7 (split; [first [done|intros Hy; by apply A1, Hex1]|]). exists pt. split; [intros Hy; by apply B1, Hex1|]. split; [|done].
    rewrite B2. f_equal. case_decide as Hnp; [subst; apply G|]. rewrite app_nil_r. by apply (gr_other _ _ _ _ _ G). }
  split.
  - done. - done.
  - rewrite (kept_name _ _ _ I4) by done. unfold name_of. by rewrite (fixed_get o_name _ _ _ (fun _ => eq_refl) F4).
  - by rewrite I5. - by rewrite I1, F3.
  - done.
  - done.
  - exists (filter (fun c => kind_of (heap s) c = Some KEdge) (children (heap s) p)). split; [by eapply sub_edges_ok|].
    rewrite (sub_edges_ok s' p op' Hp'). f_equal. f_equal.
    assert (Hold : filter (fun c => kind_of (heap s') c = Some KEdge) (children (heap s) p) = filter (fun c => kind_of (heap s) c = Some KEdge) (children (heap s) p)).
    { apply kept_filter_kind; [by eapply kept_trans|]. intros x Hx. by eapply wf_children_exist. }
    destruct (decide (p ∈ map tnode ts)) as [Hin|Hnin].
    + apply elem_of_list_fmap in Hin as [[[n d] w] [Hn Hin]]. cbn [tnode fst] in Hn. subst n.
      apply elem_of_list_lookup in Hin as [i Hi]. destruct (Forall2_lookup_r _ _ _ _ _ Hmade Hi) as (r & _ & Hm). simpl in Hm.
      destruct Hm as (_ & _ & _ & _ & _ & _ & _ & pt & _ & Hch & Hpt & _). rewrite decide_True in Hch by done.
      rewrite Hch, !filter_app. rewrite Hold. rewrite <- app_assoc. f_equal. rewrite !filter_cons, decide_True by done.
      rewrite decide_False by (rewrite Hpt; done). done.
    + rewrite (I9 p) by (done || by apply Hex1). rewrite (gr_p _ _ _ _ _ G), filter_app, Hold. f_equal. by rewrite filter_cons, decide_True.
  - intros Hnin. rewrite (I9 p) by (done || by apply Hex1). apply G.
  - intros l Hl Hlp Hln. rewrite (I9 l); [|by apply Hex1|intros ->; done|done]. by apply (gr_other _ _ _ _ _ G).
  - by eapply kept_trans. - eapply unmoved_trans; [exact Hex1|apply G|done].
Qed.

Lemma edge_made_relations s s' p e nm ts rs : edge_made s s' p e nm ts rs ->
  sub_relations e s' = (Ok rs, s') /\ induced_subset e s' = (Ok (map (fun t => Some (tnode t)) ts), s').
Proof.
  intros H. pose proof (em_kind _ _ _ _ _ _ _ H) as Hk. unfold kind_of in Hk. destruct (heap s' !! e) as [oe|] eqn:He; [|done].
  assert (Hrel : relations_of (heap s') e = rs).
  { unfold relations_of. rewrite (em_rels _ _ _ _ _ _ _ H). pose proof (em_made _ _ _ _ _ _ _ H) as F. clear -F.
    induction F as [|r [[n d] w] rs ts Hm F IH]; [done|]. rewrite filter_cons, decide_True by apply Hm. by rewrite IH. }
  rewrite (sub_relations_ok s' e oe He), (induced_subset_ok s' e oe He). unfold endpoints_of. rewrite Hrel. split; [done|]. f_equal. f_equal.
  pose proof (em_made _ _ _ _ _ _ _ H) as F. clear -F. induction F as [|r [[n d] w] rs ts Hm F IH]; [done|]. cbn [map]. rewrite IH. f_equal.
  destruct Hm as (_ & _ & _ & _ & He & _). unfold attr_of in He. unfold tnode. destruct (heap s' !! r); [|done]. simpl in *. by injection He.
Qed.

(** ** C23 *)
Lemma zip_none_eq ns : zip_none ns = zip ns (repeat WNone (length ns)).
Proof. induction ns as [|n ns IH]; [done|]. unfold zip_none in *. simpl. by rewrite IH. Qed.
Lemma triples_node d ns ws : length ws = length ns -> map tnode (triples d ns ws) = ns.
Proof.
  revert ws. induction ns as [|n ns IH]; intros [|w ws] H; try done. unfold triples in *. simpl in *. f_equal. apply IH. lia.
Qed.
Lemma map_Some_node d ns ws : length ws = length ns -> map (fun t => Some (tnode t)) (triples d ns ws) = map Some ns.
Proof. intros H. rewrite <- (triples_node d ns ws H) at 2. by rewrite map_map. Qed.
Lemma reach_void {A} s (m : M A) o a s' : reach s -> allowed (heap s) o -> exec o = void m -> m s = (Ok a, s') -> reach s'.
Proof. intros R Ha Ho E. pose proof (reach_step s o R Ha) as H. rewrite Ho, snd_void, E in H. exact H. Qed.

Lemma q_C23 s f p nm ns d vs e s' : reach s -> exists_in (heap s) p -> Forall (exists_in (heap s)) ns ->
  connect_nodes f p nm ns d vs s = (Ok e, s') ->
  let ws := weights_of (length ns) vs in
  length ws = length ns /\ reach s' /\
  exists rs, edge_made s s' p e nm (triples d ns ws) rs /\ NoDup ns /\
    sub_relations e s' = (Ok rs, s') /\ induced_subset e s' = (Ok (map Some ns), s').
Proof.
  intros R [op Hp] Hns E ws. pose proof (reach_wf s R) as W.
  assert (R' : reach s'). { eapply (reach_void s _ (OConnectNodes f p nm ns d vs)); [done| |reflexivity|exact E]. split; [by eexists|done]. }
  unfold connect_nodes in E.
  destruct (hyperedge_cases s f p nm op W Hp) as [[_ (s1 & E1 & _)]|[_ [[_ (s1 & E1 & _)]|[_ (c & s1 & prog & _ & E1 & G & M)]]]];
    [by rewrite (bind_exn _ _ _ _ _ E1) in E..|]. rewrite (bind_ok _ _ _ _ _ E1) in E.
  assert (Hl : length ws = length ns).
  { unfold ws. destruct vs as [l|]; [|apply repeat_length]. cbn [weights_of]. case_decide as Hd; [done|]. done. }
  assert (E2 : bind (connect_each (length (heap s)) d (zip ns ws)) (fun _ => ret (length (heap s))) s1 = (Ok e, s')).
  { unfold ws in *. destruct vs as [l|]; cbn [weights_of] in *.
    - rewrite decide_True in E by done. rewrite (bind_ok (ret _) _ s1 _ s1) in E by done. exact E.
    - rewrite (bind_ok (ret _) _ s1 _ s1) in E by done. rewrite zip_none_eq in E. exact E. }
  unfold bind in E2. rewrite connect_each_list in E2. fold (triples d ns ws) in E2.
  destruct (connect_list (length (heap s)) (triples d ns ws) s1) as [[[]|ex] s2] eqn:E3; [|done]. injection E2 as <- <-.
  destruct (edge_made_intro s s1 s2 p nm _ prog c (triples d ns ws) op W Hp G M) as [rs H]; [by rewrite triples_node|done|].
  split; [done|]. split; [done|]. exists rs. split; [done|]. split; [rewrite <- (triples_node d ns ws Hl); by apply H|].
  destruct (edge_made_relations _ _ _ _ _ _ _ H) as [H1 H2]. split; [done|]. by rewrite H2, map_Some_node.
Qed.

Lemma q_C23_insufficient s f p nm ns d l op : reach s -> heap s !! p = Some op -> is_conceptual (o_kind op) = true ->
  (forall x, x ∈ children (heap s) p -> uuid_of (heap s) x <> sha s (uid_text (f_name f) nm (clk s (f_clock f) (tick s)))) ->
  length l <> length ns ->
  exists e s', connect_nodes f p nm ns d (Some l) s = (Exn ErrorInsufficientValues, s') /\
    ~ exists_in (heap s) e /\ children (heap s') p = children (heap s) p ++ [e] /\ kind_of (heap s') e = Some KEdge /\
    name_of (heap s') e = nm /\ children (heap s') e = [] /\ parent_of (heap s') e = Some p.
Proof.
  intros R Hp Hk Hu Hl. pose proof (reach_wf s R) as W.
  destruct (hyperedge_cases s f p nm op W Hp) as [[Hk' _]|[_ [[(x & Hx & Hux) _]|[_ (c & s1 & prog & _ & E1 & G & M)]]]].
  { by rewrite Hk in Hk'. } { by destruct (Hu x Hx). }
  destruct (gr_fresh _ _ _ _ _ G) as (F1 & F2 & F3 & F4).
  exists (length (heap s)), s1. split.
  { unfold connect_nodes. rewrite (bind_ok _ _ _ _ _ E1). rewrite decide_False by done. done. }
  split; [done|]. split; [apply G|]. split; [unfold kind_of; by rewrite (fixed_get o_kind _ _ _ (fun _ => eq_refl) F4)|].
  split; [unfold name_of; by rewrite (fixed_get o_name _ _ _ (fun _ => eq_refl) F4)|]. done.
Qed.

Lemma connect_list_ok e en c : forall ts s oe, WF0 (heap s) -> heap s !! e = Some oe -> o_kind oe = KEdge -> o_ready oe = true -> o_clock oe = Some c -> o_name oe = en ->
  Forall (fun t => exists on, heap s !! tnode t = Some on /\ is_hyperelement (o_kind on) = true /\ o_ready on = true /\ tnode t <> e) ts ->
  NoDup (map (fun t => name_of (heap s) (tnode t)) ts) ->
  (forall t t', t ∈ ts -> t' ∈ ts -> let a := name_of (heap s) (tnode t) in let b := name_of (heap s) (tnode t') in
     sha s (elem_id_text en a) = sha s (elem_id_text en b) -> a = b) ->
  (forall x t, x ∈ children (heap s) e -> t ∈ ts -> uuid_of (heap s) x <> sha s (elem_id_text en (name_of (heap s) (tnode t)))) ->
  (forall x t z, t ∈ ts -> x ∈ children (heap s) (tnode t) ->
     uuid_of (heap s) x <> sha s (elem_id_text (name_of (heap s) (tnode t)) (rel_name en (name_of (heap s) (tnode t)) z))) ->
  exists s', connect_list e ts s = (Ok tt, s').
Proof.
  induction ts as [|[[n d] w] ts IH]; intros s oe W He Hk Hrd Hc Hen Hts Hnd Hi Hu Hp; [by exists s|].
  apply Forall_cons in Hts as [(on & Hn & Hh & Hro & Hne) Hts]. cbn [tnode fst] in Hn, Hne. cbn [connect_list].
  assert (Hnn : name_of (heap s) n = o_name on) by (unfold name_of; by rewrite Hn).
  destruct (unary_ok s e n oe on c w d W He Hn Hne Hk Hrd Hc Hh Hro) as (s1 & E & C & M & _).
  { intros x Hx. rewrite Hen, <- Hnn. apply (Hu x (n, d, w) Hx). left. }
  { intros x Hx. rewrite Hen, <- Hnn. apply (Hp x (n, d, w)); [left|done]. }
  rewrite (bind_ok _ _ _ _ _ E). pose proof (cn_kept _ _ _ _ _ _ _ _ C) as K.
  cbn [map tnode fst] in Hnd. apply NoDup_cons in Hnd as [Hni Hnd].
  assert (Htx : forall t, t ∈ ts -> exists_in (heap s) (tnode t)).
  { intros t Ht. rewrite Forall_forall in Hts. destruct (Hts t Ht) as (x & Hx & _). by eexists. }
  assert (Hname : forall t, t ∈ ts -> name_of (heap s1) (tnode t) = name_of (heap s) (tnode t)).
  { intros t Ht. apply kept_name; [done|by apply Htx]. }
  assert (Hdiff : forall t, t ∈ ts -> tnode t <> n).
  { intros t Ht Heq. apply Hni. apply elem_of_list_fmap. exists t. by rewrite Heq. }
  pose proof (cn_fixed _ _ _ _ _ _ _ _ C e ltac:(by eexists) ltac:(done)) as Hfe. rewrite He in Hfe.
  destruct (heap s1 !! e) as [oe1|] eqn:He1; [|done]. cbn [fmap option_fmap option_map] in Hfe. apply (inj Some) in Hfe.
  destruct (cn_fr _ _ _ _ _ _ _ _ C) as (Fr1 & Fr2 & Fr3 & Fr4).
  apply (IH s1 oe1).
  - apply C. - done.
  - change (o_kind (fixed_part oe1) = KEdge). by rewrite Hfe. - change (o_ready (fixed_part oe1) = true). by rewrite Hfe.
  - change (o_clock (fixed_part oe1) = Some c). by rewrite Hfe. - change (o_name (fixed_part oe1) = en). by rewrite Hfe.
  - apply Forall_forall. intros t Ht. rewrite Forall_forall in Hts. destruct (Hts t Ht) as (x & Hx & H1 & H2 & H3).
    pose proof (cn_fixed _ _ _ _ _ _ _ _ C (tnode t) ltac:(by eexists) (Hdiff t Ht)) as Hf. rewrite Hx in Hf.
    destruct (heap s1 !! tnode t) as [x1|]; [|done]. cbn [fmap option_fmap option_map] in Hf. apply (inj Some) in Hf. exists x1. split; [done|].
    split; [change (is_hyperelement (o_kind (fixed_part x1)) = true); by rewrite Hf|].
    split; [change (o_ready (fixed_part x1) = true); by rewrite Hf|done].
  - erewrite map_ext_in; [exact Hnd|]. intros t Ht. apply elem_of_list_In in Ht. by apply Hname.
  - intros t t' Ht Ht'. rewrite (m_sha _ _ M), !Hname by done. apply Hi; by right.
  - intros x t Hx Ht. rewrite (m_sha _ _ M), Hname by done. rewrite (cn_e _ _ _ _ _ _ _ _ C) in Hx. apply elem_of_app in Hx as [Hx|Hx].
    + rewrite (kept_uuid _ _ _ K) by (by eapply wf_children_exist). apply Hu; [done|by right].
    + apply elem_of_list_singleton in Hx as ->. unfold uuid_of. rewrite (fixed_get o_uuid _ _ _ (fun _ => eq_refl) Fr4). unfold rel_obj. cbn.
      rewrite Hen, <- Hnn. intros Hs. apply (Hi (n, d, w) t) in Hs; [|left|by right]. cbn [tnode fst] in Hs.
      apply Hni. apply elem_of_list_fmap. by exists t.
  - intros x t z Ht Hx. rewrite (m_sha _ _ M), Hname by done. rewrite (cn_other _ _ _ _ _ _ _ _ C) in Hx; [|by apply Htx| |by apply Hdiff].
    2: { rewrite Forall_forall in Hts. by destruct (Hts t Ht) as (? & _ & _ & _ & ?). }
    rewrite (kept_uuid _ _ _ K) by (by eapply wf_children_exist). apply Hp; [by right|done].
Qed.

Lemma q_C23_succeeds s f p nm ns d vs op : reach s -> heap s !! p = Some op -> is_conceptual (o_kind op) = true -> p ∉ ns ->
  Forall (fun n => exists on, heap s !! n = Some on /\ is_hyperelement (o_kind on) = true /\ o_ready on = true) ns ->
  length (weights_of (length ns) vs) = length ns -> NoDup (map (name_of (heap s)) ns) ->
  (forall x, x ∈ children (heap s) p -> uuid_of (heap s) x <> sha s (uid_text (f_name f) nm (clk s (f_clock f) (tick s)))) ->
  (forall n n', n ∈ ns -> n' ∈ ns -> sha s (nm +:+ "/" +:+ name_of (heap s) n) = sha s (nm +:+ "/" +:+ name_of (heap s) n') ->
     name_of (heap s) n = name_of (heap s) n') ->
  (forall n x t, n ∈ ns -> x ∈ children (heap s) n ->
     uuid_of (heap s) x <> sha s (name_of (heap s) n +:+ "/" +:+ "rel" +:+ join "." [nm; name_of (heap s) n; str_of_Z t])) ->
  exists e s', connect_nodes f p nm ns d vs s = (Ok e, s').
Proof.
  intros R Hp Hk Hpn Hns Hl Hnd Hu Hi Hpo. pose proof (reach_wf s R) as W. set (ws := weights_of (length ns) vs) in *.
  destruct (hyperedge_cases s f p nm op W Hp) as [[Hk' _]|[_ [[(x & Hx & Hux) _]|[_ (c & s1 & prog & _ & E1 & G & M)]]]].
  { by rewrite Hk in Hk'. } { by destruct (Hu x Hx). }
  destruct (gr_fresh _ _ _ _ _ G) as (F1 & F2 & F3 & F4). set (e := length (heap s)) in *. pose proof (gr_kept _ _ _ _ _ G) as K.
  assert (Hmt : forall t, t ∈ triples d ns ws -> tnode t ∈ ns).
  { intros t Ht. rewrite <- (triples_node d ns ws Hl). by apply elem_of_list_fmap_1. }
  assert (Hex : forall n, n ∈ ns -> exists_in (heap s) n).
  { intros n Hn. rewrite Forall_forall in Hns. destruct (Hns n Hn) as (x & Hx & _). by eexists. }
  assert (Hnm : forall n, n ∈ ns -> name_of (heap s1) n = name_of (heap s) n) by (intros n Hn; apply kept_name; [done|by apply Hex]).
  destruct (heap s1 !! e) as [oe|] eqn:He; [|done]. cbn [fmap option_fmap option_map] in F4. apply (inj Some) in F4.
  destruct (connect_list_ok e nm c (triples d ns ws) s1 oe) as [s' E].
  - apply G. - done.
  - change (o_kind (fixed_part oe) = KEdge). by rewrite F4. - change (o_ready (fixed_part oe) = true). by rewrite F4.
  - change (o_clock (fixed_part oe) = Some c). by rewrite F4. - change (o_name (fixed_part oe) = nm). by rewrite F4.
  - apply Forall_forall. intros t Ht. apply Hmt in Ht. rewrite Forall_forall in Hns. destruct (Hns _ Ht) as (on & Hon & H1 & H2).
    pose proof (kept_attr ident_part _ _ (tnode t) (fun _ => eq_refl) K ltac:(by eexists)) as Ha. rewrite Hon in Ha.
    destruct (heap s1 !! tnode t) as [o1|]; [|done]. cbn [fmap option_fmap option_map] in Ha. apply (inj Some) in Ha. exists o1. split; [done|].
    split; [change (is_hyperelement (o_kind (ident_part o1)) = true); by rewrite Ha|].
    split; [change (o_ready (ident_part o1) = true); by rewrite Ha|]. intros Heq. apply F1. rewrite <- Heq. by eexists.
  - rewrite <- (map_map tnode). rewrite triples_node by done. erewrite map_ext_in; [exact Hnd|]. intros n Hn. apply elem_of_list_In in Hn. by apply Hnm.
  - intros t t' Ht%Hmt Ht'%Hmt. rewrite (m_sha _ _ M), !Hnm by done. by apply Hi.
  - intros x t Hx. rewrite F3 in Hx. by apply elem_of_nil in Hx.
  - intros x t z Ht%Hmt Hx. rewrite (m_sha _ _ M), !Hnm by done. rewrite (gr_other _ _ _ _ _ G) in Hx; [|by apply Hex|by intros Heq; rewrite Heq in Ht].
    rewrite (kept_uuid _ _ _ K) by (by eapply wf_children_exist). by apply Hpo.
  - exists e, s'. unfold connect_nodes. rewrite (bind_ok _ _ _ _ _ E1).
    assert (E2 : connect_each e d (zip ns ws) s1 = (Ok tt, s')) by (by rewrite connect_each_list).
    unfold ws in *. destruct vs as [l|]; cbn [weights_of] in *.
    + rewrite decide_True by done. rewrite (bind_ok (ret _) _ s1 _ s1) by done. by rewrite (bind_ok _ _ _ _ _ E2).
    + rewrite (bind_ok (ret _) _ s1 _ s1) by done. rewrite zip_none_eq. by rewrite (bind_ok _ _ _ _ _ E2).
Qed.

(** ** C24 *)
Lemma triples_app d ns ns' ws ws' : length ws = length ns -> triples d (ns ++ ns') (ws ++ ws') = triples d ns ws ++ triples d ns' ws'.
Proof.
  unfold triples. revert ws. induction ns as [|n ns IH]; intros [|w ws] H; try done. simpl in *. f_equal. apply IH. lia.
Qed.
Lemma q_C24 s f p nm ins outs dd vs e s' : reach s -> exists_in (heap s) p -> Forall (exists_in (heap s)) ins -> Forall (exists_in (heap s)) outs ->
  connect_2factor_edges f p nm ins outs dd vs s = (Ok e, s') ->
  let ws := weights_of (length ins + length outs) vs in
  length ws = length ins + length outs /\ reach s' /\
  exists rs, edge_made s s' p e nm (triples (fst dd) (ins ++ outs) ws) rs /\
    sub_relations e s' = (Ok rs, s') /\ induced_subset e s' = (Ok (map Some (ins ++ outs)), s') /\
    (forall r, r ∈ rs -> attr_of o_dir (heap s') r = Some (fst dd)).
Proof.
  intros R [op Hp] Hi Ho E ws. pose proof (reach_wf s R) as W.
  assert (R' : reach s'). { eapply (reach_void s _ (OConnect2 f p nm ins outs dd vs)); [done| |reflexivity|exact E]. split; [by eexists|done]. }
  unfold connect_2factor_edges in E.
  destruct (hyperedge_cases s f p nm op W Hp) as [[_ (s1 & E1 & _)]|[_ [[_ (s1 & E1 & _)]|[_ (c & s1 & prog & _ & E1 & G & M)]]]];
    [by rewrite (bind_exn _ _ _ _ _ E1) in E..|]. rewrite (bind_ok _ _ _ _ _ E1) in E. set (e0 := length (heap s)) in *.
  assert (Hl : length ws = length ins + length outs).
  { unfold ws. destruct vs as [l|]; [|apply repeat_length]. cbn [weights_of]. case_decide as Hd; [lia|done]. }
  assert (Hlt : length (take (length ins) ws) = length ins) by (rewrite take_length; lia).
  assert (E2 : bind (connect_each e0 dd.1 (zip ins (take (length ins) ws))) (fun _ => connect_each e0 dd.1 (zip outs (drop (length ins) ws)) ;; ret e0) s1 = (Ok e, s')).
  { unfold ws in *. destruct vs as [l|]; cbn [weights_of] in *.
    - rewrite decide_True in E by lia. rewrite (bind_ok (ret _) _ s1 _ s1) in E by done. exact E.
    - rewrite (bind_ok (ret _) _ s1 _ s1) in E by done. cbn [fst snd] in E. rewrite !zip_none_eq in E.
      replace (take (length ins) (repeat WNone (length ins + length outs))) with (repeat WNone (length ins)).
      2: { clear. induction ins as [|i ins IH]; simpl; [by rewrite take_0|]. by rewrite IH. }
      replace (drop (length ins) (repeat WNone (length ins + length outs))) with (repeat WNone (length outs)).
      2: { clear. induction ins as [|i ins IH]; simpl; [by rewrite drop_0|done]. }
      exact E. }
  assert (E3 : connect_list e0 (triples dd.1 (ins ++ outs) ws) s1 = (Ok tt, s') /\ e = e0).
  { rewrite <- (take_drop (length ins) ws). rewrite triples_app by done. rewrite connect_list_app. unfold bind in *.
    rewrite connect_each_list in E2. fold (triples dd.1 ins (take (length ins) ws)) in E2.
    destruct (connect_list e0 (triples dd.1 ins (take (length ins) ws)) s1) as [[[]|ex] s2]; [|done].
    rewrite connect_each_list in E2. fold (triples dd.1 outs (drop (length ins) ws)) in E2.
    destruct (connect_list e0 (triples dd.1 outs (drop (length ins) ws)) s2) as [[[]|ex] s3]; [|done]. by injection E2 as <- <-. }
  destruct E3 as [E3 ->]. assert (Hl' : length ws = length (ins ++ outs)) by (by rewrite app_length).
  destruct (edge_made_intro s s1 s' p nm _ prog c (triples dd.1 (ins ++ outs) ws) op W Hp G M) as [rs H]; [rewrite triples_node by done; by apply Forall_app|done|].
  split; [done|]. split; [done|]. exists rs. split; [done|].
  destruct (edge_made_relations _ _ _ _ _ _ _ H) as [H1 H2]. split; [done|]. split; [etrans; [exact H2|]; by rewrite map_Some_node|].
  intros r Hr. pose proof (em_made _ _ _ _ _ _ _ H) as F. apply elem_of_list_lookup in Hr as [i Hr].
  destruct (Forall2_lookup_l _ _ _ _ _ F Hr) as ([[n d] w] & Ht & _ & _ & _ & _ & _ & Hd & _). rewrite Hd.
  apply elem_of_list_lookup_2, elem_of_list_fmap in Ht as [[n' w'] [[= -> -> ->] _]]. done.
Qed.
Lemma q_C24_dir s f p nm ins outs e s' : reach s -> exists_in (heap s) p -> Forall (exists_in (heap s)) ins -> Forall (exists_in (heap s)) outs ->
  connect_dir_edges f p nm ins outs s = (Ok e, s') ->
  exists rs, outgoing_relations e s' = (Ok [], s') /\ incoming_relations e s' = (Ok rs, s') /\
    length rs = length ins + length outs /\ induced_subset e s' = (Ok (map Some (ins ++ outs)), s').
Proof.
  intros R Hp Hi Ho E. destruct (q_C24 s f p nm ins outs (INWARDS, OUTWARDS) None e s' R Hp Hi Ho E) as (Hl & R' & rs & H & H1 & H2 & H3).
  pose proof (em_kind _ _ _ _ _ _ _ H) as Hk. unfold kind_of in Hk. destruct (heap s' !! e) as [oe|] eqn:He; [|done].
  destruct (q_C19 s' e oe He) as (rs' & ins' & outs' & A1 & A2 & A3 & A4 & A5 & _). rewrite H1 in A1. injection A1 as <-.
  exists rs. rewrite A2, A3, A4, A5. cbn [fst] in H3. split; [|split; [|split; [|done]]].
  - f_equal. f_equal. clear -H3. induction rs as [|r rs IH]; [done|]. rewrite filter_cons, decide_False.
    + apply IH. intros x Hx. apply H3. by right. + rewrite H3 by left. by intros [?|?].
  - f_equal. f_equal. clear -H3. induction rs as [|r rs IH]; [done|]. rewrite filter_cons, decide_True.
    + f_equal. apply IH. intros x Hx. apply H3. by right. + left. by rewrite H3 by left.
  - rewrite (Forall2_length _ _ _ (em_made _ _ _ _ _ _ _ H)). unfold triples. rewrite map_length, zip_with_length, app_length, Hl. lia.
Qed.

(** ** C25 *)
Lemma hyperedge_result f p nm s e s' : create_hyperedge f p nm s = (Ok e, s') ->
  uuid_of (heap s') e = sha s (uid_text (f_name f) nm (clk s (f_clock f) (tick s))).
Proof.
  intros E. destruct (heap s !! p) as [op|] eqn:Hp.
  2: { unfold create_hyperedge, stamped_name in E. rewrite (bind_ok _ _ _ _ _ (gen_uid_eq f nm s)), bind_assoc in E. unfold bind at 1, deref at 1 in E.
       cbn [heap set_tick] in E. by rewrite Hp in E. }
  destruct (is_conceptual (o_kind op)) eqn:Hk.
  - rewrite (hyperedge_eq f p nm op s Hp Hk) in E. apply new_con_result in E as (_ & o & Ho & _ & Hu & _). unfold uuid_of. by rewrite Ho.
  - unfold create_hyperedge in E. rewrite (bind_ok _ _ _ _ _ (gen_uid_eq f nm s)) in E. set (s1 := set_tick (S (tick s)) s) in *.
    unfold stamped_name in E. rewrite bind_assoc in E. rewrite (bind_ok _ _ _ _ _ (deref_ok p s1 op Hp)) in E. rewrite bind_assoc in E.
    rewrite (bind_ok (now (f_clock f)) _ s1 (clk s (f_clock f) (S (tick s))) (set_tick (S (S (tick s))) s)) in E by done.
    set (s2 := set_tick (S (S (tick s))) s) in *. rewrite (bind_ok (ret _) _ s2 _ s2) in E by done.
    unfold clock_of in E. rewrite bind_assoc in E. rewrite (bind_ok _ _ _ _ _ (deref_ok p s2 op Hp)), Hk in E. done.
Qed.
Lemma stamped_eq f nm p op s : heap s !! p = Some op ->
  stamped_name f nm p s = (Ok (join "/" [o_qname op; nm] +:+ "." +:+ str_of_Z (clk s (f_clock f) (tick s))), set_tick (S (tick s)) s).
Proof. intros Hp. unfold stamped_name. rewrite (bind_ok _ _ _ _ _ (deref_ok _ _ _ Hp)). done. Qed.
Lemma stamped_none f nm p s : heap s !! p = None -> stamped_name f nm p s = (Exn BadRef, s).
Proof. intros Hp. unfold stamped_name, bind at 1, deref at 1. by rewrite Hp. Qed.

(** Allocation followed by add_element and something that keeps uuids. *)
Lemma alloc_add_uuid (o : obj) p (k : loc -> M loc) s x s' : (forall l, pres (k l)) -> (forall l s r s', k l s = (Ok r, s') -> r = l) ->
  bind (alloc o) (fun l => add_element p l ;; k l) s = (Ok x, s') -> uuid_of (heap s') x = o_uuid o /\ x = length (heap s).
Proof.
  intros Hp Hr E. rewrite (bind_ok _ _ _ _ _ (alloc_state s o)) in E. set (l := length (heap s)) in *. set (s1 := set_heap _ s) in *.
  pose proof (pres_add_element p l s1) as M1. destruct (add_element p l s1) as [[[]|ex] s2] eqn:E2; [|by rewrite (bind_exn _ _ _ _ _ E2) in E].
  rewrite (bind_ok _ _ _ _ _ E2) in E. cbn [snd] in M1. pose proof (Hp l s2) as M2. rewrite E in M2. cbn [snd] in M2.
  apply Hr in E as ->. split; [|done]. assert (Ho : heap s1 !! l = Some o) by (unfold s1, l; simpl; by rewrite lookup_app_r, Nat.sub_diag by lia).
  destruct (m_obj _ _ (mono_trans _ _ _ M1 M2) l o Ho) as (o' & Ho' & Hm). unfold uuid_of. rewrite Ho'. simpl. apply Hm.
Qed.
Lemma alloc_add_dup (o : obj) p op (k : loc -> M loc) s y : heap s !! p = Some op -> (o_uuid o, y) ∈ o_subs op ->
  exists s', bind (alloc o) (fun l => add_element p l ;; k l) s = (Exn ErrorDuplicateElement, s').
Proof.
  intros Hp Hy. rewrite (bind_ok _ _ _ _ _ (alloc_state s o)). set (l := length (heap s)) in *. set (s1 := set_heap _ s).
  assert (Hlt : p < length (heap s)) by (by apply lookup_lt_Some in Hp).
  eexists. rewrite (bind_exn _ _ _ _ _ (q_C07_dup s1 p l op o y ltac:(unfold s1; simpl; by rewrite lookup_app_l)
    ltac:(unfold s1, l; simpl; by rewrite lookup_app_r, Nat.sub_diag by lia) ltac:(unfold l; lia) Hy)). done.
Qed.
Lemma value_eq f p nm vs op s : heap s !! p = Some op ->
  create_value f (Some p) nm vs s =
  bind (alloc (s_dim (length (default [] vs)) (s_vals (default [] vs)
     (blank KValue (sha s (uid_text (f_name f) nm (clk s (f_clock f) (tick s)))) nm
        (join "/" [o_qname op; nm] +:+ "." +:+ str_of_Z (clk s (f_clock f) (S (tick s))))))))
     (fun v => add_element p v ;; ret v) (set_tick (S (S (tick s))) s).
Proof.
  intros Hp. unfold create_value. rewrite (bind_ok _ _ _ _ _ (gen_uid_eq f nm s)). set (s1 := set_tick (S (tick s)) s).
  rewrite (bind_ok _ _ _ _ _ (stamped_eq f nm p op s1 Hp)). done.
Qed.
Lemma sem_eq f raw nm p attr vs cl op s : heap s !! p = Some op -> attr <> [] -> type_class (norm_type raw) = Some cl ->
  generate_semantic_element f raw nm p attr vs s =
  bind (alloc (s_attr attr (blank (KSem cl) (sha s (uid_text (f_name f) nm (clk s (f_clock f) (tick s)))) nm
        (join "/" [o_qname op; nm] +:+ "." +:+ str_of_Z (clk s (f_clock f) (S (tick s)))))))
     (fun el => add_element p el ;; match vs with None => ret tt | Some v => add_named_attribute el "values" v end ;; ret el) (set_tick (S (S (tick s))) s).
Proof.
  intros Hp Ha Hc. unfold generate_semantic_element. destruct attr as [|kv attr]; [done|]. rewrite (bind_ok _ _ _ _ _ (gen_uid_eq f nm s)).
  set (s1 := set_tick (S (tick s)) s). rewrite Hc. rewrite (bind_ok _ _ _ _ _ (stamped_eq f nm p op s1 Hp)). done.
Qed.

Lemma q_C25 m f p nm s x s' : make m f p nm s = (Ok x, s') ->
  uuid_of (heap s') x = sha s (uid_text (f_name f) nm (clk s (f_clock f) (tick s))).
Proof.
  destruct m as [|vs|raw attr vs]; cbn [make]; intros E.
  - by apply (hyperedge_result f p nm s x s').
  - destruct (heap s !! p) as [op|] eqn:Hp.
    + rewrite (value_eq f p nm vs op s Hp) in E.
      apply (alloc_add_uuid _ p (fun v => ret v)) in E as [E _]; [exact E|intros; apply pres_ret|]. by intros l s0 r s0' [= <- _].
    + unfold create_value in E. rewrite (bind_ok _ _ _ _ _ (gen_uid_eq f nm s)) in E. by rewrite (bind_exn _ _ _ _ _ (stamped_none f nm p (set_tick (S (tick s)) s) Hp)) in E.
  - destruct attr as [|kv attr]; [done|]. destruct (type_class (norm_type raw)) as [cl|] eqn:Hc.
    2: { unfold generate_semantic_element in E. rewrite (bind_ok _ _ _ _ _ (gen_uid_eq f nm s)), Hc in E. done. }
    destruct (heap s !! p) as [op|] eqn:Hp.
    + rewrite (sem_eq f raw nm p (kv :: attr) vs cl op s Hp ltac:(done) Hc) in E.
      apply (alloc_add_uuid _ p (fun el => match vs with None => ret tt | Some v => add_named_attribute el "values" v end ;; ret el)) in E as [E _]; [exact E| |].
      * intros l. apply pres_bind; [|intros; apply pres_ret]. destruct vs as [v|]; [|apply pres_ret]. apply pres_upd. intros a b c. by destruct (obj_mono_refl a b c).
      * intros l s0 r s0'. unfold bind. destruct (match vs with None => ret tt | Some v => add_named_attribute l "values" v end s0) as [[[]|ex] s2]; [|done].
        by intros [= <- _].
    + unfold generate_semantic_element in E. rewrite (bind_ok _ _ _ _ _ (gen_uid_eq f nm s)), Hc in E.
      by rewrite (bind_exn _ _ _ _ _ (stamped_none f nm p (set_tick (S (tick s)) s) Hp)) in E.
Qed.

Lemma q_C25_containers m m' f p p' nm s x s1 s' x' s1' : make m f p nm s = (Ok x, s1) -> make m' f p' nm s' = (Ok x', s1') ->
  sha s' = sha s -> clk s' (f_clock f) (tick s') = clk s (f_clock f) (tick s) -> uuid_of (heap s1') x' = uuid_of (heap s1) x.
Proof. intros E E' Hs Ht. by rewrite (q_C25 _ _ _ _ _ _ _ E), (q_C25 _ _ _ _ _ _ _ E'), Hs, Ht. Qed.

Lemma q_C25_second m m' f p op nm s x s1 s2 : reach s -> exists_in (heap s) p -> make m f p nm s = (Ok x, s1) -> history MAny s1 s2 -> x ∈ children (heap s2) p ->
  clk s2 (f_clock f) (tick s2) = clk s (f_clock f) (tick s) -> heap s2 !! p = Some op -> is_conceptual (o_kind op) = true ->
  (forall raw attr vs, m' = MkSem raw attr vs -> attr <> [] /\ type_class (norm_type raw) <> None) ->
  exists s3, make m' f p nm s2 = (Exn ErrorDuplicateElement, s3).
Proof.
  intros R Hpe E H Hx Ht Hp Hk Hm. pose proof (q_C25 _ _ _ _ _ _ _ E) as Hu.
  assert (M1 : mono s s1).
  { assert (P : pres (make m f p nm)) by (destruct m; [apply pres_create_hyperedge|apply pres_create_value|apply pres_semantic]).
    specialize (P s). by rewrite E in P. }
  assert (R1 : reach s1).
  { destruct m as [|vs|raw attr vs]; cbn [make] in E;
      [eapply (reach_void s _ (OHyperedge f p nm))|eapply (reach_void s _ (OCreateValue f (Some p) nm vs))|eapply (reach_void s _ (OSemantic f raw nm p attr vs))]; try done. }
  pose proof (history_mono MAny s1 s2 H) as M2.
  pose proof (history_reach _ _ _ R1 H) as R2. pose proof (reach_wf _ R2) as W2.
  set (u := sha s2 (uid_text (f_name f) nm (clk s2 (f_clock f) (tick s2)))).
  assert (Hu2 : uuid_of (heap s2) x = u).
  { unfold u. rewrite Ht, (m_sha _ _ M2), (m_sha _ _ M1), <- Hu. unfold uuid_of. 
    assert (Hxe : exists_in (heap s1) x).
    { destruct (heap s1 !! x) eqn:Ex; [by eexists|]. exfalso.
      assert (Hx1 : exists_in (heap s1) x); [|unfold exists_in in Hx1; rewrite Ex in Hx1; by destruct Hx1].
      clear -E R Hpe. destruct m as [|vs|raw attr vs]; cbn [make] in E.
      - by eapply create_hyperedge_exists.
      - destruct Hpe as [op Hp]. rewrite (value_eq f p nm vs op s Hp) in E. rewrite (bind_ok _ _ _ _ _ (alloc_state _ _)) in E.
        match type of E with bind (add_element p ?l) _ ?sa = _ => pose proof (pres_add_element p l sa) as M; destruct (add_element p l sa) as [[[]|ex] sb] eqn:Ea end;
          [rewrite (bind_ok _ _ _ _ _ Ea) in E|by rewrite (bind_exn _ _ _ _ _ Ea) in E]. injection E as <- <-. cbn [snd] in M.
        eapply mono_exists; [exact M|]. apply exists_in_lt. cbn [heap set_heap set_tick]. rewrite app_length. simpl. lia.
      - destruct Hpe as [op Hp]. destruct attr as [|kv attr]; [done|]. destruct (type_class (norm_type raw)) as [cl|] eqn:Hc.
        2: { unfold generate_semantic_element in E. rewrite (bind_ok _ _ _ _ _ (gen_uid_eq f nm s)), Hc in E. done. }
        rewrite (sem_eq f raw nm p (kv :: attr) vs cl op s Hp ltac:(done) Hc) in E. rewrite (bind_ok _ _ _ _ _ (alloc_state _ _)) in E.
        match type of E with bind (add_element p ?l) _ ?sa = _ => pose proof (pres_add_element p l sa) as M; destruct (add_element p l sa) as [[[]|ex] sb] eqn:Ea end;
          [rewrite (bind_ok _ _ _ _ _ Ea) in E|by rewrite (bind_exn _ _ _ _ _ Ea) in E]. cbn [snd] in M.
        match type of E with bind ?mm _ sb = _ => assert (P : pres mm) end.
        { destruct vs as [v|]; [|apply pres_ret]. apply pres_upd. intros a b c. by destruct (obj_mono_refl a b c). }
        specialize (P sb). unfold bind in E.
        destruct (match vs with None => ret tt | Some v => add_named_attribute _ "values" v end sb) as [[[]|ex] sc]; [|done]. injection E as <- <-. cbn [snd] in P.
        eapply mono_exists; [exact P|]. eapply mono_exists; [exact M|]. apply exists_in_lt. cbn [heap set_heap set_tick]. rewrite app_length. simpl. lia. }
    destruct Hxe as [ox Hox]. destruct (m_obj _ _ M2 x ox Hox) as (ox' & Hox' & Hmo). rewrite Hox, Hox'. simpl. apply Hmo. }
  destruct (dup_child (heap s2) p op u W2 Hp) as [(y & Hy & _)|Hno]; [|by destruct (Hno x Hx)].
  destruct m' as [|vs|raw attr vs]; cbn [make].
  - destruct (hyperedge_cases s2 f p nm op W2 Hp) as [[Hk' _]|[_ [[_ (s3 & E3 & _)]|[Hno _]]]].
    + by rewrite Hk in Hk'. + by exists s3. + by destruct (Hno x Hx).
  - rewrite (value_eq f p nm vs op s2 Hp). by eapply alloc_add_dup.
  - destruct (Hm raw attr vs eq_refl) as [Ha Hc]. destruct (type_class (norm_type raw)) as [cl|] eqn:Ec; [|done].
    rewrite (sem_eq f raw nm p attr vs cl op s2 Hp Ha Ec). by eapply alloc_add_dup.
Qed.
