(** * Proofs: building a hypergraph from nodes and edges *)
From Verif Require Import PDict PExec PWF PMono PAdd PReach PPrim PHist Spec SpecFac QHier4 QHier5 QHier6 QFac QFac2 History Samples SpecSample.

(** ** uuids of ports *)
Lemma str_len_app (a b : string) : String.length (a +:+ b) = String.length a + String.length b.
Proof. induction a as [|x a IH]; [done|]. change (S (String.length (a +:+ b)) = S (String.length a + String.length b)). by rewrite IH. Qed.
Lemma app_cancel_r (a b c : string) : a +:+ c = b +:+ c -> a = b.
Proof.
  revert b. induction a as [|x a IH]; intros b H.
  - destruct b as [|y b]; [done|]. apply (f_equal String.length) in H. rewrite !str_len_app in H. cbn in H. lia.
  - destruct b as [|y b].
    + apply (f_equal String.length) in H. rewrite !str_len_app in H. cbn in H. lia.
    + change (String x (a +:+ c) = String y (b +:+ c)) in H. injection H as -> H. f_equal. by apply IH.
Qed.
Lemma rel_name_inj a en en' nm z z' : elem_id_text a (rel_name en nm z) = elem_id_text a (rel_name en' nm z') -> en = en'.
Proof.
  unfold elem_id_text, rel_name. cbn [join]. intros H. apply (inj (String.append a)) in H. apply (inj (String.append "/")) in H. apply (inj (String.append "rel")) in H.
  destruct (last_dot (en +:+ "." +:+ nm) (en' +:+ "." +:+ nm) (str_of_Z z) (str_of_Z z') (Z_no_dot z) (Z_no_dot z')) as [X _].
  { rewrite !app_assoc_s. exact H. }
  by apply app_cancel_r in X.
Qed.

(** A port made for an edge with the name [en]. *)
Definition port_for (s : st) (h : list obj) (n : loc) (en : string) (x : loc) : Prop :=
  exists z, uuid_of h x = sha s (elem_id_text (name_of h n) (rel_name en (name_of h n) z)).
Lemma connect_list_ports e : forall ts s s', WF0 (heap s) -> exists_in (heap s) e -> Forall (fun t => exists_in (heap s) (tnode t) /\ tnode t <> e) ts ->
  connect_list e ts s = (Ok tt, s') -> forall n x, exists_in (heap s) n -> n <> e -> x ∈ children (heap s') n ->
  x ∈ children (heap s) n \/ port_for s (heap s') n (name_of (heap s) e) x.
Proof.
  induction ts as [|[[n d] w] ts IH]; intros s s' W Hee Hts E m x Hm Hme Hx; [injection E as <-; by left|].
  apply Forall_cons in Hts as [[Hn Hne] Hts]. cbn [tnode fst] in Hn, Hne. cbn [connect_list] in E.
  destruct (unary_connect e n w d None s) as [[r|ex] s1] eqn:E1; [|by rewrite (bind_exn _ _ _ _ _ E1) in E]. rewrite (bind_ok _ _ _ _ _ E1) in E.
  destruct (unary_inv s e n w d r s1 W Hee Hn Hne E1) as (oe & on & c & He & Hon & Hk & Hr & Hu & C & M).
  set (nm := rel_name _ _ _) in *. set (ur := sha s (elem_id_text (o_name oe) (o_name on))) in *. set (up := sha s (elem_id_text (o_name on) nm)) in *.
  pose proof (cn_kept _ _ _ _ _ _ _ _ C) as K1. destruct (cn_fp _ _ _ _ _ _ _ _ C) as (Fp1 & Fp2 & Fp3 & Fp4).
  assert (Hex1 : forall l, exists_in (heap s) l -> exists_in (heap s1) l) by (intros l; by apply kept_exists).
  assert (Hts1 : Forall (fun t => exists_in (heap s1) (tnode t) /\ tnode t <> e) ts) by (eapply Forall_impl; [exact Hts|]; intros t [H1 H2]; split; [by apply Hex1|done]).
  destruct (connect_list_inv e ts s1 s') as (rs & _ & _ & _ & K2 & _); [by apply C|by apply Hex1|done|done|].
  destruct (IH s1 s' (cn_wf _ _ _ _ _ _ _ _ C) (Hex1 _ Hee) Hts1 E m x (Hex1 _ Hm) Hme Hx) as [Hx1|Hp].
  - destruct (decide (m = n)) as [->|Hmn]; [|left; by rewrite <- (cn_other _ _ _ _ _ _ _ _ C m)].
    rewrite (cn_n _ _ _ _ _ _ _ _ C) in Hx1. apply elem_of_app in Hx1 as [Hx1|Hx1%elem_of_list_singleton]; [by left|]. right. subst x.
    assert (Hpte : exists_in (heap s1) (S r)) by (destruct (heap s1 !! S r) eqn:Er; [by eexists|done]).
    exists (clk s c (tick s)). rewrite (kept_uuid _ _ _ K2), (kept_name _ _ n K2), (kept_name _ _ n K1) by (done || by apply Hex1).
    unfold uuid_of. rewrite (fixed_get o_uuid _ _ _ (fun _ => eq_refl) Fp4). unfold name_of. rewrite He, Hon. reflexivity.
  - right. destruct Hp as [z Hz]. exists z. by rewrite Hz, (m_sha _ _ M), (kept_name _ _ e K1).
Qed.

(** ** One edge *)
Lemma connect_nodes_ports s f p nm ns d e s' : reach s -> exists_in (heap s) p -> Forall (exists_in (heap s)) ns -> connect_nodes f p nm ns d None s = (Ok e, s') ->
  (exists t, uuid_of (heap s') e = sha s (uid_text (f_name f) nm t)) /\
  forall n x, exists_in (heap s) n -> n <> p -> x ∈ children (heap s') n -> x ∈ children (heap s) n \/ port_for s (heap s') n nm x.
Proof.
  intros R [op Hp] Hns E. pose proof (reach_wf s R) as W. unfold connect_nodes in E.
  destruct (hyperedge_cases s f p nm op W Hp) as [[_ (s1 & E1 & _)]|[_ [[_ (s1 & E1 & _)]|[_ (c & s1 & prog & _ & E1 & G & M)]]]]; [by rewrite (bind_exn _ _ _ _ _ E1) in E..|].
  rewrite (bind_ok _ _ _ _ _ E1) in E. rewrite (bind_ok (ret _) _ s1 _ s1) in E by done. rewrite zip_none_eq in E. unfold bind in E. rewrite connect_each_list in E.
  set (ts := map _ (zip ns _)) in E. destruct (connect_list (length (heap s)) ts s1) as [[[]|ex] s2] eqn:E3; [|done]. injection E as <- <-.
  pose proof (gr_kept _ _ _ _ _ G) as K1. destruct (gr_fresh _ _ _ _ _ G) as (F1 & F2 & F3 & F4).
  assert (Hex1 : forall l, exists_in (heap s) l -> exists_in (heap s1) l) by (intros l; by apply kept_exists).
  assert (Hee : exists_in (heap s1) (length (heap s))) by (destruct (heap s1 !! length (heap s)) eqn:Er; [by eexists|done]).
  assert (Hts : Forall (fun t => exists_in (heap s1) (tnode t) /\ tnode t <> length (heap s)) ts).
  { apply Forall_forall. intros t Ht. unfold ts in Ht. apply elem_of_list_fmap in Ht as ([n w] & -> & Ht). cbn [tnode fst snd]. apply elem_of_zip_l in Ht.
    rewrite Forall_forall in Hns. pose proof (Hns n Ht) as Hn. split; [by apply Hex1|]. intros ->. by apply F1. }
  destruct (connect_list_inv _ ts s1 s2 (gr_wf _ _ _ _ _ G) Hee Hts E3) as (rs & _ & _ & _ & K2 & _). split.
  - eexists. rewrite (kept_uuid _ _ _ K2) by done. unfold uuid_of. rewrite (fixed_get o_uuid _ _ _ (fun _ => eq_refl) F4). reflexivity.
  - intros n x Hn Hnp Hx. destruct (connect_list_ports _ ts s1 s2 (gr_wf _ _ _ _ _ G) Hee Hts E3 n x (Hex1 _ Hn)) as [Hx1|[z Hz]].
    + intros ->. by apply F1. + done.
    + left. by rewrite <- (gr_other _ _ _ _ _ G n).
    + right. exists z. rewrite Hz, (m_sha _ _ M). f_equal. f_equal. f_equal. unfold name_of at 1. by rewrite (fixed_get o_name _ _ _ (fun _ => eq_refl) F4).
Qed.

(** ** Many edges *)
Record readyg (f : factory) (p : loc) (Ns : list loc) (done_ : list string) (s : st) : Prop := {
  rg_reach : reach s;
  rg_sha : forall a b, sha s a = sha s b -> a = b;
  rg_p : kind_of (heap s) p = Some KNode;
  rg_not : p ∉ Ns;
  rg_nodes : Forall (fun n => exists on, heap s !! n = Some on /\ o_kind on = KNode /\ o_ready on = true) Ns;
  rg_names : NoDup (map (name_of (heap s)) Ns);
  rg_ports : forall n x, n ∈ Ns -> x ∈ children (heap s) n -> exists en, en ∈ done_ /\ port_for s (heap s) n en x;
  rg_kids : forall x, x ∈ children (heap s) p -> exists k t, uuid_of (heap s) x = sha s (uid_text (f_name f) k t) /\ (k ∈ done_ \/ has_char slash k = true)
}.
Lemma line_go f p Ns dn s en ns d : readyg f p Ns dn s -> en ∉ dn -> has_char slash en = false -> ns ⊆ Ns -> NoDup ns ->
  exists e s', connect_nodes f p en ns d None s = (Ok e, s') /\ readyg f p Ns (en :: dn) s' /\ exists rs, edge_made s s' p e en (triples d ns (repeat WNone (length ns))) rs.
Proof.
  intros G Hen Hsl Hsub Hnd. pose proof (rg_reach _ _ _ _ _ G) as R. pose proof (reach_wf s R) as W.
  pose proof (rg_p _ _ _ _ _ G) as Hkp. unfold kind_of in Hkp. destruct (heap s !! p) as [op|] eqn:Hp; [|done]. cbn in Hkp. injection Hkp as Hkp.
  pose proof (rg_nodes _ _ _ _ _ G) as Hns. rewrite Forall_forall in Hns.
  assert (Hex : Forall (exists_in (heap s)) ns). { apply Forall_forall. intros n Hn. destruct (Hns n (Hsub n Hn)) as (on & Hon & _). by eexists. }
  assert (Hinj : forall n n', n ∈ Ns -> n' ∈ Ns -> name_of (heap s) n = name_of (heap s) n' -> n = n').
  { intros n n' Hn Hn' Heq. apply elem_of_list_lookup in Hn as [i Hi]. apply elem_of_list_lookup in Hn' as [j Hj].
    assert (i = j) as ->; [|congruence]. eapply (NoDup_lookup _ i j _ (rg_names _ _ _ _ _ G)); [by rewrite list_lookup_fmap, Hi|rewrite list_lookup_fmap, Hj; cbn; by rewrite Heq]. }
  destruct (q_C23_succeeds s f p en ns d None op R Hp) as (e & s' & E).
  { by rewrite Hkp. } { intros H. by apply (rg_not _ _ _ _ _ G), Hsub. }
  { apply Forall_forall. intros n Hn. destruct (Hns n (Hsub n Hn)) as (on & Hon & Hk & Hr). exists on. by rewrite Hk. }
  { apply repeat_length. }
  { apply NoDup_fmap_2_strong; [|done]. intros n n' Hn Hn'. apply Hinj; by apply Hsub. }
  { intros x Hx Hu. destruct (rg_kids _ _ _ _ _ G x Hx) as (k & t & Hk & Hor). rewrite Hk in Hu. apply (rg_sha _ _ _ _ _ G) in Hu. apply uid_text_inj in Hu as [-> _]. destruct Hor; [done|congruence]. }
  { intros n n' _ _ H. apply (rg_sha _ _ _ _ _ G) in H. apply (inj (String.append en)) in H. by apply (inj (String.append "/")) in H. }
  { intros n x t Hn Hx Hu. destruct (rg_ports _ _ _ _ _ G n x (Hsub n Hn) Hx) as (en' & Hd & z & Hz). rewrite Hz in Hu. apply (rg_sha _ _ _ _ _ G) in Hu. apply rel_name_inj in Hu. by subst. }
  exists e, s'. split; [done|].
  destruct (q_C23 s f p en ns d None e s' R ltac:(by eexists) Hex E) as (_ & R' & rs & EM & _). cbn [weights_of] in EM.
  pose proof (em_kept _ _ _ _ _ _ _ EM) as K. destruct (connect_nodes_ports s f p en ns d e s' R ltac:(by eexists) Hex E) as [(t & Ht) Hpt].
  assert (Hsha : sha s' = sha s) by (pose proof (pres_connect_nodes f p en ns d None s) as M; rewrite E in M; apply M).
  assert (Hpns : p ∉ map tnode (triples d ns (repeat WNone (length ns)))). { rewrite triples_node by apply repeat_length. intros H. by apply (rg_not _ _ _ _ _ G), Hsub. }
  assert (HexN : forall n, n ∈ Ns -> exists_in (heap s) n) by (intros n Hn; destruct (Hns n Hn) as (on & Hon & _); by eexists).
  split; [|by exists rs]. split.
  - done. - rewrite Hsha. apply G. - rewrite (kept_kind _ _ _ K) by (by eexists). apply G. - apply G.
  - apply Forall_forall. intros n Hn. destruct (Hns n Hn) as (on & Hon & Hk & Hr). pose proof (K n on Hon) as X. destruct (heap s' !! n) as [on'|]; [|done].
    cbn [fmap option_fmap option_map] in X. apply (inj Some) in X. exists on'. split; [done|].
    change (o_kind (ident_part on') = KNode /\ o_ready (ident_part on') = true). by rewrite X.
  - rewrite <- (map_ext_in (name_of (heap s))); [apply G|]. intros n Hn. apply elem_of_list_In in Hn. symmetry. apply (kept_name _ _ _ K). by apply HexN.
  - intros n x Hn Hx. destruct (Hpt n x (HexN n Hn)) as [Hx0|Hx0]; [intros ->; by apply (rg_not _ _ _ _ _ G)|done| |].
    + destruct (rg_ports _ _ _ _ _ G n x Hn Hx0) as (en' & Hd & z & Hz). exists en'. split; [by right|]. exists z.
      rewrite Hsha, (kept_name _ _ _ K) by (by apply HexN). rewrite (kept_uuid _ _ _ K); [done|by eapply wf_children_exist].
    + exists en. split; [left|]. destruct Hx0 as [z Hz]. exists z. by rewrite Hsha.
  - intros x Hx. rewrite (em_p _ _ _ _ _ _ _ EM Hpns) in Hx. rewrite Hsha. apply elem_of_app in Hx as [Hx|Hx%elem_of_list_singleton].
    + destruct (rg_kids _ _ _ _ _ G x Hx) as (k & t' & Hk & Hor). exists k, t'. rewrite (kept_uuid _ _ _ K) by (by eapply wf_children_exist). split; [done|]. destruct Hor; [left; by right|by right].
    + subst x. exists en, t. split; [done|]. left. left.
Qed.

Definition joins_line (h : list obj) (ns : list loc) (e : loc) (l : string * list nat) : Prop :=
  kind_of h e = Some KEdge /\ name_of h e = fst l /\ exists xs, edge_joins h e xs /\ map (fun i => ns !! i) (snd l) = map Some xs.
Lemma joins_keep h h' ns e l : WF0 h -> kept h h' -> children h' e = children h e -> joins_line h ns e l -> joins_line h' ns e l.
Proof.
  intros W K Hc (Hk & Hn & xs & Hj & Hx). assert (He : exists_in h e) by (unfold kind_of in Hk; destruct (h !! e) eqn:X; [by eexists|done]).
  split; [by rewrite (kept_kind _ _ _ K)|]. split; [by rewrite (kept_name _ _ _ K)|]. exists xs. split; [|done]. unfold edge_joins in *. rewrite Hc.
  assert (Hch : Forall (exists_in h) (children h e)) by (apply Forall_forall; intros r Hr; by eapply wf_children_exist).
  clear Hx Hc. revert Hch. induction Hj as [|r n rs xs' (A & B & D) _ IH]; intros Hch; [constructor|]. apply Forall_cons in Hch as [Hr Hch].
  constructor; [|by apply IH]. rewrite (kept_kind _ _ _ K) by done. unfold attr_of in *. rewrite (kept_attr o_endpoint _ _ _ (fun _ => eq_refl) K Hr), (kept_attr o_dir _ _ _ (fun _ => eq_refl) K Hr). done.
Qed.
Lemma pick_ok (ns : list loc) : forall is s, Forall (fun i => i < length ns) is ->
  exists xs, map_m (fun i => of_opt IndexError (ns !! i)) is s = (Ok xs, s) /\ map (fun i => ns !! i) is = map Some xs /\ xs ⊆ ns.
Proof.
  induction is as [|i is IH]; intros s Hi; [exists []; split; [done|]; split; [done|]; intros x Hx; by apply elem_of_nil in Hx|].
  apply Forall_cons in Hi as [Hi Hr]. destruct (IH s Hr) as (xs & E & Hm & Hs). destruct (lookup_lt_is_Some_2 ns i Hi) as [x Hx]. exists (x :: xs). split.
  - cbn [map_m]. rewrite Hx. rewrite (bind_ok (of_opt IndexError (Some x)) _ s x s) by done. by rewrite (bind_ok _ _ _ _ _ E).
  - split; [cbn [map]; by rewrite Hx, Hm|]. intros y Hy. apply elem_of_cons in Hy as [->|Hy]; [by eapply elem_of_list_lookup_2|by apply Hs].
Qed.
Lemma pick_nodup (ns : list loc) is xs : NoDup ns -> NoDup is -> map (fun i => ns !! i) is = map Some xs -> NoDup xs.
Proof.
  intros Hns Hi H. apply NoDup_alt. intros a b x Ha Hb.
  assert (Hg : forall a, xs !! a = Some x -> exists i, is !! a = Some i /\ ns !! i = Some x).
  { intros k Hk. assert (X : map Some xs !! k = Some (Some x)) by (by rewrite list_lookup_fmap, Hk). rewrite <- H in X. apply list_lookup_fmap_inv in X as (i & X1 & X2). by exists i. }
  destruct (Hg a Ha) as (i & Ia & Na), (Hg b Hb) as (j & Ib & Nb). assert (i = j) as -> by exact (NoDup_lookup ns i j x Hns Na Nb). exact (NoDup_lookup is a b j Hi Ia Ib).
Qed.
Lemma lines_go f p Ns : forall lines s dn, readyg f p Ns dn s -> NoDup (map fst lines) ->
  Forall (fun l => fst l ∉ dn /\ has_char slash (fst l) = false /\ NoDup (snd l) /\ Forall (fun i => i < length Ns) (snd l)) lines ->
  exists es s', map_m (connect_line f p Ns) lines s = (Ok es, s') /\ reach s' /\ children (heap s') p = children (heap s) p ++ es /\ Forall2 (joins_line (heap s') Ns) es lines /\
    kept (heap s) (heap s') /\ unmoved (heap s) (heap s') /\ (forall l, exists_in (heap s) l -> l <> p -> l ∉ Ns -> children (heap s') l = children (heap s) l) /\ Forall (fun e => ~ exists_in (heap s) e) es.
Proof.
  induction lines as [|[en is] lines IH]; intros s dn G Hnd Hl.
  - exists [], s. rewrite app_nil_r. split; [done|]. split; [apply G|]. split; [done|]. split; [constructor|]. split; [apply kept_refl|]. split; [done|]. split; [done|constructor].
  - cbn [map fst] in Hnd. apply NoDup_cons in Hnd as [Hni Hnd]. apply Forall_cons in Hl as [(H1 & H2 & H3 & H4) Hl]. cbn [fst snd] in *.
    destruct (pick_ok Ns is s H4) as (xs & Ep & Hm & Hs). pose proof (reach_wf _ (rg_reach _ _ _ _ _ G)) as W.
    destruct (line_go f p Ns dn s en xs BIDIRECTIONAL G H1 H2 Hs) as (e & s1 & E1 & G1 & rs & EM).
    { eapply pick_nodup; [|exact H3|exact Hm]. apply (NoDup_fmap_1 (name_of (heap s))). apply G. }
    destruct (IH s1 (en :: dn) G1 Hnd) as (es & s2 & E2 & R2 & C2 & F2 & K2 & U2 & O2 & N2).
    { apply Forall_forall. intros l Hin. rewrite Forall_forall in Hl. destruct (Hl l Hin) as (A & B). split; [|done]. intros X. apply elem_of_cons in X as [X|X]; [|done].
      apply Hni. rewrite <- X. by apply elem_of_list_fmap_1. }
    pose proof (em_kept _ _ _ _ _ _ _ EM) as K1. assert (Hex1 : forall l, exists_in (heap s) l -> exists_in (heap s1) l) by (intros l; by apply kept_exists).
    assert (Htn : map tnode (triples BIDIRECTIONAL xs (repeat WNone (length xs))) = xs) by (apply triples_node, repeat_length).
    assert (Hpx : p ∉ xs) by (intros X; by apply (rg_not _ _ _ _ _ G), Hs).
    pose proof (em_kind _ _ _ _ _ _ _ EM) as Hke. assert (Hee : exists_in (heap s1) e) by (unfold kind_of in Hke; destruct (heap s1 !! e) eqn:X; [by eexists|done]).
    assert (Hep : e <> p). { intros ->. apply (em_new _ _ _ _ _ _ _ EM). pose proof (rg_p _ _ _ _ _ G) as X. unfold kind_of in X. destruct (heap s !! p) eqn:Y; [by eexists|done]. }
    assert (HeN : e ∉ Ns). { intros X. apply (em_new _ _ _ _ _ _ _ EM). pose proof (rg_nodes _ _ _ _ _ G) as Y. rewrite Forall_forall in Y. destruct (Y e X) as (o & Ho & _). by eexists. }
    exists (e :: es), s2. split.
    { cbn [map_m]. assert (E1' : connect_line f p Ns (en, is) s = (Ok e, s1)). { unfold connect_line. cbn [fst snd]. by rewrite (bind_ok _ _ _ _ _ Ep). }
      rewrite (bind_ok _ _ _ _ _ E1'). by rewrite (bind_ok _ _ _ _ _ E2). }
    split; [done|]. split; [rewrite C2, (em_p _ _ _ _ _ _ _ EM) by (by rewrite Htn); by rewrite <- app_assoc|]. split.
    { constructor; [|done]. eapply joins_keep; [apply reach_wf, G1|exact K2|by apply O2|]. split; [done|]. split; [apply EM|]. exists xs. split; [|done].
      unfold edge_joins. rewrite (em_rels _ _ _ _ _ _ _ EM). pose proof (em_made _ _ _ _ _ _ _ EM) as F. unfold triples in F. apply Forall2_fmap_r in F. clear -F.
      revert rs F. induction xs as [|x xs IH]; intros rs F; cbn in F; [by apply Forall2_nil_inv_r in F as ->|]. apply Forall2_cons_inv_r in F as (r & rs' & Hr & F & ->).
      cbn in Hr. destruct Hr as (_ & A & _ & _ & B & D & _). constructor; [done|by apply IH]. }
    split; [by eapply kept_trans|]. split; [eapply unmoved_trans; [exact Hex1|apply EM|done]|]. split.
    { intros l Hl1 Hlp HlN. rewrite O2 by (done || by apply Hex1). apply (em_other _ _ _ _ _ _ _ EM); [done|done|]. rewrite Htn. intros X. by apply HlN, Hs. }
    constructor; [apply EM|]. eapply Forall_impl; [exact N2|]. intros x Hx Hx'. by apply Hx, Hex1.
Qed.

(** ** The nodes *)
Lemma gen_list_after f p : forall nms s cs s', WF0 (heap s) -> kind_of (heap s) p = Some KNode -> generate_list_nodes f nms (Some p) s = (Ok cs, s') ->
  Forall (fun c => exists k t oc, uuid_of (heap s') c = sha s (uid_text (f_name f) k t) /\ has_char slash k = true /\ heap s' !! c = Some oc /\ o_kind oc = KNode /\ o_ready oc = true) cs /\
  kept (heap s) (heap s').
Proof.
  induction nms as [|nm nms IH]; intros s cs s' W Hk E.
  - injection E as <- <-. split; [constructor|apply kept_refl].
  - unfold generate_list_nodes in E. cbn [map_m] in E. unfold kind_of in Hk. destruct (heap s !! p) as [op|] eqn:Hp; [|done]. cbn in Hk. injection Hk as Hk.
    destruct (gen_node_cases s f nm p op W Hp) as [[_ (s1 & E1)]|(_ & s1 & prog & E1 & G & M & _)]; [by rewrite Hk|by rewrite (bind_exn _ _ _ _ _ E1) in E|].
    rewrite (bind_ok _ _ _ _ _ E1) in E. unfold bind in E. destruct (map_m _ nms s1) as [[cs1|ex] s2] eqn:E2; [|done]. injection E as <- <-.
    pose proof (gr_kept _ _ _ _ _ G) as K1. destruct (IH s1 cs1 s2) as (F & K2); [apply G|by rewrite (kept_kind _ _ _ K1); [unfold kind_of; rewrite Hp; cbn; by rewrite Hk|by eexists]|exact E2|].
    split; [|by eapply kept_trans]. destruct (gr_fresh _ _ _ _ _ G) as (_ & _ & _ & F4). constructor.
    + destruct (heap s1 !! length (heap s)) as [oc|] eqn:Ho; [|done]. cbn [fmap option_fmap option_map] in F4. apply (inj Some) in F4.
      pose proof (K2 _ _ Ho) as X. destruct (heap s2 !! length (heap s)) as [oc'|] eqn:Ho'; [|done]. cbn [fmap option_fmap option_map] in X. apply (inj Some) in X.
      assert (Y : ident_part oc' = ident_part (con_obj KNode (sha s (uid_text (f_name f) (o_qname op +:+ "/" +:+ nm) (clk s (f_clock f) (tick s)))) nm prog (f_clock f))).
      { rewrite X. unfold ident_part. by rewrite F4. }
      eexists _, _, oc'. split; [|split; [|split; [reflexivity|]]].
      * unfold uuid_of. rewrite Ho'. cbn [fmap option_fmap option_map default]. change (o_uuid oc') with (o_uuid (ident_part oc')). rewrite Y. reflexivity.
      * rewrite !has_char_app. apply orb_true_iff. right. reflexivity.
      * change (o_kind (ident_part oc') = KNode /\ o_ready (ident_part oc') = true). by rewrite Y.
    + eapply Forall_impl; [exact F|]. intros c (k & t & oc & A & B). exists k, t, oc. by rewrite <- (m_sha _ _ M).
Qed.
