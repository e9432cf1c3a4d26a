(** * The tensor transformation on closed graphs *)
From Verif Require Import Spec Hierarchy Elements Factory History PDict PPath PExec PBfs PWF PMono PReach PHist Traverse SpecTrav QTrav QTrav2 QTrav3 Homomorphism SpecHom QHom HTraverse Tensor SpecTensor.

(** ** Lists *)
Lemma last_app_eq {A} (a b a' b' : list A) : last a = last a' -> last b = last b' -> last (a ++ b) = last (a' ++ b').
Proof. intros H1 H2. by rewrite !last_app, H1, H2. Qed.
Lemma last_flat_map_ext {A B} (f g : A -> list B) l : (forall x, x ∈ l -> last (f x) = last (g x)) -> last (flat_map f l) = last (flat_map g l).
Proof.
  induction l as [|x l IH]; [done|]. intros H. cbn [flat_map]. apply last_app_eq; [apply H; left|apply IH; intros; apply H; by right].
Qed.
Lemma last_const {A B} (f : A -> B) l w : (forall x, x ∈ l -> f x = w) -> last (map f l) = match l with [] => None | _ => Some w end.
Proof.
  induction l as [|x l IH] using rev_ind; [done|]. intros H. rewrite map_app. cbn [map]. rewrite last_snoc.
  rewrite (H x) by (apply elem_of_app; right; left). by destruct l.
Qed.
Lemma flat_map_one {A B} (f : A -> list B) l k x : l !! k = Some x -> (forall k' y, l !! k' = Some y -> k' <> k -> f y = []) -> flat_map f l = f x.
Proof.
  revert k. induction l as [|z l IH]; intros k Hk H; [done|]. cbn [flat_map]. destruct k as [|k]; simpl in Hk.
  - injection Hk as ->. assert (E : flat_map f l = []); [|by rewrite E, app_nil_r].
    assert (Hl : forall k y, l !! k = Some y -> f y = []) by (intros k y Hy; by apply (H (S k) y)). clear -Hl.
    induction l as [|z l IHl]; [done|]. cbn [flat_map]. rewrite (Hl 0 z eq_refl). apply IHl. intros k y Hy. by apply (Hl (S k)).
  - rewrite (H 0 z eq_refl) by done. cbn [app]. apply (IH k Hk). intros k' y Hy Hne. apply (H (S k') y Hy). lia.
Qed.
Lemma filter_flat_map {A B} (P : B -> Prop) `{!forall x, Decision (P x)} (f : A -> list B) l :
  filter P (flat_map f l) = flat_map (fun x => filter P (f x)) l.
Proof. induction l as [|x l IH]; [done|]. cbn [flat_map]. by rewrite filter_app, IH. Qed.
Lemma concat_flat_map {A B} (f : A -> list (list B)) l : concat (flat_map f l) = flat_map (fun x => concat (f x)) l.
Proof. induction l as [|x l IH]; [done|]. cbn [flat_map]. by rewrite concat_app, IH. Qed.

(** ** Filling *)
Definition in_bounds (T : tensors) (t : htuple nat) : Prop := tu_e t < te_E T /\ tu_0 t < te_n T /\ tu_1 t < te_n T.
Lemma fill_all_ok l T : (forall t, t ∈ l -> in_bounds T t) -> exists T', fill_all T l = Ok T' /\ te_E T' = te_E T /\ te_n T' = te_n T /\
  (forall e i j, te_W T' e i j = default (te_W T e i j) (last (map tu_w (filter (fun t => tu_e t = e /\ tu_0 t = i /\ tu_1 t = j) l)))) /\
  (forall e i, te_Io T' e i = default (te_Io T e i) (last (map tu_w (filter (fun t => tu_e t = e /\ tu_0 t = i) l)))) /\
  (forall e j, te_Ii T' e j = default (te_Ii T e j) (last (map tu_w (filter (fun t => tu_e t = e /\ tu_1 t = j) l)))).
Proof.
  revert T. induction l as [|t l IH]; intros T Hb; [by exists T|]. cbn [fill_all].
  destruct (Hb t ltac:(left)) as (B1 & B2 & B3). unfold fill_tensors.
  rewrite (proj2 (Nat.ltb_lt _ _) B1), (proj2 (Nat.ltb_lt _ _) B2), (proj2 (Nat.ltb_lt _ _) B3). cbn [andb].
  match goal with |- context [fill_all ?x l] => destruct (IH x) as (T' & E & H1 & H2 & H3 & H4 & H5) end.
  { intros u Hu. apply (Hb u). by right. }
  exists T'. cbn [te_E te_n te_W te_Io te_Ii] in *. split; [done|]. split; [done|]. split; [done|].
  assert (D : forall (P : htuple nat -> Prop) `{!forall x, Decision (P x)} (d : Qc),
    default (if decide (P t) then tu_w t else d) (last (map tu_w (filter P l))) = default d (last (map tu_w (filter P (t :: l))))).
  { intros P HP d. rewrite filter_cons. destruct (decide (P t)) as [p|p]; [|done]. cbn [map]. rewrite last_cons.
    by destruct (last (map tu_w (filter P l))). }
  split; [|split].
  - intros e i j. rewrite H3. rewrite <- D. do 2 f_equal. apply decide_ext. naive_solver.
  - intros e i. rewrite H4. rewrite <- D. do 2 f_equal. apply decide_ext. naive_solver.
  - intros e i. rewrite H5. rewrite <- D. do 2 f_equal. apply decide_ext. naive_solver.
Qed.

Lemma set_frh_same s : fr_hyper s = [] -> set_fr_hyper [] s = s.
Proof. destruct s. simpl. by intros ->. Qed.

(** ** The traversal *)
Section trav.
  Context (s : st) (R : reach s) (c : loc).
  Let h := heap s.
  Context (G : closed_graph h c) (x : hom).
  Context (Hn : forall i p, nodes_of h c !! i = Some p -> hom_node x (uuid_of h p) = Ok i).
  Context (He : forall k e, edges_of h c !! k = Some e -> hom_edge x (uuid_of h e) = Ok k).

  Definition nix (p : loc) : nat := match hom_node x (uuid_of h p) with Ok i => i | Exn _ => 0 end.
  Definition eix (e : loc) : nat := match hom_edge x (uuid_of h e) with Ok i => i | Exn _ => 0 end.
  Lemma nix_at i p : nodes_of h c !! i = Some p -> nix p = i.
  Proof. intros H. unfold nix. by rewrite (Hn i p H). Qed.
  Lemma eix_at i p : edges_of h c !! i = Some p -> eix p = i.
  Proof. intros H. unfold eix. by rewrite (He i p H). Qed.
  Lemma nix_inj p q : p ∈ nodes_of h c -> q ∈ nodes_of h c -> nix p = nix q -> p = q.
  Proof.
    intros [i Hi]%elem_of_list_lookup [j Hj]%elem_of_list_lookup. rewrite (nix_at _ _ Hi), (nix_at _ _ Hj). intros ->. congruence.
  Qed.
  Lemma hom_node_nix p : p ∈ nodes_of h c -> hom_node x (uuid_of h p) = Ok (nix p).
  Proof. intros [i Hi]%elem_of_list_lookup. by rewrite (nix_at _ _ Hi), (Hn _ _ Hi). Qed.
  Lemma hom_edge_eix p : p ∈ edges_of h c -> hom_edge x (uuid_of h p) = Ok (eix p).
  Proof. intros [i Hi]%elem_of_list_lookup. by rewrite (eix_at _ _ Hi), (He _ _ Hi). Qed.

  Lemma fkids_get k l : fst (get_subelements l (is_kind k) s) = match h !! l with Some _ => Ok (fkids (is_kind k) h l) | None => Exn BadRef end.
  Proof.
    destruct (h !! l) as [o|] eqn:E.
    - pose proof (fill_eq (mkTrav (is_kind k) None false) s l 0 ltac:(by exists o)) as F. unfold fill_fringe in F. cbn [below_max t_max t_filter] in F.
      destruct (fst (get_subelements l (is_kind k) s)) as [cs|]; [|done]. injection F as F. f_equal.
      apply (f_equal (map fst)) in F. rewrite map_map in F. cbn [fst] in F. rewrite map_id in F. rewrite F.
      by rewrite ik_locs.
    - unfold get_subelements, deref, bind. fold h. by rewrite E.
  Qed.

  Definition nw (r : loc) : nweight := match heap s !! r with Some o => match norm_weight sum_norm s o with Ok n => n | Exn _ => NScalar 0%Qc end | None => NScalar 0%Qc end.
  Lemma rel_weights_spec r o : h !! r = Some o -> weight_ok h r ->
    norm_weight sum_norm s o = Ok (nw r) /\ rel_weights (o_dir o) (nw r) = (w_in h r, w_out h r).
  Proof.
    intros Hr Hw. unfold nw. fold h. rewrite Hr. unfold weight_ok in Hw.
    assert (Ew : weight_of h r = o_weight o) by (unfold weight_of; by rewrite Hr). rewrite Ew in Hw.
    assert (Ed : dir_of h r = Some (o_dir o)) by (unfold dir_of; by rewrite Hr).
    unfold w_in, w_out. rewrite Ed. unfold norm_weight. destruct (o_weight o) as [|v|l]; [| |done].
    - assert (Ea : amount h r = 1%Qc) by (unfold amount; by rewrite Ew). rewrite Ea. split; [done|]. clear.
      destruct (o_dir o); vm_compute; reflexivity.
    - destruct Hw as (ov & qs & H1 & H2 & H3).
      assert (Ea : amount h r = qsum_list qs) by (unfold amount; by rewrite Ew, H1, H3). rewrite Ea. fold h. rewrite H1, H2. cbn [k_value].
      unfold sum_norm. rewrite H3. split; [done|]. generalize (qsum_list qs). intros w. unfold rel_weights.
      destruct (o_dir o); cbn [incidence]; repeat first [rewrite decide_True by auto | rewrite decide_False by (intros [?|?]; discriminate)]; f_equal; ring.
  Qed.

  Definition eps_ids (e : loc) : list nat := map nix (endpoints h e).
  Definition tup_in (e r p : loc) : list (htuple nat) :=
    map (fun y => mkTup (nix p) y (eix e) (w_in h r) (nw r)) (List.filter (fun y => negb (y =? nix p)) (eps_ids e)).
  Definition tup_out (e r p : loc) : list (htuple nat) :=
    map (fun y => mkTup y (nix p) (eix e) (w_out h r) (nw r)) (List.filter (fun y => negb (y =? nix p)) (eps_ids e)).
  Definition batches (e r : loc) : list (list (htuple nat)) :=
    match ep_of h r with
    | None => []
    | Some p => (if decide (w_in h r = 0%Qc) then [] else [tup_in e r p]) ++ (if decide (w_out h r = 0%Qc) then [] else [tup_out e r p])
    end.

  Lemma node_exists p k : p ∈ fkids (is_kind k) h c -> exists o, h !! p = Some o /\ k (o_kind o) = true.
  Proof.
    intros Hp. apply elem_of_list_filter in Hp as [Ha Hp]. unfold accepts in Ha. destruct (h !! p) as [o|] eqn:E; [|done]. by exists o.
  Qed.
  Lemma rel_exists r e : r ∈ rels_of h e -> exists o, h !! r = Some o /\ o_kind o = KRel /\ o_parent o = Some e.
  Proof.
    intros Hp. apply elem_of_list_filter in Hp as [Ha Hp]. unfold accepts in Ha. destruct (h !! r) as [o|] eqn:E; [|done]. exists o.
    split; [done|]. split; [unfold is_kind, k_rel in Ha; by destruct (o_kind o)|]. pose proof (reach_wf s R) as W.
    apply (wf0_child _ W) in Hp as [_ Hp]. fold h in Hp. by rewrite (parent_of_lookup _ _ _ E) in Hp.
  Qed.
  Lemma map_m_pure {A B} (f : A -> M B) (g : A -> B) l : (forall a, a ∈ l -> f a s = (Ok (g a), s)) -> map_m f l s = (Ok (map g l), s).
  Proof.
    induction l as [|a l IH]; [done|]. intros H. cbn [map_m map]. unfold bind at 1. rewrite (H a) by left.
    unfold bind at 1. rewrite IH by (intros; apply H; by right). done.
  Qed.
  Lemma endpoint_ids_ok e oe : e ∈ edges_of h c -> h !! e = Some oe -> endpoint_ids (ident_hom x) s e oe = Ok (eps_ids e).
  Proof.
    intros Hin Ho. unfold endpoint_ids. destruct (node_exists e k_edge Hin) as (oe' & Ho' & Hk). assert (oe' = oe) as -> by congruence.
    rewrite Hk. unfold induced_subset, bind at 1. pose proof (fkids_get k_rel e) as F. rewrite Ho in F. unfold sub_relations.
    assert (Es : snd (get_subelements e (is_kind k_rel) s) = s).
    { unfold get_subelements, bind, deref, ret. fold h. rewrite Ho. by destruct (heap s !! e). }
    destruct (get_subelements e (is_kind k_rel) s) as [[rs|ex] s'] eqn:E; cbn [fst snd] in F, Es; [|done]. injection F as ->. subst s'. fold (rels_of h e).
    rewrite (map_m_pure _ (fun r => ep_of h r)).
    - cbn [fst]. assert (Hr : forall r, r ∈ rels_of h e -> exists p, ep_of h r = Some p /\ p ∈ nodes_of h c) by (intros r; by apply (cg_ep _ _ G)).
      match goal with |- res_map ?F _ = _ => set (f := F) end.
      assert (Hf : forall p, p ∈ nodes_of h c -> f (Some p) = Ok (nix p)).
      { intros p Hpn. destruct (node_exists p k_node Hpn) as (op & Hop & _). unfold f. fold h. rewrite Hop. unfold ident_hom. cbn [i_node].
        pose proof (hom_node_nix p Hpn) as Hx. unfold uuid_of in Hx. rewrite Hop in Hx. exact Hx. }
      clearbody f. unfold eps_ids, endpoints. revert Hr. generalize (rels_of h e). intros l Hr. induction l as [|r rs IH]; [done|].
      destruct (Hr r ltac:(left)) as (p & Hp & Hpn). cbn [map res_map]. rewrite Hp, (Hf p Hpn), IH by (intros; apply Hr; by right).
      change (omap (ep_of h) (r :: rs)) with (match ep_of h r with Some q => q :: omap (ep_of h) rs | None => omap (ep_of h) rs end). by rewrite Hp.
    - intros r Hr. destruct (rel_exists r e Hr) as (o & Hro & _). unfold bind, deref, ret. fold h. rewrite Hro. unfold ep_of. by rewrite Hro.
  Qed.

  Lemma fill_one_ok w mk e oe pid tasks q : e ∈ edges_of h c -> h !! e = Some oe ->
    exists tasks', fill_one (ident_hom x) collector s w mk pid e oe tasks q =
      (Ok tasks', q ++ (if decide (w = 0%Qc) then [] else [map mk (List.filter (fun y => negb (y =? pid)) (eps_ids e))])).
  Proof.
    intros He1 He2. unfold fill_one. destruct (decide (w = 0%Qc)); [exists tasks; by rewrite app_nil_r|].
    rewrite (endpoint_ids_ok e oe He1 He2). unfold collector. by eexists.
  Qed.
  Lemma h_rel_ok r e tasks q : e ∈ edges_of h c -> r ∈ rels_of h e ->
    exists tasks', h_item (ident_hom x) sum_norm (Some 1) collector s r 0 tasks q = (Ok (tasks', []), q ++ batches e r).
  Proof.
    intros Hin Hr. destruct (rel_exists r e Hr) as (o & Ho & Hk & Hp). unfold h_item. fold h. rewrite Ho, Hk. unfold h_relation. rewrite Hp.
    destruct (node_exists e k_edge Hin) as (oe & Hoe & _). fold h. rewrite Hoe. unfold ident_hom at 1. cbn [i_edge].
    pose proof (hom_edge_eix e Hin) as He1. unfold uuid_of in He1. rewrite Hoe in He1. cbn in He1. rewrite He1.
    destruct (rel_weights_spec r o Ho (cg_w _ _ G e r Hin Hr)) as [-> ->].
    destruct (cg_ep _ _ G e r Hin Hr) as (p & Hep & Hpn). unfold batches. rewrite Hep. unfold ep_of in Hep. rewrite Ho in Hep. cbn in Hep. rewrite Hep.
    destruct (node_exists p k_node Hpn) as (op & Hop & _). rewrite Hop. unfold ident_hom at 1. cbn [i_node].
    pose proof (hom_node_nix p Hpn) as Hx. unfold uuid_of in Hx. rewrite Hop in Hx. cbn in Hx. rewrite Hx.
    unfold fill_relations. cbn [fst snd].
    destruct (fill_one_ok (w_in h r) (fun y => mkTup (nix p) y (eix e) (w_in h r) (nw r)) e oe (nix p) tasks q Hin Hoe) as [t1 ->].
    destruct (fill_one_ok (w_out h r) (fun y => mkTup y (nix p) (eix e) (w_out h r) (nw r)) e oe (nix p) t1
      (q ++ (if decide (w_in h r = 0%Qc) then [] else [tup_in e r p])) Hin Hoe) as [t2 Ht2]. unfold tup_in in *. rewrite Ht2.
    exists t2. cbn [Nat.ltb Nat.leb Nat.add]. by rewrite <- app_assoc.
  Qed.

  Lemma htraverse_rels (es : list loc) (rs : list (loc * loc)) lim tasks q : (forall e r, (e, r) ∈ rs -> e ∈ edges_of h c /\ r ∈ rels_of h e) ->
    length rs < lim ->
    exists tasks', htraverse lim (ident_hom x) sum_norm (Some 1) collector s (map (fun er => (er.2, 0)) rs) tasks q =
      (Ok tasks', [], q ++ flat_map (fun er => batches er.1 er.2) rs).
  Proof.
    revert lim tasks q. induction rs as [|[e r] rs IH]; intros lim tasks q Hrs Hl; destruct lim as [|lim]; try (simpl in Hl; lia).
    - exists tasks. cbn. by rewrite app_nil_r.
    - cbn [map htraverse snd fst]. destruct (Hrs e r ltac:(left)) as [H1 H2]. destruct (h_rel_ok r e tasks q H1 H2) as [t1 ->].
      rewrite app_nil_r. destruct (IH lim t1 (q ++ batches e r)) as [t2 ->]; [intros; apply Hrs; by right|simpl in Hl; lia|].
      exists t2. cbn [flat_map fst snd]. by rewrite <- app_assoc.
  Qed.
  Definition tagged (e : loc) : list (loc * loc) := map (fun r => (e, r)) (rels_of h e).
  Lemma htraverse_edges es rs lim tasks q : (forall e, e ∈ es -> e ∈ edges_of h c) ->
    (forall e r, (e, r) ∈ rs -> e ∈ edges_of h c /\ r ∈ rels_of h e) ->
    length es + length (rs ++ flat_map tagged es) < lim ->
    exists tasks', htraverse lim (ident_hom x) sum_norm (Some 1) collector s (map (fun e => (e, 0)) es ++ map (fun er => (er.2, 0)) rs) tasks q =
      (Ok tasks', [], q ++ flat_map (fun er => batches er.1 er.2) (rs ++ flat_map tagged es)).
  Proof.
    revert rs lim tasks q. induction es as [|e es IH]; intros rs lim tasks q Hes Hrs Hl.
    - cbn [map app flat_map] in *. rewrite app_nil_r in *. apply htraverse_rels; [exact []|done|]. simpl in Hl. lia.
    - destruct lim as [|lim]; [simpl in Hl; lia|]. cbn [map app htraverse].
      assert (Hin : e ∈ edges_of h c) by (apply Hes; left). destruct (node_exists e k_edge Hin) as (oe & Hoe & Hk).
      unfold h_item. fold h. rewrite Hoe. destruct (o_kind oe); try done. pose proof (fkids_get k_rel e) as F. rewrite Hoe in F.
      unfold sub_relations. rewrite F. fold (rels_of h e).
      assert (E : (map (fun e0 : loc => (e0, 0)) es ++ map (fun er : loc * loc => (er.2, 0)) rs) ++ map (fun r : loc => (r, 0)) (rels_of h e) =
        map (fun e0 : loc => (e0, 0)) es ++ map (fun er : loc * loc => (er.2, 0)) (rs ++ tagged e)).
      { rewrite <- app_assoc, map_app. do 2 f_equal. unfold tagged. by rewrite map_map. }
      rewrite E. cbn [flat_map] in Hl |- *. rewrite app_assoc in Hl |- *. apply IH; [| |simpl in Hl; lia].
      + intros e' He'. apply Hes. by right.
      + intros e' r' Hr'. apply elem_of_app in Hr' as [Hr'|Hr']; [by apply Hrs|]. apply elem_of_list_fmap in Hr' as (y & [= -> ->] & Hy). done.
  Qed.
  Lemma h_execute_ok lim : fr_hyper s = [] -> work h c < lim ->
    exists tasks', h_execute lim (ident_hom x) sum_norm (Some 1) collector c s [] =
      (Ok tasks', s, flat_map (fun e => flat_map (batches e) (rels_of h e)) (edges_of h c)).
  Proof.
    intros Hf Hl. unfold h_execute. rewrite Hf. cbn [app]. destruct lim as [|lim]; [unfold work in Hl; lia|]. cbn [htraverse].
    pose proof (cg_node _ _ G) as Hk. unfold kind_of in Hk. destruct (h !! c) as [oc|] eqn:Ec; [|done]. injection Hk as Hk.
    unfold h_item at 1. fold h. rewrite Ec, Hk. pose proof (fkids_get k_edge c) as F. rewrite Ec in F. unfold sub_edges. rewrite F.
    fold (edges_of h c). cbn [app].
    assert (Hlen : length (flat_map tagged (edges_of h c)) = length (flat_map (rels_of h) (edges_of h c))).
    { generalize (edges_of h c). intros l. induction l as [|e l IH]; [done|]. cbn [flat_map]. rewrite !app_length, IH. unfold tagged. by rewrite map_length. }
    destruct (htraverse_edges (edges_of h c) [] lim [] []) as [t Ht].
    - done.
    - intros e r Hr. inversion Hr.
    - cbn [app]. rewrite Hlen. unfold work in Hl. assert (length (edges_of h c) <= length (children h c)) by (unfold edges_of, fkids; apply filter_length). lia.
    - cbn [map] in Ht. rewrite app_nil_r in Ht. cbn [app] in Ht. rewrite Ht. exists t. f_equal.
      + f_equal. by apply set_frh_same.
      + generalize (edges_of h c). intros l. induction l as [|e l IH]; [done|]. cbn [flat_map]. rewrite flat_map_app', IH. f_equal.
        unfold tagged. generalize (rels_of h e). intros rs. induction rs as [|r rs IHr]; [done|]. cbn [map flat_map fst snd]. by rewrite IHr.
  Qed.

  (** ** Which tuples concern an entry *)
  Lemma elem_eps e p : e ∈ edges_of h c -> p ∈ endpoints h e <-> exists r, r ∈ rels_of h e /\ ep_of h r = Some p.
  Proof. intros _. unfold endpoints. rewrite elem_of_list_omap. naive_solver. Qed.
  Lemma eps_node e p : e ∈ edges_of h c -> p ∈ endpoints h e -> p ∈ nodes_of h c.
  Proof. intros H1 H2. apply elem_eps in H2 as (r & Hr & Hp); [|done]. destruct (cg_ep _ _ G e r H1 Hr) as (p' & Hp' & Hin). congruence. Qed.
  Lemma nix_in_eps e p : e ∈ edges_of h c -> p ∈ nodes_of h c -> nix p ∈ eps_ids e <-> p ∈ endpoints h e.
  Proof.
    intros H1 H2. unfold eps_ids. rewrite elem_of_list_fmap. split; [|intros; by exists p].
    intros (q & Hq & Hin). assert (q = p) as ->; [|done]. symmetry. apply nix_inj; [done|by eapply eps_node|done].
  Qed.
  Lemma eps_ids_inv e y : e ∈ edges_of h c -> y ∈ eps_ids e -> exists q, q ∈ endpoints h e /\ q ∈ nodes_of h c /\ y = nix q.
  Proof. intros H1 H2. apply elem_of_list_fmap in H2 as (q & -> & Hq). exists q. split; [done|]. split; [by eapply eps_node|done]. Qed.

  Definition one (b : bool) (w : Qc) : list Qc := if b then [w] else [].
  Lemma last_ne {A} (f : A -> Qc) (l : list A) (w : Qc) (b : bool) : (forall y, y ∈ l -> f y = w) -> (b = true <-> exists y, y ∈ l) -> last (map f l) = last (one b w).
  Proof.
    intros Hf Hb. rewrite (last_const f l w Hf). destruct l as [|y l].
    - destruct b; [|done]. destruct (proj1 Hb eq_refl) as [y Hy]. inversion Hy.
    - assert (b = true) as -> by (apply Hb; exists y; left). done.
  Qed.
  Lemma elem_tup {A} (mk : nat -> A) e p t : t ∈ map mk (List.filter (fun y => negb (y =? nix p)) (eps_ids e)) <-> exists y, y ∈ eps_ids e /\ y <> nix p /\ t = mk y.
  Proof.
    rewrite elem_of_list_fmap. setoid_rewrite filter_bool. split.
    - intros (y & -> & Hy). apply elem_of_list_filter in Hy as [H1 H2]. exists y. split; [done|]. split; [|done].
      apply negb_true_iff, Nat.eqb_neq in H1. done.
    - intros (y & H1 & H2 & ->). exists y. split; [done|]. apply elem_of_list_filter. split; [|done]. by apply negb_true_iff, Nat.eqb_neq.
  Qed.

  Definition all_tuples : list (htuple nat) := concat (flat_map (fun e => flat_map (batches e) (rels_of h e)) (edges_of h c)).
  Lemma all_tuples_eq : all_tuples = flat_map (fun e => flat_map (fun r => concat (batches e r)) (rels_of h e)) (edges_of h c).
  Proof. unfold all_tuples. rewrite concat_flat_map. apply flat_map_ext_in. intros e _. by rewrite concat_flat_map. Qed.
  Lemma batch_edge e r t : t ∈ concat (batches e r) -> tu_e t = eix e.
  Proof.
    unfold batches. destruct (ep_of h r) as [p|]; [|intros Ht; inversion Ht]. rewrite concat_app, elem_of_app.
    intros [Ht|Ht]; destruct (decide _); cbn [concat] in Ht; try (by inversion Ht); rewrite app_nil_r in Ht; apply elem_tup in Ht as (y & _ & _ & ->); done.
  Qed.
  Lemma all_in_bounds t : t ∈ all_tuples -> tu_e t < length (edges_of h c) /\ tu_0 t < length (nodes_of h c) /\ tu_1 t < length (nodes_of h c).
  Proof.
    rewrite all_tuples_eq. intros Ht. apply elem_of_flat_map in Ht as (e & Hin & Ht). apply elem_of_flat_map in Ht as (r & Hr & Ht).
    assert (Lt : forall p, p ∈ nodes_of h c -> nix p < length (nodes_of h c)).
    { intros p [i Hi]%elem_of_list_lookup. rewrite (nix_at _ _ Hi). by apply lookup_lt_Some in Hi. }
    split.
    - rewrite (batch_edge e r t Ht). apply elem_of_list_lookup in Hin as [k Hk]. rewrite (eix_at _ _ Hk). by apply lookup_lt_Some in Hk.
    - unfold batches in Ht. destruct (cg_ep _ _ G e r Hin Hr) as (p & Hp & Hpn). rewrite Hp in Ht. rewrite concat_app, elem_of_app in Ht.
      destruct Ht as [Ht|Ht]; destruct (decide _); cbn [concat] in Ht; try (by inversion Ht); rewrite app_nil_r in Ht; apply elem_tup in Ht as (y & Hy & _ & ->);
      cbn [tu_0 tu_1]; destruct (eps_ids_inv e y Hin Hy) as (q & _ & Hq & ->); split; by apply Lt.
  Qed.
  (** the tuples of the k-th edge *)
  Lemma edge_tuples (P : htuple nat -> Prop) `{!forall t, Decision (P t)} k e : edges_of h c !! k = Some e -> (forall t, P t -> tu_e t = k) ->
    filter P all_tuples = flat_map (fun r => filter P (concat (batches e r))) (rels_of h e).
  Proof.
    intros Hk HP. rewrite all_tuples_eq, filter_flat_map. rewrite (flat_map_one _ _ k e Hk); [by rewrite filter_flat_map|].
    intros k' e' Hk' Hne. apply filter_none. intros t Ht Pt. apply elem_of_flat_map in Ht as (r & Hr & Ht). apply batch_edge in Ht.
    rewrite (HP t Pt), (eix_at _ _ Hk') in Ht. congruence.
  Qed.
  Lemma map_flat_map' {A B C} (f : B -> C) (g : A -> list B) l : map f (flat_map g l) = flat_map (fun y => map f (g y)) l.
  Proof. apply map_flat_map. Qed.

  (** the last value that relation [r] gives to the entries chosen by [P] *)
  Lemma rel_last (P : htuple nat -> Prop) `{!forall t, Decision (P t)} e r p (b1 b2 : bool) : e ∈ edges_of h c -> r ∈ rels_of h e -> ep_of h r = Some p ->
    (b1 = true <-> exists y, y ∈ eps_ids e /\ y <> nix p /\ P (mkTup (nix p) y (eix e) (w_in h r) (nw r))) ->
    (b2 = true <-> exists y, y ∈ eps_ids e /\ y <> nix p /\ P (mkTup y (nix p) (eix e) (w_out h r) (nw r))) ->
    last (map tu_w (filter P (concat (batches e r)))) =
    last (one (b1 && negb (bool_decide (w_in h r = 0%Qc))) (w_in h r) ++ one (b2 && negb (bool_decide (w_out h r = 0%Qc))) (w_out h r)).
  Proof.
    intros Hin Hr Hp H1 H2. unfold batches. rewrite Hp, concat_app, filter_app, map_app. apply last_app_eq.
    - case_bool_decide as Hw; [rewrite decide_True by done; cbn; by rewrite andb_false_r|]. rewrite decide_False by done. cbn [concat negb].
      rewrite app_nil_r, andb_true_r. apply last_ne.
      + intros t Ht. apply elem_of_list_filter in Ht as [_ Ht]. apply elem_tup in Ht as (y & _ & _ & ->). done.
      + rewrite H1. split.
        * intros (y & Y1 & Y2 & Y3). eexists. apply elem_of_list_filter. split; [exact Y3|]. apply elem_tup. by exists y.
        * intros (t & Ht). apply elem_of_list_filter in Ht as [Pt Ht]. apply elem_tup in Ht as (y & Y1 & Y2 & ->). by exists y.
    - case_bool_decide as Hw; [rewrite decide_True by done; cbn; by rewrite andb_false_r|]. rewrite decide_False by done. cbn [concat negb].
      rewrite app_nil_r, andb_true_r. apply last_ne.
      + intros t Ht. apply elem_of_list_filter in Ht as [_ Ht]. apply elem_tup in Ht as (y & _ & _ & ->). done.
      + rewrite H2. split.
        * intros (y & Y1 & Y2 & Y3). eexists. apply elem_of_list_filter. split; [exact Y3|]. apply elem_tup. by exists y.
        * intros (t & Ht). apply elem_of_list_filter in Ht as [Pt Ht]. apply elem_tup in Ht as (y & Y1 & Y2 & ->). by exists y.
  Qed.
  Lemma one_decide (P Q : Prop) `{!Decision P, !Decision Q} w : (if decide (P /\ ~ Q) then [w] else []) = one (bool_decide P && negb (bool_decide Q)) w.
  Proof. unfold one. destruct (decide (P /\ ~ Q)) as [[p q]|n].
    - by rewrite (bool_decide_eq_true_2 P p), (bool_decide_eq_false_2 Q q).
    - case_bool_decide; case_bool_decide; try done. destruct n. done.
  Qed.

  Lemma flat_map_nil {A B} (l : list A) : flat_map (fun _ => [] : list B) l = [].
  Proof. by induction l. Qed.
  Lemma no_writes (P : htuple nat -> Prop) `{!forall t, Decision (P t)} e :
    (forall r t, r ∈ rels_of h e -> t ∈ concat (batches e r) -> ~ P t) ->
    last (map tu_w (flat_map (fun r => filter P (concat (batches e r))) (rels_of h e))) = None.
  Proof.
    intros Hnw. assert (E : flat_map (fun r => filter P (concat (batches e r))) (rels_of h e) = []); [|by rewrite E].
    rewrite (flat_map_ext_in _ (fun _ => [])); [apply flat_map_nil|]. intros r Hr. apply filter_none. intros t Ht. by eapply Hnw.
  Qed.
  Lemma batch_cases e r t : e ∈ edges_of h c -> r ∈ rels_of h e -> t ∈ concat (batches e r) ->
    exists p q, p ∈ endpoints h e /\ q ∈ endpoints h e /\ p <> q /\
      ((tu_0 t = nix p /\ tu_1 t = nix q) \/ (tu_0 t = nix q /\ tu_1 t = nix p)).
  Proof.
    intros Hin Hr Ht. destruct (cg_ep _ _ G e r Hin Hr) as (p & Hp & Hpn). unfold batches in Ht. rewrite Hp, concat_app, elem_of_app in Ht.
    assert (Hpe : p ∈ endpoints h e) by (apply elem_eps; [done|by exists r]).
    destruct Ht as [Ht|Ht]; destruct (decide _); cbn [concat] in Ht; try (by inversion Ht); rewrite app_nil_r in Ht; apply elem_tup in Ht as (y & Hy & Hne & ->);
    destruct (eps_ids_inv e y Hin Hy) as (q & Hq & Hqn & ->); exists p, q; (split; [done|]); (split; [done|]); (split; [congruence|]); cbn [tu_0 tu_1]; auto.
  Qed.

  Lemma W_entry k e i a j b : edges_of h c !! k = Some e -> nodes_of h c !! i = Some a -> nodes_of h c !! j = Some b ->
    default 0%Qc (last (map tu_w (filter (fun t => tu_e t = k /\ tu_0 t = i /\ tu_1 t = j) all_tuples))) = entry_W h e a b.
  Proof.
    intros Hk Hi Hj. pose proof (elem_of_list_lookup_2 _ _ _ Hk) as Hin. pose proof (elem_of_list_lookup_2 _ _ _ Hi) as Ha.
    pose proof (elem_of_list_lookup_2 _ _ _ Hj) as Hb. pose proof (nix_at _ _ Hi) as Na. pose proof (nix_at _ _ Hj) as Nb. pose proof (eix_at _ _ Hk) as Ne.
    rewrite (edge_tuples _ k e Hk) by (by intros t [? _]). unfold entry_W.
    destruct (decide (a <> b /\ a ∈ endpoints h e /\ b ∈ endpoints h e)) as [(Hab & Hae & Hbe)|Hno].
    - unfold final. f_equal. rewrite map_flat_map. apply last_flat_map_ext. intros r Hr.
      destruct (cg_ep _ _ G e r Hin Hr) as (p & Hp & Hpn). rewrite !one_decide.
      apply (rel_last _ e r p (bool_decide (ep_of h r = Some a)) (bool_decide (ep_of h r = Some b)) Hin Hr Hp); rewrite bool_decide_eq_true, Hp; cbn [tu_e tu_0 tu_1].
      + split.
        * intros [= ->]. exists (nix b). split; [by apply nix_in_eps|]. split; [|done]. intros E. apply Hab. symmetry. by apply nix_inj.
        * intros (y & _ & _ & _ & E & _). f_equal. apply nix_inj; [done|done|congruence].
      + split.
        * intros [= ->]. exists (nix a). split; [by apply nix_in_eps|]. split; [|done]. intros E. apply Hab. by apply nix_inj.
        * intros (y & _ & _ & _ & _ & E). f_equal. apply nix_inj; [done|done|congruence].
    - rewrite no_writes; [done|]. intros r t Hr Ht (_ & E0 & E1). destruct (batch_cases e r t Hin Hr Ht) as (p & q & Hp & Hq & Hpq & [[F0 F1]|[F0 F1]]).
      + apply Hno. assert (p = a) as -> by (apply nix_inj; [by eapply eps_node|done|congruence]).
        assert (q = b) as -> by (apply nix_inj; [by eapply eps_node|done|congruence]). done.
      + apply Hno. assert (q = a) as -> by (apply nix_inj; [by eapply eps_node|done|congruence]).
        assert (p = b) as -> by (apply nix_inj; [by eapply eps_node|done|congruence]). done.
  Qed.
  Lemma others_in e a q : q ∈ others h e a <-> q <> a /\ q ∈ endpoints h e.
  Proof. unfold others. by rewrite elem_of_list_filter. Qed.
  Lemma others_ne e a : others h e a <> [] <-> exists q, q ∈ endpoints h e /\ q <> a.
  Proof.
    split.
    - destruct (others h e a) as [|q l] eqn:E; [done|]. intros _. exists q. assert (H : q ∈ others h e a) by (rewrite E; left).
      apply others_in in H as [H1 H2]. done.
    - intros (q & H1 & H2) E. assert (H : q ∈ others h e a) by (by apply others_in). rewrite E in H. inversion H.
  Qed.
  Lemma Io_entry k e i a : edges_of h c !! k = Some e -> nodes_of h c !! i = Some a ->
    default 0%Qc (last (map tu_w (filter (fun t => tu_e t = k /\ tu_0 t = i) all_tuples))) = entry_Io h e a.
  Proof.
    intros Hk Hi. pose proof (elem_of_list_lookup_2 _ _ _ Hk) as Hin. pose proof (elem_of_list_lookup_2 _ _ _ Hi) as Ha.
    pose proof (nix_at _ _ Hi) as Na. pose proof (eix_at _ _ Hk) as Ne.
    rewrite (edge_tuples _ k e Hk) by (by intros t [? _]). unfold entry_Io.
    destruct (decide (a ∈ endpoints h e /\ others h e a <> [])) as [(Hae & Hoth)|Hno].
    - apply others_ne in Hoth as (q & Hq & Hqa). unfold final. f_equal. rewrite map_flat_map. apply last_flat_map_ext. intros r Hr.
      destruct (cg_ep _ _ G e r Hin Hr) as (p & Hp & Hpn). rewrite !one_decide.
      apply (rel_last _ e r p (bool_decide (ep_of h r = Some a)) (bool_decide (ep_of h r <> Some a)) Hin Hr Hp); rewrite bool_decide_eq_true, Hp; cbn [tu_e tu_0 tu_1].
      + split.
        * intros [= ->]. exists (nix q). pose proof (eps_node e q Hin Hq). split; [by apply nix_in_eps|]. split; [|done]. intros E. apply Hqa. by apply nix_inj.
        * intros (y & _ & _ & _ & E). f_equal. apply nix_inj; [done|done|congruence].
      + split.
        * intros Hpa. exists (nix a). split; [by apply nix_in_eps|]. split; [|done]. intros E. apply Hpa. f_equal. symmetry. by apply nix_inj.
        * intros (y & _ & E1 & _ & E2) [= ->]. congruence.
    - rewrite no_writes; [done|]. intros r t Hr Ht (_ & E0). destruct (batch_cases e r t Hin Hr Ht) as (p & q & Hp & Hq & Hpq & [[F0 F1]|[F0 F1]]).
      + apply Hno. assert (p = a) as -> by (apply nix_inj; [by eapply eps_node|done|congruence]). split; [done|]. apply others_ne. exists q. split; [done|congruence].
      + apply Hno. assert (q = a) as -> by (apply nix_inj; [by eapply eps_node|done|congruence]). split; [done|]. apply others_ne. by exists p.
  Qed.
  Lemma Ii_entry k e i a : edges_of h c !! k = Some e -> nodes_of h c !! i = Some a ->
    default 0%Qc (last (map tu_w (filter (fun t => tu_e t = k /\ tu_1 t = i) all_tuples))) = entry_Ii h e a.
  Proof.
    intros Hk Hi. pose proof (elem_of_list_lookup_2 _ _ _ Hk) as Hin. pose proof (elem_of_list_lookup_2 _ _ _ Hi) as Ha.
    pose proof (nix_at _ _ Hi) as Na. pose proof (eix_at _ _ Hk) as Ne.
    rewrite (edge_tuples _ k e Hk) by (by intros t [? _]). unfold entry_Ii.
    destruct (decide (a ∈ endpoints h e /\ others h e a <> [])) as [(Hae & Hoth)|Hno].
    - apply others_ne in Hoth as (q & Hq & Hqa). unfold final. f_equal. rewrite map_flat_map. apply last_flat_map_ext. intros r Hr.
      destruct (cg_ep _ _ G e r Hin Hr) as (p & Hp & Hpn). rewrite !one_decide.
      apply (rel_last _ e r p (bool_decide (ep_of h r <> Some a)) (bool_decide (ep_of h r = Some a)) Hin Hr Hp); rewrite bool_decide_eq_true, Hp; cbn [tu_e tu_0 tu_1].
      + split.
        * intros Hpa. exists (nix a). split; [by apply nix_in_eps|]. split; [|done]. intros E. apply Hpa. f_equal. symmetry. by apply nix_inj.
        * intros (y & _ & E1 & _ & E2) [= ->]. congruence.
      + split.
        * intros [= ->]. exists (nix q). pose proof (eps_node e q Hin Hq). split; [by apply nix_in_eps|]. split; [|done]. intros E. apply Hqa. by apply nix_inj.
        * intros (y & _ & _ & _ & E). f_equal. apply nix_inj; [done|done|congruence].
    - rewrite no_writes; [done|]. intros r t Hr Ht (_ & E0). destruct (batch_cases e r t Hin Hr Ht) as (p & q & Hp & Hq & Hpq & [[F0 F1]|[F0 F1]]).
      + apply Hno. assert (q = a) as -> by (apply nix_inj; [by eapply eps_node|done|congruence]). split; [done|]. apply others_ne. by exists p.
      + apply Hno. assert (p = a) as -> by (apply nix_inj; [by eapply eps_node|done|congruence]). split; [done|]. apply others_ne. exists q. split; [done|congruence].
  Qed.
End trav.

(** The transformation of a closed graph. *)
Lemma q_tensor s c lim : reach s -> closed_graph (heap s) c -> work (heap s) c < lim ->
  exists tasks x T, transform lim (Some 1) c s = (Ok tasks, s, Some (x, T)) /\
    all_indexes x (map (uuid_of (heap s)) (nodes_of (heap s) c)) (map (uuid_of (heap s)) (edges_of (heap s) c))
      (map (uuid_of (heap s)) (fkids (is_kind k_value) (heap s) c)) /\
    match T with
    | Some t => describes (heap s) c t /\ (nodes_of (heap s) c <> [] \/ edges_of (heap s) c <> [])
    | None => nodes_of (heap s) c = [] /\ edges_of (heap s) c = []
    end.
Proof.
  intros R G Hl. pose proof (reach_wf s R) as W.
  assert (Hc : exists_in (heap s) c) by (pose proof (cg_node _ _ G) as Hk; unfold kind_of in Hk; destruct (heap s !! c) eqn:E; [by eexists|done]).
  destruct (q_C30_depth1 s c lim hom0 R Hc) as (r & x & Hx & Hix & Nn & Ne & Nv & _); [unfold work in Hl; lia|].
  fold (nodes_of (heap s) c) in Hix, Nn. fold (edges_of (heap s) c) in Hix, Ne.
  assert (Hn : forall i p, nodes_of (heap s) c !! i = Some p -> hom_node x (uuid_of (heap s) p) = Ok i).
  { intros i p Hi. destruct Hix as ((_ & _ & H & _) & _). apply H. rewrite list_lookup_fmap, Hi. split; [done|].
    intros j Hj. eapply NoDup_lookup in Nn; [|exact Hj|rewrite list_lookup_fmap, Hi; reflexivity]. lia. }
  assert (He : forall i p, edges_of (heap s) c !! i = Some p -> hom_edge x (uuid_of (heap s) p) = Ok i).
  { intros i p Hi. destruct Hix as (_ & (_ & _ & H & _) & _). apply H. rewrite list_lookup_fmap, Hi. split; [done|].
    intros j Hj. eapply NoDup_lookup in Ne; [|exact Hj|rewrite list_lookup_fmap, Hi; reflexivity]. lia. }
  destruct (reach_fr s R) as (_ & Hf & _).
  destruct (h_execute_ok s R c G x Hn He lim Hf Hl) as [tasks Ht].
  unfold transform, tensor_conf. rewrite Hx, Ht. unfold fill_weights. fold (all_tuples s c x).
  pose proof (all_in_bounds s c G x Hn He) as Hb. unfold synchronize.
  assert (Cn : cnt_node x = length (nodes_of (heap s) c)) by (destruct Hix as ((-> & _) & _); by rewrite map_length).
  assert (Ce : cnt_edges x = length (edges_of (heap s) c)) by (destruct Hix as (_ & (-> & _) & _); by rewrite map_length).
  rewrite Cn, Ce. destruct (decide _) as [[Z1 Z2]|Hnz].
  - assert (En : nodes_of (heap s) c = []) by (by apply nil_length_inv). assert (Ee : edges_of (heap s) c = []) by (by apply nil_length_inv).
    assert (Et : all_tuples s c x = []) by (unfold all_tuples; by rewrite Ee). rewrite Et. eexists _, _, None. split; [reflexivity|]. done.
  - destruct (fill_all_ok (all_tuples s c x) (zeros (length (edges_of (heap s) c)) (length (nodes_of (heap s) c))) Hb) as (T' & HT & D1 & D2 & D3 & D4 & D5).
    eexists _, _, (Some T'). split.
    + destruct (all_tuples s c x) as [|t l] eqn:Et.
      * cbn [fill_all] in HT. injection HT as <-. reflexivity.
      * rewrite HT. reflexivity.
    + split; [done|]. split; [|destruct (nodes_of (heap s) c); [right; intros E; apply Hnz; by rewrite E|by left]]. split; [done|]. split; [done|]. split.
      * intros k e i a j b H1 H2 H3. rewrite D3. by apply W_entry.
      * intros k e i a H1 H2. rewrite D4, D5. split; [by apply Io_entry|by apply Ii_entry].
Qed.
