(** * Conversion: what the icon writes *)
From stdpp Require Import relations.
From Verif Require Import Spec Hierarchy Elements Factory History PDict PPath PExec PMono PWF PReach QFac Traverse SpecTrav QueryEngine SpecQuery CogniLang SpecPhys SpecPhys2 SpecKin QPhys QPhys2 QKin Convert SpecSdf QSdf QSdf2 QCog QCog3 QCog8 QConv2 QConv3 SpecConv QConv4 QConv5 QConv6 QConv7 QConv8 SpecCogni.

Scheme encode_ind' := Minimality for encode_run Sort Prop with joints_ind' := Minimality for joints_run Sort Prop.
Combined Scheme run_ind' from encode_ind', joints_ind'.

(** The result of a sub-query contains links and joints only. *)
Lemma sub_query_kinds lim s g nm els : reach s -> exists_in (heap s) g -> sub_query lim s g nm (Ok els) -> of_sem (heap s) SCognitiveEntity els = [].
Proof.
  intros R Hx (s' & qs' & E). destruct (engine_any s lim (two_names nm) (two_queries g) els s' qs' R) as (-> & parts & -> & F); [rewrite two_names_vals; repeat constructor; set_solver| |exact E|].
  { rewrite two_names_vals. intros i Hi. rewrite !elem_of_cons, elem_of_nil in Hi. destruct Hi as [->|[->|[]]]; eexists; (split; [reflexivity|]); (split; [exact Hx|done]). }
  rewrite two_names_vals in F. inversion F as [|? p0 ? ps P0 F1]; subst. inversion F1 as [|? p1 ? ps' P1 F2]; subst. inversion F2; subst. destruct P0 as (q0 & [= <-] & _ & P0). destruct P1 as (q1 & [= <-] & _ & P1).
  unfold of_sem. cbn. rewrite app_nil_r, filter_app. fold (of_sem (heap s) SCognitiveEntity p0) (of_sem (heap s) SCognitiveEntity p1).
  rewrite (of_sem_none _ SCognitiveEntity SKinematicLink p0), (of_sem_none _ SCognitiveEntity SKinematicJoint p1); [done|done| |done|]; intros x Hx'; [apply P1 in Hx' as [_ M]|apply P0 in Hx' as [_ M]]; by apply matches_kind in M.
Qed.
Lemma graph_exists h n : is_kinematic_graph h n = true -> exists_in h n.
Proof.
  unfold is_kinematic_graph, subs_of, exists_in. intros H. apply negb_true_iff, bool_decide_eq_false in H. destruct (h !! n) eqn:E; [by eexists|]. done.
Qed.
Lemma put_put xs ys ic : put ys (put xs ic) = put (xs ++ ys) ic.
Proof. by rewrite put_app. Qed.
(** links: the elements written *)
Definition link_written (rad : Qc) (h : list obj) (prefix : string) (el : loc) (x : xml) : Prop :=
  exists y is, encode_link_element h rad el prefix = Ok y /\ encode_inertia_element h el = Ok is /\ x = xml_append y is.
Lemma links_run rad s els prefix ic r ic' : (forall x, x ∈ els -> pkind (heap s) x = KSem SKinematicLink) -> encode_each rad s els prefix ic = (r, ic') ->
  exists xs, ic' = put xs ic /\ (r = Ok tt -> Forall2 (link_written rad (heap s) prefix) els xs).
Proof.
  revert ic. induction els as [|el els IH]; intros ic H E; [injection E as <- <-; exists []; rewrite put_nil; split; [done|constructor]|]. cbn [encode_each] in E. unfold encode_element in E. rewrite (H el) in E by left.
  destruct (encode_link_element (heap s) rad el prefix) as [y|e] eqn:Ey.
  - destruct (encode_inertia_element (heap s) el) as [is|e] eqn:Ei.
    + apply IH in E as (xs & -> & Hxs); [|intros x Hx; apply H; by right]. exists (xml_append y is :: xs). split; [rewrite add_put, put_put; done|]. intros Hr. constructor; [by exists y, is|by apply Hxs].
    + injection E as <- <-. exists [y]. split; [done|done].
  - injection E as <- <-. exists []. split; [by rewrite put_nil|done].
Qed.
Lemma nodes_run rad s els prefix ic r ic' : encode_nodes rad s els prefix ic = (r, ic') -> 
  exists xs, ic' = put xs (fold_left open_model (map (name_of (heap s)) (of_sem (heap s) SCognitiveEntity els)) ic) /\ (r = Ok tt -> Forall2 (link_written rad (heap s) prefix) (of_sem (heap s) SKinematicLink els) xs).
Proof.
  unfold encode_nodes. rewrite !of_class_sem, each_entities by (intros x Hx; by eapply sem_kind). intros E. eapply links_run; [|exact E]. intros x Hx. by eapply sem_kind.
Qed.
Lemma run_puts lim rad s : reach s ->
  (forall els prefix ic r ic', encode_run lim rad s els prefix ic r ic' -> of_sem (heap s) SCognitiveEntity els = [] -> exists xs, ic' = put xs ic) /\
  (forall ps prefix ic r ic', joints_run lim rad s ps prefix ic r ic' -> exists xs, ic' = put xs ic).
Proof.
  intros R. apply (run_ind' lim rad s (fun els prefix ic r ic' => of_sem (heap s) SCognitiveEntity els = [] -> exists xs, ic' = put xs ic) (fun ps prefix ic r ic' => exists xs, ic' = put xs ic)).
  - intros els prefix ic e ic1 E H. apply nodes_run in E as (xs & -> & _). rewrite H. by exists xs.
  - intros els prefix ic e ic1 E _ H. apply nodes_run in E as (xs & -> & _). rewrite H. by exists xs.
  - intros els prefix ic ic1 ps ic2 E _ _ [ys ->] H. apply nodes_run in E as (xs & -> & _). rewrite H, put_put. by eexists.
  - intros els prefix ic ic1 ps e ic2 E _ _ [ys ->] H. apply nodes_run in E as (xs & -> & _). rewrite H, put_put. by eexists.
  - intros prefix ic. exists []. by rewrite put_nil.
  - intros. exists []. by rewrite put_nil.
  - intros j0 j1 n ps prefix ic x r ic' _ _ _ _ [ys ->]. rewrite add_put, put_put. by eexists.
  - intros. exists []. by rewrite put_nil.
  - intros. exists []. by rewrite put_nil.
  - intros. exists []. by rewrite put_nil.
  - intros. exists []. by rewrite put_nil.
  - intros. eexists. apply add_put.
  - intros j0 j1 n ps prefix ic links l x els e ic1 _ G _ _ _ Q _ IH. apply graph_exists in G. destruct (IH (sub_query_kinds _ _ _ _ _ R G Q)) as [ys ->]. rewrite add_put, put_put. by eexists.
  - intros j0 j1 n ps prefix ic links l x els ic1 r ic2 _ G _ _ _ Q _ IH _ [zs ->]. apply graph_exists in G. destruct (IH (sub_query_kinds _ _ _ _ _ R G Q)) as [ys ->]. rewrite add_put, !put_put. by eexists.
Qed.
Lemma of_sem_app h c a b : of_sem h c (a ++ b) = of_sem h c a ++ of_sem h c b.
Proof. unfold of_sem. by rewrite filter_app. Qed.
Lemma Forall2_perm {A B} (R : A -> B -> Prop) l l' m : l ≡ₚ l' -> Forall2 R l m -> exists m', m ≡ₚ m' /\ Forall2 R l' m'.
Proof.
  intros P. revert m. induction P as [|x l l' P IH|x y l|l1 l2 l3 P1 IH1 P2 IH2]; intros m F.
  - exists m. done.
  - inversion F as [|? y ? m0 H F']; subst. destruct (IH _ F') as (m' & Pm & F2). exists (y :: m'). split; [by constructor|by constructor].
  - inversion F as [|? b1 ? m0 H F']; subst. inversion F' as [|? b2 ? m1 H' F2]; subst. exists (b2 :: b1 :: m1). split; [constructor|by repeat constructor].
  - destruct (IH1 _ F) as (m1 & Q1 & F1). destruct (IH2 _ F1) as (m2 & Q2 & F2). exists m2. split; [by etrans|done].
Qed.
(** The links of the description and what is written for them. *)
Lemma links_exported fl rad e h root els N E xs : WF0 h -> handed fl rad e h root els N E -> Forall2 (link_written rad h "") (first_kids h N) xs -> Forall2 (exported_link fl rad) (top_links e) xs.
Proof.
  intros W H. pose proof (hd_links _ _ _ _ _ _ _ _ H) as F. clear H. revert xs. induction F as [|[[env path] l] n ls N' (t & Ht & V) _ IH]; intros xs F; [by inversion F; constructor|].
  unfold first_kids in F. rewrite omap_cons in F. unfold link_entry in Ht. cbn in Ht.
  assert (Hel : exists el, head (kids h n) = Some el). { pose proof Ht as Ht'. apply link_tree_inv in Ht' as (hd & rest & -> & _). apply view_kids in V. inversion V; subst. by eexists. }
  destruct Hel as [el Hel]. rewrite Hel in F. inversion F as [|? x ? xs' (y & is & E1 & E2 & ->) F']; subst. constructor; [|by apply IH]. by eapply link_inv.
Qed.
Lemma converted fl rad lim c e s files s' : clean s -> convert_run fl rad lim c e s (Ok files) s' ->
  exists links more lx, files = [(en_name e +:+ ".sdf", FSdf [(en_name e, lx ++ more)]); (en_name e +:+ ".load.sh", FText (load_script (en_name e)))] /\
    lx ≡ₚ links /\ Forall2 (exported_link fl rad) (top_links e) links.
Proof.
  intros C Hc. inversion Hc as [| | |d s1 root els s2 qs ic El Hr Hq He]; subst. destruct (engine_hands _ _ _ _ _ _ _ _ _ _ _ _ _ C El Hr Hq) as (-> & C1 & N & E & H). pose proof (clean_wf _ C1) as W.
  destruct (load_meaning fl rad _ c e s d s1 C El) as (root' & t & Hr' & M & _ & _ & V & _). rewrite Hr in Hr'. injection Hr' as <-.
  assert (Hn : pname (heap s1) root = en_name e). { destruct (meaning_shaped fl rad e t M) as (ts & -> & _). apply view_labelled in V. by apply node_name in V. }
  destruct (hd_els _ _ _ _ _ _ _ _ H) as (P0 & P1 & z & -> & PP0 & PP1 & Hz & Kz). destruct (hd_kinds _ _ _ _ _ _ _ _ H) as [K0 K1].
  assert (K0' : forall x, x ∈ P0 -> kind_of (heap s1) x = Some (KSem SKinematicLink)) by (intros x Hx; apply K0; by rewrite <- PP0). assert (K1' : forall x, x ∈ P1 -> kind_of (heap s1) x = Some (KSem SKinematicJoint)) by (intros x Hx; apply K1; by rewrite <- PP1).
  assert (Kz' : forall x, x ∈ [z] -> kind_of (heap s1) x = Some (KSem SCognitiveEntity)) by (intros x Hx; apply elem_of_list_singleton in Hx; by subst).
  assert (EC : of_sem (heap s1) SCognitiveEntity (P0 ++ P1 ++ [z]) = [z]). { rewrite !of_sem_app, (of_sem_none _ SCognitiveEntity SKinematicLink P0), (of_sem_none _ SCognitiveEntity SKinematicJoint P1), (of_sem_all _ SCognitiveEntity [z]); done. }
  assert (EL : of_sem (heap s1) SKinematicLink (P0 ++ P1 ++ [z]) = P0). { rewrite !of_sem_app, (of_sem_all _ SKinematicLink P0), (of_sem_none _ SKinematicLink SKinematicJoint P1), (of_sem_none _ SKinematicLink SCognitiveEntity [z]); try done. by rewrite !app_nil_r. }
  inversion He as [| |? ? ? ic1 ps ? En Ep Ej|]; subst. apply nodes_run in En as (xs & -> & Hxs). specialize (Hxs eq_refl). rewrite EL in Hxs. rewrite EC in Ej.
  destruct (run_puts lim rad s1 (proj1 C1)) as [_ J]. destruct (J _ _ _ _ _ Ej) as [ys ->]. destruct (Forall2_perm _ _ _ _ PP0 Hxs) as (links & PL & FL). exists links, ys, xs. split; [|split; [done|by eapply links_exported]].
  unfold written. rewrite Hn. rewrite put_put. cbn [map fold_left]. by rewrite Hz.
Qed.
(** More than one visual: the conversion fails. *)
Lemma two_visuals fl rad lim c e s r s' : clean s -> convert_run fl rad lim c e s r s' -> (exists x, x ∈ top_links e /\ 1 < length (visuals x.2)) -> exists ex, r = Exn ex.
Proof.
  intros C H (x & Hx & Hl). destruct r as [files|ex]; [|by exists ex]. exfalso. destruct (converted _ _ _ _ _ _ _ _ C H) as (links & more & lx & _ & _ & F). apply elem_of_list_lookup in Hx as [i Hi].
  destruct (Forall2_lookup_l _ _ _ _ _ F Hi) as (y & _ & Hy). destruct x as [[env path] l]. destruct Hy as (frame & txt & vs & cs & is & _ & _ & _ & Hv & _). cbn in Hl. lia.
Qed.
