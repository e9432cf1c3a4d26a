(** * Loading: views, numbers, the invariant of the loader *)
From stdpp Require Import relations.
From Verif Require Import Spec Hierarchy Elements Factory History PDict PPath PExec PBfs PWF PAdd PMono PStep PRemove PReach PPrim PHist QHier QHier2 QHier3 QHier4 QHier5 QHier6 QFac SpecFac QFac2 CogniLang SpecCogni QCog QCog2.

Lemma bind_inv {A B} (m : M A) (k : A -> M B) s r s' : bind m k s = (Ok r, s') -> exists a s1, m s = (Ok a, s1) /\ k a s1 = (Ok r, s').
Proof. unfold bind. destruct (m s) as [[a|e] s1]; [|done]. intros E. by exists a, s1. Qed.
Lemma ret_inv {A} (a : A) s r s' : ret a s = (Ok r, s') -> r = a /\ s' = s.
Proof. by injection 1 as <- <-. Qed.
Lemma deref_inv l s o s' : deref l s = (Ok o, s') -> heap s !! l = Some o /\ s' = s.
Proof. unfold deref. destruct (heap s !! l); [|done]. by injection 1 as -> ->. Qed.
Lemma of_opt_inv {A} e (x : option A) s a s' : of_opt e x s = (Ok a, s') -> x = Some a /\ s' = s.
Proof. destruct x; [|done]. by injection 1 as -> ->. Qed.
Lemma lift_inv {A} (x : res A) s a s' : lift x s = (Ok a, s') -> x = Ok a /\ s' = s.
Proof. destruct x; [|done]. by injection 1 as -> ->. Qed.
Lemma cached_inv names d s x s' : cached names d s = (Ok x, s') -> dget (join "/" names) (ld_cache d) = Some x /\ s' = s.
Proof. apply of_opt_inv. Qed.
Lemma get_inv s a s' : get_st s = (Ok a, s') -> a = s /\ s' = s.
Proof. by injection 1 as -> ->. Qed.
Lemma cache_inv x d s d' s' : cache_element x d s = (Ok d', s') -> s' = s /\ exists o, heap s !! x = Some o /\ d' = set_cache (dset (o_qname o) x (ld_cache d)) d.
Proof.
  intros E. apply bind_inv in E as (o & s1 & E1 & E). apply deref_inv in E1 as [Ho ->]. apply ret_inv in E as [-> ->]. split; [done|]. by exists o.
Qed.

(** ** Views *)
Lemma tree_rect' (P : tree -> Prop) : (forall lb ts, Forall P ts -> P (T lb ts)) -> forall t, P t.
Proof.
  intros H. fix IH 1. intros [lb ts]. apply H. induction ts as [|t ts IHts]; constructor; [apply IH|exact IHts].
Qed.
Inductive viewn (n : nat) (h : list obj) : loc -> tree -> Prop :=
| vn x lb ts : n <= x -> labelled h x lb -> Forall2 (viewn n h) (kids h x) ts -> viewn n h x (T lb ts).
Lemma viewn_view n h : forall t x, viewn n h x t -> view h x t.
Proof.
  induction t as [lb ts IH] using tree_rect'. intros x V. inversion V; subst. constructor; [done|].
  clear V. revert H4. generalize (kids h x). revert IH. clear. induction ts as [|t ts IHts]; intros IH l F; inversion F; subst; constructor; inversion IH; subst; auto.
Qed.
Lemma viewn_le m n h : m <= n -> forall t x, viewn n h x t -> viewn m h x t.
Proof.
  intros Hm. induction t as [lb ts IH] using tree_rect'. intros x V. inversion V; subst. constructor; [lia|done|].
  clear V. revert H4. generalize (kids h x). revert IH. clear. induction ts as [|t ts IHts]; intros IH l F; inversion F; subst; constructor; inversion IH; subst; auto.
Qed.
Lemma labelled_frame h h' x lb : kept h h' -> kids h' x = kids h x -> (forall y q, full_name h y q -> full_name h' y q) -> labelled h x lb -> labelled h' x lb.
Proof.
  intros K Hk Hf (o & Ho & H). specialize (K x o Ho). destruct (h' !! x) as [o'|] eqn:E; [|done]. cbn [fmap option_fmap option_map] in K. apply (inj Some) in K.
  exists o'. split; [done|].
  assert (E1 : o_kind o' = o_kind o) by (change (o_kind o') with (o_kind (ident_part o')); by rewrite K).
  assert (E2 : o_name o' = o_name o) by (change (o_name o') with (o_name (ident_part o')); by rewrite K).
  assert (E3 : o_dir o' = o_dir o) by (change (o_dir o') with (o_dir (ident_part o')); by rewrite K).
  assert (E4 : o_weight o' = o_weight o) by (change (o_weight o') with (o_weight (ident_part o')); by rewrite K).
  assert (E5 : o_sem o' = o_sem o) by (change (o_sem o') with (o_sem (ident_part o')); by rewrite K).
  assert (E6 : o_endpoint o' = o_endpoint o) by (change (o_endpoint o') with (o_endpoint (ident_part o')); by rewrite K).
  assert (E7 : o_attr o' = o_attr o) by (change (o_attr o') with (o_attr (ident_part o')); by rewrite K).
  assert (E8 : o_vals o' = o_vals o) by (change (o_vals o') with (o_vals (ident_part o')); by rewrite K).
  destruct lb as [nm|nm|d w q|c nm attrs|nm vals].
  - by rewrite E1, E2. - by rewrite E1, E2.
  - rewrite E1, E3, E4, E5, E6, Hk. destruct H as (? & ? & ? & ? & y & ? & ?). do 4 (split; [done|]). exists y. split; [done|]. by apply Hf.
  - rewrite E1, E2, E7. destruct H as (? & ? & F). do 2 (split; [done|]). eapply Forall2_impl; [exact F|]. intros a b [H1 H2]. split; [done|].
    destruct (snd b); [done|]. by rewrite Hk.
  - by rewrite E1, E2, E8.
Qed.
Lemma viewn_frame n h h' : kept h h' -> (forall l, n <= l -> exists_in h l -> kids h' l = kids h l) -> (forall y q, full_name h y q -> full_name h' y q) ->
  forall t x, viewn n h x t -> viewn n h' x t.
Proof.
  intros K Hk Hf. induction t as [lb ts IH] using tree_rect'. intros x V. inversion V as [? ? ? Hn Hl F]; subst.
  assert (Hx : kids h' x = kids h x). { apply Hk; [done|]. destruct Hl as (o & Ho & _). by eexists. }
  constructor; [done|by eapply labelled_frame|]. rewrite Hx. clear V Hl Hx. revert F. generalize (kids h x). revert IH. clear.
  induction ts as [|t ts IHts]; intros IH l F; inversion F; subst; constructor; inversion IH; subst; auto.
Qed.
Lemma viewn_grows n h h' a t x : WF0 h -> grows h h' a -> (forall l, n <= l -> a l = []) -> viewn n h x t -> viewn n h' x t.
Proof.
  intros W G Ha. apply viewn_frame; [apply G| |intros; by eapply grows_name].
  intros l Hl He. by rewrite (gs_kids _ _ _ G l He), (Ha l Hl), app_nil_r.
Qed.
Lemma views_grows n h h' a xs ts : WF0 h -> grows h h' a -> (forall l, n <= l -> a l = []) -> Forall2 (viewn n h) xs ts -> Forall2 (viewn n h') xs ts.
Proof. intros W G Ha F. eapply Forall2_impl; [exact F|]. intros. by eapply viewn_grows. Qed.
Lemma views_le m n h xs ts : m <= n -> Forall2 (viewn n h) xs ts -> Forall2 (viewn m h) xs ts.
Proof. intros Hm F. eapply Forall2_impl; [exact F|]. intros. by eapply viewn_le. Qed.
(** What an element of [h'] that is new since [h] shows in [h'] it shows later. *)
Lemma viewn_only m n h h' p ys t x : WF0 h -> grows h h' (only p ys) -> p < n -> m <= n -> viewn n h x t -> viewn m h' x t.
Proof.
  intros W G Hp Hm V. eapply viewn_le; [exact Hm|]. eapply viewn_grows; [done|done| |done]. intros l Hl. apply only_ne. lia.
Qed.

Lemma plain_attrs h x (a : dict string pyval) : Forall2 (attr_is h x) a (plain a).
Proof. induction a as [|[k v] a IH]; constructor; [by split|done]. Qed.
Lemma leaf_view n h h' p x oc c nm a : n <= length h -> born_at h h' p x oc -> o_kind oc = KSem c -> o_name oc = nm -> o_attr oc = a -> viewn n h' x (sem_leaf c nm a).
Proof.
  intros Hn B Hk Hnm Ha. destruct (born_exists _ _ _ _ _ B) as [o Ho].
  pose proof (born_get o_kind _ _ _ _ _ B (fun _ => eq_refl)) as F1. pose proof (born_get o_name _ _ _ _ _ B (fun _ => eq_refl)) as F2.
  pose proof (born_get o_attr _ _ _ _ _ B (fun _ => eq_refl)) as F3. rewrite Ho in F1, F2, F3. simpl in F1, F2, F3. injection F1 as F1. injection F2 as F2. injection F3 as F3.
  constructor.
  - by rewrite (bn_new _ _ _ _ _ B).
  - exists o. split; [done|]. split; [congruence|]. split; [congruence|]. rewrite F3, Ha. apply plain_attrs.
  - rewrite (bn_kids _ _ _ _ _ B). constructor.
Qed.
Lemma born_node h h' p x u nm prog c : born_at h h' p x (con_obj KNode u nm prog c) -> labelled h' x (LNode nm).
Proof.
  intros B. destruct (born_exists _ _ _ _ _ B) as [o Ho].
  pose proof (born_get o_kind _ _ _ _ _ B (fun _ => eq_refl)) as F1. pose proof (born_get o_name _ _ _ _ _ B (fun _ => eq_refl)) as F2.
  rewrite Ho in F1, F2. simpl in F1, F2. injection F1 as F1. injection F2 as F2. exists o. done.
Qed.
Lemma born_edge h h' p x u nm prog c : born_at h h' p x (con_obj KEdge u nm prog c) -> labelled h' x (LEdge nm).
Proof.
  intros B. destruct (born_exists _ _ _ _ _ B) as [o Ho].
  pose proof (born_get o_kind _ _ _ _ _ B (fun _ => eq_refl)) as F1. pose proof (born_get o_name _ _ _ _ _ B (fun _ => eq_refl)) as F2.
  rewrite Ho in F1, F2. simpl in F1, F2. injection F1 as F1. injection F2 as F2. exists o. done.
Qed.
Lemma labelled_kept h h' x lb : kept h h' -> match lb with LNode _ | LEdge _ => True | _ => False end -> labelled h x lb -> labelled h' x lb.
Proof.
  intros K Hb (o & Ho & H). specialize (K x o Ho). destruct (h' !! x) as [o'|] eqn:E; [|done]. cbn [fmap option_fmap option_map] in K. apply (inj Some) in K.
  exists o'. split; [done|].
  assert (E1 : o_kind o' = o_kind o) by (change (o_kind o') with (o_kind (ident_part o')); by rewrite K).
  assert (E2 : o_name o' = o_name o) by (change (o_name o') with (o_name (ident_part o')); by rewrite K).
  destruct lb; try done; by rewrite E1, E2.
Qed.
Lemma labelled_kind h x lb : labelled h x lb -> kind_of h x = Some match lb with LNode _ => KNode | LEdge _ => KEdge | LRel _ _ _ => KRel | LSem c _ _ => KSem c | LValue _ _ => KValue end.
Proof. intros (o & Ho & H). unfold kind_of. rewrite Ho. simpl. destruct lb; by destruct H as [-> _]. Qed.

(** ** Parameters and numbers *)
Definition pv (h : list obj) (c : loc) : option (string * list pyval) :=
  match h !! c with Some o => if k_value (o_kind o) then Some (o_name o, o_vals o) else None | None => None end.
Definition params_are (h : list obj) (ps : loc) (env : list (string * string)) : Prop :=
  omap (pv h) (kids h ps) = map (fun x => (fst x, [PStr (snd x)])) env.
Lemma omap_cons {A B} (f : A -> option B) x (l : list A) : omap f (x :: l) = match f x with Some y => y :: omap f l | None => omap f l end.
Proof. done. Qed.
Lemma pv_kids h (l : list loc) : omap (pv h) (filter (fun c => kind_of h c <> Some KPort) l) = omap (pv h) l.
Proof.
  induction l as [|c l IH]; [done|]. rewrite filter_cons. destruct (decide (kind_of h c <> Some KPort)) as [Hk|Hk].
  - rewrite !omap_cons. by rewrite IH.
  - rewrite omap_cons, IH. assert (E : pv h c = None); [|by rewrite E]. unfold pv. unfold kind_of in Hk. destruct (h !! c) as [o|]; [|done].
    simpl in Hk. destruct (o_kind o); simpl; try done; exfalso; apply Hk; done.
Qed.
Lemma find_pv h (l : list loc) nm :
  (fun o => (o_name o, o_vals o)) <$> head (List.filter (fun o => k_value (o_kind o) && bool_decide (o_name o = nm)) (omap (fun c => h !! c) l)) =
  head (filter (fun x => fst x = nm) (omap (pv h) l)).
Proof.
  induction l as [|c l IH]; [done|]. simpl. unfold pv at 1. destruct (h !! c) as [o|]; [|done]. simpl.
  destruct (k_value (o_kind o)); simpl; [|done]. rewrite filter_cons. cbn [fst]. destruct (decide (o_name o = nm)) as [Hn|Hn].
  - by rewrite bool_decide_true. - by rewrite bool_decide_false.
Qed.
Lemma find_value_params h ps env nm : params_are h ps env ->
  (fun o => (o_name o, o_vals o)) <$> find_value h ps nm = (fun x => (fst x, [PStr (snd x)])) <$> head (filter (fun x => fst x = nm) env).
Proof.
  intros H. unfold find_value. unfold params_are, kids in H. rewrite pv_kids in H.
  assert (E : (match h !! ps with Some o => dvals (o_subs o) | None => [] end) = children h ps) by (unfold children; by destruct (h !! ps)).
  rewrite E, find_pv, H. clear. induction env as [|[k v] env IH]; [done|]. cbn [map fst snd]. rewrite !filter_cons. cbn [fst]. by case_decide.
Qed.
Lemma head_prefix {A} (P : A -> Prop) `{!forall x, Decision (P x)} (l l' : list A) x : head (filter P l) = Some x -> l `prefix_of` l' -> head (filter P l') = Some x.
Proof. intros Hh [k ->]. rewrite filter_app. revert Hh. by destruct (filter P l). Qed.

Section numbers.
  Context (fl : string -> option Qc).
  Lemma vector_ok h ps env ENV : params_are h ps env -> env `prefix_of` ENV -> forall vs qs, vector_values fl h ps vs = Ok qs -> numbers fl ENV vs = Some qs.
  Proof.
    intros Hp Hpre. induction vs as [|v vs IH]; intros qs E; [by injection E as <-|]. cbn [vector_values] in E. unfold rseq at 1 in E.
    destruct (match v with CRef id => _ | CFloat t => _ end) as [l|e] eqn:Ev; [|done]. unfold rseq in E. destruct (vector_values fl h ps vs) as [l'|e]; [|done].
    injection E as <-. cbn [numbers]. rewrite (IH l' eq_refl).
    assert (Hn : exists q, l = [q] /\ number fl ENV v = Some q).
    { destruct v as [id|t]; cbn [number].
      - pose proof (find_value_params h ps env id Hp) as F. destruct (find_value h ps id) as [o|]; [|done]. simpl in F.
        destruct (head (filter (fun x => fst x = id) env)) as [x|] eqn:Eh; [|done]. simpl in F. injection F as _ F. rewrite F in Ev. cbn in Ev.
        rewrite (head_prefix _ _ _ _ Eh Hpre). destruct (fl (snd x)) as [q|]; [|done]. injection Ev as <-. by exists q.
      - destruct (fl t) as [q|]; [|done]. injection Ev as <-. by exists q. }
    destruct Hn as (q & -> & ->). done.
  Qed.
  Lemma rigid_ok h ps env ENV r x : params_are h ps env -> env `prefix_of` ENV -> rigid_values fl h ps r = Ok x -> rigid fl ENV r = Some x.
  Proof.
    intros Hp Hpre. unfold rigid_values, rigid, rseq. destruct (vector_values fl h ps (rg_trans r)) as [t|] eqn:E1; [|done].
    rewrite (vector_ok _ _ _ _ Hp Hpre _ _ E1). destruct (rg_rot r) as [ro|]; [|by injection 1 as <-].
    destruct (vector_values fl h ps (ro_vec ro)) as [q|] eqn:E2; [|done]. rewrite (vector_ok _ _ _ _ Hp Hpre _ _ E2). by injection 1 as <-.
  Qed.
End numbers.

Lemma pv_kept h h' (l : list loc) : kept h h' -> (forall c, c ∈ l -> exists_in h c) -> omap (pv h') l = omap (pv h) l.
Proof.
  intros K. induction l as [|c l IH]; intros Hl; [done|]. rewrite !omap_cons. rewrite IH by (intros; apply Hl; by right).
  assert (E : pv h' c = pv h c); [|by rewrite E]. destruct (Hl c ltac:(left)) as [o Ho]. specialize (K c o Ho). unfold pv. rewrite Ho.
  destruct (h' !! c) as [o'|]; [|done]. cbn [fmap option_fmap option_map] in K. apply (inj Some) in K.
  assert (E1 : o_kind o' = o_kind o) by (change (o_kind o') with (o_kind (ident_part o')); by rewrite K).
  assert (E2 : o_name o' = o_name o) by (change (o_name o') with (o_name (ident_part o')); by rewrite K).
  assert (E8 : o_vals o' = o_vals o) by (change (o_vals o') with (o_vals (ident_part o')); by rewrite K).
  by rewrite E1, E2, E8.
Qed.
Lemma kids_exist h p : WF0 h -> forall c, c ∈ kids h p -> exists_in h c.
Proof. intros W c Hc. eapply wf_children_exist; [done|]. by apply kids_children. Qed.
Lemma params_grows h h' a ps env : WF0 h -> grows h h' a -> exists_in h ps -> a ps = [] -> params_are h ps env -> params_are h' ps env.
Proof.
  intros W G He Ha H. unfold params_are in *. rewrite (gs_kids _ _ _ G ps He), Ha, app_nil_r, <- H. apply pv_kept; [apply G|by apply kids_exist].
Qed.

(** ** The invariant *)
Record linv (s : st) (d : loader) (env : list (string * string)) : Prop := {
  li_clean : clean s;
  li_cex : forall k x, dget k (ld_cache d) = Some x -> exists_in (heap s) x;
  li_cache : forall k x o, dget k (ld_cache d) = Some x -> heap s !! x = Some o -> is_hyperelement (o_kind o) = true -> full_name (heap s) x k;
  li_ps : exists_in (heap s) (ld_params d);
  li_params : params_are (heap s) (ld_params d) env
}.
Record opened (s : st) (d : loader) (path : list string) (p : loc) : Prop := {
  op_cached : dget (join "/" path) (ld_cache d) = Some p;
  op_kind : kind_of (heap s) p = Some KNode;
  op_later : ld_params d < p;
  op_path : path <> []
}.
Definition under (path : list string) (k : string) : Prop := exists t, k = join "/" path +:+ "/" +:+ t.
Definition cext (path : list string) (d d' : loader) : Prop := forall k, ~ under path k -> dget k (ld_cache d') = dget k (ld_cache d).
Definition same_base (d d' : loader) : Prop := ld_nodes d' = ld_nodes d /\ ld_sems d' = ld_sems d /\ ld_params d' = ld_params d /\ ld_root d' = ld_root d.
Record step (path : list string) (env : list (string * string)) (a : loc -> list loc) (s : st) (d : loader) (s' : st) (d' : loader) : Prop := {
  sp_inv : linv s' d' env;
  sp_grows : grows (heap s) (heap s') a;
  sp_cext : cext path d d';
  sp_same : same_base d d'
}.
Lemma linv_wf s d env : linv s d env -> WF0 (heap s).
Proof. intros I. apply clean_wf, I. Qed.
Lemma opened_exists s d path p : opened s d path p -> exists_in (heap s) p.
Proof. intros O. pose proof (op_kind _ _ _ _ O) as H. unfold kind_of in H. destruct (heap s !! p) eqn:E; [by eexists|done]. Qed.
Lemma opened_name s d env path p : linv s d env -> opened s d path p -> full_name (heap s) p (join "/" path).
Proof.
  intros I O. destruct (opened_exists _ _ _ _ O) as [o Ho]. apply (li_cache _ _ _ I _ p o); [apply O|done|].
  pose proof (op_kind _ _ _ _ O) as H. unfold kind_of in H. rewrite Ho in H. simpl in H. injection H as ->. done.
Qed.
Lemma linv_grows s d env s' a : linv s d env -> clean s' -> grows (heap s) (heap s') a -> a (ld_params d) = [] -> linv s' d env.
Proof.
  intros I C G Ha. pose proof (linv_wf _ _ _ I) as W. split.
  - done.
  - intros k x H. eapply grows_exists; [done|]. by apply (li_cex _ _ _ I k).
  - intros k x o H Ho Hk. destruct (li_cex _ _ _ I k x H) as [o0 Ho0]. eapply grows_name; [done|done|]. apply (li_cache _ _ _ I k x o0); [done|done|].
    pose proof (kept_kind _ _ x (gs_kept _ _ _ G) ltac:(by eexists)) as E. unfold kind_of in E. rewrite Ho, Ho0 in E. simpl in E. injection E as <-. done.
  - eapply grows_exists; [done|]. apply I.
  - eapply params_grows; [done|done|apply I|done|apply I].
Qed.
Lemma under_self path : ~ under path (join "/" path).
Proof.
  intros [t H]. assert (Hl : String.length (join "/" path) = String.length (join "/" path +:+ "/" +:+ t)) by (by rewrite <- H).
  revert Hl. generalize (join "/" path) as x. clear. intros x.
  assert (E : forall y z, String.length (y +:+ z) = String.length y + String.length z).
  { induction y as [|b y IH]; intros z; [done|]. change (String b y +:+ z) with (String b (y +:+ z)). simpl. by rewrite IH. }
  rewrite !E. simpl. lia.
Qed.
Lemma under_deeper path nm k : path <> [] -> under (path ++ [nm]) k -> under path k.
Proof. intros Hp [t ->]. rewrite join_snoc by done. exists (nm +:+ "/" +:+ t). by rewrite !app_assoc_s. Qed.
Lemma under_child path nm : path <> [] -> under path (join "/" (path ++ [nm])).
Proof. intros Hp. exists nm. by apply join_snoc. Qed.
Lemma cext_refl path d : cext path d d.
Proof. done. Qed.
Lemma cext_trans path d d1 d2 : cext path d d1 -> cext path d1 d2 -> cext path d d2.
Proof. intros A B k H. by rewrite B, A. Qed.
Lemma cext_deeper path nm d d' : path <> [] -> cext (path ++ [nm]) d d' -> cext path d d'.
Proof. intros Hp H k Hk. apply H. intros Hu. apply Hk. by eapply under_deeper. Qed.
Lemma same_refl d : same_base d d.
Proof. done. Qed.
Lemma same_trans d d1 d2 : same_base d d1 -> same_base d1 d2 -> same_base d d2.
Proof. intros (?&?&?&?) (?&?&?&?). repeat split; congruence. Qed.
Lemma step_refl path env s d : linv s d env -> step path env (fun _ => []) s d s d.
Proof. intros I. split; [done|apply grows_refl|done|done]. Qed.
Lemma step_ext path env a b s d s' d' : (forall l, exists_in (heap s) l -> a l = b l) -> step path env a s d s' d' -> step path env b s d s' d'.
Proof. intros H [I G C S]. split; [done|by eapply grows_ext|done|done]. Qed.
Lemma step_trans path env a b s d s1 d1 s2 d2 : step path env a s d s1 d1 -> step path env b s1 d1 s2 d2 -> step path env (fun l => a l ++ b l) s d s2 d2.
Proof. intros [I G C S] [I' G' C' S']. split; [done|by eapply grows_trans|by eapply cext_trans|by eapply same_trans]. Qed.
Lemma step_only path env p xs ys s d s1 d1 s2 d2 : step path env (only p xs) s d s1 d1 -> step path env (only p ys) s1 d1 s2 d2 -> step path env (only p (xs ++ ys)) s d s2 d2.
Proof. intros A B. eapply step_ext; [|by eapply step_trans]. intros l Hl. simpl. unfold only. by case_decide. Qed.
Lemma step_new path env a q ys s d s1 d1 s2 d2 : step path env a s d s1 d1 -> step path env (only q ys) s1 d1 s2 d2 -> ~ exists_in (heap s) q -> step path env a s d s2 d2.
Proof. intros A B Hq. eapply step_ext; [|by eapply step_trans]. intros l Hl. simpl. rewrite only_ne; [by rewrite app_nil_r|]. by intros ->. Qed.
Lemma step_deeper path nm env a s d s' d' : path <> [] -> step (path ++ [nm]) env a s d s' d' -> step path env a s d s' d'.
Proof. intros Hp [I G C S]. split; [done|done|by eapply cext_deeper|done]. Qed.
Lemma opened_step path env a s d s' d' p : opened s d path p -> step path env a s d s' d' -> opened s' d' path p.
Proof.
  intros O [I G C S]. pose proof (opened_exists _ _ _ _ O) as Hp. destruct O as [O1 O2 O3 O4]. split.
  - rewrite C; [done|]. apply under_self. - rewrite (kept_kind _ _ _ (gs_kept _ _ _ G)); done.
  - destruct S as (_ & _ & -> & _). done. - done.
Qed.
Lemma opened_deeper path nm env a s d s' d' p : path <> [] -> opened s d path p -> step (path ++ [nm]) env a s d s' d' -> opened s' d' path p.
Proof. intros Hp O S. eapply opened_step; [done|]. by eapply step_deeper. Qed.
(** Caching an element that lies below [path]. *)
Lemma cache_step path env s d x d' s' t : linv s d env -> cache_element x d s = (Ok d', s') -> full_name (heap s) x (join "/" path +:+ "/" +:+ t) ->
  s' = s /\ step path env (fun _ => []) s d s d' /\ ld_refs d' = ld_refs d /\ dget (join "/" path +:+ "/" +:+ t) (ld_cache d') = Some x.
Proof.
  intros I E F. apply cache_inv in E as (-> & o & Ho & ->). split; [done|]. pose proof (clean_name s x o _ (li_clean _ _ _ I) Ho F) as Hq.
  split; [|split; [done|simpl; by rewrite Hq, dget_dset, decide_True]]. split.
  - split; simpl.
    + apply I.
    + intros k y H. rewrite dget_dset in H. case_decide; [injection H as <-; by eexists|by apply (li_cex _ _ _ I k)].
    + intros k y oy H Hy Hk. rewrite dget_dset in H. case_decide as Hd; [|by apply (li_cache _ _ _ I k y oy)]. injection H as <-. subst k. by rewrite Hq.
    + apply I. + apply I.
  - apply grows_refl.
  - intros k Hk. simpl. rewrite dget_dset, decide_False; [done|]. intros ->. apply Hk. rewrite Hq. by exists t.
  - done.
Qed.
(** An element is born in a container. *)
Lemma born_step path env s d s' q x oc : linv s d env -> clean s' -> born_at (heap s) (heap s') q x oc -> q <> ld_params d -> step path env (only q [x]) s d s' d.
Proof. intros I C B Hq. split; [|apply B|done|done]. eapply linv_grows; [done|done|apply B|]. by apply only_ne. Qed.
