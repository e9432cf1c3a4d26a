(** * Conversion: what is new lists only what is new *)
From stdpp Require Import relations.
From Verif Require Import Spec Hierarchy Elements Factory History PDict PPath PExec PMono CogniLang QCog3 QCog8 QConv.

Definition lists_new (n0 : nat) (ix : dict string (dict uid loc)) : Prop := forall k d x, (k, d) ∈ ix -> x ∈ dvals d -> n0 <= x.
Definition newidx (n0 : nat) (h : list obj) : Prop := forall p o, n0 <= p -> h !! p = Some o -> lists_new n0 (o_index o).
Definition idxp {A} (n0 : nat) (m : M A) : Prop := forall s, newidx n0 (heap s) -> newidx n0 (heap (snd (m s))).

Lemma idx_ret {A} n0 (a : A) : idxp n0 (ret a). Proof. by intros s. Qed.
Lemma idx_raise {A} n0 e : idxp n0 (@raise A e). Proof. by intros s. Qed.
Lemma idx_bind {A B} n0 (m : M A) (k : A -> M B) : idxp n0 m -> (forall a, idxp n0 (k a)) -> idxp n0 (bind m k).
Proof. intros Hm Hk s N. unfold bind. specialize (Hm s N). destruct (m s) as [[a|e] s1]; cbn [snd] in *; [|done]. by apply Hk. Qed.
Lemma idx_get n0 : idxp n0 get_st. Proof. by intros s. Qed.
Lemma idx_deref n0 l : idxp n0 (deref l). Proof. intros s. unfold deref. by destruct (heap s !! l). Qed.
Lemma idx_of_opt {A} n0 e (x : option A) : idxp n0 (of_opt e x). Proof. destruct x; [apply idx_ret|apply idx_raise]. Qed.
Lemma idx_now n0 c : idxp n0 (now c). Proof. by intros s. Qed.
Lemma idx_hash n0 c : idxp n0 (hash c). Proof. by intros s. Qed.
Lemma idx_lift {A} n0 (r : res A) : idxp n0 (lift r). Proof. destruct r; [apply idx_ret|apply idx_raise]. Qed.
Lemma idx_run {A} n0 (m : M A) s r s' : idxp n0 m -> m s = (r, s') -> newidx n0 (heap s) -> newidx n0 (heap s').
Proof. intros H E N. specialize (H s N). by rewrite E in H. Qed.
Lemma newidx_alter n0 f l h : (n0 <= l -> forall o, h !! l = Some o -> lists_new n0 (o_index o) -> lists_new n0 (o_index (f o))) -> newidx n0 h -> newidx n0 (alter f l h).
Proof.
  intros F N p o Hp Ho. destruct (decide (l = p)) as [->|D].
  - rewrite list_lookup_alter in Ho. destruct (h !! p) as [o0|] eqn:E; [|done]. injection Ho as <-. by apply F, (N p).
  - rewrite list_lookup_alter_ne in Ho by done. by apply (N p).
Qed.
Lemma idx_upd n0 l f : (forall o, o_index (f o) = o_index o) -> idxp n0 (upd l f).
Proof. intros F s N. unfold upd. destruct (heap s !! l); [|done]. apply newidx_alter; [|done]. intros _ o1 _. by rewrite F. Qed.
Global Hint Resolve idx_ret idx_raise idx_get idx_deref idx_of_opt idx_now idx_hash idx_lift : idx.
Ltac idx := repeat first
  [ progress (eauto with idx)
  | apply idx_bind; [|intros ?]
  | apply idx_upd; intros ?; reflexivity
  | match goal with |- idxp _ (match ?x with _ => _ end) => destruct x | |- idxp _ (let '_ := ?x in _) => destruct x end ].
Section idx.
  Context (n0 : nat).
  Lemma idx_update_timestamp l : idxp n0 (update_timestamp l). Proof. unfold update_timestamp. idx. Qed.
  Lemma idx_refresh l : idxp n0 (refresh_qname l). Proof. unfold refresh_qname. idx. Qed.
  Hint Resolve idx_update_timestamp idx_refresh : idx.
  Lemma idx_update l : idxp n0 (update l). Proof. unfold update. idx. Qed.
  Hint Resolve idx_update : idx.
  Lemma idx_update_loop fuel q : idxp n0 (update_loop fuel q).
  Proof. revert q. induction fuel as [|fuel IH]; intros [|x q]; simpl; idx. Qed.
  Hint Resolve idx_update_loop : idx.
  Lemma idx_update_subtree l : idxp n0 (update_subtree l). Proof. unfold update_subtree. idx. Qed.
  Hint Resolve idx_update_subtree : idx.
  Lemma idx_remove_one p v : idxp n0 (remove_one p v). Proof. unfold remove_one. idx. Qed.
  Lemma dset_in {V} k (v : V) (d : dict string V) k' v' : (k', v') ∈ dset k v d -> (k', v') ∈ d \/ (k' = k /\ v' = v).
  Proof.
    induction d as [|[a b] d IH]; simpl; [intros H; apply elem_of_list_singleton in H; injection H as -> ->; by right|]. case_decide as D.
    - intros H. apply elem_of_cons in H as [H|H]; [injection H as -> ->; by right|left; by right].
    - intros H. apply elem_of_cons in H as [H|H]; [left; rewrite H; left|]. destruct (IH H) as [?|?]; [left; by right|by right].
  Qed.
  Lemma ddel_in {V} k (d : dict string V) x : x ∈ ddel k d -> x ∈ d.
  Proof. induction d as [|[a b] d IH]; simpl; [done|]. case_decide as D; [intros H; by right|]. intros H. apply elem_of_cons in H as [H|H]; [rewrite H; left|right; by apply IH]. Qed.
  Lemma dvals_in {V} (d : dict string V) x : x ∈ dvals d <-> exists k, (k, x) ∈ d.
  Proof. unfold dvals. rewrite elem_of_list_fmap. split; [intros ([k v] & -> & H); by exists k|intros [k H]; by exists (k, x)]. Qed.
  Lemma idx_remove_uuid p nm u : idxp n0 (remove_uuid p nm u).
  Proof.
    unfold remove_uuid. apply idx_bind; [idx|]. intros op. apply idx_bind; [idx|]. intros el. apply idx_bind; [idx|]. intros []. apply idx_bind; [idx|]. intros oel. cbv zeta.
    intros s N. destruct (bind _ _ s) as [r s'] eqn:E. cbn [snd]. apply bind_split in E as [(e & E & ->)|(op' & s1 & E1 & E)]; [eapply idx_run; [|exact E|exact N]; idx|]. apply deref_inv in E1 as [Hop ->].
    apply bind_split in E as [(e & E & ->)|(d & s1 & E1 & E)]; [eapply idx_run; [|exact E|exact N]; idx|]. apply of_opt_inv in E1 as [Hd ->].
    apply bind_split in E as [(e & E & ->)|(d1 & s1 & E1 & E)]; [eapply idx_run; [|exact E|exact N]; idx|]. apply of_opt_inv in E1 as [_ ->].
    apply bind_split in E as [(e & E & ->)|([] & s1 & E1 & E)]; [unfold upd in E; rewrite Hop in E; done|]. unfold upd in E1. rewrite Hop in E1. injection E1 as <-.
    eapply idx_run; [|exact E|]; [idx|].
    cbn [heap set_heap]. apply newidx_alter; [|done]. intros Hp o Ho L. rewrite Hop in Ho. injection Ho as <-. cbn. intros k d' x H Hx. apply dset_in in H as [H|[-> ->]]; [by eapply L|].
    apply dvals_in in Hx as [k' Hx]. apply ddel_in in Hx. eapply L; [by apply dget_Some_in|]. apply dvals_in. by exists k'.
  Qed.
  Hint Resolve idx_remove_one idx_remove_uuid : idx.
  Lemma idx_upd_index l f s : (n0 <= l -> forall o, heap s !! l = Some o -> lists_new n0 (o_index o) -> lists_new n0 (o_index (f o))) -> newidx n0 (heap s) -> newidx n0 (heap (snd (upd l f s))).
  Proof. intros F N. unfold upd. destruct (heap s !! l) eqn:E; [|done]. apply newidx_alter; [|done]. intros Hl o1 Ho. apply F; [done|congruence]. Qed.
  Lemma idx_drop p nm : idxp n0 (upd p (fun o => s_index (dset nm [] (o_index o)) o)).
  Proof. intros s N. apply idx_upd_index; [|done]. intros Hp o Ho L. cbn. intros k d y H1 H2. apply dset_in in H1 as [H1|[-> ->]]; [by eapply L|]. by apply elem_of_nil in H2. Qed.
  Hint Resolve idx_drop : idx.
  Lemma idx_base_next g : idxp n0 (base_next g). Proof. destruct g as [p nm u|p [|v vs]|]; simpl; idx. Qed.
  Hint Resolve idx_base_next : idx.
  Lemma idx_rel_next p : idxp n0 (rel_next p). Proof. unfold rel_next. idx. Qed.
  Lemma idx_edge_next p nm u : idxp n0 (edge_next p nm u). Proof. unfold edge_next. idx. Qed.
  Hint Resolve idx_rel_next idx_edge_next : idx.
  Lemma idx_gen_next g : idxp n0 (gen_next g). Proof. destruct g; unfold gen_next; idx. Qed.
  Hint Resolve idx_gen_next : idx.
  Lemma idx_gen_loop body p vs : (forall x, idxp n0 (body x)) -> idxp n0 (gen_loop body p vs).
  Proof. intros Hb. induction vs as [|v vs IH]; simpl; idx. Qed.
  Lemma idx_for_gen body g : (forall x, idxp n0 (body x)) -> idxp n0 (for_gen body g).
  Proof. intros Hb. unfold for_gen. pose proof (fun p vs => idx_gen_loop body p vs Hb). idx. Qed.
  Lemma idx_for_gen_update g : idxp n0 (for_gen update g). Proof. apply idx_for_gen. idx. Qed.
  Hint Resolve idx_for_gen_update : idx.
  Lemma idx_add_base p x : n0 <= x -> idxp n0 (add_base p x).
  Proof.
    intros Hx. unfold add_base. case_decide; [apply idx_raise|]. apply idx_bind; [idx|]. intros oc. apply idx_bind; [idx|]. intros op. destruct (dget _ _); [apply idx_raise|]. apply idx_bind; [idx|]. intros []. case_decide; [idx|].
    apply idx_bind; [|intros []; idx]. intros s N. apply idx_upd_index; [|done]. intros Hp o Ho L. cbn. intros k d y H1 H2. apply dset_in in H1 as [H1|[-> ->]]; [by eapply L|]. apply dvals_in in H2 as [k' H2].
    apply dset_in in H2 as [H2|[_ ->]]; [|done]. destruct (dget (o_name oc) (o_index o)) as [d0|] eqn:E; cbn in H2; [|by apply elem_of_nil in H2]. eapply L; [by apply dget_Some_in|]. apply dvals_in. by exists k'.
  Qed.
  Lemma idx_uid f nm : idxp n0 (generate_uid f nm). Proof. unfold generate_uid. idx. Qed.
  Lemma idx_qname f nm : idxp n0 (get_qualified_name f nm). Proof. unfold get_qualified_name. idx. Qed.
  Lemma idx_stamped f nm p : idxp n0 (stamped_name f nm p). Proof. unfold stamped_name. idx. Qed.
  Lemma idx_clock_of p : idxp n0 (clock_of p). Proof. unfold clock_of. idx. Qed.
  Lemma idx_cached ns d : idxp n0 (cached ns d). Proof. unfold cached. idx. Qed.
  Lemma idx_cache x d : idxp n0 (cache_element x d). Proof. unfold cache_element. idx. Qed.
  Lemma idx_attr x k v : idxp n0 (add_named_attribute x k v). Proof. unfold add_named_attribute. idx. Qed.
  Lemma idx_search p nm : idxp n0 (get_element_by_id_name p nm). Proof. by intros s. Qed.
  Hint Resolve idx_search : idx.
  Lemma idx_lookup parent ref d : idxp n0 (lookup_reference parent ref d). Proof. unfold lookup_reference. idx. Qed.
  Lemma newidx_app h o : o_index o = [] -> newidx n0 h -> newidx n0 (h ++ [o]).
  Proof.
    intros Ho N p o' Hp H. apply lookup_app_Some in H as [H|[_ H]]; [by apply (N p)|]. apply list_lookup_singleton_Some in H as [_ <-]. rewrite Ho. intros k d x Hx. by apply elem_of_nil in Hx.
  Qed.
  (** What a search below something new finds is new. *)
  Lemma tokens_new h ts : newidx n0 h -> forall p l x, n0 <= p -> get_by_tokens h ts p = Ok l -> x ∈ l -> n0 <= x.
  Proof.
    intros N. induction ts as [|t ts IH]; intros p l x Hp; simpl; (destruct (h !! p) as [o|] eqn:Ho; [|done]); (destruct (is_conceptual _); [|done]); [done|].
    pose proof (N p o Hp Ho) as L. destruct ts as [|t' ts].
    - intros [= <-] Hx. destruct (dget t (o_index o)) as [d|] eqn:E; [|by apply elem_of_nil in Hx]. eapply L; [by apply dget_Some_in|done].
    - destruct (dget t (o_index o)) as [d|] eqn:E; [|done]. assert (D : forall y, y ∈ dvals d -> n0 <= y) by (intros y Hy; eapply L; [by apply dget_Some_in|done]). clear E L.
      revert l x D. induction (dvals d) as [|v vs IHv]; intros l x D; [intros [= <-] Hx; by apply elem_of_nil in Hx|].
      change (get_by_tokens h (t' :: ts) v) with (get_by_tokens h (t' :: ts) v). cbn beta iota fix. destruct (get_by_tokens h (t' :: ts) v) as [r|e] eqn:Er; [|by intros [=]].
      match goal with |- match ?g with _ => _ end = _ -> _ => destruct g as [r'|e] eqn:Eg end; [|by intros [=]]. intros [= <-] Hx. apply elem_of_app in Hx as [Hx|Hx].
      + eapply IH; [|exact Er|done]. apply D. left.
      + eapply IHv; [|reflexivity|done]. intros y Hy. apply D. by right.
  Qed.
End idx.
Global Hint Resolve idx_update_timestamp idx_refresh idx_update idx_update_subtree idx_uid idx_qname idx_stamped idx_clock_of idx_cached idx_cache idx_attr idx_search idx_lookup : idx.
