(** * C77, C78: operations change only the trees of their targets *)
From stdpp Require Import relations.
From Verif Require Import SpecFrame PDict.

(** The elements an object points to in the containment structure; with [b], also those
    in its name index. *)
Definition ptrs (b : bool) (o : obj) : list loc :=
  olist (o_parent o) ++ dvals (o_subs o) ++ (if b then flat_map (fun x => dvals (snd x)) (o_index o) else []).

Section iso.
  Context (b : bool) (R : loc -> Prop).

  Definition good (o : obj) : Prop := Forall R (ptrs b o).
  Record inv (s : st) : Prop := mkInv {
    iv_closed : forall l o, R l -> heap s !! l = Some o -> good o;
    iv_new : forall l, length (heap s) <= l -> R l
  }.
  Definition iso {A} (P : A -> Prop) (m : M A) : Prop :=
    forall s, inv s -> inv (snd (m s)) /\ length (heap s) <= length (heap (snd (m s))) /\
      (forall l, ~ R l -> heap (snd (m s)) !! l = heap s !! l) /\ match fst (m s) with Ok a => P a | Exn _ => True end.
  Notation any := (fun _ => True).

  (** ** Objects *)
  Lemma good_iff o : good o <-> (forall p, o_parent o = Some p -> R p) /\ (forall k c, (k, c) ∈ o_subs o -> R c) /\
    (b = true -> forall n d k c, (n, d) ∈ o_index o -> (k, c) ∈ d -> R c).
  Proof.
    unfold good, ptrs. rewrite !Forall_app. split.
    - intros (Hp & Hs & Hi). split; [|split].
      + intros p E. rewrite E in Hp. by inversion Hp.
      + intros k c Hk. rewrite Forall_forall in Hs. apply Hs. apply elem_of_list_fmap. by exists (k, c).
      + intros -> n d k c Hn Hk. rewrite Forall_forall in Hi. apply Hi. apply elem_of_list_In, in_flat_map.
        exists (n, d). split; [by apply elem_of_list_In|]. apply elem_of_list_In, elem_of_list_fmap. by exists (k, c).
    - intros (Hp & Hs & Hi). split; [|split].
      + destruct (o_parent o) as [p|]; cbn; [|constructor]. constructor; [by apply Hp|constructor].
      + apply Forall_forall. intros c Hc. apply elem_of_list_fmap in Hc as ([k c'] & -> & Hc). by apply (Hs k).
      + destruct b; [|constructor]. apply Forall_forall. intros c Hc. apply elem_of_list_In, in_flat_map in Hc as ([n d] & Hn & Hc).
        apply elem_of_list_In in Hn. apply elem_of_list_In, elem_of_list_fmap in Hc as ([k c'] & -> & Hc). by eapply (Hi eq_refl).
  Qed.
  Lemma good_same (f : obj -> obj) : (forall o, o_parent (f o) = o_parent o) -> (forall o, o_subs (f o) = o_subs o) -> (forall o, o_index (f o) = o_index o) ->
    forall o, good o -> good (f o).
  Proof. intros Hp Hs Hi o. unfold good, ptrs. by rewrite Hp, Hs, Hi. Qed.

  Lemma in_dset {K V} `{EqDecision K} (k : K) (v : V) d x : x ∈ dset k v d -> x = (k, v) \/ x ∈ d.
  Proof.
    induction d as [|[k' v'] d IH]; cbn.
    - intros Hx%elem_of_list_singleton. by left.
    - case_decide as Ek; [subst|]; intros [->|Hx]%elem_of_cons.
      + by left.
      + right. by apply elem_of_cons; right.
      + right. by apply elem_of_cons; left.
      + destruct (IH Hx) as [->|]; [by left|right; by apply elem_of_cons; right].
  Qed.
  Lemma in_ddel {K V} `{EqDecision K} (k : K) (d : list (K * V)) x : x ∈ ddel k d -> x ∈ d.
  Proof.
    induction d as [|[k' v'] d IH]; cbn; [done|]. case_decide; intros Hx.
    - by apply elem_of_cons; right.
    - apply elem_of_cons in Hx as [->|Hx]; apply elem_of_cons; [by left|right; by apply IH].
  Qed.
  Lemma dget_in {K V} `{EqDecision K} (k : K) (d : list (K * V)) v : dget k d = Some v -> (k, v) ∈ d.
  Proof.
    induction d as [|[k' v'] d IH]; cbn; [done|]. case_decide as E; intros Hx.
    - subst. injection Hx as ->. by apply elem_of_cons; left.
    - apply elem_of_cons; right. by apply IH.
  Qed.

  (** ** The monad *)
  Lemma iso_ret {A} (P : A -> Prop) a : P a -> iso P (ret a).
  Proof. by intros H s I. Qed.
  Lemma iso_raise {A} (P : A -> Prop) e : iso P (raise e).
  Proof. by intros s I. Qed.
  Lemma iso_bind {A B} (Q : A -> Prop) (P : B -> Prop) m k : iso Q m -> (forall a, Q a -> iso P (k a)) -> iso P (bind m k).
  Proof.
    intros Hm Hk s I. specialize (Hm s I). unfold bind. destruct (m s) as [[a|e] s1]; cbn in *.
    - destruct Hm as (I1 & L1 & F1 & HQ). destruct (Hk a HQ s1 I1) as (I2 & L2 & F2 & HP).
      split; [done|]. split; [lia|]. split; [|done]. intros l Hl. by rewrite F2, F1.
    - destruct Hm as (I1 & L1 & F1 & _). done.
  Qed.
  Lemma iso_weaken {A} (Q P : A -> Prop) m : iso Q m -> (forall a, Q a -> P a) -> iso P m.
  Proof. intros H W s I. destruct (H s I) as (? & ? & ? & HQ). split; [done|]. split; [done|]. split; [done|]. destruct (fst (m s)); [by apply W|done]. Qed.
  Lemma iso_any {A} (Q : A -> Prop) m : iso Q m -> iso any m.
  Proof. intros H. by eapply iso_weaken. Qed.
  Lemma iso_of_opt {A} (P : A -> Prop) e x : (forall a, x = Some a -> P a) -> iso P (of_opt e x).
  Proof. destruct x; intros H; [by apply iso_ret, H|apply iso_raise]. Qed.
  Lemma iso_get : iso inv get_st.
  Proof. by intros s I. Qed.
  Lemma iso_now c : iso any (now c).
  Proof. intros s I. unfold now. cbn. split; [|done]. by destruct I; constructor. Qed.
  Lemma iso_hash x : iso any (hash x).
  Proof. by intros s I. Qed.
  Lemma iso_deref l : R l -> iso good (deref l).
  Proof. intros H s I. unfold deref. destruct (heap s !! l) as [o|] eqn:E; cbn; [|done]. split; [done|]. split; [done|]. split; [done|]. by apply (iv_closed _ I l). Qed.
  Lemma iso_read l : iso any (deref l).
  Proof. intros s I. unfold deref. by destruct (heap s !! l). Qed.
  Lemma iso_upd l f : R l -> (forall o, good o -> good (f o)) -> iso any (upd l f).
  Proof.
    intros Hl Hf s I. unfold upd. destruct (heap s !! l) as [o|] eqn:E; cbn; [|done].
    rewrite alter_length. split; [|split; [done|split; [|done]]].
    - constructor; cbn.
      + intros l' o' Hl' H. destruct (decide (l' = l)) as [->|N].
        * rewrite list_lookup_alter, E in H. cbn in H. injection H as <-. apply Hf. by apply (iv_closed _ I l).
        * rewrite list_lookup_alter_ne in H by done. by apply (iv_closed _ I l').
      + intros l'. rewrite alter_length. apply I.
    - intros l' Hl'. apply list_lookup_alter_ne. by intros ->.
  Qed.
  Lemma iso_alloc o : good o -> iso R (alloc o).
  Proof.
    intros G s I. unfold alloc. cbn. rewrite app_length. cbn. split; [|split; [lia|split]].
    - constructor; cbn.
      + intros l o' Hl H. apply lookup_app_Some in H as [H|[L H]]; [by apply (iv_closed _ I l)|].
        destruct (l - length (heap s)) as [|k]; cbn in H; [by injection H as <-|done].
      + intros l. rewrite app_length. cbn. intros L. apply I. lia.
    - intros l Hl. rewrite lookup_app_l; [done|]. destruct (decide (l < length (heap s))); [done|]. destruct Hl. apply I. lia.
    - apply I. lia.
  Qed.
  Lemma iso_map_m {A B} (Q : B -> Prop) (f : A -> M B) l : Forall (fun x => iso Q (f x)) l -> iso (Forall Q) (map_m f l).
  Proof.
    induction 1 as [|x l Hx _ IH]; cbn [map_m]; [by apply iso_ret|].
    eapply iso_bind; [exact Hx|]. intros y Hy. eapply iso_bind; [exact IH|]. intros ys Hys. apply iso_ret. by constructor.
  Qed.

  Lemma blank_good k u nm prog : good (blank k u nm prog).
  Proof. apply good_iff. cbn. split; [done|]. split; [by intros ? ? ?%elem_of_nil|]. by intros _ ? ? ? ? ?%elem_of_nil. Qed.
  Lemma bind_read {A B} (m : M A) l (k : obj -> M B) P : (forall o, iso P (k o)) -> iso P (bind (deref l) k).
  Proof. intros H. eapply iso_bind; [apply iso_read|]. intros o _. apply H. Qed.

  Ltac same := apply good_same; intros; reflexivity.

  (** ** Hierarchy *)
  Lemma iso_timestamp l : R l -> iso any (update_timestamp l).
  Proof.
    intros H. unfold update_timestamp. eapply iso_bind; [apply iso_read|]. intros o _. destruct (o_clock o) as [c|]; [|apply iso_raise].
    eapply iso_bind; [apply iso_now|]. intros t _. apply iso_upd; [done|]. same.
  Qed.
  Lemma iso_refresh l : R l -> iso any (refresh_qname l).
  Proof.
    intros H. unfold refresh_qname. eapply iso_bind; [apply iso_get|]. intros s _. destruct (names_up _ _ _) as [ns|e]; [|apply iso_raise].
    apply iso_upd; [done|]. same.
  Qed.
  Lemma iso_update l : R l -> iso any (update l).
  Proof.
    intros H. unfold update. eapply iso_bind; [apply iso_read|]. intros o _. destruct (is_conceptual _); [|by apply iso_refresh].
    eapply iso_bind; [by apply iso_timestamp|]. intros _ _. by apply iso_refresh.
  Qed.
  Lemma good_subs o c : good o -> c ∈ dvals (o_subs o) -> R c.
  Proof. intros G Hc. apply good_iff in G as (_ & Hs & _). apply elem_of_list_fmap in Hc as ([k c'] & -> & Hc). by apply (Hs k). Qed.
  Lemma good_parent o p : good o -> o_parent o = Some p -> R p.
  Proof. intros G Hp. apply good_iff in G as (G & _). by apply G. Qed.
  Lemma iso_update_loop n fr : Forall R fr -> iso any (update_loop n fr).
  Proof.
    revert fr. induction n as [|n IH]; intros fr H; (destruct fr as [|x fr]; cbn [update_loop]; [by apply iso_ret|]).
    - apply iso_raise.
    - inversion H as [|? ? Hx Hfr]; subst. eapply iso_bind; [by apply iso_update|]. intros _ _.
      eapply iso_bind; [by apply iso_deref|]. intros o G. apply IH. apply Forall_app. split; [done|].
      apply Forall_forall. intros c Hc. by apply (good_subs o).
  Qed.
  Lemma iso_update_subtree l : R l -> iso any (update_subtree l).
  Proof. intros H. unfold update_subtree. eapply iso_bind; [apply iso_get|]. intros s _. apply iso_update_loop. by repeat constructor. Qed.

  Lemma good_del_sub k o : good o -> good (s_subs (ddel k (o_subs o)) o).
  Proof. rewrite !good_iff. cbn. intros (Hp & Hs & Hi). split; [done|]. split; [|done]. intros k' c Hk. apply (Hs k'). by eapply in_ddel. Qed.
  Lemma good_add_sub k c o : R c -> good o -> good (s_subs (dset k c (o_subs o)) o).
  Proof. intros Hc. rewrite !good_iff. cbn. intros (Hp & Hs & Hi). split; [done|]. split; [|done]. intros k' c' Hk. apply in_dset in Hk as [[= -> ->]|Hk]; [done|]. by apply (Hs k'). Qed.
  Lemma good_no_parent o : good o -> good (s_parent None o).
  Proof. rewrite !good_iff. cbn. by intros (Hp & Hs & Hi). Qed.
  Lemma good_set_parent p o : R p -> good o -> good (s_parent (Some p) o).
  Proof. intros H. rewrite !good_iff. cbn. intros (Hp & Hs & Hi). split; [|done]. by intros ? [= <-]. Qed.
  Definition dgood (d : dict uid loc) : Prop := b = true -> forall k c, (k, c) ∈ d -> R c.
  Lemma good_index n d o : dgood d -> good o -> good (s_index (dset n d (o_index o)) o).
  Proof.
    intros Hd. rewrite !good_iff. cbn. intros (Hp & Hs & Hi). split; [done|]. split; [done|]. intros Eb n' d' k c Hn Hk.
    apply in_dset in Hn as [[= -> ->]|Hn]; [by apply (Hd Eb k)|]. by eapply (Hi Eb).
  Qed.
  Lemma index_dgood n d o : good o -> dget n (o_index o) = Some d -> dgood d.
  Proof. intros (_ & _ & Hi)%good_iff H Eb k c Hk. eapply (Hi Eb n d k c); [|done]. by apply dget_in. Qed.
  Lemma dgood_del k d : dgood d -> dgood (ddel k d).
  Proof. intros H Eb k' c Hk. apply (H Eb k'). by eapply in_ddel. Qed.
  Lemma dgood_set k c d : R c -> dgood d -> dgood (dset k c d).
  Proof. intros Hc H Eb k' c' Hk. apply in_dset in Hk as [[= -> ->]|Hk]; [done|]. by apply (H Eb k'). Qed.
  Lemma dgood_nil : dgood [].
  Proof. by intros _ k c ?%elem_of_nil. Qed.

  Lemma iso_remove_one p v : R p -> iso R (remove_one p v).
  Proof.
    intros Hp. unfold remove_one. eapply iso_bind; [apply iso_read|]. intros ov _. eapply iso_bind; [by apply iso_deref|]. intros op Gp.
    eapply iso_bind with (Q := R); [apply iso_of_opt|].
    { intros el E. apply dget_in in E. apply good_iff in Gp as (_ & Gs & _). by eapply Gs. }
    intros el Hel. eapply iso_bind; [apply iso_upd; [done|intros; by apply good_del_sub]|]. intros _ _.
    eapply iso_bind; [apply iso_upd; [done|apply good_no_parent]|]. intros _ _.
    eapply iso_bind; [by apply iso_update|]. intros _ _. eapply iso_bind; [apply iso_upd; [done|same]|]. intros _ _. by apply iso_ret.
  Qed.
  Lemma iso_remove_uuid p nm u : R p -> iso R (remove_uuid p nm u).
  Proof.
    intros Hp. unfold remove_uuid. eapply iso_bind; [by apply iso_deref|]. intros op Gp.
    eapply iso_bind with (Q := R); [apply iso_of_opt|].
    { intros el E. apply dget_in in E. apply good_iff in Gp as (_ & Gs & _). by eapply Gs. }
    intros el Hel. eapply iso_bind; [apply iso_upd; [done|intros; by apply good_del_sub]|]. intros _ _.
    eapply iso_bind; [apply iso_read|]. intros oel _. eapply iso_bind; [by apply iso_deref|]. intros op' Gp'.
    eapply iso_bind with (Q := dgood); [apply iso_of_opt; intros d E; by eapply index_dgood|]. intros d Gd.
    eapply iso_bind with (Q := any); [by apply iso_of_opt|]. intros _ _.
    eapply iso_bind; [apply iso_upd; [done|intros; by apply good_index; [apply dgood_del|]]|]. intros _ _.
    eapply iso_bind; [apply iso_upd; [done|apply good_no_parent]|]. intros _ _.
    eapply iso_bind; [by apply iso_update|]. intros _ _. eapply iso_bind; [apply iso_upd; [done|same]|]. intros _ _. by apply iso_ret.
  Qed.
  Definition gen_in (g : gen) : Prop := match g with GNew p _ _ => R p | GLoop p _ => R p | GEnd => True end.
  Definition next_in (r : option loc * gen) : Prop := (forall v, fst r = Some v -> R v) /\ gen_in (snd r).
  Lemma next_some v g : R v -> gen_in g -> next_in (Some v, g).
  Proof. intros H G. split; [|done]. by intros ? [= <-]. Qed.
  Lemma next_none : next_in (None, GEnd).
  Proof. by split. Qed.
  Lemma iso_base_next g : gen_in g -> iso next_in (base_next g).
  Proof.
    destruct g as [p nm u|p [|v vs]|]; cbn [gen_in base_next]; intros Hg.
    - destruct (decide (nm = "")).
      + destruct u as [u|]; [|apply iso_raise]. eapply iso_bind; [by apply iso_remove_uuid|]. intros el Hel. apply iso_ret. by apply next_some.
      + destruct u as [u|].
        * eapply iso_bind; [by apply iso_remove_uuid|]. intros el Hel. apply iso_ret. by apply next_some.
        * eapply iso_bind; [by apply iso_deref|]. intros op Gp. eapply iso_bind with (Q := any); [by apply iso_of_opt|]. intros d _.
          eapply iso_bind; [apply iso_upd; [done|intros; apply good_index; [apply dgood_nil|done]]|]. intros _ _.
          destruct (dvals d) as [|v vs]; [apply iso_ret, next_none|].
          eapply iso_bind; [by apply iso_remove_one|]. intros el Hel. apply iso_ret. by apply next_some.
    - apply iso_ret, next_none.
    - eapply iso_bind; [by apply iso_remove_one|]. intros el Hel. apply iso_ret. by apply next_some.
    - apply iso_ret, next_none.
  Qed.
  Lemma iso_rel_next p : R p -> iso next_in (rel_next p).
  Proof.
    intros Hp. unfold rel_next. eapply iso_bind; [by apply iso_deref|]. intros op Gp.
    eapply iso_bind with (Q := any); [by apply iso_of_opt|]. intros ep _. eapply iso_bind; [apply iso_read|]. intros oep _.
    eapply iso_bind with (Q := R); [apply iso_of_opt|].
    { intros el E. apply dget_in in E. apply good_iff in Gp as (_ & Gs & _). by eapply Gs. }
    intros el Hel. eapply iso_bind; [apply iso_upd; [done|intros; by apply good_del_sub]|]. intros _ _.
    eapply iso_bind; [apply iso_upd; [done|same]|]. intros _ _. apply iso_ret. by apply next_some.
  Qed.
  Lemma iso_edge_next p nm u : R p -> iso next_in (edge_next p nm u).
  Proof.
    intros Hp. unfold edge_next. eapply iso_bind; [by apply iso_base_next|]. intros r _. destruct r.1 as [v|]; [|apply iso_ret, next_none].
    eapply iso_bind; [by apply iso_deref|]. intros op Gp. destruct (o_ready op); [|apply iso_raise].
    eapply iso_bind; [apply iso_read|]. intros ov _. eapply iso_bind with (Q := any); [by apply iso_of_opt|]. intros _ _.
    eapply iso_bind; [apply iso_upd; [done|same]|]. intros _ _. apply iso_raise.
  Qed.
  Lemma iso_gen_next g : gen_in g -> iso next_in (gen_next g).
  Proof.
    destruct g as [p nm u|p vs|]; intros Hg; [|by apply iso_base_next..]. cbn [gen_next]. eapply iso_bind; [apply iso_read|]. intros op _.
    destruct (o_kind op); try by apply iso_base_next.
    - by apply iso_edge_next.
    - by apply iso_rel_next.
  Qed.
  Lemma iso_gen_loop body p vs : (forall v, R v -> iso any (body v)) -> R p -> iso any (gen_loop body p vs).
  Proof.
    intros Hb Hp. induction vs as [|v vs IH]; cbn [gen_loop]; [by apply iso_ret|].
    eapply iso_bind; [by apply iso_remove_one|]. intros el Hel. eapply iso_bind; [by apply Hb|]. intros _ _. exact IH.
  Qed.
  Lemma iso_for_gen body g : (forall v, R v -> iso any (body v)) -> gen_in g -> iso any (for_gen body g).
  Proof.
    intros Hb Hg. unfold for_gen. eapply iso_bind; [by apply iso_gen_next|]. intros [x g'] [Hv Hg']. cbn [fst snd] in *.
    destruct x as [v|]; [|by apply iso_ret]. eapply iso_bind; [by apply Hb, Hv|]. intros _ _.
    destruct g' as [| p vs|]; [by apply iso_ret| |by apply iso_ret]. by apply iso_gen_loop.
  Qed.
  Lemma iso_gen_list_loop p vs : R p -> iso (Forall R) (gen_list_loop p vs).
  Proof.
    intros Hp. induction vs as [|v vs IH]; cbn [gen_list_loop]; [by apply iso_ret|].
    eapply iso_bind; [by apply iso_remove_one|]. intros el Hel. eapply iso_bind; [exact IH|]. intros r Hr. apply iso_ret. by constructor.
  Qed.
  Lemma iso_remove_all p nm u : R p -> iso (Forall R) (remove_all p nm u).
  Proof.
    intros Hp. unfold remove_all. eapply iso_bind; [by apply iso_gen_next|]. intros [x g'] [Hv Hg']. cbn [fst snd] in *.
    destruct x as [v|]; [|by apply iso_ret]. destruct g' as [| p' vs|]; [apply iso_ret; constructor; [by apply Hv|constructor]| |apply iso_ret; constructor; [by apply Hv|constructor]].
    eapply iso_bind; [by apply iso_gen_list_loop|]. intros r Hr. apply iso_ret. constructor; [by apply Hv|done].
  Qed.
  Lemma iso_gen_take j g : gen_in g -> iso (Forall R) (gen_take j g).
  Proof.
    revert g. induction j as [|j IH]; intros g Hg; cbn [gen_take]; [by apply iso_ret|].
    eapply iso_bind; [by apply iso_gen_next|]. intros [x g'] [Hv Hg']. cbn [fst snd] in *. destruct x as [v|]; [|by apply iso_ret].
    eapply iso_bind; [by apply IH|]. intros r Hr. apply iso_ret. constructor; [by apply Hv|done].
  Qed.

  Lemma iso_add_base p c : R p -> R c -> iso any (add_base p c).
  Proof.
    intros Hp Hc. unfold add_base. destruct (decide (c = p)); [apply iso_raise|].
    eapply iso_bind; [by apply iso_deref|]. intros oc Gc. eapply iso_bind; [by apply iso_deref|]. intros op Gp.
    destruct (dget _ _); [apply iso_raise|].
    eapply iso_bind; [apply iso_upd; [done|intros; by apply good_add_sub]|]. intros _ _.
    destruct (decide (o_parent oc = Some p)); [by apply iso_ret|].
    eapply iso_bind; [apply iso_upd; [done|]|].
    { intros o Go. apply good_index; [|done]. apply dgood_set; [done|]. destruct (dget (o_name oc) (o_index o)) as [d|] eqn:E; [|apply dgood_nil]. by eapply index_dgood. }
    intros _ _. eapply iso_bind; [by apply iso_deref|]. intros op1 _. eapply iso_bind; [apply iso_upd; [done|same]|]. intros _ _.
    eapply iso_bind with (Q := any).
    { destruct (o_parent oc) as [q|] eqn:E; [|by apply iso_ret]. apply iso_for_gen; [intros; by apply iso_update|]. cbn. exact (good_parent oc q Gc E). }
    intros _ _. eapply iso_bind; [apply iso_upd; [done|intros; by apply good_set_parent]|]. intros _ _.
    eapply iso_bind; [by apply iso_deref|]. intros op2 _. eapply iso_bind; [apply iso_upd; [done|same]|]. intros _ _.
    eapply iso_bind; [apply iso_upd; [done|same]|]. intros _ _. eapply iso_bind; [apply iso_upd; [done|same]|]. intros _ _.
    by apply iso_update_subtree.
  Qed.
  Lemma iso_connect x el : R x -> iso any (connect x el).
  Proof.
    intros Hx. unfold connect. eapply iso_bind; [by apply iso_deref|]. intros ox _. eapply iso_bind; [apply iso_read|]. intros oe _.
    destruct (_ && _); [|apply iso_raise]. eapply iso_bind; [apply iso_hash|]. intros u _.
    eapply iso_bind; [apply iso_alloc|]. { apply (good_same (s_endpoint (Some el))); try done. apply blank_good. }
    intros pt Hpt. eapply iso_bind; [apply iso_upd; [done|same]|]. intros _ _. by apply iso_add_base.
  Qed.
  Lemma iso_add_element p c : R p -> R c -> iso any (add_element p c).
  Proof.
    intros Hp Hc. unfold add_element. eapply iso_bind; [apply iso_read|]. intros op _. destruct (o_kind op); try by apply iso_add_base.
    - eapply iso_bind; [by apply iso_add_base|]. intros _ _. eapply iso_bind; [apply iso_read|]. intros oc _.
      destruct (o_kind oc); try by apply iso_ret. eapply iso_bind; [apply iso_read|]. intros op' _.
      destruct (o_ready op'); [|apply iso_raise]. apply iso_upd; [done|same].
    - eapply iso_bind; [by apply iso_add_base|]. intros _ _. eapply iso_bind; [apply iso_read|]. intros oc _.
      destruct (is_hyperelement _); [by apply iso_connect|by apply iso_ret].
  Qed.
  Lemma iso_disconnect x el : R x -> iso any (disconnect x el).
  Proof.
    intros Hx. unfold disconnect. eapply iso_bind; [by apply iso_deref|]. intros ox _. eapply iso_bind; [apply iso_read|]. intros oe _.
    destruct (_ && _); [|apply iso_raise]. eapply iso_bind with (Q := any); [by apply iso_of_opt|]. intros _ _. apply iso_upd; [done|same].
  Qed.
  Lemma iso_deregister x : R x -> iso any (deregister x).
  Proof.
    intros Hx. unfold deregister. eapply iso_bind; [by apply iso_deref|]. intros ox Gx. destruct (is_hyperelement _); [|apply iso_raise].
    destruct (o_parent ox) as [q|] eqn:E; [|by apply iso_ret]. apply iso_for_gen; [intros; by apply iso_update|]. cbn. by eapply good_parent.
  Qed.
  Lemma iso_register x p : R x -> R p -> iso any (register x p).
  Proof. intros Hx Hp. unfold register. eapply iso_bind; [apply iso_read|]. intros ox _. destruct (is_hyperelement _); [by apply iso_add_element|apply iso_raise]. Qed.

  (** ** Constructors, connections *)
  Lemma iso_new_conceptual k nm u prog c parent : (forall p, parent = Some p -> R p) -> iso R (new_conceptual k nm u prog c parent).
  Proof.
    intros Hp. unfold new_conceptual. destruct c as [c|]; [|apply iso_raise]. eapply iso_bind; [apply iso_now|]. intros t _.
    eapply iso_bind; [apply iso_alloc|].
    { apply (good_same (fun o => s_ready (negb (is_hyperelement k)) (s_time t (s_clock (Some c) o)))); try done. apply blank_good. }
    intros l Hl. eapply iso_bind with (Q := any). { destruct parent as [p|]; [|by apply iso_ret]. apply iso_add_element; [by apply Hp|done]. }
    intros _ _. eapply iso_bind; [apply iso_upd; [done|same]|]. intros _ _. by apply iso_ret.
  Qed.
  Lemma iso_new_rel u nm prog ep w d sem : iso R (new_rel u nm prog ep w d sem).
  Proof. apply iso_alloc. apply (good_same (fun o => s_sem sem (s_weight w (s_dir d (s_endpoint (Some ep) o))))); try done. apply blank_good. Qed.
  Lemma iso_new_port u nm prog ep : iso R (new_port u nm prog ep).
  Proof. apply iso_alloc. apply (good_same (s_endpoint (Some ep))); try done. apply blank_good. Qed.
  Lemma iso_new_value u nm prog vals : iso R (new_value u nm prog vals).
  Proof. apply iso_alloc. apply (good_same (fun o => s_dim (length (default [] vals)) (s_vals (default [] vals) o))); try done. apply blank_good. Qed.
  Lemma iso_new_sem c u nm prog attr : iso R (new_sem c u nm prog attr).
  Proof. apply iso_alloc. apply (good_same (s_attr attr)); try done. apply blank_good. Qed.
  Lemma iso_unary_connect e n w d sem : R e -> R n -> (forall x, sem = Some x -> R x) -> iso R (unary_connect e n w d sem).
  Proof.
    intros He Hn Hs. unfold unary_connect. eapply iso_bind; [apply iso_read|]. intros oe _. eapply iso_bind; [apply iso_read|]. intros on _.
    destruct (decide _); [|apply iso_raise]. eapply iso_bind with (Q := any); [by apply iso_of_opt|]. intros c _.
    eapply iso_bind; [apply iso_now|]. intros t _. destruct (o_ready oe); [|apply iso_raise]. eapply iso_bind; [apply iso_hash|]. intros u _.
    eapply iso_bind; [apply iso_new_rel|]. intros r Hr. eapply iso_bind; [by apply iso_connect|]. intros _ _.
    eapply iso_bind with (Q := any). { destruct sem as [sv|]; [|by apply iso_ret]. apply iso_add_element; [done|by apply Hs]. }
    intros _ _. eapply iso_bind; [by apply iso_add_element|]. intros _ _. by apply iso_ret.
  Qed.

  (** ** Values *)
  Lemma iso_update_value v i x : R v -> iso any (update_value v i x).
  Proof. intros H. unfold update_value. eapply iso_bind; [apply iso_read|]. intros o _. eapply iso_bind with (Q := any); [by apply iso_of_opt|]. intros l _. apply iso_upd; [done|same]. Qed.
  Lemma iso_update_values v l : R v -> iso any (update_values v l).
  Proof. intros H. unfold update_values. eapply iso_bind; [apply iso_read|]. intros o _. apply iso_upd; [done|same]. Qed.
  Lemma iso_add_attr x k v : R x -> iso any (add_named_attribute x k v).
  Proof. intros H. apply iso_upd; [done|same]. Qed.
  Lemma iso_del_attr x k : R x -> iso any (remove_named_attribute x k).
  Proof. intros H. apply iso_upd; [done|same]. Qed.

  (** ** Factories *)
  Lemma iso_uid f nm : iso any (generate_uid f nm).
  Proof. unfold generate_uid. eapply iso_bind; [apply iso_now|]. intros t _. apply iso_hash. Qed.
  Lemma iso_qualified f nm : iso any (get_qualified_name f nm).
  Proof. unfold get_qualified_name. eapply iso_bind; [apply iso_now|]. intros t _. by apply iso_ret. Qed.
  Lemma iso_stamped f nm p : iso any (stamped_name f nm p).
  Proof. unfold stamped_name. eapply iso_bind; [apply iso_read|]. intros o _. eapply iso_bind; [apply iso_now|]. intros t _. by apply iso_ret. Qed.
  Lemma iso_generate_node f nm parent : (forall p, parent = Some p -> R p) -> iso R (generate_node f nm parent).
  Proof.
    intros Hp. unfold generate_node. eapply iso_bind with (Q := any).
    { destruct parent as [p|]; [|apply iso_uid]. eapply iso_bind; [apply iso_read|]. intros o _. apply iso_uid. }
    intros u _. eapply iso_bind; [apply iso_qualified|]. intros q _. by apply iso_new_conceptual.
  Qed.
  Lemma iso_generate_list f nms parent : (forall p, parent = Some p -> R p) -> iso (Forall R) (generate_list_nodes f nms parent).
  Proof. intros Hp. apply iso_map_m. apply Forall_forall. intros nm _. by apply iso_generate_node. Qed.
  Lemma iso_clock_of p : iso any (clock_of p).
  Proof. unfold clock_of. eapply iso_bind; [apply iso_read|]. intros o _. destruct (is_conceptual _); [by apply iso_ret|apply iso_raise]. Qed.
  Lemma iso_hyperedge f p nm : R p -> iso R (create_hyperedge f p nm).
  Proof.
    intros Hp. unfold create_hyperedge. eapply iso_bind; [apply iso_uid|]. intros u _. eapply iso_bind; [apply iso_stamped|]. intros q _.
    eapply iso_bind; [apply iso_clock_of|]. intros c _. apply iso_new_conceptual. by intros ? [= <-].
  Qed.
  Lemma iso_connect_each he d nv : R he -> Forall (fun x => R (fst x)) nv -> iso any (connect_each he d nv).
  Proof.
    intros He. induction 1 as [|[n v] nv Hn _ IH]; cbn [connect_each]; [by apply iso_ret|].
    eapply iso_bind; [by apply iso_unary_connect|]. intros _ _. exact IH.
  Qed.
  Lemma zip_none_in ns : Forall R ns -> Forall (fun x => R (fst x)) (zip_none ns).
  Proof. intros H. unfold zip_none. by apply Forall_fmap. Qed.
  Lemma zip_in {A} ns (vs : list A) : Forall R ns -> Forall (fun x => R (fst x)) (zip ns vs).
  Proof. intros H. revert vs. induction H as [|n ns Hn _ IH]; intros [|v vs]; try constructor; [done|apply IH]. Qed.
  Lemma iso_connect_nodes f p nm ns d vs : R p -> Forall R ns -> iso R (connect_nodes f p nm ns d vs).
  Proof.
    intros Hp Hns. unfold connect_nodes. eapply iso_bind; [by apply iso_hyperedge|]. intros he Hhe.
    eapply iso_bind with (Q := Forall (fun x => R (fst x))).
    { destruct vs as [vs|]; [|apply iso_ret; by apply zip_none_in]. destruct (decide _); [|apply iso_raise]. apply iso_ret. by apply zip_in. }
    intros nv Hnv. eapply iso_bind; [by apply iso_connect_each|]. intros _ _. by apply iso_ret.
  Qed.
  Lemma iso_connect2 f p nm ins outs d vs : R p -> Forall R ins -> Forall R outs -> iso R (connect_2factor_edges f p nm ins outs d vs).
  Proof.
    intros Hp Hi Ho. unfold connect_2factor_edges. eapply iso_bind; [by apply iso_hyperedge|]. intros he Hhe.
    eapply iso_bind with (Q := fun nv => Forall (fun x => R (fst x)) nv.1 /\ Forall (fun x => R (fst x)) nv.2).
    { destruct vs as [vs|]; [|apply iso_ret; split; by apply zip_none_in]. destruct (decide _); [|apply iso_raise]. apply iso_ret. split; by apply zip_in. }
    intros nv [H1 H2]. eapply iso_bind; [by apply iso_connect_each|]. intros _ _. eapply iso_bind; [by apply iso_connect_each|]. intros _ _. by apply iso_ret.
  Qed.
  Definition tuple_in (x : loc * direction * weight * option loc) : Prop := let '(n, _, _, sv) := x in R n /\ forall l, sv = Some l -> R l.
  Lemma iso_connect_tuples f p nm ts : R p -> Forall tuple_in ts -> iso R (connect_tuple_nodes f p nm ts).
  Proof.
    intros Hp Hts. unfold connect_tuple_nodes. eapply iso_bind; [by apply iso_hyperedge|]. intros he Hhe.
    eapply iso_bind with (Q := any).
    { induction Hts as [|[[[n d] v] sv] ts [Hn Hsv] _ IH]; cbn [connect_tuples]; [by apply iso_ret|].
      eapply iso_bind; [by apply iso_unary_connect|]. intros _ _. exact IH. }
    intros _ _. by apply iso_ret.
  Qed.
  Lemma iso_create_value f parent nm vs : (forall p, parent = Some p -> R p) -> iso R (create_value f parent nm vs).
  Proof.
    intros Hp. unfold create_value. eapply iso_bind; [apply iso_uid|]. intros u _. destruct parent as [p|].
    - eapply iso_bind; [apply iso_stamped|]. intros q _. eapply iso_bind; [apply iso_new_value|]. intros v Hv.
      eapply iso_bind; [apply iso_add_element; [by apply Hp|done]|]. intros _ _. by apply iso_ret.
    - eapply iso_bind; [apply iso_qualified|]. intros q _. apply iso_new_value.
  Qed.
  Lemma iso_semantic f raw nm p attr vs : R p -> iso R (generate_semantic_element f raw nm p attr vs).
  Proof.
    intros Hp. unfold generate_semantic_element. destruct attr as [|a attr]; [apply iso_raise|]. eapply iso_bind; [apply iso_uid|]. intros u _.
    destruct (type_class _) as [c|]; [|apply iso_raise]. eapply iso_bind; [apply iso_stamped|]. intros q _.
    eapply iso_bind; [apply iso_new_sem|]. intros el Hel. eapply iso_bind; [by apply iso_add_element|]. intros _ _.
    eapply iso_bind with (Q := any). { destruct vs as [v|]; [by apply iso_add_attr|by apply iso_ret]. }
    intros _ _. by apply iso_ret.
  Qed.

  Lemma iso_void {A} (P : A -> Prop) m : iso P m -> iso any (void m).
  Proof. intros H. eapply iso_bind; [exact H|]. intros _ _. by apply iso_ret. Qed.
  Lemma olist_in {A} (P : A -> Prop) x : Forall P (olist x) -> forall a, x = Some a -> P a.
  Proof. intros H a ->. by inversion H. Qed.
  Lemma iso_exec o : Forall R (targets o) -> iso any (exec o).
  Proof.
    destruct o; cbn [targets exec]; intros H; repeat match goal with H : Forall _ (_ :: _) |- _ => apply Forall_cons in H as [? H] end;
      repeat match goal with H : Forall _ (_ ++ _) |- _ => apply Forall_app in H as [? H] end; pose proof (olist_in R) as Ol.
    - eapply iso_void, iso_new_conceptual. by apply Ol.
    - eapply iso_void, iso_new_rel.
    - eapply iso_void, iso_new_port.
    - eapply iso_void, iso_new_value.
    - eapply iso_void, iso_new_sem.
    - by apply iso_add_element.
    - by eapply iso_void, iso_remove_all.
    - by apply iso_register.
    - by apply iso_deregister.
    - by apply iso_connect.
    - by apply iso_disconnect.
    - eapply iso_void, iso_unary_connect; [done..|]. by apply Ol.
    - by apply iso_update.
    - apply iso_upd; [done|same].
    - by apply iso_update_value.
    - by apply iso_update_values.
    - by apply iso_add_attr.
    - by apply iso_del_attr.
    - eapply iso_void, iso_generate_node. by apply Ol.
    - eapply iso_void, iso_generate_list. by apply Ol.
    - by eapply iso_void, iso_hyperedge.
    - by eapply iso_void, iso_connect_nodes.
    - by eapply iso_void, iso_connect2.
    - eapply iso_void, iso_create_value. by apply Ol.
    - by eapply iso_void, iso_semantic.
  Qed.
End iso.
Notation any := (fun _ => True).

(** ** The trees of the targets *)
Definition region (s : st) (xs : list loc) (l : loc) : Prop := length (heap s) <= l \/ exists a, a ∈ xs /\ same_tree (heap s) a l.
Lemma region_inv s xs : inv false (region s xs) s.
Proof.
  constructor; [|by left]. intros l o [L|(a & Ha & Hal)] Ho; [by apply lookup_ge_None in L; congruence|].
  apply good_iff. split; [|split]; [| |done].
  - intros p Hp. right. exists a. split; [done|]. eapply rtc_r; [exact Hal|]. left. left. unfold parent_of. by rewrite Ho.
  - intros k c Hc. right. exists a. split; [done|]. eapply rtc_r; [exact Hal|]. left. right. unfold children. rewrite Ho.
    apply elem_of_list_fmap. by exists (k, c).
Qed.
Lemma region_targets s xs : Forall (region s xs) xs.
Proof. apply Forall_forall. intros x Hx. right. exists x. split; [done|]. apply rtc_refl. Qed.

Lemma q_other_trees s o l : exists_in (heap s) l -> (forall a, a ∈ targets o -> ~ same_tree (heap s) a l) -> heap (snd (exec o s)) !! l = heap s !! l.
Proof.
  intros E H. destruct (iso_exec false (region s (targets o)) o (region_targets _ _) s (region_inv _ _)) as (_ & _ & F & _).
  apply F. intros [L|(a & Ha & Hal)].
  - destruct E as [o' E]. apply lookup_ge_None in L. congruence.
  - by eapply H.
Qed.
Lemma q_other_trees_gen s p nm u j l : exists_in (heap s) l -> ~ same_tree (heap s) p l -> heap (snd (gen_take j (GNew p nm u) s)) !! l = heap s !! l.
Proof.
  intros E H. destruct (iso_gen_take false (region s [p]) j (GNew p nm u)) with (s := s) as (_ & _ & F & _).
  - cbn. pose proof (region_targets s [p]) as G. by inversion G.
  - apply region_inv.
  - apply F. intros [L|(a & Ha & Hal)].
    + destruct E as [o' E]. apply lookup_ge_None in L. congruence.
    + apply elem_of_list_singleton in Ha as ->. by apply H.
Qed.
Lemma q_confined (R : loc -> Prop) s s' l : (forall a b, R a -> same_tree (heap s) a b -> R b) -> confined R s s' -> exists_in (heap s) l -> ~ R l -> heap s' !! l = heap s !! l.
Proof.
  intros HR Hc E Hl. set (R' := fun x => R x \/ length (heap s) <= x).
  assert (I0 : inv false R' s).
  { constructor; [|by right]. intros x o [Hx|L] Ho; [|by apply lookup_ge_None in L; congruence].
    apply good_iff. split; [|split]; [| |done].
    - intros p Hp. left. eapply HR; [exact Hx|]. apply rtc_once. left. left. unfold parent_of. by rewrite Ho.
    - intros k c Hk. left. eapply HR; [exact Hx|]. apply rtc_once. left. right. unfold children. rewrite Ho. apply elem_of_list_fmap. by exists (k, c). }
  assert (N : ~ R' l). { intros [?|L]; [done|]. destruct E as [o' E]. apply lookup_ge_None in L. congruence. }
  assert (inv false R' s' /\ heap s' !! l = heap s !! l) as [_ ?]; [|done].
  induction Hc as [|s1 o Hc [I1 IH] Ht]; [done|].
  destruct (iso_exec false R' o Ht s1 I1) as (I2 & _ & F & _). split; [done|]. by rewrite F, IH.
Qed.
Lemma q_other_trees_tuples s f p nm ts l : exists_in (heap s) l -> ~ same_tree (heap s) p l ->
  (forall n d w sv, (n, d, w, sv) ∈ ts -> ~ same_tree (heap s) n l /\ forall x, sv = Some x -> ~ same_tree (heap s) x l) ->
  heap (snd (connect_tuple_nodes f p nm ts s)) !! l = heap s !! l.
Proof.
  intros E Hp Ht. set (xs := p :: flat_map (fun t => let '(n, _, _, sv) := t in n :: olist sv) ts).
  pose proof (region_targets s xs) as G. rewrite Forall_forall in G.
  destruct (iso_connect_tuples false (region s xs) f p nm ts) with (s := s) as (_ & _ & F & _).
  - apply G. by apply elem_of_cons; left.
  - apply Forall_forall. intros [[[n d] w] sv] Hx. assert (I : forall y, y ∈ n :: olist sv -> region s xs y).
    { intros y Hy. apply G. apply elem_of_cons; right. apply elem_of_list_In, in_flat_map. exists (n, d, w, sv). split; by apply elem_of_list_In. }
    split; [apply I; by apply elem_of_cons; left|]. intros x ->. apply I. apply elem_of_cons; right. by apply elem_of_list_singleton.
  - apply region_inv.
  - apply F. intros [L|(a & Ha & Hal)].
    + destruct E as [o' E]. apply lookup_ge_None in L. congruence.
    + apply elem_of_cons in Ha as [->|Ha]; [by apply Hp|]. apply elem_of_list_In, in_flat_map in Ha as ([[[n d] w] sv] & Hx & Ha).
      apply elem_of_list_In in Hx, Ha. destruct (Ht n d w sv Hx) as [H1 H2]. apply elem_of_cons in Ha as [->|Ha]; [by apply H1|].
      destruct sv as [x|]; [|by apply elem_of_nil in Ha]. apply elem_of_list_singleton in Ha as ->. by apply (H2 x).
Qed.
