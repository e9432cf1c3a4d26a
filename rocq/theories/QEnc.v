(** * Decoding: sequences of additions of fresh elements *)
From stdpp Require Import relations.
From Verif Require Import Spec Hierarchy Elements Factory History PDict PPath PExec PBfs PWF PAdd PMono PStep PRemove PReach PPrim PHist QHier QHier2 QHier3 QHier4 QHier5 QHier6 QFac SpecFac QFac2.

(** A fresh element is appended to [p]; all other elements are exactly as before. *)
Record step1 (h h' : list obj) (p c : loc) (oc : obj) : Prop := {
  s1_grown : grown h h' p c oc;
  s1_p : exists_in h p;
  s1_other : forall l, exists_in h l -> l <> p -> h' !! l = h !! l;
  s1_fixed : fixed_part <$> h' !! p = fixed_part <$> h !! p;
  s1_qname : o_qname <$> h' !! p = o_qname <$> h !! p;
  s1_named : exists q, attr_of o_qname h' c = Some q /\ full_name h' c q }.

Lemma add_fresh_step s p o op : WF0 (heap s) -> heap s !! p = Some op ->
  o_parent o = None -> o_subs o = [] -> o_index o = [] -> o_cnt o = 0%Z -> o_rels o = [] ->
  (is_conceptual (o_kind o) = true -> is_Some (o_clock o)) ->
  (forall e, o_endpoint o = Some e -> exists_in (heap s) e) -> (o_kind o = KRel -> o_endpoint o <> None) ->
  (forall x, x ∈ children (heap s) p -> uuid_of (heap s) x <> o_uuid o) ->
  ~ (o_kind op = KRel /\ is_hyperelement (o_kind o) = true) ->
  ~ (o_kind op = KEdge /\ o_kind o = KRel /\ o_ready op = false) ->
  let c := length (heap s) in
  exists s', add_element p c (set_heap (heap s ++ [o]) s) = (Ok tt, s') /\ step1 (heap s) (heap s') p c o.
Proof.
  intros W Hp H1 H2 H3 H4 H5 H6 H7 H8 Hu Hk1 Hk2 c. set (s1 := set_heap (heap s ++ [o]) s).
  destruct (add_fresh_grown s p o op) as (s' & E & G & M & F & Q); try done. exists s'. split; [done|].
  assert (Hpe : exists_in (heap s) p) by (by eexists).
  assert (W1 : WF0 (heap s1)) by (by apply alloc_wf0).
  assert (Hnamed : exists q, attr_of o_qname (heap s') c = Some q /\ full_name (heap s') c q).
  { destruct (q_C05_wf s1 p c s' W1) as [H9 _]; [apply add_fresh_ok; [done|by eexists|done|done]|exact E|]. apply H9; [|by left].
    rewrite exists_in_lt, (gr_len _ _ _ _ _ G). unfold c. lia. }
  split; [done|done| |by apply F|by apply Q|exact Hnamed].
  assert (Hlt : p < length (heap s)) by (by apply lookup_lt_Some in Hp).
  assert (Hp1 : heap s1 !! p = Some op) by (unfold s1; simpl; by rewrite lookup_app_l).
  assert (Hc1 : heap s1 !! c = Some o) by (unfold s1, c; simpl; by rewrite lookup_app_r, Nat.sub_diag by lia).
  assert (Hok : add_ok (heap s1) p c) by (apply add_fresh_ok; [done|by eexists|done|done]).
  assert (Hne : c <> p) by (unfold c; lia).
  pose proof (children_uuid_new _ _ _ _ W Hp Hu) as Hg.
  destruct (add_element_ok s1 p c op o W1 Hok Hne Hp1 Hc1 Hg Hk1 Hk2) as (T & s'' & E' & TT & HT).
  fold s1 in E. fold c in E. rewrite E in E'. injection E' as <-.
  assert (Hnex : ~ exists_in (heap s) c) by (rewrite exists_in_lt; unfold c; lia).
  intros l Hl Hlp. set (b := edge_rel op o) in *.
  assert (Hlc : l <> c) by (intros ->; done).
  assert (Ho : added p c op o b (heap s1) !! l = heap s !! l).
  { rewrite added_other; [|done|done|by rewrite H1]. unfold s1. simpl. apply exists_in_lt in Hl. by rewrite lookup_app_l. }
  rewrite <- Ho. destruct Hl as [ol Hol]. rewrite Hol in Ho.
  destruct (t_obj _ _ _ TT l ol Ho) as (q & t & Ht & Hn & _). rewrite Ht, Ho.
  assert (Hl1 : exists_in (heap s1) l) by (eapply kept_exists; [apply alloc_kept|by eexists]).
  destruct Hn as [-> ->]; [|by rewrite set_same]. intros Hin. apply (HT l Hl1) in Hin as [->|Ha]; [done|].
  assert (Hcc : forall a x, ancestor (added p c op o b (heap s1)) a x -> a = c -> exists_in (heap s) x -> False).
  { intros a x. induction 1 as [a x Hpx|a q' x Hpx _ IH]; intros -> Hx.
    - rewrite added_parent_ne in Hpx; [|done|done|intros ->; done]. unfold s1 in Hpx. cbn [heap set_heap] in Hpx.
      rewrite app_parent in Hpx by done. apply Hnex. by eapply wf0_parent_exists.
    - rewrite added_parent_ne in Hpx; [|done|done|intros ->; done]. unfold s1 in Hpx. cbn [heap set_heap] in Hpx.
      rewrite app_parent in Hpx by done. apply IH; [done|]. by eapply wf0_parent_exists. }
  apply (Hcc c l Ha eq_refl). by eexists.
Qed.

(** ** Sequences *)
Inductive grows : list obj -> list (loc * obj) -> list obj -> Prop :=
| gs_nil h : grows h [] h
| gs_step h h1 h' p oc ads : step1 h h1 p (length h) oc -> grows h1 ads h' -> grows h ((p, oc) :: ads) h'.

Fixpoint placed (k : nat) (ads : list (loc * obj)) (l : loc) : list loc :=
  match ads with
  | [] => []
  | a :: ads' => (if decide (a.1 = l) then [k] else []) ++ placed (S k) ads' l
  end.

Lemma grows_app h a h1 b h2 : grows h a h1 -> grows h1 b h2 -> grows h (a ++ b) h2.
Proof. induction 1; intros H2; [done|]. simpl. econstructor; [done|by apply IHgrows]. Qed.
Lemma grows_one h h' p oc : step1 h h' p (length h) oc -> grows h [(p, oc)] h'.
Proof. intros H. econstructor; [done|constructor]. Qed.
Lemma grows_len h a h' : grows h a h' -> length h' = length h + length a.
Proof. induction 1 as [|h h1 h' p oc ads S _ IH]; simpl; [lia|]. rewrite IH, (gr_len _ _ _ _ _ (s1_grown _ _ _ _ _ S)). lia. Qed.
Lemma step1_len h h' p c oc : step1 h h' p c oc -> length h' = S (length h).
Proof. intros S. apply (gr_len _ _ _ _ _ (s1_grown _ _ _ _ _ S)). Qed.
Lemma step1_exists h h' p c oc l : step1 h h' p c oc -> exists_in h l -> exists_in h' l.
Proof. intros S. rewrite !exists_in_lt, (step1_len _ _ _ _ _ S). lia. Qed.
Lemma grows_exists h a h' l : grows h a h' -> exists_in h l -> exists_in h' l.
Proof. intros G. rewrite !exists_in_lt, (grows_len _ _ _ G). lia. Qed.
Lemma grows_wf h a h' : grows h a h' -> WF0 h -> WF0 h'.
Proof. induction 1 as [|h h1 h' p oc ads S _ IH]; [done|]. intros _. apply IH, (gr_wf _ _ _ _ _ (s1_grown _ _ _ _ _ S)). Qed.
Lemma step1_fixed h h' p c oc l : step1 h h' p c oc -> exists_in h l -> fixed_part <$> h' !! l = fixed_part <$> h !! l.
Proof. intros S Hl. destruct (decide (l = p)) as [->|Hn]; [by apply S|]. by rewrite (s1_other _ _ _ _ _ S). Qed.
Lemma grows_fixed h a h' l : grows h a h' -> exists_in h l -> fixed_part <$> h' !! l = fixed_part <$> h !! l.
Proof.
  induction 1 as [|h h1 h' p oc ads S _ IH]; [done|]. intros Hl. rewrite IH by (by eapply step1_exists). by eapply step1_fixed.
Qed.
Lemma grows_parent h a h' l : grows h a h' -> exists_in h l -> parent_of h' l = parent_of h l.
Proof.
  induction 1 as [|h h1 h' p oc ads S _ IH]; [done|]. intros Hl. rewrite IH by (by eapply step1_exists).
  by apply (gr_unmoved _ _ _ _ _ (s1_grown _ _ _ _ _ S)).
Qed.
Lemma grows_exact h a h' l : grows h a h' -> exists_in h l -> (forall b, b ∈ a -> b.1 <> l) -> h' !! l = h !! l.
Proof.
  induction 1 as [|h h1 h' p oc ads S _ IH]; [done|]. intros Hl Hb. rewrite IH.
  - apply S; [done|]. intros ->. by eapply (Hb (p, oc)); [left|].
  - by eapply step1_exists.
  - intros b Hin. apply Hb. by right.
Qed.
Lemma step1_children h h' p oc l : step1 h h' p (length h) oc -> children h' l = children h l ++ (if decide (p = l) then [length h] else []).
Proof.
  intros S. pose proof (s1_grown _ _ _ _ _ S) as G. case_decide as Hp.
  - subst. apply G.
  - rewrite app_nil_r. destruct (decide (l < length h)) as [Hl|Hl].
    + apply G; [by apply exists_in_lt|done].
    + assert (E : children h l = []) by (unfold children; by rewrite (lookup_ge_None_2 h l) by lia). rewrite E.
      destruct (decide (l = length h)) as [->|Hn]; [by destruct (gr_fresh _ _ _ _ _ G) as (_ & _ & ? & _)|].
      unfold children. rewrite (lookup_ge_None_2 h' l); [done|]. rewrite (step1_len _ _ _ _ _ S). lia.
Qed.
Lemma grows_children h a h' l : grows h a h' -> children h' l = children h l ++ placed (length h) a l.
Proof.
  induction 1 as [|h h1 h' p oc ads S _ IH]; [by rewrite app_nil_r|]. cbn [placed fst].
  rewrite IH, (step1_children _ _ _ _ _ S), (step1_len _ _ _ _ _ S), <- app_assoc. done.
Qed.

(** [c] is the element made for [a]. *)
Definition made (h' : list obj) (a : loc * obj) (c : loc) : Prop :=
  fixed_part <$> h' !! c = Some (fixed_part a.2) /\ parent_of h' c = Some a.1.
Lemma made_keep h a h' x c : grows h a h' -> made h x c -> made h' x c.
Proof.
  intros G [H1 H2]. assert (exists_in h c) by (destruct (h !! c) eqn:E; [by eexists|done]).
  split; [by rewrite (grows_fixed _ _ _ _ G)|by rewrite (grows_parent _ _ _ _ G)].
Qed.
Lemma step1_made h h' p c oc : step1 h h' p c oc -> made h' (p, oc) c.
Proof. intros S. destruct (gr_fresh _ _ _ _ _ (s1_grown _ _ _ _ _ S)) as (_ & H1 & _ & H2). by split. Qed.
Lemma grows_placed h a h' l : grows h a h' -> Forall2 (made h') (filter (fun x => x.1 = l) a) (placed (length h) a l).
Proof.
  induction 1 as [|h h1 h' p oc ads S G IH]; [constructor|]. cbn [placed fst]. rewrite filter_cons. cbn [fst].
  rewrite (step1_len _ _ _ _ _ S) in IH. case_decide; [|done]. constructor; [|done].
  eapply (made_keep _ _ _ _ _ G). by eapply step1_made.
Qed.
Lemma grows_last h a h' x : grows h (a ++ [x]) h' -> made h' x (length h + length a).
Proof.
  revert h. induction a as [|y a IH]; intros h; simpl; intros G.
  - inversion G as [|h1 h2 h3 p oc ads S G' E1 E2]; subst. rewrite Nat.add_0_r. eapply (made_keep _ _ _ _ _ G'). by eapply step1_made.
  - inversion G as [|h1 h2 h3 p oc ads S G' E1 E2]; subst. apply IH in G'. rewrite (step1_len _ _ _ _ _ S) in G'. by rewrite Nat.add_succ_r.
Qed.
Lemma grows_new_inv h a h' l : grows h a h' -> ~ exists_in h l -> exists_in h' l -> exists x, x ∈ a /\ made h' x l.
Proof.
  induction 1 as [|h h1 h' p oc ads S G IH]; [done|]. intros Hn Hl. destruct (decide (exists_in h1 l)) as [He|He].
  - exists (p, oc). split; [left|]. eapply (made_keep _ _ _ _ _ G). assert (l = length h) as ->; [|by eapply step1_made].
    apply exists_in_lt in He. rewrite exists_in_lt in Hn. rewrite (step1_len _ _ _ _ _ S) in He. lia.
  - destruct (IH He Hl) as (x & Hx & Hm). exists x. split; [by right|done].
Qed.
Lemma made_get {A} (f : obj -> A) h x c : (forall o, f (fixed_part o) = f o) -> made h x c -> f <$> h !! c = Some (f x.2).
Proof. intros Hf [H _]. by apply fixed_get. Qed.
Lemma made_kind h x c : made h x c -> kind_of h c = Some (o_kind x.2).
Proof. intros H. by apply (made_get o_kind). Qed.
Lemma made_uuid h x c : made h x c -> uuid_of h c = o_uuid x.2.
Proof. intros H. unfold uuid_of. by rewrite (made_get o_uuid _ x). Qed.
Lemma made_name h x c : made h x c -> name_of h c = o_name x.2.
Proof. intros H. unfold name_of. by rewrite (made_get o_name _ x). Qed.
Lemma made_exists h x c : made h x c -> exists_in h c.
Proof. intros [H _]. destruct (h !! c) eqn:E; [by eexists|done]. Qed.

(** ** One addition in the code *)

(** objects as the decoder makes them *)
Record plain_new (o : obj) : Prop := {
  pn_parent : o_parent o = None; pn_subs : o_subs o = []; pn_index : o_index o = []; pn_cnt : o_cnt o = 0%Z; pn_rels : o_rels o = [];
  pn_clock : is_conceptual (o_kind o) = true -> is_Some (o_clock o);
  pn_hasep : o_kind o = KRel -> o_endpoint o <> None }.
Definition target (h : list obj) (p : loc) : Prop :=
  exists op, h !! p = Some op /\ (o_kind op = KNode \/ o_kind op = KEdge) /\ o_ready op = true.
Lemma target_keep h a h' p : grows h a h' -> target h p -> target h' p.
Proof.
  intros G (op & Hp & Hk & Hr). assert (He : exists_in h p) by (by eexists).
  pose proof (grows_fixed _ _ _ p G He) as F. rewrite Hp in F. destruct (h' !! p) as [op'|] eqn:E; [|done]. exists op'. split; [done|].
  apply (inj Some) in F. assert (o_kind op' = o_kind op /\ o_ready op' = o_ready op) as [-> ->]; [|done].
  split; [apply (f_equal o_kind F)|apply (f_equal o_ready F)].
Qed.
Lemma target_made h x c : made h x c -> (o_kind x.2 = KNode \/ o_kind x.2 = KEdge) -> o_ready x.2 = true -> target h c.
Proof.
  intros [H _] Hk Hr. destruct (h !! c) as [o|] eqn:E; [|done]. exists o. split; [done|]. apply (inj Some) in H.
  assert (o_kind o = o_kind x.2 /\ o_ready o = o_ready x.2) as [-> ->]; [|done].
  split; [apply (f_equal o_kind H)|apply (f_equal o_ready H)].
Qed.
Lemma set_heap_app s s1 o : heap s1 = heap s ++ [o] -> s1 = set_heap (heap (set_heap (heap s) s1) ++ [o]) (set_heap (heap s) s1).
Proof. intros H. destruct s1. simpl in *. by subst. Qed.

(** An addition either fails because of the uuid or appends. *)
Lemma add_cases s s1 o p : WF0 (heap s) -> target (heap s) p -> plain_new o -> (forall e, o_endpoint o = Some e -> exists_in (heap s) e) ->
  heap s1 = heap s ++ [o] ->
  ((exists x, x ∈ children (heap s) p /\ uuid_of (heap s) x = o_uuid o) /\
     add_element p (length (heap s)) s1 = (Exn ErrorDuplicateElement, s1)) \/
  ((forall x, x ∈ children (heap s) p -> uuid_of (heap s) x <> o_uuid o) /\
     exists s', add_element p (length (heap s)) s1 = (Ok tt, s') /\ step1 (heap s) (heap s') p (length (heap s)) o).
Proof.
  intros W (op & Hp & Hk & Hr) N He Hs. destruct (dup_child (heap s) p op (o_uuid o) W Hp) as [(x & Hx & Hx')|Hu].
  - left. split.
    { exists x. split; [done|]. destruct (wf_sub _ W p op _ x Hp Hx) as (ox & Hox & Hu & _). unfold uuid_of. by rewrite Hox. }
    assert (Hlt : p < length (heap s)) by (by apply lookup_lt_Some in Hp).
    apply (q_C07_dup s1 p _ op o x); [by rewrite Hs, lookup_app_l|by rewrite Hs, lookup_app_r, Nat.sub_diag by lia|lia|done].
  - right. split; [done|]. set (s0 := set_heap (heap s) s1).
    assert (Hh : heap s0 = heap s) by (by destruct s1). pose proof (set_heap_app s s1 o Hs) as E1. fold s0 in E1.
    destruct (add_fresh_step s0 p o op) as (s' & E & S); try (rewrite ?Hh; first [done|apply N|by eexists]).
    + intros [H1 _]. rewrite H1 in Hk. by destruct Hk.
    + intros (_ & _ & H3). congruence.
    + rewrite Hh in E, S. exists s'. split; [|done]. rewrite E1, Hh. done.
Qed.
