(** * Factories: C22 - C25 *)
From stdpp Require Import relations.
From Verif Require Import Spec SpecFac Hierarchy Elements Factory History PDict PPath PExec PBfs PWF PAdd PMono PStep PRemove PReach PPrim PHist QHier QHier2 QHier3 QHier4 QHier5 QHier6.

Definition con_obj (k : kind) (u : uid) (nm prog : string) (c : clockid) : obj := s_clock (Some c) (blank k u nm prog).
Definition same_qnames (h h' : list obj) : Prop := forall l, exists_in h l -> o_qname <$> h' !! l = o_qname <$> h !! l.

Lemma dup_child h p op u : WF0 h -> h !! p = Some op ->
  (exists x, (u, x) ∈ o_subs op /\ x ∈ children h p) \/ (forall x, x ∈ children h p -> uuid_of h x <> u).
Proof.
  intros W Hp. destruct (dget u (o_subs op)) as [x|] eqn:E.
  - left. exists x. apply dget_Some_in in E. split; [done|]. unfold children. rewrite Hp. apply elem_of_list_fmap. by exists (u, x).
  - right. by apply (children_uuid_old h p op u W Hp).
Qed.

Lemma grown_upd h h' p l o f : grown h h' p l o -> WF0 (alter f l h') ->
  (forall o, o_parent (f o) = o_parent o) -> (forall o, o_subs (f o) = o_subs o) ->

  p <> l ->
  forall o2, (forall x, fixed_part x = fixed_part o -> fixed_part (f x) = fixed_part o2) ->
  grown h (alter f l h') p l o2.
Proof.
  intros G W Hfp Hfs Hpl o2 Hf. destruct (gr_fresh _ _ _ _ _ G) as (F1 & F2 & F3 & F4).
  assert (Hne : forall x, exists_in h x -> x <> l) by (intros x Hx ->; done).
  assert (Hch : forall x, children (alter f l h') x = children h' x).
  { intros x. unfold children. destruct (decide (l = x)) as [->|Hx].
    - rewrite list_lookup_alter. destruct (h' !! x); simpl; [by rewrite Hfs|done]. - by rewrite list_lookup_alter_ne. }
  split.
  - apply G. - rewrite alter_length. apply G. - done.
  - intros x ox Hx. rewrite list_lookup_alter_ne by (apply not_eq_sym, Hne; by eexists). by apply (gr_kept _ _ _ _ _ G).
  - intros x Hx. unfold parent_of. rewrite list_lookup_alter_ne by (by apply not_eq_sym, Hne). by apply (gr_unmoved _ _ _ _ _ G).
  - rewrite Hch. apply G.
  - intros x Hx Hxp. rewrite Hch. by apply (gr_other _ _ _ _ _ G).
  - split; [done|]. split.
    { unfold parent_of in *. rewrite list_lookup_alter. destruct (h' !! l); simpl in *; [by rewrite Hfp|done]. }
    split; [by rewrite Hch|]. rewrite list_lookup_alter. destruct (h' !! l) as [x|]; [|done].
    cbn [fmap option_fmap option_map] in *. apply (inj Some) in F4. f_equal. by apply Hf.
Qed.

Lemma new_con_cases s k nm u prog c p op : WF0 (heap s) -> is_conceptual k = true -> heap s !! p = Some op -> o_kind op <> KRel ->
  let l := length (heap s) in
  ((exists x, x ∈ children (heap s) p /\ uuid_of (heap s) x = u) /\
     exists s', new_conceptual k nm u prog (Some c) (Some p) s = (Exn ErrorDuplicateElement, s') /\
       (forall x, exists_in (heap s) x -> heap s' !! x = heap s !! x)) \/
  ((forall x, x ∈ children (heap s) p -> uuid_of (heap s) x <> u) /\
     exists s', new_conceptual k nm u prog (Some c) (Some p) s = (Ok l, s') /\
       grown (heap s) (heap s') p l (con_obj k u nm prog c) /\ mono s s' /\ same_qnames (heap s) (heap s')).
Proof.
  intros W Hk Hp Hkp l. pose proof (new_conceptual_wf s k nm u prog (Some c) (Some p) W Hk ltac:(by eexists)) as W'.
  pose proof (pres_new_conceptual k nm u prog (Some c) (Some p) s) as M'.
  unfold new_conceptual in *. set (s1 := set_tick (S (tick s)) s).
  rewrite (bind_ok (now c) _ s (clk s c (tick s)) s1) in * by done.
  set (o := s_ready _ _) in *. rewrite (bind_ok _ _ _ _ _ (alloc_state s1 o)) in *. change (length (heap s1)) with l in *.
  set (s2 := set_heap (heap s1 ++ [o]) s1) in *.
  assert (Hp2 : heap s2 !! p = Some op) by (unfold s2; simpl; rewrite lookup_app_l; [done|by apply lookup_lt_Some in Hp]).
  assert (Ho2 : heap s2 !! l = Some o) by (unfold s2, l; simpl; by rewrite lookup_app_r, Nat.sub_diag by lia).
  assert (Hpl : p <> l) by (apply lookup_lt_Some in Hp; unfold l; lia).
  destruct (dup_child (heap s) p op u W Hp) as [(x & Hx & Hx')|Hu].
  - left. split.
    { exists x. split; [done|]. destruct (wf_sub _ W p op u x Hp Hx) as (ox & Hox & Hu & _). unfold uuid_of. by rewrite Hox. }
    pose proof (q_C07_dup s2 p l op o x Hp2 Ho2 ltac:(done) Hx) as E.
    rewrite (bind_exn _ _ _ _ _ E). exists s2. split; [done|]. intros y Hy. apply exists_in_lt in Hy. unfold s2. simpl. by rewrite lookup_app_l.
  - right. split; [done|].
    destruct (add_fresh_grown s1 p o op W Hp) as (s3 & E3 & G3 & M3 & F3 & Q3); try done.
    { intros E. unfold o in E. simpl in E. by subst k. } { by intros [? _]. } { intros (_ & Hx & _). unfold o in Hx. simpl in Hx. by subst k. }
    change (set_heap (heap s1 ++ [o]) s1) with s2 in E3, M3. change (length (heap s1)) with l in E3, M3, G3. rewrite (bind_ok _ _ _ _ _ E3) in *.
    destruct (gr_fresh _ _ _ _ _ G3) as (F1' & F2' & F3' & F4').
    destruct (heap s3 !! l) as [o3|] eqn:Ho3; [|done].
    rewrite (bind_ok _ _ _ _ _ (upd_ok l (s_ready true) s3 o3 Ho3)) in *. eexists. split; [done|]. cbn [snd ret heap set_heap] in *.
    split; [|split].
    + eapply grown_upd; try done. intros y Hy. destruct y, o3.
      unfold fixed_part, con_obj, blank, o in *. simpl in *. inversion Hy; subst. done.
    + exact M'.
    + intros y Hy. rewrite list_lookup_alter_ne by (intros ->; done). by apply Q3.
Qed.

(** ** C21: texts *)
Lemma has_char_app c x y : has_char c (x +:+ y) = has_char c x || has_char c y.
Proof. induction x as [|a x IH]; [done|]. change (String a x +:+ y) with (String a (x +:+ y)). cbn [has_char]. by rewrite IH, orb_assoc. Qed.
Lemma go_no_dot x : forall s, has_char dot s = false -> has_char dot (pretty_N_go x s) = false.
Proof.
  induction (N.lt_wf_0 x) as [x _ IH]; intros s Hs. assert (x = 0 \/ 0 < x)%N as [->|Hx] by lia.
  - by rewrite pretty_N_go_0.
  - rewrite pretty_N_go_step by done. apply IH; [by apply N.div_lt|]. cbn [has_char]. rewrite Hs, orb_false_r.
    unfold pretty_N_char, dot. repeat case_match; reflexivity.
Qed.
Lemma N_no_dot (x : N) : has_char dot (pretty x) = false.
Proof. unfold pretty, pretty_N. case_decide; [done|]. by apply go_no_dot. Qed.
Lemma Z_no_dot (z : Z) : has_char dot (str_of_Z z) = false.
Proof.
  unfold str_of_Z, pretty, pretty_Z. destruct z as [|x|x]; [done|apply (N_no_dot (Npos x))|].
  rewrite has_char_app. apply (N_no_dot (Npos x)).
Qed.
Lemma last_dot a a' b b' : has_char dot b = false -> has_char dot b' = false ->
  a +:+ "." +:+ b = a' +:+ "." +:+ b' -> a = a' /\ b = b'.
Proof.
  intros Hb Hb'. revert a'. induction a as [|x a IH]; intros [|y a'] H.
  - change ("" +:+ "." +:+ b) with (String dot b) in H. change ("" +:+ "." +:+ b') with (String dot b') in H. by injection H as ->.
  - exfalso. change ("" +:+ "." +:+ b) with (String dot b) in H. change (String y a' +:+ "." +:+ b') with (String y (a' +:+ "." +:+ b')) in H.
    injection H as _ ->. by rewrite !has_char_app, orb_true_r in Hb.
  - exfalso. change ("" +:+ "." +:+ b') with (String dot b') in H. change (String x a +:+ "." +:+ b) with (String x (a +:+ "." +:+ b)) in H.
    injection H as _ <-. by rewrite !has_char_app, orb_true_r in Hb'.
  - change (String x a +:+ "." +:+ b) with (String x (a +:+ "." +:+ b)) in H. change (String y a' +:+ "." +:+ b') with (String y (a' +:+ "." +:+ b')) in H.
    injection H as -> H. destruct (IH a' H) as [-> ->]. done.
Qed.
Lemma uid_text_inj fn nm nm' t t' : uid_text fn nm t = uid_text fn nm' t' -> nm = nm' /\ t = t'.
Proof.
  unfold uid_text, qualified_text. intros H. apply (inj (String.append fn)) in H. apply (inj (String.append "/")) in H.
  apply last_dot in H as [H1 H2]; [|apply Z_no_dot..]. split; [done|]. by apply (inj pretty) in H2.
Qed.
Lemma gen_uid_eq f nm s : generate_uid f nm s = (Ok (sha s (uid_text (f_name f) nm (clk s (f_clock f) (tick s)))), set_tick (S (tick s)) s).
Proof. reflexivity. Qed.
Lemma app_assoc_s (a b c : string) : (a +:+ b) +:+ c = a +:+ b +:+ c.
Proof. induction a as [|x a IH]; [done|]. change (String x (((a +:+ b)) +:+ c) = String x (a +:+ b +:+ c)). by rewrite IH. Qed.

Lemma q_C21 f nm nm' s s1 s' s1' u : generate_uid f nm s = (Ok u, s1) -> generate_uid f nm' s' = (Ok u, s1') ->
  sha s' = sha s -> (forall a b, sha s a = sha s b -> a = b) ->
  nm = nm' /\ clk s (f_clock f) (tick s) = clk s' (f_clock f) (tick s').
Proof.
  rewrite !gen_uid_eq. intros [= <- _] [= H _] Hs Hi. rewrite Hs in H. apply Hi in H. apply uid_text_inj in H as [-> <-]. done.
Qed.
Lemma q_C21_across a b c ck s : fst (generate_uid (mkFactory (a +:+ "/" +:+ b) ck) c s) = fst (generate_uid (mkFactory a ck) (b +:+ "/" +:+ c) s).
Proof. rewrite !gen_uid_eq. cbn [fst f_name f_clock]. unfold uid_text, qualified_text. by rewrite !app_assoc_s. Qed.

Lemma new_con_result k nm u prog c parent s l s1 : new_conceptual k nm u prog c parent s = (Ok l, s1) ->
  l = length (heap s) /\ exists o, heap s1 !! l = Some o /\ o_kind o = k /\ o_uuid o = u /\ o_name o = nm.
Proof.
  unfold new_conceptual. destruct c as [c|]; [|done]. set (s1' := set_tick (S (tick s)) s).
  rewrite (bind_ok (now c) _ s (clk s c (tick s)) s1') by done. set (o := s_ready _ _).
  rewrite (bind_ok _ _ _ _ _ (alloc_state s1' o)). change (length (heap s1')) with (length (heap s)). set (l0 := length (heap s)).
  set (s2 := set_heap (heap s1' ++ [o]) s1'). intros E.
  assert (Ho2 : heap s2 !! l0 = Some o) by (unfold s2, l0; simpl; by rewrite lookup_app_r, Nat.sub_diag by lia).
  assert (M : mono s2 s1).
  { assert (P : pres (match parent with None => ret tt | Some p => add_element p l0 end ;; upd l0 (s_ready true) ;; ret l0)).
    { apply pres_bind; [destruct parent; [apply pres_add_element|apply pres_ret]|]. intros _.
      apply pres_bind; [|intros; apply pres_ret]. apply pres_upd. intros x x' y. destruct (obj_mono_refl x x' y). by split. }
    specialize (P s2). rewrite E in P. exact P. }
  assert (l = l0) as ->.
  { unfold bind at 1 in E. destruct (match parent with None => ret tt | Some p => add_element p l0 end s2) as [[a|e] s3]; [|done].
    unfold bind at 1 in E. destruct (upd l0 _ s3) as [[b|e] s4]; [|done]. by injection E as <- _. }
  split; [done|]. destruct (m_obj _ _ M l0 o Ho2) as (o' & Ho' & Hm). exists o'. split; [done|].
  rewrite (om_kind _ _ _ _ Hm), (om_uuid _ _ _ _ Hm), (om_name _ _ _ _ Hm). done.
Qed.

Lemma gen_node_eq f nm p op s : heap s !! p = Some op ->
  let t := clk s (f_clock f) (tick s) in
  generate_node f nm (Some p) s =
  new_conceptual KNode nm (sha s (uid_text (f_name f) (join "/" [o_qname op; nm]) t))
    (join "/" [f_name f; qualified_text nm (clk s (f_clock f) (S (tick s)))]) (Some (f_clock f)) (Some p) (set_tick (S (S (tick s))) s).
Proof. intros Hp t. unfold generate_node. rewrite bind_assoc. rewrite (bind_ok _ _ _ _ _ (deref_ok _ _ _ Hp)). reflexivity. Qed.
Lemma gen_root_eq f nm s :
  let t := clk s (f_clock f) (tick s) in
  generate_node f nm None s =
  new_conceptual KNode nm (sha s (uid_text (f_name f) nm t))
    (join "/" [f_name f; qualified_text nm (clk s (f_clock f) (S (tick s)))]) (Some (f_clock f)) None (set_tick (S (S (tick s))) s).
Proof. reflexivity. Qed.
Lemma join2 sep a b : join sep [a; b] = a +:+ sep +:+ b.
Proof. done. Qed.

Lemma gen_node_uuid f nm parent s c s1 : generate_node f nm parent s = (Ok c, s1) ->
  uuid_of (heap s1) c = sha s (uid_text (f_name f) (node_text (heap s) nm parent) (clk s (f_clock f) (tick s))).
Proof.
  intros E. destruct parent as [p|].
  - destruct (heap s !! p) as [op|] eqn:Hp.
    + rewrite (gen_node_eq f nm p op s Hp) in E. apply new_con_result in E as (_ & o & Ho & _ & Hu & _).
      unfold uuid_of. rewrite Ho. simpl. by rewrite Hp.
    + unfold generate_node in E. rewrite bind_assoc in E. unfold bind at 1, deref at 1 in E. by rewrite Hp in E.
  - rewrite gen_root_eq in E. apply new_con_result in E as (_ & o & Ho & _ & Hu & _). unfold uuid_of. by rewrite Ho.
Qed.
Lemma q_C21_nodes f nm nm' pa pa' s s1 c s' s1' c' : generate_node f nm pa s = (Ok c, s1) -> generate_node f nm' pa' s' = (Ok c', s1') ->
  sha s' = sha s -> (forall a b, sha s a = sha s b -> a = b) ->
  uuid_of (heap s1) c = uuid_of (heap s1') c' <->
  node_text (heap s) nm pa = node_text (heap s') nm' pa' /\ clk s (f_clock f) (tick s) = clk s' (f_clock f) (tick s').
Proof.
  intros E E' Hs Hi. rewrite (gen_node_uuid _ _ _ _ _ _ E), (gen_node_uuid _ _ _ _ _ _ E'), Hs. split.
  - intros H. by apply Hi, uid_text_inj in H. - by intros [-> ->].
Qed.

(** ** C22 *)
Lemma gen_node_cases s f nm p op : WF0 (heap s) -> heap s !! p = Some op -> o_kind op <> KRel ->
  let l := length (heap s) in
  let u := sha s (uid_text (f_name f) (o_qname op +:+ "/" +:+ nm) (clk s (f_clock f) (tick s))) in
  ((exists x, x ∈ children (heap s) p /\ uuid_of (heap s) x = u) /\
     exists s', generate_node f nm (Some p) s = (Exn ErrorDuplicateElement, s')) \/
  ((forall x, x ∈ children (heap s) p -> uuid_of (heap s) x <> u) /\
     exists s' prog, generate_node f nm (Some p) s = (Ok l, s') /\
       grown (heap s) (heap s') p l (con_obj KNode u nm prog (f_clock f)) /\ mono s s' /\ same_qnames (heap s) (heap s')).
Proof.
  intros W Hp Hk l u. rewrite (gen_node_eq f nm p op s Hp). set (s2 := set_tick _ s). fold u. rewrite !join2. fold u.
  assert (M2 : mono s s2).
  { eapply mono_trans; [apply (pres_now (f_clock f) s)|]. exact (pres_now (f_clock f) (set_tick (S (tick s)) s)). }
  set (prog := f_name f +:+ _).
  destruct (new_con_cases s2 KNode nm u prog (f_clock f) p op W eq_refl Hp Hk) as [[Hd (s' & E & _)]|[Hn (s' & E & G & M & Q)]].
  - left. split; [done|]. by exists s'.
  - right. split; [done|]. exists s', prog. split; [exact E|]. split; [exact G|]. split; [by eapply mono_trans|exact Q].
Qed.

(** A list of fresh elements was appended to [p]. *)
Record grown_list (h h' : list obj) (p : loc) (cs : list loc) : Prop := {
  gl_wf : WF0 h';
  gl_kept : kept h h';
  gl_unmoved : unmoved h h';
  gl_p : children h' p = children h p ++ cs;
  gl_other : forall l, exists_in h l -> l <> p -> children h' l = children h l;
  gl_new : forall c, c ∈ cs -> ~ exists_in h c;
  gl_only : forall l, exists_in h' l -> exists_in h l \/ l ∈ cs
}.
Lemma fixed_get {A} (f : obj -> A) (h : list obj) l o : (forall o, f (fixed_part o) = f o) -> fixed_part <$> h !! l = Some (fixed_part o) ->
  f <$> h !! l = Some (f o).
Proof.
  intros Hf H. destruct (h !! l) as [o'|]; [|done]. cbn [fmap option_fmap option_map] in *. apply (inj Some) in H.
  f_equal. rewrite <- (Hf o'), <- (Hf o). by rewrite H.
Qed.
Lemma grown_only h h' p c o l : grown h h' p c o -> exists_in h' l -> exists_in h l \/ l = c.
Proof.
  intros G. rewrite !exists_in_lt, (gr_len _ _ _ _ _ G), (gr_new _ _ _ _ _ G). lia.
Qed.

Lemma gen_list_ok f p q k : k <> KRel -> forall nms s op, WF0 (heap s) -> heap s !! p = Some op -> o_kind op = k -> o_qname op = q -> NoDup nms ->
  let txt nm t := uid_text (f_name f) (q +:+ "/" +:+ nm) t in
  (forall nm nm' t t', nm ∈ nms -> nm' ∈ nms -> sha s (txt nm t) = sha s (txt nm' t') -> txt nm t = txt nm' t') ->
  (forall nm t x, nm ∈ nms -> x ∈ children (heap s) p -> uuid_of (heap s) x <> sha s (txt nm t)) ->
  exists cs s', generate_list_nodes f nms (Some p) s = (Ok cs, s') /\ grown_list (heap s) (heap s') p cs /\
    Forall2 (fun c nm => name_of (heap s') c = nm /\ kind_of (heap s') c = Some KNode /\ parent_of (heap s') c = Some p /\ children (heap s') c = []) cs nms.
Proof.
  intros Hk. induction nms as [|nm nms IH]; intros s op W Hp Hko Hq Hnd txt Hi Hf.
  - exists [], s. split; [done|]. split; [|constructor]. split; try done; try apply kept_refl; try (by rewrite app_nil_r); try (by intros c Hc%elem_of_nil); by left.
  - apply NoDup_cons in Hnd as [Hni Hnd].
    destruct (gen_node_cases s f nm p op W Hp) as [[(x & Hx & Hu) _]|(Hn & s1 & prog & E & G & M & Q)]; [by rewrite Hko| |].
    { exfalso. rewrite Hq in Hu. eapply Hf; [left|exact Hx|exact Hu]. }
    rewrite Hq in *. set (l := length (heap s)) in *. set (u := sha s _) in *.
    destruct (gr_fresh _ _ _ _ _ G) as (F1 & F2 & F3 & F4).
    assert (Hpe : exists_in (heap s) p) by (by eexists).
    destruct (kept_exists _ _ p (gr_kept _ _ _ _ _ G) Hpe) as [op1 Hp1].
    assert (Hq1 : o_qname op1 = q). { pose proof (Q p Hpe) as H. rewrite Hp, Hp1 in H. simpl in H. injection H. congruence. }
    assert (Hk1 : o_kind op1 = k).
    { pose proof (kept_kind _ _ p (gr_kept _ _ _ _ _ G) Hpe) as H. unfold kind_of in H. rewrite Hp, Hp1 in H. simpl in H. injection H. congruence. }
    assert (Hpl : p <> l) by (intros ->; done).
    destruct (IH s1 op1) as (cs & s2 & E2 & G2 & F2'); [by apply G|done|done|done|done| | |].
    { rewrite (m_sha _ _ M). intros a b t t' Ha Hb. apply Hi; by right. }
    { intros a t x Ha Hx. rewrite (m_sha _ _ M). rewrite (gr_p _ _ _ _ _ G) in Hx. apply elem_of_app in Hx as [Hx|Hx].
      - rewrite (kept_uuid _ _ _ (gr_kept _ _ _ _ _ G)) by (by eapply wf_children_exist). apply Hf; [by right|done].
      - apply elem_of_list_singleton in Hx as ->. unfold uuid_of. rewrite (fixed_get o_uuid _ _ _ (fun _ => eq_refl) F4).
        simpl. unfold u. intros Hs. apply Hi in Hs; [|left|by right]. apply uid_text_inj in Hs as [Hs _].
        apply (inj (String.append q)) in Hs. apply (inj (String.append "/")) in Hs. by subst. }
    exists (l :: cs), s2. split; [|split].
    + unfold generate_list_nodes. cbn [map_m]. rewrite (bind_ok _ _ _ _ _ E). unfold generate_list_nodes in E2. by rewrite (bind_ok _ _ _ _ _ E2).
    + pose proof (gr_kept _ _ _ _ _ G) as K1. pose proof (gl_kept _ _ _ _ G2) as K2. split.
      * apply G2. * by eapply kept_trans.
      * eapply unmoved_trans; [|apply G|apply G2]. intros y Hy. by apply (kept_exists _ _ _ K1).
      * rewrite (gl_p _ _ _ _ G2), (gr_p _ _ _ _ _ G), <- app_assoc. done.
      * intros y Hy Hyp. rewrite (gl_other _ _ _ _ G2) by (done || by apply (kept_exists _ _ _ K1)). by apply (gr_other _ _ _ _ _ G).
      * intros c Hc. apply elem_of_cons in Hc as [->|Hc]; [done|]. intros Hy. apply (gl_new _ _ _ _ G2 c Hc). by apply (kept_exists _ _ _ K1).
      * intros y Hy. apply (gl_only _ _ _ _ G2) in Hy as [Hy|Hy]; [|right; by right].
        apply (grown_only _ _ _ _ _ _ G) in Hy as [Hy| ->]; [by left|right; left].
    + constructor; [|done]. assert (Hle : exists_in (heap s1) l). { destruct (heap s1 !! l) eqn:El; [by eexists|done]. }
      rewrite (kept_name _ _ _ (gl_kept _ _ _ _ G2)), (kept_kind _ _ _ (gl_kept _ _ _ _ G2)) by done.
      rewrite (gl_unmoved _ _ _ _ G2) by done. rewrite (gl_other _ _ _ _ G2) by done.
      split; [unfold name_of; by rewrite (fixed_get o_name _ _ _ (fun _ => eq_refl) F4)|].
      split; [unfold kind_of; by rewrite (fixed_get o_kind _ _ _ (fun _ => eq_refl) F4)|]. done.
Qed.

Lemma sub_nodes_ok s e o : heap s !! e = Some o -> sub_nodes e s = (Ok (filter (fun c => kind_of (heap s) c = Some KNode) (children (heap s) e)), s).
Proof.
  intros He. apply (subelements_ok e _ s o); [done|]. intros c Hc. unfold is_kind, kind_of. destruct (heap s !! c) as [oc|]; [|done].
  simpl. destruct (o_kind oc); simpl; split; intros; congruence.
Qed.

Lemma q_C22 s f nms p op : reach s -> heap s !! p = Some op -> o_kind op <> KRel -> NoDup nms ->
  let txt nm t := uid_text (f_name f) (o_qname op +:+ "/" +:+ nm) t in
  (forall nm nm' t t', nm ∈ nms -> nm' ∈ nms -> sha s (txt nm t) = sha s (txt nm' t') -> txt nm t = txt nm' t') ->
  (forall nm t x, nm ∈ nms -> x ∈ children (heap s) p -> uuid_of (heap s) x <> sha s (txt nm t)) ->
  exists cs s' ns, generate_list_nodes f nms (Some p) s = (Ok cs, s') /\ reach s' /\
    sub_nodes p s = (Ok ns, s) /\ sub_nodes p s' = (Ok (ns ++ cs), s') /\
    map (name_of (heap s')) cs = nms /\ NoDup cs /\
    (forall c, c ∈ cs -> ~ exists_in (heap s) c /\ parent_of (heap s') c = Some p /\ children (heap s') c = []) /\
    children (heap s') p = children (heap s) p ++ cs /\
    (forall l, exists_in (heap s) l -> l <> p -> children (heap s') l = children (heap s) l) /\
    (forall l, exists_in (heap s') l -> exists_in (heap s) l \/ l ∈ cs) /\
    kept (heap s) (heap s') /\ unmoved (heap s) (heap s').
Proof.
  intros R Hp Hk Hnd txt Hi Hf. pose proof (reach_wf s R) as W.
  destruct (gen_list_ok f p (o_qname op) (o_kind op) Hk nms s op W Hp eq_refl eq_refl Hnd Hi Hf) as (cs & s' & E & G & F).
  assert (R' : reach s').
  { pose proof (reach_step s (OGenNodes f nms (Some p)) R) as R'. cbn [exec] in R'. rewrite snd_void, E in R'. apply R'. by eexists. }
  destruct (kept_exists _ _ p (gl_kept _ _ _ _ G) ltac:(by eexists)) as [op' Hp'].
  exists cs, s', (filter (fun c => kind_of (heap s) c = Some KNode) (children (heap s) p)).
  split; [done|]. split; [done|]. split; [by eapply sub_nodes_ok|]. split.
  { rewrite (sub_nodes_ok s' p op' Hp'). f_equal. f_equal. rewrite (gl_p _ _ _ _ G), filter_app. f_equal.
    - apply kept_filter_kind; [by apply G|]. intros x Hx. by eapply wf_children_exist.
    - clear -F. induction F as [|c nm cs nms Hc F IH]; [done|]. rewrite filter_cons, decide_True by (by apply Hc). by rewrite IH. }
  split. { clear -F. induction F as [|c nm cs nms Hc F IH]; [done|]. simpl. rewrite IH. by destruct Hc as [-> _]. }
  split.
  { pose proof (reach_wf s' R') as W'. pose proof (q_C01 s' R' p ltac:(by eexists)) as (lst & El & Hl & _).
    assert (children (heap s') p = lst) as Hcl.
    { assert (E1 : get_subelements p (fun _ _ => true) s' = (Ok (filter (fun _ => True) (children (heap s') p)), s')).
      { apply (subelements_ok p _ s' op' (fun _ => True) Hp'). intros c Hc. destruct (wf0_child _ W' p c Hc) as [[oc Hoc] _]. by rewrite Hoc. }
      rewrite E1 in El. injection El as <-. clear. induction (children (heap s') p) as [|a l IH]; [done|]. rewrite filter_cons, decide_True by done. by f_equal. }
    rewrite <- Hcl, (gl_p _ _ _ _ G) in Hl. by apply NoDup_app in Hl as (_ & _ & ?). }
  split.
  { intros c Hc. split; [by apply (gl_new _ _ _ _ G)|]. apply elem_of_list_lookup in Hc as [i Hi'].
    destruct (Forall2_lookup_l _ _ _ _ _ F Hi') as (nm & _ & _ & _ & H1 & H2). done. }
  split; [by apply G|]. split; [by apply G|]. split; [by apply G|]. split; by apply G.
Qed.

Lemma gen_list_dup f p q k t : k <> KRel -> forall nms s op, WF0 (heap s) -> heap s !! p = Some op -> o_kind op = k -> o_qname op = q ->
  (forall n, tick s <= n -> clk s (f_clock f) n = t) ->
  (exists s', generate_list_nodes f nms (Some p) s = (Exn ErrorDuplicateElement, s')) \/
  ((exists cs s', generate_list_nodes f nms (Some p) s = (Ok cs, s')) /\ NoDup nms /\
   forall nm x, nm ∈ nms -> x ∈ children (heap s) p -> uuid_of (heap s) x <> sha s (uid_text (f_name f) (q +:+ "/" +:+ nm) t)).
Proof.
  intros Hk. induction nms as [|nm nms IH]; intros s op W Hp Hko Hq Ht.
  - right. split; [by exists [], s|]. split; [constructor|]. by intros nm x Hx%elem_of_nil.
  - unfold generate_list_nodes. cbn [map_m].
    destruct (gen_node_cases s f nm p op W Hp) as [[_ (s1 & E)]|(Hn & s1 & prog & E & G & M & Q)]; [by rewrite Hko| |].
    { left. exists s1. by rewrite (bind_exn _ _ _ _ _ E). }
    rewrite (bind_ok _ _ _ _ _ E). rewrite Hq, (Ht (tick s)) in * by lia. set (l := length (heap s)) in *. set (u := sha s _) in *.
    destruct (gr_fresh _ _ _ _ _ G) as (F1 & F2 & F3 & F4).
    assert (Hpe : exists_in (heap s) p) by (by eexists).
    destruct (kept_exists _ _ p (gr_kept _ _ _ _ _ G) Hpe) as [op1 Hp1].
    assert (Hq1 : o_qname op1 = q). { pose proof (Q p Hpe) as H. rewrite Hp, Hp1 in H. simpl in H. injection H. congruence. }
    assert (Hk1 : o_kind op1 = k).
    { pose proof (kept_kind _ _ p (gr_kept _ _ _ _ _ G) Hpe) as H. unfold kind_of in H. rewrite Hp, Hp1 in H. simpl in H. injection H. congruence. }
    destruct (IH s1 op1) as [(s2 & E2)|((cs & s2 & E2) & Hnd & Hall)]; [by apply G|done|done|done| | |].
    { intros n Hm. rewrite (m_clk _ _ M). apply Ht. pose proof (m_tick _ _ M). lia. }
    + left. exists s2. unfold generate_list_nodes in E2. by rewrite (bind_exn _ _ _ _ _ E2).
    + right. split; [exists (l :: cs), s2; unfold generate_list_nodes in E2; by rewrite (bind_ok _ _ _ _ _ E2)|].
      rewrite (m_sha _ _ M) in Hall. rewrite (gr_p _ _ _ _ _ G) in Hall. split.
      * constructor; [|done]. intros Hin. apply (Hall nm l Hin); [apply elem_of_app; right; left|].
        unfold uuid_of. by rewrite (fixed_get o_uuid _ _ _ (fun _ => eq_refl) F4).
      * intros a x Ha Hx. apply elem_of_cons in Ha as [->|Ha]; [by apply Hn|].
        rewrite <- (kept_uuid _ _ x (gr_kept _ _ _ _ _ G)) by (by eapply wf_children_exist). apply Hall; [done|]. apply elem_of_app. by left.
Qed.
Lemma q_C22_dup s f nms p op t : reach s -> heap s !! p = Some op -> o_kind op <> KRel ->
  (forall n, tick s <= n -> clk s (f_clock f) n = t) -> ~ NoDup nms ->
  exists s', generate_list_nodes f nms (Some p) s = (Exn ErrorDuplicateElement, s').
Proof.
  intros R Hp Hk Ht Hnd. destruct (gen_list_dup f p _ _ t Hk nms s op (reach_wf s R) Hp eq_refl eq_refl Ht) as [?|(_ & ? & _)]; done.
Qed.
