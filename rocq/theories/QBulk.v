(** * C80: proofs *)
From Verif Require Import Spec Hierarchy Elements Factory History PDict PPath PExec PBfs PWF PMono PReach PHist QHier QHier2 QHier3 QHier4 QHier5 QFac2 Bulk SpecBulk.

(** ** add_elements *)
Lemma rounds_eq p xs s : add_rounds (S (length xs)) p (AtPending xs) s =
  match one_by_one p xs s with (Ok _, s') => (AtDone, s') | (Exn e, s') => (AtFailed e, s') end.
Proof.
  revert s. induction xs as [|x xs IH]; intros s; [done|]. cbn [one_by_one]. change (length (x :: xs)) with (S (length xs)).
  set (n := S (length xs)) in *. cbn [add_rounds add_round]. destruct (add_element p x s) as [[u|e] s1]; [apply IH|].
  clear IH. generalize n. intros m. induction m as [|m IHm]; [done|]. exact IHm.
Qed.
Lemma q_C80_awaited p xs s : add_elements_awaited p xs s = one_by_one p xs s.
Proof. unfold add_elements_awaited. rewrite rounds_eq. destruct (one_by_one p xs s) as [[[]|e] s']; done. Qed.
Lemma q_C80_run p x xs s : add_elements_run p [] s = (Ok tt, s) /\ add_elements_run p (x :: xs) s = (Ok tt, snd (add_element p x s)).
Proof. split; [done|]. unfold add_elements_run. cbn. by destruct (add_element p x s) as [[u|e] s1]. Qed.

Lemma fixed_uuid h h' l : same_fixed h h' -> uuid_of h' l = uuid_of h l.
Proof. intros F. specialize (F l). apply (f_equal (fmap o_uuid)) in F. unfold uuid_of. destruct (h !! l) as [o|], (h' !! l) as [o'|]; try done. cbn in F. injection F as F. cbn. by rewrite F. Qed.
Lemma fixed_kind h h' l : same_fixed h h' -> kind_of h' l = kind_of h l.
Proof. intros F. specialize (F l). apply (f_equal (fmap o_kind)) in F. unfold kind_of. destruct (h !! l) as [o|], (h' !! l) as [o'|]; done. Qed.
Lemma fixed_exists h h' l : same_fixed h h' -> exists_in h l -> exists_in h' l.
Proof. intros F [o Ho]. specialize (F l). rewrite Ho in F. unfold exists_in. destruct (h' !! l) as [o'|]; [by exists o'|done]. Qed.
Lemma fixed_ready h h' l o : same_fixed h h' -> h !! l = Some o -> exists o', h' !! l = Some o' /\ o_kind o' = o_kind o /\ o_ready o' = o_ready o /\ o_uuid o' = o_uuid o.
Proof. intros F Ho. specialize (F l). rewrite Ho in F. destruct (h' !! l) as [o'|]; [|done]. exists o'. cbn in F. pose proof (f_equal (fmap o_kind) F) as F1. pose proof (f_equal (fmap o_ready) F) as F2. pose proof (f_equal (fmap o_uuid) F) as F3. clear F. cbn in F1, F2, F3. injection F1 as F1. injection F2 as F2. injection F3 as F3. done. Qed.
Lemma fixed_trans h1 h2 h3 : same_fixed h1 h2 -> same_fixed h2 h3 -> same_fixed h1 h3.
Proof. intros F G l. by rewrite (F l). Qed.

Lemma ancestor_back h h' x y l : (forall z, z <> x -> parent_of h' z = parent_of h z) -> ~ within h x l -> ancestor h' y l -> ancestor h y l.
Proof.
  intros E N A. induction A as [a l P|a q l P A IH].
  - apply anc_parent. rewrite <- E; [done|]. intros ->. apply N. by left.
  - assert (P' : parent_of h l = Some q) by (rewrite <- E; [done|]; intros ->; apply N; by left).
    eapply anc_up; [exact P'|]. apply IH. intros [->|Hw]; apply N; right; [by apply anc_parent|by eapply anc_up].
Qed.

Lemma q_C80_all s p op xs : reach s -> heap s !! p = Some op -> is_conceptual (o_kind op) = true -> o_ready op = true -> can_join (heap s) p xs ->
  exists s', add_elements_awaited p xs s = (Ok tt, s') /\ reach s' /\
    children (heap s') p = children (heap s) p ++ xs /\
    (forall x, x ∈ xs -> parent_of (heap s') x = Some p) /\
    (forall q, q <> p -> children (heap s') q = filter (fun x => x ∉ xs) (children (heap s) q)) /\
    (forall l, l ∉ xs -> parent_of (heap s') l = parent_of (heap s) l) /\
    same_fixed (heap s) (heap s').
Proof.
  rewrite q_C80_awaited. revert s op. induction xs as [|x xs IH]; intros s op R Hp Hk Hr [J1 J2].
  - exists s. split; [done|]. split; [done|]. split; [by rewrite app_nil_r|]. split; [intros x Hx; inversion Hx|]. split; [|done].
    intros q _. symmetry. clear. induction (children (heap s) q) as [|y l IH]; [done|]. rewrite filter_cons_True; [by f_equal|apply not_elem_of_nil].
  - destruct (J1 x ltac:(left)) as (Hx & Hw & Hrm). destruct Hx as [ox Hox].
    assert (U : forall y, y ∈ children (heap s) p -> uuid_of (heap s) y <> o_uuid ox).
    { intros y Hy Eu. rewrite map_app in J2. apply NoDup_app in J2 as (_ & J2 & _). apply (J2 (uuid_of (heap s) y)); [by apply elem_of_list_fmap_1|].
      cbn. rewrite Eu. unfold uuid_of at 1. rewrite Hox. left. }
    destruct (q_C08 s p x op ox R Hp Hox) as (s1 & E1 & P1 & C1 & D1 & L1 & F1); try done.
    { intros ->. apply Hw. by left. }
    { intros A. apply Hw. by right. }
    { intros K. rewrite K in Hk. done. }
    assert (R1 : reach s1).
    { pose proof (reach_step s (OAdd p x) R) as RS. cbn in RS. rewrite E1 in RS. apply RS. split; [by exists op|]. split; [by exists ox|].
      split; [intros A; apply Hw; by right|done]. }
    destruct (fixed_ready _ _ p op F1 Hp) as (op1 & Hp1 & K1 & Rd1 & _).
    assert (Hnx : x ∉ xs).
    { intros Hin. rewrite map_app in J2. apply NoDup_app in J2 as (_ & _ & J2). cbn in J2. apply NoDup_cons in J2 as [J2 _]. apply J2. by apply elem_of_list_fmap_1. }
    assert (J' : can_join (heap s1) p xs).
    { split.
      - intros y Hy. destruct (J1 y ltac:(by right)) as (Hy1 & Hy2 & Hy3). assert (y <> x) by (intros ->; done). split; [by eapply fixed_exists|]. split.
        + intros [->|A]; [apply Hy2; by left|]. apply Hy2. right. eapply ancestor_back; [exact L1|done|exact A].
        + intros q Hq. rewrite L1 in Hq by done. rewrite (fixed_kind _ _ _ F1). by apply Hy3.
      - rewrite C1, <- app_assoc. cbn [app]. erewrite map_ext; [exact J2|]. intros y. by apply fixed_uuid. }
    destruct (IH s1 op1 R1 Hp1 ltac:(by rewrite K1) ltac:(by rewrite Rd1) J') as (s2 & E2 & R2 & C2 & P2 & D2 & L2 & F2). exists s2.
    cbn [one_by_one]. rewrite E1. split; [done|]. split; [done|]. split; [by rewrite C2, C1, <- app_assoc|]. split; [|split; [|split]].
    + intros y Hy. destruct (decide (y ∈ xs)); [by apply P2|]. apply elem_of_cons in Hy as [->|Hy]; [|done]. by rewrite L2.
    + intros q Hq. rewrite D2, D1 by done. rewrite list_filter_filter. apply list_filter_iff. intros y. rewrite not_elem_of_cons. naive_solver.
    + intros l Hl. apply not_elem_of_cons in Hl as [H1 H2]. by rewrite L2, L1.
    + by eapply fixed_trans.
Qed.
(** An element that is refused: those before it have been added, it and those behind it have not. *)
Lemma one_by_one_app p xs ys s : one_by_one p (xs ++ ys) s = match one_by_one p xs s with (Ok _, s') => one_by_one p ys s' | r => r end.
Proof.
  revert s. induction xs as [|x xs IH]; intros s; [by destruct (one_by_one p ys s)|]. cbn [one_by_one app]. destruct (add_element p x s) as [[u|e] s1]; [apply IH|done].
Qed.
Lemma q_C80_refused s p op xs x ys : reach s -> heap s !! p = Some op -> is_conceptual (o_kind op) = true -> o_ready op = true -> can_join (heap s) p xs ->
  exists_in (heap s) x -> x <> p -> uuid_of (heap s) x ∈ map (uuid_of (heap s)) (children (heap s) p ++ xs) ->
  exists s', add_elements_awaited p xs s = (Ok tt, s') /\ add_elements_awaited p (xs ++ x :: ys) s = (Exn ErrorDuplicateElement, s').
Proof.
  intros R Hp Hk Hr J [ox Hox] Hxp Hu. destruct (q_C80_all s p op xs R Hp Hk Hr J) as (s1 & E1 & R1 & C1 & _ & _ & _ & F1). exists s1. split; [done|].
  rewrite q_C80_awaited in *. rewrite one_by_one_app, E1. cbn [one_by_one].
  apply elem_of_list_fmap in Hu as (y & Eu & Hy).
  destruct (fixed_ready _ _ x ox F1 Hox) as (ox1 & Hox1 & _ & _ & Eu1).
  destruct (fixed_ready _ _ p op F1 Hp) as (op1 & Hp1 & _).
  pose proof (reach_wf s1 R1) as W1. rewrite <- C1 in Hy. unfold children in Hy. rewrite Hp1 in Hy. apply elem_of_list_fmap in Hy as ([u y'] & E & Hin). cbn in E. subst y'.
  destruct (wf_sub _ W1 p op1 u y Hp1 Hin) as (oy & Hoy & Euy & _).
  rewrite (q_C07_dup s1 p x op1 ox1 y Hp1 Hox1 Hxp); [done|].
  replace (o_uuid ox1) with u; [done|]. pose proof (fixed_uuid _ _ x F1) as G1. pose proof (fixed_uuid _ _ y F1) as G2.
  unfold uuid_of at 1 in G1. unfold uuid_of at 1 in G2. rewrite Hox1 in G1. rewrite Hoy in G2. cbn in G1, G2. rewrite <- Euy, G1, Eu. exact G2.
Qed.
(** With other tasks running: all invariants hold at any time. *)
Lemma q_C80_interleaved p t s t' s' : reach s -> interleaved p t s t' s' -> reach s' /\ history MAny s s'.
Proof.
  intros R H. assert (G : history MAny s s').
  { clear R. induction H as [t s|t s s1 t' s' Hh _ IH|t s t1 s1 t' s' Ha Hr _ IH]; [constructor| |].
    - clear -Hh IH. induction IH as [|s2 o H2 IH2 A O]; [done|]. by constructor.
    - assert (G : history MAny s s1).
      { destruct t as [[|x xs]| |e]; cbn in Hr; try (injection Hr as <- <-; constructor).
        assert (Es : s1 = snd (exec (OAdd p x) s)). { cbn. destruct (add_element p x s) as [[u|e] s2]; by injection Hr as <- <-. }
        rewrite Es. constructor; [constructor| |done]. by eapply Ha. }
      clear -G IH. induction IH as [|s2 o H2 IH2 A O]; [done|]. by constructor. }
  split; [|done]. by eapply history_reach.
Qed.

(** ** remove_elements *)
Lemma gen_of_remove p nm u v s s' op : heap s !! p = Some op -> o_kind op <> KEdge -> o_kind op <> KRel ->
  remove_all p nm (Some u) s = (Ok [v], s') -> exists g, gen_next (GNew p nm (Some u)) s = (Ok (Some v, g), s').
Proof.
  intros Hp K1 K2. unfold remove_all, bind at 1. destruct (gen_next (GNew p nm (Some u)) s) as [[[w g]|e1] s1] eqn:E; [|done].
  assert (Hg : g = GEnd).
  { unfold gen_next, bind at 1, deref in E. rewrite Hp in E. 
    assert (Eb : base_next (GNew p nm (Some u)) s = (Ok (w, g), s1)) by (destruct (o_kind op); done).
    cbn [base_next] in Eb. destruct (decide (nm = "")).
    - unfold bind in Eb. destruct (remove_uuid p None u s) as [[a|e2] s2]; [|done]. unfold ret in Eb. by injection Eb as _ <- _.
    - unfold bind in Eb. destruct (remove_uuid p (Some nm) u s) as [[a|e2] s2]; [|done]. unfold ret in Eb. by injection Eb as _ <- _. }
  subst g. cbn. destruct w as [w|]; [|done]. cbn. intros [= -> ->]. by eexists.
Qed.

(** [args] names the elements [cs] by uuid, with or without their names. *)
Lemma q_C80_remove s p op cs args : reach s -> heap s !! p = Some op -> o_kind op <> KEdge -> o_kind op <> KRel ->
  NoDup cs -> (forall c, c ∈ cs -> c ∈ children (heap s) p) -> cs <> [] ->
  Forall2 (fun c a => snd a = Some (uuid_of (heap s) c) /\ (fst a = "" \/ fst a = name_of (heap s) c)) cs args ->
  exists s', remove_elements_awaited p args s = (Exn RuntimeError, s') /\ remove_elements_run p args s = (Ok tt, s') /\ reach s' /\
    children (heap s') p = filter (fun c => c ∉ cs) (children (heap s) p) /\
    (forall c, c ∈ cs -> parent_of (heap s') c = None) /\
    (forall q, q <> p -> children (heap s') q = children (heap s) q) /\
    (forall l, l ∉ cs -> parent_of (heap s') l = parent_of (heap s) l) /\
    same_fixed (heap s) (heap s').
Proof.
  intros R Hp K1 K2 Hnd Hin Hne HF.
  assert (G : exists s', remove_round p args s = (map RmYielded cs, s') /\ reach s' /\
    children (heap s') p = filter (fun c => c ∉ cs) (children (heap s) p) /\
    (forall c, c ∈ cs -> parent_of (heap s') c = None) /\
    (forall q, q <> p -> children (heap s') q = children (heap s) q) /\
    (forall l, l ∉ cs -> parent_of (heap s') l = parent_of (heap s) l) /\
    same_fixed (heap s) (heap s')).
  { clear Hne. revert s op args R Hp K1 K2 Hin HF. induction cs as [|c cs IH]; intros s op args R Hp K1 K2 Hin HF.
    - inversion HF; subst. exists s. split; [done|]. split; [done|]. split; [|split; [intros c Hc; inversion Hc|done]].
      symmetry. clear. induction (children (heap s) p) as [|y l IH]; [done|]. rewrite filter_cons_True; [by f_equal|apply not_elem_of_nil].
    - inversion HF as [|? [nm u] ? args' [Ha1 Ha2] HF' E1 E2]; subst. cbn in Ha1, Ha2. subst u. apply NoDup_cons in Hnd as [Hnc Hnd].
      pose proof (reach_wf s R) as W. pose proof (Hin c ltac:(left)) as Hc.
      assert (Hal : allowed (heap s) (ORemove p nm (Some (uuid_of (heap s) c)))).
      { split; [by exists op|]. unfold kind_of. rewrite Hp. cbn. split; [congruence|]. split; [congruence|]. intros u' Hnm [= <-] x Hx Hu.
        rewrite (uuid_unique _ _ _ _ W Hx Hc Hu). destruct Ha2; congruence. }
      assert (Em : filter (matches (heap s) nm (Some (uuid_of (heap s) c))) (children (heap s) p) = [c]).
      { assert (M : forall x, x ∈ filter (matches (heap s) nm (Some (uuid_of (heap s) c))) (children (heap s) p) <-> x = c).
        { intros x. rewrite elem_of_list_filter. split.
          - intros [[_ Hu] Hx]. by apply (uuid_unique _ p _ _ W).
          - intros ->. split; [|done]. split; [|done]. destruct Ha2 as [?|?]; [by left|by right]. }
        pose proof (NoDup_filter (matches (heap s) nm (Some (uuid_of (heap s) c))) _ (wf0_children_nd _ W p)) as N.
        destruct (filter (matches (heap s) nm (Some (uuid_of (heap s) c))) (children (heap s) p)) as [|a [|b l]].
        - pose proof (proj2 (M c) eq_refl) as H. inversion H.
        - f_equal. apply M. left.
        - apply NoDup_cons in N as [N _]. destruct N. rewrite (proj1 (M a)) by left. rewrite (proj1 (M b)) by (right; left). left. }
      destruct (q_C09 s p nm (Some (uuid_of (heap s) c)) [c] R Hal) as (s1 & E1 & P1 & C1 & D1 & L1 & F1); [by rewrite Em|done|by intros [_ ?]|].
      destruct (gen_of_remove _ _ _ _ _ _ _ Hp K1 K2 E1) as [g Eg].
      assert (R1 : reach s1).
      { eapply (reach_void s (remove_all p nm (Some (uuid_of (heap s) c))) (ORemove p nm (Some (uuid_of (heap s) c)))); [done|done|done|exact E1]. }
      destruct (fixed_ready _ _ p op F1 Hp) as (op1 & Hp1 & Kp & _ & _).
      destruct (IH Hnd s1 op1 args' R1 Hp1) as (s2 & E2 & R2 & C2 & P2 & D2 & L2 & F2); [congruence|congruence| | |].
      + intros x Hx. rewrite C1. apply elem_of_list_filter. split; [|apply Hin; by right]. intros H. apply elem_of_list_singleton in H as ->. done.
      + eapply Forall2_impl; [exact HF'|]. intros x a [H1 H2]. cbn. rewrite (fixed_uuid _ _ _ F1). split; [done|]. destruct H2 as [?|H2]; [by left|right].
        rewrite H2. pose proof (f_equal (fmap o_name) (F1 x)) as Fx. unfold name_of. destruct (heap s !! x), (heap s1 !! x); try done. cbn in Fx. injection Fx as Fx. cbn. by rewrite Fx.
      + exists s2. cbn [remove_round]. rewrite Eg, E2. split; [done|]. split; [done|]. split; [|split; [|split; [|split]]].
        * rewrite C2, C1, list_filter_filter. apply list_filter_iff. intros y. rewrite not_elem_of_cons. rewrite not_elem_of_cons. pose proof (not_elem_of_nil y). naive_solver.
        * intros x Hx. destruct (decide (x ∈ cs)); [by apply P2|]. apply elem_of_cons in Hx as [->|Hx]; [|done]. rewrite L2 by done. apply P1. left.
        * intros q Hq. by rewrite D2, D1.
        * intros l Hl. apply not_elem_of_cons in Hl as [H1 H2]. rewrite L2 by done. apply L1. by apply not_elem_of_cons; split; [|apply not_elem_of_nil].
        * by eapply fixed_trans. }
  destruct G as (s' & E & G). exists s'. unfold remove_elements_awaited, remove_elements_run. rewrite E. cbn. split; [|split; [done|exact G]]. f_equal.
  unfold gathered. assert (Eo : omap raised (map RmYielded cs) = []) by (clear; induction cs; done). rewrite Eo. by destruct cs.
Qed.
(** By name: only the first of them is removed. *)
Lemma q_C80_remove_name s p op n : reach s -> heap s !! p = Some op -> is_conceptual (o_kind op) = true -> o_kind op <> KEdge -> n <> "" ->
  forall c ms, filter (fun c => name_of (heap s) c = n) (children (heap s) p) = c :: ms ->
  exists s', remove_elements_awaited p [(n, None)] s = (Exn RuntimeError, s') /\ remove_elements_run p [(n, None)] s = (Ok tt, s') /\
    children (heap s') p = filter (fun x => x <> c) (children (heap s) p) /\ parent_of (heap s') c = None /\
    (forall x, x ∈ ms -> x ∈ children (heap s') p /\ parent_of (heap s') x = Some p) /\
    (has_char slash n = false -> get_element_by_id_name p n s' = (Ok [], s')).
Proof.
  intros R Hp Hk K1 Hn c ms Em. assert (K2 : o_kind op <> KRel) by (intros K; by rewrite K in Hk).
  destruct (q_C12 s p op n 1 R Hp K1 K2 Hn) as (s' & E & C1 & P1 & M1 & L1); [by rewrite Em|done|]. exists s'.
  rewrite Em in E, C1, P1, M1. cbn [take drop] in E, C1, P1, M1.
  assert (Eg : exists g, gen_next (GNew p n None) s = (Ok (Some c, g), s')).
  { cbn [gen_take] in E. unfold bind in E. destruct (gen_next (GNew p n None) s) as [[[w g]|e] s1]; [|done]. cbn in E. destruct w as [w|]; [|done].
    exists g. unfold ret in E. cbn in E. injection E as -> ->. done. }
  destruct Eg as [g Eg]. unfold remove_elements_awaited, remove_elements_run. cbn [remove_round]. rewrite Eg. cbn.
  split; [done|]. split; [done|]. split; [|split; [apply P1; left|split; [exact M1|by apply L1]]].
  rewrite C1. apply list_filter_iff. intros y. rewrite elem_of_list_singleton. done.
Qed.
(** Nothing is raised only if nothing was removed. *)
Lemma q_C80_ok_nothing p args s s' : remove_elements_awaited p args s = (Ok tt, s') ->
  forall r, r ∈ fst (remove_round p args s) -> r = RmNothing.
Proof.
  unfold remove_elements_awaited. destruct (remove_round p args s) as [rs s1]. cbn. intros [= E _] r Hr. unfold gathered in E.
  destruct (omap raised rs) as [|e l] eqn:Eo; [|done]. destruct (existsb yielded rs) eqn:Ey; [done|]. destruct r as [|v|e]; [done| |].
  - assert (existsb yielded rs = true); [|congruence]. apply existsb_exists. exists (RmYielded v). split; [by apply elem_of_list_In|done].
  - assert (e ∈ omap raised rs); [|rewrite Eo in *; by inversion H]. apply elem_of_list_omap. by exists (RmRaised e).
Qed.
