(** * Traversals: C26 - C29 *)
From Verif Require Import Spec Hierarchy Elements Factory History PPath PExec PBfs PWF PReach Traverse SpecTrav.

(** ** Queues *)
Section run.
  Context {A : Type} (ik : A -> list A).
  Definition push (lifo : bool) (rest new : list A) : list A := if lifo then rev new ++ rest else rest ++ new.
  (** The queue after [k] steps and the items served so far. *)
  Fixpoint qrest (lifo : bool) (k : nat) (q : list A) : list A :=
    match k, q with
    | 0, _ => q
    | _, [] => []
    | S k', i :: r => qrest lifo k' (push lifo r (ik i))
    end.
  Fixpoint qvis (lifo : bool) (k : nat) (q : list A) : list A :=
    match k, q with
    | 0, _ => []
    | _, [] => []
    | S k', i :: r => i :: qvis lifo k' (push lifo r (ik i))
    end.
  Lemma qrest_nil b k : qrest b k [] = [].
  Proof. by destruct k. Qed.
  Lemma qvis_nil b k : qvis b k [] = [].
  Proof. by destruct k. Qed.
  Lemma qrest_add b j k q : qrest b (j + k) q = qrest b k (qrest b j q).
  Proof. revert q. induction j as [|j IH]; intros [|i r]; try done; simpl; [by rewrite qrest_nil|apply IH]. Qed.
  Lemma qvis_add b j k q : qvis b (j + k) q = qvis b j q ++ qvis b k (qrest b j q).
  Proof. revert q. induction j as [|j IH]; intros [|i r]; try done; simpl; [by rewrite qvis_nil|by rewrite IH]. Qed.
  Lemma qvis_le b k q : length (qvis b k q) <= k.
  Proof. revert q. induction k as [|k IH]; intros [|i r]; simpl; try lia. specialize (IH (push b r (ik i))). lia. Qed.

  (** FIFO *)
  Lemma bfs_block xs ys : qvis false (length xs) (xs ++ ys) = xs /\ qrest false (length xs) (xs ++ ys) = ys ++ flat_map ik xs.
  Proof.
    revert ys. induction xs as [|x xs IH]; intros ys; simpl; [by rewrite app_nil_r|].
    unfold push. rewrite <- app_assoc. destruct (IH (ys ++ ik x)) as [-> ->]. by rewrite <- app_assoc.
  Qed.
  Lemma bfs_levels n q : level ik n q = [] ->
    qvis false (length (level_order ik n q)) q = level_order ik n q /\ qrest false (length (level_order ik n q)) q = [].
  Proof.
    revert q. induction n as [|n IH]; intros q H; [simpl in H; by subst q|].
    rewrite level_S_in in H. rewrite level_order_S_in, app_length, qvis_add, qrest_add.
    destruct (bfs_block q []) as [E1 E2]. rewrite app_nil_r in E1, E2. rewrite E1, E2. cbn [app].
    destruct (IH _ H) as [-> ->]. done.
  Qed.
  Lemma qrest_fifo k q : length (qvis false k q) = k -> qrest false k q = drop k (q ++ flat_map ik (qvis false k q)).
  Proof.
    induction k as [|k IH]; intros H; [simpl; by rewrite app_nil_r|].
    replace (S k) with (k + 1) in * by lia. rewrite qvis_add, app_length in H.
    assert (H1 : length (qvis false k q) = k /\ length (qvis false 1 (qrest false k q)) = 1).
    { pose proof (qvis_le false k q). pose proof (qvis_le false 1 (qrest false k q)). lia. }
    destruct H1 as [H1 H2]. rewrite qrest_add, qvis_add, flat_map_app'. specialize (IH H1).
    destruct (qrest false k q) as [|i r] eqn:E; [done|]. cbn [qrest qvis push]. cbn [flat_map]. rewrite app_nil_r, app_assoc.
    rewrite <- drop_drop. rewrite drop_app_le.
    2: { assert (length (drop k (q ++ flat_map ik (qvis false k q))) = S (length r)) by (by rewrite <- IH). rewrite drop_length in *. lia. }
    rewrite <- IH. done.
  Qed.
  Lemma qvis_prefix b k n q : k <= n -> qvis b k q = take k (qvis b n q).
  Proof.
    revert n q. induction k as [|k IH]; intros n q H; [done|]. destruct n as [|n]; [lia|]. destruct q as [|i r]; [done|].
    simpl. f_equal. apply IH. lia.
  Qed.

  (** LIFO *)
  Lemma level_each n xs : level ik n xs = flat_map (fun x => level ik n [x]) xs.
  Proof.
    induction n as [|n IH]; simpl.
    - induction xs as [|x xs IHx]; [done|]. simpl. by rewrite <- IHx.
    - rewrite IH. clear IH. induction xs as [|x xs IHx]; [done|]. simpl. by rewrite flat_map_app', IHx.
  Qed.
  Lemma dfs_block n xs rest : (forall x, x ∈ xs -> level ik (S n) [x] = []) ->
    qvis true (length (flat_map (pre ik n) xs)) (xs ++ rest) = flat_map (pre ik n) xs /\
    qrest true (length (flat_map (pre ik n) xs)) (xs ++ rest) = rest.
  Proof.
    revert xs rest. induction n as [|n IH]; intros xs; induction xs as [|x xs IHx]; intros rest H; try done.
    - assert (Hx : ik x = []).
      { specialize (H x ltac:(left)). simpl in H. by rewrite app_nil_r in H. }
      cbn [flat_map]. change (pre ik 0 x) with [x]. cbn [app length qvis qrest]. unfold push. rewrite Hx. cbn [rev app]. destruct (IHx rest ltac:(intros; apply H; by right)) as [E1 E2]. by rewrite E1, E2.
    - cbn [flat_map]. change (pre ik (S n) x) with (x :: flat_map (pre ik n) (rev (ik x))). cbn [app length qvis qrest]. unfold push.
      rewrite app_length, qvis_add, qrest_add.
      destruct (IH (rev (ik x)) (xs ++ rest)) as [E1 E2].
      { intros y Hy. apply elem_of_list_In, in_rev, elem_of_list_In in Hy.
        specialize (H x ltac:(left)). rewrite level_S_in in H. cbn [flat_map] in H. rewrite app_nil_r in H.
        rewrite level_each in H. clear -H Hy. induction (ik x) as [|z zs IHz]; [inversion Hy|]. cbn [flat_map] in H.
        apply app_eq_nil in H as [H1 H2]. apply elem_of_cons in Hy as [->|Hy]; [done|by apply IHz]. }
      rewrite E1, E2. destruct (IHx rest ltac:(intros; apply H; by right)) as [-> ->]. done.
  Qed.
  Lemma level_order_each n xs : level_order ik n xs ≡ₚ flat_map (fun x => level_order ik n [x]) xs.
  Proof.
    induction n as [|n IH].
    - unfold level_order. simpl. by induction xs as [|x xs IHx]; [|simpl].
    - rewrite level_order_S. rewrite IH, level_each. clear IH.
      induction xs as [|x xs IHx]; [done|]. cbn [flat_map]. rewrite level_order_S, <- IHx. solve_Permutation.
  Qed.
  Lemma pre_perm n l : pre ik n l ≡ₚ level_order ik (S n) [l].
  Proof.
    revert l. induction n as [|n IH]; intros l; [done|]. rewrite level_order_S_in. cbn [pre flat_map app]. rewrite app_nil_r.
    apply perm_skip. rewrite (level_order_each (S n)). rewrite <- Permutation_rev.
    induction (ik l) as [|x xs IHx]; [done|]. cbn [flat_map]. by rewrite IHx, IH.
  Qed.
  Lemma pre_below_perm n l : pre_below ik n l ≡ₚ level_order ik n (ik l).
  Proof.
    apply (Permutation_cons_inv (a := l)).
    assert (E : l :: pre_below ik n l = pre ik n l) by (by destruct n). rewrite E, pre_perm, level_order_S_in. cbn [flat_map app].
    by rewrite app_nil_r.
  Qed.
  Lemma level_zero_mono n j xs : level ik n xs = [] -> level ik (n + j) xs = [].
  Proof. intros H. induction j as [|j IH]; [by rewrite Nat.add_0_r|]. rewrite Nat.add_succ_r. simpl. by rewrite IH. Qed.
  Lemma level_order_stable n j xs : level ik n xs = [] -> level_order ik (n + j) xs = level_order ik n xs.
  Proof.
    intros H. induction j as [|j IH]; [by rewrite Nat.add_0_r|]. rewrite Nat.add_succ_r, level_order_S, IH, level_zero_mono by done.
    apply app_nil_r.
  Qed.
  Lemma pre_stable n j l : level ik (S n) [l] = [] -> pre ik (n + j) l = pre ik n l.
  Proof.
    revert l. induction n as [|n IH]; intros l H.
    - simpl in H. rewrite app_nil_r in H. destruct j; [done|]. cbn [Nat.add pre]. by rewrite H.
    - cbn [Nat.add pre]. f_equal. rewrite level_S_in in H. cbn [flat_map] in H. rewrite app_nil_r, level_each in H.
      assert (Hk : forall c, c ∈ rev (ik l) -> pre ik (n + j) c = pre ik n c).
      { intros c Hc. apply IH. apply elem_of_list_In, in_rev, elem_of_list_In in Hc. clear -H Hc.
        induction (ik l) as [|z zs IHz]; [inversion Hc|]. cbn [flat_map] in H. apply app_eq_nil in H as [H1 H2].
        apply elem_of_cons in Hc as [->|Hc]; [done|by apply IHz]. }
      clear -Hk. induction (rev (ik l)) as [|z zs IHz]; [done|]. cbn [flat_map]. rewrite Hk by left. rewrite IHz; [done|]. intros c Hc. apply Hk. by right.
  Qed.
End run.

(** ** The loop *)
Definition ik (t : trav) (h : list obj) (i : loc * nat) : list (loc * nat) :=
  if below_max t i.2 then map (fun c => (c, S i.2)) (fkids (t_filter t) h i.1) else [].

Lemma filter_bool {A} (f : A -> bool) l : List.filter f l = filter (fun x => f x = true) l.
Proof. induction l as [|x l IH]; [done|]. simpl. rewrite filter_cons, IH. destruct (f x); [by rewrite decide_True|by rewrite decide_False]. Qed.

Lemma fill_eq t s l d : exists_in (heap s) l -> fill_fringe t s l d = Ok (ik t (heap s) (l, d)).
Proof.
  intros [o Ho]. unfold fill_fringe, ik. cbn [fst snd]. destruct (below_max t d); [|done].
  unfold get_subelements. rewrite Ho. cbn [fst]. f_equal. f_equal. unfold fkids, children. rewrite Ho. by rewrite filter_bool.
Qed.
Lemma ik_exists t h i j : j ∈ ik t h i -> exists_in h j.1.
Proof.
  unfold ik. destruct (below_max t i.2); [|inversion 1]. intros H. apply elem_of_list_fmap in H as (c & -> & H).
  unfold fkids in H. apply elem_of_list_filter in H as [H _]. unfold accepts in H. cbn [fst]. destruct (h !! c) eqn:E; [by eexists|done].
Qed.

Section loop.
  Context {X B : Type} (t : trav) (v : visitor X B) (s : st).
  Let K := ik t (heap s).
  Definition all_exist (q : list (loc * nat)) : Prop := forall i, i ∈ q -> exists_in (heap s) i.1.
  Lemma all_exist_push b r i : all_exist (i :: r) -> all_exist (push b r (K i)).
  Proof.
    intros H j Hj. unfold push in Hj. destruct b; apply elem_of_app in Hj as [Hj|Hj].
    - apply elem_of_list_In, in_rev, elem_of_list_In in Hj. by eapply ik_exists. - apply H. by right.
    - apply H. by right. - by eapply ik_exists.
  Qed.
  Lemma all_exist_rest b k q : all_exist q -> all_exist (qrest K b k q).
  Proof. revert q. induction k as [|k IH]; intros [|i r] H; try done. simpl. by apply IH, all_exist_push. Qed.

  Lemma visit_all_app xs ys x : visit_all v s (xs ++ ys) x =
    match visit_all v s xs x with
    | (Exn e, x') => (Exn e, x')
    | (Ok bs, x') => match visit_all v s ys x' with (Ok bs', x'') => (Ok (bs ++ bs'), x'') | (Exn e, x'') => (Exn e, x'') end
    end.
  Proof.
    revert x. induction xs as [|a xs IH]; intros x; simpl.
    - by destruct (visit_all v s ys x) as [[?|?] ?].
    - destruct (v s a x) as [[b|e] x1]; [|done]. rewrite IH. destruct (visit_all v s xs x1) as [[?|?] ?]; [|done].
      by destruct (visit_all v s ys x0) as [[?|?] ?].
  Qed.

  Lemma traverse_steps b k lim q tasks x bs x' : all_exist q -> length (qvis K b k q) = k ->
    visit_all v s (map fst (qvis K b k q)) x = (Ok bs, x') ->
    traverse b (k + lim) t v s q tasks x = traverse b lim t v s (qrest K b k q) (tasks ++ bs) x'.
  Proof.
    revert q tasks x bs. induction k as [|k IH]; intros q tasks x bs Hq Hl Hv.
    - simpl in *. injection Hv as <- <-. by rewrite app_nil_r.
    - destruct q as [|[l d] r]; [done|]. cbn [Nat.add traverse qvis qrest map fst visit_all] in *.
      rewrite fill_eq by (apply (Hq (l, d)); left). fold K. change (if b then rev (K (l, d)) ++ r else r ++ K (l, d)) with (push b r (K (l, d))).
      destruct (v s l x) as [[c|e] x1]; [|done]. destruct (visit_all v s _ x1) as [[bs1|e] x2] eqn:E; [|done].
      injection Hv as <- <-. rewrite (IH _ (tasks ++ [c]) x1 bs1); [by rewrite <- app_assoc|by apply all_exist_push| |done].
      simpl in Hl. lia.
  Qed.
  Lemma traverse_fail b k lim q tasks x bs x1 i r e x2 : all_exist q -> length (qvis K b k q) = k ->
    visit_all v s (map fst (qvis K b k q)) x = (Ok bs, x1) -> qrest K b k q = i :: r -> v s i.1 x1 = (Exn e, x2) -> k < lim ->
    traverse b lim t v s q tasks x = (Exn e, qrest K b (S k) q, x2).
  Proof.
    intros Hq Hl Hv Hr He Hlim. replace lim with (k + S (lim - S k)) by lia. rewrite (traverse_steps b k _ q tasks x bs x1 Hq Hl Hv), Hr.
    destruct i as [l d]. cbn [traverse]. pose proof (all_exist_rest b k q Hq) as Hq'. rewrite Hr in Hq'.
    rewrite fill_eq by (apply (Hq' (l, d)); left). cbn [fst] in He. rewrite He. fold K. f_equal. f_equal.
    replace (S k) with (k + 1) by lia. rewrite qrest_add, Hr. done.
  Qed.
  Lemma traverse_limit b lim q tasks x bs x' : all_exist q -> length (qvis K b lim q) = lim ->
    visit_all v s (map fst (qvis K b lim q)) x = (Ok bs, x') ->
    traverse b lim t v s q tasks x = (Exn RecursionError, qrest K b lim q, x').
  Proof. intros Hq Hl Hv. pose proof (traverse_steps b lim 0 q tasks x bs x' Hq Hl Hv) as H. rewrite Nat.add_0_r in H. by rewrite H. Qed.
  Lemma traverse_done b lim L q tasks x bs x' : all_exist q -> qvis K b (length L) q = L -> qrest K b (length L) q = [] -> length L < lim ->
    visit_all v s (map fst L) x = (Ok bs, x') ->
    traverse b lim t v s q tasks x = (Ok (tasks ++ bs), [], x').
  Proof.
    intros Hq Hv Hr Hl Ho. replace lim with (length L + S (lim - S (length L))) by lia.
    rewrite (traverse_steps b (length L) _ q tasks x bs x'); [by rewrite Hr|done|by rewrite Hv|by rewrite Hv].
  Qed.
  Lemma visit_root_eq start x : exists_in (heap s) start -> visit_root t v s start x = visit_all v s (root_part t (heap s) start) x.
  Proof.
    intros [o Ho]. unfold visit_root, root_part, accepts. rewrite Ho. destruct (t_filter t start o && negb (t_ignore t)); [|done].
    simpl. by destruct (v s start x) as [[?|?] ?].
  Qed.
End loop.

(** ** Tags *)
Lemma level_tags t h d k xs : (forall j, j < k -> below_max t (d + j) = true) ->
  level (ik t h) k (map (fun c => (c, d)) xs) = map (fun c => (c, d + k)) (level (fkids (t_filter t) h) k xs).
Proof.
  induction k as [|k IH]; intros H; simpl; [by rewrite Nat.add_0_r|]. rewrite IH by (intros; apply H; lia).
  clear IH. induction (level (fkids (t_filter t) h) k xs) as [|y ys IHy]; [done|]. cbn [map flat_map]. rewrite IHy, map_app. f_equal.
  unfold ik. cbn [fst snd]. rewrite H by lia. by rewrite Nat.add_succ_r.
Qed.
Lemma ik_locs t h l d : below_max t d = true -> map fst (ik t h (l, d)) = fkids (t_filter t) h l.
Proof. intros H. unfold ik. cbn [fst snd]. rewrite H, map_map. cbn. apply map_id. Qed.
Lemma flat_map_ext_in {A B} (f g : A -> list B) l : (forall x, x ∈ l -> f x = g x) -> flat_map f l = flat_map g l.
Proof. induction l as [|x l IH]; intros H; [done|]. simpl. rewrite (H x) by left. rewrite IH; [done|]. intros. apply H. by right. Qed.
Lemma map_flat_map {A B C} (f : B -> C) (g : A -> list B) l : map f (flat_map g l) = flat_map (fun x => map f (g x)) l.
Proof. induction l as [|x l IH]; [done|]. simpl. by rewrite map_app, IH. Qed.
Lemma level_order_tags t h d n xs : (forall j, S j < n -> below_max t (d + j) = true) ->
  map fst (level_order (ik t h) n (map (fun c => (c, d)) xs)) = level_order (fkids (t_filter t) h) n xs.
Proof.
  intros H. unfold level_order. rewrite map_flat_map. apply flat_map_ext_in. intros k Hk. apply elem_of_seq in Hk.
  rewrite level_tags by (intros; apply H; lia). rewrite map_map. cbn. apply map_id.
Qed.
Lemma pre_tags t h d n l : (forall j, j < n -> below_max t (d + j) = true) ->
  map fst (pre (ik t h) n (l, d)) = pre (fkids (t_filter t) h) n l.
Proof.
  revert d l. induction n as [|n IH]; intros d l H; [done|]. cbn [pre map fst]. f_equal. unfold ik at 2. cbn [fst snd].
  rewrite <- (Nat.add_0_r d) at 1. rewrite H by lia. rewrite <- map_rev, map_flat_map.
  induction (rev (fkids (t_filter t) h l)) as [|y ys IHy]; [done|]. cbn [map flat_map]. rewrite IHy. f_equal. apply IH.
  intros j Hj. rewrite Nat.add_succ_comm. apply H. lia.
Qed.

(** The items a traversal serves, for every limit. *)
Lemma bfs_items t h start n :
  (match t_max t with None => level (fkids (t_filter t) h) n (fkids (t_filter t) h start) = [] | Some m => n = m end) ->
  level (ik t h) n (ik t h (start, 0)) = [] /\
  map fst (level_order (ik t h) n (ik t h (start, 0))) = level_order (fkids (t_filter t) h) n (fkids (t_filter t) h start).
Proof.
  intros H. destruct (t_max t) as [m|] eqn:E.
  - subst n. destruct m as [|m].
    + unfold ik at 2 4, below_max. rewrite E. cbn [fst snd Nat.ltb Nat.leb]. by rewrite level_nil.
    + assert (E1 : ik t h (start, 0) = map (fun c => (c, 1)) (fkids (t_filter t) h start)) by (unfold ik, below_max; by rewrite E).
      rewrite E1. split.
      * cbn [level]. rewrite level_tags by (intros j Hj; unfold below_max; rewrite E; apply Nat.ltb_lt; lia).
        induction (level (fkids (t_filter t) h) m (fkids (t_filter t) h start)) as [|y ys IHy]; [done|]. cbn [map flat_map]. rewrite IHy.
        unfold ik, below_max. rewrite E. cbn [fst snd]. by replace (1 + m <? S m) with false by (symmetry; apply Nat.ltb_ge; lia).
      * apply level_order_tags. intros j Hj. unfold below_max. rewrite E. apply Nat.ltb_lt. lia.
  - assert (Hb : forall d, below_max t d = true) by (intros; unfold below_max; by rewrite E).
    assert (E1 : ik t h (start, 0) = map (fun c => (c, 1)) (fkids (t_filter t) h start)) by (unfold ik; by rewrite Hb).
    rewrite E1. split; [|by apply level_order_tags]. rewrite level_tags by done. by rewrite H.
Qed.
Lemma dfs_items t h start n :
  (match t_max t with None => level (fkids (t_filter t) h) n (fkids (t_filter t) h start) = [] | Some m => n = m end) ->
  level (ik t h) (S n) [(start, 0)] = [] /\
  map fst (pre_below (ik t h) n (start, 0)) = pre_below (fkids (t_filter t) h) n start.
Proof.
  intros H. destruct (bfs_items t h start n H) as [H1 _]. split.
  - rewrite level_S_in. cbn [flat_map]. by rewrite app_nil_r.
  - unfold pre_below. assert (G : forall {C D} (f : C -> D) l, map f (tail l) = tail (map f l)) by (by intros ???[]). rewrite G.
    rewrite pre_tags; [done|]. intros j Hj. unfold below_max. destruct (t_max t) as [m|]; [|done]. subst. apply Nat.ltb_lt. lia.
Qed.
