(** * C79: proofs *)
From Verif Require Import Spec Hierarchy Elements Factory History PDict PPath PExec PBfs PWF PMono PReach PHist QHier5 Traverse SpecTrav QTrav QTrav2 QTrav3 Print SpecPrint.

Lemma level_ext {A} (f g : A -> list A) n xs : (forall x, f x = g x) -> level f n xs = level g n xs.
Proof. intros E. induction n as [|n IH]; [done|]. cbn [level]. rewrite IH. apply flat_map_ext_in. intros x _. apply E. Qed.
Lemma level_order_ext {A} (f g : A -> list A) n xs : (forall x, f x = g x) -> level_order f n xs = level_order g n xs.
Proof. intros E. unfold level_order. apply flat_map_ext_in. intros k _. by apply level_ext. Qed.

Section print.
  Context (s : st) (R : reach s).
  Notation h := (heap s).
  Let W : WF0 h := reach_wf s R.
  Definition all_trav : trav := mkTrav (fun _ _ => true) None false.

  Lemma fkids_all x : fkids (t_filter all_trav) h x = children h x.
  Proof.
    unfold fkids. assert (G : forall l : list loc, (forall y, y ∈ l -> exists_in h y) -> filter (fun c => accepts (t_filter all_trav) h c = true) l = l).
    { induction l as [|y l IH]; intros Hl; [done|]. rewrite filter_cons_True; [|destruct (Hl y ltac:(left)) as [o Ho]; unfold accepts; by rewrite Ho].
      f_equal. apply IH. intros z Hz. apply Hl. by right. }
    apply G. intros y Hy. by eapply wf_children_exist.
  Qed.
  Lemma through_all x y : through (t_filter all_trav) h x y <-> ancestor h x y.
  Proof.
    split.
    - induction 1 as [y P A|y q T IH P A]; [by apply anc_parent|by eapply anc_up].
    - induction 1 as [a l P|a q l P A IH].
      + apply through_kid; [done|]. unfold parent_of in P. unfold accepts. destruct (h !! l); done.
      + eapply through_step; [exact IH|done|]. unfold parent_of in P. unfold accepts. destruct (h !! l); done.
  Qed.

  (** one element *)
  Lemma print_ok l out : exists_in h l -> ~ loose_edge h l -> exists ls, print_element s l out = (Ok tt, out ++ ls) /\ shows h l ls.
  Proof.
    intros [o Ho] U. unfold print_element. rewrite Ho. pose proof (parent_of_lookup _ _ _ Ho) as Ep.
    assert (En : name_of h l = o_name o) by (unfold name_of; by rewrite Ho).
    assert (Nm : forall x ox, h !! x = Some ox -> name_of h x = o_name ox) by (intros x ox Hx; unfold name_of; by rewrite Hx).
    destruct (o_kind o) eqn:K.
    all: try (exists []; rewrite app_nil_r; split; [done|]; apply (shows_nothing _ _ o); rewrite ?K; done).
    - destruct (o_parent o) as [p|] eqn:P.
      + destruct (wf_par _ W l o p Ho P) as (op & Hop & _). rewrite Hop. eexists. split; [done|]. rewrite <- En, <- (Nm _ _ Hop). by apply (shows_node _ _ o p).
      + eexists. split; [done|]. rewrite <- En. by apply (shows_root _ _ o).
    - destruct (o_parent o) as [p|] eqn:P.
      + destruct (wf_par _ W l o p Ho P) as (op & Hop & _). rewrite Hop. eexists. split; [done|]. rewrite <- En, <- (Nm _ _ Hop), (wf_cnt _ W l o Ho).
        replace (length (o_subs o)) with (length (children h l)); [by apply (shows_edge _ _ o p)|]. unfold children. by rewrite Ho, map_length.
      + destruct U. unfold loose_edge, kind_of. rewrite Ho. cbn. by rewrite K.
    - destruct (o_endpoint o) as [e|] eqn:E.
      + destruct (wf_ep _ W l o e Ho E) as [oe Hoe]. rewrite Hoe. eexists. split; [done|]. rewrite <- (Nm _ _ Hoe). by apply (shows_rel _ _ o e).
      + destruct (wf_hasep _ W l o Ho K E).
  Qed.
  Lemma print_fail l out : loose_edge h l -> print_element s l out = (Exn AttributeError, out).
  Proof.
    unfold print_element, loose_edge, kind_of. destruct (h !! l) as [o|] eqn:Ho.
    - pose proof (parent_of_lookup _ _ _ Ho) as Ep. cbn. intros [[= K] P]; rewrite K. by rewrite <- Ep, P.
    - intros [? _]; done.
  Qed.
  Lemma print_all ls out : (forall l, l ∈ ls -> exists_in h l) -> Forall (fun l => ~ loose_edge h l) ls ->
    exists xs, visit_all print_element s ls out = (Ok (map (fun _ => tt) ls), out ++ concat xs) /\ Forall2 (shows h) ls xs.
  Proof.
    revert out. induction ls as [|l ls IH]; intros out Hl Hf.
    - exists []. cbn. rewrite app_nil_r. by split.
    - apply Forall_cons in Hf as [Hu Hf]. destruct (print_ok l out (Hl l ltac:(left)) Hu) as (x & E & S1).
      destruct (IH (out ++ x) (fun y Hy => Hl y (elem_of_list_further _ _ _ Hy)) Hf) as (xs & E2 & S2). exists (x :: xs). cbn [visit_all map concat].
      rewrite E, E2, <- app_assoc. split; [done|]. by constructor.
  Qed.

  Lemma q_C79 start : exists_in h start -> exists n, level (children h) n (children h start) = [] /\
    let order := start :: level_order (children h) n (children h start) in
    NoDup order /\ (forall y, y ∈ order <-> within h start y) /\
    (forall lim out, length order <= lim -> ~ loose_edge h start ->
      exists r xs, print_graph_hierarchy lim start s out = (Ok r, s, out ++ concat xs) /\ Forall2 (shows h) order xs).
  Proof.
    intros Hs. destruct (q_C26 s all_trav start R Hs eq_refl) as (n & Hn & Hnd & Hin & Hex). exists n.
    rewrite (level_ext _ (children h)) in Hn by apply fkids_all. rewrite fkids_all in Hn.
    rewrite (level_order_ext _ (children h)) in Hnd, Hin, Hex by apply fkids_all. rewrite fkids_all in Hnd, Hin, Hex.
    split; [done|]. intros order. set (rest := level_order (children h) n (children h start)) in *.
    assert (Hw : forall y, y ∈ order <-> within h start y).
    { intros y. unfold order, within. rewrite elem_of_cons, Hin, through_all. done. }
    assert (Hall : forall y, y ∈ order -> exists_in h y).
    { intros y Hy. apply Hw in Hy as [->|A]; [done|]. inversion A as [a b P|a q b P _]; subst; unfold parent_of in P; destruct (h !! y) eqn:E; try done; by eexists. }
    assert (Er : root_part all_trav h start = [start]).
    { unfold root_part, accepts. destruct Hs as [o Ho]. by rewrite Ho. }
    split; [done|]. split; [done|]. intros lim out Hl Hf.
    assert (Hl' : Forall (fun l => ~ loose_edge h l) order).
    { apply Forall_forall. intros y Hy [Hk Hp]. apply Hw in Hy as [->|A]; [by apply Hf|]. inversion A as [a b P|a q b P _]; congruence. }
    destruct (print_all order out Hall Hl') as (xs & E & S1). exists (map (fun _ => tt) order), xs. split; [|done].
    apply Hex; [cbn in Hl; lia|]. by rewrite Er.
  Qed.
  Lemma q_C79_loose start : loose_edge h start -> forall lim out, print_graph_hierarchy lim start s out = (Exn AttributeError, s, out).
  Proof.
    intros L lim out. unfold print_graph_hierarchy, execute_bfs, visit_root. pose proof L as [K _]. unfold kind_of in K. destruct (h !! start) as [o|] eqn:Ho; [|done].
    cbn. by rewrite print_fail.
  Qed.
End print.

Lemma q_C79_endpoints s r : reach s -> kind_of (heap s) r = Some KRel -> exists n, attr_of o_endpoint (heap s) r = Some (Some n) /\ exists_in (heap s) n.
Proof.
  intros R Hk. pose proof (reach_wf s R) as W. unfold kind_of in Hk. unfold attr_of. destruct (heap s !! r) as [o|] eqn:Ho; [|done]. cbn in *. injection Hk as Hk.
  pose proof (wf_hasep _ W r o Ho Hk) as Hn. destruct (o_endpoint o) as [n|] eqn:He; [|done]. exists n. split; [done|]. exact (wf_ep _ W r o n Ho He).
Qed.
