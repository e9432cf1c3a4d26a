(** * Conversion: the query engine without a hypothesis about the recursion limit *)
From stdpp Require Import relations.
From Verif Require Import Spec Hierarchy Elements Factory History PDict PPath PWF PReach Traverse SpecTrav QTrav QTrav2 QTrav3 QueryEngine SpecQuery QQuery QQuery2.

Lemma traverse_more {X B} lifo lim lim' t (v : visitor X B) s q tasks x r q' x' : lim <= lim' ->
  traverse lifo lim t v s q tasks x = (Ok r, q', x') -> traverse lifo lim' t v s q tasks x = (Ok r, q', x').
Proof.
  revert lim' q tasks x. induction lim as [|lim IH]; intros lim' q tasks x Hl E; [done|]. destruct lim' as [|lim']; [lia|]. cbn [traverse] in E |- *.
  destruct q as [|[l d] rest]; [done|]. destruct (fill_fringe t s l d) as [new|]; [|done]. destruct (v s l x) as [[b|] x1]; [|done]. apply IH; [lia|done].
Qed.
Lemma bfs_more {X B} lim lim' t (v : visitor X B) start s x r s' x' : lim <= lim' ->
  execute_bfs lim t v start s x = (Ok r, s', x') -> execute_bfs lim' t v start s x = (Ok r, s', x').
Proof.
  intros Hl. unfold execute_bfs. destruct (visit_root t v s start x) as [[tasks|] x1]; [|done]. destruct (fill_fringe t s start 0) as [new|]; [|done].
  destruct (traverse false lim t v s (fr_hier s ++ new) tasks x1) as [[[r1|] q1] x2] eqn:E1; [|done]. by rewrite (traverse_more _ _ lim' _ _ _ _ _ _ _ _ _ Hl E1).
Qed.
Lemma prefilter_more lim lim' i s qs r s' qs' : lim <= lim' -> prefilter lim i s qs = (Ok r, s', qs') -> prefilter lim' i s qs = (Ok r, s', qs').
Proof.
  intros Hl. unfold prefilter. destruct (qs !! i) as [q|]; [|done]. destruct (execute_bfs lim (q_trav q) q_visitor (q_start q) s (q_tasks q)) as [[[r1|] s1] ts] eqn:E1; [|done].
  by rewrite (bfs_more _ lim' _ _ _ _ _ _ _ _ Hl E1).
Qed.
Lemma prefilter_all_more lim lim' is s qs ts r s' qs' : lim <= lim' -> prefilter_all lim is s qs ts = (Ok r, s', qs') -> prefilter_all lim' is s qs ts = (Ok r, s', qs').
Proof.
  intros Hl. revert s qs ts. induction is as [|i is IH]; intros s qs ts E; [done|]. cbn [prefilter_all] in E |- *.
  destruct (prefilter lim i s qs) as [[[ids|] s1] qs1] eqn:E1; [|done]. rewrite (prefilter_more _ _ _ _ _ _ _ _ Hl E1). by apply IH.
Qed.
Lemma engine_more lim lim' e s qs rs s' qs' : lim <= lim' -> engine_run lim e s qs (Ok rs) s' qs' -> engine_run lim' e s qs (Ok rs) s' qs'.
Proof.
  intros Hl E. inversion E as [| |ts s0 qs0 sch rs0 qs2 E0 Hne0 Hs0 Ed]; subst. eapply run_done; [by eapply prefilter_all_more|done|done|done].
Qed.
Lemma fits_all h lim q : length h < lim -> fits h lim q.
Proof.
  intros Hl ls Hnd Hv. assert (length ls <= length (seq 0 (length h))); [|rewrite seq_length in *; lia]. apply submseteq_length, NoDup_submseteq; [done|].
  intros x Hx. apply elem_of_seq. specialize (Hv x Hx). assert (Ha : accepts (q_filter q) h x = true). { destruct Hv as [[-> ?]|T]; [done|]. by destruct T. }
  unfold accepts in Ha. destruct (h !! x) as [o|] eqn:E; [|done]. apply lookup_lt_Some in E. lia.
Qed.
Definition pristine (q : query) : Prop := q_tasks q = [] /\ q_result q = [].
Lemma pristine_idle q : pristine q -> idle q.
Proof. intros [H1 H2]. split; [|done]. rewrite H1. by intros t ?%elem_of_nil. Qed.
Lemma engine_any s lim e qs rs s' qs' : reach s -> NoDup (dvals e) -> (forall i, i ∈ dvals e -> exists q, qs !! i = Some q /\ exists_in (heap s) (q_start q) /\ pristine q) ->
  engine_run lim e s qs (Ok rs) s' qs' -> s' = s /\ (exists parts, rs = mjoin parts /\ Forall2 (part_of s qs) (dvals e) parts).
Proof.
  intros R Hnd Hq E. apply (engine_more lim (lim + S (length (heap s)))) in E; [|lia].
  destruct (q_C43 s R (lim + S (length (heap s))) e qs Hnd) as [C1 C2].
  { intros i Hi. destruct (Hq i Hi) as (q & H1 & H2 & H3). exists q. split; [done|]. split; [done|]. split; [|by apply pristine_idle]. apply fits_all. lia. }
  set (all := mjoin (map (fun i => match qs !! i with Some q => vis s q | None => [] end) (dvals e))).
  assert (Hall : forall i q x, i ∈ dvals e -> qs !! i = Some q -> x ∈ vis s q -> x ∈ all).
  { intros i q x Hi Hqi Hx. unfold all. apply elem_of_list_join. exists (vis s q). split; [done|]. apply elem_of_list_fmap. exists i. split; [by rewrite Hqi|done]. }
  destruct all as [|x l] eqn:Ea.
  - exfalso. destruct C2 as [_ C2].
    + intros i q Hi Hqi. destruct (Hq i Hi) as (q' & H1 & H2 & H3). rewrite Hqi in H1. injection H1 as <-. destruct (vis_spec s R q H2) as (_ & V & _).
      split; [apply H3|]. intros x Hx%V. eapply Hall in Hx; [|done|done]. by apply elem_of_nil in Hx.
    + by destruct (C2 _ _ _ E) as [_ ?].
  - assert (Hx : x ∈ all) by (rewrite Ea; left). destruct C1 as [_ C1].
    + unfold all in Hx. apply elem_of_list_join in Hx as (vs & Hx & Hi). apply elem_of_list_fmap in Hi as (i & -> & Hi). destruct (Hq i Hi) as (q & H1 & H2 & _). rewrite H1 in Hx. exists i, q, x. split; [done|]. split; [done|].
      by apply (vis_spec s R q H2).
    + destruct (C1 _ _ _ E) as (-> & (parts & Hp & F) & _). injection Hp as ->. split; [done|]. by exists parts.
Qed.
