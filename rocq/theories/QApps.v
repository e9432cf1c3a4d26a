(** * C82: proofs *)
From Verif Require Import PDict PExec PWF PMono PAdd PReach PPrim PHist Spec SpecFac QHier QHier4 QHier5 QHier6 QFac QFac2 History QSample QSample2 QTuple Apps SpecApps.

(** ** What is built, as a table *)
Record row := mkRow { w_kind : kind; w_name : string; w_vals : list pyval; w_par : option nat; w_kids : list nat }.
Definition keyed (f : factory) (s : st) (u : uid) (nm : string) : Prop :=
  exists k t, u = sha s (uid_text (f_name f) k t) /\ (k = nm \/ exists q, k = q +:+ "/" +:+ nm).
Definition row_at (f : factory) (s : st) (b : nat) (i : nat) (r : row) : Prop :=
  exists o, heap s !! (b + i) = Some o /\ o_kind o = w_kind r /\ o_name o = w_name r /\ (o_kind o = KValue -> o_vals o = w_vals r) /\ (o_kind o = KNode -> o_ready o = true) /\ keyed f s (o_uuid o) (o_name o) /\
    parent_of (heap s) (b + i) = (fun j => b + j) <$> w_par r /\ children (heap s) (b + i) = map (fun j => b + j) (w_kids r).
Record lay (f : factory) (s0 s : st) (rows : list row) : Prop := {
  ly_reach : reach s;
  ly_sha : sha s = sha s0;
  ly_len : length (heap s) = length (heap s0) + length rows;
  ly_kept : kept (heap s0) (heap s);
  ly_unmoved : unmoved (heap s0) (heap s);
  ly_old : forall l, exists_in (heap s0) l -> children (heap s) l = children (heap s0) l;
  ly_rows : forall i r, rows !! i = Some r -> row_at f s (length (heap s0)) i r
}.
Definition more_kid (j : nat) (r : row) : row := mkRow (w_kind r) (w_name r) (w_vals r) (w_par r) (w_kids r ++ [j]).

Lemma last_split c a n : has_char c n = false -> last (split_on c (a +:+ String c n)) = Some n.
Proof.
  intros Hn. induction a as [|x a IH].
  - change ("" +:+ String c n) with (String c n). cbn [split_on]. rewrite decide_True by done. by rewrite has_char_split.
  - change (String x a +:+ String c n) with (String x (a +:+ String c n)). cbn [split_on]. pose proof (split_on_cons_ne c (a +:+ String c n)) as Hne.
    destruct (split_on c (a +:+ String c n)) as [|y ys] eqn:E; [done|]. destruct (decide (x = c)); [by rewrite last_cons_cons|].
    destruct ys as [|z ys]; [|by rewrite last_cons_cons in *]. exfalso. clear -E. revert y E. induction a as [|b a IH]; intros y E.
    + change ("" +:+ String c n) with (String c n) in E. cbn [split_on] in E. rewrite decide_True in E by done. pose proof (split_on_cons_ne c n). by destruct (split_on c n).
    + change (String b a +:+ String c n) with (String b (a +:+ String c n)) in E. cbn [split_on] in E. pose proof (split_on_cons_ne c (a +:+ String c n)).
      destruct (split_on c (a +:+ String c n)) as [|y1 ys1] eqn:E1; [done|]. destruct (decide (b = c)); [done|]. injection E as <- ->. by eapply IH.
Qed.
Lemma last_part a b n m : has_char slash n = false -> has_char slash m = false -> a +:+ "/" +:+ n = b +:+ "/" +:+ m -> n = m.
Proof.
  intros Hn Hm E. pose proof (last_split slash a n Hn) as H1. pose proof (last_split slash b m Hm) as H2.
  change (String slash n) with ("/" +:+ n) in H1. change (String slash m) with ("/" +:+ m) in H2. rewrite E in H1. congruence.
Qed.
Lemma keyed_inj f s u nm nm' : (forall a b, sha s a = sha s b -> a = b) -> has_char slash nm = false -> has_char slash nm' = false -> keyed f s u nm -> keyed f s u nm' -> nm = nm'.
Proof.
  intros Hi H1 H2 (k & t & -> & Hk) (k' & t' & E & Hk'). apply Hi, uid_text_inj in E as [<- <-].
  destruct Hk as [->|[q ->]], Hk' as [Hk'|[q' Hk']].
  - done. - subst nm. by rewrite !has_char_app in H1; cbn in H1; rewrite orb_true_r in H1.
  - rewrite <- Hk' in H2. by rewrite !has_char_app in H2; cbn in H2; rewrite orb_true_r in H2.
  - by eapply last_part.
Qed.
Lemma row_kept f s s' b i r : reach s -> mono s s' -> kept (heap s) (heap s') -> unmoved (heap s) (heap s') -> children (heap s') (b + i) = children (heap s) (b + i) ->
  row_at f s b i r -> row_at f s' b i r.
Proof.
  intros R M K U C (o & Ho & H1 & H2 & H3 & H4 & H5 & H6 & H7). pose proof (K _ _ Ho) as Ha. destruct (heap s' !! (b + i)) as [o'|] eqn:Ho'; [|done].
  cbn [fmap option_fmap option_map] in Ha. apply (inj Some) in Ha. exists o'. split; [done|].
  assert (Hf : forall A (g : obj -> A), (forall x, g (ident_part x) = g x) -> g o' = g o) by (intros A g Hg; rewrite <- (Hg o'), <- (Hg o); by rewrite Ha).
  rewrite (Hf _ o_kind), (Hf _ o_name), (Hf _ o_vals), (Hf _ o_ready), (Hf _ o_uuid) by done. do 4 (split; [done|]).
  split. { destruct H5 as (k & t & E & X). exists k, t. rewrite (m_sha _ _ M). done. }
  rewrite U by (by eexists). split; [done|]. by rewrite C.
Qed.
Lemma row_more f s s' b i j r : reach s -> mono s s' -> kept (heap s) (heap s') -> unmoved (heap s) (heap s') -> children (heap s') (b + i) = children (heap s) (b + i) ++ [b + j] ->
  row_at f s b i r -> row_at f s' b i (more_kid j r).
Proof.
  intros R M K U C (o & Ho & H1 & H2 & H3 & H4 & H5 & H6 & H7). pose proof (K _ _ Ho) as Ha. destruct (heap s' !! (b + i)) as [o'|] eqn:Ho'; [|done].
  cbn [fmap option_fmap option_map] in Ha. apply (inj Some) in Ha. exists o'. split; [done|].
  assert (Hf : forall A (g : obj -> A), (forall x, g (ident_part x) = g x) -> g o' = g o) by (intros A g Hg; rewrite <- (Hg o'), <- (Hg o); by rewrite Ha).
  rewrite (Hf _ o_kind), (Hf _ o_name), (Hf _ o_vals), (Hf _ o_ready), (Hf _ o_uuid) by done. do 4 (split; [done|]).
  split. { destruct H5 as (k & t & E & X). exists k, t. rewrite (m_sha _ _ M). done. }
  rewrite U by (by eexists). split; [done|]. rewrite C, H7. cbn [more_kid w_kids]. by rewrite map_app.
Qed.
Lemma lay_root f s0 s rows nm : lay f s0 s rows ->
  exists s', generate_node f nm None s = (Ok (length (heap s0) + length rows), s') /\ lay f s0 s' (rows ++ [mkRow KNode nm [] None []]).
Proof.
  intros L. pose proof (ly_reach _ _ _ _ L) as R. destruct (root_made s f nm R) as (s' & E & R' & M & K & U & C & Ln & P & Ch & o & Ho & Hk & Hn & Hr).
  exists s'. rewrite <- (ly_len _ _ _ _ L). split; [done|].
  assert (Hex : forall l, exists_in (heap s0) l -> exists_in (heap s) l) by (intros l; apply kept_exists, L). split.
  - done. - rewrite (m_sha _ _ M). apply L. - rewrite Ln, (ly_len _ _ _ _ L), app_length. cbn. lia. - eapply kept_trans; [apply L|done].
  - intros l Hl. rewrite U by auto. by apply L.
  - intros l Hl. rewrite C by auto. by apply L.
  - intros i r Hi. apply lookup_app_Some in Hi as [Hi|[Hi1 Hi2]].
    + pose proof (ly_rows _ _ _ _ L i r Hi) as X. apply (row_kept f s); try done. apply C. destruct X as (x & Hx & _). by eexists.
    + apply list_lookup_singleton_Some in Hi2 as [Hi2 <-]. assert (i = length rows) as -> by lia.
      pose proof (gen_node_uuid _ _ _ _ _ _ E) as Hu. assert (Hu' : uuid_of (heap s') (length (heap s)) = o_uuid o) by (unfold uuid_of; by rewrite Ho). rewrite Hu' in Hu.
      exists o. rewrite <- (ly_len _ _ _ _ L). split; [done|]. do 2 (split; [done|]). split; [by rewrite Hk|]. split; [done|].
      split. { eexists _, _. rewrite Hn. rewrite (m_sha _ _ M). split; [exact Hu|by left]. } split; [done|]. done.
Qed.
Lemma lay_grown f s0 s s' rows p op oc nm vs k u : lay f s0 s rows -> rows !! p = Some op -> reach s' -> mono s s' ->
  grown (heap s) (heap s') (length (heap s0) + p) (length (heap s)) oc -> o_kind oc = k -> o_name oc = nm -> o_vals oc = vs -> (k = KNode -> o_ready oc = true) -> o_uuid oc = u -> keyed f s u nm ->
  lay f s0 s' (alter (more_kid (length rows)) p rows ++ [mkRow k nm vs (Some p) []]).
Proof.
  intros L Hp R' M G Hk Hn Hv Hr Hu Hky. pose proof (ly_reach _ _ _ _ L) as R. set (b := length (heap s0)) in *.
  assert (Hex : forall l, exists_in (heap s0) l -> exists_in (heap s) l) by (intros l; apply kept_exists, L).
  assert (Hb : forall l, exists_in (heap s0) l -> l < b) by (intros l; rewrite exists_in_lt; done). split.
  - done. - rewrite (m_sha _ _ M). apply L. - rewrite (gr_len _ _ _ _ _ G), (ly_len _ _ _ _ L), app_length, alter_length. cbn. unfold b. lia. - eapply kept_trans; [apply L|apply G].
  - intros l Hl. rewrite (gr_unmoved _ _ _ _ _ G) by auto. by apply L.
  - intros l Hl. pose proof (Hb l Hl). rewrite (gr_other _ _ _ _ _ G) by (auto; lia). by apply L.
  - fold b. intros i r Hi. apply lookup_app_Some in Hi as [Hi|[Hi1 Hi2]].
    + destruct (decide (i = p)) as [->|Hne].
      * rewrite list_lookup_alter, Hp in Hi. cbn in Hi. injection Hi as <-. pose proof (ly_rows _ _ _ _ L p op Hp) as X. apply (row_more f s); try done; [apply G|apply G|].
        rewrite (gr_p _ _ _ _ _ G). by rewrite (ly_len _ _ _ _ L).
      * rewrite list_lookup_alter_ne in Hi by done. pose proof (ly_rows _ _ _ _ L i r Hi) as X. apply (row_kept f s); try done; [apply G|apply G|].
        apply (gr_other _ _ _ _ _ G); [|lia]. destruct X as (x & Hx & _). by eexists.
    + rewrite alter_length in Hi1, Hi2. apply list_lookup_singleton_Some in Hi2 as [Hi2 <-]. assert (i = length rows) as -> by lia. assert (Hlb : b + length rows = length (heap s)) by (symmetry; apply (ly_len _ _ _ _ L)). unfold row_at. rewrite Hlb.
      destruct (QHier5.gr_fresh _ _ _ _ _ G) as (_ & F2 & F3 & F4). destruct (heap s' !! length (heap s)) as [o|] eqn:Ho; [|done]. cbn [fmap option_fmap option_map] in F4. apply (inj Some) in F4.
      exists o. split; [done|]. assert (Hf : forall A (g : obj -> A), (forall x, g (fixed_part x) = g x) -> g o = g oc) by (intros A g Hg; rewrite <- (Hg o), <- (Hg oc); by rewrite F4).
      rewrite (Hf _ o_kind), (Hf _ o_name), (Hf _ o_vals), (Hf _ o_ready), (Hf _ o_uuid) by done. cbn [w_kind w_name w_vals w_par w_kids]. do 3 (split; [done|]). split; [by rewrite Hk|].
      split. { rewrite Hu, Hn. destruct Hky as (k1 & t & E & X). exists k1, t. rewrite (m_sha _ _ M). done. } done.
Qed.
Lemma new_name f s0 s rows p r nm u x : lay f s0 s rows -> (forall a b, sha s0 a = sha s0 b -> a = b) -> rows !! p = Some r -> has_char slash nm = false ->
  Forall (fun j => exists r', rows !! j = Some r' /\ w_name r' <> nm /\ has_char slash (w_name r') = false) (w_kids r) -> keyed f s u nm ->
  x ∈ children (heap s) (length (heap s0) + p) -> uuid_of (heap s) x <> u.
Proof.
  intros L Hi Hp Hs Hks Hky Hx Hu. destruct (ly_rows _ _ _ _ L p r Hp) as (o & _ & _ & _ & _ & _ & _ & _ & Hc). rewrite Hc in Hx. apply elem_of_list_fmap in Hx as (j & -> & Hj).
  rewrite Forall_forall in Hks. destruct (Hks j Hj) as (r' & Hr' & Hn & Hs'). destruct (ly_rows _ _ _ _ L j r' Hr') as (o' & Ho' & _ & H2 & _ & _ & H5 & _).
  assert (Hu' : uuid_of (heap s) (length (heap s0) + j) = o_uuid o') by (unfold uuid_of; by rewrite Ho'). rewrite Hu in Hu'. rewrite <- Hu', H2 in H5. apply Hn. eapply keyed_inj; [|exact Hs'|exact Hs|exact H5|exact Hky]. by rewrite (ly_sha _ _ _ _ L).
Qed.
Definition new_among (rows : list row) (r : row) (nm : string) : bool :=
  negb (has_char slash nm) && forallb (fun j => match rows !! j with Some r' => negb (String.eqb (w_name r') nm) && negb (has_char slash (w_name r')) | None => false end) (w_kids r).
Lemma new_among_ok rows r nm : new_among rows r nm = true -> has_char slash nm = false /\ Forall (fun j => exists r', rows !! j = Some r' /\ w_name r' <> nm /\ has_char slash (w_name r') = false) (w_kids r).
Proof.
  unfold new_among. intros H. apply andb_true_iff in H as [H1 H2]. split; [by apply negb_true_iff|]. apply Forall_forall. intros j Hj. rewrite forallb_forall in H2. apply elem_of_list_In in Hj. specialize (H2 j Hj).
  destruct (rows !! j) as [r'|]; [|done]. exists r'. split; [done|]. apply andb_true_iff in H2 as [H2 H3]. apply negb_true_iff in H2, H3. split; [by apply String.eqb_neq|done].
Qed.
Lemma lay_node f s0 s rows p r nm : lay f s0 s rows -> (forall a b, sha s0 a = sha s0 b -> a = b) -> rows !! p = Some r -> w_kind r = KNode -> new_among rows r nm = true ->
  exists s', generate_node f nm (Some (length (heap s0) + p)) s = (Ok (length (heap s0) + length rows), s') /\ lay f s0 s' (alter (more_kid (length rows)) p rows ++ [mkRow KNode nm [] (Some p) []]).
Proof.
  intros L Hi Hp Hk Hn. pose proof (ly_reach _ _ _ _ L) as R. apply new_among_ok in Hn as [Hs Hks]. destruct (ly_rows _ _ _ _ L p r Hp) as (o & Ho & Hko & _).
  destruct (gen_node_cases s f nm (length (heap s0) + p) o (reach_wf _ R) Ho) as [[(x & Hx & Hu) _]|(_ & s' & prog & E & G & M & _)]; [by rewrite Hko, Hk| |].
  - exfalso. eapply (new_name f s0 s rows p r nm _ x); try done. eexists _, _. split; [reflexivity|]. right. by eexists.
  - exists s'. rewrite <- (ly_len _ _ _ _ L). split; [done|]. assert (R' : reach s'). { eapply (reach_void s _ (OGenNode f nm (Some (length (heap s0) + p)))); [done| |reflexivity|exact E]. cbn. by eexists. }
    eapply lay_grown; try done. eexists _, _. split; [reflexivity|]. right. by eexists.
Qed.
Lemma lay_value f s0 s rows p r nm vs : lay f s0 s rows -> (forall a b, sha s0 a = sha s0 b -> a = b) -> rows !! p = Some r -> w_kind r = KNode -> new_among rows r nm = true ->
  exists s', create_value f (Some (length (heap s0) + p)) nm (Some vs) s = (Ok (length (heap s0) + length rows), s') /\ lay f s0 s' (alter (more_kid (length rows)) p rows ++ [mkRow KValue nm vs (Some p) []]).
Proof.
  intros L Hi Hp Hk Hn. pose proof (ly_reach _ _ _ _ L) as R. apply new_among_ok in Hn as [Hs Hks]. destruct (ly_rows _ _ _ _ L p r Hp) as (o & Ho & Hko & _).
  pose proof (value_eq f (length (heap s0) + p) nm (Some vs) o s Ho) as E. cbn [default] in E. set (ov := s_dim _ _) in E. set (s1 := set_tick _ s) in E.
  rewrite (bind_ok _ _ _ _ _ (alloc_state s1 ov)) in E. change (heap s1) with (heap s) in E.
  assert (Hky : keyed f s (o_uuid ov) nm) by (eexists _, _; split; [reflexivity|by left]).
  destruct (add_fresh_grown s1 (length (heap s0) + p) ov o) as (s' & E2 & G & M & _); try done.
  { apply (reach_wf _ R). } { intros x Hx. eapply (new_name f s0 s rows p r nm); [done|done|done|done|done|exact Hky|exact Hx]. } { rewrite Hko, Hk. by intros [? ?]. } { rewrite Hko, Hk. by intros [? ?]. }
  change (heap s1) with (heap s) in *. rewrite (bind_ok _ _ _ _ _ E2) in E. exists s'. rewrite <- (ly_len _ _ _ _ L). split; [done|].
  assert (M' : mono s s'). { pose proof (pres_create_value f (Some (length (heap s0) + p)) nm (Some vs) s) as X. by rewrite E in X. }
  assert (R' : reach s'). { eapply (reach_void s _ (OCreateValue f (Some (length (heap s0) + p)) nm (Some vs))); [done| |reflexivity|exact E]. cbn. by eexists. }
  eapply lay_grown; try done.
Qed.

(** ** The application *)
Definition fuzzy_rows : list row :=
  [ mkRow KNode "fuzzy_sys_cogni" [] None [1]; mkRow KNode "battery_node" [] (Some 0) [2; 5];
    mkRow KNode "battery_dynamic_node" [] (Some 1) [3; 4]; mkRow KValue "values" [PNum 0; PNum 0; PNum 0] (Some 2) []; mkRow KValue "membership" [PNum 1; PNum 1; PNum 1] (Some 2) [];
    mkRow KNode "battery_static_node" [] (Some 1) [6; 7]; mkRow KValue "values" [PNum 0; PNum 0; PNum 0] (Some 5) []; mkRow KValue "membership" [PNum 1; PNum 1; PNum 1] (Some 5) [];
    mkRow KNode "battery_result" [] None [9]; mkRow KValue "battery_result_value" [] (Some 8) [] ].
Lemma lay_nil f s : reach s -> lay f s s [].
Proof. intros R. split; [done|done|cbn; lia|intros l o Ho; by rewrite Ho|done|done|done]. Qed.
Lemma bind_at {A B} (m : M A) (k : A -> M B) s a s1 r : m s = (Ok a, s1) -> k a s1 = r -> bind m k s = r.
Proof. intros E <-. by apply bind_ok. Qed.
Lemma fuzzy_build f s : reach s -> (forall a b, sha s a = sha s b -> a = b) -> let b := length (heap s) in
  exists s', lay f s s' fuzzy_rows /\ forall A (k : loc -> loc -> loc -> loc -> loc -> M A),
    (let! sys := generate_node f "fuzzy_sys_cogni" None in
     let! battery := generate_node f "battery_node" (Some sys) in
     let! dyn := generate_node f "battery_dynamic_node" (Some battery) in
     let! _ := create_value f (Some dyn) "values" (Some [PNum 0; PNum 0; PNum 0]) in
     let! _ := create_value f (Some dyn) "membership" (Some [PNum 1; PNum 1; PNum 1]) in
     let! sta := generate_node f "battery_static_node" (Some battery) in
     let! _ := create_value f (Some sta) "values" (Some [PNum 0; PNum 0; PNum 0]) in
     let! _ := create_value f (Some sta) "membership" (Some [PNum 1; PNum 1; PNum 1]) in
     let! res := generate_node f "battery_result" None in
     let! _ := create_value f (Some res) "battery_result_value" (Some []) in
     k sys battery dyn sta res) s = k (b + 0) (b + 1) (b + 2) (b + 5) (b + 8) s'.
Proof.
  intros R Hi b. pose proof (lay_nil f s R) as L0.
  destruct (lay_root f s s [] "fuzzy_sys_cogni" L0) as (s1 & E1 & L1). cbn [app length] in E1, L1.
  destruct (lay_node f s s1 _ 0 _ "battery_node" L1 Hi eq_refl eq_refl eq_refl) as (s2 & E2 & L2). cbn [app length alter list_alter more_kid w_kind w_name w_vals w_par w_kids] in E2, L2.
  destruct (lay_node f s s2 _ 1 _ "battery_dynamic_node" L2 Hi eq_refl eq_refl eq_refl) as (s3 & E3 & L3). cbn [app length alter list_alter more_kid w_kind w_name w_vals w_par w_kids] in E3, L3.
  destruct (lay_value f s s3 _ 2 _ "values" [PNum 0; PNum 0; PNum 0] L3 Hi eq_refl eq_refl eq_refl) as (s4 & E4 & L4). cbn [app length alter list_alter more_kid w_kind w_name w_vals w_par w_kids] in E4, L4.
  destruct (lay_value f s s4 _ 2 _ "membership" [PNum 1; PNum 1; PNum 1] L4 Hi eq_refl eq_refl eq_refl) as (s5 & E5 & L5). cbn [app length alter list_alter more_kid w_kind w_name w_vals w_par w_kids] in E5, L5.
  destruct (lay_node f s s5 _ 1 _ "battery_static_node" L5 Hi eq_refl eq_refl eq_refl) as (s6 & E6 & L6). cbn [app length alter list_alter more_kid w_kind w_name w_vals w_par w_kids] in E6, L6.
  destruct (lay_value f s s6 _ 5 _ "values" [PNum 0; PNum 0; PNum 0] L6 Hi eq_refl eq_refl eq_refl) as (s7 & E7 & L7). cbn [app length alter list_alter more_kid w_kind w_name w_vals w_par w_kids] in E7, L7.
  destruct (lay_value f s s7 _ 5 _ "membership" [PNum 1; PNum 1; PNum 1] L7 Hi eq_refl eq_refl eq_refl) as (s8 & E8 & L8). cbn [app length alter list_alter more_kid w_kind w_name w_vals w_par w_kids] in E8, L8.
  destruct (lay_root f s s8 _ "battery_result" L8) as (s9 & E9 & L9). cbn [app length] in E9, L9.
  destruct (lay_value f s s9 _ 8 _ "battery_result_value" [] L9 Hi eq_refl eq_refl eq_refl) as (s10 & E10 & L10). cbn [app length alter list_alter more_kid w_kind w_name w_vals w_par w_kids] in E10, L10.
  exists s10. split; [exact L10|]. intros A k.
  rewrite (bind_ok _ _ _ _ _ E1). rewrite (bind_ok _ _ _ _ _ E2). rewrite (bind_ok _ _ _ _ _ E3). rewrite (bind_ok _ _ _ _ _ E4). rewrite (bind_ok _ _ _ _ _ E5).
  rewrite (bind_ok _ _ _ _ _ E6). rewrite (bind_ok _ _ _ _ _ E7). rewrite (bind_ok _ _ _ _ _ E8). rewrite (bind_ok _ _ _ _ _ E9). by rewrite (bind_ok _ _ _ _ _ E10).
Qed.
Lemma row_element f s b i r : row_at f s b i r -> element (heap s) (b + i) (w_kind r) (w_name r) ((fun j => b + j) <$> w_par r) (map (fun j => b + j) (w_kids r)).
Proof. intros (o & Ho & H1 & H2 & _ & _ & _ & H6 & H7). unfold element, kind_of, name_of. rewrite Ho. cbn. by rewrite H1, H2. Qed.
Lemma row_value f s b i r : row_at f s b i r -> w_kind r = KValue -> attr_of o_vals (heap s) (b + i) = Some (w_vals r).
Proof. intros (o & Ho & H1 & H2 & H3 & _) Hk. unfold attr_of. rewrite Ho. cbn. by rewrite H3 by (by rewrite H1). Qed.
Lemma element_kept h h' l k nm p cs cs' : kept h h' -> unmoved h h' -> exists_in h l -> children h' l = cs' -> element h l k nm p cs -> element h' l k nm p cs'.
Proof. intros K U He C (H1 & H2 & H3 & H4). split; [by rewrite (kept_kind _ _ _ K)|]. split; [by rewrite (kept_name _ _ _ K)|]. split; [by rewrite U|done]. Qed.
Lemma q_C82 c s : reach s -> (forall a b, sha s a = sha s b -> a = b) ->
  exists sys battery dyn sta res infer ext r1 r2 r3 s',
    accu_fuzzy c s = (Ok (sys, battery, dyn, sta, res, infer, ext, [r1; r2]), s') /\ reach s' /\
    fuzzy_system (heap s') sys battery dyn sta res infer ext r1 r2 r3 /\
    (forall l, l ∈ [sys; battery; dyn; sta; res; infer; ext; r1; r2; r3] -> ~ exists_in (heap s) l) /\
    kept (heap s) (heap s') /\ unmoved (heap s) (heap s') /\ forall l, exists_in (heap s) l -> children (heap s') l = children (heap s) l.
Proof.
  intros R Hi. set (f := mkFactory "fuzzy_sys_factory" c). destruct (fuzzy_build f s R Hi) as (s1 & L & HB). set (b := length (heap s)) in *.
  pose proof (ly_reach _ _ _ _ L) as R1. pose proof (fun i r => ly_rows _ _ _ _ L i r) as Hrow. fold b in Hrow.
  assert (Hi1 : forall x y, sha s1 x = sha s1 y -> x = y) by (rewrite (ly_sha _ _ _ _ L); exact Hi).
  set (ts := [(b + 2, INWARDS, WNone); (b + 5, INWARDS, WNone); (b + 8, OUTWARDS, WNone)] : list (loc * direction * weight)).
  pose proof (Hrow 0 _ eq_refl) as W0. pose proof (Hrow 1 _ eq_refl) as W1. pose proof (Hrow 2 _ eq_refl) as W2. pose proof (Hrow 3 _ eq_refl) as W3. pose proof (Hrow 4 _ eq_refl) as W4.
  pose proof (Hrow 5 _ eq_refl) as W5. pose proof (Hrow 6 _ eq_refl) as W6. pose proof (Hrow 7 _ eq_refl) as W7. pose proof (Hrow 8 _ eq_refl) as W8. pose proof (Hrow 9 _ eq_refl) as W9.
  assert (Hnode : forall n, n ∈ map tnode ts -> exists on, heap s1 !! n = Some on /\ is_hyperelement (o_kind on) = true /\ o_ready on = true).
  { intros n Hn. apply elem_of_list_In in Hn. destruct Hn as [<-|[<-|[<-|[]]]].
    - destruct W2 as (o & Ho & H1 & _ & _ & H4 & _). exists o. split; [done|]. split; [by rewrite H1|by apply H4].
    - destruct W5 as (o & Ho & H1 & _ & _ & H4 & _). exists o. split; [done|]. split; [by rewrite H1|by apply H4].
    - destruct W8 as (o & Ho & H1 & _ & _ & H4 & _). exists o. split; [done|]. split; [by rewrite H1|by apply H4]. }
  assert (Hex : forall i, i < 10 -> exists_in (heap s1) (b + i)).
  { intros i Hlt. apply exists_in_lt. rewrite (ly_len _ _ _ _ L). change (length fuzzy_rows) with 10. fold b. lia. }
  assert (Hn2 : name_of (heap s1) (b + 2) = "battery_dynamic_node") by apply (row_element _ _ _ _ _ W2).
  assert (Hn5 : name_of (heap s1) (b + 5) = "battery_static_node") by apply (row_element _ _ _ _ _ W5).
  assert (Hn8 : name_of (heap s1) (b + 8) = "battery_result") by apply (row_element _ _ _ _ _ W8).
  destruct W0 as (o0 & Ho0 & Hk0 & W0r).
  destruct (q_C81_succeeds s1 f (b + 0) "battery_infer" ts o0) as (e & s2 & E2); try done.
  { by rewrite Hk0. }
  { intros Hin. apply elem_of_list_In in Hin. destruct Hin as [H|[H|[H|[]]]]; unfold tnode in H; cbn [fst] in H; lia. }
  { by apply Forall_forall. }
  { cbn [map ts tnode fst]. rewrite Hn2, Hn5, Hn8. apply (bool_decide_eq_true_1 _). vm_compute. reflexivity. }
  { intros x Hx. eapply (new_name f s s1 fuzzy_rows 0 _ "battery_infer"); [done|done|reflexivity|reflexivity| | |exact Hx].
    - apply (proj2 (new_among_ok fuzzy_rows (mkRow KNode "fuzzy_sys_cogni" [] None [1]) "battery_infer" eq_refl)).
    - eexists _, _. split; [reflexivity|by left]. }
  { intros n n' _ _ H. apply Hi1 in H. apply (inj (String.append "battery_infer")) in H. by apply (inj (String.append "/")) in H. }
  { intros n x t Hn Hx Hu. assert (Hky : exists nm, keyed f s1 (uuid_of (heap s1) x) nm).
    { assert (Hj : exists i, x = b + i /\ i < 10).
      { apply elem_of_list_In in Hn. destruct Hn as [<-|[<-|[<-|[]]]]; cbn [tnode fst] in Hx.
        - rewrite (proj2 (proj2 (proj2 (row_element _ _ _ _ _ W2)))) in Hx. apply elem_of_list_fmap in Hx as (j & -> & Hj). exists j. split; [done|]. cbn in Hj. set_solver by lia.
        - rewrite (proj2 (proj2 (proj2 (row_element _ _ _ _ _ W5)))) in Hx. apply elem_of_list_fmap in Hx as (j & -> & Hj). exists j. split; [done|]. cbn in Hj. set_solver by lia.
        - rewrite (proj2 (proj2 (proj2 (row_element _ _ _ _ _ W8)))) in Hx. apply elem_of_list_fmap in Hx as (j & -> & Hj). exists j. split; [done|]. cbn in Hj. set_solver by lia. }
      destruct Hj as (i & -> & Hlt). destruct (lookup_lt_is_Some_2 fuzzy_rows i Hlt) as [r Hr]. destruct (Hrow i r Hr) as (o & Ho & _ & _ & _ & _ & Hky & _).
      exists (o_name o). unfold uuid_of. by rewrite Ho. }
    destruct Hky as (nm & k & t' & Hk & _). rewrite Hk in Hu. apply Hi1 in Hu. unfold uid_text in Hu.
    apply elem_of_list_In in Hn. destruct Hn as [<-|[<-|[<-|[]]]]; cbn [tnode fst] in Hu; rewrite ?Hn2, ?Hn5, ?Hn8 in Hu; discriminate Hu. }
  destruct (q_C81 s1 f (b + 0) "battery_infer" ts e s2 R1) as (R2 & rs & ins & outs & EM & _ & _ & EI & HI & _); [by apply Hex; lia| |exact E2|].
  { apply Forall_forall. intros n Hn. destruct (Hnode n Hn) as (on & Hon & _). by eexists. }
  destruct (root_made s2 f "external_effects" R2) as (s3 & E3 & R3 & M3 & K3 & U3 & C3 & Ln3 & P3 & Ch3 & o3 & Ho3 & Hk3 & Hnm3 & _).
  set (h2 := heap s2) in *. set (h3 := heap s3) in *. set (x3 := length h2) in *.
  pose proof (em_made _ _ _ _ _ _ _ EM) as F. pose proof (Forall2_length _ _ _ F) as Hlen.
  destruct rs as [|r1 [|r2 [|r3 [|r4 rs]]]]; try discriminate Hlen. unfold ts in F.
  apply Forall2_cons in F as [F1 F]. apply Forall2_cons in F as [F2 F]. apply Forall2_cons in F as [F3 _].
  cbn beta iota in F1, F2, F3.
  pose proof (em_kept _ _ _ _ _ _ _ EM) as K2. pose proof (em_unmoved _ _ _ _ _ _ _ EM) as U2. pose proof (em_other _ _ _ _ _ _ _ EM) as O2. fold h2 in K2, U2, O2, F1, F2, F3.
  assert (K13 : kept (heap s1) h3) by (by eapply kept_trans).
  assert (Hex2 : forall l, exists_in (heap s1) l -> exists_in h2 l) by (intros l; by apply kept_exists).
  assert (U13 : unmoved (heap s1) h3) by (intros l Hl; rewrite U3 by auto; by apply U2).
  assert (Hts : forall i, i <> 2 -> i <> 5 -> i <> 8 -> b + i ∉ map tnode ts).
  { intros i A1 A2 A3 Hin. apply elem_of_list_In in Hin. destruct Hin as [H|[H|[H|[]]]]; unfold tnode in H; cbn [fst] in H; lia. }
  assert (Hkeep : forall i r, fuzzy_rows !! i = Some r -> i < 10 -> forall cs, children h2 (b + i) = cs -> element h3 (b + i) (w_kind r) (w_name r) ((fun j => b + j) <$> w_par r) cs).
  { intros i r Hr Hlt cs Hcs. eapply element_kept; [exact K13|exact U13|by apply Hex| |exact (row_element _ _ _ _ _ (Hrow i r Hr))]. rewrite C3; [done|]. by apply Hex2, Hex. }
  assert (Hval : forall i r, fuzzy_rows !! i = Some r -> w_kind r = KValue -> w_kids r = [] -> i < 10 -> i <> 2 -> i <> 5 -> i <> 8 -> i <> 0 -> forall n, w_par r = Some n -> value_in h3 (b + i) (b + n) (w_name r) (w_vals r)).
  { intros i r Hr Hk Hks Hlt A1 A2 A3 A4 n Hpar. split.
    - pose proof (Hkeep i r Hr Hlt []) as X. rewrite Hk, Hpar in X. apply X. rewrite O2; [|by apply Hex|lia|by apply Hts].
      rewrite (proj2 (proj2 (proj2 (row_element _ _ _ _ _ (Hrow i r Hr))))). by rewrite Hks.
    - unfold attr_of. rewrite (kept_attr o_vals _ _ (b + i) (fun _ => eq_refl) K13) by (by apply Hex). exact (row_value _ _ _ _ _ (Hrow i r Hr) Hk). }
  assert (Hkid : forall i r, fuzzy_rows !! i = Some r -> children (heap s1) (b + i) = map (fun j => b + j) (w_kids r)) by (intros i r Hr; apply (row_element _ _ _ _ _ (Hrow i r Hr))).
  assert (Hrel : forall n d r pt, exists_in h2 r -> exists_in h2 pt -> kind_of h2 r = Some KRel -> parent_of h2 r = Some e -> children h2 r = [] -> attr_of o_endpoint h2 r = Some (Some n) -> attr_of o_dir h2 r = Some d ->
     attr_of o_weight h2 r = Some WNone -> kind_of h2 pt = Some KPort -> attr_of o_endpoint h2 pt = Some (Some r) -> relates h3 e r n pt d).
  { intros n d r pt X1 X2 Y1 Y2 Y3 Y4 Y5 Y6 Y7 Y8. unfold relates. rewrite (kept_kind _ _ _ K3 X1), (kept_kind _ _ _ K3 X2), (U3 _ X1), (C3 _ X1). unfold attr_of in *.
    rewrite (kept_attr o_endpoint _ _ r (fun _ => eq_refl) K3 X1), (kept_attr o_dir _ _ r (fun _ => eq_refl) K3 X1), (kept_attr o_weight _ _ r (fun _ => eq_refl) K3 X1), (kept_attr o_endpoint _ _ pt (fun _ => eq_refl) K3 X2). done. }
  assert (Hke : forall l k, kind_of h2 l = Some k -> exists_in h2 l) by (intros l k H; unfold kind_of in H; destruct (h2 !! l) eqn:X; [by eexists|done]).
  destruct F1 as (N1 & A1 & A2 & A3 & A4 & A5 & A6 & p1 & _ & A7 & A8 & A9). destruct F2 as (N2 & B1 & B2 & B3 & B4 & B5 & B6 & p2 & _ & B7 & B8 & B9). destruct F3 as (N3 & D1 & D2 & D3 & D4 & D5 & D6 & p3 & _ & D7 & D8 & D9).
  rewrite decide_False, app_nil_r in A7 by lia. rewrite decide_False, app_nil_r in B7 by lia. rewrite decide_False, app_nil_r in D7 by lia.
  assert (Hee : exists_in h2 e) by (eapply Hke; apply EM).
  assert (Hche : children h3 e = [r1; r2; r3]) by (rewrite C3 by exact Hee; apply EM).
  assert (Hpr : incoming_relations e s3 = (Ok [r1; r2], s3)).
  { destruct (kept_exists _ _ _ K3 Hee) as [oe Hoe]. destruct (q_C19 s3 e oe Hoe) as (rs' & ins' & outs' & Q1 & Q2 & Q3 & Q4 & _). rewrite Q2, Q4. rewrite (sub_relations_ok _ _ _ Hoe) in Q1. injection Q1 as <-.
    unfold relations_of. fold h3. rewrite Hche. assert (Hk' : forall r, kind_of h2 r = Some KRel -> kind_of h3 r = Some KRel) by (intros r Hr; rewrite (kept_kind _ _ _ K3); eauto).
    assert (Hd' : forall r, kind_of h2 r = Some KRel -> attr_of o_dir h3 r = attr_of o_dir h2 r) by (intros r Hr; unfold attr_of; apply (kept_attr o_dir _ _ r (fun _ => eq_refl) K3); eauto).
    rewrite !filter_cons, filter_nil. rewrite !decide_True by (by apply Hk'). rewrite !filter_cons, filter_nil, !Hd', A5, B5, D5 by done.
    rewrite !decide_True by (by left). rewrite decide_False by (by intros [X|X]). done. }
  exists (b + 0), (b + 1), (b + 2), (b + 5), (b + 8), e, x3, r1, r2, r3, s3. split.
  { unfold accu_fuzzy. fold f. rewrite HB. change [plain_tuple (b + 2) INWARDS; plain_tuple (b + 5) INWARDS; plain_tuple (b + 8) OUTWARDS] with (map no_sem ts).
    rewrite (bind_ok _ _ _ _ _ E2), (bind_ok _ _ _ _ _ E3), (bind_ok _ _ _ _ _ Hpr). done. }
  split; [done|]. split.
  { split.
    - apply (Hkeep 0 _ eq_refl); [lia|]. pose proof (em_p _ _ _ _ _ _ _ EM (Hts 0 ltac:(lia) ltac:(lia) ltac:(lia))) as X. fold h2 in X. rewrite X. by rewrite (Hkid 0 _ eq_refl).
    - apply (Hkeep 1 _ eq_refl); [lia|]. rewrite O2; [|apply Hex; lia|lia|apply Hts; lia]. by rewrite (Hkid 1 _ eq_refl).
    - exists (b + 3), (b + 4), p1. split; [apply (Hkeep 2 _ eq_refl); [lia|]; by rewrite A7, (Hkid 2 _ eq_refl)|]. split; [apply Hrel; eauto|].
      split; [apply (Hval 3 _ eq_refl); (lia || done)|apply (Hval 4 _ eq_refl); (lia || done)].
    - exists (b + 6), (b + 7), p2. split; [apply (Hkeep 5 _ eq_refl); [lia|]; by rewrite B7, (Hkid 5 _ eq_refl)|]. split; [apply Hrel; eauto|].
      split; [apply (Hval 6 _ eq_refl); (lia || done)|apply (Hval 7 _ eq_refl); (lia || done)].
    - exists (b + 9), p3. split; [apply (Hkeep 8 _ eq_refl); [lia|]; by rewrite D7, (Hkid 8 _ eq_refl)|]. split; [apply Hrel; eauto|].
      apply (Hval 9 _ eq_refl); (lia || done).
    - eapply (element_kept h2 h3); [exact K3|exact U3|exact Hee| |split; [apply EM|split; [apply EM|split; [apply EM|apply EM]]]]. rewrite C3 by exact Hee. apply EM.
    - unfold element, kind_of, name_of. fold h3. rewrite Ho3. cbn [fmap option_fmap option_map default]. rewrite Hk3. split; [done|]. split; [by cbn; rewrite Hnm3|]. done. }
  assert (Hold : forall l, exists_in (heap s) l -> exists_in (heap s1) l) by (intros l; apply kept_exists, L).
  split.
  { intros l Hl Hin. pose proof (Hold l Hin) as Hin1. pose proof (Hex2 l Hin1) as Hin2. pose proof (proj1 (exists_in_lt _ _) Hin) as Hlt. fold b in Hlt. apply elem_of_list_In in Hl.
    destruct Hl as [<-|[<-|[<-|[<-|[<-|[<-|[<-|[<-|[<-|[<-|[]]]]]]]]]]]; try lia; try done.
    - by apply (em_new _ _ _ _ _ _ _ EM). - apply exists_in_lt in Hin2. unfold x3 in Hin2. lia. }
  split; [eapply kept_trans; [apply L|exact K13]|]. split; [intros l Hl; rewrite U13 by auto; by apply L|].
  intros l Hl. pose proof (proj1 (exists_in_lt _ _) Hl) as Hlt. fold b in Hlt. rewrite C3 by auto. rewrite O2; [by apply L|by auto|lia|].
  intros Hin. apply elem_of_list_In in Hin. destruct Hin as [H|[H|[H|[]]]]; unfold tnode in H; cbn [fst] in H; lia.
Qed.
