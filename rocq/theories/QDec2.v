(** * Decoding an arbitrary message: the result *)
From stdpp Require Import relations sorting.
From Verif Require Import Spec Hierarchy Elements Factory History PDict PPath PExec PBfs PWF PAdd PMono PStep PRemove PReach PPrim PHist QHier QHier2 QHier3 QHier4 QHier5 QHier6 QFac SpecFac QFac2 QEnc Encode SpecEnc QEnc2 SpecDecode QDec.

Lemma from_app L k a b : from L k (a ++ b) -> from L k a /\ from L (k + length a) b.
Proof.
  intros F. split.
  - intros i t Ht. apply F. by apply lookup_app_l_Some.
  - intros i t Ht. rewrite <- Nat.add_assoc. apply F. by rewrite lookup_app_r, Nat.add_comm, Nat.add_sub by lia.
Qed.
Lemma dinv_start (h0 : list obj) L s : reach s -> h0 = heap s -> dinv h0 L 0 [] s.
Proof.
  intros R ->. pose proof (reach_wf s R) as W. split.
  - done.
  - lia.
  - done.
  - intros. lia.
  - intros. lia.
  - intros. lia.
  - intros l Hl. unfold children. rewrite (lookup_ge_None_2 (heap s) l Hl). constructor.
  - intros l Hl He. apply exists_in_lt in He. lia.
  - intros u l. split; [done|]. intros (j & (Hj & _) & _). lia.
  - intros. lia.
  - lia.
Qed.

Lemma decode_run m s g : reach s ->
  (exists root s', create_graph m s g = (Ok (root, decoded_hom m), s', mkIcon (ic_coo g) (ic_clock g) root (Some (decoded_hom m))) /\ reach s' /\
     all_fit (items m) /\ built m (heap s) (heap s') /\ last_root m (length (heap s)) root) \/
  (exists e s', create_graph m s g = (Exn e, s', g) /\ bad e /\ ~ all_fit (items m)).
Proof.
  intros R. pose proof (reach_wf s R) as W. set (L := items m).
  assert (F0 : from L 0 (items m)) by (intros i t Ht; exact Ht). unfold items in F0.
  apply from_app in F0 as [FN F0]. apply from_app in F0 as [FE F0]. apply from_app in F0 as [FR FV].
  rewrite map_length in *. unfold create_graph.
  destruct (nodes_run (heap s) L W (ic_clock g) (m_nodes m) 0 [] s None (dinv_start _ L s R eq_refl) FN) as [(els1 & rt & s1 & E1 & D1 & HR)|(e & s1 & E1 & He & Hf)].
  2:{ right. rewrite (bind_exn _ _ _ _ _ E1). by exists e, s1. }
  rewrite (bind_ok _ _ _ _ _ E1). cbn [fst snd].
  destruct (edges_run (heap s) L W (ic_clock g) (m_edges m) _ els1 s1 D1 FE) as [(els & s2 & E2 & D2)|(e & s2 & E2 & He & Hf)].
  2:{ right. rewrite (bind_exn _ _ _ _ _ E2). by exists e, s2. }
  rewrite (bind_ok _ _ _ _ _ E2). rewrite map_length in *.
  destruct (rels_run (heap s) L W els (m_rels m) _ s2 D2 FR) as [(s3 & E3 & D3)|(e & s3 & E3 & He & Hf)].
  2:{ right. rewrite (bind_exn _ _ _ _ _ E3). by exists e, s3. }
  rewrite (bind_ok _ _ _ _ _ E3). rewrite map_length in *.
  destruct (values_run (heap s) L W els (m_values m) _ s3 D3 FV) as [(s4 & E4 & D4)|(e & s4 & E4 & He & Hf)].
  2:{ right. rewrite (bind_exn _ _ _ _ _ E4). by exists e, s4. }
  rewrite (bind_ok _ _ _ _ _ E4). left. exists rt, s4. cbn [ret].
  assert (HL : 0 + length (m_nodes m) + length (m_edges m) + length (m_rels m) + length (m_values m) = length L).
  { unfold L, items. rewrite !app_length, !map_length. lia. }
  rewrite HL in D4. split; [done|]. split; [apply D4|].
  assert (Hlt : forall i t, L !! i = Some t -> i < length L) by (intros i t Ht; by apply lookup_lt_Some in Ht).
  split; [intros i t Ht; apply (di_fits _ _ _ _ _ D4); [by eapply Hlt|done]|]. split.
  - split.
    + apply D4.
    + apply D4.
    + intros i t Ht. fold L in Ht. destruct (di_item _ _ _ _ _ D4 i t (Hlt _ _ Ht) Ht) as (o & O1 & (K1 & K2 & K3 & K4 & _ & K6 & K7) & _).
      destruct (heap s4 !! (length (heap s) + i)) as [o'|] eqn:Eo; [|done]. apply (inj Some) in O1.
      unfold kind_of, uuid_of, name_of, vals_of, dir_of, weight_of. rewrite Eo. cbn.
      split; [f_equal; etransitivity; [exact (f_equal o_kind O1)|exact K1]|]. split; [etransitivity; [exact (f_equal o_uuid O1)|exact K2]|].
      split; [etransitivity; [exact (f_equal o_name O1)|exact K3]|]. split; [etransitivity; [exact (f_equal o_vals O1)|exact K4]|].
      split; [f_equal; etransitivity; [exact (f_equal o_dir O1)|exact K6]|etransitivity; [exact (f_equal o_weight O1)|exact K7]].
    + intros i t p Ht. change (items m) with L in Ht; change (items m) with L. destruct (it_parent t) as [u|] eqn:Ep.
      * destruct (di_par1 _ _ _ _ _ D4 i t u (Hlt _ _ Ht) Ht Ep) as (j & Hj & ->). split.
        -- intros [= <-]. by exists u, j.
        -- intros (u' & j' & [= <-] & Hj' & ->). by rewrite (latest_det _ _ _ _ _ Hj Hj').
      * rewrite (di_par0 _ _ _ _ _ D4 i t (Hlt _ _ Ht) Ht Ep). split; [done|]. by intros (u & j & ? & _).
    + intros i t p Ht. change (items m) with L in Ht; change (items m) with L. destruct (di_item _ _ _ _ _ D4 i t (Hlt _ _ Ht) Ht) as (o & O1 & _ & K1 & K2).
      destruct (described_get o_endpoint _ _ o (fun _ => eq_refl) O1) as (o' & O2 & O3). unfold ep_of. rewrite O2. cbn. rewrite O3.
      destruct (it_end t) as [u|] eqn:Ep.
      * destruct (K2 u eq_refl) as (j & Hj & ->). split.
        -- intros [= <-]. by exists u, j.
        -- intros (u' & j' & [= <-] & Hj' & ->). by rewrite (latest_det _ _ _ _ _ Hj Hj').
      * rewrite (K1 eq_refl). split; [done|]. by intros (u & j & ? & _).
    + intros l Hl. apply (di_order _ _ _ _ _ D4). rewrite exists_in_lt in Hl. lia.
    + intros l Hl. apply (di_names _ _ _ _ _ D4). rewrite exists_in_lt in Hl. lia.
  - destruct HR as [[HR ->]|(i & n & Hi & Hn & -> & HR)]; [exact HR|]. by exists i, n.
Qed.

Lemma q_C89_accepted m s g : reach s -> is_ok (fst (fst (create_graph m s g))) <-> acceptable (items m).
Proof.
  intros R. rewrite acceptable_fit. destruct (decode_run m s g R) as [(root & s' & E & _ & F & _)|(e & s' & E & _ & F)]; rewrite E; cbn [fst].
  - split; [done|]. intros _. by eexists.
  - split; [by intros [a ?]|done].
Qed.
Lemma q_C89_built m s g root x s' g' : reach s -> create_graph m s g = (Ok (root, x), s', g') -> reach s' /\ built m (heap s) (heap s') /\ last_root m (length (heap s)) root /\ ic_context g' = root /\ ic_hom g' = Some x.
Proof.
  intros R E. destruct (decode_run m s g R) as [(root' & s2 & E' & R' & _ & B & HL)|(e & s2 & E' & _)]; rewrite E in E'; [|done].
  injection E' as -> -> -> ->. done.
Qed.
Lemma q_C89_errors m s g e s' g' : reach s -> create_graph m s g = (Exn e, s', g') -> (e = KeyError \/ e = ErrorDuplicateElement \/ e = ErrorRecursiveHierarchy) /\ g' = g.
Proof.
  intros R E. destruct (decode_run m s g R) as [(root' & s2 & E' & _)|(e' & s2 & E' & He & _)]; rewrite E in E'; [done|]. by injection E' as -> -> ->.
Qed.

(** ** The index tables *)
Lemma last_snoc {A B} (f : A -> B) (l : list A) x b a : last_with f (l ++ [x]) b a <-> (f x = b /\ a = x) \/ (f x <> b /\ last_with f l b a).
Proof.
  split.
  - intros (j & H1 & H2 & H3). destruct (decide (j = length l)) as [->|Hj].
    + rewrite lookup_app_r, Nat.sub_diag in H1 by lia. injection H1 as <-. by left.
    + right. assert (Hl : j < length l). { apply lookup_lt_Some in H1. rewrite app_length in H1. cbn in H1. lia. }
      split; [apply (H3 (length l)); [done|by rewrite lookup_app_r, Nat.sub_diag by lia]|]. exists j. rewrite lookup_app_l in H1 by done.
      split; [done|]. split; [done|]. intros k a' Hk Ha. apply (H3 k); [done|]. by apply lookup_app_l_Some.
  - intros [[H1 ->]|[H1 (j & H2 & H3 & H4)]].
    + exists (length l). split; [by rewrite lookup_app_r, Nat.sub_diag by lia|]. split; [done|]. intros k a' Hk Ha. apply lookup_lt_Some in Ha.
      rewrite app_length in Ha. cbn in Ha. lia.
    + exists j. split; [by apply lookup_app_l_Some|]. split; [done|]. intros k a' Hk Ha. destruct (decide (k < length l)) as [Hl|Hl].
      * rewrite lookup_app_l in Ha by done. by apply (H4 k).
      * rewrite lookup_app_r in Ha by lia. destruct (k - length l) as [|z]; [|done]. injection Ha as <-. done.
Qed.
Lemma pairs_tables {A} (f : A -> uid) (g : A -> nat) (l : list A) : let t := foldl put_pair (mkTable 0 [] []) (map (fun a => (f a, g a)) l) in
  (forall u i, index_of t u = Ok i <-> exists a, last_with f l u a /\ g a = i) /\
  (forall i u, uid_at t i = Ok u <-> exists a, last_with g l i a /\ f a = u) /\ tb_cnt t = length l.
Proof.
  induction l as [|x l IH] using rev_ind; cbn zeta in *.
  - split; [|split; [|done]]; intros; (split; [done|]); intros (a & (j & H & _) & _); done.
  - rewrite map_app, foldl_app. set (t := foldl put_pair _ (map _ l)) in *. destruct IH as (I1 & I2 & I3).
    unfold index_of, uid_at in *. cbn [foldl map put_pair tb_fwd tb_bwd tb_cnt fst snd]. split; [|split].
    + intros u i. rewrite dget_dset. case_decide as Hu.
      * split; [intros [= <-]; exists x; split; [apply last_snoc; by left|done]|].
        intros (a & Ha & <-). apply last_snoc in Ha as [[_ ->]|[H _]]; [done|by subst].
      * rewrite I1. split; intros (a & Ha & Hi); exists a; (split; [|done]); [apply last_snoc; right; by split|]. apply last_snoc in Ha as [[H _]|[_ H]]; [by subst|done].
    + intros i u. rewrite dget_dset. case_decide as Hu.
      * split; [intros [= <-]; exists x; split; [apply last_snoc; by left|done]|].
        intros (a & Ha & <-). apply last_snoc in Ha as [[_ ->]|[H _]]; [done|by subst].
      * rewrite I2. split; intros (a & Ha & Hi); exists a; (split; [|done]); [apply last_snoc; right; by split|]. apply last_snoc in Ha as [[H _]|[_ H]]; [by subst|done].
    + rewrite app_length, I3. done.
Qed.
Lemma decoded_tables m : tables m (decoded_hom m).
Proof.
  destruct (pairs_tables mn_uuid mn_index (m_nodes m)) as (N1 & N2 & N3). destruct (pairs_tables me_uuid me_index (m_edges m)) as (E1 & E2 & E3).
  destruct (pairs_tables mv_uuid mv_index (m_values m)) as (V1 & V2 & V3). split; done.
Qed.
Lemma q_C89_tables m s g root x s' g' : create_graph m s g = (Ok (root, x), s', g') -> tables m x.
Proof.
  intros E. unfold create_graph in E. match type of E with (match ?p with _ => _ end) = _ => destruct p as [[r|e] s2] end; [|done]. injection E as _ <- _ _. apply decoded_tables.
Qed.
