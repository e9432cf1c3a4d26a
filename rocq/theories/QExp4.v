(** * Conversion: joints that can be written *)
From stdpp Require Import relations.
From Verif Require Import Spec Hierarchy Elements Factory History PDict PPath PExec PMono PWF PReach SpecFact QFact4 QCog QCog3 QCog5 QCog8 QGo SpecConv QConv3 QConv4 QConv6 QConv8 QExp QExp2 QExp3 SpecKin SpecSdf SpecPhys2 QPhys QPhys2 QKin QSdf QSdf2 QConv2 QConv5 QConv7 QConv9 QConv10 QConv13 SpecExport SpecCogni.

Lemma joint_ready_ok fl rad h x cr l : rel_is fl rad h x cr l -> match jr_axis cr with Some v => 3 <= length v | None => True end -> pose_fits (jr_rigid cr) -> exists d, joint_of h l d /\ joint_ready rad h d.
Proof.
  intros H Ha Hp. destruct (rel_is_inv fl rad h x cr l H) as (d & w & y & dl & ts & _ & _ & _ & _ & _ & _ & Hkid & V & ax & us & Ets & Eax & Eus). exists dl. subst ts. split.
  - unfold joint_of. assert (E : parts h SKinematicJoint l = [dl]); [|by rewrite E]. rewrite <- subs_parts, (subs_kids h _ _ eq_refl), Hkid. cbn [List.filter]. pose proof (v_kind _ _ _ V) as K. unfold kind_of in K. destruct (h !! dl) as [o|]; [|done]. cbn in K. injection K as K. by rewrite K.
  - split.
    + pose proof (view_labelled _ _ _ V) as Lb. cbn [rt] in Lb. pose proof (plain_sattr _ _ _ _ _ "axis" Lb) as S1. rewrite sattr_attr in S1. unfold axis_attr in Eax. destruct (jr_axis cr) as [v|].
      * destruct (numbers fl x.1.1 v) as [q|] eqn:Eq; [|done]. injection Eax as <-. apply numbers_len in Eq. destruct q as [|a [|b [|c q]]]; cbn in Eq; try lia. eexists _, _, _. left. eexists. exact S1.
      * injection Eax as <-. eexists _, _, _. right. split; [exact S1|done].
    + pose proof (view_subs h (k_sem_is SRigidTransformation) dl _ _ eq_refl V) as F. destruct (jr_rigid cr) as [rg|].
      * destruct Eus as (q & Eq & ->). destruct q as [[tr q] u]. cbn in F. apply Forall2_one in F as (z & Ez & Vz). rewrite subs_parts in Ez. rewrite Ez. destruct (pose_ok fl rad h _ z _ rg _ Hp Eq Vz) as [txt Ht]. exists [txt]. by repeat constructor.
      * subst us. cbn in F. apply Forall2_nil_inv_r in F. rewrite subs_parts in F. rewrite F. exists []. constructor.
Qed.

Section runs.
  Context (lim : nat) (rad : Qc) (s : st) (R : reach s).
  Notation h := (heap s).
  Definition ok_enc (els : list loc) : Prop := forall prefix ic, (exists ic', encode_run lim rad s els prefix ic (Ok tt) ic') /\ forall r ic', encode_run lim rad s els prefix ic r ic' -> r = Ok tt.
  Definition pair_ok (jj : loc * loc) : Prop :=
    exists n1 n2 d, kind_of h jj.1 = Some KRel /\ ep_of h jj.1 = Some n1 /\ kind_of h jj.2 = Some KRel /\ ep_of h jj.2 = Some n2 /\ joint_of h jj.2 d /\ joint_ready rad h d /\
      (parts h SKinematicGraph n2 = [] \/ exists ed, leads_to_graph rad h jj.1 jj.2 n1 ed n2 d /\ graph_fits h lim n2 /\ (exists l, canonical h n2 l) /\ forall els, graph_elements h n2 els -> ok_enc els).
  Lemma pairs_run ps : Forall pair_ok ps -> forall prefix ic, (exists ic', joints_run lim rad s ps prefix ic (Ok tt) ic') /\ forall r ic', joints_run lim rad s ps prefix ic r ic' -> r = Ok tt.
  Proof.
    induction 1 as [|[j0 j1] ps (n1 & n2 & d & K0 & E0 & K1 & E1 & Hd & Hr & Hor) _ IH]; intros prefix ic.
    - split; [eexists; constructor|]. intros r ic' J. by inversion J.
    - cbn [fst snd] in *. destruct Hor as [Hg|(ed & Lg & Fg & (l & Hl) & Hels)].
      + destruct (joint_ready_xml rad h d n1 (xml_name prefix (name_of h d)) (name_of h n2) prefix Hr) as [x Hx].
        pose proof (pendpoint_of _ _ _ E1 (or_introl K1)) as X1. pose proof (is_graph_false _ _ Hg) as X2. pose proof (q_joint rad h j0 j1 d n1 n2 prefix x E0 K0 E1 K1 Hd Hx) as X3.
        destruct (IH prefix (add_model_element x ic)) as [[ic' J] IH2]. split; [exists ic'; by eapply jr_plain|]. intros r ic2 J2. inversion J2; subst; try congruence. all: repeat match goal with H : joint_base_element _ _ _ _ _ = Ok ?y |- _ => rewrite X3 in H; injection H as <- end. all: by eapply IH2.
      + pose proof (nested_ep rad s j0 j1 n1 ed n2 d Lg) as EE. pose proof (nested_is rad s j0 j1 n1 ed n2 d Lg) as EI. split.
        * destruct (nested_can_ex lim rad s R j0 j1 n1 ed n2 d Lg Fg) as (ls & C & Hls). destruct (nested_connect rad s j0 j1 n1 ed n2 d Lg l prefix) as (x & _ & Ex). destruct (nested_sub_ex lim rad s R j0 j1 n1 ed n2 d Lg Fg (pname h j1)) as (els & Q & He).
          destruct (Hels els He (sub_prefix h j1 prefix) (add_model_element x ic)) as [[ic1 Er] _]. destruct (IH prefix ic1) as [[ic2 J] _]. exists ic2. eapply jr_graph; [exact EE|exact EI|exact C|by apply Hls|exact Ex|exact Q|exact Er|exact J].
        * intros r ic' J. inversion J; subst; try congruence; repeat match goal with H : pendpoint h j1 = Ok ?m |- _ => rewrite EE in H; injection H as <- end; try congruence;
            match goal with H : canonical_run _ _ _ _ |- _ => destruct (nested_can lim rad s R j0 j1 n1 ed n2 d Lg Fg _ H) as (ls' & E' & _ & HH); try discriminate end.
          -- injection E' as <-. apply HH in Hl. by apply elem_of_nil in Hl.
          -- destruct (nested_connect rad s j0 j1 n1 ed n2 d Lg l0 prefix) as (x & _ & Ex). congruence.
          -- match goal with H : sub_query _ _ _ _ _ |- _ => destruct (nested_sub lim rad s R j0 j1 n1 ed n2 d Lg Fg _ _ H) as (els' & E2 & _) end. discriminate.
          -- match goal with H : sub_query _ _ _ _ _ |- _ => destruct (nested_sub lim rad s R j0 j1 n1 ed n2 d Lg Fg _ _ H) as (els' & E2 & He) end. injection E2 as <-.
             match goal with H : encode_run _ _ _ _ _ _ _ _ |- _ => apply (Hels _ He) in H end. done.
          -- match goal with H : joints_run _ _ _ ps _ _ _ _ |- _ => by eapply IH end.
  Qed.
  (** The links among the elements can be written, and their joints can be paired. *)
  Lemma encoded els ps : (forall el prefix, el ∈ of_sem h SKinematicLink els -> (exists x, encode_link_element h rad el prefix = Ok x) /\ exists is, encode_inertia_element h el = Ok is) ->
    joint_pairs s els = Ok ps -> Forall pair_ok ps -> ok_enc els.
  Proof.
    intros HL HP F prefix ic. assert (EN : exists ic1, encode_nodes rad s els prefix ic = (Ok tt, ic1)).
    { unfold encode_nodes. rewrite !of_class_sem, each_entities by (intros x Hx; by eapply sem_kind). generalize (fold_left open_model (map (name_of h) (of_sem h SCognitiveEntity els)) ic). clear ic.
      assert (K : forall x, x ∈ of_sem h SKinematicLink els -> pkind h x = KSem SKinematicLink) by (intros x Hx; by eapply sem_kind). revert K HL. generalize (of_sem h SKinematicLink els). induction l as [|el l IH]; intros K HL ic; [by eexists|]. cbn [encode_each].
      unfold encode_element. rewrite (K el) by left. destruct (HL el prefix) as [[x ->] [is ->]]; [left|]. apply IH; [intros y Hy; apply K; by right|]. intros y p Hy. apply HL. by right. }
    destruct EN as [ic1 EN]. destruct (pairs_run ps F prefix ic1) as [[ic2 J] J2]. split; [exists ic2; by eapply er_joints|]. intros r ic' E. inversion E; subst; try congruence.
    assert (ps0 = ps) as -> by congruence. repeat match goal with H : encode_nodes _ _ _ _ _ = (Ok tt, ?i) |- _ => rewrite EN in H; injection H as <- end. match goal with H : joints_run _ _ _ _ _ _ (Exn _) _ |- _ => apply J2 in H end. done.
  Qed.
End runs.
