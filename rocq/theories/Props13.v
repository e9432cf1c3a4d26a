(** * Property theorems C65 - C68: reading a CogniLang description *)
From stdpp Require Import relations.
From Verif Require Import Spec Hierarchy Elements Factory History CogniLang SpecCogni PHist QCog QCog8 QCog9.

(** C65: if the qualified name of every element is its path, a description that is
    accepted has a meaning; a new root element shows exactly this meaning, a second new
    root element the parameters; no old element loses anything, is moved or gets a
    sub-element other than a port; afterwards every qualified name is a path again. *)
Theorem C65_load_builds_meaning fl rad icon c e s d s' : reach s -> (forall l o, heap s !! l = Some o -> full_name (heap s) l (o_qname o)) ->
  load fl rad icon c e s = (Ok d, s') ->
  (exists root t, ld_root d = Some root /\ meaning fl rad e = Some t /\
     ~ exists_in (heap s) root /\ parent_of (heap s') root = None /\ view (heap s') root t) /\
  (~ exists_in (heap s) (ld_params d) /\ parent_of (heap s') (ld_params d) = None /\ view (heap s') (ld_params d) (params_tree (file_params e))) /\
  (kept (heap s) (heap s') /\ unmoved (heap s) (heap s') /\ forall l, exists_in (heap s) l -> kids (heap s') l = kids (heap s) l) /\
  (reach s' /\ forall l o, heap s' !! l = Some o -> full_name (heap s') l (o_qname o)).
Proof.
  intros R N E. destruct (load_meaning fl rad icon c e s d s' (conj R N) E) as (root & t & H1 & H2 & H3 & H4 & H5 & H6 & H7 & H8 & G & C').
  split; [exists root, t; exact (conj H1 (conj H2 (conj H3 (conj H4 H5))))|]. split; [exact (conj H6 (conj H7 H8))|]. split; [|exact C'].
  split; [exact (gs_kept _ _ _ G)|]. split; [exact (gs_unmoved _ _ _ G)|]. intros l Hl. rewrite (gs_kids _ _ _ G l Hl). apply app_nil_r.
Qed.
Print Assumptions C65_load_builds_meaning.

(** C66 *)
Theorem C66_meaningless_rejected fl rad icon c e s : reach s -> (forall l o, heap s !! l = Some o -> full_name (heap s) l (o_qname o)) ->
  meaning fl rad e = None -> exists ex s', load fl rad icon c e s = (Exn ex, s').
Proof. intros R N. exact (load_fails fl rad icon c e s (conj R N)). Qed.
Print Assumptions C66_meaningless_rejected.
(** ... in particular an unreadable number, or a parameter that has not been declared
    before the item; an unreadable mass; a mesh, or a vector given by reference *)
Theorem C66_unreadable_rejected fl rad icon c e s pre it post : reach s -> (forall l o, heap s !! l = Some o -> full_name (heap s) l (o_qname o)) ->
  en_items e = pre ++ it :: post ->
  (exists v, v ∈ eitem_numbers it /\ number fl (flat_map item_params pre) v = None) \/
  (exists l i ps, l ∈ eitem_links it /\ lk_body l = Some (i, ps) /\ fl (in_mass i) = None) \/
  (exists l p, l ∈ eitem_links it /\ p ∈ link_parts l /\ ~ geometry_supported (part_geometry p)) ->
  exists ex s', load fl rad icon c e s = (Exn ex, s').
Proof. intros R N. exact (q_reject fl rad icon c e s pre it post (conj R N)). Qed.
Print Assumptions C66_unreadable_rejected.

(** C67: for every state, the two runs have the same result, value or exception, and
    leave the same state. *)
Theorem C67_not_read fl rad icon c e s : load fl rad icon c (stripped e) s = load fl rad icon c e s.
Proof. exact (q_stripped fl rad icon c e s). Qed.
Print Assumptions C67_not_read.

(** C68: only the first reference to a target gives an edge. *)
Theorem C68_first_reference_refuted fl rad icon c e s d s' : reach s -> (forall l o, heap s !! l = Some o -> full_name (heap s) l (o_qname o)) ->
  load fl rad icon c e s = (Ok d, s') ->
  exists root t, ld_root d = Some root /\ view (heap s') root t /\ reference_edges t = firsts [] (references e).
Proof.
  intros R N E. destruct (load_meaning fl rad icon c e s d s' (conj R N) E) as (root & t & H1 & H2 & _ & _ & H5 & _).
  exists root, t. split; [exact H1|]. split; [exact H5|exact (meaning_refs fl rad e t H2)].
Qed.
Print Assumptions C68_first_reference_refuted.
