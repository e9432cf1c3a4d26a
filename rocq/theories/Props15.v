(** * Property theorems C71: from a description to the SDF file *)
From Verif Require Import Spec Hierarchy Elements Factory History CogniLang Sdf Convert QCog QConv9 SpecConv.

(** C71: what a conversion that succeeds has written *)
Theorem C71_links_exported fl rad lim c e s files s' : reach s -> (forall l o, heap s !! l = Some o -> full_name (heap s) l (o_qname o)) ->
  convert_run fl rad lim c e s (Ok files) s' ->
  exists links more lx,
    files = [(en_name e +:+ ".sdf", FSdf [(en_name e, lx ++ more)]); (en_name e +:+ ".load.sh", FText ("ros2 run gazebo_ros spawn_entity.py -entity " +:+ en_name e +:+ " -file " +:+ en_name e +:+ ".sdf"))] /\
    lx ≡ₚ links /\ Forall2 (exported_link fl rad) (top_links e) links.
Proof. intros R N. exact (converted fl rad lim c e s files s' (conj R N)). Qed.
Print Assumptions C71_links_exported.
(** a link with two visuals cannot be converted *)
Theorem C71_two_visuals_fail fl rad lim c e s r s' : reach s -> (forall l o, heap s !! l = Some o -> full_name (heap s) l (o_qname o)) ->
  convert_run fl rad lim c e s r s' -> (exists x, x ∈ top_links e /\ 1 < length (visuals x.2)) -> exists ex, r = Exn ex.
Proof. intros R N. exact (two_visuals fl rad lim c e s r s' (conj R N)). Qed.
Print Assumptions C71_two_visuals_fail.
