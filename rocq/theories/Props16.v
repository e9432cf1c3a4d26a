(** * Property theorems C72: from the joints of a description to the SDF file *)
From Verif Require Import Spec Hierarchy Elements Factory History CogniLang Sdf Convert QCog QConv13 SpecConv.

(** C72: what a conversion that succeeds has written: the links, then one block for each connection *)
Theorem C72_joints_exported fl rad lim c e s files s' : reach s -> (forall l o, heap s !! l = Some o -> full_name (heap s) l (o_qname o)) ->
  (forall a b, sha s a = sha s b -> a = b) -> (forall k k', clk s c k = clk s c k' -> k = k') ->
  convert_run fl rad lim c e s (Ok files) s' ->
  exists links ks blocks lx,
    files = [(en_name e +:+ ".sdf", FSdf [(en_name e, lx ++ concat blocks)]); (en_name e +:+ ".load.sh", FText ("ros2 run gazebo_ros spawn_entity.py -entity " +:+ en_name e +:+ " -file " +:+ en_name e +:+ ".sdf"))] /\
    lx ≡ₚ links /\ Forall2 (exported_link fl rad) (top_links e) links /\
    ks ≡ₚ connections e /\ Forall2 (exported_connection fl rad (heap s')) ks blocks.
Proof. intros R N HS HC H. exact (proj1 (converted_joints fl rad lim c e s files s' (conj R N) HS HC H)). Qed.
Print Assumptions C72_joints_exported.
(** a joint with an incoming or undirected reference and no outgoing one cannot be converted *)
Theorem C72_unbalanced_fails fl rad lim c e s r s' : reach s -> (forall l o, heap s !! l = Some o -> full_name (heap s) l (o_qname o)) ->
  (forall a b, sha s a = sha s b -> a = b) -> (forall k k', clk s c k = clk s c k' -> k = k') ->
  convert_run fl rad lim c e s r s' ->
  (exists j, j ∈ top_joints e /\ (exists x, x ∈ jt_rels j.2 /\ incoming x = true) /\ forall x, x ∈ jt_rels j.2 -> outgoing x = false) -> exists ex, r = Exn ex.
Proof. intros R N HS HC. exact (unbalanced fl rad lim c e s r s' (conj R N) HS HC). Qed.
Print Assumptions C72_unbalanced_fails.
