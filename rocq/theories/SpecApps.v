(** * Specification vocabulary for the application (C82) *)
From Verif Require Export Spec.

(** [l] is a [k] called [nm] that is in [p] and contains [cs]. *)
Definition element (h : list obj) (l : loc) (k : kind) (nm : string) (p : option loc) (cs : list loc) : Prop :=
  kind_of h l = Some k /\ name_of h l = nm /\ parent_of h l = p /\ children h l = cs.
(** [v] is a value of [n] *)
Definition value_in (h : list obj) (v n : loc) (nm : string) (vals : list pyval) : Prop :=
  element h v KValue nm (Some n) [] /\ attr_of o_vals h v = Some vals.
(** [r] relates the edge [e] to [n]; [pt] is its port in [n] *)
Definition relates (h : list obj) (e r n pt : loc) (d : direction) : Prop :=
  kind_of h r = Some KRel /\ parent_of h r = Some e /\ children h r = [] /\ attr_of o_endpoint h r = Some (Some n) /\ attr_of o_dir h r = Some d /\ attr_of o_weight h r = Some WNone /\
  kind_of h pt = Some KPort /\ attr_of o_endpoint h pt = Some (Some r).
(** The system with its battery, the result and the outer node. *)
Record fuzzy_system (h : list obj) (sys battery dyn sta res infer ext r1 r2 r3 : loc) : Prop := {
  fz_sys : element h sys KNode "fuzzy_sys_cogni" None [battery; infer];
  fz_battery : element h battery KNode "battery_node" (Some sys) [dyn; sta];
  fz_dyn : exists v m pt, element h dyn KNode "battery_dynamic_node" (Some battery) [v; m; pt] /\ relates h infer r1 dyn pt INWARDS /\
     value_in h v dyn "values" [PNum 0; PNum 0; PNum 0] /\ value_in h m dyn "membership" [PNum 1; PNum 1; PNum 1];
  fz_sta : exists v m pt, element h sta KNode "battery_static_node" (Some battery) [v; m; pt] /\ relates h infer r2 sta pt INWARDS /\
     value_in h v sta "values" [PNum 0; PNum 0; PNum 0] /\ value_in h m sta "membership" [PNum 1; PNum 1; PNum 1];
  fz_res : exists v pt, element h res KNode "battery_result" None [v; pt] /\ relates h infer r3 res pt OUTWARDS /\ value_in h v res "battery_result_value" [];
  fz_infer : element h infer KEdge "battery_infer" (Some sys) [r1; r2; r3];
  fz_ext : element h ext KNode "external_effects" None []
}.
