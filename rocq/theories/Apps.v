(** * An application

    framework_python/apps/fuzzy/accu_fuzzy.py *)
From Verif Require Export Factory.

(** [(n, direction, None, None)]: neither weight nor semantic value *)
Definition plain_tuple (n : loc) (d : direction) : loc * direction * weight * option loc := (n, d, WNone, None).
(** main, accu_fuzzy.py:7-32.  The last part of the result is what is printed, [list(...)] of the relations; the others are the local variables. *)
Definition accu_fuzzy (c : clockid) : M (loc * loc * loc * loc * loc * loc * loc * list loc) :=
  let f := mkFactory "fuzzy_sys_factory" c in
  let! sys := generate_node f "fuzzy_sys_cogni" None in
  let! battery := generate_node f "battery_node" (Some sys) in
  let! dyn := generate_node f "battery_dynamic_node" (Some battery) in
  let! _ := create_value f (Some dyn) "values" (Some [PNum 0; PNum 0; PNum 0]) in
  let! _ := create_value f (Some dyn) "membership" (Some [PNum 1; PNum 1; PNum 1]) in
  let! sta := generate_node f "battery_static_node" (Some battery) in
  let! _ := create_value f (Some sta) "values" (Some [PNum 0; PNum 0; PNum 0]) in
  let! _ := create_value f (Some sta) "membership" (Some [PNum 1; PNum 1; PNum 1]) in
  let! res := generate_node f "battery_result" None in
  let! _ := create_value f (Some res) "battery_result_value" (Some []) in
  let! infer := connect_tuple_nodes f sys "battery_infer" [plain_tuple dyn INWARDS; plain_tuple sta INWARDS; plain_tuple res OUTWARDS] in
  let! ext := generate_node f "external_effects" None in
  let! printed := incoming_relations infer in
  ret (sys, battery, dyn, sta, res, infer, ext, printed).
