(** * The SDF icon

    framework_python/rei/format/mapping/cognilang_sdf_icon.py

    The icon's own state is the list of models below <sdf>, the current model and the
    cache.  The graph is never changed, so [st] is a parameter (execute_bfs returns it
    unchanged).  Nested coroutines are not counted against the recursion limit [lim],
    which only applies to the traversals (simplification). *)
From Verif Require Export Phys Factorization QueryEngine.

(** CognilangSdfIcon.__init__, 18-23.  A model: its name and children. *)
Record icon := mkIcon { ic_models : list (string * list xml); ic_current : option nat; ic_cache : list xml }.
Definition new_icon : icon := mkIcon [] None [].

(** __add_model_element, 25-30 *)
Definition add_model_element (x : xml) (ic : icon) : icon :=
  match ic_current ic with
  | None => mkIcon (ic_models ic) None (ic_cache ic ++ [x])
  | Some i => mkIcon (alter (fun m : string * list xml => (m.1, m.2 ++ [x])) i (ic_models ic)) (Some i) (ic_cache ic)
  end.
(** [x.append(..)] for each of [ks] *)
Definition xml_append (x : xml) (ks : list xml) : xml := match x with Xml t a p l => Xml t a p (l ++ ks) end.

(** encode_element, 32-54.  The link is added before the inertia is computed. *)
Definition encode_element (rad : Qc) (s : st) (el : loc) (prefix : string) (ic : icon) : res unit * icon :=
  match pkind (heap s) el with
  | KSem SKinematicLink =>
      match encode_link_element (heap s) rad el prefix with
      | Exn e => (Exn e, ic)
      | Ok x => match encode_inertia_element (heap s) el with
                | Exn e => (Exn e, add_model_element x ic)
                | Ok is => (Ok tt, add_model_element (xml_append x is) ic)
                end
      end
  | KSem SCognitiveEntity =>
      (Ok tt, mkIcon (ic_models ic ++ [(pname (heap s) el, ic_cache ic)]) (Some (length (ic_models ic))) [])
  | KSem SKinematicJoint => (Ok tt, add_model_element (group "joint" []) ic)
  | _ => (Ok tt, ic)
  end.
Fixpoint encode_each (rad : Qc) (s : st) (els : list loc) (prefix : string) (ic : icon) : res unit * icon :=
  match els with
  | [] => (Ok tt, ic)
  | el :: els' => match encode_element rad s el prefix ic with
                  | (Ok _, ic') => encode_each rad s els' prefix ic'
                  | (Exn e, ic') => (Exn e, ic')
                  end
  end.
(** [filter(lambda x: isinstance(x, ..), elements)] *)
Definition of_class (c : sclass) (s : st) (els : list loc) : list loc := List.filter (of_kind (k_sem_is c) s) els.
(** encode, 91-98 *)
Definition encode_nodes (rad : Qc) (s : st) (els : list loc) (prefix : string) (ic : icon) : res unit * icon :=
  match encode_each rad s (of_class SCognitiveEntity s els) "" ic with
  | (Ok _, ic') => encode_each rad s (of_class SKinematicLink s els) prefix ic'
  | r => r
  end.
(** encode, 100-104: None in the selection is never an instance of a class *)
Definition joint_pairs (s : st) (els : list loc) : res (list (loc * loc)) :=
  fact_relations false (omap (pparent (heap s)) (of_class SKinematicLink s els) ++ omap (pparent (heap s)) (of_class SKinematicJoint s els)) s.

(** __is_kinematic_graph, 56-58 *)
Definition is_kinematic_graph (h : list obj) (x : loc) : bool := negb (bool_decide (subs_of h (k_sem_is SKinematicGraph) x = [])).

(** The two queries of get_canonical_link (63-68) and encode_sub_graph (81-86), fresh objects *)
Definition class_prep (c : sclass) (s : st) (x : loc) : res bool := Ok (of_kind (k_sem_is c) s x).
Definition class_query (c : sclass) (start : loc) : query := new_query start (class_prep c) (fun _ _ => true).
Definition two_queries (start : loc) : list query := [class_query SKinematicLink start; class_query SKinematicJoint start].
Definition two_names (nm : string) : qengine := add_query (nm +:+ "_joint_query") 1 (add_query (nm +:+ "_link_query") 0 []).
Definition sub_query (lim : nat) (s : st) (start : loc) (nm : string) (r : res (list loc)) : Prop :=
  exists s' qs', engine_run lim (two_names nm) s (two_queries start) r s' qs'.

(** get_canonical_link, 69-75; a set is a list without duplicates *)
Fixpoint drop_driven (h : list obj) (js links : list loc) : res (list loc) :=
  match js with
  | [] => Ok links
  | j :: js' =>
      let? r := r_opt AttributeError (pparent h j) in
      let? e := r_opt AttributeError (pparent h r) in
      let? outs := out_rels h e in
      let? ns := r_map (pendpoint h) outs in
      drop_driven h js' (List.filter (fun l => negb (bool_decide (l ∈ flat_map (subs_of h (k_sem_is SKinematicLink)) ns))) links)
  end.
Inductive canonical_run (lim : nat) (s : st) (graph : loc) : res (list loc) -> Prop :=
| can_fails e : sub_query lim s graph (pname (heap s) graph) (Exn e) -> canonical_run lim s graph (Exn e)
| can_done els : sub_query lim s graph (pname (heap s) graph) (Ok els) ->
    canonical_run lim s graph (drop_driven (heap s) (of_class SKinematicJoint s els) (remove_dups (of_class SKinematicLink s els))).

(** StopIteration does not leave a coroutine *)
Definition coro (e : exn) : exn := match e with StopIteration => RuntimeError | _ => e end.

(** encode, 112-117: the joint to the canonical link [l] of a sub-graph.  [j1.parent]
    exists: the pairs were grouped by it. *)
Definition edge_name (h : list obj) (j1 : loc) : string := match pparent h j1 with Some e => pname h e | None => "" end.
Definition connect_element (rad : Qc) (s : st) (j0 j1 l : loc) (prefix : string) : res xml :=
  let h := heap s in
  let? d := r_opt StopIteration (head (subs_of h (k_sem_is SKinematicJoint) j1)) in
  joint_base_element_endpoint h rad j0 j1 (join_prefix [edge_name h j1; "connect"; pname h l] prefix)
    (edge_name h j1 +:+ "." +:+ pname h l) prefix.
(** encode_sub_graph, 80 *)
Definition sub_prefix (h : list obj) (j1 : loc) (prefix : string) : string := prefix +:+ edge_name h j1.

(** encode, 90-119, encode_sub_graph, 78-88.  set.pop takes any element. *)
Inductive encode_run (lim : nat) (rad : Qc) (s : st) : list loc -> string -> icon -> res unit -> icon -> Prop :=
| er_nodes els prefix ic e ic1 : encode_nodes rad s els prefix ic = (Exn e, ic1) -> encode_run lim rad s els prefix ic (Exn (coro e)) ic1
| er_pairs els prefix ic e ic1 : encode_nodes rad s els prefix ic = (Ok tt, ic1) -> joint_pairs s els = Exn e ->
    encode_run lim rad s els prefix ic (Exn (coro e)) ic1
| er_joints els prefix ic ic1 ps ic2 : encode_nodes rad s els prefix ic = (Ok tt, ic1) -> joint_pairs s els = Ok ps ->
    joints_run lim rad s ps prefix ic1 (Ok tt) ic2 -> encode_run lim rad s els prefix ic (Ok tt) ic2
| er_fails els prefix ic ic1 ps e ic2 : encode_nodes rad s els prefix ic = (Ok tt, ic1) -> joint_pairs s els = Ok ps ->
    joints_run lim rad s ps prefix ic1 (Exn e) ic2 -> encode_run lim rad s els prefix ic (Exn (coro e)) ic2
with joints_run (lim : nat) (rad : Qc) (s : st) : list (loc * loc) -> string -> icon -> res unit -> icon -> Prop :=
| jr_nil prefix ic : joints_run lim rad s [] prefix ic (Ok tt) ic
| jr_no_endpoint j0 j1 ps prefix ic e : pendpoint (heap s) j1 = Exn e -> joints_run lim rad s ((j0, j1) :: ps) prefix ic (Exn e) ic
| jr_plain j0 j1 n ps prefix ic x r ic' : pendpoint (heap s) j1 = Ok n -> is_kinematic_graph (heap s) n = false ->
    joint_base_element (heap s) rad j0 j1 prefix = Ok x -> joints_run lim rad s ps prefix (add_model_element x ic) r ic' ->
    joints_run lim rad s ((j0, j1) :: ps) prefix ic r ic'
| jr_plain_fails j0 j1 n ps prefix ic e : pendpoint (heap s) j1 = Ok n -> is_kinematic_graph (heap s) n = false ->
    joint_base_element (heap s) rad j0 j1 prefix = Exn e -> joints_run lim rad s ((j0, j1) :: ps) prefix ic (Exn e) ic
| jr_canonical_fails j0 j1 n ps prefix ic e : pendpoint (heap s) j1 = Ok n -> is_kinematic_graph (heap s) n = true ->
    canonical_run lim s n (Exn e) -> joints_run lim rad s ((j0, j1) :: ps) prefix ic (Exn (coro e)) ic
| jr_no_canonical j0 j1 n ps prefix ic : pendpoint (heap s) j1 = Ok n -> is_kinematic_graph (heap s) n = true ->
    canonical_run lim s n (Ok []) -> joints_run lim rad s ((j0, j1) :: ps) prefix ic (Exn KeyError) ic
| jr_connect_fails j0 j1 n ps prefix ic links l e : pendpoint (heap s) j1 = Ok n -> is_kinematic_graph (heap s) n = true ->
    canonical_run lim s n (Ok links) -> l ∈ links -> connect_element rad s j0 j1 l prefix = Exn e ->
    joints_run lim rad s ((j0, j1) :: ps) prefix ic (Exn e) ic
| jr_sub_fails j0 j1 n ps prefix ic links l x e : pendpoint (heap s) j1 = Ok n -> is_kinematic_graph (heap s) n = true ->
    canonical_run lim s n (Ok links) -> l ∈ links -> connect_element rad s j0 j1 l prefix = Ok x ->
    sub_query lim s n (pname (heap s) j1) (Exn e) ->
    joints_run lim rad s ((j0, j1) :: ps) prefix ic (Exn (coro e)) (add_model_element x ic)
| jr_encode_fails j0 j1 n ps prefix ic links l x els e ic1 : pendpoint (heap s) j1 = Ok n -> is_kinematic_graph (heap s) n = true ->
    canonical_run lim s n (Ok links) -> l ∈ links -> connect_element rad s j0 j1 l prefix = Ok x ->
    sub_query lim s n (pname (heap s) j1) (Ok els) ->
    encode_run lim rad s els (sub_prefix (heap s) j1 prefix) (add_model_element x ic) (Exn e) ic1 ->
    joints_run lim rad s ((j0, j1) :: ps) prefix ic (Exn e) ic1
| jr_graph j0 j1 n ps prefix ic links l x els ic1 r ic2 : pendpoint (heap s) j1 = Ok n -> is_kinematic_graph (heap s) n = true ->
    canonical_run lim s n (Ok links) -> l ∈ links -> connect_element rad s j0 j1 l prefix = Ok x ->
    sub_query lim s n (pname (heap s) j1) (Ok els) ->
    encode_run lim rad s els (sub_prefix (heap s) j1 prefix) (add_model_element x ic) (Ok tt) ic1 ->
    joints_run lim rad s ps prefix ic1 r ic2 -> joints_run lim rad s ((j0, j1) :: ps) prefix ic r ic2.
