(** * The converter from CogniLang to SDF

    framework_python/apps/simulation/convert_cognilang_sdf.py

    The command line, the file system, the lexer, the parser and lxml's printer are not
    modelled: the input is the parse tree, the output the list of the files written,
    the SDF file as the models below <sdf>.  The query engine is not an element of the
    hierarchy that is searched and has no sub-elements, so it is not put into the state. *)
From Verif Require Export CogniLang Sdf.

(** stmt_node_depth, 19-23 *)
Definition stmt_node_depth (depth : nat) (_ : loc) (o : obj) : bool := match o_kind o with KNode => o_depth o <=? depth | _ => true end.
(** The three queries, 43-48; the numbers are the places in the store of query objects *)
Definition converter_queries (root : loc) : list query :=
  [ new_query root (class_prep SKinematicLink) (stmt_node_depth 2);
    new_query root (class_prep SKinematicJoint) (stmt_node_depth 1);
    new_query root (class_prep SCognitiveEntity) (fun _ _ => true) ].
(** The engine, 49-52 *)
Definition converter_engine : qengine := add_query "cognitive_query" 2 (add_query "joint_query" 1 (add_query "link_query" 0 [])).

(** What is written, 56-59 *)
Inductive content := FSdf (models : list (string * list xml)) | FText (t : string).
Definition load_script (nm : string) : string := "ros2 run gazebo_ros spawn_entity.py -entity " +:+ nm +:+ " -file " +:+ nm +:+ ".sdf".
Definition written (nm : string) (ic : icon) : list (string * content) := [(nm +:+ ".sdf", FSdf (ic_models ic)); (nm +:+ ".load.sh", FText (load_script nm))].

(** main, 26-59.  [ld_root] is set when the visit of the tree has succeeded. *)
Inductive convert_run (fl : string -> option Qc) (rad : Qc) (lim : nat) (c : clockid) (e : centity) (s : st) : res (list (string * content)) -> st -> Prop :=
| cv_load x s1 : load fl rad "cogni_lang_file" c e s = (Exn x, s1) -> convert_run fl rad lim c e s (Exn x) s1
| cv_query d s1 root x s2 qs : load fl rad "cogni_lang_file" c e s = (Ok d, s1) -> ld_root d = Some root ->
    engine_run lim converter_engine s1 (converter_queries root) (Exn x) s2 qs -> convert_run fl rad lim c e s (Exn x) s2
| cv_encode d s1 root els s2 qs x ic : load fl rad "cogni_lang_file" c e s = (Ok d, s1) -> ld_root d = Some root ->
    engine_run lim converter_engine s1 (converter_queries root) (Ok els) s2 qs ->
    encode_run lim rad s2 els "" new_icon (Exn x) ic -> convert_run fl rad lim c e s (Exn x) s2
| cv_done d s1 root els s2 qs ic : load fl rad "cogni_lang_file" c e s = (Ok d, s1) -> ld_root d = Some root ->
    engine_run lim converter_engine s1 (converter_queries root) (Ok els) s2 qs ->
    encode_run lim rad s2 els "" new_icon (Ok tt) ic -> convert_run fl rad lim c e s (Ok (written (pname (heap s2) root) ic)) s2.
