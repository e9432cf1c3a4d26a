(** * Non-vacuity of C72: the robot of Ex13 is converted *)
From stdpp Require Import relations.
From Verif Require Import Spec Hierarchy Elements Factory History CogniLang QueryEngine Sdf Convert SpecConv ExBase Ex1 Ex13 Ex15 Props16.
Local Open Scope nat_scope.

Lemma s13_sha a b : sha s13 a = sha s13 b -> a = b.
Proof. assert (E : sha s13 = (fun x => x)) by (vm_compute; reflexivity). rewrite E. exact id. Qed.
Lemma s13_clk k k' : clk s13 1 k = clk s13 1 k' -> k = k'.
Proof. assert (E : clk s13 = (fun _ n => Z.of_nat n)) by (vm_compute; reflexivity). rewrite E. apply Nat2Z.inj. Qed.
(** the theorem applies ... *)
Example ex_joints : exists links ks blocks lx,
    files15 = [("robot.sdf", FSdf [("robot", lx ++ concat blocks)]); ("robot.load.sh", FText (load_script "robot"))] /\
    lx ≡ₚ links /\ Forall2 (exported_link fl13 rad13) (top_links e13) links /\
    ks ≡ₚ connections e13 /\ Forall2 (exported_connection fl13 rad13 (heap s15)) ks blocks.
Proof. exact (C72_joints_exported fl13 rad13 100 1 e13 s13 files15 s15 s13_reach s13_named s13_sha s13_clk ex_convert). Qed.
(** ... to one connection: from the base to the wheel *)
Example ex_connections : map (fun k => match k with ((_, path, j), r0, r1) => (path, jt_name j, jr_ref r0, jr_ref r1) end) (connections e13) = [(["robot"; "chassis"], "axle", "base", "wheel")].
Proof. vm_compute. reflexivity. Qed.

(** an incoming reference only: the loader accepts it, the export does not *)
Definition loose16 : cjoint := mkJoint "loose" [mkCrel "fix" "<-" "wheel" None None].
Definition e16 : centity := mkEntity "robot" [EiKin "chassis" [KiLink (mkLink false "wheel" None None); KiJoint loose16]].
Definition s16 : st := Eval vm_compute in snd (load fl13 rad13 "cogni_lang_file" 1 e16 s13).
Definition d16 : loader := Eval vm_compute in match fst (load fl13 rad13 "cogni_lang_file" 1 e16 s13) with Ok d => d | Exn _ => d15 end.
Definition root16 : loc := Eval vm_compute in default 0 (ld_root d16).
Definition tasks16 := Eval vm_compute in match prefilter_all 100 (dvals converter_engine) s16 (converter_queries root16) [] with (Ok ts, _, _) => ts | _ => [] end.
Definition store16 := (prefilter_all 100 (dvals converter_engine) s16 (converter_queries root16) []).2.
Definition els16 := Eval vm_compute in (drain_all (dvals converter_engine) (run_tasks s16 tasks16 store16)).1.
Definition nodes16 : icon := Eval vm_compute in (encode_nodes rad13 s16 els16 "" new_icon).2.
Example ex_loose : convert_run fl13 rad13 100 1 e16 s13 (Exn KeyError) s16.
Proof.
  eapply (cv_encode _ _ _ _ _ _ d16 s16 root16 els16).
  - vm_compute. reflexivity.
  - vm_compute. reflexivity.
  - eapply (run_done _ _ _ _ tasks16 s16 store16 tasks16).
    + vm_compute. reflexivity.
    + intros H. vm_compute in H. discriminate H.
    + assert (E : remove_dups tasks16 = tasks16) by (vm_compute; reflexivity). rewrite E. reflexivity.
    + assert (E : els16 = (drain_all (dvals converter_engine) (run_tasks s16 tasks16 store16)).1) by (vm_compute; reflexivity). rewrite E. apply surjective_pairing.
  - eapply (er_pairs 100 rad13 s16 els16 "" new_icon KeyError nodes16); vm_compute; reflexivity.
Qed.
Example ex_loose_hyp : exists j, j ∈ top_joints e16 /\ (exists x, x ∈ jt_rels j.2 /\ incoming x = true) /\ forall x, x ∈ jt_rels j.2 -> outgoing x = false.
Proof.
  exists ([], ["robot"; "chassis"], loose16). assert (E : top_joints e16 = [([], ["robot"; "chassis"], loose16)]) by (vm_compute; reflexivity). rewrite E. split; [left|]. cbn [snd loose16 jt_rels].
  split; [eexists; split; [left|reflexivity]|]. intros x Hx. apply elem_of_list_singleton in Hx as ->. reflexivity.
Qed.
