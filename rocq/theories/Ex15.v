(** * Non-vacuity of C71: the robot of Ex13 is converted *)
From stdpp Require Import relations.
From Verif Require Import Spec Hierarchy Elements Factory History CogniLang QueryEngine Sdf Convert SpecConv ExBase Ex1 Ex13 Props15.
Local Open Scope nat_scope.

Definition out15 := Eval vm_compute in load fl13 rad13 "cogni_lang_file" 1 e13 s13.
Definition s15 : st := Eval vm_compute in snd out15.
Definition d15 : loader := Eval vm_compute in match fst out15 with Ok d => d | Exn _ => mkLoader (mkFactory "" 0) (mkFactory "" 0) [] [] None 0 end.
Definition root15 : loc := Eval vm_compute in default 0 (ld_root d15).
Lemma load15 : load fl13 rad13 "cogni_lang_file" 1 e13 s13 = (Ok d15, s15).
Proof. vm_compute. reflexivity. Qed.
(** the queries; the tasks run in the reverse of the order in which they were made *)
Definition tasks15 := Eval vm_compute in match prefilter_all 100 (dvals converter_engine) s15 (converter_queries root15) [] with (Ok ts, _, _) => ts | _ => [] end.
Definition store15 := (prefilter_all 100 (dvals converter_engine) s15 (converter_queries root15) []).2.
Definition els15 := Eval vm_compute in (drain_all (dvals converter_engine) (run_tasks s15 (rev tasks15) store15)).1.
Example ex_els : els15 = [26; 11; 35; 34; 5] /\ map (kind_of (heap s15)) els15 = [Some (KSem SKinematicLink); Some (KSem SKinematicLink); Some (KSem SKinematicJoint); Some (KSem SKinematicJoint); Some (KSem SCognitiveEntity)].
Proof. split; vm_compute; reflexivity. Qed.
Lemma engine15 : exists qs, engine_run 100 converter_engine s15 (converter_queries root15) (Ok els15) s15 qs.
Proof.
  exists (drain_all (dvals converter_engine) (run_tasks s15 (rev tasks15) store15)).2. eapply (run_done _ _ _ _ tasks15 s15 store15 (rev tasks15)).
  - vm_compute. reflexivity.
  - intros H. vm_compute in H. discriminate H.
  - assert (E : remove_dups tasks15 = tasks15) by (vm_compute; reflexivity). rewrite E. symmetry. apply Permutation_rev.
  - assert (E : els15 = (drain_all (dvals converter_engine) (run_tasks s15 (rev tasks15) store15)).1) by (vm_compute; reflexivity). rewrite E. apply surjective_pairing.
Qed.
(** the elements *)
Definition nodes15 : icon := Eval vm_compute in (encode_nodes rad13 s15 els15 "" new_icon).2.
Definition joint15 : xml := Eval vm_compute in match joint_base_element (heap s15) rad13 38 40 "" with Ok x => x | Exn _ => Xml "" [] [] [] end.
Lemma encode15 : encode_run 100 rad13 s15 els15 "" new_icon (Ok tt) (add_model_element joint15 nodes15).
Proof.
  eapply (er_joints _ _ _ _ _ _ nodes15 [(38, 40)]); [vm_compute; reflexivity|vm_compute; reflexivity|].
  eapply jr_plain; [vm_compute; reflexivity|vm_compute; reflexivity|vm_compute; reflexivity|]. apply jr_nil.
Qed.
Definition files15 : list (string * content) := Eval vm_compute in written (pname (heap s15) root15) (add_model_element joint15 nodes15).
Example ex_convert : convert_run fl13 rad13 100 1 e13 s13 (Ok files15) s15.
Proof.
  destruct engine15 as [qs Q]. change files15 with (written (pname (heap s15) root15) (add_model_element joint15 nodes15)).
  eapply cv_done; [exact load15| |exact Q|exact encode15]. vm_compute. reflexivity.
Qed.
(** the theorem applies, and says something about two links *)
Example ex_links : exists links more lx, files15 = [("robot.sdf", FSdf [("robot", lx ++ more)]); ("robot.load.sh", FText (load_script "robot"))] /\
    lx ≡ₚ links /\ Forall2 (exported_link fl13 rad13) (top_links e13) links.
Proof. exact (C71_links_exported fl13 rad13 100 1 e13 s13 files15 s15 s13_reach s13_named ex_convert). Qed.
Example ex_top : map (fun x => (x.1.2, lk_name x.2)) (top_links e13) = [(["robot"; "chassis"], "base"); (["robot"; "chassis"], "wheel")].
Proof. vm_compute. reflexivity. Qed.
Definition name15 (x : xml) : string * list (string * string) := match x with Xml t a _ _ => (t, a) end.
Example ex_written : match files15 with (_, FSdf [(m, xs)]) :: _ => (m, map name15 xs) = ("robot", [("link", [("name", "wheel")]); ("link", [("name", "base")]); ("joint", [("name", "axle.wheel"); ("type", "revolute")])]) | _ => False end.
Proof. vm_compute. reflexivity. Qed.

(** two visuals: the hypotheses are met and the conversion reaches the links *)
Definition twice13 : clink := mkLink true "twice" None (Some (mkInertia "2" None, [CVisual (Some "v1") None (GOwn GCylinder (FVec [num13 "1"; num13 "2"])); CVisual (Some "v2") None (GOwn GCylinder (FVec [num13 "1"; num13 "2"]))])).
Definition e15b : centity := mkEntity "robot" [EiKin "chassis" [KiLink twice13]].
Definition s15b : st := Eval vm_compute in snd (load fl13 rad13 "cogni_lang_file" 1 e15b s13).
Definition d15b : loader := Eval vm_compute in match fst (load fl13 rad13 "cogni_lang_file" 1 e15b s13) with Ok d => d | Exn _ => d15 end.
Definition root15b : loc := Eval vm_compute in default 0 (ld_root d15b).
Definition tasks15b := Eval vm_compute in match prefilter_all 100 (dvals converter_engine) s15b (converter_queries root15b) [] with (Ok ts, _, _) => ts | _ => [] end.
Definition store15b := (prefilter_all 100 (dvals converter_engine) s15b (converter_queries root15b) []).2.
Definition els15b := Eval vm_compute in (drain_all (dvals converter_engine) (run_tasks s15b tasks15b store15b)).1.
Example ex_twice : 1 < length (visuals twice13) /\ convert_run fl13 rad13 100 1 e15b s13 (Exn KeyError) s15b.
Proof.
  split; [vm_compute; lia|]. eapply (cv_encode _ _ _ _ _ _ d15b s15b root15b els15b).
  - vm_compute. reflexivity.
  - vm_compute. reflexivity.
  - eapply (run_done _ _ _ _ tasks15b s15b store15b tasks15b).
    + vm_compute. reflexivity.
    + intros H. vm_compute in H. discriminate H.
    + assert (E : remove_dups tasks15b = tasks15b) by (vm_compute; reflexivity). rewrite E. reflexivity.
    + assert (E : els15b = (drain_all (dvals converter_engine) (run_tasks s15b tasks15b store15b)).1) by (vm_compute; reflexivity). rewrite E. apply surjective_pairing.
  - eapply (er_nodes 100 rad13 s15b els15b "" new_icon KeyError). vm_compute. reflexivity.
Qed.
Example ex_twice_hyp : exists x, x ∈ top_links e15b /\ 1 < length (visuals x.2).
Proof. exists ([], ["robot"; "chassis"], twice13). split; [|vm_compute; lia]. assert (E : top_links e15b = [([], ["robot"; "chassis"], twice13)]) by (vm_compute; reflexivity). rewrite E. left. Qed.
