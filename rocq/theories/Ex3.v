(** * Non-vacuity of C21 - C25 *)
From Verif Require Import Spec SpecFac Hierarchy Elements Factory History ExBase Ex1.

(** C21: hash of [s0] is the identity, hence collision free *)
Example c21_hyp : forall a b, sha s1 a = sha s1 b -> a = b.
Proof.
  assert (E : sha s1 = fun x => x) by (vm_compute; reflexivity). intros a b. rewrite E. done.
Qed.
Example c21_run : exists u, fst (generate_uid fac "x" s1) = Ok u.
Proof. eexists. vm_compute. reflexivity. Qed.
(** A root node p/c and a node c below the root p, at one time: equal uuids. *)
Example c21_root_and_child : 
  let s := s0_const in
  let '(r, sa) := generate_node fac "p" None s in
  let '(r1, sb) := generate_node fac "c" (Some 0) sa in
  let '(r2, sc) := generate_node fac "p/c" None sb in
  r = Ok 0 /\ r1 = Ok 1 /\ r2 = Ok 2 /\ uuid_of (heap sc) 1 = uuid_of (heap sc) 2.
Proof. vm_compute. repeat split. Qed.
(** C22 *)
Definition o0 := nth 0 (heap s1) (blank KNode "" "" "").
Example c22_hyp : heap s1 !! 0 = Some o0 /\ o_kind o0 = KNode /\
  (forall (nm : string) (t : Z) x, nm ∈ ["n1"; "n2"; "n3"] -> x ∈ children (heap s1) 0 ->
    uuid_of (heap s1) x <> sha s1 (f_name fac +:+ "/" +:+ (o_qname o0 +:+ "/" +:+ nm) +:+ "." +:+ str_of_Z t)).
Proof.
  split; [vm_compute; reflexivity|]. split; [vm_compute; reflexivity|]. intros nm t x Hn Hx.
  assert (E : children (heap s1) 0 = [1; 2; 5]) by (vm_compute; reflexivity). rewrite E in Hx.
  assert (Eh : sha s1 = fun x => x) by (vm_compute; reflexivity). rewrite Eh.
  assert (Eq : o_qname o0 = "root") by (vm_compute; reflexivity). rewrite Eq.
  assert (E1 : uuid_of (heap s1) 1 = "f/root/a.3") by (vm_compute; reflexivity).
  assert (E2 : uuid_of (heap s1) 2 = "f/root/a.7") by (vm_compute; reflexivity).
  assert (E5 : exists r, uuid_of (heap s1) 5 = String.append "f/e" r) by (eexists; vm_compute; reflexivity). destruct E5 as [r E5].
  repeat (apply elem_of_cons in Hx as [->|Hx]); [rewrite E1|rewrite E2|rewrite E5|by inversion Hx];
    repeat (apply elem_of_cons in Hn as [->|Hn]); try (by inversion Hn); cbn; discriminate.
Qed.
Example c22_run : fst (generate_list_nodes fac ["n1"; "n2"; "n3"] (Some 0) s1) = Ok [11; 12; 13].
Proof. vm_compute. reflexivity. Qed.
Definition s3 : st := snd (exec (OGenNode fac "root" None) s0_const).
Lemma s3_reach : reach s3.
Proof. apply (run_reach [OGenNode fac "root" None] s0_const); [apply reach_init|]. vm_compute. reflexivity. Qed.
Example c22_dup : (forall n, clk s3 (f_clock fac) n = 0%Z) /\ ~ NoDup ["x"; "y"; "x"] /\
  fst (generate_list_nodes fac ["x"; "y"; "x"] (Some 0) s3) = Exn ErrorDuplicateElement.
Proof.
  split; [|split; [|vm_compute; reflexivity]].
  - assert (E : clk s3 = fun _ _ => 0%Z) by (vm_compute; reflexivity). intros n. by rewrite E.
  - intros H. apply NoDup_cons in H as [H _]. apply H. right. left.
Qed.
(** C23, C24 *)
Example c23_run : fst (connect_nodes fac 0 "e2" [4; 2; 3] OUTWARDS None s1) = Ok 11 /\
  fst (connect_nodes fac 0 "e2" [4; 2; 3] OUTWARDS (Some [WNone]) s1) = Exn ErrorInsufficientValues.
Proof. vm_compute. repeat split. Qed.
Definition s4 : st := snd (connect_nodes fac 0 "e2" [4; 2; 3] OUTWARDS None s1).
Example c23_shape : children (heap s4) 11 = [12; 14; 16] /\ map (attr_of o_endpoint (heap s4)) [12; 14; 16] = map (fun x => Some (Some x)) [4; 2; 3].
Proof. vm_compute. repeat split. Qed.
Example c23_names : NoDup (map (name_of (heap s1)) [4; 2; 3]) /\
  forallb (fun x => negb (uuid_of (heap s1) x =? sha s1 (f_name fac +:+ "/" +:+ "e2" +:+ "." +:+ str_of_Z (clk s1 0 (tick s1))))%string) (children (heap s1) 0) = true.
Proof.
  split; [|vm_compute; reflexivity]. assert (E : map (name_of (heap s1)) [4; 2; 3] = ["c"; "a"; "b"]) by (vm_compute; reflexivity). rewrite E.
  repeat constructor; intros H; repeat (apply elem_of_cons in H as [H|H]; [discriminate H|]); inversion H.
Qed.
Example c24_run : fst (connect_dir_edges fac 0 "e2" [4] [2; 3] s1) = Ok 11 /\
  fst (outgoing_relations 11 (snd (connect_dir_edges fac 0 "e2" [4] [2; 3] s1))) = Ok [].
Proof. vm_compute. repeat split. Qed.
(** C25: an edge and a value of one name at one time, in two containers and in one *)
Definition s5 : st := snd (exec (OGenNode fac "n" (Some 0)) s3).
Example c25_run : fst (make MkEdge fac 0 "x" s5) = Ok 2 /\
  fst (make (MkValue None) fac 1 "x" (snd (make MkEdge fac 0 "x" s5))) = Ok 3 /\
  fst (make (MkValue None) fac 0 "x" (snd (make MkEdge fac 0 "x" s5))) = Exn ErrorDuplicateElement /\
  fst (make (MkSem " Kinematic_Joint" [("k", PStr "v")] None) fac 0 "x" (snd (make MkEdge fac 0 "x" s5))) = Exn ErrorDuplicateElement.
Proof. vm_compute. repeat split. Qed.
