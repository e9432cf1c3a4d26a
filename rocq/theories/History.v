(** * Histories of API calls

    An exception is caught by the caller, the history goes on from the state in
    which it was raised. *)
From Verif Require Export Factory Spec.

Inductive op :=
(* constructors *)
| ONew (k : kind) (nm : string) (u : uid) (prog : string) (c : option clockid) (parent : option loc)
| ONewRel (u : uid) (nm prog : string) (ep : loc) (w : weight) (d : direction) (sem : option loc)
| ONewPort (u : uid) (nm prog : string) (ep : loc)
| ONewValue (u : uid) (nm prog : string) (vals : option (list pyval))
| ONewSem (c : sclass) (u : uid) (nm prog : string) (attr : dict string pyval)
(* hierarchy *)
| OAdd (p c : loc)
| ORemove (p : loc) (nm : string) (u : option uid)
| ORegister (x p : loc)
| ODeregister (x : loc)
| OConnect (x r : loc)
| ODisconnect (x r : loc)
| OUnary (e n : loc) (w : weight) (d : direction) (sem : option loc)
| OUpdate (x : loc)
| OSetClock (x : loc) (c : clockid)
(* values and attributes *)
| OSetValue (v : loc) (i : Z) (x : pyval)
| OSetValues (v : loc) (l : list pyval)
| OSetAttr (x : loc) (k : string) (v : pyval)
| ODelAttr (x : loc) (k : string)
(* factories *)
| OGenNode (f : factory) (nm : string) (parent : option loc)
| OGenNodes (f : factory) (nms : list string) (parent : option loc)
| OHyperedge (f : factory) (p : loc) (nm : string)
| OConnectNodes (f : factory) (p : loc) (nm : string) (ns : list loc) (d : direction)
    (vs : option (list weight))
| OConnect2 (f : factory) (p : loc) (nm : string) (ins outs : list loc) (d : direction * direction)
    (vs : option (list weight))
| OCreateValue (f : factory) (p : option loc) (nm : string) (vs : option (list pyval))
| OSemantic (f : factory) (raw nm : string) (p : loc) (attr : dict string pyval) (vs : option pyval).

Definition void {A} (m : M A) : M unit := m ;; ret tt.

Definition exec (o : op) : M unit :=
  match o with
  | ONew k nm u prog c parent => void (new_conceptual k nm u prog c parent)
  | ONewRel u nm prog ep w d sem => void (new_rel u nm prog ep w d sem)
  | ONewPort u nm prog ep => void (new_port u nm prog ep)
  | ONewValue u nm prog vals => void (new_value u nm prog vals)
  | ONewSem c u nm prog attr => void (new_sem c u nm prog attr)
  | OAdd p c => add_element p c
  | ORemove p nm u => void (remove_all p nm u)
  | ORegister x p => register x p
  | ODeregister x => deregister x
  | OConnect x r => connect x r
  | ODisconnect x r => disconnect x r
  | OUnary e n w d sem => void (unary_connect e n w d sem)
  | OUpdate x => update x
  | OSetClock x c => set_clock x (Some c)
  | OSetValue v i x => update_value v i x
  | OSetValues v l => update_values v l
  | OSetAttr x k v => add_named_attribute x k v
  | ODelAttr x k => remove_named_attribute x k
  | OGenNode f nm parent => void (generate_node f nm parent)
  | OGenNodes f nms parent => void (generate_list_nodes f nms parent)
  | OHyperedge f p nm => void (create_hyperedge f p nm)
  | OConnectNodes f p nm ns d vs => void (connect_nodes f p nm ns d vs)
  | OConnect2 f p nm ins outs d vs => void (connect_2factor_edges f p nm ins outs d vs)
  | OCreateValue f p nm vs => void (create_value f p nm vs)
  | OSemantic f raw nm p attr vs => void (generate_semantic_element f raw nm p attr vs)
  end.

(** ** Excluded call shapes (each is shown to break the properties) *)

(** [c] is not (directly) inside an edge or a relation, where removal is broken. *)
Definition removable (h : list obj) (c : loc) : Prop :=
  forall q, parent_of h c = Some q -> kind_of h q <> Some KEdge /\ kind_of h q <> Some KRel.

(** p.add_element(c): c is not a proper ancestor of p. *)
Definition add_ok (h : list obj) (p c : loc) : Prop :=
  exists_in h p /\ exists_in h c /\ ~ ancestor h c p /\ removable h c.

Definition ex_opt (h : list obj) (x : option loc) : Prop :=
  match x with Some l => exists_in h l | None => True end.

Definition allowed (h : list obj) (o : op) : Prop :=
  match o with
  | ONew k _ _ _ _ parent => is_conceptual k = true /\ ex_opt h parent
  | ONewRel _ _ _ ep _ _ _ => exists_in h ep
  | ONewPort _ _ _ ep => exists_in h ep
  | ONewValue _ _ _ _ => True
  | ONewSem _ _ _ _ _ => True
  | OAdd p c => add_ok h p c
  | ORemove p nm u =>
      exists_in h p /\ kind_of h p <> Some KEdge /\ kind_of h p <> Some KRel /\
      (forall u', nm <> "" -> u = Some u' ->
         forall c, c ∈ children h p -> uuid_of h c = u' -> name_of h c = nm)
  | ORegister x p => add_ok h p x
  | ODeregister x => exists_in h x /\ removable h x
  | OConnect x r => exists_in h x /\ exists_in h r
  | ODisconnect x r => exists_in h x /\ exists_in h r
  | OUnary e n _ _ sem =>
      exists_in h e /\ exists_in h n /\
      match sem with
      | Some sv => exists_in h sv /\ removable h sv /\ ~ within h sv e
      | None => True
      end
  | OUpdate x => exists_in h x
  | OSetClock x _ => exists_in h x
  | OSetValue v _ _ | OSetValues v _ => exists_in h v
  | OSetAttr x _ _ | ODelAttr x _ => exists_in h x
  | OGenNode _ _ parent => ex_opt h parent
  | OGenNodes _ _ parent => ex_opt h parent
  | OHyperedge _ p _ => exists_in h p
  | OConnectNodes _ p _ ns _ _ => exists_in h p /\ Forall (exists_in h) ns
  | OConnect2 _ p _ ins outs _ _ => exists_in h p /\ Forall (exists_in h) ins /\ Forall (exists_in h) outs
  | OCreateValue _ p _ _ => ex_opt h p
  | OSemantic _ _ _ p _ _ => exists_in h p
  end.

(** The empty world with an arbitrary clock and hash function. *)
Definition init_st (ck : clockid -> nat -> Z) (hf : string -> string) : st :=
  mkSt [] 0 ck hf [] [] [].

Inductive reach : st -> Prop :=
| reach_init ck hf : reach (init_st ck hf)
| reach_step s o : reach s -> allowed (heap s) o -> reach (snd (exec o s)).

(** ** Histories

    [MAny]: all allowed calls; [MKeep]: nothing is removed (elements may be
    moved); [MLeaf]: moreover only parentless elements without sub-elements are
    attached. *)
Inductive mode := MAny | MKeep | MLeaf.

Definition obeys (g : mode) (h : list obj) (o : op) : Prop :=
  match g with
  | MAny => True
  | MKeep => match o with ORemove _ _ _ | ODeregister _ => False | _ => True end
  | MLeaf =>
      match o with
      | ORemove _ _ _ | ODeregister _ => False
      | OAdd _ c | ORegister c _ => parent_of h c = None /\ children h c = []
      | OUnary _ _ _ _ sem => sem = None
      | _ => True
      end
  end.

(** [history g s s']: a sequence of calls leads from [s] to [s']. *)
Inductive history (g : mode) (s : st) : st -> Prop :=
| hist_nil : history g s s
| hist_step s1 o : history g s s1 -> allowed (heap s1) o -> obeys g (heap s1) o ->
    history g s (snd (exec o s1)).
