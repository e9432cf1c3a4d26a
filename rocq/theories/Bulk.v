(** * Bulk operations

    framework_python/rei/foundations/conceptual_item.py:212-216

    asyncio.gather takes a generator for a coroutine (CPython before 3.12; the code
    uses asyncio.coroutine, which 3.11 removed, and match statements, so it runs on
    3.10 only).  A task advances its generator by one [send] per round of the event
    loop: a yielded None suspends it until the next round, any other object that is
    not a future makes the task throw RuntimeError into the generator in the next
    round ("Task got bad yield"); an exception ends the task and is kept in the future. *)
From Verif Require Export Elements.

(** ** add_elements, 212-213: one task for the generator [add_element(x) for x in elements] *)
Inductive add_task := AtPending (rest : list loc) | AtDone | AtFailed (e : exn).
(** One round of the event loop; add_element returns None. *)
Definition add_round (p : loc) (t : add_task) (s : st) : add_task * st :=
  match t with
  | AtPending [] => (AtDone, s)
  | AtPending (x :: xs) => match add_element p x s with
                           | (Ok _, s') => (AtPending xs, s')
                           | (Exn e, s') => (AtFailed e, s')
                           end
  | _ => (t, s)
  end.
Fixpoint add_rounds (n : nat) (p : loc) (t : add_task) (s : st) : add_task * st :=
  match n with
  | 0 => (t, s)
  | S n' => let '(t', s') := add_round p t s in add_rounds n' p t' s'
  end.
(** [await (await p.add_elements(xs))] while nothing else runs: rounds until the task has ended *)
Definition add_elements_awaited (p : loc) (xs : list loc) : M unit := fun s =>
  match add_rounds (S (length xs)) p (AtPending xs) s with
  | (AtDone, s') => (Ok tt, s')
  | (AtFailed e, s') => (Exn e, s')
  | (AtPending _, s') => (Exn Diverges, s')
  end.
(** [asyncio.run(p.add_elements(xs))]: add_elements returns after starting the task, so
    the loop makes one more round; then the task is cancelled (CancelledError is thrown
    into the generator).  What became of the task is not looked at. *)
Definition add_elements_run (p : loc) (xs : list loc) : M unit := fun s => (Ok tt, snd (add_rounds 1 p (AtPending xs) s)).

(** ** remove_elements, 215-216: one task per pair, each with a generator of its own *)
Inductive rm_reply := RmNothing | RmYielded (v : loc) | RmRaised (e : exn).
(** The first round: the tasks are run in order.  A generator that has yielded an
    element gets a RuntimeError in the second round and does nothing more. *)
Fixpoint remove_round (p : loc) (args : list (string * option uid)) (s : st) : list rm_reply * st :=
  match args with
  | [] => ([], s)
  | (nm, u) :: args' =>
      let '(r, s1) := match gen_next (GNew p nm u) s with
                      | (Ok (None, _), s1) => (RmNothing, s1)
                      | (Ok (Some v, _), s1) => (RmYielded v, s1)
                      | (Exn e, s1) => (RmRaised e, s1)
                      end in
      let '(rs, s2) := remove_round p args' s1 in (r :: rs, s2)
  end.
(** The exception that arrives first at the gathering future: those of the first round
    come before the RuntimeErrors of the second. *)
Definition raised (r : rm_reply) : option exn := match r with RmRaised e => Some e | _ => None end.
Definition yielded (r : rm_reply) : bool := match r with RmYielded _ => true | _ => false end.
Definition gathered (rs : list rm_reply) : res unit :=
  match omap raised rs with
  | e :: _ => Exn e
  | [] => if existsb yielded rs then Exn RuntimeError else Ok tt
  end.
(** [await (await p.remove_elements(args))] *)
Definition remove_elements_awaited (p : loc) (args : list (string * option uid)) : M unit := fun s =>
  let '(rs, s') := remove_round p args s in (gathered rs, s').
(** [asyncio.run(p.remove_elements(args))]: the first round takes place *)
Definition remove_elements_run (p : loc) (args : list (string * option uid)) : M unit := fun s => (Ok tt, snd (remove_round p args s)).
