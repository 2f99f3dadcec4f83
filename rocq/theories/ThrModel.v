(** * ThrModel: a training whose data is collected by a second thread
    (emote/trainer.py with ThreadedGymCollector, tests/gym/collector.py, and emote/memory/memory.py) *)
From Coq Require Import Reals.
From Verif Require Import Py MemModel ProxyModel LoaderModel TrainModel GymModel LiveModel.
Open Scope string_scope.
Open Scope list_scope.
Open Scope Z_scope.

Section Threaded.
Context {S E : Type} `{Scalar S} {O V : Type}.
Variable num : S -> R.
Variable env : genv S E.
(** The agent, the other callbacks, the random numbers, the batches, the settings: as in LiveModel.
    tests/gym/collector.py:38, emote/trainer.py:104-145 *)
Variable agent : V -> nat -> dict Z (obs S) -> res (dict Z (resp S)).
Variable others : behaviour O V.
Variable eject_draws : nat -> list (list draw).
Variable sample_draws : nat -> list draw.
Variable obj : dict string (cell S) -> O.
Variable pc : pconf.
Variable ld : loader.
(** ThreadedGymCollector's arguments and its place among the callbacks; tests/gym/collector.py:68-80 *)
Record tconf : Type := mkTc { tc_id : nat; tc_warmup : nat }.
Variable tc : tconf.
(** The scheduler: how many calls of collect_data the collecting thread finishes before the training thread does
    its next thing (a hook, a batch).  A call of collect_data is taken as one step: the two threads share the policy
    and the table, whose methods hold a lock (emote/memory/table.py:204, 233-237).  A memory.add with several finished
    episodes takes the lock once for each; that a batch is drawn between two of them is not modelled here
    (see AmidModel, C156), nor is an add between the loader's check of the size and its first batch.
    tests/gym/collector.py:95-96 *)
Variable sched : nat -> nat.

(** The world: as in LiveModel, whether the collecting thread runs, and how many things the training thread did.
    tests/gym/collector.py:79-80 *)
Record tlab : Type := mkTl { tl_lab : lab S E V; tl_run : bool; tl_turn : nat }.

(** tests/gym/collector.py:82-96 collect_forever: [n] calls of collect_data; an exception ends the thread (and is only
    printed), the second component says whether it is still there. *)
Fixpoint thr_collects (n : nat) (b : lab S E V) : lab S E V * bool :=
  match n with
  | 0%nat => (b, true)
  | Datatypes.S n =>
      match lab_collect num env agent eject_draws pc b with
      | (b', Err _) => (b', false)
      | (b', Ok _) => thr_collects n b'
      end
  end.

(** What the collecting thread does before the next thing the training thread does; tests/gym/collector.py:95-96 *)
Definition thr_go (w : tlab) : tlab :=
  if tl_run w
  then let '(b, r) := thr_collects (sched (tl_turn w)) (tl_lab w) in mkTl b r (1 + tl_turn w)
  else mkTl (tl_lab w) false (1 + tl_turn w).

(** The hooks of all callbacks.  begin_training (tests/gym/collector.py:55-65, 98-101) tries the environments, collects
    the warmup and starts the thread; end_training (tests/gym/collector.py:103-112) waits for it.  Closing the
    environment is not modelled here (see GymModel). *)
Definition thr_act : behaviour O tlab :=
  fun c ph x st w0 =>
    let w := thr_go w0 in
    if Nat.eqb (cb_id c) (tc_id tc)
    then match ph with
         | PBeginTraining =>
             match lab_begin_training (O := O) num env agent eject_draws pc (mkSc (tc_id tc) (tc_warmup tc) 1) (tl_lab w) with
             | (b, Err e) => (mkTl b (tl_run w) (tl_turn w), Err e)
             | (b, Ok _) => (mkTl b true (tl_turn w), Ok [])
             end
         | PEndTraining => (mkTl (tl_lab w) false (tl_turn w), Ok [])
         | _ => (w, Ok [])
         end
    else let b := tl_lab w in
         let '(v, r) := others c ph x st (lb_v b) in
         (mkTl (mkLab (lb_gym b) (lb_coll b) (lb_px b) (lb_gen b) (lb_asked b) v (lb_notes b)) (tl_run w) (tl_turn w), r).

(** The loader's turn: emote/memory/memory.py:492-504, emote/trainer.py:83-88 *)
Definition thr_next (stop : nat -> res bool) (w0 : tlab) : tlab * option (item O) :=
  let w := thr_go w0 in
  let '(b, it) := lab_next sample_draws obj ld stop (tl_lab w) in (mkTl b (tl_run w) (tl_turn w), it).

(** Before the training; tests/gym/collector.py:69-80 *)
Definition thr_new (envs : list E) (t : table S) (v : V) : tlab := mkTl (lab_new envs t v) false 0.
End Threaded.
Arguments tlab S E V : clear implicits.
