(** * TrainModel: emote/trainer.py *)
From Verif Require Import Py.
Open Scope string_scope.
Open Scope list_scope.
Open Scope Z_scope.

(** The hooks of a callback (emote/callback.py:112-119). *)
Inductive phase : Type :=
| PRestore | PBeginTraining | PBeginCycle | PBeginBatch | PBackward | PEndBatch | PEndCycle
| PEndTraining.

(** emote/callback.py:183-187.  [cb_id] identifies the object. *)
Record callback : Type := mkCb { cb_id : nat; cb_order : Z; cb_cycle : option Z }.

Section Trainer.
(** Objects in the training state other than numbers, and everything a callback
    can read and change: its own fields, files, random generators, ... *)
Context {O W : Type}.
(** the values in the state, emote/trainer.py:52, 67-68, 84-86 *)
Inductive value : Type := VNum (n : Z) | VObj (o : O).
(** StateDict, emote/trainer.py:52 *)
Definition tstate : Type := dict string value.

(** What the hooks do: a hook gets the state as keyword arguments (and
    end_training the exception) and returns a mapping (empty: None or an empty
    mapping) or raises.  emote/trainer.py:104-145, emote/callback.py:189-240 *)
Definition behaviour : Type := callback -> phase -> option exn -> tstate -> W -> W * res tstate.
Context (act : behaviour).

(** What is observed: batches being merged into the state, and hooks being
    called, with the state they saw and what they returned.  emote/trainer.py:84-86, 104-145 *)
Inductive entry : Type :=
| TBatch (step : Z) (batch : tstate)
| TCall (ph : phase) (c : callback) (x : option exn) (seen : tstate) (result : res tstate).

(** emote/trainer.py:52 with the outside world and the observer's notes *)
Record world : Type := mkWorld { wd_state : tstate; wd_world : W; wd_trace : list entry }.

(** emote/trainer.py:47: [sorted] is stable. *)
Fixpoint insert_cb (c : callback) (l : list callback) : list callback :=
  match l with
  | [] => [c]
  | d :: r => if cb_order c <=? cb_order d then c :: l else d :: insert_cb c r
  end.
(** emote/trainer.py:47 *)
Definition sort_cbs (l : list callback) : list callback := fold_right insert_cb [] l.

(** emote/trainer.py:48-50 *)
Definition is_cyclic (c : callback) : bool :=
  match cb_cycle c with Some n => 0 <? n | None => false end.

(** emote/trainer.py:104-112, 121-134, 142-145: the loop of a phase. *)
Fixpoint run_phase (ph : phase) (x : option exn) (cs : list callback) (s : world)
  : world * res unit :=
  match cs with
  | [] => (s, Ok tt)
  | c :: r =>
      let '(w, result) := act c ph x (wd_state s) (wd_world s) in
      let tr := wd_trace s ++ [TCall ph c x (wd_state s) result] in
      match result with
      | Err e => (mkWorld (wd_state s) w tr, Err e)
      | Ok updated => run_phase ph x r (mkWorld (dupdate (wd_state s) updated) w tr)
      end
  end.

(** emote/trainer.py:114-119, 136-140.  Modulo is taken only for positive cycles. *)
Definition cycle_mod (k : Z) (c : callback) : bool :=
  match cb_cycle c with Some n => (k mod n) =? 0 | None => false end.
(** emote/trainer.py:114-117 *)
Definition begin_cycle_cbs (k : Z) (cs : list callback) : list callback :=
  filter (cycle_mod (k - 1)) (filter is_cyclic cs).
(** emote/trainer.py:136-138 *)
Definition end_cycle_cbs (k : Z) (cs : list callback) : list callback :=
  filter (cycle_mod k) (filter is_cyclic cs).

(** One turn of the loop: what the data loader gives, what the shutdown signal
    says.  emote/trainer.py:83, 88 *)
Record item : Type := mkItem { it_batch : res tstate; it_stop : res bool }.

(** emote/trainer.py:84-86.  Only numbers can be added here; adding tensors or other
    objects is not modelled (TypeError). *)
Definition merge_batch (size_key : string) (k : Z) (batch : tstate) (st : tstate) : res tstate :=
  let st := dset (dupdate st batch) "bp_step" (VNum k) in
  match dget st "bp_samples" with
  | None => Err KeyError
  | Some a =>
      match dget st size_key with
      | None => Err KeyError
      | Some b =>
          match a, b with
          | VNum a, VNum b => Ok (dset st "bp_samples" (VNum (a + b)))
          | _, _ => Err TypeError
          end
      end
  end.

(** Sequencing: stop at the first exception.  the statements of emote/trainer.py:71-72, 84-95 *)
Definition andthen (p : world * res unit) (f : world -> world * res unit) : world * res unit :=
  match p with (s, Err e) => (s, Err e) | (s, Ok _) => f s end.

(** emote/trainer.py:83-95.  When merging fails half-way the partial update of the
    state is not modelled. *)
Definition one_step (size_key : string) (cs : list callback) (k : Z) (it : item) (s : world)
  : world * res unit :=
  match it_batch it with
  | Err e => (s, Err e)
  | Ok batch =>
      match merge_batch size_key k batch (wd_state s) with
      | Err e => (s, Err e)
      | Ok st =>
          let s1 := mkWorld st (wd_world s) (wd_trace s ++ [TBatch k batch]) in
          match it_stop it with
          | Err e => (s1, Err e)
          | Ok true => (s1, Err Shutdown)
          | Ok false =>
              andthen (run_phase PBeginCycle None (begin_cycle_cbs k cs) s1) (fun s2 =>
              andthen (run_phase PBeginBatch None cs s2) (fun s3 =>
              andthen (run_phase PBackward None cs s3) (fun s4 =>
              andthen (run_phase PEndBatch None cs s4) (fun s5 =>
              run_phase PEndCycle None (end_cycle_cbs k cs) s5))))
          end
      end
  end.

(** emote/trainer.py:82-95: the loop over what the data loader gives. *)
Fixpoint loop (size_key : string) (cs : list callback) (k : Z) (items : list item) (s : world)
  : world * res unit :=
  match items with
  | [] => (s, Ok tt)
  | it :: r => andthen (one_step size_key cs k it s) (loop size_key cs (k + 1) r)
  end.

(** How train() ends; [Running] when the data loader has more to give.  emote/trainer.py:70-102 *)
Inductive outcome : Type := Returned | Raised (e : exn) | Running.

(** The data loader: its first items, and whether it ends after them.  emote/trainer.py:83 *)
Record data : Type := mkData { da_items : list item; da_ends : bool }.

(** emote/trainer.py:97-102, 142-145 *)
Definition finish (cs : list callback) (p : world * res unit) (ends : bool) : world * outcome :=
  match p with
  | (s, Ok _) => (s, if ends then Returned else Running)
  | (s, Err e) =>
      match run_phase PEndTraining (Some e) cs s with
      | (s', Err e') => (s', Raised e')
      | (s', Ok _) => (s', match e with Shutdown => Returned | _ => Raised e end)
      end
  end.

(** emote/trainer.py:55-102 *)
Definition train (size_key : string) (callbacks : list callback) (d : data) (st0 : tstate) (w : W)
  : world * outcome :=
  let cs := sort_cbs callbacks in
  let s0 := mkWorld (dset (dset st0 "bp_samples" (VNum 0)) "bp_step" (VNum 1)) w [] in
  match andthen (run_phase PRestore None cs s0) (run_phase PBeginTraining None cs) with
  | (s, Err Shutdown) => (s, Returned)
  | (s, Err _) => (s, Raised OtherError)
  | (s, Ok _) =>
      match dget (wd_state s) "bp_step" with
      | None => finish cs (s, Err KeyError) true
      | Some (VObj _) => finish cs (s, Err TypeError) true
      | Some (VNum k) => finish cs (loop size_key cs k (da_items d) s) (da_ends d)
      end
  end.
End Trainer.
Arguments value O : clear implicits.
Arguments tstate O : clear implicits.
Arguments entry O : clear implicits.
Arguments item O : clear implicits.
Arguments data O : clear implicits.
Arguments world O W : clear implicits.
Arguments behaviour O W : clear implicits.

(** ** BackPropStepsTerminator: emote/callbacks/generic.py:5-17 *)
Definition terminator (id : nat) (bp_steps : Z) : res callback :=
  if 0 <? bp_steps then Ok (mkCb id 0 (Some bp_steps)) else Err AssertionError.
(** Its hooks, added to the behaviour of the other callbacks.  emote/callbacks/generic.py:16-17 *)
Definition with_terminator {O W} (id : nat) (act : behaviour O W) : behaviour O W :=
  fun c ph x st w =>
    if Nat.eqb (cb_id c) id
    then (w, match ph with PEndCycle => Err Shutdown | _ => Ok [] end)
    else act c ph x st w.
