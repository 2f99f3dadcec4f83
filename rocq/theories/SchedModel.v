(** * SchedModel: emote/extra/schedules.py

    Simplification: floating point numbers are real numbers. *)
From Coq Require Import Reals.
From Verif Require Import Py NumModel.
Open Scope string_scope.
Open Scope list_scope.
Open Scope R_scope.

(** emote/extra/schedules.py:8-18 BPStepScheduler.evaluate_at *)
Definition bp_evaluate_at (bp_step_begin bp_step_end value_min value_max bp : R) : R :=
  truncated_linear bp_step_begin bp_step_end value_min value_max bp.

(** [a / b] of integers, and of a number by an integer.  as in emote/extra/schedules.py:78, 128-129 *)
Definition truediv (a b : Z) : res R := if Z.eqb b 0 then Err ZeroDivisionError else Ok (IZR a / IZR b).
(** as in emote/extra/schedules.py:80, 154, 157-158, 183 *)
Definition fdiv (x : R) (b : Z) : res R := if Z.eqb b 0 then Err ZeroDivisionError else Ok (x / IZR b).
(** [math.floor].  as in emote/extra/schedules.py:80, 128 *)
Definition floor (x : R) : Z := Int_part x.

(** emote/extra/schedules.py:21-35 Schedule *)
Record schedule : Type := mkSched { sc_initial : R; sc_final : R; sc_steps : Z; sc_count : Z; sc_value : R }.
(** emote/extra/schedules.py:22-28 *)
Definition sc_init (initial final : R) (steps : Z) : schedule := mkSched initial final steps 0 initial.
(** The value and the step counter after a step.  emote/extra/schedules.py:83-85, 131-135 *)
Definition set_value (s : schedule) (v : R) : schedule :=
  mkSched (sc_initial s) (sc_final s) (sc_steps s) (sc_count s + 1) v.

(** emote/extra/schedules.py:38-49 ConstantSchedule: [step] is [pass]. *)
Definition constant_step (s : schedule) : res schedule := Ok s.

(** emote/extra/schedules.py:77-85 LinearSchedule.step; [staircase = Some n] for
    use_staircase with staircase_steps [n]. *)
Definition linear_step (staircase : option Z) (s : schedule) : res schedule :=
  rbind (truediv (sc_count s) (sc_steps s)) (fun fraction =>
  rbind (match staircase with
         | None => Ok fraction
         | Some n => fdiv (IZR (floor (fraction * IZR n))) n
         end) (fun fraction =>
  let fraction := Rmin fraction 1 in
  Ok (set_value s (sc_initial s + fraction * (sc_final s - sc_initial s))))).

(** emote/extra/schedules.py:114-125: the mode is fixed by the constructor; any other mode
    than the two leaves scale_fn undefined. *)
Definition scale_fn (mode : string) (x : Z) : res R :=
  if String.eqb mode "triangular" then Ok 1
  else if String.eqb mode "triangular2" then Ok (1 / powerRZ 2 (x - 1))
  else Err AttributeError.
(** emote/extra/schedules.py:127-135 CyclicSchedule.step *)
Definition cyclic_step (mode : string) (s : schedule) : res schedule :=
  rbind (truediv (sc_count s) (2 * sc_steps s)) (fun d =>
  let cycle := floor (1 + d) in
  rbind (truediv (sc_count s) (sc_steps s)) (fun e =>
  let x := Rabs (e - 2 * IZR cycle + 1) in
  rbind (scale_fn mode cycle) (fun scale =>
  Ok (set_value s (sc_initial s + (sc_final s - sc_initial s) * Rmax 0 (1 - x) * scale))))).

(** emote/extra/schedules.py:150-161 CosineAnnealing.step; [0 < steps]: a quotient by
    [1 + cos ...] is never one by zero there (shown in the proofs). *)
Definition cosine_step (s : schedule) : res schedule :=
  let n := sc_count s in
  if (0 <? n)%Z then
    if (sc_steps s =? 0)%Z then Err ZeroDivisionError
    else if ((n - 1 - sc_steps s) mod (2 * sc_steps s) =? 0)%Z
    then Ok (set_value s (sc_value s + (sc_initial s - sc_final s) * (1 - cos (PI / IZR (sc_steps s))) / 2))
    else
      let below := 1 + cos (PI * IZR (n - 1) / IZR (sc_steps s)) in
      if Req_EM_T below 0 then Err ZeroDivisionError
      else Ok (set_value s ((1 + cos (PI * IZR n / IZR (sc_steps s))) / below * (sc_value s - sc_final s) + sc_final s))
  else Ok (set_value s (sc_value s)).

(** emote/extra/schedules.py:176-187 CosineAnnealingWarmRestarts.step *)
Definition restarts_step (s : schedule) : res schedule :=
  if (sc_steps s =? 0)%Z then Err ZeroDivisionError
  else
    let n := if (sc_steps s <=? sc_count s)%Z then (sc_count s mod sc_steps s)%Z else sc_count s in
    Ok (mkSched (sc_initial s) (sc_final s) (sc_steps s) (n + 1)
          (sc_final s + (sc_initial s - sc_final s) * (1 + cos (PI * IZR n / IZR (sc_steps s))) / 2)).

(** [k] calls of [step].  emote/extra/schedules.py:34, 77, 127, 150, 176 *)
Fixpoint steps_of (step : schedule -> res schedule) (k : nat) (s : schedule) : res schedule :=
  match k with O => Ok s | S m => rbind (steps_of step m s) step end.
