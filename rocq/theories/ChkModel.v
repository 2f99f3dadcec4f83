(** * ChkModel: emote/callbacks/testing.py, emote/models/callbacks.py (progress check, batch
    sampler), emote/callbacks/wb_logger.py, emote/extra/system_logger.py

    Simplifications: floating point numbers are real numbers or "not a number";
    infinities are not modelled. *)
From Coq Require Import Reals.
From Verif Require Import Py NumModel SchedModel LogModel.
Open Scope string_scope.
Open Scope list_scope.
Open Scope R_scope.

(** ** Floating point comparisons *)
(** a float: a number, or not a number.  as in emote/callbacks/testing.py:25, 52 *)
Inductive num : Type := Num (x : R) | NaN.
(** [a > b]: false if either is not a number.  as in emote/callbacks/testing.py:25 *)
Definition gt (a b : num) : bool :=
  match a, b with Num x, Num y => if Rlt_dec y x then true else false | _, _ => false end.
(** arithmetic passes NaN on; as in emote/callbacks/testing.py:48, emote/models/callbacks.py:88-92 *)
Definition num2 (f : R -> R -> R) (a b : num) : num := match a, b with Num x, Num y => Num (f x y) | _, _ => NaN end.
(** np.abs; emote/models/callbacks.py:91-92 *)
Definition num_abs (a : num) : num := match a with Num x => Num (Rabs x) | NaN => NaN end.
(** sum; emote/callbacks/testing.py:48 *)
Definition num_sum (l : list num) : num := fold_left (num2 Rplus) l (Num 0).
(** sum divided by length, as np.mean computes it (NaN for nothing); emote/models/callbacks.py:91-92, 100 *)
Definition num_mean (l : list num) : num :=
  match l with [] => NaN | _ => num2 Rdiv (num_sum l) (Num (INR (List.length l))) end.

(** ** emote/callbacks/testing.py *)
(** emote/callbacks/testing.py:22-27 FinalLossTestCheck.end_cycle: it always raises.  A callback is its
    name and its scalar logs; zip stops at the shorter list. *)
Fixpoint loss_check (cbs : list (string * dict string num)) (cutoffs : list num) : exn :=
  match cbs, cutoffs with
  | (name, scalar_logs) :: cbs', cutoff :: cutoffs' =>
      match dget scalar_logs (String.append "loss/" (String.append name "_loss")) with
      | None => KeyError
      | Some loss => if gt loss cutoff then OtherError else loss_check cbs' cutoffs'
      end
  | _, _ => Shutdown
  end.
(** emote/callbacks/testing.py:45-55 FinalRewardTestCheck.end_cycle *)
Definition reward_check (scalar_logs : dict string num) (windowed_scalar : dict string (list num))
    (cutoff : num) (key : string) (use_windowed : bool) : exn :=
  let reward :=
    if use_windowed
    then match dget windowed_scalar key with
         | None => Err KeyError
         | Some [] => Err ZeroDivisionError
         | Some data => Ok (num2 Rdiv (num_sum data) (Num (INR (List.length data))))
         end
    else match dget scalar_logs key with None => Err KeyError | Some r => Ok r end in
  match reward with
  | Err e => e
  | Ok reward => if gt cutoff reward then OtherError else Shutdown
  end.

(** ** LossProgressCheck: emote/models/callbacks.py:65-120 *)
(** the errors of the current window and the averages of the windows before, each of
    observations and rewards; emote/models/callbacks.py:78-79 *)
Record progress : Type := mkProg { pg_err : list (num * num); pg_average : list (num * num) }.
(** mean absolute difference of two batches of one shape; emote/models/callbacks.py:88-92 *)
Definition mean_abs_err (predicted actual : list (list num)) : num :=
  num_mean (concat (map (fun pa => map (fun xy => num_abs (num2 Rminus (fst xy) (snd xy))) (combine (fst pa) (snd pa))) (combine predicted actual))).
(** emote/models/callbacks.py:83-101 begin_batch; [num_bp // 10] is line 80 *)
Definition progress_batch (num_bp : Z) (s : progress)
    (predicted_obs next_obs predicted_reward reward : list (list num)) : progress :=
  let prediction_err := pg_err s ++ [(mean_abs_err predicted_obs next_obs, mean_abs_err predicted_reward reward)] in
  if Z.leb (num_bp / 10) (zlen prediction_err)
  then mkProg [] (pg_average s ++ [(num_mean (map fst prediction_err), num_mean (map snd prediction_err))])
  else mkProg prediction_err (pg_average s).
(** a sequence of batches; emote/models/callbacks.py:83-101 *)
Fixpoint progress_batches (num_bp : Z) (s : progress) (bs : list (list (list num) * list (list num) * list (list num) * list (list num))) : progress :=
  match bs with
  | [] => s
  | (po, no, pr, r) :: bs' => progress_batches num_bp (progress_batch num_bp s po no pr r) bs'
  end.
(** emote/models/callbacks.py:103-112 end_cycle: it always raises *)
Fixpoint progress_end_cycle (averages : list (num * num)) : exn :=
  match averages with
  | a :: rest =>
      match nth_error rest 3 with
      | None => Shutdown
      | Some b => if gt (fst b) (fst a) || gt (snd b) (snd a) then OtherError else progress_end_cycle rest
      end
  | [] => Shutdown
  end.

(** ** BatchSampler: emote/models/callbacks.py:123-192 *)
Section Sampler.
Context {B : Type}.
(** emote/models/callbacks.py:147-158: the rest of the iterator over the model buffer's
    loader, and the counter *)
Record sampler : Type := mkSampler { bs_iter : list B; bs_counter : nat }.
(** emote/models/callbacks.py:184-192 use_model_batch; [rnd] is the number drawn *)
Definition use_model_batch (sched : R -> R) (rnd : R) (s : sampler) : sampler * bool :=
  let counter := S (bs_counter s) in
  let prob := sched (INR counter) in
  (mkSampler (bs_iter s) counter, if Rlt_dec rnd prob then true else false).
(** emote/models/callbacks.py:172-182 sample_model_batch; [fresh] are the batches of a new iterator *)
Definition sample_model_batch (fresh : list B) (s : sampler) : sampler * res B :=
  match bs_iter s with
  | b :: r => (mkSampler r (bs_counter s), Ok b)
  | [] => match fresh with
          | b :: r => (mkSampler r (bs_counter s), Ok b)
          | [] => (mkSampler [] (bs_counter s), Err StopIteration)
          end
  end.
(** emote/models/callbacks.py:160-170 begin_batch.  The result is the state to merge: either the
    model buffer's batch or the received one under [rl_data_group].  [has_log_scalar]:
    whether the object has the method that line 166 calls.  BatchSampler has not: it does
    not inherit from LoggingMixin (emote/models/callbacks.py:123). *)
Definition sampler_begin_batch (has_log_scalar : bool) (sched : R -> R) (rnd : R) (fresh : list B)
    (data_group : string) (received : dict string B) (as_rl_group : B -> B) (s : sampler) : sampler * res B :=
  if has_log_scalar
  then
    let '(s', use) := use_model_batch sched rnd s in
    if use then sample_model_batch fresh s'
    else (s', match dget received data_group with None => Err KeyError | Some b => Ok (as_rl_group b) end)
  else (s, Err AttributeError).
End Sampler.
Arguments sampler B : clear implicits.
(** the attribute lookup for emote/models/callbacks.py:123, 166 *)
Definition batch_sampler_has_log_scalar : bool := false.

(** ** WBLogger: emote/callbacks/wb_logger.py *)
Section Wb.
Context {P I V : Type}.
(** the logs of a callback with its images and videos; emote/callbacks/wb_logger.py:50, 57, 64, 71, 78 *)
Record loggable : Type := mkLoggable { lb_logs : logs P; lb_images : dict string I; lb_videos : dict string V }.
(** values in the dictionary; emote/callbacks/wb_logger.py:55, 62, 69, 76, 83 *)
Inductive wbval : Type := WbVal (w : written) | WbImage (i : I) | WbVideo (v : V) | WbStep (z : Z).
(** emote/callbacks/wb_logger.py:57-62: the windows; an empty one divides by zero *)
Fixpoint wb_windows (ws : dict string (list Z * Z)) (log_dict : dict string wbval) : res (dict string wbval) :=
  match ws with
  | [] => Ok log_dict
  | (k, (w, _)) :: r =>
      match w with
      | [] => Err ZeroDivisionError
      | _ => wb_windows r (dset log_dict (tag k) (WbVal (WMean (zsum w) (zlen w))))
      end
  end.
(** emote/callbacks/wb_logger.py:49-83: one callback *)
Definition wb_one (cb : loggable) (log_dict : dict string wbval) : res (dict string wbval) :=
  let s := lb_logs cb in
  let d := fold_left (fun d kv => dset d (tag (fst kv)) (WbVal (WVal (snd kv)))) (lg_scalars s) log_dict in
  rbind (wb_windows (lg_windows s) d) (fun d =>
  let d := fold_left (fun d kv => dset d (String.append (tag (fst kv)) "/cumulative") (WbVal (WVal (snd kv)))) (lg_cumulative s) d in
  let d := fold_left (fun d kv => dset d (tag (fst kv)) (WbImage (snd kv))) (lb_images cb) d in
  Ok (fold_left (fun d kv => dset d (tag (fst kv)) (WbVideo (snd kv))) (lb_videos cb) d)).
(** emote/callbacks/wb_logger.py:49-83: all callbacks *)
Fixpoint wb_all (cbs : list loggable) (log_dict : dict string wbval) : res (dict string wbval) :=
  match cbs with
  | [] => Ok log_dict
  | cb :: r => rbind (wb_one cb log_dict) (wb_all r)
  end.
(** emote/callbacks/wb_logger.py:45-93 end_cycle: the dictionary handed to wandb.log *)
Definition wb_end_cycle (cbs : list loggable) (step0 samples0 elapsed bp_step bp_samples : Z) : res (dict string wbval) :=
  rbind (wb_all cbs []) (fun d =>
  if Z.eqb elapsed 0 then Err ZeroDivisionError
  else
    let d := dset d "performance/bp_samples_per_sec" (WbVal (WRate (bp_samples - samples0) elapsed)) in
    let d := dset d "performance/bp_steps_per_sec" (WbVal (WRate (bp_step - step0) elapsed)) in
    Ok (dset d "log/bp_step" (WbStep bp_step))).
End Wb.
Arguments loggable P I V : clear implicits.
Arguments wbval I V : clear implicits.

(** ** SystemLogger: emote/extra/system_logger.py *)
(** the two values kept, and the scalar logs; emote/extra/system_logger.py:13-17 *)
Record system : Type := mkSystem { sy_memory : R; sy_step : Z; sy_logs : dict string R }.
(** emote/extra/system_logger.py:13-17 __init__; [rss] is the memory in megabytes *)
Definition system_init (rss : R) : system := mkSystem rss 0 [].
(** emote/extra/system_logger.py:19-33 end_cycle *)
Definition system_end_cycle (s : system) (memory_now cpu_percent : R) (bp_step : Z) : system :=
  let d := dset (sy_logs s) "system/ram_usage_mb" memory_now in
  let memory_delta := memory_now - sy_memory s in
  let step_delta := (bp_step - sy_step s)%Z in
  let d := if Z.ltb 0 step_delta then dset d "system/ram_usage_growth_mb_step" (memory_delta / IZR step_delta) else d in
  mkSystem memory_now bp_step (dset d "system/cpu_load" cpu_percent).
(** a history of cycles: memory, load, step; emote/extra/system_logger.py:19-33 *)
Fixpoint system_run (s : system) (cycles : list (R * R * Z)) : list system :=
  match cycles with
  | [] => []
  | (m, c, k) :: r => let s' := system_end_cycle s m c k in s' :: system_run s' r
  end.
(** ** A sequence of BatchSampler steps: emote/models/callbacks.py:160-170 *)
Fixpoint sampler_run {B} (has_log_scalar : bool) (sched : R -> R) (data_group : string) (as_rl_group : B -> B)
    (s : sampler B) (steps : list (R * list B * dict string B)) : list (res B) :=
  match steps with
  | [] => []
  | (rnd, fresh, received) :: r =>
      let '(s', out) := sampler_begin_batch has_log_scalar sched rnd fresh data_group received as_rl_group s in
      out :: sampler_run has_log_scalar sched data_group as_rl_group s' r
  end.
(** The lines that TerminalLogger writes: the key, the step and the value of each scalar log
    (the formatting with four digits is not modelled); emote/callbacks/logging.py:104-119 *)
Definition terminal_lines (logs : list (dict string R)) (bp_step : Z) : list (string * Z * R) :=
  flat_map (fun d => map (fun kv => (fst kv, bp_step, snd kv)) d) logs.
(** Successive model batches; [fresh] are what a new iterator would yield each time.
    emote/models/callbacks.py:172-182 *)
Fixpoint model_batches {B} (s : sampler B) (fresh : list (list B)) : list (res B) :=
  match fresh with
  | [] => []
  | l :: r => let '(s', out) := sample_model_batch l s in out :: model_batches s' r
  end.
