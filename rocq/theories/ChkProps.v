(** * ChkProps: final checks (C104), progress check (C105), batch sampler (C106), loggers (C107, C108) *)
From Coq Require Import Reals Lra Lia.
From Verif Require Import Py NumModel NumProofs SchedModel LogModel ChkModel ChkSpec ChkProofs ChkMore.
Open Scope string_scope.
Open Scope list_scope.
Open Scope R_scope.

(** ** C104: final loss and reward checks *)
(** As many cutoffs as callbacks and losses that are numbers: the training ends well exactly
    if every loss is at most its cutoff, and fails otherwise. *)
Theorem C104_losses_partial : forall cbs losses cutoffs, Forall2 logged_loss cbs (map Num losses) -> List.length losses = List.length cutoffs ->
  (loss_check cbs (map Num cutoffs) = Shutdown <-> Forall2 Rle losses cutoffs) /\
  (loss_check cbs (map Num cutoffs) = OtherError <-> ~ Forall2 Rle losses cutoffs).
Proof. exact losses_ok. Qed.
Print Assumptions C104_losses_partial.
(** A callback that never logged a loss is an error. *)
Theorem C104_missing : forall before cb after losses cutoffs c rest, Forall2 logged_loss before (map Num losses) -> Forall2 Rle losses cutoffs ->
  (forall x, ~ logged_loss cb x) -> loss_check (before ++ cb :: after) (map Num cutoffs ++ c :: rest) = KeyError.
Proof. exact losses_missing. Qed.
Print Assumptions C104_missing.
(** The reward: the last one logged, or the mean of the window. *)
Theorem C104_reward_partial : forall scalars windows cutoff key r, dget scalars key = Some (Num r) ->
  (reward_check scalars windows (Num cutoff) key false = Shutdown <-> cutoff <= r) /\
  (reward_check scalars windows (Num cutoff) key false = OtherError <-> r < cutoff).
Proof. exact reward_scalar. Qed.
Print Assumptions C104_reward_partial.
Theorem C104_window_partial : forall scalars windows cutoff key l, dget windows key = Some (map Num l) -> l <> [] ->
  (reward_check scalars windows (Num cutoff) key true = Shutdown <-> cutoff <= mean l) /\
  (reward_check scalars windows (Num cutoff) key true = OtherError <-> mean l < cutoff).
Proof. exact reward_window. Qed.
Print Assumptions C104_window_partial.
Theorem C104_reward_missing : forall scalars windows cutoff key,
  (dget scalars key = None -> reward_check scalars windows cutoff key false = KeyError) /\
  (dget windows key = None -> reward_check scalars windows cutoff key true = KeyError) /\
  (dget windows key = Some [] -> reward_check scalars windows cutoff key true = ZeroDivisionError).
Proof. exact reward_missing. Qed.
Print Assumptions C104_reward_missing.
(** But a loss or a reward that is not a number passes every cutoff ... *)
Theorem C104_nan_refuted : forall name logs cutoff, logged_loss (name, logs) NaN -> loss_check [(name, logs)] [Num cutoff] = Shutdown.
Proof. exact loss_nan. Qed.
Print Assumptions C104_nan_refuted.
Theorem C104_reward_nan_refuted : forall scalars windows cutoff key,
  (dget scalars key = Some NaN -> reward_check scalars windows (Num cutoff) key false = Shutdown) /\
  (forall l, dget windows key = Some l -> In NaN l -> reward_check scalars windows (Num cutoff) key true = Shutdown).
Proof. exact (fun s w c k => conj (@reward_nan s w c k) (@reward_nan_window s w c k)). Qed.
Print Assumptions C104_reward_nan_refuted.
(** ... and callbacks beyond the list of cutoffs are not checked at all. *)
Theorem C104_unchecked_refuted : forall cbs, loss_check cbs [] = Shutdown.
Proof. exact loss_unchecked. Qed.
Print Assumptions C104_unchecked_refuted.
Example C104_case : logged_loss ("q1", [("loss/q1_loss", Num 3)]) (Num 3) /\
  loss_check [("q1", [("loss/q1_loss", Num 3)])] [Num 2] = OtherError /\ loss_check [("q1", [("loss/q1_loss", Num 3)])] [Num 4] = Shutdown.
Proof.
  split; [reflexivity|]. split.
  - apply (C104_losses_partial [("q1", [("loss/q1_loss", Num 3)])] [3] [2]); auto. { constructor; [reflexivity|constructor]. } intros H. inversion H; subst. lra.
  - apply (C104_losses_partial [("q1", [("loss/q1_loss", Num 3)])] [3] [4]); auto. { constructor; [reflexivity|constructor]. } constructor; [lra|constructor].
Qed.

(** ** C105: the model's progress check *)
(** The averages are those of consecutive windows of a tenth of [num_bp] batches; every batch
    is in exactly one of them or still waiting. *)
Theorem C105_windows : forall num_bp bs, let w := window num_bp in let n := List.length bs in let errs := map batch_errors bs in
  let s := progress_batches num_bp (mkProg [] []) bs in
  pg_average s = map (fun k => (num_mean (map fst (block w k errs)), num_mean (map snd (block w k errs)))) (seq 0 (n / w)) /\
  pg_err s = skipn (n / w * w) errs.
Proof. exact progress_inv. Qed.
Print Assumptions C105_windows.
(** A batch's error is the mean absolute difference of prediction and outcome. *)
Theorem C105_error : forall p a, List.length p = List.length a -> Forall2 (fun x y => List.length x = List.length y) p a -> concat p <> [] ->
  mean_abs_err (map (map Num) p) (map (map Num) a) = Num (mean (map (fun xy => Rabs (fst xy - snd xy)) (combine (concat p) (concat a)))).
Proof. exact mean_abs_ok. Qed.
Print Assumptions C105_error.
(** The check passes exactly if no window's average error, of observations or of rewards,
    exceeds the one four windows before, and fails otherwise. *)
Theorem C105_decision_partial : forall num_bp bs errs, map batch_errors bs = map pair_num errs ->
  let w := window num_bp in let s := progress_batches num_bp (mkProg [] []) bs in
  (progress_end_cycle (pg_average s) = Shutdown <->
     forall k, ((k + 5) * w <= List.length errs)%nat ->
       mean (map fst (block w (k + 4) errs)) <= mean (map fst (block w k errs)) /\
       mean (map snd (block w (k + 4) errs)) <= mean (map snd (block w k errs))) /\
  (progress_end_cycle (pg_average s) = Shutdown \/ progress_end_cycle (pg_average s) = OtherError).
Proof. exact progress_main. Qed.
Print Assumptions C105_decision_partial.
Theorem C105_decreasing : forall num_bp bs errs, map batch_errors bs = map pair_num errs ->
  (forall i, (i + 1 < List.length errs)%nat ->
     fst (nth (i + 1) errs (0, 0)) <= fst (nth i errs (0, 0)) /\ snd (nth (i + 1) errs (0, 0)) <= snd (nth i errs (0, 0))) ->
  progress_end_cycle (pg_average (progress_batches num_bp (mkProg [] []) bs)) = Shutdown.
Proof. exact progress_decreasing. Qed.
Print Assumptions C105_decreasing.
(** A run of at least five batches has windows to compare ... *)
Theorem C105_enough : forall num_bp, (5 <= num_bp)%Z -> (5 <= Z.to_nat num_bp / window num_bp)%nat.
Proof. exact windows_count. Qed.
Print Assumptions C105_enough.
(** ... a shorter one passes whatever the errors ... *)
Theorem C105_short_finding : forall l, (List.length l < 5)%nat -> progress_end_cycle l = Shutdown.
Proof. exact few_windows. Qed.
Print Assumptions C105_short_finding.
(** ... and so does a model that only predicts "not a number". *)
Theorem C105_nan_refuted : forall num_bp n bs, (forall b, In b bs -> batch_errors b = (NaN, NaN)) -> List.length bs = n ->
  progress_end_cycle (pg_average (progress_batches num_bp (mkProg [] []) bs)) = Shutdown.
Proof. exact progress_nan. Qed.
Print Assumptions C105_nan_refuted.
Example C105_case : batch_errors ([[NaN]], [[Num 1]], [[NaN]], [[Num 1]]) = (NaN, NaN) /\
  let up k := ([[Num (IZR k)]], [[Num 0]], [[Num 1]], [[Num 1]]) in
  progress_end_cycle (pg_average (progress_batches 5 (mkProg [] []) (map up [0; 1; 2; 3; 4]%Z))) = OtherError.
Proof.
  split; [reflexivity|]. cbn zeta. set (up := fun k => _).
  assert (M : forall x y, mean_abs_err [[Num x]] [[Num y]] = Num (Rabs (x - y))).
  { intros x y. change [[Num x]] with (map (map Num) [[x]]). change [[Num y]] with (map (map Num) [[y]]). rewrite (@mean_abs_ok [[x]] [[y]]); auto; [|discriminate]. f_equal. unfold mean. simpl. unfold rsum. simpl. field. }
  assert (E : map batch_errors (map up [0; 1; 2; 3; 4]%Z) = map pair_num (map (fun k => (IZR k, 0)) [0; 1; 2; 3; 4]%Z)).
  { rewrite !map_map. apply map_ext_in. intros k Hk. unfold up, batch_errors, pair_num. rewrite !M. cbn [fst snd]. f_equal; f_equal.
    - rewrite Rminus_0_r. apply Rabs_right. apply Rle_ge. apply IZR_le. cbn in Hk. lia.
    - rewrite Rminus_eq_0. apply Rabs_R0. }
  destruct (C105_decision_partial 5 _ _ E) as [A [B|B]]; auto. exfalso. apply (proj1 A) with (k := 0%nat) in B; [|cbn; lia].
  destruct B as [B _]. unfold mean, block, window in B. cbn in B. unfold rsum in B. simpl in B. lra.
Qed.

(** ** C106: the batch sampler *)
(** As the class stands every batch fails: the method that logs the probability is missing. *)
Theorem C106_begin_batch_refuted : forall (B : Type) sched rnd fresh group received f (s : sampler B),
  sampler_begin_batch batch_sampler_has_log_scalar sched rnd fresh group received f s = (s, Err AttributeError).
Proof. exact @sampler_refuted. Qed.
Print Assumptions C106_begin_batch_refuted.
(** With that method (a subclass that mixes it in), batch [n] is taken from the model's buffer
    exactly if the number drawn is below the scheduled probability for step [n + 1], and
    is the received one otherwise. *)
Theorem C106_steps_partial : forall (B : Type) lo hi from upto group f steps (it : list B) n rnd fresh received,
  nth_error steps n = Some (rnd, fresh, received) ->
  let prob := bp_evaluate_at from upto lo hi (INR (n + 1)) in
  exists out, nth_error (sampler_run true (bp_evaluate_at from upto lo hi) group f (mkSampler it 0) steps) n = Some out /\
    (prob <= rnd -> out = match dget received group with Some b => Ok (f b) | None => Err KeyError end) /\
    (rnd < prob -> fresh <> [] -> exists b, out = Ok b /\ In b (it ++ concat (map (fun x => snd (fst x)) (firstn (n + 1) steps)))).
Proof. exact @sampler_step_ok. Qed.
Print Assumptions C106_steps_partial.
(** The probability goes linearly from one value to the other. *)
Theorem C106_probability : forall from upto lo hi bp, lo <= hi ->
  lo <= bp_evaluate_at from upto lo hi bp <= hi /\
  (forall bp', bp <= bp' -> bp_evaluate_at from upto lo hi bp <= bp_evaluate_at from upto lo hi bp') /\
  (1 <= upto - from -> (bp <= from -> bp_evaluate_at from upto lo hi bp = lo) /\ (upto <= bp -> bp_evaluate_at from upto lo hi bp = hi) /\
     (from <= bp <= upto -> bp_evaluate_at from upto lo hi bp = lo + (bp - from) * ((hi - lo) / (upto - from)))).
Proof. exact schedule_ramp. Qed.
Print Assumptions C106_probability.
(** The model's batches come in the loader's order, from the start again when it is exhausted. *)
Theorem C106_order_partial : forall (B : Type) (l : list B) d, l <> [] -> forall k it c i, (i < k)%nat -> (exists done, l = done ++ it) ->
  nth i (model_batches (mkSampler it c) (repeat l k)) (Err StopIteration) = Ok (nth ((List.length l - List.length it + i) mod List.length l) l d).
Proof. exact @model_batches_order. Qed.
Print Assumptions C106_order_partial.
Example C106_case : nth_error [(1 / 2, [7%Z], [("default", 8%Z)])] 0 = Some (1 / 2, [7%Z], [("default", 8%Z)]) /\
  map (fun i => nth i (model_batches (mkSampler [5%Z] 0) (repeat [4%Z; 5%Z] 3)) (Err StopIteration)) [0; 1; 2]%nat = [Ok 5%Z; Ok 4%Z; Ok 5%Z].
Proof. split; reflexivity. Qed.

(** ** C107: WBLogger *)
(** The dictionary that is sent: for every tag the value given last. *)
Theorem C107_last : forall (P I V : Type) (cbs : list (loggable P I V)) step0 samples0 elapsed step samples,
  (forall cb, In cb cbs -> windows_filled cb) -> elapsed <> 0%Z ->
  exists d, wb_end_cycle cbs step0 samples0 elapsed step samples = Ok d /\
    forall t, dget d t = last_value (flat_map entries_of cbs ++
      [("performance/bp_samples_per_sec", WbVal (WRate (samples - samples0) elapsed));
       ("performance/bp_steps_per_sec", WbVal (WRate (step - step0) elapsed)); ("log/bp_step", WbStep step)]) t.
Proof. exact @wb_main. Qed.
Print Assumptions C107_last.
(** If no two values have one tag, everything logged is in it, with the rates and the step. *)
Theorem C107_all_partial : forall (P I V : Type) (cbs : list (loggable P I V)) step0 samples0 elapsed step samples,
  (forall cb, In cb cbs -> windows_filled cb) -> elapsed <> 0%Z ->
  NoDup (map fst (flat_map entries_of cbs)) ->
  exists d, wb_end_cycle cbs step0 samples0 elapsed step samples = Ok d /\
    (forall cb t v, In cb cbs -> In (t, v) (entries_of cb) -> dget d t = Some v) /\
    dget d "performance/bp_samples_per_sec" = Some (WbVal (WRate (samples - samples0) elapsed)) /\
    dget d "performance/bp_steps_per_sec" = Some (WbVal (WRate (step - step0) elapsed)) /\
    dget d "log/bp_step" = Some (WbStep step).
Proof. exact @wb_distinct. Qed.
Print Assumptions C107_all_partial.
(** Of two callbacks that log under one name, only the second one's value is sent. *)
Theorem C107_collision_refuted : exists cbs : list (loggable unit unit unit), (forall cb, In cb cbs -> windows_filled cb) /\
  (exists cb, In cb cbs /\ dget (lg_scalars (lb_logs cb)) "training/return" = Some 1%Z) /\
  exists d, wb_end_cycle cbs 0 0 1 10 20 = Ok d /\ dget d "training_bp_step/return" = Some (WbVal (WVal 2%Z)) /\
    forall t, dget d t <> Some (WbVal (WVal 1%Z)).
Proof.
  set (cb := fun z => mkLoggable (I := unit) (V := unit) (mkLogs [("training/return", z)] [] [] tt 100%Z) [] []).
  exists [cb 1%Z; cb 2%Z]. split; [|split].
  - intros c [<- | [<- | []]] k w n [].
  - exists (cb 1%Z). split; [left; reflexivity|reflexivity].
  - eexists. split; [vm_compute; reflexivity|]. split; [reflexivity|]. intros t. cbn [dget].
    repeat (match goal with |- (if ?b then _ else _) <> _ => destruct b end; [discriminate|]). discriminate.
Qed.
Print Assumptions C107_collision_refuted.
(** A window that is empty ends the training with a division by zero. *)
Theorem C107_empty_window : forall (P I V : Type) (cb : loggable P I V) cbs k n r step0 samples0 elapsed step samples,
  lg_windows (lb_logs cb) = (k, ([], n)) :: r ->
  wb_end_cycle (cb :: cbs) step0 samples0 elapsed step samples = Err ZeroDivisionError.
Proof. exact @wb_empty_window. Qed.
Print Assumptions C107_empty_window.
(** TerminalLogger writes one line for every scalar log, with its step. *)
Theorem C107_terminal : forall logs step k v, In (k, step, v) (terminal_lines logs step) <-> exists d, In d logs /\ In (k, v) d.
Proof. exact terminal_ok. Qed.
Print Assumptions C107_terminal.
Example C107_case : let cb := mkLoggable (P := unit) (I := unit) (V := unit) (mkLogs [("a/b", 3%Z)] [("a/c", ([1; 2]%Z, 10%Z))] [("a/c", 3%Z)] tt 100%Z) [("a/i", tt)] [] in
  windows_filled cb /\ map fst (flat_map entries_of [cb]) = ["a_bp_step/b"; "a_bp_step/c"; "a_bp_step/c/cumulative"; "a_bp_step/i"].
Proof. split; [|reflexivity]. intros k w n [E|[]]. injection E as <- <- <-. discriminate. Qed.

(** ** C108: SystemLogger *)
(** Every cycle logs the memory and the load ... *)
Theorem C108_memory : forall s m c k, dget (sy_logs (system_end_cycle s m c k)) "system/ram_usage_mb" = Some m /\
  dget (sy_logs (system_end_cycle s m c k)) "system/cpu_load" = Some c.
Proof. exact system_memory. Qed.
Print Assumptions C108_memory.
(** ... and the growth per step since the cycle before: over any history of cycles at
    increasing steps the rates, times the steps, add up to the whole growth. *)
Theorem C108_growth : forall cycles s, increasing (sy_step s) (map snd cycles) ->
  growth_of (sy_step s) (map sy_logs (system_run s cycles)) (map snd cycles) = last (map (fun x => fst (fst x)) cycles) (sy_memory s) - sy_memory s.
Proof. exact system_total. Qed.
Print Assumptions C108_growth.
Theorem C108_since_start : forall cycles rss, increasing 0 (map snd cycles) ->
  growth_of 0 (map sy_logs (system_run (system_init rss) cycles)) (map snd cycles) = last (map (fun x => fst (fst x)) cycles) rss - rss.
Proof. exact system_since_start. Qed.
Print Assumptions C108_since_start.
Theorem C108_rate : forall s m c k, (sy_step s < k)%Z ->
  dget (sy_logs (system_end_cycle s m c k)) "system/ram_usage_growth_mb_step" = Some ((m - sy_memory s) / IZR (k - sy_step s)).
Proof. exact system_growth. Qed.
Print Assumptions C108_rate.
(** At an unchanged step there is no division by zero: the rate stays the one logged before. *)
Theorem C108_same_step : forall s m c, dget (sy_logs (system_end_cycle s m c (sy_step s))) "system/ram_usage_growth_mb_step" = dget (sy_logs s) "system/ram_usage_growth_mb_step".
Proof. exact system_same_step. Qed.
Print Assumptions C108_same_step.
Example C108_case : increasing (sy_step (system_init 5)) (map snd [(7, 1, 10%Z); (6, 1, 20%Z)]) /\ sy_step (system_init 5) = 0%Z /\ sy_memory (system_init 5) = 5.
Proof. cbn. split; [lia|auto]. Qed.
