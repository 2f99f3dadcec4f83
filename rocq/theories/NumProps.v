(** * NumProps: the theorems for C59 - C63 and C78 *)
From Coq Require Import Reals Lra.
From Verif Require Import Py PyLemmas MemModel MemSpec MemExamples NumModel NumSpec NumProofs NumMatrix NumTarget NumExamples.
Open Scope list_scope.
Open Scope R_scope.

(** ** C59 *)
Theorem C59_welford : forall samples : list R, samples <> [] ->
  wf_current (fold_left wf_add samples wf_init) = Some (average samples, population_variance samples).
Proof. exact welford_ok. Qed.
Print Assumptions C59_welford.

Example C59_ex : wf_current (fold_left wf_add [1; 2; 6] wf_init) = Some (3, 14 / 3).
Proof. rewrite C59_welford by discriminate. unfold population_variance, average, rsum. simpl. f_equal. f_equal; lra. Qed.

(** ** C78 *)
Theorem C78_stats_partial : forall (events : list tevent) (ts : timers) (name : string) (durations : list R),
  timers_run events [] = Ok ts ->
  blocks name (filter (about name) events) durations -> durations <> [] ->
  dget (timers_stats ts) name =
    Some (Some (average (last_n window_size durations), population_variance (last_n window_size durations))).
Proof. exact timers_ok. Qed.
Print Assumptions C78_stats_partial.

Theorem C78_total : forall events : list tevent,
  (forall name, exists durations, blocks name (filter (about name) events) durations) ->
  exists ts, timers_run events [] = Ok ts.
Proof. exact timers_total. Qed.
Print Assumptions C78_total.

(** Blocks of the same name inside each other: the outer one is measured from the
    time the inner one was entered.  Here an outer block of 10 counts as 6. *)
Theorem C78_nested_refuted :
  timers_run [TEnter "a" 0; TEnter "a" 4; TExit "a" 7; TExit "a" 10] [] = Ok [("a"%string, mkBlock [7 - 4; 10 - 4] (Some 4))].
Proof. exact nested_blocks. Qed.
Print Assumptions C78_nested_refuted.

Example C78_ex : exists ts,
  timers_run [TEnter "a" 0; TEnter "b" 1; TExit "b" 2; TExit "a" 4; TEnter "a" 5; TExit "a" 7] [] = Ok ts
  /\ blocks "a" (filter (about "a") [TEnter "a" 0; TEnter "b" 1; TExit "b" 2; TExit "a" 4; TEnter "a" 5; TExit "a" 7]) [4 - 0; 7 - 5].
Proof.
  eexists. split; [reflexivity|].
  apply (blocks_snoc "a" [TEnter "a" 0; TExit "a" 4] [4 - 0] 5 7). apply (blocks_snoc "a" [] [] 0 4). constructor.
Qed.

(** ** C60 *)
(** The wrapped function's results come back, and with a limit of zero there are no
    warnings.  Missing: any other limit. *)
Theorem C60_results_partial : forall (A B : Type) (f : A -> B) (limit : Z) (calls : list A),
  map snd (deprecated_calls f limit 0 calls) = map f calls
  /\ ((limit <= 0)%Z -> map fst (deprecated_calls f limit 0 calls) = map (fun _ => false) calls).
Proof. exact @deprecated_partial. Qed.
Print Assumptions C60_results_partial.

(** Every call warns, whatever the limit. *)
Theorem C60_limit_refuted : forall (A B : Type) (f : A -> B) (limit : Z) (calls : list A), (0 < limit)%Z ->
  map fst (deprecated_calls f limit 0 calls) = map (fun _ => true) calls.
Proof. exact @deprecated_always. Qed.
Print Assumptions C60_limit_refuted.

Example C60_ex : map fst (deprecated_calls (fun x : Z => (x + 1)%Z) 2 0 [1; 2; 3]%Z) = [true; true; true].
Proof. reflexivity. Qed.

(** ** C61 *)
Theorem C61_bounds : forall min_x max_x min_y max_y x : R, min_y <= max_y ->
  min_y <= truncated_linear min_x max_x min_y max_y x <= max_y.
Proof. exact ramp_bounds. Qed.
Print Assumptions C61_bounds.

Theorem C61_ramp : forall min_x max_x min_y max_y x : R, / 10 ^ 10 <= max_x - min_x ->
  (x <= min_x -> truncated_linear min_x max_x min_y max_y x = min_y)
  /\ (max_x <= x -> truncated_linear min_x max_x min_y max_y x = max_y)
  /\ (min_x <= x <= max_x ->
        truncated_linear min_x max_x min_y max_y x = min_y + (x - min_x) * ((max_y - min_y) / (max_x - min_x))).
Proof. exact ramp_all. Qed.
Print Assumptions C61_ramp.

Theorem C61_monotone : forall min_x max_x min_y max_y x y : R, min_y <= max_y -> x <= y ->
  truncated_linear min_x max_x min_y max_y x <= truncated_linear min_x max_x min_y max_y y.
Proof. exact ramp_mono. Qed.
Print Assumptions C61_monotone.

Theorem C61_degenerate : forall min_x max_x min_y max_y x : R, max_x - min_x < / 10 ^ 10 ->
  truncated_linear min_x max_x min_y max_y x = max_y.
Proof. exact ramp_degenerate. Qed.
Print Assumptions C61_degenerate.

Example C61_ex : truncated_linear 0 10 1 5 5 = 3.
Proof. destruct (C61_ramp 0 10 1 5 5) as (_ & _ & H); [|rewrite H; lra]. apply Rle_trans with (/ 1); [|lra]. apply Rinv_le_contravar; lra. Qed.

(** ** C62 *)
Theorem C62_n_step_returns : forall (gamma : R) (L : nat) (rewards : matrix) (values : list R),
  (1 <= L)%nat -> Forall (fun r => List.length r = L) rewards -> List.length rewards = List.length values ->
  exists out, discount rewards (map (fun v => [v]) values) (make_gamma_matrix gamma L) = Ok out
    /\ List.length out = (List.length rewards * L)%nat
    /\ forall i t r v, nth_error rewards i = Some r -> nth_error values i = Some v -> (t < L)%nat ->
         nth_error out (i * L + t) = Some (n_step_return gamma r v t).
Proof. exact discount_ok. Qed.
Print Assumptions C62_n_step_returns.

(** The usual recursion. *)
Theorem C62_recursion : forall (gamma : R) (r : list R) (v : R),
  (forall t, (t < List.length r)%nat -> n_step_return gamma r v t = nth t r 0 + gamma * n_step_return gamma r v (S t))
  /\ n_step_return gamma r v (List.length r) = v.
Proof. exact return_recursion. Qed.
Print Assumptions C62_recursion.

(** Splitting a batch into rollouts: row [k] of rollout [i] is row [i * L + k]. *)
Theorem C62_split : forall (A : Type) (data : list A) (n L : nat), (1 <= L)%nat -> List.length data = (n * L)%nat ->
  exists rows, split_rollouts data L = Ok rows /\ List.length rows = n
    /\ forall i k row, nth_error rows i = Some row -> (k < L)%nat -> nth_error row k = nth_error data (i * L + k).
Proof. exact @split_rows. Qed.
Print Assumptions C62_split.
(** Data that does not fill a whole number of rollouts is refused: nothing is dropped silently. *)
Theorem C62_split_rest : forall (A : Type) (data : list A) (L : nat), (forall n, List.length data <> (n * L)%nat) ->
  exists e, split_rollouts data L = Err e.
Proof. exact @split_rest. Qed.
Print Assumptions C62_split_rest.
Example C62_split_rest_ex : split_rollouts [1; 2; 3; 4; 5]%nat 2 = Err RuntimeError /\ (forall n, 5 <> n * 2)%nat.
Proof. split; [reflexivity|]. intros; lia. Qed.

Example C62_ex : make_gamma_matrix 2 2 = [[2 ^ 0; 0]; [2 ^ 1; 2 ^ 0]; [2 ^ 2; 2 ^ 1]]
  /\ n_step_return 2 [1; 10] 100 0 = 421 /\ n_step_return 2 [1; 10] 100 1 = 210.
Proof. split; [reflexivity|]. unfold n_step_return. simpl. lra. Qed.

(** ** C63 *)
Theorem C63_targets : forall (S : Type) (HS : Scalar S) (num : S -> R), num s_zero = 0 -> num s_one = 1 ->
  forall (cols : list (column S)) (lenkey : string) (maxlen : Z) (smp : sampler) (ej : ejector)
         (ops : list (op S)) (count L : nat) (draws : list draw) (out : dict string (array S))
         (gamma scale : R) (masking : bool) (reward : column S) (nexts : list (column S * column S)) (mask : column S)
         (value : nat -> list (row (S:=S)) -> R),
  sampling_ok cols lenkey smp ej ops L ->
  let t := run (t_create cols lenkey maxlen smp ej) ops in
  snd (t_sample t count L draws) = Ok out ->
  In reward cols -> is_base reward ->
  (* [nexts]: the next-observation columns, with the observation columns they look into *)
  Forall (fun p => In (fst p) cols /\ (c_kind (fst p) = KVirt (c_name (snd p)) MNextLast
                                       \/ c_kind (fst p) = KVirt (c_name (snd p)) MNext /\ L = 1%nat)
                   /\ In (snd p) cols /\ is_base (snd p)) nexts ->
  In mask cols -> (exists target, c_kind mask = KVirt target MMask) ->
  exists ws qt, batch_of t lenkey count L ws
    /\ q_target gamma scale L masking (row_by_row value) (observations out (map (fun p => c_name (fst p)) nexts) count)
         (numbers num out (c_name reward)) (numbers num out (c_name mask)) = Ok qt
    /\ List.length qt = (count * L)%nat
    /\ forall i w t, nth_error ws i = Some w -> (t < L)%nat ->
         nth_error qt (i * L + t) = Some (target_of num gamma scale L masking lenkey reward (map snd nexts) value i w t).
Proof. exact @target_ok. Qed.
Print Assumptions C63_targets.

Example C63_ex :
  sampling_ok target_cols "actions" (SWeighted (w_init false)) (EFifo fifo_init) target_ops 3
  /\ snd (t_sample (run (t_create target_cols "actions" 10 (SWeighted (w_init false)) (EFifo fifo_init)) target_ops)
            2 3 [(1, 0); (1, 2 ^ 53 - 1)]%Z)
     = Ok [("obs", [[0]; [1]; [2]; [1]; [2]; [3]]); ("actions", [[100]; [101]; [102]; [101]; [102]; [103]]);
           ("rewards", [[10]; [11]; [12]; [11]; [12]; [13]]);
           ("next_obs", [[3]; [4]]); ("masks", [[1]; [1]; [1]; [1]; [1]; [0]])]%Z%string.
Proof. split; [exact target_sampling_ok|vm_compute; reflexivity]. Qed.
