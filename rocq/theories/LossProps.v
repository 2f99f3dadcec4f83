(** * LossProps: C91 to C93 *)
From Coq Require Import Reals Lra Lia.
From Verif Require Import Py NumModel SchedModel LossModel LossSpec LossProofs LossMore.
Open Scope list_scope.
Open Scope R_scope.

(** C91.  Whatever losses share the parameters, in whatever order their backward
    passes are called, and whatever gradients lie around at the start: the parameters and
    optimizers develop as in a run in which every pass uses the clipped gradient of its
    own batch only, for the parameters of its own optimizer only. *)
Theorem C91_no_leftover_gradients :
  forall OS (ostep : OS -> R -> list R -> list (option R) -> OS * list R) (lrstep : Z -> R -> R) calls ls h,
  List.length (h_grad h) = List.length (h_val h) ->
  Forall (sound_loss (List.length (h_val h))) ls -> Forall (sound_call ls) calls ->
  let '(ls', h') := run_losses ostep lrstep calls ls h in
  clean_run ostep lrstep calls ls (h_val h) ls' (h_val h').
Proof. intros OS ostep lrstep calls. exact (@run_clean OS ostep lrstep calls). Qed.
Print Assumptions C91_no_leftover_gradients.

(** The clipped gradient is at most [bound] long, points where the gradient points, and
    is the gradient if that is short enough. *)
Theorem C91_clipped : forall bound g, 0 <= bound ->
  euclid (clipped bound g) <= bound /\
  (exists c, 0 <= c <= 1 /\ clipped bound g = map (Rmult c) g) /\
  (euclid g + margin <= bound -> clipped bound g = g).
Proof. exact clipped_ok. Qed.
Print Assumptions C91_clipped.

(** The logged norm is that of the gradient before clipping; the logged learning rate is
    already the next batch's. *)
Theorem C91_logged :
  forall OS (ostep : OS -> R -> list R -> list (option R) -> OS * list R) (lrstep : Z -> R -> R) gradient l h d,
  List.length (h_grad h) = List.length (h_val h) -> sound_loss (List.length (h_val h)) l ->
  (forall p, In p (ls_params l) -> gradient (h_val h) p = Some (d p)) ->
  snd (backward ostep lrstep gradient l h) = (lrstep (ls_epoch l + 1)%Z (ls_lr l), euclid (map d (ls_params l))).
Proof. intros OS ostep lrstep gradient l h d. exact (@backward_log OS ostep lrstep gradient l h d). Qed.
Print Assumptions C91_logged.

(** Finding: for a parameter that the batch's loss does not depend on, history matters: a
    gradient left by another loss is set to zero and handed to the optimizer, which then
    decays the weight; without it the optimizer skips the parameter. *)
Theorem C91_unused_parameter_finding :
  let l := mkLoss [O] [O] 10 tt (1 / 2) 0 in
  let silent := fun (_ : list R) (_ : nat) => None in
  h_val (snd (fst (backward decay_step (constant_lr 1 5) silent l (mkHeap [1] [None])))) = [1] /\
  h_val (snd (fst (backward decay_step (constant_lr 1 5) silent l (mkHeap [1] [Some 7])))) = [1 / 2].
Proof. exact leftover. Qed.
Print Assumptions C91_unused_parameter_finding.

(** Two losses over three shared parameters, with leftovers. *)
Example c91_case :
  let ls := [mkLoss [0; 1]%nat [0; 1]%nat 1 tt 1 0; mkLoss [2; 1]%nat [2]%nat 5 tt 1 0] in
  let g := fun (_ : list R) (_ : nat) => Some 3 in
  Forall (sound_loss 3) ls /\ Forall (sound_call ls) [(1, g); (0, g); (1, g)]%nat.
Proof.
  split.
  - repeat constructor; cbn; try lia; intuition; try discriminate.
  - repeat constructor; unfold sound_call; cbn; (eexists; split; [reflexivity|]); intros; eexists; reflexivity.
Qed.
Example c91_clip : clipped 1 [3; 4] <> [3; 4].
Proof.
  destruct (@C91_clipped 1 [3; 4]) as (H & _); [lra|]. intros E. rewrite E in H. unfold euclid in H. cbn in H.
  replace (3 * 3 + (4 * 4 + 0)) with (5 * 5) in H by ring. rewrite sqrt_square in H by lra. lra.
Qed.

(** C92.  A saved training can be loaded in a new process: networks and optimizers are as
    they were. *)
Theorem C92_restores : forall OS (ls ls2 : list (loss OS)) h h2, same_build ls ls2 ->
  sound_networks (List.length (h_val h2)) ls ->
  exists ls', exists h', load_all (save_all ls h) ls2 h2 = Ok (ls', h') /\
    Forall2 (fun l l' => ls_params l' = ls_params l /\ ls_network l' = ls_network l /\ ls_max l' = ls_max l /\
                         ls_opt l' = ls_opt l /\ ls_lr l' = ls_lr l) ls ls' /\
    Forall2 (fun l2 l' => ls_epoch l' = ls_epoch l2) ls2 ls' /\
    List.length (h_val h') = List.length (h_val h2) /\ h_grad h' = h_grad h2 /\
    forall p, nth p (h_val h') 0 =
      if existsb (fun l => inb p (ls_network l)) ls then nth p (h_val h) 0 else nth p (h_val h2) 0.
Proof. intros OS ls ls2 h h2. exact (@load_saved OS ls ls2 h h2). Qed.
Print Assumptions C92_restores.

(** Going on after the restart gives the same weights as never stopping, if the learning
    rate is constant (the default schedule, below) and all parameters are in a saved
    network.  Missing: other schedules and target networks, for which it is false. *)
Theorem C92_resume_partial :
  forall OS (ostep : OS -> R -> list R -> list (option R) -> OS * list R) (lrstep : Z -> R -> R)
         calls (ls ls2 : list (loss OS)) h h2,
  (forall e r, (0 < e)%Z -> lrstep e r = r) ->
  Forall (fun l => 0 <= ls_epoch l)%Z ls -> Forall (fun l => 0 <= ls_epoch l)%Z ls2 ->
  List.length (h_grad h) = List.length (h_val h) -> List.length (h_grad h2) = List.length (h_val h2) ->
  List.length (h_val h2) = List.length (h_val h) -> same_build ls ls2 ->
  sound_networks (List.length (h_val h)) ls -> cover (List.length (h_val h)) ls ->
  Forall (sound_loss (List.length (h_val h))) ls -> Forall (sound_call ls) calls ->
  exists ls', exists h', load_all (save_all ls h) ls2 h2 = Ok (ls', h') /\
    h_val (snd (run_losses ostep lrstep calls ls' h')) = h_val (snd (run_losses ostep lrstep calls ls h)).
Proof. intros OS ostep lrstep calls ls ls2 h h2. exact (@resume_same OS ostep lrstep calls ls ls2 h h2). Qed.
Print Assumptions C92_resume_partial.
Theorem C92_default_schedule_partial : forall e r, (0 < e)%Z -> constant_lr 1 5 e r = r.
Proof. exact constant_lr_default. Qed.
Print Assumptions C92_default_schedule_partial.

(** Loading weights only, or optimizers only. *)
Theorem C92_selective_load : forall OS lw lo (c : ckpt OS) l h l' h' c', load_state_dict lw lo c l h = Ok (l', h', c') ->
  (lw = false -> h' = h) /\ (lo = false -> l' = l) /\
  (forall ow, lw = true -> ck_net c' = None /\ load_state_dict true ow c' l h = Err KeyError).
Proof. intros OS lw lo c l h l' h' c'. exact (@selective OS lw lo c l h l' h' c'). Qed.
Print Assumptions C92_selective_load.

(** The schedule's position is not saved.  After [j] batches of a linear schedule, a
    restart and [k] more batches the rate is the product of both decays... *)
Theorem C92_schedule_restarts_refuted :
  forall OS (ostep : OS -> R -> list R -> list (option R) -> OS * list R) start stop T gs1 gs2 (l l2 : loss OS) h h2,
  0 < start -> 0 <= stop -> (0 < T)%Z -> (Z.of_nat (List.length gs1 + List.length gs2) <= T)%Z ->
  ls_epoch l = 0%Z -> ls_epoch l2 = 0%Z -> same_build [l] [l2] ->
  let step := run_losses ostep (linear_lr start stop T) in
  let calls := map (fun g => (O, g)) in
  let '(ls1, h1) := step (calls gs1) [l] h in
  exists ls', exists h', load_all (save_all ls1 h1) [l2] h2 = Ok (ls', h') /\
    map (@ls_lr OS) (fst (step (calls (gs1 ++ gs2)) [l] h)) =
      [ls_lr l / start * (start + (stop - start) * INR (List.length gs1 + List.length gs2) / IZR T)] /\
    map (@ls_lr OS) (fst (step (calls gs2) ls' h')) =
      [ls_lr l / start * (start + (stop - start) * INR (List.length gs1) / IZR T) / start *
       (start + (stop - start) * INR (List.length gs2) / IZR T)].
Proof. intros OS ostep s e T gs1 gs2 l l2 h h2. exact (@resumed_rate OS ostep s e T gs1 gs2 l l2 h h2). Qed.
Print Assumptions C92_schedule_restarts_refuted.
(** ... which is another rate: decaying to zero in two batches, and stopped half way, it
    is a quarter of the first rate instead of zero. *)
Example c92_rates_differ :
  1 / 1 * (1 + (0 - 1) * INR (1 + 1) / IZR 2) = 0 /\
  1 / 1 * (1 + (0 - 1) * INR 1 / IZR 2) / 1 * (1 + (0 - 1) * INR 1 / IZR 2) = 1 / 4.
Proof. split; cbn; lra. Qed.

(** Target networks are not saved: after [updates1] and a restart with initial weights
    [q1] the target network is [q1], and [n] batches later it is still off by [(1 - tau)^n]
    times the error, while the network itself goes on as before. *)
Theorem C92_target_networks_refuted : forall tau updates1 updates2 (q0 q1 : list R),
  List.length q1 = List.length q0 ->
  Forall (fun u => forall q : list R, List.length q = List.length q0 -> List.length (u q) = List.length q0) (updates1 ++ updates2) ->
  let run updates p := fold_left (fun p u => pair_batch tau u p) updates p in
  let stopped := run updates1 (build_pair q0) in
  let loaded := pair_load (pair_save stopped) (build_pair q1) in
  pr_qt loaded = q1 /\
  pr_q (run updates2 loaded) = pr_q (run (updates1 ++ updates2) (build_pair q0)) /\
  forall i, (i < List.length q0)%nat ->
    nth i (pr_qt (run updates2 loaded)) 0 - nth i (pr_qt (run (updates1 ++ updates2) (build_pair q0))) 0 =
    (1 - tau) ^ List.length updates2 * (nth i q1 0 - nth i (pr_qt stopped) 0).
Proof. exact resumed_target. Qed.
Print Assumptions C92_target_networks_refuted.
Example c92_targets_differ :
  pr_qt (fold_left (fun p u => pair_batch (1 / 2) u p) [fun _ => [1]] (build_pair [0])) <> [7].
Proof. cbn. intros E. injection E as E. lra. Qed.

(** A process with other initial values and other leftovers. *)
Example c92_case :
  let ls := [mkLoss [0; 1]%nat [0; 1]%nat 1 true 1 9; mkLoss [2]%nat [2]%nat 5 false 1 9] in
  let ls2 := [mkLoss [0; 1]%nat [0; 1]%nat 1 false 2 0; mkLoss [2]%nat [2]%nat 5 false 2 0] in
  same_build ls ls2 /\ sound_networks 3 ls /\ cover 3 ls /\ Forall (sound_loss 3) ls.
Proof.
  split; [repeat constructor|]. split; [repeat constructor; cbn; try lia; intuition; try discriminate|].
  split; [|repeat constructor; cbn; try lia; intuition; try discriminate].
  intros p H. destruct p as [|[|[|p]]]; [| | |lia];
    first [exists (mkLoss [0; 1]%nat [0; 1]%nat 1 true 1 9); cbn; solve [tauto] | exists (mkLoss [2]%nat [2]%nat 5 false 1 9); cbn; tauto].
Qed.

(** C93.  In any history of optimizer steps, ends of batches and loads, the policy loss
    and the target computation read the very alpha that is trained, no other tensor is
    written, and at every end of a batch alpha is cut to at most [max_alpha]. *)
Theorem C93_alpha_shared_and_capped : forall step tensors address n_actions max_alpha t_entropy ops s,
  (address < List.length tensors)%nat -> 0 < max_alpha ->
  alpha_run step ops (alpha_init tensors address n_actions max_alpha t_entropy) = Ok s ->
  ln_alpha_at s (al_policy s) = ln_alpha_at s (al_own s) /\
  ln_alpha_at s (al_target s) = ln_alpha_at s (al_own s) /\
  (forall a, a <> address -> ln_alpha_at s a = nth a tensors 0) /\
  forall s', alpha_do step AEndBatch s = Ok s' ->
    ln_alpha_at s' (al_own s') = Rmin (ln_alpha_at s (al_own s)) (ln max_alpha) /\
    exp (ln_alpha_at s' (al_policy s')) <= max_alpha /\ exp (ln_alpha_at s' (al_target s')) <= max_alpha.
Proof. exact alpha_history. Qed.
Print Assumptions C93_alpha_shared_and_capped.

(** The slope of alpha's loss is the batch's mean entropy minus the target: a gradient
    step raises alpha exactly when the entropy is too low. *)
Theorem C93_slope : forall logps target x, logps <> [] ->
  derivable_pt_lim (alpha_loss logps target) x (rsum (map Ropp logps) / INR (List.length logps) - target).
Proof. exact alpha_slope. Qed.
Print Assumptions C93_slope.

(** The target entropy makes one step of its schedule per batch, loads notwithstanding;
    by default it is minus the number of actions for ever. *)
Theorem C93_target_entropy : forall step ops s s', alpha_run step ops s = Ok s' ->
  steps_of step (ends ops) (al_entropy s) = Ok (al_entropy s').
Proof. exact alpha_run_entropy. Qed.
Print Assumptions C93_target_entropy.
Theorem C93_default_target : forall tensors address n_actions max_alpha ops s,
  alpha_run constant_step ops (alpha_init tensors address n_actions max_alpha None) = Ok s ->
  sc_value (al_entropy s) = - IZR n_actions.
Proof. exact default_target. Qed.
Print Assumptions C93_default_target.

(** Loading with [load_weights=False] still overwrites alpha, and the loaded alpha may
    exceed the cap until the next end of a batch. *)
Theorem C93_load_ignores_flag_refuted :
  let fresh := alpha_init [0] O 3 (1 / 2) None in
  exists s, alpha_run constant_step [ALoad 4 false] fresh = Ok s /\
    ln_alpha_at s (al_own s) = 4 /\ ln_alpha_at fresh (al_own fresh) = 0 /\ exp (ln_alpha_at s (al_own s)) > 1 / 2.
Proof.
  eexists. split; [reflexivity|]. split; [reflexivity|]. split; [reflexivity|].
  apply Rlt_gt. apply Rlt_trans with (exp 0); [rewrite exp_0; lra|apply exp_increasing; cbn; lra].
Qed.
Print Assumptions C93_load_ignores_flag_refuted.

Example c93_case : exists s,
  alpha_run constant_step [AStep 3; AEndBatch; AStep (-1); AEndBatch; ALoad 2 true] (alpha_init [0; 5] O 3 (1 / 2) None) = Ok s.
Proof. eexists. reflexivity. Qed.
