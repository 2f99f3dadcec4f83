(** * AlgoProps: C72, C73, C76, C80-C82 *)
From Coq Require Import Reals Lra Lia.
From Verif Require Import Py NumModel AlgoModel AlgoSpec AlgoProofs AlgoMore AlgoFind NormSpec NormProofs.
Open Scope list_scope.
Open Scope R_scope.

(** C72, for batches of two rows or more: any history of updates is accepted, the
    standard deviations are numbers no smaller than eps, and denormalize undoes
    normalize. *)
Theorem C72_accepted : forall d batches, Forall (ample d) batches ->
  exists s, nm_history nm_init batches = Ok s.
Proof. exact (fun d batches F => match @history_good d batches nm_init (nm_good_init d) F with
                                 | ex_intro _ s (conj E _) => ex_intro _ s E end). Qed.
Print Assumptions C72_accepted.
Theorem C72_inverse_partial : forall d batches s rows mean std,
  Forall (ample d) batches -> wide d rows -> nm_history nm_init batches = Ok s ->
  (nm_stats s = Some (mean, std) ->
     List.length std = d /\ Forall (fun v => exists x, v = Some x /\ nm_eps <= x) std) /\
  exists y, normalize s (finite rows) = Ok y /\ denormalize s y = Ok (finite rows).
Proof. exact normalizer_partial. Qed.
Print Assumptions C72_inverse_partial.
(** The mean of a feature stays between the bounds of the data. *)
Theorem C72_mean : forall d j lo hi batches s mean std x, Forall (ample d) batches ->
  Forall (Forall (fun row => forall y, nth_error row j = Some y -> lo <= y <= hi)) batches ->
  (j < d)%nat ->
  nm_history nm_init batches = Ok s -> nm_stats s = Some (mean, std) ->
  nth_error mean j = Some (Some x) -> lo <= x <= hi.
Proof. exact normalizer_mean. Qed.
Print Assumptions C72_mean.
(** Exactly: the mean and the deviation of a feature are those of its batches, averaged
    with a rate that falls from one half to one hundredth, the deviation never below 1e-5. *)
Theorem C72_running : forall d batches s j, Forall (ample d) batches -> batches <> [] -> (j < d)%nat ->
  nm_history nm_init batches = Ok s ->
  exists mean std, nm_stats s = Some (mean, std)
    /\ nth_error mean j = Some (running average (fun x => x) j 0 None batches)
    /\ nth_error std j = Some (running sample_deviation (Rmax (1 / 100000)) j 0 None batches).
Proof. exact running_stats. Qed.
Print Assumptions C72_running.
(** A batch of one row makes every later result not-a-number. *)
Theorem C72_one_row_refuted : forall x row, exists s, nm_history nm_init [[x :: row]] = Ok s /\
  forall y z, exists t, normalize s [Some y :: z] = Err RuntimeError \/ normalize s [Some y :: z] = Ok [None :: t].
Proof. exact one_row. Qed.
Print Assumptions C72_one_row_refuted.
Example C72_case : Forall (ample 2) [[[1; 2]; [3; 4]]; [[5; 6]; [7; 8]; [9; 10]]].
Proof. repeat constructor. Qed.

(** C73: [k] soft updates leave an entry at [source + (1-tau)^k (target - source)],
    between the two, and at a distance that shrinks geometrically. *)
Theorem C73_soft_update : forall tau source target i j s t,
  same_sizes source target -> entry source i j = Some s -> entry target i j = Some t ->
  entry (soft_update tau source target) i j = Some (t * (1 - tau) + s * tau).
Proof. exact soft_entry. Qed.
Print Assumptions C73_soft_update.
Theorem C73_repeated : forall k tau source target i j s t,
  same_sizes source target -> entry source i j = Some s -> entry target i j = Some t ->
  entry (soft_updates k tau source target) i j = Some (s + (1 - tau) ^ k * (t - s)).
Proof. exact soft_entries. Qed.
Print Assumptions C73_repeated.
Theorem C73_never_overshoots : forall k tau s t, 0 <= tau <= 1 ->
  Rmin s t <= s + (1 - tau) ^ k * (t - s) <= Rmax s t /\
  Rabs (s + (1 - tau) ^ k * (t - s) - s) = (1 - tau) ^ k * Rabs (t - s).
Proof. exact soft_between. Qed.
Print Assumptions C73_never_overshoots.
Theorem C73_converges : forall tau s t, 0 < tau <= 1 -> Un_cv (fun k => s + (1 - tau) ^ k * (t - s)) s.
Proof. exact soft_limit. Qed.
Print Assumptions C73_converges.
(** A target with more parameters than the source keeps the others. *)
Theorem C73_beyond_source_finding : forall tau source target i, (List.length source <= i)%nat ->
  nth_error (soft_update tau source target) i = nth_error target i.
Proof. exact soft_beyond. Qed.
Print Assumptions C73_beyond_source_finding.
Example C73_case : same_sizes [[1; 2]; [3]] [[0; 0]; [5]] /\ entry [[1; 2]; [3]] 0 1 = Some 2
  /\ entry [[0; 0]; [5]] 0 1 = Some 0.
Proof. repeat split. Qed.

(** C76 *)
Theorem C76_targets : forall erf min max bins sigma target, strictly_increasing erf ->
  min < max -> (0 < bins)%nat -> 0 < sigma ->
  distribution bins (transform_to_probs erf min max bins sigma target).
Proof. exact transform_distribution. Qed.
Print Assumptions C76_targets.
(** QLoss trains towards the nearest value of the range, with a deviation of [ratio] bins;
    that is a distribution even for an error function that saturates. *)
Theorem C76_loss_targets : forall erf ratio min max bins q, saturating erf ->
  min < max -> (0 < bins)%nat -> 0 < ratio ->
  distribution bins (qloss_target erf ratio min max bins q).
Proof. exact qloss_distribution. Qed.
Print Assumptions C76_loss_targets.
Theorem C76_nearest : forall erf ratio min max bins q, min < max ->
  exists t, min <= t <= max /\ (forall u, min <= u <= max -> Rabs (q - t) <= Rabs (q - u)) /\
  qloss_target erf ratio min max bins q = transform_to_probs erf min max bins (ratio * ((max - min) / INR bins)) t.
Proof. exact qloss_nearest. Qed.
Print Assumptions C76_nearest.
Theorem C76_in_range : forall min max bins logits, min <= max -> (0 < bins)%nat ->
  List.length logits = bins -> min <= q_from_logit min max bins logits <= max.
Proof. exact q_in_range. Qed.
Print Assumptions C76_in_range.
(** With an error function that is constant for large arguments, as it is in
    floating point, a target far below the range is turned into not-a-number. *)
Theorem C76_far_target_finding : forall erf min max bins sigma c, 0 < sigma -> min <= max -> (0 < bins)%nat ->
  (forall x, c <= x -> erf x = 1) ->
  exists target, transform_to_probs erf min max bins sigma target = repeat None bins.
Proof. exact far_target. Qed.
Print Assumptions C76_far_target_finding.
Example C76_case : strictly_increasing atan.
Proof. exact atan_increasing. Qed.
Example C76_case_saturating : saturating (fun x => Rmax (-1) (Rmin 1 x)) /\ ~ strictly_increasing (fun x => Rmax (-1) (Rmin 1 x)).
Proof. exact clip_saturating. Qed.

(** C80: a network that has learnt its training targets exactly makes [sample]
    return the next observations and rewards of the training batch, whatever the
    model was trained on before. *)
Theorem C80_round_trip : forall learned_rewards process no_delta n_obs n_action bs m b,
  dims_exist n_obs no_delta -> processes n_obs process ->
  trained_on (dm_new learned_rewards process no_delta) bs m ->
  Forall (fits n_obs n_action) (bs ++ [b]) ->
  exists m' x y, process_batch m (t_obs b) (t_next b) (t_action b) (t_reward b) = Ok (m', (x, y)) /\
    forall net, net x = y ->
      sample m' net (t_action b) (t_obs b)
      = Ok (combine (finite (t_next b))
                    (if learned_rewards then finite (t_reward b) else map (fun _ => []) (t_reward b))).
Proof. exact model_round_trip. Qed.
Print Assumptions C80_round_trip.
Example C80_case : dims_exist 2 [-1]%Z /\ processes 2 (Some (fun o => o ++ o))
  /\ Forall (fits 2 1) [mkTr [[1; 2]; [3; 4]] [[5; 6]; [7; 8]] [[0]; [1]] [[1]; [2]]].
Proof.
  split; [|split].
  - repeat constructor; simpl; lia.
  - exists 4%nat. intros o Ho. rewrite app_length, Ho. reflexivity.
  - repeat constructor; simpl; lia.
Qed.

(** C81, for what is stored: the network comes back, and the loaded model predicts as the
    saved one does as long as their configurations and their normalizers are the same. *)
Theorem C81_network_partial : forall (m fresh : dynamic) net,
  dm_learned_rewards fresh = dm_learned_rewards m -> dm_process fresh = dm_process m ->
  dm_no_delta fresh = dm_no_delta m -> dm_in fresh = dm_in m -> dm_target fresh = dm_target m ->
  forall action obs, sample (fst (dm_load fresh net)) (snd (dm_load fresh net)) action obs = sample m net action obs.
Proof. exact load_network. Qed.
Print Assumptions C81_network_partial.
(** C81: a loaded model predicts something else than the model that was saved: the
    statistics of the normalizers are not in the file. *)
Theorem C81_load_refuted : exists m x y,
  process_batch (dm_new false None []) (t_obs tiny) (t_next tiny) (t_action tiny) (t_reward tiny) = Ok (m, (x, y)) /\
  sample m zero_net [[]] [[0]] = Ok [([Some 1], [])] /\
  sample (fst (dm_load (dm_new false None []) zero_net)) (snd (dm_load (dm_new false None []) zero_net)) [[]] [[0]]
  = Ok [([Some 0], [])].
Proof. exact load_differs. Qed.
Print Assumptions C81_load_refuted.

(** C82 *)
Theorem C82_bounds_partial : forall min_logvar max_logvar logvars, logvars <> [] ->
  min_logvar < ensemble_logvar min_logvar max_logvar logvars
  < max_logvar + exp (- (max_logvar - min_logvar)).
Proof. exact ensemble_bounds. Qed.
Print Assumptions C82_bounds_partial.
Theorem C82_monotone : forall min_logvar max_logvar l l', l < l' ->
  bound_logvar min_logvar max_logvar l < bound_logvar min_logvar max_logvar l'.
Proof. exact bound_incr. Qed.
Print Assumptions C82_monotone.
(** Whatever the bounds, some prediction ends above the upper one. *)
Theorem C82_above_refuted : forall min_logvar max_logvar, exists l,
  max_logvar < bound_logvar min_logvar max_logvar l.
Proof. exact bound_exceeds. Qed.
Print Assumptions C82_above_refuted.
