(** * EnsProps: C102 and C103 *)
From Coq Require Import Reals Lra Lia.
From Verif Require Import Py NumModel PolSpec GenSpec EnsModel EnsSpec EnsProofs EnsMore.
Open Scope list_scope.
Open Scope R_scope.

(** C102.  An ensemble's prediction for a batch: mean and log variance are the averages of
    what its members, each with its own weights, predict for the same input row. *)
Theorem C102_forward : forall n out layers e h det params last lo hi, (0 < e)%nat -> List.length lo = out -> List.length hi = out ->
  forall b x, (0 < b)%nat -> shape b n x ->
  exists mean logvar, forward (build_ensemble n out layers e h det params last lo hi) x = Ok (mean, logvar) /\ shape b out mean /\ shape b out logvar /\
    forall i j, (i < b)%nat -> (j < out)%nat ->
      at_ mean i j = average e (fun m => member_output n (h :: repeat h (layers - 1)) (params m) (last m) (nth i x []) j) /\
      at_ logvar i j = average e (fun m => member_logvar n out (h :: repeat h (layers - 1)) (params m) (last m) lo hi (nth i x []) j).
Proof. exact forward_ok. Qed.
Print Assumptions C102_forward.

(** A sample is the mean, plus, unless the ensemble is deterministic, noise scaled by the
    standard deviation of the averaged log variance. *)
Theorem C102_sample : forall n out layers e h det params last lo hi, (0 < e)%nat -> List.length lo = out -> List.length hi = out ->
  forall b x noise, (0 < b)%nat -> shape b n x -> shape b out noise ->
  exists s, sample (build_ensemble n out layers e h det params last lo hi) noise x = Ok s /\ shape b out s /\
    forall i j, (i < b)%nat -> (j < out)%nat ->
      at_ s i j = average e (fun m => member_output n (h :: repeat h (layers - 1)) (params m) (last m) (nth i x []) j)
                  + if det then 0
                    else exp (average e (fun m => member_logvar n out (h :: repeat h (layers - 1)) (params m) (last m) lo hi (nth i x []) j) / 2) * at_ noise i j.
Proof. exact sample_ok. Qed.
Print Assumptions C102_sample.

(** That variance misses all of the members' disagreement: it is smaller than the variance
    of the mixture of the members' predictions by at least the variance of their means. *)
Theorem C102_disagreement_finding : forall e mean logvar, (0 < e)%nat ->
  exp (average e logvar) + average e (fun m => (mean m - average e mean) ^ 2) <= mixture_variance e mean logvar /\
  0 <= average e (fun m => (mean m - average e mean) ^ 2).
Proof. exact spread_short. Qed.
Print Assumptions C102_disagreement_finding.

Example C102_case : exists s, sample (build_ensemble 2 1 0 3 4 false (fun m k => (fun i j => INR (m + k + i + j), fun i => INR i))
    (fun m => (fun i j => INR (m + i), fun i => 1)) [-10] [1 / 2]) [[1]; [-1]] [[1; 2]; [3; 4]] = Ok s /\ shape 2 1 s.
Proof.
  destruct (C102_sample 2 1 0 3 4 false (fun m k => (fun i j => INR (m + k + i + j), fun i => INR i))
    (fun m => (fun i j => INR (m + i), fun i => 1)) [-10] [1 / 2] ltac:(lia) eq_refl eq_refl 2%nat [[1; 2]; [3; 4]] [[1]; [-1]]) as [s [E [Sh _]]];
    try lia; try (split; auto; fail). exists s. auto.
Qed.

(** C103.  The ensemble's loss: the sum over the members of minus the average
    log-likelihood of the targets under the member's own prediction, up to a constant
    and with variances of at least a millionth, plus a hundredth of the distance of the bounds. *)
Theorem C103_loss : forall n out layers e h det params last lo hi, (0 < e)%nat -> List.length lo = out -> List.length hi = out -> (0 < out)%nat ->
  forall b x t, shape b n x -> shape b out t -> (0 < b)%nat ->
  loss (build_ensemble n out layers e h det params last lo hi) (T2 x) (T2 t) =
    Ok (rsum (map (fun m => total b out (fun i j => - ln (normal_density
                 (member_output n (h :: repeat h (layers - 1)) (params m) (last m) (nth i x []) j)
                 (sqrt (Rmax (exp (member_logvar n out (h :: repeat h (layers - 1)) (params m) (last m) lo hi (nth i x []) j)) (1 / 1000000))) (at_ t i j))) / (INR b * INR out)) (seq 0 e))
        - INR e * (ln (2 * PI) / 2) + 1 / 100 * (rsum hi - rsum lo)).
Proof. exact loss_density. Qed.
Print Assumptions C103_loss.
(** With the default lower bound of -10 the predicted variances are that large anyway. *)
Theorem C103_default_bound : forall n out hidden params last lo hi row j, -10 <= entry lo j ->
  Rmax (exp (member_logvar n out hidden params last lo hi row j)) (1 / 1000000) = exp (member_logvar n out hidden params last lo hi row j).
Proof. exact default_bound. Qed.
Print Assumptions C103_default_bound.
(** The same loss is the sum of the members' entrywise losses ... *)
Theorem C103_sum : forall n out layers e h det params last lo hi, (0 < e)%nat -> List.length lo = out -> List.length hi = out ->
  forall b x t, shape b n x -> shape b out t ->
  loss (build_ensemble n out layers e h det params last lo hi) (T2 x) (T2 t) =
    Ok (rsum (map (fun m => total b out (fun i j => gaussian_nll
                 (member_output n (h :: repeat h (layers - 1)) (params m) (last m) (nth i x []) j) (at_ t i j)
                 (exp (member_logvar n out (h :: repeat h (layers - 1)) (params m) (last m) lo hi (nth i x []) j))) / (INR b * INR out)) (seq 0 e))
        + 1 / 100 * (rsum hi - rsum lo)).
Proof. exact loss_ok. Qed.
Print Assumptions C103_sum.
(** With a batch per member, member [m] is trained on batch [m] alone. *)
Theorem C103_own_batches : forall n out layers e h det params last lo hi, (0 < e)%nat -> List.length lo = out -> List.length hi = out ->
  forall b x t, (forall m, (m < e)%nat -> shape b n (x m) /\ shape b out (t m)) ->
  loss (build_ensemble n out layers e h det params last lo hi) (T3 (map x (seq 0 e))) (T3 (map t (seq 0 e))) =
    Ok (rsum (map (fun m => total b out (fun i j => gaussian_nll
                 (member_output n (h :: repeat h (layers - 1)) (params m) (last m) (nth i (x m) []) j) (at_ (t m) i j)
                 (exp (member_logvar n out (h :: repeat h (layers - 1)) (params m) (last m) lo hi (nth i (x m) []) j))) / (INR b * INR out)) (seq 0 e))
        + 1 / 100 * (rsum hi - rsum lo)).
Proof. exact loss_batches. Qed.
Print Assumptions C103_own_batches.
(** ... and an entry's loss is least exactly at the target, and, for a given error, at the
    variance that is the squared error. *)
Theorem C103_mean_best : forall m t v, gaussian_nll t t v <= gaussian_nll m t v /\ (gaussian_nll m t v = gaussian_nll t t v -> m = t).
Proof. exact nll_mean_best. Qed.
Print Assumptions C103_mean_best.
Theorem C103_variance_best : forall m t v w, 1 / 1000000 <= v -> 1 / 1000000 <= w -> (m - t) ^ 2 = w ->
  gaussian_nll m t w <= gaussian_nll m t v /\ (gaussian_nll m t v = gaussian_nll m t w -> v = w).
Proof. exact nll_variance_best. Qed.
Print Assumptions C103_variance_best.
(** Inputs and targets of different dimensions are refused. *)
Theorem C103_ndim : forall en m ms, loss en (T2 m) (T3 ms) = Err AssertionError /\ loss en (T3 ms) (T2 m) = Err AssertionError.
Proof. exact ndim_differs. Qed.
Print Assumptions C103_ndim.
(** The deterministic model's loss is the mean squared error of its prediction: never
    negative, zero exactly if the prediction is the target. *)
Theorem C103_deterministic : forall network x p t b c, network x = Ok p -> (0 < b)%nat -> (0 < c)%nat -> shape b c p -> shape b c t ->
  exists l, det_loss network x t = Ok l /\ l = total b c (fun i j => (at_ p i j - at_ t i j) ^ 2) / (INR b * INR c) /\
    0 <= l /\ (l = 0 <-> p = t).
Proof. exact det_loss_ok. Qed.
Print Assumptions C103_deterministic.
Example C103_case : shape 2 2 [[1; 2]; [3; 4]] /\ shape 2 1 [[5]; [6]] /\ -10 <= entry [-10] 0.
Proof. split; [split; auto|]. split; [split; auto|]. unfold entry. simpl. lra. Qed.
