(** * HlgProps: the HL-Gauss loss (C123, C124)

    [erf] is the error function: any function that never decreases and tells zero from other
    numbers ([saturating], AlgoSpec.v), so also what floating point makes of it.  Read HlgSpec.v
    for [mean], [entropy], [cross], [best_for]. *)
From Coq Require Import Reals Lra Lia.
From Verif Require Import Py NumModel AlgoModel AlgoSpec HlgModel HlgSpec HlgProofs.
Open Scope list_scope.
Open Scope R_scope.

(** C123: the loss is a number; it is the mean cross entropy between target distributions and
    predictions, it is never below the mean entropy of the targets, and equals that exactly if
    every prediction is the target distribution.  The logged prediction is the mean Q value. *)
Theorem C123_minimum : forall erf ratio min max bins logits q_target,
  saturating erf -> min < max -> (0 < bins)%nat -> 0 < ratio ->
  logits <> [] -> List.length q_target = List.length logits -> Forall (fun row => List.length row = bins) logits ->
  exists ts v,
    Forall2 (fun q t => qloss_target erf ratio min max bins q = map Some t) q_target ts
    /\ qloss_loss erf ratio min max bins bins logits q_target
       = Ok (Some (mean (map (q_from_logit min max bins) logits)), Some v)
    /\ v = mean (map (fun rt => cross (snd rt) (softmax (fst rt))) (combine logits ts))
    /\ mean (map entropy ts) <= v
    /\ (v = mean (map entropy ts) <-> Forall2 (fun row t => softmax row = t) logits ts).
Proof. exact qloss_minimum. Qed.
Print Assumptions C123_minimum.
(** The minimum is reached (for the exact error function). *)
Theorem C123_reached : forall erf ratio min max bins q, strictly_increasing erf -> min < max -> (0 < bins)%nat -> 0 < ratio ->
  exists row, best_for erf ratio min max bins q row.
Proof. exact best_exists. Qed.
Print Assumptions C123_reached.
(** A constant added to the logits of an observation changes nothing. *)
Theorem C123_shift : forall erf ratio min max bins width cs logits q_target, List.length cs = List.length logits ->
  qloss_loss erf ratio min max bins width (map2 (fun c row => map (Rplus c) row) cs logits) q_target
  = qloss_loss erf ratio min max bins width logits q_target.
Proof. exact qloss_shift. Qed.
Print Assumptions C123_shift.
(** Another number of bins, or of targets, is not accepted. *)
Theorem C123_shapes : forall erf ratio min max bins width logits q_target,
  width <> bins \/ List.length q_target <> List.length logits ->
  exists e, qloss_loss erf ratio min max bins width logits q_target = Err e /\ (e = AssertionError \/ e = RuntimeError).
Proof. exact qloss_shapes. Qed.
Print Assumptions C123_shapes.
Example C123_case : strictly_increasing atan /\ saturating atan /\ (0 < 2)%nat
  /\ Forall (fun row => List.length row = 2%nat) [[1; 2]; [0; 5]] /\ List.length [7; -3] = List.length [[1; 2]; [0; 5]].
Proof. destruct atan_odd as (A & B & _). split; [exact A|]. split; [exact B|]. repeat constructor. Qed.

(** C124: the Q network answers with one column of values between the middle of the first bin
    and the middle of the last one. *)
Theorem C124_column : forall min max bins logits, (0 < bins)%nat -> min <= max ->
  Forall (fun row => List.length row = bins) logits ->
  exists qs, qnet_forward min max bins bins logits = Ok (map (fun q => [Some q]) qs)
  /\ List.length qs = List.length logits
  /\ Forall (fun q => min + bin_width min max bins / 2 <= q <= max - bin_width min max bins / 2) qs.
Proof. exact qnet_column. Qed.
Print Assumptions C124_column.
(** A prediction that minimises the loss is the target, if that is the middle of the range. *)
Theorem C124_middle_partial : forall erf ratio min max bins row, saturating erf -> odd erf ->
  min < max -> (0 < bins)%nat -> 0 < ratio ->
  best_for erf ratio min max bins ((min + max) / 2) row -> q_from_logit min max bins row = (min + max) / 2.
Proof. exact middle. Qed.
Print Assumptions C124_middle_partial.
(** But for a target at (or below) the lower end, every prediction is wrong by half a bin or
    more, whatever is learnt. *)
Theorem C124_edge_refuted : forall min max bins logits q, min < max -> (0 < bins)%nat -> List.length logits = bins -> q <= min ->
  q_from_logit min max bins logits - clamp min max q >= bin_width min max bins / 2 /\ 0 < bin_width min max bins / 2.
Proof. exact edge_bias. Qed.
Print Assumptions C124_edge_refuted.
Example C124_case : exists row, best_for atan (3/4) 0 10 5 ((0 + 10) / 2) row /\ saturating atan /\ odd atan.
Proof.
  destruct atan_odd as (A & B & C). destruct (@best_exists atan (3/4) 0 10 5 ((0 + 10) / 2)) as [row H]; auto; try lra; try lia.
  exists row. auto.
Qed.
