(** * HlgSpec: words for the HL-Gauss loss *)
From Coq Require Import Reals.
From Verif Require Import Py NumModel AlgoModel AlgoSpec.
Open Scope list_scope.
Open Scope R_scope.

(** The arithmetic mean. *)
Definition mean (l : list R) : R := rsum l / INR (List.length l).
(** The entropy of a distribution: - sum p ln p (a bin of probability 0 counts 0). *)
Definition entropy (ps : list R) : R := - rsum (map (fun p => p * ln p) ps).
(** The cross entropy of a prediction [qs] relative to [ps]: - sum p ln q. *)
Definition cross (ps qs : list R) : R := - rsum (map (fun pq => fst pq * ln (snd pq)) (combine ps qs)).
(** The width of a bin. *)
Definition bin_width (min max : R) (bins : nat) : R := (max - min) / INR bins.
(** A row of logits that minimises the loss for the target [q]: it predicts exactly the target
    distribution. *)
Definition best_for (erf : R -> R) (ratio min max : R) (bins : nat) (q : R) (row : list R) : Prop :=
  List.length row = bins /\ map Some (softmax row) = qloss_target erf ratio min max bins q.
Definition odd (f : R -> R) : Prop := forall x, f (- x) = - f x.
