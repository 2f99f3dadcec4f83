(** * EnsSpec: what an ensemble predicts, likelihoods *)
From Coq Require Import Reals.
From Verif Require Import Py NumModel PolSpec.
Open Scope list_scope.
Open Scope R_scope.

(** Output [i] of one member for the input row [row]: layers of the sizes [hidden] with
    the member's own weights, then its own last layer. *)
Definition member_output (n : nat) (hidden : list nat) (params : nat -> (nat -> nat -> R) * (nat -> R))
    (last : (nat -> nat -> R) * (nat -> R)) (row : list R) (i : nat) : R :=
  affine last (last_size n hidden) (features n hidden 0 params (entry row)) i.
(** The average over [n] members. *)
Definition average (n : nat) (f : nat -> R) : R := rsum (map f (seq 0 n)) / INR n.
(** ln (1 + exp x) *)
Definition soft (x : R) : R := ln (1 + exp x).
(** The log variance from an output [v], softly cut at [hi], then at [lo]. *)
Definition soft_bounds (lo hi v : R) : R := lo + soft (hi - soft (hi - v) - lo).
(** The variance of a mixture of [n] equally likely normal distributions with the given
    means and log variances: the average variance plus the variance of the means. *)
Definition mixture_variance (n : nat) (mean logvar : nat -> R) : R :=
  average n (fun m => exp (logvar m)) + average n (fun m => (mean m - average n mean) ^ 2).
(** Log variance [j] of one member for the input row [row]: from output [out + j]. *)
Definition member_logvar (n out : nat) (hidden : list nat) (params : nat -> (nat -> nat -> R) * (nat -> R))
    (last : (nat -> nat -> R) * (nat -> R)) (lo hi : list R) (row : list R) (j : nat) : R :=
  soft_bounds (entry lo j) (entry hi j) (member_output n hidden params last row (out + j)).
