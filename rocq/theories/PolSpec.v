(** * PolSpec: squashed Gaussians, multilayer perceptrons, squared errors *)
From Coq Require Import Reals.
From Verif Require Import Py NumModel.
Open Scope list_scope.
Open Scope R_scope.

(** Weights [w], bias [b] of a layer with [n] inputs, at the input [x]: output [i]. *)
Definition affine (wb : (nat -> nat -> R) * (nat -> R)) (n : nat) (x : nat -> R) (i : nat) : R :=
  rsum (map (fun j => fst wb i j * x j) (seq 0 n)) + snd wb i.
(** The output of the hidden layers of sizes [hidden], with [n] inputs [x]; layer [k]
    has the weights and bias [params k] and cuts negative values to zero. *)
Fixpoint features (n : nat) (hidden : list nat) (k : nat) (params : nat -> (nat -> nat -> R) * (nat -> R)) (x : nat -> R) : nat -> R :=
  match hidden with
  | [] => x
  | m :: r => features m r (S k) params (fun i => Rmax 0 (affine (params k) n x i))
  end.
(** The size of the last hidden layer. *)
Definition last_size (n : nat) (hidden : list nat) : nat := last hidden n.
(** The entries of a row of a batch. *)
Definition entry (row : list R) (j : nat) : R := nth j row 0.

(** The inverse of tanh. *)
Definition atanh (a : R) : R := (ln (1 + a) - ln (1 - a)) / 2.
(** The density of a normal distribution. *)
Definition normal_density (mean std z : R) : R := exp (- ((z - mean) ^ 2) / (2 * std ^ 2)) / (std * sqrt (2 * PI)).
(** The density, at [a] between -1 and 1, of tanh of a normal variable. *)
Definition squashed_density (mean std a : R) : R := normal_density mean std (atanh a) / (1 - a ^ 2).

(** A batch of [b] rows of [n] entries. *)
Definition shape (b n : nat) (m : list (list R)) : Prop := List.length m = b /\ Forall (fun row => List.length row = n) m.
(** The average squared difference of two lists. *)
Definition mean_square_error (a b : list R) : R :=
  rsum (map (fun xy => (fst xy - snd xy) ^ 2) (combine a b)) / INR (List.length a).
(** [x] moved into the interval from [lo] to [hi]. *)
Definition limited (lo hi x : R) : R := if Rlt_dec x lo then lo else if Rlt_dec hi x then hi else x.
(** The first column of a batch. *)
Definition first_column (m : list (list R)) : list R := map (fun row => entry row 0) m.
