(** * HlcSpec: what the loss of an HL-Gauss critic has to measure *)
From Coq Require Import Reals.
From Verif Require Import Py NumModel.
Open Scope list_scope.
Open Scope R_scope.

(** The point of the range closest to [x]. *)
Definition within (lo hi x : R) : R := if Rle_dec x lo then lo else if Rle_dec hi x then hi else x.
(** Where bin [i] begins, when [bins] bins of the same width fill the range. *)
Definition edge (lo hi : R) (bins i : nat) : R := lo + INR i * ((hi - lo) / INR bins).
(** The share of bin [i] in a bell curve around [x] cut off at the ends of the range; its
    standard deviation is [ratio] bins.  [erf] is the error function: the mass of the curve
    between two points is half the difference of its values. *)
Definition share (erf : R -> R) (ratio lo hi : R) (bins : nat) (x : R) (i : nat) : R :=
  let deviation := ratio * ((hi - lo) / INR bins) in
  let mass u v := (erf ((v - x) / (sqrt 2 * deviation)) - erf ((u - x) / (sqrt 2 * deviation))) / 2 in
  mass (edge lo hi bins i) (edge lo hi bins (S i)) / mass lo hi.
(** The chance the network gives to bin [i]. *)
Definition chance (bins : nat) (logit : list R) (i : nat) : R :=
  exp (nth i logit 0) / rsum (map (fun k => exp (nth k logit 0)) (seq 0 bins)).
(** How far the chances are from the shares: their cross entropy. *)
Definition surprise (bins : nat) (shares chances : nat -> R) : R :=
  rsum (map (fun i => shares i * - ln (chances i)) (seq 0 bins)).
(** The value a row of logits stands for: the mean of the middles of the bins. *)
Definition valued (lo hi : R) (bins : nat) (logit : list R) : R :=
  rsum (map (fun i => chance bins logit i * ((edge lo hi bins i + edge lo hi bins (S i)) / 2)) (seq 0 bins)).
