(** * CurlSpec: contrastive losses, moving averages *)
From Coq Require Import Reals.
From Verif Require Import Py NumModel PolSpec GenSpec.
Open Scope list_scope.
Open Scope R_scope.

(** The similarity of anchor [i] and candidate [j]: the sum over k and l of
    a_ik W_kl p_jl. *)
Definition similarity (n : nat) (W a p : list (list R)) (i j : nat) : R :=
  rsum (map (fun k => rsum (map (fun l => at_ a i k * at_ W k l * at_ p j l) (seq 0 n))) (seq 0 n)).
(** The average over the [b] anchors of minus the log of the probability with which
    anchor [i] picks candidate [i], if candidate [j] has a weight of exp (score i j). *)
Definition contrastive (b : nat) (score : nat -> nat -> R) : R :=
  rsum (map (fun i => - ln (exp (score i i) / rsum (map (fun j => exp (score i j)) (seq 0 b)))) (seq 0 b)) / INR b.
(** [m] is the greatest of [n] scores. *)
Definition greatest (n : nat) (f : nat -> R) (m : R) : Prop :=
  (exists j, (j < n)%nat /\ f j = m) /\ forall j, (j < n)%nat -> f j <= m.

(** A target that follows its source: after every batch it moves by the fraction tau. *)
Definition moved (tau : R) (target source : list (list R)) : list (list R) :=
  map (fun ts => map (fun yx => fst yx * (1 - tau) + snd yx * tau) (combine (fst ts) (snd ts))) (combine target source).
(** over a training run, in which the source has the weights [sources] after each batch *)
Definition follows (tau : R) (target : list (list R)) (sources : list (list (list R))) : list (list R) :=
  fold_left (moved tau) sources target.
