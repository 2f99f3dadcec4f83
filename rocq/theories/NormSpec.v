(** * NormSpec: the statistics of a normalizer *)
From Coq Require Import Reals.
From Verif Require Import Py NumModel.
Open Scope list_scope.
Open Scope R_scope.

Definition average (l : list R) : R := rsum l / INR (List.length l).
(** The unbiased estimate of the standard deviation. *)
Definition sample_deviation (l : list R) : R :=
  sqrt (rsum (map (fun x => (x - average l) ^ 2) l) / (INR (List.length l) - 1)).
(** The numbers of feature [j]. *)
Definition feature (j : nat) (data : list (list R)) : list R := map (fun row => nth j row 0) data.

(** How much the batch after [n] others counts: from one half down to one hundredth. *)
Definition rate_after (n : nat) : R := Rmax (1 / 100) (1 / 2 - INR n / 100).
(** The statistic after the batches, [n] others before them having given [acc]: each batch
    moves it by the rate towards its own, and [floor] is applied. *)
Fixpoint running (stat : list R -> R) (floor : R -> R) (j : nat) (n : nat) (acc : option R) (batches : list (list (list R))) : option R :=
  match batches with
  | [] => acc
  | b :: rest =>
      let x := stat (feature j b) in
      running stat floor j (S n)
        (Some (floor (match acc with None => x | Some a => (1 - rate_after n) * a + rate_after n * x end))) rest
  end.
