(** * TargSpec: what target networks contain during training (C136) *)
From Coq Require Import Reals.
From Verif Require Import Py NumModel AlgoSpec TargModel.
Open Scope list_scope.
Open Scope R_scope.

(** The exponential moving average: the network as it was at first counts (1-tau)^n, what it
    was [age] batches before the newest of the [n] counts tau (1-tau)^age. *)
Definition moving_average (tau first : R) (history : list R) : R :=
  let n := List.length history in
  (1 - tau) ^ n * first + rsum (map (fun i => tau * (1 - tau) ^ (n - 1 - i) * nth i history 0) (seq 0 n)).

(** Number [j] of parameter [i]. *)
Definition number (i j : nat) (params : list (list R)) : R :=
  match entry params i j with Some x => x | None => 0 end.

(** What optimizers do that were given some of the first [n] modules: they change numbers, not
    sizes, and no other module. *)
Definition optimizes (n : nat) (step : modules -> modules) : Prop :=
  (forall h m, same_sizes (read h m) (read (step h) m))
  /\ (forall h, List.length (step h) = List.length h)
  /\ (forall h m, (n <= m)%nat -> read (step h) m = read h m).
