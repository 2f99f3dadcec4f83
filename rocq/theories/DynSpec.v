(** * DynSpec: what the loss of a dynamics model measures (C135) *)
From Coq Require Import Reals.
From Verif Require Import Py NumModel AlgoModel AlgoSpec.
Open Scope list_scope.
Open Scope R_scope.

(** The squares of the differences, each in its own unit. *)
Fixpoint squared_errors (units predicted actual : list R) : list R :=
  match units, predicted, actual with
  | u :: us, p :: ps, a :: rest => ((p - a) / u) ^ 2 :: squared_errors us ps rest
  | _, _, _ => []
  end.
Fixpoint all_errors (units : list R) (predicted actual : list (list R)) : list R :=
  match predicted, actual with
  | p :: ps, a :: rest => squared_errors units p a ++ all_errors units ps rest
  | _, _ => []
  end.
Definition mean_of (l : list R) : R := rsum l / INR (List.length l).

(** What really happened in the transitions: the next observation and, if rewards are
    learned, the reward. *)
Fixpoint happened (rewards : bool) (next reward : list (list R)) : list (list R) :=
  match next, reward with
  | n :: ns, r :: rs => (n ++ if rewards then r else []) :: happened rewards ns rs
  | _, _ => []
  end.
(** Predictions of next observations and of rewards, as the model returns them. *)
Definition returns (predicted : list (list R * list R)) : list (list val * list val) :=
  map (fun p => (map Some (fst p), map Some (snd p))) predicted.
Definition sizes (rewards : bool) (n n_obs : nat) (predicted : list (list R * list R)) : Prop :=
  List.length predicted = n
  /\ Forall (fun p => List.length (fst p) = n_obs /\ List.length (snd p) = if rewards then 1%nat else 0%nat) predicted.
Definition joined (predicted : list (list R * list R)) : list (list R) := map (fun p => fst p ++ snd p) predicted.
