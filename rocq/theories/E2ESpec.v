(** * E2ESpec: the target of a training row in terms of what an agent experienced *)
From Coq Require Import Reals.
From Verif Require Import Py MemModel MemSpec ProxyModel ProxySpec NumModel NumSpec.
Open Scope list_scope.
Open Scope R_scope.

Section Spec.
Context {S : Type} {HS : Scalar S}.
Notation moment := (@moment S).

(** Something of moment [k] of an episode. *)
Definition of_moment {A} (ms : list moment) (k : nat) (f : moment -> option A) : option A :=
  match nth_error ms k with Some m => f m | None => None end.
(** The reward received for the [k]-th step: it came with the next observation. *)
Definition reward_for (num : S -> R) (reward : column S) (ms : list moment) (k : nat) : R :=
  number num (row_or_empty (cast_by reward (of_moment ms (k + 1) received))).
(** What was seen at moment [k], in the given columns. *)
Definition seen_at (obs : list (column S)) (ms : list moment) (k : nat) : list (row (S:=S)) :=
  map (fun c => row_or_empty (cast_by c (of_moment ms k (fun m => saw m (c_name c))))) obs.
Definition ended_at (ms : list moment) (k : nat) : bool :=
  match nth_error ms k with Some m => is_final (o_state (fst m)) | None => false end.

(** The target of step [t] of the [L] steps from moment [i] of the episode [ms], when
    they are the [j]-th rollout of the batch: the discounted scaled rewards the agent
    received from that step to the last of them, and the discounted value of what it
    saw then, unless the episode had ended and terminals are masked. *)
Definition experienced_target (num : S -> R) (gamma scale : R) (L : nat) (masking : bool)
    (reward : column S) (obs : list (column S)) (value : nat -> list (row (S:=S)) -> R)
    (j : nat) (ms : list moment) (i t : nat) : R :=
  n_step_return gamma
    (map (fun k => scale * reward_for num reward ms (i + k)) (seq 0 L))
    (if andb masking (ended_at ms (i + L)) then 0 else value j (seen_at obs ms (i + L))) t.
End Spec.
