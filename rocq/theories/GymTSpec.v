(** * GymTSpec: consecutive steps of an environment and their returns *)
From Coq Require Import Reals.
From Verif Require Import Py MemModel ProxyModel NumModel NumSpec GymModel.
Open Scope list_scope.
Open Scope R_scope.

Section Spec.
Context {S E : Type}.
Variable env : genv S E.

(** The environment goes from state [e] to state [e'] by these actions, answering each. *)
Inductive steps : E -> list (list S * answer S) -> E -> Prop :=
| steps_none : forall e, steps e [] e
| steps_one : forall e action e' a l e'', g_step env e action = (e', a) -> steps e' l e'' -> steps e ((action, a) :: l) e''.
Definition over (x : list S * answer S) : bool := orb (an_term (snd x)) (an_trunc (snd x)).
(** A part of an episode: some steps [l] from state [e], after a reset and some steps before; no
    step but the last ended the episode. *)
Definition part_of_episode (l : list (list S * answer S)) : Prop :=
  exists e0 e1 o before e2 e3, g_reset env e0 = (e1, o) /\ steps e1 before e2 /\ steps e2 l e3 /\
    Forall (fun x => over x = false) before /\ Forall (fun x => over x = false) (removelast l).
End Spec.

(** The return of the [t]-th of some steps. *)
Definition return_of {S} (num : S -> R) (gamma scale : R) (masking : bool) (reward : column S) (obs : list (column S))
    (value : list (list S) -> R) (l : list (list S * answer S)) (t : nat) : R :=
  n_step_return gamma (map (fun x => scale * num (c_cast reward (an_reward (snd x)))) l)
    (match rev l with
     | x :: _ => if andb masking (over x) then 0 else value (map (fun c => map (c_cast c) (an_obs (snd x))) obs)
     | [] => 0
     end) t.
