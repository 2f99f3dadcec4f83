(** * StyleSpec: the moves that adversarial imitation judges *)
From Coq Require Import Reals.
From Verif Require Import Py MemModel MemSpec ProxyModel ProxySpec NumModel E2ESpec CriticSpec ActorSpec.
Open Scope list_scope.
Open Scope R_scope.

Section Spec.
Context {S : Type} {HS : Scalar S}.
(** What agents see in a column always has [d] numbers. *)
Definition sees (obs : MemModel.column S) (d : nat) (h : list (pop S)) : Prop :=
  forall a ms m v, In ms (episodes [] (stream a h)) -> In m ms -> saw m (c_name obs) = Some v -> List.length v = d.
(** Rewards are single numbers. *)
Definition single_rewards (h : list (pop S)) : Prop :=
  forall a ms m v, In ms (episodes [] (stream a h)) -> In m ms -> received m = Some v -> List.length v = 1%nat.
(** A move: what an agent saw at moment [k], and what it saw at the moment after; [state]
    is the part of an observation that is judged. *)
Definition move (num : S -> R) (obs : MemModel.column S) (state : list R -> list R) (ms : list (@moment S)) (k : nat) : list R :=
  state (viewed num obs ms k) ++ state (viewed num obs ms (k + 1)).
(** A column of a batch as numbers. *)
Definition shown (num : S -> R) (out : dict string (array S)) (name : string) : matrix :=
  match dget out name with Some rows => map (map num) rows | None => [] end.
End Spec.
