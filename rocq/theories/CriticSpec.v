(** * CriticSpec: what the loss of a critic has to measure *)
From Coq Require Import Reals.
From Verif Require Import Py MemModel MemSpec ProxyModel ProxySpec NumModel NumSpec E2ESpec.
Open Scope list_scope.
Open Scope R_scope.

(** The average squared difference over [count] rollouts of [L] steps. *)
Definition mean_over (count L : nat) (predicted wanted : nat -> nat -> R) : R :=
  rsum (map (fun k => (predicted (k / L)%nat (k mod L)%nat - wanted (k / L)%nat (k mod L)%nat) ^ 2)
            (seq 0 (count * L))) / INR (count * L).
(** [v] is the greatest of [l]. *)
Definition greatest (l : list R) (v : R) : Prop := In v l /\ Forall (fun x => x <= v) l.

(** The soft value of an observation: the more cautious opinion on the action the policy
    takes there, plus the entropy bonus. *)
Definition soft_value {A O} (policy : nat -> O -> A * R) (q1t q2t : A -> O -> R) (alpha : R) (j : nat) (o : O) : R :=
  let action := fst (policy j o) in
  (if Rle_dec (q1t action o) (q2t action o) then q1t action o else q2t action o) + alpha * - snd (policy j o).

Section Spec.
Context {S : Type} {HS : Scalar S}.
(** What the agent did at moment [k]: the numbers of its answer in one column. *)
Definition did (num : S -> R) (action : column S) (ms : list (@moment S)) (k : nat) : list R :=
  map num (row_or_empty (cast_by action (of_moment ms k (fun m => answered m (c_name action))))).
(** Where in the history of the agents each rollout of a batch comes from: an episode some
    agent completed, and the first moment of the rollout in it. *)
Definition origin (h : list (pop S)) (count L : nat) (from : nat -> list (@moment S) * nat) : Prop :=
  forall j, (j < count)%nat -> exists a, In (fst (from j)) (episodes [] (stream a h)) /\
    (snd (from j) + L < List.length (fst (from j)))%nat.
(** Agents that choose one of [n] actions, and answer with its number. *)
Definition chooses (num : S -> R) (action : column S) (n : nat) (h : list (pop S)) : Prop :=
  forall a ms m v, In ms (episodes [] (stream a h)) -> In m ms -> answered m (c_name action) = Some v ->
    exists k, (k < n)%nat /\ map num (map (c_cast action) v) = [INR k].
End Spec.
