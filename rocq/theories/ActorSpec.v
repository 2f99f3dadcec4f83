(** * ActorSpec: what the losses of a policy, a temperature and a dynamics model are about *)
From Coq Require Import Reals.
From Verif Require Import Py MemModel MemSpec ProxyModel ProxySpec NumModel NumSpec E2ESpec CriticSpec AlgoSpec.
Open Scope list_scope.
Open Scope R_scope.

(** The average of [f] over the steps of [count] rollouts of [L] steps; [f] is given the row
    of the batch, the rollout, and the step in it. *)
Definition average (count L : nat) (f : nat -> nat -> nat -> R) : R :=
  rsum (map (fun k => f k (k / L)%nat (k mod L)%nat) (seq 0 (count * L))) / INR (count * L).
(** The opinion on an action: that of the critic, or of the more cautious of two. *)
Definition cautious {A O} (q1 : A -> O -> R) (q2 : option (A -> O -> R)) (a : A) (o : O) : R :=
  match q2 with
  | None => q1 a o
  | Some q2 => if Rle_dec (q1 a o) (q2 a o) then q1 a o else q2 a o
  end.

Section Spec.
Context {S : Type} {HS : Scalar S}.
(** The numbers an agent saw in one column at moment [k]. *)
Definition viewed (num : S -> R) (obs : column S) (ms : list (@moment S)) (k : nat) : list R :=
  map num (row_or_empty (cast_by obs (of_moment ms k (fun m => saw m (c_name obs))))).
(** The reward it received for the [k]-th step, as a row of the batch. *)
Definition gained (num : S -> R) (reward : column S) (ms : list (@moment S)) (k : nat) : list R :=
  map num (row_or_empty (cast_by reward (of_moment ms (k + 1) received))).
(** The transitions from the moments [from 0], [from 1], ... *)
Definition experienced (num : S -> R) (obs action reward : column S) (count : nat) (from : nat -> list (@moment S) * nat) : transitions :=
  mkTr (map (fun j => viewed num obs (fst (from j)) (snd (from j))) (seq 0 count))
       (map (fun j => viewed num obs (fst (from j)) (snd (from j) + 1)) (seq 0 count))
       (map (fun j => did num action (fst (from j)) (snd (from j))) (seq 0 count))
       (map (fun j => gained num reward (fst (from j)) (snd (from j))) (seq 0 count)).
(** The transitions in the columns of a batch. *)
Definition drawn (num : S -> R) (out : dict string (array S)) (obs next action reward : string) : transitions :=
  let rows name := match dget out name with Some l => map (map num) l | None => [] end in
  mkTr (rows obs) (rows next) (rows action) (rows reward).
End Spec.
