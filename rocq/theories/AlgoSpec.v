(** * AlgoSpec: what the normalizer, the dynamics model, soft updates and HL-Gauss have to do *)
From Coq Require Import Reals.
From Verif Require Import Py NumModel AlgoModel.
Open Scope list_scope.
Open Scope R_scope.

(** Every row has [d] numbers. *)
Definition wide (d : nat) (data : list (list R)) : Prop := Forall (fun row => List.length row = d) data.
(** A batch from which a standard deviation can be estimated: two rows or more. *)
Definition ample (d : nat) (data : list (list R)) : Prop := (2 <= List.length data)%nat /\ wide d data.
(** A batch of transitions: as many rows of each kind, of the same sizes. *)
Record transitions : Type := mkTr {
  t_obs : list (list R); t_next : list (list R); t_action : list (list R); t_reward : list (list R) }.
Definition fits (n_obs n_action : nat) (b : transitions) : Prop :=
  (2 <= List.length (t_obs b))%nat
  /\ List.length (t_next b) = List.length (t_obs b)
  /\ List.length (t_action b) = List.length (t_obs b)
  /\ List.length (t_reward b) = List.length (t_obs b)
  /\ wide n_obs (t_obs b) /\ wide n_obs (t_next b) /\ wide n_action (t_action b) /\ wide 1 (t_reward b).
(** The model after it has been trained on some batches, the last of which was
    turned into network input [x] and network target [y]. *)
Inductive trained_on (m0 : dynamic) : list transitions -> dynamic -> Prop :=
| trained_none : trained_on m0 [] m0
| trained_more bs m b m' x y : trained_on m0 bs m ->
    process_batch m (t_obs b) (t_next b) (t_action b) (t_reward b) = Ok (m', (x, y)) ->
    trained_on m0 (bs ++ [b]) m'.
(** The dimensions that are predicted as they are exist. *)
Definition dims_exist (n_obs : nat) (dims : list Z) : Prop :=
  Forall (fun d => (- Z.of_nat n_obs <= d < Z.of_nat n_obs)%Z) dims.
(** obs_process_fn maps rows of [n_obs] numbers to rows of equal size. *)
Definition processes (n_obs : nat) (f : option (list R -> list R)) : Prop :=
  match f with None => True | Some g => exists d, forall o, List.length o = n_obs -> List.length (g o) = d end.

(** The number at position [j] of parameter [i]. *)
Definition entry (params : list (list R)) (i j : nat) : option R :=
  match nth_error params i with Some p => nth_error p j | None => None end.
(** Source and target have parameters of the same sizes. *)
Definition same_sizes (source target : list (list R)) : Prop :=
  map (@List.length R) source = map (@List.length R) target.

(** A probability distribution over [n] bins. *)
Definition distribution (n : nat) (ps : list val) : Prop :=
  exists qs, ps = map Some qs /\ List.length qs = n /\ Forall (fun q => 0 <= q) qs /\ rsum qs = 1.
Definition strictly_increasing (f : R -> R) : Prop := forall x y, x < y -> f x < f y.
(** What floating point leaves of the error function: it never decreases and tells 0 from
    every other number, but may be constant far from 0. *)
Definition saturating (f : R -> R) : Prop :=
  (forall x y, x <= y -> f x <= f y) /\ (forall x, 0 < x -> f 0 < f x) /\ (forall x, x < 0 -> f x < f 0).
