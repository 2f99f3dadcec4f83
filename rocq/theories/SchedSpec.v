(** * SchedSpec: what the schedules should give *)
From Coq Require Import Reals.
From Verif Require Import Py NumModel SchedModel.
Open Scope string_scope.
Open Scope list_scope.
Open Scope R_scope.

(** The value of a new schedule after [k] calls of [step]. *)
Definition value_after (step : schedule -> res schedule) (initial final : R) (steps : Z) (k : nat) (v : R) : Prop :=
  exists s, steps_of step k (sc_init initial final steps) = Ok s /\ sc_value s = v.

(** [v] lies between [a] and [b], whichever is larger. *)
Definition between (a b v : R) : Prop := Rmin a b <= v <= Rmax a b.
(** From [v] to [w] one moves towards [b] as seen from [a], or stays. *)
Definition onwards (a b v w : R) : Prop := (a <= b -> v <= w) /\ (b <= a -> w <= v).

(** How much of the way from initial to final is done at time [t]: all of it from
    [steps] on; with a staircase only whole stairs count. *)
Definition part_done (staircase : option Z) (steps t : Z) : R :=
  if (steps <=? t)%Z then 1
  else match staircase with
       | None => IZR t / IZR steps
       | Some n => IZR (t * n / steps) / IZR n
       end.
Definition on_the_way (initial final part : R) : R := (1 - part) * initial + part * final.
Definition sensible (staircase : option Z) : Prop := match staircase with None => True | Some n => (0 < n)%Z end.

(** A triangle: up during [half] steps, down during [half] steps, again and again. *)
Definition triangle (half t : Z) : R :=
  let r := (t mod (2 * half))%Z in
  if (r <=? half)%Z then IZR r / IZR half else IZR (2 * half - r) / IZR half.
(** The number of full cycles before time [t]. *)
Definition cycles (half t : Z) : Z := (t / (2 * half))%Z.

(** The amplitude after that many cycles: the same, or halved each time. *)
Definition shrink (mode : string) (c : Z) : R := if String.eqb mode "triangular" then 1 else / 2 ^ Z.to_nat c.

Definition cosine (initial final : R) (steps t : Z) : R :=
  final + (initial - final) * (1 + cos (PI * IZR t / IZR steps)) / 2.
