(** * SchedProps: the theorems for C66-C68, and cases that meet their hypotheses *)
From Coq Require Import Reals Lra.
From Verif Require Import Py NumModel SchedModel SchedSpec SchedProofs.
Open Scope string_scope.
Open Scope list_scope.
Open Scope R_scope.

(** ** C66 *)
(** Between the end points, monotone, from initial to final; but one step later
    than the documentation says. *)
Theorem C66_linear_partial : forall (staircase : option Z) (initial final : R) (steps : Z),
  (0 < steps)%Z -> sensible staircase ->
  exists v : nat -> R, (forall k, value_after (linear_step staircase) initial final steps k (v k)) /\ v O = initial
    /\ (forall k, between initial final (v k)) /\ (forall k m, (k <= m)%nat -> onwards initial final (v k) (v m))
    /\ (forall k, (steps < Z.of_nat k)%Z -> v k = final).
Proof. exact linear_bounds. Qed.
Print Assumptions C66_linear_partial.

Theorem C66_interpolation_partial : forall (staircase : option Z) (initial final : R) (steps : Z) (k : nat),
  (0 < steps)%Z -> sensible staircase ->
  value_after (linear_step staircase) initial final steps (S k)
    (on_the_way initial final (part_done staircase steps (Z.of_nat k))).
Proof. exact linear_values. Qed.
Print Assumptions C66_interpolation_partial.

(** After [steps] steps the final value is never reached. *)
Theorem C66_reaches_refuted : forall (staircase : option Z) (initial final : R) (steps : Z),
  (0 < steps)%Z -> sensible staircase -> initial <> final ->
  forall v, value_after (linear_step staircase) initial final steps (Z.to_nat steps) v -> v <> final.
Proof. exact linear_late. Qed.
Print Assumptions C66_reaches_refuted.

Example C66_case : value_after (linear_step None) 1 0 4 3 (1 / 2) /\ value_after (linear_step (Some 2%Z)) 1 0 4 4 (1 / 2).
Proof.
  split.
  - pose proof (C66_interpolation_partial None 1 0 4 2 eq_refl I) as H. unfold part_done in H. simpl in H.
    unfold on_the_way in H. replace (1 / 2) with ((1 - 2 / 4) * 1 + 2 / 4 * 0) by field. exact H.
  - pose proof (C66_interpolation_partial (Some 2%Z) 1 0 4 3 eq_refl eq_refl) as H. unfold part_done in H.
    change (3 * 2 / 4)%Z with 1%Z in H. simpl in H. change (3 * 2 / 4)%Z with 1%Z in H.
    unfold on_the_way in H. replace (1 / 2) with ((1 - 1 / 2) * 1 + 1 / 2 * 0) by field. exact H.
Qed.

(** ** C67 *)
Theorem C67_bounds : forall (mode : string) (initial final : R) (half : Z),
  mode = "triangular" \/ mode = "triangular2" -> (0 < half)%Z ->
  exists v : nat -> R, (forall k, value_after (cyclic_step mode) initial final half k (v k)) /\ v O = initial /\ v 1%nat = initial
    /\ (forall k, between initial final (v k)).
Proof. exact cyclic_bounds. Qed.
Print Assumptions C67_bounds.

Theorem C67_triangle : forall (mode : string) (initial final : R) (half : Z) (k : nat),
  mode = "triangular" \/ mode = "triangular2" -> (0 < half)%Z ->
  value_after (cyclic_step mode) initial final half (S k)
    (on_the_way initial final (triangle half (Z.of_nat k) * shrink mode (cycles half (Z.of_nat k)))).
Proof. exact cyclic_values. Qed.
Print Assumptions C67_triangle.

Theorem C67_peak : forall (mode : string) (initial final : R) (half : Z) (c : nat) (v : R),
  mode = "triangular" \/ mode = "triangular2" -> (0 < half)%Z ->
  value_after (cyclic_step mode) initial final half (1 + c * Z.to_nat (2 * half) + Z.to_nat half) v ->
  v = on_the_way initial final (if String.eqb mode "triangular" then 1 else / 2 ^ c).
Proof. exact cyclic_peak. Qed.
Print Assumptions C67_peak.

Theorem C67_periodic : forall (initial final : R) (half : Z) (k : nat) (v w : R), (0 < half)%Z ->
  value_after (cyclic_step "triangular") initial final half (S k) v ->
  value_after (cyclic_step "triangular") initial final half (S k + Z.to_nat (2 * half)) w -> w = v.
Proof. exact cyclic_period. Qed.
Print Assumptions C67_periodic.

Theorem C67_halving : forall (initial final : R) (half : Z) (k : nat) (v w : R), (0 < half)%Z ->
  value_after (cyclic_step "triangular2") initial final half (S k) v ->
  value_after (cyclic_step "triangular2") initial final half (S k + Z.to_nat (2 * half)) w -> w - initial = (v - initial) / 2.
Proof. exact cyclic_halves. Qed.
Print Assumptions C67_halving.

Example C67_case : value_after (cyclic_step "triangular2") 0 8 2 7 4.
Proof.
  pose proof (C67_triangle "triangular2" 0 8 2 6 (or_intror eq_refl) eq_refl) as H.
  replace 4 with (on_the_way 0 8 (triangle 2 (Z.of_nat 6) * shrink "triangular2" (cycles 2 (Z.of_nat 6)))); [exact H|].
  unfold triangle, cycles, shrink, on_the_way. simpl Z.of_nat.
  change (6 mod (2 * 2))%Z with 2%Z. change (6 / (2 * 2))%Z with 1%Z. change (2 <=? 2)%Z with true.
  change (Z.to_nat 1) with 1%nat. change (String.eqb "triangular2" "triangular") with false. cbv iota. simpl pow. field.
Qed.

(** ** C68 *)
(** The incremental value is the closed form, of one step less; the quotient in
    the code is never by zero. *)
Theorem C68_closed_form_partial : forall (initial final : R) (steps : Z) (k : nat), (0 < steps)%Z ->
  value_after cosine_step initial final steps (S k) (cosine initial final steps (Z.of_nat k)).
Proof. exact cosine_values. Qed.
Print Assumptions C68_closed_form_partial.

Theorem C68_restarts_partial : forall (initial final : R) (steps : Z) (k : nat), (0 < steps)%Z ->
  value_after restarts_step initial final steps (S k) (cosine initial final steps (Z.of_nat k mod steps)).
Proof. exact restarts_values. Qed.
Print Assumptions C68_restarts_partial.

(** The closed form has reached final after [steps] steps, the schedule has not. *)
Theorem C68_closed_form_refuted : forall (initial final : R) (steps : Z) (v : R), (0 < steps)%Z -> initial <> final ->
  value_after cosine_step initial final steps (Z.to_nat steps) v -> v <> final /\ cosine initial final steps steps = final.
Proof. exact cosine_not_yet. Qed.
Print Assumptions C68_closed_form_refuted.

(** With warm restarts the final value is never reached at all. *)
Theorem C68_restarts_never_final_finding : forall (initial final : R) (steps : Z) (k : nat) (v : R),
  (0 < steps)%Z -> initial <> final -> value_after restarts_step initial final steps k v -> v <> final.
Proof. exact restarts_never. Qed.
Print Assumptions C68_restarts_never_final_finding.

Example C68_case : value_after cosine_step 1 0 2 3 0 /\ value_after restarts_step 1 0 2 3 1.
Proof.
  split.
  - pose proof (C68_closed_form_partial 1 0 2 2 eq_refl) as H. unfold cosine in H. simpl Z.of_nat in H.
    replace (PI * 2 / 2) with PI in H by field. rewrite cos_PI in H. replace 0 with (0 + (1 - 0) * (1 + -1) / 2) at 2 by field. exact H.
  - pose proof (C68_restarts_partial 1 0 2 2 eq_refl) as H. unfold cosine in H. simpl Z.of_nat in H. change (2 mod 2)%Z with 0%Z in H.
    replace (PI * 0 / 2) with 0 in H by field. rewrite cos_0 in H. replace 1 with (0 + (1 - 0) * (1 + 1) / 2) at 2 by field. exact H.
Qed.
