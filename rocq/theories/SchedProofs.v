(** * SchedProofs *)
From Coq Require Import Reals Lra.
From Verif Require Import Py NumModel SchedModel SchedSpec.
Set Implicit Arguments.
Unset Strict Implicit.
Open Scope string_scope.
Open Scope list_scope.
Open Scope R_scope.

Lemma floor_unique x z : IZR z <= x -> x < IZR z + 1 -> floor x = z.
Proof.
  intros A B. unfold floor. destruct (base_Int_part x) as [C D].
  assert (E : IZR (Int_part x) < IZR (z + 1)) by (rewrite plus_IZR; lra).
  assert (F : IZR z < IZR (Int_part x + 1)) by (rewrite plus_IZR; lra).
  apply lt_IZR in E. apply lt_IZR in F. lia.
Qed.
Lemma floor_div a b : (0 < b)%Z -> floor (IZR a / IZR b) = (a / b)%Z.
Proof.
  intros B. assert (B' : 0 < IZR b) by (apply (IZR_lt 0); auto).
  pose proof (Z.div_mod a b) as E. pose proof (Z.mod_pos_bound a b B) as M.
  assert (X : IZR a = IZR b * IZR (a / b) + IZR (a mod b)).
  { rewrite <- mult_IZR, <- plus_IZR. f_equal. lia. }
  assert (M1 : 0 <= IZR (a mod b)) by (apply (IZR_le 0); lia).
  assert (M2 : IZR (a mod b) < IZR b) by (apply IZR_lt; lia).
  assert (Y : IZR a / IZR b = IZR (a / b) + IZR (a mod b) / IZR b) by (rewrite X; field; lra).
  assert (Q1 : 0 <= IZR (a mod b) / IZR b) by (apply Rmult_le_pos; [lra|left; apply Rinv_0_lt_compat; auto]).
  assert (Q2 : IZR (a mod b) / IZR b < 1).
  { apply Rmult_lt_reg_r with (IZR b); auto. unfold Rdiv. rewrite Rmult_assoc, Rinv_l by lra. lra. }
  apply floor_unique; lra.
Qed.
Lemma div_le_1 a b : (0 < b)%Z -> (a <= b)%Z -> IZR a / IZR b <= 1.
Proof.
  intros B L. assert (B' : 0 < IZR b) by (apply (IZR_lt 0); auto). apply IZR_le in L.
  apply Rmult_le_reg_r with (IZR b); auto. unfold Rdiv. rewrite Rmult_assoc, Rinv_l by lra. lra.
Qed.
Lemma div_ge_1 a b : (0 < b)%Z -> (b <= a)%Z -> 1 <= IZR a / IZR b.
Proof.
  intros B L. assert (B' : 0 < IZR b) by (apply (IZR_lt 0); auto). apply IZR_le in L.
  apply Rmult_le_reg_r with (IZR b); auto. unfold Rdiv. rewrite Rmult_assoc, Rinv_l by lra. lra.
Qed.
Lemma div_ge_0 a b : (0 < b)%Z -> (0 <= a)%Z -> 0 <= IZR a / IZR b.
Proof.
  intros B L. assert (B' : 0 < IZR b) by (apply (IZR_lt 0); auto). apply (IZR_le 0) in L.
  apply Rmult_le_pos; [lra|left; apply Rinv_0_lt_compat; auto].
Qed.
Lemma div_mono a b c : (0 < c)%Z -> (a <= b)%Z -> IZR a / IZR c <= IZR b / IZR c.
Proof.
  intros C L. assert (C' : 0 < IZR c) by (apply (IZR_lt 0); auto). apply IZR_le in L.
  apply Rmult_le_compat_r; [left; apply Rinv_0_lt_compat; auto|auto].
Qed.

(** The counter and the parameters after [k] steps of a schedule that counts. *)
Definition counts (step : schedule -> res schedule) (at_time : R -> R -> Z -> Z -> R) : Prop :=
  forall i f s n v, (0 < s)%Z -> (0 <= n)%Z -> step (mkSched i f s n v) = Ok (mkSched i f s (n + 1) (at_time i f s n)).
Lemma counts_steps step at_time i f s k : counts step at_time -> (0 < s)%Z ->
  steps_of step (S k) (sc_init i f s) = Ok (mkSched i f s (Z.of_nat (S k)) (at_time i f s (Z.of_nat k))).
Proof.
  intros C S0. induction k as [|k IH].
  - simpl. unfold sc_init. rewrite C; auto. lia.
  - change (steps_of step (S (S k)) (sc_init i f s)) with (rbind (steps_of step (S k) (sc_init i f s)) step).
    rewrite IH. cbn [rbind]. rewrite C by lia. repeat f_equal. lia.
Qed.
Lemma counts_value step at_time i f s k : counts step at_time -> (0 < s)%Z ->
  value_after step i f s (S k) (at_time i f s (Z.of_nat k)).
Proof.
  intros C S0. exists (mkSched i f s (Z.of_nat (S k)) (at_time i f s (Z.of_nat k))). split; auto. apply counts_steps; auto.
Qed.
Lemma value_zero step i f s : value_after step i f s 0 i.
Proof. exists (sc_init i f s). auto. Qed.
Lemma value_fun step i f s k v w : value_after step i f s k v -> value_after step i f s k w -> v = w.
Proof. intros (a & A & A') (b & B & B'). congruence. Qed.

(** ** Linear *)
Lemma part_min st s n : (0 < s)%Z -> (0 <= n)%Z -> sensible st ->
  Rmin (match st with None => IZR n / IZR s | Some m => IZR (floor (IZR n / IZR s * IZR m)) / IZR m end) 1 = part_done st s n.
Proof.
  intros S0 N SE. unfold part_done. destruct st as [m|]; simpl in SE.
  - assert (M' : 0 < IZR m) by (apply (IZR_lt 0); auto). assert (S' : 0 < IZR s) by (apply (IZR_lt 0); auto).
    replace (IZR n / IZR s * IZR m) with (IZR (n * m) / IZR s) by (rewrite mult_IZR; field; lra). rewrite floor_div by auto.
    destruct (Z.leb_spec s n).
    + apply Rmin_right. apply div_ge_1; auto. apply Z.div_le_lower_bound; nia.
    + apply Rmin_left. apply div_le_1; auto. apply Z.div_le_upper_bound; nia.
  - destruct (Z.leb_spec s n).
    + apply Rmin_right. apply div_ge_1; auto.
    + apply Rmin_left. apply div_le_1; auto. lia.
Qed.
Lemma linear_counts st : sensible st -> counts (linear_step st) (fun i f s n => on_the_way i f (part_done st s n)).
Proof.
  intros SE i f s n v S0 N. unfold linear_step, truediv. cbn [sc_steps sc_count sc_initial sc_final].
  destruct (Z.eqb_spec s 0); [lia|]. cbn [rbind].
  assert (X : (match st with None => Ok (IZR n / IZR s) | Some m => fdiv (IZR (floor (IZR n / IZR s * IZR m))) m end)
    = Ok (match st with None => IZR n / IZR s | Some m => IZR (floor (IZR n / IZR s * IZR m)) / IZR m end)).
  { destruct st as [m|]; auto. unfold fdiv. simpl in SE. destruct (Z.eqb_spec m 0); [lia|auto]. }
  rewrite X. cbn [rbind]. rewrite part_min by auto. unfold set_value. cbn [sc_steps sc_count sc_initial sc_final].
  unfold on_the_way. f_equal. f_equal. ring.
Qed.
Lemma part_range st s n : (0 < s)%Z -> (0 <= n)%Z -> sensible st -> 0 <= part_done st s n <= 1.
Proof.
  intros S0 N SE. rewrite <- part_min by auto. split; [|apply Rmin_r]. apply Rmin_glb; [|lra].
  destruct st as [m|]; [|apply div_ge_0; auto]. simpl in SE.
  assert (M' : 0 < IZR m) by (apply (IZR_lt 0); auto). assert (S' : 0 < IZR s) by (apply (IZR_lt 0); auto).
  replace (IZR n / IZR s * IZR m) with (IZR (n * m) / IZR s) by (rewrite mult_IZR; field; lra). rewrite floor_div by auto.
  apply div_ge_0; auto. apply Z.div_pos; nia.
Qed.
Lemma part_mono st s n m : (0 < s)%Z -> (0 <= n <= m)%Z -> sensible st -> part_done st s n <= part_done st s m.
Proof.
  intros S0 N SE. unfold part_done. destruct (Z.leb_spec s n), (Z.leb_spec s m); try lra; try lia.
  - destruct st as [k|]; simpl in SE; [|apply div_le_1; auto; lia]. apply div_le_1; auto. apply Z.div_le_upper_bound; nia.
  - destruct st as [k|]; simpl in SE; [|apply div_mono; auto; lia]. apply div_mono; auto. apply Z.div_le_mono; nia.
Qed.
Lemma way_between i f p : 0 <= p <= 1 -> between i f (on_the_way i f p).
Proof.
  intros [A B]. unfold between, on_the_way, Rmin, Rmax. destruct (Rle_dec i f) as [H|H]; [|apply Rnot_le_lt in H]; nra.
Qed.
Lemma way_onwards i f p q : p <= q -> onwards i f (on_the_way i f p) (on_the_way i f q).
Proof. intros A. unfold onwards, on_the_way. split; intros; nra. Qed.

Theorem linear_values st i f s k : (0 < s)%Z -> sensible st ->
  value_after (linear_step st) i f s (S k) (on_the_way i f (part_done st s (Z.of_nat k))).
Proof. intros S0 SE. exact (counts_value i f k (linear_counts SE) S0). Qed.
Theorem linear_bounds st i f s : (0 < s)%Z -> sensible st ->
  exists v : nat -> R, (forall k, value_after (linear_step st) i f s k (v k)) /\ v O = i
    /\ (forall k, between i f (v k)) /\ (forall k m, (k <= m)%nat -> onwards i f (v k) (v m))
    /\ (forall k, (s < Z.of_nat k)%Z -> v k = f).
Proof.
  intros S0 SE. exists (fun k => on_the_way i f (part_done st s (Z.max 0 (Z.of_nat k - 1)))).
  assert (P0 : part_done st s 0 = 0).
  { unfold part_done. destruct (Z.leb_spec s 0); [lia|]. destruct st as [m|]; [|lra]. rewrite Z.mul_0_l, Z.div_0_l by lia. lra. }
  split; [|split; [|split; [|split]]].
  - intros [|k].
    + replace (on_the_way i f _) with i; [apply value_zero|]. replace (Z.max 0 (Z.of_nat 0 - 1)) with 0%Z by lia. rewrite P0. unfold on_the_way. ring.
    + replace (Z.max 0 (Z.of_nat (S k) - 1)) with (Z.of_nat k) by lia. apply linear_values; auto.
  - replace (Z.max 0 (Z.of_nat 0 - 1)) with 0%Z by lia. rewrite P0. unfold on_the_way. ring.
  - intros k. apply way_between, part_range; auto. lia.
  - intros k m L. apply way_onwards, part_mono; auto. lia.
  - intros k L. unfold part_done. destruct (Z.leb_spec s (Z.max 0 (Z.of_nat k - 1))); [|lia]. unfold on_the_way. ring.
Qed.
(** Never at the end after [s] steps. *)
Theorem linear_late st i f s : (0 < s)%Z -> sensible st -> i <> f ->
  forall v, value_after (linear_step st) i f s (Z.to_nat s) v -> v <> f.
Proof.
  intros S0 SE N v V E. destruct (Z.to_nat s) as [|k] eqn:K; [lia|].
  pose proof (value_fun V (linear_values i f k S0 SE)) as X. subst v.
  assert (KS : (Z.of_nat k = s - 1)%Z) by lia. rewrite KS in X. unfold on_the_way in X.
  assert (Y : (1 - part_done st s (s - 1)) * (i - f) = 0) by lra. apply Rmult_integral in Y. destruct Y as [Y|Y]; [|lra].
  unfold part_done in Y. destruct (Z.leb_spec s (s - 1)); [lia|].
  destruct st as [m|]; simpl in SE.
  - assert (M' : 0 < IZR m) by (apply (IZR_lt 0); auto). assert (L : ((s - 1) * m / s < m)%Z) by (apply Z.div_lt_upper_bound; nia).
    apply IZR_lt in L. assert (Q : IZR ((s - 1) * m / s) = IZR m).
    { apply Rmult_eq_reg_r with (/ IZR m); [|apply Rinv_neq_0_compat; lra]. rewrite Rinv_r by lra. unfold Rdiv in Y. lra. }
    lra.
  - assert (S' : 0 < IZR s) by (apply (IZR_lt 0); auto). assert (Q : IZR (s - 1) = IZR s).
    { apply Rmult_eq_reg_r with (/ IZR s); [|apply Rinv_neq_0_compat; lra]. rewrite Rinv_r by lra. unfold Rdiv in Y. lra. }
    apply eq_IZR in Q. lia.
Qed.

(** ** Cyclic *)
Lemma cyclic_triangle s n : (0 < s)%Z -> (0 <= n)%Z ->
  let cycle := floor (1 + IZR n / IZR (2 * s)) in
  cycle = (cycles s n + 1)%Z /\ Rmax 0 (1 - Rabs (IZR n / IZR s - 2 * IZR cycle + 1)) = triangle s n.
Proof.
  intros S0 N cycle. assert (S' : 0 < IZR s) by (apply (IZR_lt 0); auto).
  assert (C : cycle = (cycles s n + 1)%Z).
  { unfold cycle, cycles. replace (1 + IZR n / IZR (2 * s)) with (IZR (n + 2 * s) / IZR (2 * s)).
    - rewrite floor_div by lia. replace (n + 2 * s)%Z with (n + 1 * (2 * s))%Z by lia. rewrite Z.div_add; lia.
    - rewrite plus_IZR. field. rewrite mult_IZR. lra. }
  split; auto. rewrite C. unfold cycles, triangle.
  pose proof (Z.div_mod n (2 * s)) as E. pose proof (Z.mod_pos_bound n (2 * s)) as M.
  set (q := (n / (2 * s))%Z) in *. set (r := (n mod (2 * s))%Z) in *.
  assert (EN : (n = 2 * s * q + r)%Z) by lia. assert (M' : (0 <= r < 2 * s)%Z) by lia.
  assert (X : IZR n / IZR s - 2 * IZR (q + 1) + 1 = IZR r / IZR s - 1).
  { rewrite EN, !plus_IZR, !mult_IZR. field. lra. }
  rewrite X. destruct (Z.leb_spec r s).
  - rewrite Rabs_left1.
    + rewrite Rmax_right; [lra|]. pose proof (@div_ge_0 r s S0). assert (0 <= IZR r / IZR s) by (apply H0; lia). lra.
    + pose proof (@div_le_1 r s S0). assert (IZR r / IZR s <= 1) by (apply H0; lia). lra.
  - assert (Y : IZR (2 * s - r) / IZR s = 2 - IZR r / IZR s) by (rewrite minus_IZR, mult_IZR; field; lra).
    rewrite Y. rewrite Rabs_right.
    + rewrite Rmax_right; [lra|]. pose proof (@div_ge_0 (2 * s - r) s S0) as Q. rewrite Y in Q. assert (0 <= 2 - IZR r / IZR s) by (apply Q; lia). lra.
    + pose proof (@div_ge_1 r s S0). assert (1 <= IZR r / IZR s) by (apply H0; lia). lra.
Qed.
Lemma scale_shrink mode c : mode = "triangular" \/ mode = "triangular2" -> (0 <= c)%Z -> scale_fn mode (c + 1) = Ok (shrink mode c).
Proof.
  intros [-> | ->] C; unfold scale_fn, shrink; simpl String.eqb; cbv iota; auto.
  f_equal. replace (c + 1 - 1)%Z with (Z.of_nat (Z.to_nat c)) by lia. rewrite <- pow_powerRZ.
  unfold Rdiv. rewrite Rmult_1_l. auto.
Qed.
Lemma cyclic_counts mode : mode = "triangular" \/ mode = "triangular2" ->
  counts (cyclic_step mode) (fun i f s n => i + (f - i) * triangle s n * shrink mode (cycles s n)).
Proof.
  intros MO i f s n v S0 N. unfold cyclic_step, truediv. cbn [sc_steps sc_count sc_initial sc_final].
  destruct (cyclic_triangle S0 N) as [C T].
  destruct (Z.eqb_spec (2 * s) 0); [lia|]. cbn [rbind]. destruct (Z.eqb_spec s 0); [lia|]. cbn [rbind].
  rewrite T, C. assert (CP : (0 <= cycles s n)%Z) by (unfold cycles; apply Z.div_pos; lia). rewrite (scale_shrink MO CP). cbn [rbind]. unfold set_value. cbn [sc_steps sc_count sc_initial sc_final]. auto.
Qed.
Lemma triangle_range s n : (0 < s)%Z -> 0 <= triangle s n <= 1.
Proof.
  intros S0. unfold triangle. pose proof (Z.mod_pos_bound n (2 * s)) as M. destruct (Z.leb_spec (n mod (2 * s)) s).
  - split; [apply div_ge_0; lia|apply div_le_1; lia].
  - split; [apply div_ge_0; lia|apply div_le_1; lia].
Qed.
Lemma shrink_range mode c : 0 < shrink mode c <= 1.
Proof.
  unfold shrink. destruct (String.eqb mode "triangular"); [lra|].
  assert (1 <= 2 ^ Z.to_nat c) by (apply pow_R1_Rle; lra). split; [apply Rinv_0_lt_compat; lra|].
  rewrite <- Rinv_1. apply Rinv_le_contravar; lra.
Qed.
Theorem cyclic_values mode i f s k : mode = "triangular" \/ mode = "triangular2" -> (0 < s)%Z ->
  value_after (cyclic_step mode) i f s (S k) (on_the_way i f (triangle s (Z.of_nat k) * shrink mode (cycles s (Z.of_nat k)))).
Proof.
  intros MO S0. replace (on_the_way i f _) with (i + (f - i) * triangle s (Z.of_nat k) * shrink mode (cycles s (Z.of_nat k))) by (unfold on_the_way; ring).
  exact (counts_value i f k (cyclic_counts MO) S0).
Qed.
Theorem cyclic_bounds mode i f s : mode = "triangular" \/ mode = "triangular2" -> (0 < s)%Z ->
  exists v : nat -> R, (forall k, value_after (cyclic_step mode) i f s k (v k)) /\ v O = i /\ v 1%nat = i
    /\ (forall k, between i f (v k)).
Proof.
  intros MO S0. exists (fun k => match k with O => i | S m => on_the_way i f (triangle s (Z.of_nat m) * shrink mode (cycles s (Z.of_nat m))) end).
  split; [|split; [|split]]; auto.
  - intros [|k]; [apply value_zero|apply cyclic_values; auto].
  - unfold triangle, on_the_way. simpl (Z.of_nat 0). rewrite Z.mod_0_l by lia. destruct (Z.leb_spec 0 s); [|lia]. lra.
  - intros [|k].
    + unfold between, Rmin, Rmax. destruct (Rle_dec i f); lra.
    + apply way_between. pose proof (triangle_range (Z.of_nat k) S0) as T. pose proof (shrink_range mode (cycles s (Z.of_nat k))) as H. nra.
Qed.
Lemma triangle_period s n : (0 < s)%Z -> triangle s (n + 2 * s) = triangle s n.
Proof. intros S0. unfold triangle. replace (n + 2 * s)%Z with (n + 1 * (2 * s))%Z by lia. rewrite Z.mod_add by lia. auto. Qed.
Lemma cycles_period s n : (0 < s)%Z -> cycles s (n + 2 * s) = (cycles s n + 1)%Z.
Proof. intros S0. unfold cycles. replace (n + 2 * s)%Z with (n + 1 * (2 * s))%Z by lia. rewrite Z.div_add by lia. auto. Qed.
Theorem cyclic_period i f s k v w : (0 < s)%Z ->
  value_after (cyclic_step "triangular") i f s (S k) v ->
  value_after (cyclic_step "triangular") i f s (S k + Z.to_nat (2 * s)) w -> w = v.
Proof.
  intros S0 V W. pose proof (value_fun V (cyclic_values i f k (or_introl eq_refl) S0)) as ->.
  replace (S k + Z.to_nat (2 * s))%nat with (S (k + Z.to_nat (2 * s))) in W by lia.
  pose proof (value_fun W (cyclic_values i f (k + Z.to_nat (2 * s)) (or_introl eq_refl) S0)) as ->.
  replace (Z.of_nat (k + Z.to_nat (2 * s))) with (Z.of_nat k + 2 * s)%Z by lia. rewrite triangle_period by auto. unfold shrink. auto.
Qed.
Theorem cyclic_halves i f s k v w : (0 < s)%Z ->
  value_after (cyclic_step "triangular2") i f s (S k) v ->
  value_after (cyclic_step "triangular2") i f s (S k + Z.to_nat (2 * s)) w -> w - i = (v - i) / 2.
Proof.
  intros S0 V W. pose proof (value_fun V (cyclic_values i f k (or_intror eq_refl) S0)) as ->.
  replace (S k + Z.to_nat (2 * s))%nat with (S (k + Z.to_nat (2 * s))) in W by lia.
  pose proof (value_fun W (cyclic_values i f (k + Z.to_nat (2 * s)) (or_intror eq_refl) S0)) as ->.
  replace (Z.of_nat (k + Z.to_nat (2 * s))) with (Z.of_nat k + 2 * s)%Z by lia. rewrite triangle_period, cycles_period by auto.
  unfold shrink. simpl String.eqb. cbv iota.
  assert (C : (0 <= cycles s (Z.of_nat k))%Z) by (unfold cycles; apply Z.div_pos; lia).
  replace (Z.to_nat (cycles s (Z.of_nat k) + 1)) with (S (Z.to_nat (cycles s (Z.of_nat k)))) by lia.
  simpl pow. unfold on_the_way. field. apply pow_nonzero. lra.
Qed.
(** The peak is in the middle of the cycle. *)
Theorem cyclic_peak mode i f s c v : mode = "triangular" \/ mode = "triangular2" -> (0 < s)%Z ->
  value_after (cyclic_step mode) i f s (1 + c * Z.to_nat (2 * s) + Z.to_nat s) v ->
  v = on_the_way i f (if String.eqb mode "triangular" then 1 else / 2 ^ c).
Proof.
  intros MO S0 V. pose proof (value_fun V (cyclic_values i f (c * Z.to_nat (2 * s) + Z.to_nat s) MO S0)) as ->.
  replace (Z.of_nat (c * Z.to_nat (2 * s) + Z.to_nat s)) with (s + Z.of_nat c * (2 * s))%Z by (rewrite Nat2Z.inj_add, Nat2Z.inj_mul; lia).
  unfold triangle, cycles, shrink. rewrite Z.mod_add, Z.div_add by lia. rewrite Z.mod_small, Z.div_small by lia.
  destruct (Z.leb_spec s s); [|lia]. assert (S' : 0 < IZR s) by (apply (IZR_lt 0); auto). unfold Rdiv. rewrite Rinv_r, Rmult_1_l by lra.
  replace (Z.to_nat (0 + Z.of_nat c)) with c by lia. auto.
Qed.

(** ** Cosine *)
Lemma cos_turns x (q : Z) : (0 <= q)%Z -> cos (x + 2 * IZR q * PI) = cos x.
Proof. intros Q. rewrite <- (Z2Nat.id q Q), <- INR_IZR_INZ. apply cos_period. Qed.
Lemma cos_reduce s n : (0 < s)%Z -> (0 <= n)%Z -> cos (PI * IZR n / IZR s) = cos (PI * IZR (n mod (2 * s)) / IZR s).
Proof.
  intros S0 N. assert (S' : 0 < IZR s) by (apply (IZR_lt 0); auto).
  pose proof (Z.div_mod n (2 * s)) as E. rewrite <- (@cos_turns (PI * IZR (n mod (2 * s)) / IZR s) (n / (2 * s))) by (apply Z.div_pos; lia).
  f_equal. rewrite E at 1 by lia. rewrite plus_IZR, !mult_IZR. field. lra.
Qed.
Lemma one_plus_cos s n : (0 < s)%Z -> (0 <= n)%Z -> (n mod (2 * s) <> s)%Z -> 1 + cos (PI * IZR n / IZR s) <> 0.
Proof.
  intros S0 N NE. rewrite cos_reduce by auto. assert (S' : 0 < IZR s) by (apply (IZR_lt 0); auto).
  pose proof (Z.mod_pos_bound n (2 * s)) as M. set (r := (n mod (2 * s))%Z) in *.
  replace (PI * IZR r / IZR s) with (2 * (PI * (IZR r / IZR (2 * s)))) by (rewrite mult_IZR; field; lra).
  rewrite cos_2a_cos. set (y := IZR r / IZR (2 * s)).
  assert (Y0 : 0 <= y) by (apply div_ge_0; lia).
  assert (Y1 : y < 1).
  { unfold y. apply Rmult_lt_reg_r with (IZR (2 * s)); [apply (IZR_lt 0); lia|]. unfold Rdiv. rewrite Rmult_assoc, Rinv_l by (rewrite mult_IZR; lra).
    rewrite Rmult_1_r, Rmult_1_l. apply IZR_lt. lia. }
  assert (Y2 : y <> / 2).
  { unfold y. intros H. apply NE. apply eq_IZR. apply Rmult_eq_reg_r with (/ IZR (2 * s)); [|apply Rinv_neq_0_compat; rewrite mult_IZR; lra].
    unfold Rdiv in H. rewrite H, mult_IZR. field. lra. }
  pose proof PI_RGT_0 as PI0.
  assert (C : cos (PI * y) <> 0).
  { destruct (Rlt_dec y (/ 2)) as [L|L].
    - apply Rgt_not_eq. apply cos_gt_0; nra.
    - apply Rlt_not_eq. apply cos_lt_0; [|nra]. assert (/ 2 < y) by lra. nra. }
  intros H. apply C. nra.
Qed.
Lemma cosine_first i f s : steps_of cosine_step 1 (sc_init i f s) = Ok (mkSched i f s 1 i).
Proof. reflexivity. Qed.
Lemma cosine_next i f s n : (0 < s)%Z -> (1 <= n)%Z ->
  cosine_step (mkSched i f s n (cosine i f s (n - 1))) = Ok (mkSched i f s (n + 1) (cosine i f s n)).
Proof.
  intros S0 N. assert (S' : 0 < IZR s) by (apply (IZR_lt 0); auto). unfold cosine_step. cbn [sc_count sc_steps sc_initial sc_final sc_value].
  destruct (Z.ltb_spec 0 n); [|lia]. destruct (Z.eqb_spec s 0); [lia|].
  destruct (Z.eqb_spec ((n - 1 - s) mod (2 * s)) 0) as [E|E].
  - unfold set_value. cbn [sc_count sc_steps sc_initial sc_final sc_value]. f_equal. f_equal. unfold cosine.
    assert (Q : exists q, (0 <= q)%Z /\ (n - 1 = s + q * (2 * s))%Z).
    { exists ((n - 1 - s) / (2 * s))%Z. pose proof (Z.div_mod (n - 1 - s) (2 * s)) as DM. split; [|lia].
      assert ((n - 1 - s) / (2 * s) <> -1)%Z.
      { intros X. rewrite X, E in DM. lia. }
      assert ((-1 <= (n - 1 - s) / (2 * s)))%Z by (apply Z.div_le_lower_bound; lia). lia. }
    destruct Q as (q & Q0 & Q).
    assert (C1 : cos (PI * IZR (n - 1) / IZR s) = -1).
    { rewrite Q. replace (PI * IZR (s + q * (2 * s)) / IZR s) with (PI + 2 * IZR q * PI) by (rewrite plus_IZR, !mult_IZR; field; lra).
      rewrite cos_turns by auto. apply cos_PI. }
    assert (C2 : cos (PI * IZR n / IZR s) = - cos (PI / IZR s)).
    { replace n with (s + q * (2 * s) + 1)%Z by lia.
      replace (PI * IZR (s + q * (2 * s) + 1) / IZR s) with (PI / IZR s + PI + 2 * IZR q * PI) by (rewrite !plus_IZR, !mult_IZR; field; lra).
      rewrite cos_turns by auto. apply neg_cos. }
    rewrite C1, C2. field.
  - assert (B : 1 + cos (PI * IZR (n - 1) / IZR s) <> 0).
    { apply one_plus_cos; auto; [lia|]. intros X. apply E. replace (n - 1 - s)%Z with ((n - 1) - s)%Z by lia.
      rewrite Zminus_mod, X, Zminus_mod_idemp_r, Z.sub_diag. apply Z.mod_0_l. lia. }
    destruct (Req_EM_T _ 0) as [Z0|Z0]; [contradiction|]. unfold set_value. cbn [sc_count sc_steps sc_initial sc_final sc_value].
    f_equal. f_equal. unfold cosine. field. auto.
Qed.
Theorem cosine_values i f s k : (0 < s)%Z -> value_after cosine_step i f s (S k) (cosine i f s (Z.of_nat k)).
Proof.
  intros S0. assert (X : steps_of cosine_step (S k) (sc_init i f s) = Ok (mkSched i f s (Z.of_nat (S k)) (cosine i f s (Z.of_nat k)))).
  { induction k as [|k IH].
    - rewrite cosine_first. f_equal. f_equal. unfold cosine. simpl (IZR (Z.of_nat 0)). rewrite Rmult_0_r. unfold Rdiv. rewrite Rmult_0_l, cos_0. field.
    - change (steps_of cosine_step (S (S k)) (sc_init i f s)) with (rbind (steps_of cosine_step (S k) (sc_init i f s)) cosine_step).
      rewrite IH. cbn [rbind]. replace (Z.of_nat k) with (Z.of_nat (S k) - 1)%Z by lia. rewrite cosine_next by lia.
      f_equal. f_equal. lia. }
  exists (mkSched i f s (Z.of_nat (S k)) (cosine i f s (Z.of_nat k))). auto.
Qed.
(** After [steps] steps the value is not the final one. *)
Theorem cosine_late i f s v : (0 < s)%Z -> i <> f -> value_after cosine_step i f s (Z.to_nat s) v -> v <> f.
Proof.
  intros S0 N V E. destruct (Z.to_nat s) as [|k] eqn:K; [lia|].
  pose proof (value_fun V (cosine_values i f k S0)) as X. subst v. unfold cosine in X.
  assert (B : 1 + cos (PI * IZR (Z.of_nat k) / IZR s) <> 0) by (apply one_plus_cos; auto; [lia|]; rewrite Z.mod_small; lia).
  apply B. assert ((i - f) * (1 + cos (PI * IZR (Z.of_nat k) / IZR s)) = 0) by lra. apply Rmult_integral in H. destruct H; lra.
Qed.
(** ** Warm restarts *)
Lemma restarts_run i f s k : (0 < s)%Z -> exists n,
  steps_of restarts_step (S k) (sc_init i f s) = Ok (mkSched i f s (n + 1) (cosine i f s n)) /\ n = (Z.of_nat k mod s)%Z.
Proof.
  intros S0. induction k as [|k (n & IH & E)].
  - exists 0%Z. split; [|rewrite Z.mod_0_l; lia]. cbn [steps_of rbind]. unfold restarts_step, sc_init. cbn [sc_count sc_steps sc_initial sc_final].
    destruct (Z.eqb_spec s 0); [lia|]. destruct (Z.leb_spec s 0); [lia|]. auto.
  - change (steps_of restarts_step (S (S k)) (sc_init i f s)) with (rbind (steps_of restarts_step (S k) (sc_init i f s)) restarts_step).
    rewrite IH. cbn [rbind]. unfold restarts_step. cbn [sc_count sc_steps sc_initial sc_final]. destruct (Z.eqb_spec s 0); [lia|].
    exists (if (s <=? n + 1)%Z then ((n + 1) mod s)%Z else (n + 1)%Z). split; auto.
    pose proof (Z.mod_pos_bound (Z.of_nat k) s S0) as M. rewrite <- E in M.
    assert (X : (Z.of_nat (S k) mod s = (n + 1) mod s)%Z).
    { replace (Z.of_nat (S k)) with (Z.of_nat k + 1)%Z by lia. rewrite E. rewrite Zplus_mod_idemp_l. auto. }
    rewrite X. destruct (Z.leb_spec s (n + 1)); auto. rewrite Z.mod_small; lia.
Qed.
Theorem restarts_values i f s k : (0 < s)%Z -> value_after restarts_step i f s (S k) (cosine i f s (Z.of_nat k mod s)).
Proof. intros S0. destruct (restarts_run i f k S0) as (n & E & ->). eexists. split; [exact E|]. auto. Qed.
Theorem restarts_never i f s k v : (0 < s)%Z -> i <> f -> value_after restarts_step i f s k v -> v <> f.
Proof.
  intros S0 N V E. destruct k as [|k]; [pose proof (value_fun V (value_zero _ i f s)); congruence|].
  pose proof (value_fun V (restarts_values i f k S0)) as X. subst v. unfold cosine in X.
  pose proof (Z.mod_pos_bound (Z.of_nat k) s S0) as M.
  assert (B : 1 + cos (PI * IZR (Z.of_nat k mod s) / IZR s) <> 0) by (apply one_plus_cos; auto; [lia|]; rewrite Z.mod_small; lia).
  apply B. assert ((i - f) * (1 + cos (PI * IZR (Z.of_nat k mod s) / IZR s)) = 0) by lra. apply Rmult_integral in H. destruct H; lra.
Qed.
Theorem cosine_not_yet i f s v : (0 < s)%Z -> i <> f -> value_after cosine_step i f s (Z.to_nat s) v ->
  v <> f /\ cosine i f s s = f.
Proof.
  intros S0 N V. split; [eapply cosine_late; eauto|]. unfold cosine. assert (S' : 0 < IZR s) by (apply (IZR_lt 0); auto).
  replace (PI * IZR s / IZR s) with PI by (field; lra). rewrite cos_PI. field.
Qed.
