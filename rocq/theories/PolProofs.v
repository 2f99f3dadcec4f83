(** * PolProofs *)
From Coq Require Import Reals Lra Lia.
From Verif Require Import Py PyLemmas NumModel NumProofs AmpModel PolModel PolSpec.
Open Scope list_scope.
Open Scope R_scope.
Set Implicit Arguments.
Unset Strict Implicit.

(** ** Lists *)
Lemma zipw_length {A B C} (f : A -> B -> C) a : forall b, List.length (zipw f a b) = Nat.min (List.length a) (List.length b).
Proof. induction a; intros [|y b]; cbn; auto. Qed.
Lemma zipw_nth {A B C} (f : A -> B -> C) a : forall b i da db dc, (i < List.length a)%nat -> (i < List.length b)%nat ->
  nth i (zipw f a b) dc = f (nth i a da) (nth i b db).
Proof. induction a; intros [|y b] [|i] da db dc H1 H2; cbn in *; try lia; auto. apply IHa; lia. Qed.
Lemma map_nth_lt {A B} (f : A -> B) l : forall i da db, (i < List.length l)%nat -> nth i (map f l) db = f (nth i l da).
Proof. induction l; intros [|i] da db H; cbn in *; try lia; auto. apply IHl. lia. Qed.
Lemma nth_map_seq {B} (f : nat -> B) n i d : (i < n)%nat -> nth i (map f (seq 0 n)) d = f i.
Proof.
  intros H. rewrite map_nth_lt with (da := O) by (rewrite seq_length; auto). rewrite seq_nth by auto. auto.
Qed.
Lemma rmapM_map {A B} (f : A -> res B) (g : A -> B) l : (forall x, In x l -> f x = Ok (g x)) -> rmapM f l = Ok (map g l).
Proof.
  induction l as [|x l IH]; intros H; cbn; auto. rewrite H by (left; auto). cbn. rewrite IH; [auto|]. intros; apply H; right; auto.
Qed.
Lemma rmapM_err {A B} (f : A -> res B) l x e : In x l -> (forall y, In y l -> f y = Err e \/ exists z, f y = Ok z) ->
  f x = Err e -> rmapM f l = Err e.
Proof.
  induction l as [|y l IH]; intros I H E; [destruct I|]. cbn.
  destruct (H y (or_introl eq_refl)) as [-> | (z & EZ)]; auto. rewrite EZ. cbn.
  destruct I as [-> | I]; [congruence|]. rewrite IH; auto. intros; apply H; right; auto.
Qed.

(** ** Layers *)
Lemma affine_ext wb n x y i : (forall j, (j < n)%nat -> x j = y j) -> affine wb n x i = affine wb n y i.
Proof.
  intros H. unfold affine. f_equal. f_equal. apply map_ext_in. intros j I. apply in_seq in I. rewrite H; auto. lia.
Qed.
Lemma apply_linear_ok l row : List.length row = ln_in l ->
  apply_linear l row = Ok (map (affine (ln_w l, ln_b l) (ln_in l) (entry row)) (seq 0 (ln_out l))).
Proof. intros H. unfold apply_linear. rewrite H, Nat.eqb_refl. reflexivity. Qed.
Lemma last_default {A} (l : list A) : forall d d2, l <> [] -> last l d = last l d2.
Proof. induction l as [|x l IH]; intros d d2 H; [congruence|]. destruct l as [|y l]; auto. change (last (y :: l) d = last (y :: l) d2). apply IH. discriminate. Qed.
Lemma last_size_cons n m r : last_size n (m :: r) = last_size m r.
Proof.
  unfold last_size. destruct r as [|a r]; auto. change (last (a :: r) n = last (a :: r) m). apply last_default. discriminate.
Qed.
Lemma features_ext hidden : forall n k params x y, (forall j, (j < n)%nat -> x j = y j) ->
  forall i, (i < last_size n hidden)%nat -> features n hidden k params x i = features n hidden k params y i.
Proof.
  induction hidden as [|m r IH]; intros n k params x y H i HI; cbn [features]; [apply H; auto|].
  rewrite last_size_cons in HI. apply IH; auto.
  intros j HJ. f_equal. apply affine_ext. auto.
Qed.
Lemma encoder_ok hidden : forall n k params row, List.length row = n ->
  exists y, encoder (build_layers n hidden k params) row = Ok y /\ List.length y = last_size n hidden /\
    forall i, (i < last_size n hidden)%nat -> entry y i = features n hidden k params (entry row) i.
Proof.
  induction hidden as [|m r IH]; intros n k params row L; cbn [encoder build_layers].
  - exists row. auto.
  - rewrite apply_linear_ok by auto. cbn [rbind ln_in ln_out ln_w ln_b].
    set (row1 := map relu (map (affine (fst (params k), snd (params k)) n (entry row)) (seq 0 m))).
    assert (L1 : List.length row1 = m) by (unfold row1; rewrite !map_length, seq_length; auto).
    destruct (IH m (S k) params row1 L1) as (y & E & LY & V).
    exists y. rewrite last_size_cons. split; [exact E|]. split; [auto|].
    intros i HI. rewrite V by auto. cbn [features]. apply features_ext; auto.
    intros j HJ. unfold row1, entry at 1. rewrite map_map, nth_map_seq by auto. unfold relu.
    rewrite Rmax_comm. destruct (params k); auto.
Qed.
Lemma encoder_bad hidden n k params row : hidden <> [] -> List.length row <> n ->
  encoder (build_layers n hidden k params) row = Err RuntimeError.
Proof.
  intros NE H. destruct hidden as [|m r]; [congruence|]. cbn. unfold apply_linear. cbn.
  destruct (Nat.eqb_spec (List.length row) n); [congruence|]. auto.
Qed.

(** ** tanh *)
Lemma exp_pair z : exp z * exp (- z) = 1.
Proof. rewrite <- exp_plus. replace (z + - z) with 0 by ring. apply exp_0. Qed.
Lemma tanh_exp z : tanh z = (exp z - exp (- z)) / (exp z + exp (- z)).
Proof.
  unfold tanh, sinh, cosh. pose proof (exp_pos z). pose proof (exp_pos (- z)). field. lra.
Qed.
Lemma tanh_one_plus z : 1 + tanh z = 2 * exp z / (exp z + exp (- z)).
Proof. rewrite tanh_exp. pose proof (exp_pos z). pose proof (exp_pos (- z)). field. lra. Qed.
Lemma tanh_one_minus z : 1 - tanh z = 2 * exp (- z) / (exp z + exp (- z)).
Proof. rewrite tanh_exp. pose proof (exp_pos z). pose proof (exp_pos (- z)). field. lra. Qed.
Lemma quot_pos a b : 0 < a -> 0 < b -> 0 < a / b.
Proof. intros. unfold Rdiv. apply Rmult_lt_0_compat; auto. apply Rinv_0_lt_compat. auto. Qed.
Lemma tanh_bounds z : -1 < tanh z < 1.
Proof.
  pose proof (exp_pos z). pose proof (exp_pos (- z)).
  pose proof (tanh_one_plus z). pose proof (tanh_one_minus z).
  assert (0 < 2 * exp z / (exp z + exp (- z))) by (apply quot_pos; lra).
  assert (0 < 2 * exp (- z) / (exp z + exp (- z))) by (apply quot_pos; lra). lra.
Qed.
Lemma ln_div a b : 0 < a -> 0 < b -> ln (a / b) = ln a - ln b.
Proof. intros. unfold Rdiv. rewrite ln_mult, ln_Rinv; auto. apply Rinv_0_lt_compat; auto. Qed.
Lemma atanh_tanh z : atanh (tanh z) = z.
Proof.
  unfold atanh. rewrite tanh_one_plus, tanh_one_minus. pose proof (exp_pos z). pose proof (exp_pos (- z)).
  rewrite !ln_div, !ln_mult, !ln_exp by lra. lra.
Qed.
Lemma tanh_atanh a : -1 < a < 1 -> tanh (atanh a) = a.
Proof.
  intros H. rewrite tanh_exp. set (u := exp (ln (1 + a) / 2)). set (v := exp (ln (1 - a) / 2)).
  assert (U : u * u = 1 + a).
  { unfold u. rewrite <- exp_plus. replace (ln (1 + a) / 2 + ln (1 + a) / 2) with (ln (1 + a)) by field. apply exp_ln. lra. }
  assert (V : v * v = 1 - a).
  { unfold v. rewrite <- exp_plus. replace (ln (1 - a) / 2 + ln (1 - a) / 2) with (ln (1 - a)) by field. apply exp_ln. lra. }
  assert (UP : 0 < u) by apply exp_pos. assert (VP : 0 < v) by apply exp_pos.
  assert (E1 : exp (atanh a) = u / v).
  { unfold atanh. replace ((ln (1 + a) - ln (1 - a)) / 2) with (ln (1 + a) / 2 + - (ln (1 - a) / 2)) by field.
    rewrite exp_plus, exp_Ropp. fold u v. auto. }
  assert (E2 : exp (- atanh a) = v / u).
  { rewrite exp_Ropp, E1. field. lra. }
  rewrite E1, E2. replace ((u / v - v / u) / (u / v + v / u)) with ((u * u - v * v) / (u * u + v * v)) by (field; repeat split; nra).
  rewrite U, V. replace (1 + a + (1 - a)) with 2 by ring. field.
Qed.
Lemma tanh_increasing x y : x < y -> tanh x < tanh y.
Proof.
  intros H. pose proof (exp_increasing _ _ H) as E. pose proof (exp_increasing _ _ (Ropp_lt_contravar _ _ H)) as E2.
  pose proof (exp_pos x). pose proof (exp_pos (- x)). pose proof (exp_pos y). pose proof (exp_pos (- y)).
  rewrite !tanh_exp. apply Rmult_lt_reg_r with ((exp x + exp (- x)) * (exp y + exp (- y))); [apply Rmult_lt_0_compat; lra|].
  replace ((exp x - exp (- x)) / (exp x + exp (- x)) * ((exp x + exp (- x)) * (exp y + exp (- y))))
    with ((exp x - exp (- x)) * (exp y + exp (- y))) by (field; lra).
  replace ((exp y - exp (- y)) / (exp y + exp (- y)) * ((exp x + exp (- x)) * (exp y + exp (- y))))
    with ((exp y - exp (- y)) * (exp x + exp (- x))) by (field; lra). nra.
Qed.
Lemma tanh_log_det_ok z : tanh_log_det z = ln (1 - tanh z ^ 2).
Proof.
  pose proof (exp_pos z) as P. pose proof (exp_pos (- z)) as Q.
  replace (1 - tanh z ^ 2) with ((1 + tanh z) * (1 - tanh z)) by ring.
  rewrite tanh_one_plus, tanh_one_minus, ln_mult; [|apply quot_pos; lra|apply quot_pos; lra].
  rewrite !ln_div, !ln_mult, !ln_exp by lra.
  unfold tanh_log_det, softplus.
  replace (exp z + exp (- z)) with (exp z * (1 + exp (-2 * z))).
  - rewrite ln_mult, ln_exp; [lra|lra|]. pose proof (exp_pos (-2 * z)). lra.
  - replace (-2 * z) with (- z + - z) by ring. rewrite exp_plus.
    rewrite Rmult_plus_distr_l, Rmult_1_r, <- Rmult_assoc, exp_pair. ring.
Qed.

(** ** Densities *)
Lemma sqrt_2pi : 0 < sqrt (2 * PI).
Proof. apply sqrt_lt_R0. pose proof PI_RGT_0. lra. Qed.
Lemma normal_density_pos m s z : 0 < s -> 0 < normal_density m s z.
Proof.
  intros S. unfold normal_density. apply quot_pos; [apply exp_pos|]. pose proof sqrt_2pi. apply Rmult_lt_0_compat; auto.
Qed.
Lemma normal_log_prob_ok m s z : 0 < s -> normal_log_prob m s z = ln (normal_density m s z).
Proof.
  intros S. unfold normal_log_prob, normal_density. pose proof sqrt_2pi.
  rewrite ln_div, ln_exp, ln_mult; auto; [lra|apply exp_pos|apply Rmult_lt_0_compat; auto].
Qed.
Lemma log_prob_one m s z : 0 < s ->
  normal_log_prob m s z - tanh_log_det z = ln (squashed_density m s (tanh z)).
Proof.
  intros S. rewrite normal_log_prob_ok, tanh_log_det_ok by auto. unfold squashed_density. rewrite atanh_tanh.
  rewrite ln_div; auto; [apply normal_density_pos; auto|]. pose proof (tanh_bounds z). nra.
Qed.
Lemma atanh_derivative a : -1 < a < 1 -> derivable_pt_lim atanh a (/ (1 - a ^ 2)).
Proof.
  intros H.
  assert (D1 : derivable_pt_lim (fun a => ln (1 + a)) a (/ (1 + a) * 1)).
  { apply (derivable_pt_lim_comp (fun a => 1 + a) ln a 1 (/ (1 + a))).
    - replace 1 with (0 + 1) at 1 by ring. apply (derivable_pt_lim_plus (fct_cte 1) id); [apply derivable_pt_lim_const|apply derivable_pt_lim_id].
    - apply derivable_pt_lim_ln. lra. }
  assert (D2 : derivable_pt_lim (fun a => ln (1 - a)) a (/ (1 - a) * -1)).
  { apply (derivable_pt_lim_comp (fun a => 1 - a) ln a (-1) (/ (1 - a))).
    - replace (-1) with (0 - 1) by ring. apply (derivable_pt_lim_minus (fct_cte 1) id); [apply derivable_pt_lim_const|apply derivable_pt_lim_id].
    - apply derivable_pt_lim_ln. lra. }
  pose proof (derivable_pt_lim_minus _ _ _ _ _ D1 D2) as D.
  pose proof (derivable_pt_lim_scal _ (/ 2) _ _ D) as D'.
  replace (/ (1 - a ^ 2)) with (/ 2 * (/ (1 + a) * 1 - / (1 - a) * -1)) by (field; nra).
  eapply derivable_pt_lim_ext; [|exact D'].
  intros t. unfold mult_real_fct, minus_fct, atanh. field.
Qed.
Lemma squashed_is_derivative Phi m s a : 0 < s -> -1 < a < 1 ->
  (forall z, derivable_pt_lim Phi z (normal_density m s z)) ->
  derivable_pt_lim (fun a => Phi (atanh a)) a (squashed_density m s a).
Proof.
  intros S H D. unfold squashed_density, Rdiv.
  apply (derivable_pt_lim_comp atanh Phi a (/ (1 - a ^ 2)) (normal_density m s (atanh a))); [apply atanh_derivative; auto|apply D].
Qed.
