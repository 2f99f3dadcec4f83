(** * EnsMore: losses *)
From Coq Require Import Reals Lra Lia.
From Verif Require Import Py NumModel NumProofs NumMatrix AmpModel PolModel PolProofs PolMain PolSpec GenSpec GenProofs EnsModel EnsSpec EnsProofs CurlProofs.
From Verif Require AlgoModel AlgoFind.
Set Implicit Arguments.
Unset Strict Implicit.
Open Scope list_scope.
Open Scope R_scope.

Lemma triple_mean (f : R * R -> R -> R) b c A B T : shape b c A -> shape b c B -> shape b c T ->
  np_mean (concat (zipw (zipw f) (zipw (@combine R R) A B) T)) = total b c (fun i j => f (at_ A i j, at_ B i j) (at_ T i j)) / (INR b * INR c).
Proof.
  intros SA SB ST. rewrite (rows_at SA), (rows_at SB), (rows_at ST) at 1. rewrite !zipw_seq.
  rewrite (@map_seq_ext _ _ (fun i => map (fun j => f (at_ A i j, at_ B i j) (at_ T i j)) (seq 0 c)) b).
  2:{ intros i I. rewrite combine_seq, zipw_seq. reflexivity. }
  pose proof (shape_seq b c (fun i j => f (at_ A i j, at_ B i j) (at_ T i j))) as S.
  unfold np_mean. rewrite (rsum_concat_at S). destruct S as [L F]. rewrite (concat_length_len F), L, mult_INR. f_equal.
  apply total_ext. intros i j I J. now apply (at_seq (fun i j => f (at_ A i j, at_ B i j) (at_ T i j))).
Qed.

Section Loss.
Variables (n out layers e h : nat) (det : bool) (params : nat -> nat -> (nat -> nat -> R) * (nat -> R))
  (last : nat -> (nat -> nat -> R) * (nat -> R)) (lo hi : list R).
Hypotheses (e0 : (0 < e)%nat) (Llo : List.length lo = out) (Lhi : List.length hi = out).
Notation en := (build_ensemble n out layers e h det params last lo hi).
Notation mo := (m_out n layers h params last).
Notation mv := (m_lv n out layers h params last lo hi).
Lemma targets_repeat (t : matrix) : (if Nat.eqb (List.length [t]) e then [t] else repeat_members e [t]) = map (fun _ => t) (seq 0 e).
Proof.
  destruct (Nat.eqb_spec (List.length [t]) e) as [E|E].
  - simpl in E. subst e. reflexivity.
  - clear. unfold repeat_members. generalize 0%nat. induction e as [|k IH]; intros s; simpl; auto. f_equal. apply IH.
Qed.
Lemma loss_from b (X T : nat -> matrix) (xs ts : list matrix) M V :
  default_forward en xs = Ok (map M (seq 0 e), map V (seq 0 e)) ->
  (forall m, (m < e)%nat -> shape b out (M m) /\ shape b out (V m) /\
      forall i j, (i < b)%nat -> (j < out)%nat -> at_ (M m) i j = mo m (nth i (X m) []) j /\ at_ (V m) i j = mv m (nth i (X m) []) j) ->
  (if Nat.eqb (List.length ts) e then ts else repeat_members e ts) = map T (seq 0 e) -> (forall m, (m < e)%nat -> shape b out (T m)) ->
  loss en (T3 xs) (T3 ts) = Ok (rsum (map (fun m => total b out (fun i j => gaussian_nll (mo m (nth i (X m) []) j) (at_ (T m) i j) (exp (mv m (nth i (X m) []) j))) / (INR b * INR out)) (seq 0 e))
                              + 1 / 100 * (rsum hi - rsum lo)).
Proof.
  intros E A TR St. unfold loss, with_members. cbn [rbind]. unfold matrix in *. rewrite E. cbn [rbind].
  change (en_members en) with e. unfold matrix in *. rewrite TR. rewrite !map_length, Nat.eqb_refl. cbn [andb].
  rewrite combine_seq. replace (forallb _ _) with true.
  - rewrite combine_seq, zipw_seq. change (en_max en) with hi. change (en_min en) with lo. f_equal. f_equal. apply f_equal. apply map_seq_ext.
    intros m Hm. destruct (A m Hm) as [SM [SV AM]]. unfold member_nll. cbn [fst snd]. rewrite (triple_mean _ SM SV (St m Hm)).
    f_equal. apply total_ext. intros i j I J. cbn [fst snd]. destruct (AM i j I J) as [-> ->]. reflexivity.
  - symmetry. apply forallb_forall. intros p I. apply in_map_iff in I. destruct I as [m [<- I]]. apply in_seq in I. cbn [fst snd].
    apply (@same_shape_shape b out); [apply A; lia|apply St; lia].
Qed.
Lemma loss_ok b x t : shape b n x -> shape b out t ->
  loss en (T2 x) (T2 t) = Ok (rsum (map (fun m => total b out (fun i j => gaussian_nll (mo m (nth i x []) j) (at_ t i j) (exp (mv m (nth i x []) j))) / (INR b * INR out)) (seq 0 e))
                              + 1 / 100 * (rsum hi - rsum lo)).
Proof.
  intros Sx St. destruct (@forward_members n out layers e h det params last lo hi e0 Llo Lhi b x Sx) as [M [V [E A]]].
  change (loss en (T2 x) (T2 t)) with (loss en (T3 [x]) (T3 [t])).
  apply (@loss_from b (fun _ => x) (fun _ => t) [x] [t] M V E A (targets_repeat t)). intros; exact St.
Qed.
Lemma loss_batches b X T : (forall m, (m < e)%nat -> shape b n (X m) /\ shape b out (T m)) ->
  loss en (T3 (map X (seq 0 e))) (T3 (map T (seq 0 e))) =
    Ok (rsum (map (fun m => total b out (fun i j => gaussian_nll (mo m (nth i (X m) []) j) (at_ (T m) i j) (exp (mv m (nth i (X m) []) j))) / (INR b * INR out)) (seq 0 e))
        + 1 / 100 * (rsum hi - rsum lo)).
Proof.
  intros H. destruct (@forward_batches n out layers e h det params last lo hi e0 Llo Lhi b X) as [M [V [E A]]]; [intros; now apply H|].
  apply (@loss_from b X T _ _ M V E A); [|intros; now apply H]. now rewrite map_length, seq_length, Nat.eqb_refl.
Qed.
End Loss.

Lemma two_pi : 0 < 2 * PI.
Proof. pose proof PI_RGT_0. lra. Qed.
Lemma nll_density m t v : gaussian_nll m t v = - ln (normal_density m (sqrt (Rmax v (1 / 1000000))) t) - ln (2 * PI) / 2.
Proof.
  unfold gaussian_nll. set (w := Rmax v (1 / 1000000)). assert (W : 0 < w) by (unfold w; pose proof (Rmax_r v (1 / 1000000)); lra).
  rewrite <- normal_log_prob_ok by (apply sqrt_lt_R0; exact W). unfold normal_log_prob.
  replace (sqrt w ^ 2) with w.
  2:{ simpl. rewrite Rmult_1_r, sqrt_sqrt; lra. }
  assert (L : forall y, 0 < y -> ln (sqrt y) = ln y / 2).
  { intros y Y. rewrite <- (sqrt_sqrt y) at 2 by lra. rewrite ln_mult; [field|apply sqrt_lt_R0; lra|apply sqrt_lt_R0; lra]. }
  rewrite !L by (exact W || exact two_pi). field. lra.
Qed.
Lemma ln_below x : 0 < x -> ln x <= x - 1 /\ (ln x = x - 1 -> x = 1).
Proof.
  intros P. destruct (exp_above (ln x)) as [A B]. rewrite exp_ln in A, B by exact P. split; [lra|].
  intros E. assert (ln x = 0) by (apply B; lra). lra.
Qed.
Lemma nll_mean_best m t v : gaussian_nll t t v <= gaussian_nll m t v /\ (gaussian_nll m t v = gaussian_nll t t v -> m = t).
Proof.
  unfold gaussian_nll. set (w := Rmax v _). assert (W : 0 < w) by (unfold w; pose proof (Rmax_r v (1 / 1000000)); lra).
  replace ((t - t) ^ 2 / w) with 0 by (field; lra). pose proof (pow2_ge_0 (m - t)) as P. pose proof (Rinv_0_lt_compat _ W) as I.
  split.
  - assert (0 <= (m - t) ^ 2 / w) by (apply Rmult_le_pos; lra). lra.
  - intros E. assert (Z : (m - t) ^ 2 / w = 0) by lra. apply Rmult_integral in Z. destruct Z as [Z|Z]; [|lra].
    apply Rsqr_0_uniq_pow in Z. lra.
Qed.
Lemma nll_variance_best m t v w : 1 / 1000000 <= v -> 1 / 1000000 <= w -> (m - t) ^ 2 = w ->
  gaussian_nll m t w <= gaussian_nll m t v /\ (gaussian_nll m t v = gaussian_nll m t w -> v = w).
Proof.
  intros V W E. unfold gaussian_nll. rewrite !Rmax_left by assumption. rewrite E.
  assert (P : 0 < w / v) by (apply quot_pos; lra). destruct (ln_below P) as [A B]. rewrite ln_div in A, B by lra.
  replace (w / w) with 1 by (field; lra). split; [lra|]. intros Q. assert (w / v = 1) by (apply B; lra).
  apply (Rmult_eq_compat_r v) in H. unfold Rdiv in H. rewrite Rmult_assoc, Rinv_l in H by lra. lra.
Qed.
Section Density.
Variables (n out layers e h : nat) (det : bool) (params : nat -> nat -> (nat -> nat -> R) * (nat -> R))
  (last : nat -> (nat -> nat -> R) * (nat -> R)) (lo hi : list R).
Hypotheses (e0 : (0 < e)%nat) (Llo : List.length lo = out) (Lhi : List.length hi = out) (o0 : (0 < out)%nat).
Notation en := (build_ensemble n out layers e h det params last lo hi).
Notation mo := (m_out n layers h params last).
Notation mv := (m_lv n out layers h params last lo hi).
Lemma loss_density b x t : shape b n x -> shape b out t -> (0 < b)%nat ->
  loss en (T2 x) (T2 t) =
    Ok (rsum (map (fun m => total b out (fun i j => - ln (normal_density (mo m (nth i x []) j) (sqrt (Rmax (exp (mv m (nth i x []) j)) (1 / 1000000))) (at_ t i j))) / (INR b * INR out)) (seq 0 e))
        - INR e * (ln (2 * PI) / 2) + 1 / 100 * (rsum hi - rsum lo)).
Proof.
  intros Sx St b0. rewrite (@loss_ok n out layers e h det params last lo hi e0 Llo Lhi b x t Sx St). f_equal. f_equal.
  assert (B : 0 < INR b) by (now apply lt_0_INR). assert (O : 0 < INR out) by (now apply lt_0_INR).
  transitivity (rsum (map (fun m => total b out (fun i j => - ln (normal_density (mo m (nth i x []) j) (sqrt (Rmax (exp (mv m (nth i x []) j)) (1 / 1000000))) (at_ t i j))) / (INR b * INR out) + (- (ln (2 * PI) / 2))) (seq 0 e))).
  - apply f_equal. apply map_seq_ext. intros m Hm.
    rewrite (@total_ext b out _ (fun i j => - ln (normal_density (mo m (nth i x []) j) (sqrt (Rmax (exp (mv m (nth i x []) j)) (1 / 1000000))) (at_ t i j)) + (- (ln (2 * PI) / 2)))).
    + rewrite total_plus. assert (C : forall c, total b out (fun _ _ => c) = INR b * INR out * c).
      { intros c. unfold total. assert (K : forall k (f : nat -> R) d s, (forall i, f i = d) -> rsum (map f (seq s k)) = INR k * d).
        { induction k as [|k IH]; intros f d s Hf; [simpl; ring|]. rewrite S_INR. simpl. rewrite (IH f d) by exact Hf. rewrite Hf. ring. }
        rewrite (K b _ (INR out * c)); [ring|]. intros i. now apply K. }
      rewrite C. field. lra.
    + intros i j I J. rewrite nll_density. ring.
  - rewrite (rsum_map_plus (fun m => total b out (fun i j => - ln (normal_density (mo m (nth i x []) j) (sqrt (Rmax (exp (mv m (nth i x []) j)) (1 / 1000000))) (at_ t i j))) / (INR b * INR out)) (fun _ => - (ln (2 * PI) / 2))).
    unfold Rminus. f_equal. clear. generalize (ln (2 * PI) / 2). intros d. generalize 0%nat. induction e as [|k IH]; intros s; [simpl; ring|].
    rewrite S_INR. simpl. rewrite IH. ring.
Qed.
End Density.
Lemma ndim_differs en m ms : loss en (T2 m) (T3 ms) = Err AssertionError /\ loss en (T3 ms) (T2 m) = Err AssertionError.
Proof. split; reflexivity. Qed.

Lemma average_ext k f g : (forall m, (m < k)%nat -> f m = g m) -> average k f = average k g.
Proof. intros H. unfold average. f_equal. apply f_equal. now apply map_seq_ext. Qed.
Lemma average_le k f g : (0 < k)%nat -> (forall m, f m <= g m) -> average k f <= average k g.
Proof.
  intros k0 H. unfold average. apply Rmult_le_compat_r; [left; apply Rinv_0_lt_compat; now apply lt_0_INR|].
  generalize (seq 0 k). intros l. induction l as [|x l IH]; simpl; [lra|]. specialize (H x). lra.
Qed.
Lemma average_affine k f a c : (0 < k)%nat -> average k (fun m => a * f m + c) = a * average k f + c.
Proof.
  intros k0. assert (K : 0 < INR k) by (now apply lt_0_INR). unfold average.
  assert (E : forall s j, rsum (map (fun m => a * f m + c) (seq s j)) = a * rsum (map f (seq s j)) + INR j * c).
  { intros s j. revert s. induction j as [|j IH]; intros s; [simpl; ring|]. rewrite S_INR. simpl. rewrite IH. ring. }
  rewrite E. field. lra.
Qed.
Lemma exp_average k lv : (0 < k)%nat -> exp (average k lv) <= average k (fun m => exp (lv m)).
Proof.
  intros k0. set (a := average k lv).
  apply Rle_trans with (average k (fun m => exp a * lv m + exp a * (1 - a))).
  - rewrite average_affine by exact k0. fold a. right. ring.
  - apply average_le; [exact k0|]. intros m. destruct (exp_above (lv m - a)) as [A _].
    replace (exp (lv m)) with (exp a * exp (lv m - a)) by (rewrite <- exp_plus; f_equal; ring).
    pose proof (exp_pos a). nra.
Qed.
Lemma spread_short k mean lv : (0 < k)%nat ->
  exp (average k lv) + average k (fun m => (mean m - average k mean) ^ 2) <= mixture_variance k mean lv /\
  0 <= average k (fun m => (mean m - average k mean) ^ 2).
Proof.
  intros k0. unfold mixture_variance. pose proof (exp_average lv k0). split; [lra|].
  unfold average at 1. apply Rmult_le_pos; [|left; apply Rinv_0_lt_compat; now apply lt_0_INR].
  apply rsum_nonneg. intros x _. apply pow2_ge_0.
Qed.

(** ** The deterministic model *)
Lemma det_loss_ok network x p t b c : network x = Ok p -> (0 < b)%nat -> (0 < c)%nat -> shape b c p -> shape b c t ->
  exists l, det_loss network x t = Ok l /\ l = total b c (fun i j => (at_ p i j - at_ t i j) ^ 2) / (INR b * INR c) /\
    0 <= l /\ (l = 0 <-> p = t).
Proof.
  intros E b0 c0 Sp St. unfold det_loss. rewrite E. cbn [rbind]. unfold mse. rewrite (same_shape_shape Sp St).
  destruct (zip_rows_shape (fun x y => (x - y) ^ 2) Sp St) as [S A]. eexists. split; [reflexivity|].
  assert (B : 0 < INR b) by (now apply lt_0_INR). assert (C : 0 < INR c) by (now apply lt_0_INR).
  assert (V : np_mean (concat (zip_rows (fun x y => (x - y) ^ 2) p t)) = total b c (fun i j => (at_ p i j - at_ t i j) ^ 2) / (INR b * INR c)).
  { unfold np_mean. rewrite (rsum_concat_at S). destruct S as [L F]. rewrite (concat_length_len F), L, mult_INR. f_equal.
    apply total_ext. exact A. }
  split; [exact V|]. destruct (@total_nonneg b c (fun i j => (at_ p i j - at_ t i j) ^ 2)) as [P Z]; [intros; apply pow2_ge_0|].
  pose proof (Rinv_0_lt_compat _ (Rmult_lt_0_compat _ _ B C)) as I.
  rewrite V. split; [apply Rmult_le_pos; lra|]. split.
  - intros Q. apply Rmult_integral in Q. destruct Q as [Q|Q]; [|lra]. rewrite (rows_at Sp), (rows_at St).
    apply map_seq_ext. intros i Hi. apply map_seq_ext. intros j Hj. pose proof (proj1 Z Q i j Hi Hj) as W. apply Rsqr_0_uniq_pow in W. lra.
  - intros ->. replace (total b c _) with 0; [unfold Rdiv; ring|]. symmetry. apply Z. intros i j _ _. replace (at_ t i j - at_ t i j) with 0 by ring. ring.
Qed.
Lemma exp_ten : 1 / 1000000 <= exp (-10).
Proof.
  replace (-10) with (- (INR 10 * 1)) by (simpl; ring). rewrite exp_Ropp. 
  assert (E : forall k, exp (INR k * 1) = exp 1 ^ k).
  { induction k as [|k IH]; [simpl; rewrite Rmult_0_l; apply exp_0|]. rewrite S_INR, Rmult_plus_distr_r, exp_plus, IH. simpl. replace (1 * 1) with 1 by ring. ring. }
  rewrite E. pose proof exp_le_3 as T. pose proof (exp_pos 1) as P.
  assert (exp 1 ^ 10 <= 3 ^ 10) by (apply pow_incr; lra).
  assert (0 < exp 1 ^ 10) by (apply pow_lt; exact P).
  unfold Rdiv. rewrite Rmult_1_l. apply Rinv_le_contravar; [assumption|]. simpl in *. lra.
Qed.

Lemma default_bound n out hidden params last lo hi row j : -10 <= entry lo j ->
  Rmax (exp (member_logvar n out hidden params last lo hi row j)) (1 / 1000000) = exp (member_logvar n out hidden params last lo hi row j).
Proof.
  intros H. apply Rmax_left. unfold member_logvar. rewrite <- bound_soft.
  match goal with |- _ <= exp (AlgoModel.bound_logvar ?a ?b ?c) => pose proof (AlgoFind.bound_low a b c) as L end.
  pose proof exp_ten. apply Rle_trans with (exp (-10)); [exact H0|]. left. apply exp_increasing. lra.
Qed.
