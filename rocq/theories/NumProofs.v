(** * NumProofs: C59 - C62 *)
From Coq Require Import Reals Lra.
From Verif Require Import Py PyLemmas MemModel MemSpec NumModel NumSpec.
Set Implicit Arguments.
Unset Strict Implicit.
Open Scope list_scope.
Open Scope R_scope.

Lemma rsum_app a b : rsum (a ++ b) = rsum a + rsum b.
Proof. induction a; simpl; [lra|]. rewrite IHa. lra. Qed.
Lemma rsum_map_plus {A} (f g : A -> R) l : rsum (map (fun x => f x + g x) l) = rsum (map f l) + rsum (map g l).
Proof. induction l; simpl; [lra|]. rewrite IHl. lra. Qed.
Lemma rsum_map_mult {A} (f : A -> R) c l : rsum (map (fun x => c * f x) l) = c * rsum (map f l).
Proof. induction l; simpl; [lra|]. rewrite IHl. lra. Qed.

(** ** Welford *)
(** The sum of squares about any [m]. *)
Lemma squares l m :
  rsum (map (fun x => (x - m) * (x - m)) l) = rsum (map (fun x => x * x) l) - 2 * m * rsum l + INR (List.length l) * (m * m).
Proof.
  induction l as [|x r IH]; [simpl; lra|]. cbn [map rsum fold_right List.length]. fold (rsum (map (fun x => (x - m) * (x - m)) r)).
  fold (rsum (map (fun x => x * x) r)). fold (rsum r). rewrite S_INR, IH. lra.
Qed.
Lemma wf_inv xs : let w := fold_left wf_add xs wf_init in
  wf_count w = List.length xs
  /\ INR (List.length xs) * wf_mean w = rsum xs
  /\ INR (List.length xs) * wf_diff w = INR (List.length xs) * rsum (map (fun x => x * x) xs) - rsum xs * rsum xs
  /\ (xs = [] -> wf_diff w = 0).
Proof.
  cbv zeta. induction xs as [|x xs IH] using rev_ind; [simpl; lra || (repeat split; lra)|].
  rewrite fold_left_app. cbn [fold_left]. destruct IH as (I1 & I2 & I3 & I4).
  set (w := fold_left wf_add xs wf_init) in *. unfold wf_add. cbn [wf_count wf_mean wf_diff].
  rewrite map_app, !rsum_app, app_length. cbn [map rsum fold_right List.length]. rewrite I1.
  replace (List.length xs + 1)%nat with (S (List.length xs)) by lia.
  set (n := List.length xs) in *. rewrite S_INR.
  assert (Hn : 0 <= INR n) by apply pos_INR.
  assert (E2 : (INR n + 1) * (wf_mean w + (x - wf_mean w) / (INR n + 1)) = rsum xs + (x + 0)).
  { field_simplify; [|lra]. rewrite <- I2. ring_simplify. ring. }
  split; auto. split; [exact E2|]. split; [|intros X; destruct xs; discriminate].
  set (m := wf_mean w + (x - wf_mean w) / (INR n + 1)) in *.
  destruct (Nat.eq_dec n 0) as [Z|NZ].
  - assert (xs = []) by (destruct xs; auto; discriminate). subst xs. specialize (I4 eq_refl). rewrite I4.
    unfold n in *. cbn [List.length] in *. change (INR 0) with 0 in *. cbn [map rsum fold_right] in *.
    assert (m = x) by lra. rewrite H. ring.
  - assert (Hp : INR n <> 0) by (apply not_0_INR; auto).
    assert (Em : wf_mean w = rsum xs / INR n) by (rewrite <- I2; field; auto).
    assert (Emm : m = (rsum xs + x) / (INR n + 1)) by (apply (Rmult_eq_reg_l (INR n + 1)); [rewrite E2; field; lra|lra]).
    assert (Ed : wf_diff w = rsum (map (fun x => x * x) xs) - rsum xs * rsum xs / INR n).
    { apply (Rmult_eq_reg_l (INR n)); auto. rewrite I3. field. auto. }
    rewrite Em, Emm, Ed. field. split; auto. lra.
Qed.
Lemma welford_ok xs : xs <> [] ->
  wf_current (fold_left wf_add xs wf_init) = Some (average xs, population_variance xs).
Proof.
  intros N. destruct (wf_inv xs) as (I1 & I2 & I3 & _). unfold wf_current. rewrite I1.
  assert (Hn : List.length xs <> 0%nat) by (destruct xs; [congruence|discriminate]).
  destruct (Nat.eqb_spec (List.length xs) 0) as [E|_]; [congruence|].
  assert (Hp : INR (List.length xs) <> 0) by (apply not_0_INR; auto).
  assert (Em : wf_mean (fold_left wf_add xs wf_init) = average xs) by (unfold average; rewrite <- I2; field; auto).
  f_equal. f_equal; auto. unfold population_variance, average at 1. rewrite squares, map_length.
  unfold average. apply (Rmult_eq_reg_l (INR (List.length xs))); auto.
  unfold Rdiv at 1. rewrite <- Rmult_assoc, I3. field. auto.
Qed.

(** ** The moving window *)
Lemma mw_values xs : fold_left mw_add xs [] = last_n window_size xs.
Proof.
  induction xs as [|x xs IH] using rev_ind; [reflexivity|]. rewrite fold_left_app. cbn [fold_left]. rewrite IH.
  unfold mw_add. cbv zeta. unfold last_n. rewrite !app_length, skipn_length. cbn [List.length].
  assert (W1 : (1 <= window_size)%nat) by (unfold window_size; simpl; lia). revert W1.
  generalize window_size as w. intros w W1. set (n := List.length xs).
  destruct (Nat.ltb_spec w (n - (n - w) + 1)).
  - replace (n + 1 - w)%nat with (S (n - w)) by lia.
    rewrite skipn_app. fold n. replace (S (n - w) - n)%nat with 0%nat by lia.
    cbn [skipn]. assert (Hl : (n - w < n)%nat) by lia.
    assert (G : forall k (l : list R) (y : list R), (k < List.length l)%nat -> tl (skipn k l ++ y) = skipn (S k) l ++ y).
    { clear. induction k; intros [|a l] y H; simpl in *; try lia; auto. apply IHk. lia. }
    apply G. auto.
  - replace (n + 1 - w)%nat with 0%nat by lia. replace (n - w)%nat with 0%nat by lia. auto.
Qed.
Lemma np_var_eq l : np_var l = population_variance l.
Proof.
  unfold np_var, population_variance. change np_mean with average. f_equal. apply map_ext. intros. ring.
Qed.
Lemma moving_window xs : xs <> [] ->
  mw_current (fold_left mw_add xs []) = Some (average (last_n window_size xs), population_variance (last_n window_size xs)).
Proof.
  intros N. unfold mw_current. rewrite mw_values.
  destruct (Nat.eqb_spec (List.length (last_n window_size xs)) 0) as [E|_].
  - exfalso. unfold last_n in E. rewrite skipn_length in E. destruct xs; [congruence|]. cbn [List.length] in E.
    assert (W1 : (1 <= window_size)%nat) by (unfold window_size; simpl; lia). lia.
  - rewrite np_var_eq. auto.
Qed.

(** ** deprecated *)
Lemma deprecated_values {A B} (f : A -> B) mx wc xs : map snd (deprecated_calls f mx wc xs) = map f xs.
Proof.
  revert wc. induction xs as [|x r IH]; intros wc; [reflexivity|]. cbn [deprecated_calls].
  unfold deprecated_call. destruct (wc <? mx)%Z; cbn [map snd]; rewrite IH; auto.
Qed.
Lemma deprecated_warnings {A B} (f : A -> B) mx xs :
  map fst (deprecated_calls f mx 0 xs) = map (fun _ => (0 <? mx)%Z) xs.
Proof.
  induction xs as [|x r IH]; [reflexivity|]. cbn [deprecated_calls]. unfold deprecated_call.
  destruct (0 <? mx)%Z eqn:E; cbn [map fst]; rewrite ?E; f_equal; auto.
Qed.

(** ** truncated_linear *)
Section Ramp.
Variables min_x max_x min_y max_y : R.
Notation f := (truncated_linear min_x max_x min_y max_y).
Lemma ramp_degenerate x : max_x - min_x < / 10 ^ 10 -> f x = max_y.
Proof. intros H. unfold truncated_linear. destruct (Rlt_dec _ _); auto. contradiction. Qed.
Hypothesis W : / 10 ^ 10 <= max_x - min_x.
Lemma ten_pos : 0 < / 10 ^ 10.
Proof. apply Rinv_0_lt_compat. apply pow_lt. lra. Qed.
Lemma ramp_low x : x <= min_x -> f x = min_y.
Proof. intros H. unfold truncated_linear. destruct (Rlt_dec _ _); [lra|]. destruct (Rle_dec x min_x); auto. contradiction. Qed.
Lemma ramp_mid x : min_x <= x <= max_x -> f x = min_y + (x - min_x) * ((max_y - min_y) / (max_x - min_x)).
Proof.
  intros [H1 H2]. pose proof ten_pos as T. unfold truncated_linear. destruct (Rlt_dec _ _); [lra|]. destruct (Rle_dec x min_x).
  - assert (x = min_x) by lra. subst. lra.
  - rewrite Rmin_left; [field; lra|]. apply (Rmult_le_reg_r (max_x - min_x)); [lra|]. unfold Rdiv. rewrite Rmult_assoc, Rinv_l; lra.
Qed.
Lemma ramp_high x : max_x <= x -> f x = max_y.
Proof.
  intros H. pose proof ten_pos as T. unfold truncated_linear. destruct (Rlt_dec _ _); [lra|]. destruct (Rle_dec x min_x); [lra|].
  rewrite Rmin_right; [lra|]. apply (Rmult_le_reg_r (max_x - min_x)); [lra|]. unfold Rdiv. rewrite Rmult_assoc, Rinv_l; lra.
Qed.
End Ramp.
Lemma ramp_shape min_x max_x min_y max_y x : / 10 ^ 10 <= max_x - min_x -> exists dx, 0 <= dx <= 1 /\
  truncated_linear min_x max_x min_y max_y x = min_y + dx * (max_y - min_y).
Proof.
  intros W. pose proof ten_pos as T. destruct (Rle_dec x min_x) as [H|H]; [exists 0; split; [lra|]; rewrite ramp_low; lra|].
  destruct (Rle_dec max_x x) as [H2|H2]; [exists 1; split; [lra|]; rewrite ramp_high; lra|].
  exists ((x - min_x) / (max_x - min_x)). split.
  - assert (P : 0 < / (max_x - min_x)) by (apply Rinv_0_lt_compat; lra). unfold Rdiv. split.
    + apply Rmult_le_pos; lra.
    + apply (Rmult_le_reg_r (max_x - min_x)); [lra|]. rewrite Rmult_assoc, Rinv_l; lra.
  - rewrite ramp_mid by lra. field. lra.
Qed.
Lemma ramp_bounds min_x max_x min_y max_y x : min_y <= max_y -> min_y <= truncated_linear min_x max_x min_y max_y x <= max_y.
Proof.
  intros L. destruct (Rlt_dec (max_x - min_x) (/ 10 ^ 10)) as [D|D]; [rewrite ramp_degenerate by auto; lra|].
  destruct (@ramp_shape min_x max_x min_y max_y x) as (dx & Hd & ->); [lra|]. nra.
Qed.
Lemma ramp_mono min_x max_x min_y max_y x y : min_y <= max_y -> x <= y ->
  truncated_linear min_x max_x min_y max_y x <= truncated_linear min_x max_x min_y max_y y.
Proof.
  intros L Xy. destruct (Rlt_dec (max_x - min_x) (/ 10 ^ 10)) as [D|D]; [rewrite !ramp_degenerate by auto; lra|].
  pose proof ten_pos as T. assert (W : / 10 ^ 10 <= max_x - min_x) by lra.
  destruct (Rle_dec x min_x) as [H|H]; [rewrite ramp_low with (x := x) by lra; apply ramp_bounds; auto|].
  destruct (Rle_dec max_x y) as [H2|H2]; [rewrite ramp_high with (x := y) by lra; apply ramp_bounds; auto|].
  rewrite !ramp_mid by lra. apply Rplus_le_compat_l. apply Rmult_le_compat_r; [|lra].
  unfold Rdiv. apply Rmult_le_pos; [lra|]. left. apply Rinv_0_lt_compat. lra.
Qed.
