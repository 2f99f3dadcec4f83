(** * PolMain: policies, value networks and losses *)
From Coq Require Import Reals Lra Lia.
From Verif Require Import Py PyLemmas NumModel NumProofs AmpModel AmpProofs PolModel PolSpec PolProofs.
Open Scope list_scope.
Open Scope R_scope.
Set Implicit Arguments.
Unset Strict Implicit.

Lemma limited_clamp lo hi x : lo <= hi -> clamp lo hi x = limited lo hi x.
Proof.
  intros H. unfold clamp, limited, Rmin, Rmax.
  destruct (Rlt_dec x lo); destruct (Rle_dec x lo); try lra;
  destruct (Rlt_dec hi x); repeat match goal with |- context [Rle_dec ?a ?b] => destruct (Rle_dec a b) end; lra.
Qed.
Lemma limited_bounds lo hi x : lo <= hi -> lo <= limited lo hi x <= hi.
Proof. intros H. unfold limited. destruct (Rlt_dec x lo); [lra|]. destruct (Rlt_dec hi x); lra. Qed.
Lemma zipw_seq {A B C} (f : A -> B -> C) g h n : forall k, zipw f (map g (seq k n)) (map h (seq k n)) = map (fun j => f (g j) (h j)) (seq k n).
Proof. induction n; intros k; cbn; auto. rewrite IHn. auto. Qed.
Lemma combine_seq {A B} (g : nat -> A) (h : nat -> B) n : forall k, combine (map g (seq k n)) (map h (seq k n)) = map (fun j => (g j, h j)) (seq k n).
Proof. induction n; intros k; cbn; auto. rewrite IHn. auto. Qed.
Lemma entries_seq row n : List.length row = n -> row = map (entry row) (seq 0 n).
Proof.
  intros <-. apply nth_ext with (d := 0) (d' := 0); [rewrite map_length, seq_length; auto|].
  intros i H. rewrite nth_map_seq by auto. auto.
Qed.
Lemma rsum_minus {A} (f g : A -> R) l : rsum (map f l) - rsum (map g l) = rsum (map (fun x => f x - g x) l).
Proof. induction l as [|x l IH]; cbn; [lra|]. fold (rsum (map f l)) (rsum (map g l)) (rsum (map (fun x => f x - g x) l)). lra. Qed.
Lemma rev_head_last {A} (l : list A) x r d : rev l = x :: r -> last l d = x.
Proof.
  intros E. assert (L : l = rev r ++ [x]) by (rewrite <- (rev_involutive l), E; auto). rewrite L. apply last_last.
Qed.
Lemma shape_nth b n m i : shape b n m -> (i < b)%nat -> List.length (nth i m []) = n.
Proof. intros (L & F) H. rewrite Forall_forall in F. apply F. apply nth_In. lia. Qed.

Section Policy.
Variables (od ad : nat) (hidden : list nat) (params : nat -> (nat -> nat -> R) * (nat -> R))
  (mean log_std : (nat -> nat -> R) * (nat -> R)).
Definition mu (row : list R) (j : nat) : R :=
  limited (-5) 5 (affine mean (last_size od hidden) (features od hidden 0 params (entry row)) j).
Definition sigma (row : list R) (j : nat) : R :=
  exp (limited (-20) 2 (affine log_std (last_size od hidden) (features od hidden 0 params (entry row)) j)).

Lemma policy_rows p obs b : build_policy od ad hidden params mean log_std = Ok p -> shape b od obs ->
  exists x, rmapM (encoder (po_encoder p)) obs = Ok x /\ List.length x = b /\
  rmapM (head_params (po_head p)) x = Ok (map (fun row => (map (mu row) (seq 0 ad), map (sigma row) (seq 0 ad))) obs)
  /\ hd_action_dim (po_head p) = ad.
Proof.
  intros BP (L & F). unfold build_policy in BP. destruct (rev hidden) as [|la rr] eqn:ER; [discriminate|].
  injection BP as <-. cbn [po_encoder po_head hd_action_dim].
  pose proof (@rev_head_last _ hidden la rr od ER) as EL.
  set (g := fun row => match encoder (build_layers od hidden 0 params) row with Ok y => y | Err _ => [] end).
  assert (G : forall row, In row obs -> encoder (build_layers od hidden 0 params) row = Ok (g row) /\
     List.length (g row) = last_size od hidden /\
     forall i, (i < last_size od hidden)%nat -> entry (g row) i = features od hidden 0 params (entry row) i).
  { intros row I. rewrite Forall_forall in F. destruct (@encoder_ok hidden od 0%nat params row (F _ I)) as (y & E & LY & V).
    unfold g. rewrite E. auto. }
  exists (map g obs). split; [|split; [|split]].
  - apply rmapM_map. intros row I. apply G. auto.
  - rewrite map_length. auto.
  - assert (HP : forall row, In row obs -> head_params (mkHead (mkLinear la ad (fst mean) (snd mean))
        (mkLinear la ad (fst log_std) (snd log_std)) ad) (g row) = Ok (map (mu row) (seq 0 ad), map (sigma row) (seq 0 ad))).
    { intros row I. destruct (G row I) as (_ & LG & V). unfold last_size in LG, V. rewrite EL in LG, V.
      unfold head_params. cbn [hd_mean hd_log_std]. rewrite !apply_linear_ok by (cbn; auto). cbn [rbind ln_in ln_out ln_w ln_b].
      rewrite !map_map. f_equal. f_equal; apply map_ext; intros j.
      - rewrite limited_clamp by lra. unfold mu, last_size. rewrite EL. f_equal. destruct mean; cbn [fst snd].
        apply affine_ext. auto.
      - rewrite limited_clamp by lra. unfold sigma, last_size. rewrite EL. do 2 f_equal. destruct log_std; cbn [fst snd].
        apply affine_ext. auto. }
    clear - HP. induction obs as [|row obs IH]; cbn [map rmapM]; auto.
    rewrite HP by (left; auto). cbn [rbind]. rewrite IH by (intros; apply HP; right; auto). auto.
  - auto.
Qed.

Definition action (row noise : list R) (j : nat) : R := tanh (mu row j + sigma row j * entry noise j).
Lemma sigma_pos row j : 0 < sigma row j.
Proof. apply exp_pos. Qed.
Lemma pre_action_row row noise : List.length noise = ad ->
  pre_action (map (mu row) (seq 0 ad), map (sigma row) (seq 0 ad)) noise =
  map (fun j => mu row j + sigma row j * entry noise j) (seq 0 ad).
Proof.
  intros L. unfold pre_action. cbn [fst snd]. rewrite (@entries_seq noise ad L) at 1. rewrite !zipw_seq. auto.
Qed.
Lemma log_prob_row row noise :
  sample_log_prob (map (mu row) (seq 0 ad), map (sigma row) (seq 0 ad))
     (map (fun j => mu row j + sigma row j * entry noise j) (seq 0 ad)) =
  rsum (map (fun j => ln (squashed_density (mu row j) (sigma row j) (action row noise j))) (seq 0 ad)).
Proof.
  unfold sample_log_prob. cbn [fst snd]. rewrite combine_seq, zipw_seq, map_map, rsum_minus. cbn [fst snd].
  f_equal. apply map_ext. intros j. apply log_prob_one. apply sigma_pos.
Qed.
Lemma zipw_rows {A B C D} (f : B -> C -> D) (g : A -> B) (h : A -> C -> D) (P : C -> Prop) l : forall m,
  Forall P m -> (forall x y, P y -> f (g x) y = h x y) -> zipw f (map g l) m = zipw h l m.
Proof.
  induction l as [|x l IH]; intros [|y m] F E; cbn; auto. inversion F; subst. rewrite E by auto. f_equal. apply IH; auto.
Qed.
Lemma map_zipw {A B C D} (g : C -> D) (f : A -> B -> C) l : forall m, map g (zipw f l m) = zipw (fun x y => g (f x y)) l m.
Proof. induction l; intros [|y m]; cbn; auto. rewrite IHl. auto. Qed.
Lemma zipw_zipw {A B C D E} (k : D -> C -> E) (g : A -> D) (f : A -> B -> C) l : forall m,
  zipw k (map g l) (zipw f l m) = zipw (fun x y => k (g x) (f x y)) l m.
Proof. induction l; intros [|y m]; cbn; auto. rewrite IHl. auto. Qed.
Lemma zipw_forall {A B C} (P : C -> Prop) (f : A -> B -> C) l : forall m, (forall x y, P (f x y)) -> Forall P (zipw f l m).
Proof. induction l; intros [|y m] H; cbn; auto. Qed.

Lemma zipw_ext {A B C} (f g : A -> B -> C) l : forall m, (forall x y, f x y = g x y) -> zipw f l m = zipw g l m.
Proof. induction l; intros [|y m] H; cbn; auto. rewrite H, IHl by auto. auto. Qed.

Lemma policy_ok p obs noise b : build_policy od ad hidden params mean log_std = Ok p ->
  shape b od obs -> shape b ad noise ->
  exists sample, exists logp,
    (forall eps, policy_forward true p obs noise eps = Ok (sample, Some logp)) /\
    (forall any, policy_forward false p obs any (Some noise) = Ok (sample, None)) /\
    shape b ad sample /\ shape b 1 logp /\
    (forall i j, (i < b)%nat -> (j < ad)%nat ->
       entry (nth i sample []) j = tanh (mu (nth i obs []) j + sigma (nth i obs []) j * entry (nth i noise []) j)) /\
    (forall i, (i < b)%nat ->
       entry (nth i logp []) 0 =
       rsum (map (fun j => ln (squashed_density (mu (nth i obs []) j) (sigma (nth i obs []) j) (entry (nth i sample []) j))) (seq 0 ad))).
Proof.
  intros BP SO SN. destruct (policy_rows BP SO) as (x & EX & LX & EH & EA). destruct SO as (LO & FO), SN as (LN & FN).
  set (sample := zipw (fun row n => map (action row n) (seq 0 ad)) obs noise).
  set (logp := zipw (fun row n => [rsum (map (fun j => ln (squashed_density (mu row j) (sigma row j) (action row n j))) (seq 0 ad))]) obs noise).
  exists sample, logp.
  assert (SS : shape b ad sample).
  { split; [unfold sample; rewrite zipw_length; lia|]. apply zipw_forall. intros. rewrite map_length, seq_length. auto. }
  assert (EZ : zipw pre_action (map (fun row => (map (mu row) (seq 0 ad), map (sigma row) (seq 0 ad))) obs) noise =
     zipw (fun row n => map (fun j => mu row j + sigma row j * entry n j) (seq 0 ad)) obs noise).
  { apply zipw_rows with (P := fun n => List.length n = ad); auto. intros. apply pre_action_row. auto. }
  assert (ES : map (map tanh) (zipw pre_action (map (fun row => (map (mu row) (seq 0 ad), map (sigma row) (seq 0 ad))) obs) noise) = sample).
  { rewrite EZ, map_zipw. apply zipw_ext. intros. rewrite map_map. auto. }
  split; [|split; [|split; [exact SS|split; [|split]]]].
  - intros eps. unfold policy_forward. rewrite EX. cbn [rbind]. unfold head_forward. rewrite EH. cbn [rbind].
    change (list (list R)) with matrix in *. rewrite ES, EA.
    assert (FB : forallb (fun row => Nat.eqb (List.length row) ad) sample = true).
    { apply forallb_forall. intros row I. apply Nat.eqb_eq. destruct SS as (_ & F). rewrite Forall_forall in F. auto. }
    assert (LS : List.length sample = List.length x) by (destruct SS; lia).
    rewrite FB, LS, Nat.eqb_refl. cbn [andb]. do 3 f_equal. rewrite EZ, zipw_zipw, map_zipw. unfold logp.
    apply zipw_ext. intros. rewrite log_prob_row. auto.
  - intros any. unfold policy_forward. rewrite EX. cbn [rbind]. unfold head_forward. rewrite EH. cbn [rbind].
    assert (SH : same_shape (map fst (map (fun row => (map (mu row) (seq 0 ad), map (sigma row) (seq 0 ad))) obs)) noise = true).
    { unfold same_shape. rewrite !map_map. cbn [fst].
      assert (Q : map (fun x0 => List.length (map (mu x0) (seq 0 ad))) obs = map (@List.length R) noise).
      { assert (Q1 : map (fun x0 => List.length (map (mu x0) (seq 0 ad))) obs = repeat ad b).
        { rewrite <- LO. clear. induction obs; cbn [map repeat List.length]; auto. rewrite map_length, seq_length. f_equal. auto. }
        assert (Q2 : map (@List.length R) noise = repeat ad b).
        { rewrite <- LN. clear - FN. induction FN; cbn; auto. congruence. }
        congruence. }
      rewrite Q. destruct (list_eq_dec _ _ _); congruence. }
    change (list (list R)) with matrix in *. rewrite SH, ES. auto.
  - split; [unfold logp; rewrite zipw_length; lia|]. apply zipw_forall. auto.
  - intros i j HI HJ. unfold sample. rewrite zipw_nth with (da := []) (db := []) by lia.
    unfold entry at 1. rewrite nth_map_seq by auto. auto.
  - intros i HI.
    assert (EL : nth i logp [] = [rsum (map (fun j => ln (squashed_density (mu (nth i obs []) j) (sigma (nth i obs []) j)
        (action (nth i obs []) (nth i noise []) j))) (seq 0 ad))]).
    { unfold logp. rewrite zipw_nth with (da := []) (db := []) by lia. auto. }
    rewrite EL.
    match goal with |- entry [?x] 0 = _ => change (entry [x] 0) with x end.
    f_equal. apply map_ext_in. intros j IJ. apply in_seq in IJ.
    assert (EE : entry (nth i sample []) j = action (nth i obs []) (nth i noise []) j).
    { unfold sample. rewrite zipw_nth with (da := []) (db := []) by lia.
      unfold entry at 1. rewrite nth_map_seq by lia. auto. }
    rewrite EE. auto.
Qed.
Lemma policy_needs_noise p obs b any : build_policy od ad hidden params mean log_std = Ok p ->
  shape b od obs -> policy_forward false p obs any None = Err TypeError.
Proof.
  intros BP SO. destruct (policy_rows BP SO) as (x & EX & LX & EH & EA).
  unfold policy_forward. rewrite EX. cbn [rbind]. unfold head_forward. rewrite EH. auto.
Qed.
Lemma policy_refuses p obs row training any eps : build_policy od ad hidden params mean log_std = Ok p ->
  In row obs -> List.length row <> od -> policy_forward training p obs any eps = Err RuntimeError.
Proof.
  intros BP I H. unfold build_policy in BP. destruct (rev hidden) as [|la rr] eqn:ER; [discriminate|].
  injection BP as <-. unfold policy_forward. cbn [po_encoder].
  assert (NE : hidden <> []) by (intros ->; discriminate).
  rewrite (@rmapM_err _ _ _ obs row RuntimeError); auto.
  - intros y IY. destruct (Nat.eq_dec (List.length y) od) as [E|N].
    + right. destruct (@encoder_ok hidden od 0%nat params y E) as (z & EZ & _). eauto.
    + left. apply encoder_bad; auto.
  - apply encoder_bad; auto.
Qed.
End Policy.
Lemma policy_built od ad hidden params mean log_std :
  (exists p, build_policy od ad hidden params mean log_std = Ok p) <-> hidden <> [].
Proof.
  unfold build_policy. split.
  - intros (p & E) ->. discriminate.
  - intros NE. destruct (rev hidden) as [|x r] eqn:ER; [|eauto]. apply (f_equal (@rev _)) in ER. rewrite rev_involutive in ER. cbn in ER. congruence.
Qed.

(** ** Value networks *)
Lemma shape_width b n m : shape b n m -> (0 < b)%nat -> width m = n.
Proof. intros (L & F) H. destruct m; cbn in *; [lia|]. inversion F; auto. Qed.
Lemma is_column_shape b m : is_column b m = true <-> shape b 1 m.
Proof.
  unfold is_column, shape. rewrite andb_true_iff, Nat.eqb_eq, forallb_forall, Forall_forall. split; intros (A & B); split; auto;
    intros x I; specialize (B x I); apply Nat.eqb_eq; auto.
Qed.
Lemma zipw_map {A B C D} (f : C -> D) (g : A -> B -> C) a b : map f (zipw g a b) = zipw (fun x y => f (g x y)) a b.
Proof. revert b. induction a; intros [|y b]; cbn; auto. rewrite IHa. auto. Qed.

Section Value.
Variables (od ad : nat) (hidden : list nat) (params : nat -> (nat -> nat -> R) * (nat -> R))
  (final : (nat -> nat -> R) * (nat -> R)).
Definition value_at (o a : list R) : R :=
  affine final (last_size (od + ad) hidden) (features (od + ad) hidden 0 params (entry (o ++ a))) 0.
Lemma value_ok v actions obs b : build_value od ad hidden params final = Ok v -> (0 < b)%nat ->
  shape b od obs -> shape b ad actions ->
  exists out, value_forward v actions obs = Ok out /\ shape b 1 out /\
    forall i, (i < b)%nat -> entry (nth i out []) 0 = value_at (nth i obs []) (nth i actions []).
Proof.
  intros BV B SO SA. unfold build_value in BV. destruct (rev hidden) as [|la rr] eqn:ER; [discriminate|].
  injection BV as <-. pose proof (@rev_head_last _ hidden la rr (od + ad)%nat ER) as EL.
  unfold value_forward. cbn [vn_obs vn_act vn_encoder vn_final].
  rewrite (shape_width SO B), (shape_width SA B), !Nat.eqb_refl.
  pose proof SO as (LO & FO). pose proof SA as (LA & FA). rewrite LO, LA, Nat.eqb_refl. cbn [negb].
  exists (zipw (fun o a => [value_at o a]) obs actions).
  assert (E : rmapM (fun row => rbind (encoder (build_layers (od + ad) hidden 0 params) row)
     (apply_linear (mkLinear la 1 (fst final) (snd final)))) (zipw (@app R) obs actions) =
     Ok (zipw (fun o a => [value_at o a]) obs actions)).
  { clear LO LA SO SA B. revert FA. revert actions. induction FO as [|o obs LO FO IH]; intros [|a actions] FA; cbn; auto.
    apply Forall_cons_iff in FA as (LA & FA').
    destruct (@encoder_ok hidden (od + ad)%nat 0%nat params (o ++ a)) as (y & E & LY & V); [rewrite app_length; lia|].
    rewrite E. cbn [rbind]. unfold last_size in LY, V. rewrite EL in LY, V.
    rewrite apply_linear_ok by (cbn; auto). cbn [rbind ln_in ln_out ln_w ln_b seq map].
    rewrite IH by auto. cbn [rbind]. do 3 f_equal. unfold value_at, last_size. rewrite EL. destruct final; cbn [fst snd].
    apply affine_ext. auto. }
  rewrite E. cbn [rbind].
  assert (SH : shape b 1 (zipw (fun o a => [value_at o a]) obs actions)).
  { split; [rewrite zipw_length; lia|]. apply zipw_forall. auto. }
  split; [|split; [exact SH|]].
  - apply is_column_shape in SH. rewrite SH. auto.
  - intros i HI. rewrite zipw_nth with (da := []) (db := []) by lia. auto.
Qed.
Lemma value_refuses v actions obs b b2 o a : build_value od ad hidden params final = Ok v -> (0 < b)%nat -> (0 < b2)%nat ->
  shape b o obs -> shape b2 a actions -> (b, o, a) <> (b2, od, ad) -> value_forward v actions obs = Err AssertionError.
Proof.
  intros BV B B2 SO SA NE. unfold build_value in BV. destruct (rev hidden) as [|la rr] eqn:ER; [discriminate|].
  injection BV as <-. unfold value_forward. cbn [vn_obs vn_act vn_encoder vn_final].
  rewrite (shape_width SO B), (shape_width SA B2). pose proof SO as (LO & FO). pose proof SA as (LA & FA). rewrite LO, LA.
  destruct (Nat.eqb_spec b b2); [|auto]. destruct (Nat.eqb_spec o od); [|auto]. destruct (Nat.eqb_spec a ad); [|auto].
  subst. congruence.
Qed.
End Value.
Lemma value_built od ad hidden params final :
  (exists v, build_value od ad hidden params final = Ok v) <-> hidden <> [].
Proof.
  unfold build_value. split.
  - intros (p & E) ->. discriminate.
  - intros NE. destruct (rev hidden) as [|x r] eqn:ER; [|eauto]. apply (f_equal (@rev _)) in ER. rewrite rev_involutive in ER. cbn in ER. congruence.
Qed.

(** ** Losses *)
Lemma mse_columns b a t : shape b 1 a -> shape b 1 t ->
  mse a t = Ok (mean_square_error (first_column a) (first_column t)).
Proof.
  intros (LA & FA) (LT & FT). unfold mse.
  assert (S : same_shape a t = true).
  { unfold same_shape. assert (Q : map (@List.length R) a = map (@List.length R) t).
    { assert (Q1 : map (@List.length R) a = repeat 1%nat b) by (rewrite <- LA; clear - FA; induction FA; cbn; congruence).
      assert (Q2 : map (@List.length R) t = repeat 1%nat b) by (rewrite <- LT; clear - FT; induction FT; cbn; congruence).
      congruence. }
    rewrite Q. destruct (list_eq_dec _ _ _); congruence. }
  rewrite S. f_equal. unfold mean_square_error, np_mean, first_column. rewrite map_length.
  assert (E : concat (zip_rows (fun x y => (x - y) ^ 2) a t) =
     map (fun xy => (fst xy - snd xy) ^ 2) (combine (map (fun row => entry row 0) a) (map (fun row => entry row 0) t))).
  { clear S. subst b. revert t LT FT. induction FA as [|x a LX FA IH]; intros [|y t] LT FT; cbn in LT |- *; try lia; auto.
    inversion FT as [|? ? LY FT']; subst. destruct x as [|x [|]]; try discriminate. destruct y as [|y [|]]; try discriminate.
    cbn. rewrite IH by (auto; lia). auto. }
  unfold matrix in *. rewrite E. f_equal. f_equal. rewrite map_length, combine_length, !map_length. lia.
Qed.
Lemma mse_zero a : forall b, List.length a = List.length b -> a <> [] ->
  0 <= mean_square_error a b /\ (mean_square_error a b = 0 <-> a = b).
Proof.
  intros b L NE. unfold mean_square_error.
  assert (P : 0 < INR (List.length a)) by (apply lt_0_INR; destruct a; [congruence|cbn; lia]).
  assert (G : forall a b : list R, List.length a = List.length b ->
     0 <= rsum (map (fun xy => (fst xy - snd xy) ^ 2) (combine a b)) /\
     (rsum (map (fun xy => (fst xy - snd xy) ^ 2) (combine a b)) = 0 <-> a = b)).
  { clear. induction a as [|x a IH]; intros [|y b] L; cbn in L; try lia.
    - cbn. split; [lra|]. tauto.
    - destruct (IH b) as (I1 & I2); [lia|].
      change (rsum (map (fun xy => (fst xy - snd xy) ^ 2) (combine (x :: a) (y :: b))))
        with ((x - y) ^ 2 + rsum (map (fun xy => (fst xy - snd xy) ^ 2) (combine a b))).
      pose proof (Rle_0_sqr (x - y)) as Q. unfold Rsqr in Q. replace ((x - y) ^ 2) with ((x - y) * (x - y)) by ring.
      split; [lra|]. split.
      + intros E. assert (E1 : (x - y) * (x - y) = 0) by lra. apply Rmult_integral in E1.
        assert (x = y) by lra. assert (a = b) by (apply I2; lra). congruence.
      + intros E. injection E as -> ->. assert (I3 := proj2 I2 eq_refl). rewrite I3. ring. }
  destruct (G a b L) as (G1 & G2). split.
  - apply Rmult_le_pos; [auto|]. left. apply Rinv_0_lt_compat. auto.
  - rewrite <- G2. split.
    + intros E. apply Rmult_integral in E as [E|E]; auto. pose proof (Rinv_0_lt_compat _ P). lra.
    + intros ->. unfold Rdiv. ring.
Qed.
Lemma to_int_nat k : to_int (INR k) = Z.of_nat k.
Proof.
  unfold to_int. destruct (Rle_dec 0 (INR k)) as [H|H]; [|pose proof (pos_INR k); lra].
  unfold Int_part. rewrite INR_IZR_INZ. rewrite <- (tech_up (IZR (Z.of_nat k)) (Z.of_nat k + 1)); rewrite ?plus_IZR; try lra. lia.
Qed.
Lemma gather_taken n q taken : forall b actions, shape b n q -> shape b 1 actions -> List.length taken = b ->
  first_column actions = map INR taken -> Forall (fun k => (k < n)%nat) taken ->
  gather q (map (map to_int) actions) = Ok (map (fun qk => [nth (snd qk) (fst qk) 0]) (combine q taken)).
Proof.
  intros b actions (LQ & FQ) (LA & FA) LT EA FT. unfold gather. rewrite map_length, LA, LQ, Nat.leb_refl.
  assert (L1 : List.length taken = List.length actions) by lia. assert (L2 : List.length q = List.length actions) by lia.
  clear LQ LT LA. revert taken q EA FT FQ L1 L2.
  induction actions as [|a actions IH]; intros [|k taken] [|row q] EA FT FQ L1 L2; cbn in L1, L2, EA; try lia; try discriminate; auto.
  inversion FA as [|? ? L3 FA']; subst. inversion FT; subst. inversion FQ as [|? ? LR FQ']; subst.
  destruct a as [|x [|]]; try discriminate. injection EA as EX EA. cbn in EX. subst x. cbn [map combine rmapM fst snd gather_row].
  rewrite to_int_nat. assert (C : ((0 <=? Z.of_nat k) && (Z.of_nat k <? Z.of_nat (List.length row)))%Z = true).
  { apply andb_true_iff. split; [apply Z.leb_le|apply Z.ltb_lt]; lia. }
  rewrite C. cbn [rbind]. rewrite (IH FA' taken q) by (auto; lia). cbn [rbind]. rewrite Nat2Z.id. auto.
Qed.
Lemma dqn_ok q_network obs q n b actions target taken : q_network obs = Ok q -> shape b n q -> shape b 1 actions -> shape b 1 target ->
  List.length taken = b -> first_column actions = map INR taken -> Forall (fun k => (k < n)%nat) taken ->
  dqn_loss q_network obs target actions =
  Ok (mean_square_error (map (fun qk => nth (snd qk) (fst qk) 0) (combine q taken)) (first_column target)).
Proof.
  intros EQ SQ SA ST LT EA FT. unfold dqn_loss. rewrite EQ. cbn [rbind]. rewrite (@gather_taken n q taken b actions); auto.
  cbn [rbind]. rewrite mse_columns with (b := b); auto.
  - unfold first_column at 1. rewrite map_map. auto.
  - destruct SQ as (LQ & _). split; [rewrite map_length, combine_length; lia|]. apply Forall_forall. intros r I.
    apply in_map_iff in I as (x & <- & _). auto.
Qed.
Lemma dqn_refuses q_network obs q n b actions target i k : q_network obs = Ok q -> shape b n q -> shape b 1 actions ->
  (i < b)%nat -> entry (nth i actions []) 0 = IZR k -> (k < 0 \/ Z.of_nat n <= k)%Z ->
  dqn_loss q_network obs target actions = Err RuntimeError.
Proof.
  intros EQ (LQ & FQ) (LA & FA) HI EA HK. unfold dqn_loss. rewrite EQ. cbn [rbind]. unfold gather. rewrite map_length, LA, LQ, Nat.leb_refl.
  assert (TI : to_int (IZR k) = k).
  { unfold to_int, Int_part. destruct (Rle_dec 0 (IZR k)).
    - rewrite <- (tech_up (IZR k) (k + 1)); rewrite ?plus_IZR; try lra. lia.
    - rewrite <- opp_IZR. rewrite <- (tech_up (IZR (- k)) (- k + 1)); rewrite ?plus_IZR; try lra. lia. }
  assert (E : rmapM (fun ri => gather_row (fst ri) (snd ri)) (combine q (map (map to_int) actions)) = Err RuntimeError); [|rewrite E; auto].
  apply rmapM_err with (x := (nth i q [], map to_int (nth i actions []))).
  - replace (nth i q [], map to_int (nth i actions [])) with (nth i (combine q (map (map to_int) actions)) ([], map to_int [])).
    + apply nth_In. rewrite combine_length, map_length. lia.
    + rewrite combine_nth by (rewrite map_length; lia). f_equal. apply map_nth.
  - intros (r, ix) I. cbn [fst snd]. clear. unfold gather_row. induction ix as [|z ix IH]; cbn; [eauto|].
    destruct ((0 <=? z)%Z && (z <? Z.of_nat (List.length r))%Z); cbn; auto. destruct IH as [-> | (y & ->)]; cbn; eauto.
  - cbn [fst snd]. assert (S1 : List.length (nth i actions []) = 1%nat) by (apply (@shape_nth b 1 actions i); [split; auto|auto]).
    assert (S2 : List.length (nth i q []) = n) by (apply (@shape_nth b n q i); [split; auto|auto]).
    destruct (nth i actions []) as [|x [|]]; try discriminate. cbn in EA. subst x. cbn [map gather_row rmapM]. unfold gather_row, rmapM. rewrite TI, S2.
    destruct (Z.leb_spec 0 k), (Z.ltb_spec k (Z.of_nat n)); cbn; auto; lia.
Qed.
Lemma policy_loss_ok la logp q1 q2 : List.length q1 = List.length logp -> List.length q2 = List.length logp ->
  policy_loss la logp q1 (Some q2) =
    rsum (map (fun i => exp la * nth i logp 0 - Rmin (nth i q1 0) (nth i q2 0)) (seq 0 (List.length logp))) / INR (List.length logp) /\
  policy_loss la logp q1 None =
    rsum (map (fun i => exp la * nth i logp 0 - nth i q1 0) (seq 0 (List.length logp))) / INR (List.length logp).
Proof.
  intros L1 L2. unfold policy_loss, np_mean.
  assert (A : forall q, List.length q = List.length logp ->
     zipw (fun logp q => exp la * logp - q) logp q = map (fun i => exp la * nth i logp 0 - nth i q 0) (seq 0 (List.length logp))).
  { intros q L. rewrite (@entries_seq logp _ eq_refl) at 1. rewrite (@entries_seq q _ L) at 1. rewrite zipw_seq. auto. }
  split.
  - rewrite A by (rewrite zipw_length; lia). rewrite !map_length, seq_length. f_equal. f_equal. apply map_ext_in.
    intros i I. apply in_seq in I. rewrite zipw_nth with (da := 0) (db := 0) by lia. auto.
  - rewrite A by auto. rewrite !map_length, seq_length. auto.
Qed.
Lemma policy_loss_pessimistic la logp q1 q2 : List.length q1 = List.length logp -> List.length q2 = List.length logp -> logp <> [] ->
  policy_loss la logp q1 None <= policy_loss la logp q1 (Some q2) /\ policy_loss la logp q2 None <= policy_loss la logp q1 (Some q2).
Proof.
  intros L1 L2 NE. destruct (@policy_loss_ok la logp q1 q2 L1 L2) as (-> & ->). destruct (@policy_loss_ok la logp q2 q1 L2 L1) as (_ & ->).
  assert (P : 0 < / INR (List.length logp)) by (apply Rinv_0_lt_compat, lt_0_INR; destruct logp; [congruence|cbn; lia]).
  assert (M : forall f g (l : list nat), (forall i, f i <= g i) -> rsum (map f l) <= rsum (map g l)).
  { intros f g l H. induction l as [|x l IH]; cbn; [lra|]. fold (rsum (map f l)) (rsum (map g l)). specialize (H x). lra. }
  unfold Rdiv. split; apply Rmult_le_compat_r; try lra; apply M; intros i; [pose proof (Rmin_l (nth i q1 0) (nth i q2 0))|pose proof (Rmin_r (nth i q1 0) (nth i q2 0))]; lra.
Qed.
Lemma action_increasing m s e e2 : 0 < s -> e < e2 -> tanh (m + s * e) < tanh (m + s * e2).
Proof. intros S H. apply tanh_increasing. nra. Qed.
Lemma policy_bounds od ad hidden params mean log_std p obs noise any eps training sample logp b :
  build_policy od ad hidden params mean log_std = Ok p -> shape b od obs ->
  shape b ad noise -> (training = true /\ any = noise \/ training = false /\ eps = Some noise) ->
  policy_forward training p obs any eps = Ok (sample, logp) ->
  shape b ad sample /\ forall i j, (i < b)%nat -> (j < ad)%nat -> -1 < entry (nth i sample []) j < 1.
Proof.
  intros BP SO SN M E. destruct (policy_ok BP SO SN) as (s & l & T & EV & SS & _ & V & _).
  assert (sample = s) as ->.
  { destruct M as [(-> & ->) | (-> & ->)]; [rewrite T in E|rewrite EV in E]; congruence. }
  split; auto. intros i j HI HJ. rewrite V by auto. apply tanh_bounds.
Qed.
Lemma limits_ok x y : -5 <= limited (-5) 5 x <= 5 /\ exp (-20) <= exp (limited (-20) 2 y) <= exp 2.
Proof.
  split; [apply limited_bounds; lra|]. pose proof (@limited_bounds (-20) 2 y ltac:(lra)) as (A & B).
  assert (M : forall u v, u <= v -> exp u <= exp v).
  { intros u v [H|H]; [left; apply exp_increasing; auto|right; congruence]. }
  split; apply M; auto.
Qed.
Lemma q_loss_ok q_network actions qv target b : (0 < b)%nat -> q_network actions = Ok qv -> shape b 1 qv -> shape b 1 target ->
  exists loss, q_loss q_network actions target = Ok loss /\ loss = mean_square_error (first_column qv) (first_column target) /\
  0 <= loss /\ (loss = 0 <-> qv = target).
Proof.
  intros B E SV ST. eexists. unfold q_loss. rewrite E. cbn [rbind]. split; [apply (mse_columns SV ST)|]. split; auto.
  pose proof SV as (LV & FV). pose proof ST as (LT & FT).
  destruct (@mse_zero (first_column qv) (first_column target)) as (P & Q).
  - unfold first_column. rewrite !map_length. lia.
  - destruct qv; cbn in *; [lia|discriminate].
  - split; auto. rewrite Q. split; [|intros ->; auto]. clear - FV FT. intros E. revert target FT E.
    induction FV as [|x v LX FV IH]; intros [|y t] FT E; cbn in E; try discriminate; auto.
    inversion FT as [|? ? LY FT']; subst. injection E as E1 E2. rewrite (IH t) by auto.
    destruct x as [|x [|]]; try discriminate. destruct y as [|y [|]]; try discriminate. cbn in E1. congruence.
Qed.
Lemma half_action : to_int (3 / 2) = 1%Z /\ to_int (- (1 / 2)) = 0%Z.
Proof.
  split.
  - unfold to_int, Int_part. destruct (Rle_dec 0 (3 / 2)); [|lra]. rewrite <- (tech_up (3 / 2) 2); [lia|lra|lra].
  - unfold to_int, Int_part. destruct (Rle_dec 0 (- (1 / 2))); [lra|]. rewrite <- (tech_up (- - (1 / 2)) 1); [lia|lra|lra].
Qed.
Lemma dqn_truncates qn obs target :
  dqn_loss qn obs target [[3 / 2]] = dqn_loss qn obs target [[1]] /\
  dqn_loss qn obs target [[- (1 / 2)]] = dqn_loss qn obs target [[0]].
Proof.
  unfold dqn_loss. cbn [map]. destruct half_action as (-> & ->).
  pose proof (to_int_nat 1) as T1. pose proof (to_int_nat 0) as T0. cbn in T1, T0. rewrite T1, T0. auto.
Qed.
Lemma shared_ok shared_enc v action obs x : shared_enc obs = Ok x -> shared_forward shared_enc v action obs = value_forward v action x.
Proof. intros E. unfold shared_forward. rewrite E. auto. Qed.
Lemma density_ok Phi m s a : 0 < s -> -1 < a < 1 ->
  (forall z, derivable_pt_lim Phi z (normal_density m s z)) ->
  (forall z, tanh z <= a <-> z <= atanh a) /\
  derivable_pt_lim (fun a => Phi (atanh a)) a (squashed_density m s a).
Proof.
  intros S H D. split; [|apply squashed_is_derivative; auto]. intros z.
  pose proof (tanh_atanh H) as T. split; intros L.
  - destruct (Rle_lt_dec z (atanh a)) as [|N]; auto. apply tanh_increasing in N. lra.
  - destruct L as [L | ->]; [apply tanh_increasing in L; lra|lra].
Qed.
Lemma shared_value_ok shared_enc od ad hidden params final v actions obs x b :
  build_value od ad hidden params final = Ok v -> (0 < b)%nat -> shared_enc obs = Ok x -> shape b od x -> shape b ad actions ->
  exists out, shared_forward shared_enc v actions obs = Ok out /\ shape b 1 out /\
    forall i, (i < b)%nat -> entry (nth i out []) 0 =
      affine final (last_size (od + ad) hidden)
        (features (od + ad) hidden 0 params (entry (nth i x [] ++ nth i actions []))) 0.
Proof.
  intros BV B E SX SA. rewrite (@shared_ok shared_enc v actions obs x E). exact (value_ok BV B SX SA).
Qed.
Lemma policy_case : policy_forward false
  (mkPolicy [mkLinear 1 1 (fun _ _ => 1) (fun _ => 0)] (mkHead (mkLinear 1 1 (fun _ _ => 2) (fun _ => 0)) (mkLinear 1 1 (fun _ _ => 0) (fun _ => 0)) 1))
  [[1]] [] (Some [[3]]) = Ok ([[tanh 5]], None).
Proof.
  unfold policy_forward, head_forward. cbn [rmapM encoder po_encoder rbind apply_linear]. cbn. unfold clamp, relu.
  replace (1 * 1 + 0 + 0) with 1 by ring. rewrite (Rmax_left 1 0) by lra.
  replace (2 * 1 + 0 + 0) with 2 by ring. replace (0 * 1 + 0 + 0) with 0 by ring.
  rewrite (Rmax_left 2 (-5)), (Rmax_left 0 (-20)), (Rmin_left 2 5), (Rmin_left 0 2) by lra. rewrite exp_0.
  unfold same_shape. cbn. destruct (list_eq_dec Nat.eq_dec [1%nat] [1%nat]); [|congruence]. replace (2 + 1 * 3) with 5 by ring. auto.
Qed.
Lemma value_case : value_forward
  (mkValueNet 1 1 [mkLinear 2 1 (fun _ j => if Nat.eqb j 0 then 1 else 10) (fun _ => 0)] (mkLinear 1 1 (fun _ _ => 2) (fun _ => 1)))
  [[3]; [-1]] [[4]; [1]] = Ok [[69]; [1]].
Proof.
  cbn. unfold relu. rewrite (Rmax_left (1 * 4 + (10 * 3 + 0) + 0) 0), (Rmax_right (1 * 1 + (10 * -1 + 0) + 0) 0) by lra.
  do 2 f_equal; [f_equal; ring|]. f_equal. f_equal. ring.
Qed.
Lemma dqn_case : dqn_loss (fun _ => Ok [[1; 2; 3]; [4; 5; 6]]) [] [[0]; [0]] [[INR 2]; [INR 0]] = Ok ((9 + 16) / 2).
Proof.
  rewrite (@dqn_ok _ [] [[1; 2; 3]; [4; 5; 6]] 3 2 [[INR 2]; [INR 0]] [[0]; [0]] [2; 0]%nat); auto.
  { f_equal. unfold mean_square_error. cbn. field. }
  all: try (split; [reflexivity|]); repeat constructor.
Qed.
Lemma policy_loss_case : policy_loss 0 [1; 2] [5; 7] (Some [6; 3]) = - 5 / 2.
Proof.
  unfold policy_loss, np_mean. cbn. rewrite exp_0, (Rmin_left 5 6), (Rmin_right 7 3) by lra. field.
Qed.
