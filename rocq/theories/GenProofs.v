(** * GenProofs *)
From Coq Require Import Reals Lra Lia.
From Verif Require Import Py PyLemmas NumModel NumProofs AmpModel AmpProofs MemModel ProxyModel PolModel PolSpec PolProofs PolMain GenModel GenSpec.
Open Scope list_scope.
Open Scope R_scope.
Set Implicit Arguments.
Unset Strict Implicit.

(** ** Batches *)
Lemma zip_with_zipw f a : forall b, zip_with f a b = zipw f a b.
Proof. induction a; intros [|y b]; cbn; auto. rewrite IHa. auto. Qed.
Lemma zip_rows_zipw f a : forall b, zip_rows f a b = zipw (zipw f) a b.
Proof. induction a; intros [|y b]; cbn; auto. rewrite IHa, zip_with_zipw. auto. Qed.
Lemma same_shape_shape b n m t : shape b n m -> shape b n t -> same_shape m t = true.
Proof.
  intros (LA & FA) (LT & FT). unfold same_shape.
  assert (Q : map (@List.length R) m = map (@List.length R) t).
  { assert (Q1 : map (@List.length R) m = repeat n b) by (rewrite <- LA; clear - FA; induction FA; cbn; congruence).
    assert (Q2 : map (@List.length R) t = repeat n b) by (rewrite <- LT; clear - FT; induction FT; cbn; congruence).
    congruence. }
  rewrite Q. destruct (list_eq_dec _ _ _); congruence.
Qed.
Lemma zip_rows_shape f b n m t : shape b n m -> shape b n t ->
  shape b n (zip_rows f m t) /\ forall i j, (i < b)%nat -> (j < n)%nat -> at_ (zip_rows f m t) i j = f (at_ m i j) (at_ t i j).
Proof.
  intros SM ST. pose proof SM as (LM & FM). pose proof ST as (LT & FT). rewrite zip_rows_zipw. split.
  - split; [rewrite zipw_length; lia|]. apply Forall_forall. intros r I. apply (In_nth _ _ []) in I as (i & HI & <-).
    rewrite zipw_length in HI. rewrite zipw_nth with (da := []) (db := []) by lia. rewrite zipw_length.
    rewrite (shape_nth SM) by lia. rewrite (shape_nth ST) by lia. lia.
  - intros i j HI HJ. unfold at_. rewrite zipw_nth with (da := []) (db := []) by lia. unfold entry.
    rewrite zipw_nth with (da := 0) (db := 0); auto; [rewrite (shape_nth SM); lia|rewrite (shape_nth ST); lia].
Qed.
Lemma rows_at b n m : shape b n m -> m = map (fun i => map (at_ m i) (seq 0 n)) (seq 0 b).
Proof.
  intros SM. pose proof SM as (LM & FM). apply nth_ext with (d := []) (d' := []); [rewrite map_length, seq_length; auto|].
  intros i HI. rewrite LM in HI. rewrite nth_map_seq by auto. apply entries_seq. apply (shape_nth SM); auto.
Qed.
Lemma shape_map (f : R -> R) b n m : shape b n m -> shape b n (map (map f) m) /\
  forall i j, (i < b)%nat -> (j < n)%nat -> at_ (map (map f) m) i j = f (at_ m i j).
Proof.
  intros SM. pose proof SM as (LM & FM). split.
  - split; [rewrite map_length; auto|]. apply Forall_map. eapply Forall_impl; [|exact FM]. intros; rewrite map_length; auto.
  - intros i j HI HJ. unfold at_, entry. rewrite (@map_nth_lt _ _ (map f) m i [] []) by lia.
    apply map_nth_lt. rewrite (shape_nth SM) by lia. auto.
Qed.
Lemma view_same b n x_hat x : (0 < b)%nat -> shape b n x -> shape b n x_hat -> view_as x_hat x = Ok x_hat.
Proof.
  intros B SX (LH & FH). pose proof SX as (LX & FX). unfold view_as. rewrite (shape_width SX B), LX.
  rewrite (concat_len FH), LH, Nat.eqb_refl. f_equal. rewrite <- LH. apply chunks_concat. auto.
Qed.

(** ** The autoencoder *)
Lemma vae_sample encoder decoder b n l eps x cond mu log_std latent x_hat : (0 < b)%nat ->
  encoder x cond = Ok (mu, log_std) -> shape b n x -> shape b l mu -> shape b l log_std -> shape b l eps ->
  shape b l latent -> (forall i j, (i < b)%nat -> (j < l)%nat -> at_ latent i j = at_ mu i j + exp (at_ log_std i j) * at_ eps i j) ->
  decoder latent cond = Ok x_hat -> shape b n x_hat ->
  vae_forward encoder decoder eps x cond = Ok (x_hat, mu, log_std, latent).
Proof.
  intros B EE SX SM SL SE SZ V ED SH. unfold vae_forward. rewrite EE. cbn [rbind].
  rewrite (same_shape_shape SM SL).
  destruct (shape_map exp SL) as (S1 & V1). destruct (zip_rows_shape Rmult SE S1) as (S2 & V2).
  destruct (zip_rows_shape Rplus S2 SM) as (S3 & V3).
  assert (EL : zip_rows Rplus (zip_rows Rmult eps (map (map exp) log_std)) mu = latent).
  { rewrite (rows_at S3), (rows_at SZ). apply map_ext_in. intros i HI. apply in_seq in HI. apply map_ext_in. intros j HJ. apply in_seq in HJ.
    rewrite V3, V2, V1, V by lia. ring. }
  unfold matrix in *. rewrite EL, ED. cbn [rbind]. rewrite (view_same B SX SH). auto.
Qed.
Lemma exp_above s : 1 + s <= exp s /\ (exp s = 1 + s -> s = 0).
Proof.
  destruct (Req_dec s 0) as [-> | N]; [rewrite exp_0; lra|]. pose proof (exp_ineq1 s N). lra.
Qed.
Lemma Rsqr_0_uniq_pow x : x ^ 2 = 0 -> x = 0.
Proof. intros E. apply Rsqr_0_uniq. unfold Rsqr. lra. Qed.
Lemma total_ext b n f g : (forall i j, (i < b)%nat -> (j < n)%nat -> f i j = g i j) -> total b n f = total b n g.
Proof.
  intros H. unfold total. f_equal. apply map_ext_in. intros i HI. apply in_seq in HI. f_equal. apply map_ext_in. intros j HJ. apply in_seq in HJ.
  apply H; lia.
Qed.
Lemma rsum_nonneg {A} (f : A -> R) l : (forall x, In x l -> 0 <= f x) -> 0 <= rsum (map f l) /\ (rsum (map f l) = 0 <-> forall x, In x l -> f x = 0).
Proof.
  induction l as [|x l IH]; intros H.
  - cbn. split; [lra|]. split; auto. intros _ y [].
  - change (rsum (map f (x :: l))) with (f x + rsum (map f l)).
    destruct IH as (I1 & I2); [intros; apply H; right; auto|]. pose proof (H x (or_introl eq_refl)).
    split; [lra|]. split.
    + intros E y [<-|I]; [lra|]. apply I2; auto. lra.
    + intros E. rewrite (proj2 I2); [rewrite E by (left; auto); lra|]. intros; apply E; right; auto.
Qed.
Lemma total_nonneg b n f : (forall i j, (i < b)%nat -> (j < n)%nat -> 0 <= f i j) ->
  0 <= total b n f /\ (total b n f = 0 <-> forall i j, (i < b)%nat -> (j < n)%nat -> f i j = 0).
Proof.
  intros H. unfold total.
  assert (R1 : forall i, (i < b)%nat -> 0 <= rsum (map (f i) (seq 0 n)) /\ (rsum (map (f i) (seq 0 n)) = 0 <-> forall j, In j (seq 0 n) -> f i j = 0)).
  { intros i HI. apply rsum_nonneg. intros j HJ. apply in_seq in HJ. apply H; lia. }
  destruct (@rsum_nonneg nat (fun i => rsum (map (f i) (seq 0 n))) (seq 0 b)) as (P & Q).
  - intros i HI. apply in_seq in HI. apply R1. lia.
  - split; auto. rewrite Q. split.
    + intros E i j HI HJ. apply (proj1 (proj2 (R1 i HI)) (E i ltac:(apply in_seq; lia))). apply in_seq. lia.
    + intros E i HI. apply in_seq in HI. apply R1; [lia|]. intros j HJ. apply in_seq in HJ. apply E; lia.
Qed.
Lemma total_plus b n f g : total b n (fun i j => f i j + g i j) = total b n f + total b n g.
Proof.
  unfold total. rewrite <- rsum_map_plus. f_equal. apply map_ext. intros i. apply rsum_map_plus.
Qed.
Lemma rsum_concat_at b n m : shape b n m -> rsum (concat m) = total b n (at_ m).
Proof.
  intros SM. rewrite (rows_at SM) at 1. unfold total. induction (seq 0 b) as [|i l IH]; cbn [map concat]; auto.
  rewrite rsum_app, IH. auto.
Qed.
Lemma vae_loss_ok beta b n l x x_hat mu log_std : (0 < b)%nat -> (0 < n)%nat ->
  shape b n x -> shape b n x_hat -> shape b l mu -> shape b l log_std ->
  exists restore, exists kl, vae_loss beta l x x_hat mu log_std = Ok (restore + beta * kl, restore, kl) /\
    restore = total b n (fun i j => (at_ x_hat i j - at_ x i j) ^ 2) / (INR b * INR n) /\
    kl = total b l (fun i j => at_ mu i j ^ 2 / 2 + (exp (at_ log_std i j) - 1 - at_ log_std i j)) / INR b /\
    0 <= restore /\ (restore = 0 <-> x_hat = x) /\
    0 <= kl /\ (kl = 0 <-> forall i j, (i < b)%nat -> (j < l)%nat -> at_ mu i j = 0 /\ at_ log_std i j = 0).
Proof.
  intros B N SX SH SM SL. eexists. eexists. unfold vae_loss, mse. rewrite (same_shape_shape SH SX). cbn [rbind].
  rewrite (same_shape_shape SM SL). split; [reflexivity|].
  destruct (zip_rows_shape (fun x y => (x - y) ^ 2) SH SX) as (S1 & V1).
  destruct (zip_rows_shape (fun m s => - s + m ^ 2 * (1 / 2) + exp s) SM SL) as (S2 & V2).
  assert (PB : 0 < INR b) by (apply lt_0_INR; lia). assert (PN : 0 < INR n) by (apply lt_0_INR; lia).
  assert (ER : np_mean (concat (zip_rows (fun x y => (x - y) ^ 2) x_hat x)) =
     total b n (fun i j => (at_ x_hat i j - at_ x i j) ^ 2) / (INR b * INR n)).
  { unfold np_mean. rewrite (rsum_concat_at S1), (total_ext V1). f_equal. pose proof S1 as (LS & FS). rewrite (concat_len FS), LS, mult_INR. auto. }
  assert (EK : np_mean (map (fun row => rsum row - INR l) (zip_rows (fun m s => - s + m ^ 2 * (1 / 2) + exp s) mu log_std)) =
     total b l (fun i j => at_ mu i j ^ 2 / 2 + (exp (at_ log_std i j) - 1 - at_ log_std i j)) / INR b).
  { unfold np_mean. rewrite map_length. pose proof S2 as (LS & FS). unfold matrix in *. rewrite LS. f_equal. rewrite (rows_at S2), map_map.
    unfold total. f_equal. apply map_ext_in. intros i HI. apply in_seq in HI.
    assert (G : forall k, (k <= l)%nat -> rsum (map (at_ (zip_rows (fun m s => - s + m ^ 2 * (1 / 2) + exp s) mu log_std) i) (seq 0 k)) - INR k =
      rsum (map (fun j => at_ mu i j ^ 2 / 2 + (exp (at_ log_std i j) - 1 - at_ log_std i j)) (seq 0 k))).
    { induction k as [|k IH]; intros HK; [cbn; lra|]. rewrite seq_S, !map_app, !rsum_app, S_INR. cbn [map plus rsum fold_right].
      rewrite V2 by lia. rewrite <- IH by lia. field. }
    apply G. auto. }
  unfold matrix in *. split; [exact ER|]. split; [exact EK|]. rewrite ER, EK.
  assert (DV : forall a c, 0 < c -> (a / c = 0 <-> a = 0)).
  { intros a c HC. split; [|intros ->; unfold Rdiv; ring]. intros E. apply (f_equal (Rmult c)) in E. unfold Rdiv in E. field_simplify in E; [|lra]. lra. }
  assert (PV : forall a c, 0 < c -> 0 <= a -> 0 <= a / c).
  { intros a c HC HA. apply Rmult_le_pos; auto. left. apply Rinv_0_lt_compat. auto. }
  assert (PBN : 0 < INR b * INR n) by (apply Rmult_lt_0_compat; auto).
  destruct (@total_nonneg b n (fun i j => (at_ x_hat i j - at_ x i j) ^ 2)) as (T1 & T2); [intros; apply pow2_ge_0|].
  destruct (@total_nonneg b l (fun i j => at_ mu i j ^ 2 / 2 + (exp (at_ log_std i j) - 1 - at_ log_std i j))) as (T3 & T4).
  { intros i j HI HJ. pose proof (exp_above (at_ log_std i j)). pose proof (pow2_ge_0 (at_ mu i j)). lra. }
  split; [apply PV; auto|]. split.
  { rewrite DV by auto. rewrite T2. split.
    - intros E. rewrite (rows_at SH), (rows_at SX). apply map_ext_in. intros i HI. apply in_seq in HI. apply map_ext_in. intros j HJ. apply in_seq in HJ.
      specialize (E i j ltac:(lia) ltac:(lia)). cbn beta in E. apply Rsqr_0_uniq_pow in E. lra.
    - intros -> i j HI HJ. ring. }
  split; [apply PV; auto|]. rewrite DV by auto. rewrite T4. split.
  - intros E i j HI HJ. specialize (E i j HI HJ). destruct (exp_above (at_ log_std i j)) as (G1 & G2). pose proof (pow2_ge_0 (at_ mu i j)). split; [apply Rsqr_0_uniq_pow; lra|]. apply G2. lra.
  - intros E i j HI HJ. destruct (E i j HI HJ) as (-> & ->). rewrite exp_0. lra.
Qed.
Lemma divergence_ok E m s : standard_expectation E -> 0 < s ->
  E (fun e => ln (normal_density m s (m + s * e)) - ln (normal_density 0 1 (m + s * e))) = divergence m s.
Proof.
  intros (EX & LI & E1 & Ee & E2) P.
  assert (F : forall e, ln (normal_density m s (m + s * e)) - ln (normal_density 0 1 (m + s * e)) =
     1 * (fun e => (- ln s + m ^ 2 / 2) * (fun _ => 1) e + m * s * (fun e => e) e) e + ((s ^ 2 - 1) / 2) * (fun e => e ^ 2) e).
  { intros e. rewrite <- !normal_log_prob_ok by lra. unfold normal_log_prob. rewrite ln_1. field. lra. }
  rewrite (EX _ _ F), LI, LI, E1, Ee, E2. unfold divergence. field.
Qed.
Lemma kl_gap m s : divergence m (exp s) - (m ^ 2 / 2 + (exp s - 1 - s)) = (exp s - 1) ^ 2 / 2.
Proof. unfold divergence. rewrite ln_exp. field. Qed.
Lemma kl_short beta b n l x x_hat mu log_std restore kl loss : (0 < b)%nat -> (0 < n)%nat ->
  shape b n x -> shape b n x_hat -> shape b l mu -> shape b l log_std ->
  vae_loss beta l x x_hat mu log_std = Ok (loss, restore, kl) ->
  let true_kl := total b l (fun i j => divergence (at_ mu i j) (exp (at_ log_std i j))) / INR b in
  true_kl - kl = total b l (fun i j => (exp (at_ log_std i j) - 1) ^ 2 / 2) / INR b /\
  kl <= true_kl /\ (kl = true_kl <-> forall i j, (i < b)%nat -> (j < l)%nat -> at_ log_std i j = 0).
Proof.
  intros B N SX SH SM SL E. destruct (vae_loss_ok beta B N SX SH SM SL) as (r & k & EQ & _ & EK & _).
  rewrite E in EQ. injection EQ as _ _ ->. rewrite EK. cbn zeta.
  assert (PB : 0 < / INR b) by (apply Rinv_0_lt_compat, lt_0_INR; lia).
  set (g := fun i j => (exp (at_ log_std i j) - 1) ^ 2 / 2).
  assert (ET : total b l (fun i j => divergence (at_ mu i j) (exp (at_ log_std i j))) =
     total b l (fun i j => at_ mu i j ^ 2 / 2 + (exp (at_ log_std i j) - 1 - at_ log_std i j)) + total b l g).
  { rewrite <- total_plus. apply total_ext. intros i j _ _. unfold g. pose proof (kl_gap (at_ mu i j) (at_ log_std i j)). lra. }
  rewrite ET. unfold Rdiv. rewrite !Rmult_plus_distr_r.
  destruct (@total_nonneg b l g) as (T1 & T2); [intros; unfold g; pose proof (pow2_ge_0 (exp (at_ log_std i j) - 1)); lra|].
  split; [ring|]. split; [nra|]. split.
  - intros Q. assert (Z : total b l g = 0) by nra. intros i j HI HJ. pose proof (proj1 T2 Z i j HI HJ) as W. unfold g in W.
    assert (exp (at_ log_std i j) - 1 = 0) as X by (apply Rsqr_0_uniq_pow; lra). apply exp_inv. rewrite exp_0. lra.
  - intros Z. rewrite (proj2 T2); [ring|]. intros i j HI HJ. unfold g. rewrite Z by auto. rewrite exp_0. field.
Qed.

(** ** Latent actions *)
Lemma scaled_comm c m : map (map (fun z => z * c)) m = scaled c m.
Proof. unfold scaled. apply map_ext. intros r. apply map_ext. intros. ring. Qed.
Lemma decoder_scaled dec cf mult z obs : decoder_forward dec cf mult z (Some obs) = dec (scaled mult z) (Some (cf obs)).
Proof. unfold decoder_forward. rewrite scaled_comm. auto. Qed.
Lemma wrapper_ok od hidden params mean log_std p obs noise b dec cf mult l :
  build_policy od l hidden params mean log_std = Ok p -> shape b od obs -> shape b l noise ->
  exists sample, exists logp, policy_forward true p obs noise None = Ok (sample, Some logp) /\
    forall action, dec (scaled mult sample) (Some (cf obs)) = Ok action ->
      (forall eps, wrapper_forward dec cf mult l true p obs noise eps = Ok (action, Some logp)) /\
      (forall any eps, List.map (firstn l) eps = noise -> wrapper_forward dec cf mult l false p obs any (Some eps) = Ok (action, None)).
Proof.
  intros BP SO SN. destruct (policy_ok BP SO SN) as (s & lp & T & EV & _). exists s, lp. split; [apply T|].
  intros a ED. split.
  - intros eps. unfold wrapper_forward. rewrite T. cbn [rbind]. rewrite decoder_scaled. unfold matrix in *. rewrite ED. auto.
  - intros any eps EE. unfold wrapper_forward. cbn [option_map]. unfold matrix in *. rewrite EE, EV. cbn [rbind]. rewrite decoder_scaled. unfold matrix in *. rewrite ED. auto.
Qed.
Lemma stored_latent enc dec cf mult sample obs action spread :
  (forall z c a, dec z c = Ok a -> enc a c = Ok (z, spread)) ->
  decoder_forward dec cf mult sample (Some obs) = Ok action ->
  encoder_forward enc cf action (Some obs) = Ok (scaled mult sample).
Proof.
  intros INV ED. unfold decoder_forward in ED. unfold encoder_forward. rewrite scaled_comm in ED.
  rewrite (INV _ _ _ ED). auto.
Qed.
Lemma scaled_one m : scaled 1 m = m.
Proof.
  unfold scaled. rewrite <- (map_id m) at 2. apply map_ext. intros r. rewrite <- (map_id r) at 2. apply map_ext. intros. ring.
Qed.
Lemma scaled_same c m : scaled c m = m <-> c = 1 \/ Forall (Forall (fun z => z = 0)) m.
Proof.
  destruct (Req_dec c 1) as [-> | N]; [split; [auto|intros _; apply scaled_one]|].
  assert (RW : forall r, map (Rmult c) r = r <-> Forall (fun z => z = 0) r).
  { induction r as [|z r IH]; cbn; [split; auto|]. split.
    - intros E. injection E as E1 E2. constructor; [|apply IH; auto]. assert ((c - 1) * z = 0) as Q by lra.
      apply Rmult_integral in Q as [Q|Q]; lra.
    - intros E. inversion E; subst. rewrite (proj2 IH) by auto. f_equal. ring. }
  unfold scaled. induction m as [|r m IH]; cbn; [split; auto|]. split.
  - intros E. injection E as E1 E2. right. constructor; [apply RW; auto|]. destruct (proj1 IH E2); [lra|auto].
  - intros [E|E]; [lra|]. inversion E; subst. f_equal; [apply RW; auto|apply IH; auto].
Qed.
Lemma scaled_beyond z : 1 / 3 <= Rabs z -> 1 <= Rabs (3 * z).
Proof. intros H. rewrite Rabs_mult. rewrite (Rabs_right 3) by lra. lra. Qed.

(** ** Loading by name *)
Lemma map_keys (g : string * list R -> list R) (d : dict string (list R)) k :
  (forall v v2, dget d k = Some v -> dget d k = Some v2 -> v = v2) ->
  dget (map (fun kw => (fst kw, g kw)) d) k = match dget d k with Some v => Some (g (k, v)) | None => None end.
Proof.
  intros _. induction d as [|(k2, v) d IH]; cbn; auto. destruct (String.eqb_spec k k2); [subst; auto|apply IH].
Qed.
Lemma filter_get (P : string -> bool) (d : dict string (list R)) k :
  dget (filter (fun kv => P (fst kv)) d) k = if P k then dget d k else None.
Proof.
  induction d as [|(k2, v) d IH]; [cbn; destruct (P k); auto|]. cbn [filter fst].
  destruct (P k2) eqn:E2; cbn [dget]; cbn; destruct (String.eqb_spec k k2) as [->|N]; rewrite ?E2; auto; rewrite IH, ?E2; auto.
Qed.
Lemma filter_NoDup (P : string * list R -> bool) (d : dict string (list R)) : NoDup (dkeys d) -> NoDup (dkeys (filter P d)).
Proof.
  unfold dkeys. induction d as [|(k, v) d IH]; cbn; intros N; auto. inversion N; subst. destruct (P (k, v)); cbn; auto.
  constructor; auto. intros I. apply H1. apply in_map_iff in I as (x & <- & I). apply filter_In in I as (I & _). apply in_map. auto.
Qed.
Lemma load_get (own state : dict string (list R)) k : NoDup (dkeys own) -> NoDup (dkeys state) ->
  dget (dupdate own (filter (fun kv => dmem own (fst kv)) state)) k =
  match dget own k with None => None | Some w => match dget state k with Some v => Some v | None => Some w end end.
Proof.
  intros N1 N2. rewrite dget_dupdate by (apply filter_NoDup; auto). rewrite (filter_get (fun s => dmem own s)).
  unfold dmem. destruct (dget own k); destruct (dget state k); auto.
Qed.
Lemma filter_known (own state : dict string (list R)) : filter (fun kv => dmem own (fst kv)) state = [] <-> ~ known own state.
Proof.
  unfold known. split.
  - intros E (k & I1 & I2). unfold dkeys in I2. apply in_map_iff in I2 as ((k2, v) & EK & I). cbn in EK. subst.
    assert (Q : In (k, v) (filter (fun kv => dmem own (fst kv)) state)).
    { apply filter_In. split; auto. cbn. apply dmem_In. auto. }
    rewrite E in Q. inversion Q.
  - intros H. destruct (filter _ state) as [|(k, v) r] eqn:E; auto. exfalso. apply H. exists k.
    assert (Q : In (k, v) (filter (fun kv => dmem own (fst kv)) state)) by (rewrite E; left; auto).
    apply filter_In in Q as (Q1 & Q2). split; [apply dmem_In; auto|]. apply (in_map fst) in Q1. auto.
Qed.
Lemma load_ok (own state : dict string (list R)) : NoDup (dkeys own) -> NoDup (dkeys state) -> known own state ->
  (forall k w v, dget own k = Some w -> dget state k = Some v -> List.length w = List.length v) ->
  exists own', wrapper_load own state = (own', Ok tt) /\ dkeys own' = dkeys own /\
    forall k, In k (dkeys own) -> dget own' k = match dget state k with Some v => Some v | None => dget own k end.
Proof.
  intros N1 N2 K F. unfold wrapper_load. destruct (filter (fun kv => dmem own (fst kv)) state) as [|x r] eqn:EF.
  { apply filter_known in EF. contradiction. }
  unfold module_load. rewrite <- EF. eexists. split; [f_equal|].
  - assert (Q : forallb (fun kv => match dget own (fst kv) with Some w => Nat.eqb (List.length w) (List.length (snd kv)) | None => false end)
       (dupdate own (filter (fun kv => dmem own (fst kv)) state)) = true); [|rewrite Q; auto].
    apply forallb_forall. intros (k, v) I. cbn [fst snd].
    apply In_dget in I; [|apply NoDup_dupdate; auto]. rewrite load_get in I by auto.
    destruct (dget own k) as [w|] eqn:EO; [|discriminate]. apply Nat.eqb_eq.
    destruct (dget state k) as [v2|] eqn:ES; injection I as <-; auto. apply (F k); auto.
  - split.
    + unfold dkeys. rewrite map_map. cbn [fst]. auto.
    + intros k I. rewrite map_keys by congruence. cbn [fst snd]. rewrite load_get by auto.
      destruct (dget_key own k I) as (w & EO). rewrite EO. destruct (dget state k) as [v|] eqn:ES; [rewrite (F k w v EO ES)|]; rewrite Nat.eqb_refl; auto.
Qed.
Lemma load_nothing (own state : dict string (list R)) : ~ known own state -> wrapper_load own state = (own, Err AssertionError).
Proof. intros K. unfold wrapper_load. apply filter_known in K. rewrite K. auto. Qed.
Lemma load_half : wrapper_load [("a"%string, [1]); ("b"%string, [2])] [("a"%string, [5]); ("b"%string, [6; 7])] =
  ([("a"%string, [5]); ("b"%string, [2])], Err RuntimeError).
Proof. reflexivity. Qed.

(** ** Cases *)
Lemma two_points : standard_expectation (fun f => (f 1 + f (-1)) / 2).
Proof.
  split; [intros f g E; rewrite !E; auto|]. split; [intros; field|]. repeat split; field.
Qed.
Definition copy_enc (a : matrix) (c : option matrix) : res (matrix * matrix) := Ok (a, []).
Definition copy_dec (z : matrix) (c : option matrix) : res matrix := Ok z.
Lemma gen_scale :
  (forall z c a, copy_dec z c = Ok a -> copy_enc a c = Ok (z, [])) /\
  decoder_forward copy_dec (fun o => o) 3 [[1 / 2]] (Some [[0]]) = Ok [[1 / 2 * 3]] /\
  encoder_forward copy_enc (fun o => o) [[1 / 2 * 3]] (Some [[0]]) = Ok [[1 / 2 * 3]] /\
  [[1 / 2 * 3]] <> [[1 / 2]] /\ ~ (-1 < 1 / 2 * 3 < 1).
Proof.
  split; [intros z c a E; unfold copy_dec in E; injection E as ->; auto|]. split; auto. split; auto.
  split; [intros E; injection E; lra|lra].
Qed.

Lemma vae_case : vae_loss 1 1 [[1]] [[2]] [[1]] [[0]] = Ok (1 + 1 * (1 / 2), 1, 1 / 2).
Proof.
  assert (SX : shape 1 1 [[1]]) by (split; auto). assert (S2 : shape 1 1 [[2]]) by (split; auto). assert (S0 : shape 1 1 [[0]]) by (split; auto).
  destruct (@vae_loss_ok 1 1 1 1 [[1]] [[2]] [[1]] [[0]] ltac:(lia) ltac:(lia) SX S2 SX S0) as (r & k & E & ER & EK & _).
  rewrite E. unfold total, at_, entry in ER, EK. cbn in ER, EK. rewrite exp_0 in EK.
  assert (r = 1) as -> by (rewrite ER; field). assert (k = 1 / 2) as -> by (rewrite EK; field). auto.
Qed.
