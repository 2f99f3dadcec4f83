(** * HlgProofs *)
From Coq Require Import Reals Lra Lia.
From Verif Require Import Py PyLemmas NumModel NumProofs AlgoModel AlgoSpec AlgoProofs AlgoMore AlgoFind HlgModel HlgSpec.
Set Implicit Arguments.
Open Scope list_scope.
Open Scope R_scope.

Lemma map2_len A B C (f : A -> B -> C) l l' : List.length l = List.length l' -> List.length (map2 f l l') = List.length l.
Proof. revert l'. induction l as [|x t IH]; intros [|y t'] E; simpl in *; try discriminate; auto. Qed.
Lemma Forall2_length A B (P : A -> B -> Prop) l l' : Forall2 P l l' -> List.length l = List.length l'.
Proof. induction 1; simpl; congruence. Qed.
Lemma vsum_some l : vsum (map Some l) = Some (rsum l).
Proof. induction l as [|x t IH]; [reflexivity|]. cbn [map vsum fold_right]. fold (vsum (map Some t)). rewrite IH. reflexivity. Qed.
Lemma z_pos logits : logits <> [] -> 0 < rsum (map exp logits).
Proof.
  destruct logits as [|x t]; [congruence|]. intros _. cbn. pose proof (exp_pos x).
  assert (0 <= rsum (map exp t)).
  { apply rsum_nonneg. apply Forall_forall. intros y Hy. apply in_map_iff in Hy. destruct Hy as [z [<- _]].
    left. apply exp_pos. }
  unfold rsum in *. lra.
Qed.
Lemma softmax_pos logits : logits <> [] -> Forall (fun s => 0 < s) (softmax logits).
Proof.
  intros N. apply z_pos in N. unfold softmax. apply Forall_forall. intros y Hy. apply in_map_iff in Hy.
  destruct Hy as [x [<- _]]. apply Rdiv_lt_0_compat; auto. apply exp_pos.
Qed.
Lemma log_softmax_eq logits : logits <> [] -> log_softmax logits = map ln (softmax logits).
Proof.
  intros N. apply z_pos in N. unfold log_softmax, softmax. rewrite map_map. apply map_ext. intros x.
  unfold Rdiv. rewrite ln_mult; [|apply exp_pos|apply Rinv_0_lt_compat; auto]. rewrite ln_exp, ln_Rinv by auto. ring.
Qed.
Lemma softmax_len l : List.length (softmax l) = List.length l.
Proof. unfold softmax. apply map_length. Qed.

Lemma row_eq logits t : logits <> [] -> List.length t = List.length logits ->
  row_cross_entropy logits (map Some t) = Some (cross t (softmax logits)).
Proof.
  intros N E. unfold row_cross_entropy. rewrite log_softmax_eq by auto.
  assert (E' : List.length t = List.length (softmax logits)) by (rewrite softmax_len; auto).
  unfold cross. revert E'. generalize (softmax logits). clear. intros s E.
  assert (H : map2 vmul (map Some t) (map Some (map ln s)) = map Some (map (fun pq => fst pq * ln (snd pq)) (combine t s))).
  { revert s E. induction t as [|p t IH]; intros [|q s] E; try discriminate; [reflexivity|]. simpl. f_equal. apply IH. auto. }
  rewrite H, vsum_some. unfold vsub, vlift. f_equal. ring.
Qed.

(** ** Gibbs' inequality *)
Lemma ln_le x : 0 < x -> ln x <= x - 1.
Proof.
  intros P. destruct (Req_EM_T x 1) as [->|N]; [rewrite ln_1; lra|].
  assert (Q : ln x <> 0). { intros E. apply N. rewrite <- (exp_ln x P), E, exp_0. auto. }
  pose proof (exp_ineq1 (ln x)). rewrite exp_ln in H by auto. specialize (H Q). lra.
Qed.
Lemma ln_lt x : 0 < x -> x <> 1 -> ln x < x - 1.
Proof.
  intros P N. assert (Q : ln x <> 0). { intros E. apply N. rewrite <- (exp_ln x P), E, exp_0. auto. }
  pose proof (exp_ineq1 (ln x) Q). rewrite exp_ln in H by auto. lra.
Qed.
Lemma gibbs1 p q : 0 <= p -> 0 < q -> p - q <= p * ln p - p * ln q /\ (p <> q -> p - q < p * ln p - p * ln q).
Proof.
  intros P Q. destruct (Req_EM_T p 0) as [->|N]; [split; intros; lra|].
  assert (P' : 0 < p) by lra. assert (D : 0 < q / p) by (apply Rdiv_lt_0_compat; auto).
  assert (L : ln (q / p) = ln q - ln p).
  { unfold Rdiv. rewrite ln_mult, ln_Rinv; auto; try ring. apply Rinv_0_lt_compat. auto. }
  assert (E : p * (q / p - 1) = q - p) by (field; lra).
  assert (F : p * ln (q / p) = p * ln q - p * ln p) by (rewrite L; ring).
  split.
  - pose proof (ln_le D). pose proof (Rmult_le_compat_l p _ _ P H). lra.
  - intros D1. assert (q / p <> 1). { intros H. apply D1. rewrite H in E. lra. }
    pose proof (ln_lt D H). pose proof (Rmult_lt_compat_l p _ _ P' H0). lra.
Qed.
Lemma gibbs ps : forall qs, List.length ps = List.length qs -> Forall (fun p => 0 <= p) ps -> Forall (fun q => 0 < q) qs ->
  rsum ps - rsum qs <= cross ps qs - entropy ps
  /\ (ps <> qs -> rsum ps - rsum qs < cross ps qs - entropy ps).
Proof.
  induction ps as [|p ps IH]; intros [|q qs] E Fp Fq; try discriminate.
  - unfold cross, entropy, rsum. simpl. split; [lra|congruence].
  - inversion Fp; subst. inversion Fq; subst. destruct (IH qs) as [A B]; auto.
    destruct (gibbs1 H1 H3) as [C D].
    assert (X : cross (p :: ps) (q :: qs) - entropy (p :: ps) = (p * ln p - p * ln q) + (cross ps qs - entropy ps)).
    { unfold cross, entropy. cbn. unfold rsum. ring. }
    rewrite X. change (rsum (p :: ps)) with (p + rsum ps). change (rsum (q :: qs)) with (q + rsum qs).
    split; [lra|]. intros N. destruct (Req_EM_T p q) as [->|M].
    + assert (ps <> qs) by congruence. specialize (B H). lra.
    + specialize (D M). lra.
Qed.
Lemma gibbs_dist ps qs : List.length ps = List.length qs -> Forall (fun p => 0 <= p) ps -> Forall (fun q => 0 < q) qs ->
  rsum ps = 1 -> rsum qs = 1 -> entropy ps <= cross ps qs /\ (cross ps qs = entropy ps <-> qs = ps).
Proof.
  intros E Fp Fq S1 S2. destruct (gibbs E Fp Fq) as [A B]. split; [lra|]. split.
  - intros C. destruct (list_eq_dec Req_EM_T ps qs); auto. specialize (B n). lra.
  - intros ->. unfold cross, entropy. f_equal. f_equal. clear. induction ps; simpl; congruence.
Qed.

(** ** A batch *)
Definition good (bins : nat) (row t : list R) : Prop :=
  List.length row = bins /\ List.length t = bins /\ Forall (fun p => 0 <= p) t /\ rsum t = 1.
Lemma batch_gibbs bins logits ts : (0 < bins)%nat -> Forall2 (good bins) logits ts ->
  rsum (map entropy ts) <= rsum (map (fun rt => cross (snd rt) (softmax (fst rt))) (combine logits ts))
  /\ (rsum (map (fun rt => cross (snd rt) (softmax (fst rt))) (combine logits ts)) = rsum (map entropy ts)
      <-> Forall2 (fun row t => softmax row = t) logits ts).
Proof.
  intros B. induction 1 as [|row t rows ts (L1 & L2 & Nn & S1) F [A C]]; cbn [combine map].
  - split; [lra|]. split; auto.
  - change (rsum (entropy t :: map entropy ts)) with (entropy t + rsum (map entropy ts)).
    change (rsum (cross (snd (row, t)) (softmax (fst (row, t))) :: map (fun rt => cross (snd rt) (softmax (fst rt))) (combine rows ts)))
      with (cross t (softmax row) + rsum (map (fun rt => cross (snd rt) (softmax (fst rt))) (combine rows ts))).
    assert (N : row <> []). { intros ->. simpl in L1. lia. }
    assert (G : entropy t <= cross t (softmax row) /\ (cross t (softmax row) = entropy t <-> softmax row = t)).
    { apply gibbs_dist; auto; [rewrite softmax_len; lia|apply softmax_pos; auto|apply softmax_sum; auto]. }
    destruct G as [G1 G2]. split; [lra|]. split.
    + intros E. constructor; [apply G2; lra|apply C; lra].
    + intros E. inversion E as [|? ? ? ? X1 X2]. apply G2 in X1. apply C in X2. lra.
Qed.
Lemma batch_ce bins logits ts : (0 < bins)%nat -> Forall2 (good bins) logits ts -> logits <> [] ->
  cross_entropy logits (map (map Some) ts)
  = Some (mean (map (fun rt => cross (snd rt) (softmax (fst rt))) (combine logits ts))).
Proof.
  intros B F N. unfold cross_entropy.
  assert (E : map2 row_cross_entropy logits (map (map Some) ts)
    = map Some (map (fun rt => cross (snd rt) (softmax (fst rt))) (combine logits ts))).
  { clear N. induction F as [|row t rows ts (L1 & L2 & _) F IH]; [reflexivity|]. cbn [map combine map2 fst snd].
    rewrite IH, row_eq; auto; [|congruence]. intros ->. simpl in L1. lia. }
  rewrite E, vsum_some. unfold vdiv, mean. rewrite map_length, combine_length, <- (Forall2_length F), Nat.min_id.
  destruct (Req_EM_T (INR (List.length logits)) 0) as [Z0|_]; auto.
  destruct logits; [congruence|]. cbn [List.length] in Z0. rewrite S_INR in Z0. pose proof (pos_INR (List.length logits)). lra.
Qed.
Lemma targets_exist erf ratio min max bins qs : saturating erf -> min < max -> (0 < bins)%nat -> 0 < ratio ->
  exists ts, Forall2 (fun q t => qloss_target erf ratio min max bins q = map Some t) qs ts
  /\ map (transform_to_probs erf min max bins (hl_sigma ratio min max bins)) (map (clamp min max) qs) = map (map Some) ts
  /\ Forall (fun t => List.length t = bins /\ Forall (fun p => 0 <= p) t /\ rsum t = 1) ts.
Proof.
  intros Se L B Rp. induction qs as [|q qs (ts & F & E & G)].
  - exists []. repeat constructor.
  - destruct (qloss_distribution q Se L B Rp) as (t & Et & A). exists (t :: ts). split; [constructor; auto|].
    split; [|constructor; auto]. cbn [map]. rewrite E. f_equal. exact Et.
Qed.

Lemma qloss_minimum erf ratio min max bins logits q_target : saturating erf -> min < max -> (0 < bins)%nat -> 0 < ratio ->
  logits <> [] -> List.length q_target = List.length logits -> Forall (fun row => List.length row = bins) logits ->
  exists ts v,
    Forall2 (fun q t => qloss_target erf ratio min max bins q = map Some t) q_target ts
    /\ qloss_loss erf ratio min max bins bins logits q_target
       = Ok (Some (mean (map (q_from_logit min max bins) logits)), Some v)
    /\ v = mean (map (fun rt => cross (snd rt) (softmax (fst rt))) (combine logits ts))
    /\ mean (map entropy ts) <= v
    /\ (v = mean (map entropy ts) <-> Forall2 (fun row t => softmax row = t) logits ts).
Proof.
  intros Se L B Rp N E Fr. destruct (@targets_exist erf ratio min max bins q_target Se L B Rp) as (ts & F & Et & G).
  assert (Lt : List.length ts = List.length logits) by (rewrite <- E; symmetry; eapply Forall2_length; eauto).
  assert (Gd : Forall2 (good bins) logits ts).
  { clear - Lt G Fr. revert ts Lt G. induction Fr; intros [|t ts] Lt G; try discriminate; constructor.
    - inversion G; subst. split; auto.
    - inversion G; subst. apply IHFr; auto. }
  exists ts. eexists. split; [exact F|]. split.
  { unfold qloss_loss, batch_q. rewrite Nat.eqb_refl. cbn [rbind]. unfold hl_forward.
    assert (El : List.length (map (clamp min max) q_target) = List.length logits) by (rewrite map_length; auto).
    rewrite El, !Nat.eqb_refl.
    cbn [andb rmap]. rewrite Et, (batch_ce B Gd N). f_equal. f_equal.
    rewrite <- (map_map (q_from_logit min max bins) Some), vsum_some, !map_length. unfold mean, vdiv. rewrite map_length.
    destruct (Req_EM_T (INR (List.length logits)) 0) as [Z0|_]; auto.
    destruct logits; [congruence|]. cbn [List.length] in Z0. rewrite S_INR in Z0. pose proof (pos_INR (List.length logits)). lra. }
  split; [reflexivity|].
  assert (Pl : 0 < / INR (List.length logits)).
  { apply Rinv_0_lt_compat. apply lt_0_INR. destruct logits; [congruence|simpl; lia]. }
  destruct (batch_gibbs B Gd) as [A C]. unfold mean, Rdiv. rewrite !map_length, combine_length, Lt, Nat.min_id.
  split.
  - apply Rmult_le_compat_r; [lra|]. exact A.
  - split.
    + intros H. apply C. apply Rmult_eq_reg_r in H; auto. lra.
    + intros H. apply C in H. rewrite H. auto.
Qed.

(** ** Reaching the minimum *)
Lemma softmax_ln t : t <> [] -> Forall (fun p => 0 < p) t -> rsum t = 1 -> softmax (map ln t) = t.
Proof.
  intros N F S1. unfold softmax. rewrite !map_map.
  assert (E : map (fun x => exp (ln x)) t = t).
  { clear - F. induction F; simpl; [auto|]. rewrite IHF, exp_ln; auto. }
  rewrite E, S1. rewrite <- E at 2. apply map_ext. intros x. unfold Rdiv. rewrite Rinv_1. ring.
Qed.
Lemma best_exists erf ratio min max bins q : strictly_increasing erf -> min < max -> (0 < bins)%nat -> 0 < ratio ->
  exists row, best_for erf ratio min max bins q row.
Proof.
  intros Se L B Rp. unfold best_for, qloss_target.
  pose proof (hl_sigma_pos L B Rp) as Sp. rewrite transform_eq. cbv zeta.
  set (sg := hl_sigma ratio min max bins) in *. set (tg := clamp min max q).
  set (g := fun i => erf ((tick min max bins i - tg) / (sqrt 2 * sg))).
  change (exists row, List.length row = bins /\ map Some (softmax row) =
    map (fun i => vdiv (Some (g (Datatypes.S i) - g i)) (Some (g bins - g 0%nat))) (seq 0 bins)).
  assert (S2 : 0 < sqrt 2 * sg) by (apply Rmult_lt_0_compat; auto; apply sqrt_lt_R0; lra).
  assert (Inc : forall i, g i < g (Datatypes.S i)).
  { intros i. apply Se. unfold Rdiv. apply Rmult_lt_compat_r; [apply Rinv_0_lt_compat; auto|].
    pose proof (@tick_incr min max bins i L B). lra. }
  assert (Pos : 0 < g bins - g 0%nat).
  { clearbody g. clear - Inc B. induction bins as [|n IH]; [lia|]. destruct n as [|n].
    - pose proof (Inc 0%nat). lra.
    - assert (0 < g (Datatypes.S n) - g 0%nat) by (apply IH; lia). pose proof (Inc (Datatypes.S n)). lra. }
  set (t := map (fun i => (g (Datatypes.S i) - g i) / (g bins - g 0%nat)) (seq 0 bins)).
  exists (map ln t). split; [unfold t; rewrite !map_length, seq_length; auto|].
  rewrite softmax_ln.
  - unfold t. rewrite map_map. apply map_ext. intros i. unfold vdiv.
    destruct (Req_EM_T (g bins - g 0%nat) 0); [lra|reflexivity].
  - unfold t. destruct bins; [lia|]. discriminate.
  - apply Forall_forall. intros p Ip. apply in_map_iff in Ip. destruct Ip as [i [<- _]].
    pose proof (Inc i). apply Rdiv_lt_0_compat; lra.
  - unfold t. rewrite <- (map_map (fun i => g (Datatypes.S i) - g i) (fun p => p / (g bins - g 0%nat))).
    rewrite rsum_div, telescope. unfold Rdiv. apply Rinv_r. lra.
Qed.

(** ** Shifted logits *)
Lemma softmax_shift c row : softmax (map (Rplus c) row) = softmax row.
Proof.
  destruct row as [|x t]; [reflexivity|]. pose proof (@z_pos (x :: t)) as Z0. specialize (Z0 ltac:(discriminate)).
  revert Z0. generalize (x :: t). clear. intros row Z0. unfold softmax. rewrite !map_map.
  assert (E : rsum (map (fun x => exp (c + x)) row) = exp c * rsum (map exp row)).
  { rewrite <- (rsum_map_mult exp). f_equal. apply map_ext. intros a. apply exp_plus. }
  rewrite E. apply map_ext. intros a. rewrite exp_plus. pose proof (exp_pos c). field. lra.
Qed.
Lemma log_softmax_shift c row : log_softmax (map (Rplus c) row) = log_softmax row.
Proof.
  destruct row as [|x t]; [reflexivity|]. rewrite !log_softmax_eq, softmax_shift by discriminate. auto.
Qed.
Lemma qloss_shift erf ratio min max bins width cs logits q_target : List.length cs = List.length logits ->
  qloss_loss erf ratio min max bins width (map2 (fun c row => map (Rplus c) row) cs logits) q_target
  = qloss_loss erf ratio min max bins width logits q_target.
Proof.
  intros E. unfold qloss_loss.
  set (sh := map2 (fun c row => map (Rplus c) row) cs logits).
  assert (Ls : List.length sh = List.length logits) by (unfold sh; rewrite map2_len; auto).
  assert (Q : batch_q min max bins width sh = batch_q min max bins width logits).
  { unfold batch_q. rewrite Ls. destruct (Nat.eqb width bins); auto. f_equal. unfold sh. clear - E.
    revert logits E. induction cs as [|c cs IH]; intros [|row rows] E; try discriminate; [reflexivity|]. cbn [map2 map].
    rewrite IH by auto. f_equal. f_equal. unfold q_from_logit. rewrite softmax_shift. auto. }
  rewrite Q. assert (H : forall ts, cross_entropy sh ts = cross_entropy logits ts).
  { intros ts. unfold cross_entropy. rewrite Ls. f_equal. f_equal. unfold sh. clear - E.
    revert logits ts E. induction cs as [|c cs IH]; intros [|row rows] ts E; try discriminate; [reflexivity|]. cbn [map2].
    destruct ts as [|t ts]; auto. rewrite IH by auto. f_equal. unfold row_cross_entropy. rewrite log_softmax_shift. auto. }
  unfold hl_forward. rewrite Ls, H. auto.
Qed.

Lemma qloss_shapes erf ratio min max bins width logits q_target :
  width <> bins \/ List.length q_target <> List.length logits ->
  exists e, qloss_loss erf ratio min max bins width logits q_target = Err e
  /\ (e = AssertionError \/ e = RuntimeError).
Proof.
  intros H. unfold qloss_loss, batch_q, hl_forward. rewrite map_length.
  destruct (Nat.eqb_spec width bins) as [->|N].
  - destruct H as [H|H]; [congruence|]. cbn [rbind]. destruct (Nat.eqb_spec (List.length logits) (List.length q_target)); [congruence|].
    cbn. eauto.
  - destruct (Nat.eqb width 1 || Nat.eqb bins 1)%bool; cbn [rbind rmap]; [|eauto]. rewrite Bool.andb_false_r. cbn. eauto.
Qed.

(** ** The prediction *)
Lemma tick_center min max bins i : min <= max -> (i < bins)%nat ->
  let c := (tick min max bins i + tick min max bins (Datatypes.S i)) / 2 in
  min + bin_width min max bins / 2 <= c <= max - bin_width min max bins / 2.
Proof.
  intros L I c. unfold c, tick, bin_width. rewrite S_INR.
  assert (P : 0 < INR bins) by (apply lt_0_INR; lia).
  assert (W : 0 <= (max - min) / INR bins). { unfold Rdiv. apply Rmult_le_pos; [lra|]. left. apply Rinv_0_lt_compat; auto. }
  set (w := (max - min) / INR bins) in *.
  assert (E : max = min + INR bins * w) by (unfold w; field; lra).
  assert (I1 : INR i + 1 <= INR bins) by (rewrite <- S_INR; apply le_INR; lia).
  pose proof (pos_INR i). pose proof (Rmult_le_compat_r w _ _ W I1). pose proof (Rmult_le_pos _ _ H W).
  split; [lra|]. rewrite E. lra.
Qed.
Lemma q_range min max bins logits : min <= max -> (0 < bins)%nat -> List.length logits = bins ->
  min + bin_width min max bins / 2 <= q_from_logit min max bins logits <= max - bin_width min max bins / 2.
Proof.
  intros L B E. unfold q_from_logit. destruct (@softmax_sum logits) as [S1 P].
  { intros ->. simpl in E. lia. }
  pose proof (@weighted_bounds (softmax logits) (centers (support min max bins)) (min + bin_width min max bins / 2) (max - bin_width min max bins / 2)) as W.
  rewrite S1 in W. rewrite !Rmult_1_l in W. apply W; auto.
  - unfold softmax. rewrite map_length, centers_eq, map_length, seq_length. auto.
  - rewrite centers_eq. apply Forall_forall. intros c Hc. apply in_map_iff in Hc. destruct Hc as [i [<- Hi]].
    apply in_seq in Hi. apply (@tick_center min max bins i); auto. lia.
Qed.
Lemma qnet_column min max bins logits : (0 < bins)%nat -> min <= max -> Forall (fun row => List.length row = bins) logits ->
  exists qs, qnet_forward min max bins bins logits = Ok (map (fun q => [Some q]) qs)
  /\ List.length qs = List.length logits
  /\ Forall (fun q => min + bin_width min max bins / 2 <= q <= max - bin_width min max bins / 2) qs.
Proof.
  intros B L F. exists (map (q_from_logit min max bins) logits). unfold qnet_forward, batch_q. rewrite Nat.eqb_refl. cbn [rmap].
  rewrite !map_map, map_length. split; auto. split; auto.
  apply Forall_forall. intros q Iq. apply in_map_iff in Iq. destruct Iq as [row [<- Ir]].
  apply q_range; auto. rewrite Forall_forall in F. auto.
Qed.
Lemma edge_bias min max bins logits q : min < max -> (0 < bins)%nat -> List.length logits = bins -> q <= min ->
  q_from_logit min max bins logits - clamp min max q >= bin_width min max bins / 2
  /\ 0 < bin_width min max bins / 2.
Proof.
  intros L B E Q. pose proof (@q_range min max bins logits) as H. destruct H as [H _]; auto; [lra|].
  assert (C : clamp min max q = min). { unfold clamp, Rmin, Rmax. destruct (Rle_dec q min); [|lra]. destruct (Rle_dec min max); lra. }
  rewrite C. assert (0 < bin_width min max bins) by (apply Rdiv_lt_0_compat; [lra|apply lt_0_INR; auto]). lra.
Qed.

(** ** The middle *)
Lemma rsum_rev_seq (f : nat -> R) n : rsum (map f (seq 0 n)) = rsum (map (fun i => f (n - 1 - i)%nat) (seq 0 n)).
Proof.
  transitivity (rsum (rev (map f (seq 0 n)))).
  - generalize (map f (seq 0 n)). intros l. induction l as [|x t IH]; [reflexivity|]. cbn [rev]. rewrite rsum_app, <- IH. cbn. unfold rsum. lra.
  - f_equal. rewrite <- map_rev.
    assert (E : rev (seq 0 n) = map (fun i => (n - 1 - i)%nat) (seq 0 n)).
    { apply (nth_ext _ _ 0%nat 0%nat); [rewrite rev_length, map_length; auto|]. intros k Hk. rewrite rev_length, seq_length in Hk.
      rewrite rev_nth by (rewrite seq_length; auto). rewrite seq_length, seq_nth by lia.
      rewrite (nth_indep _ 0%nat (n - 1 - 0)%nat) by (rewrite map_length, seq_length; auto).
      rewrite (map_nth (fun i => (n - 1 - i)%nat)), seq_nth by lia. lia. }
    rewrite E, map_map. auto.
Qed.
Lemma map2_softmax (p c : nat -> R) n : map2 Rmult (map p (seq 0 n)) (map c (seq 0 n)) = map (fun i => p i * c i) (seq 0 n).
Proof. apply map2_map. Qed.
Lemma map_some_inj (a b : list R) : map Some a = map Some b -> a = b.
Proof. revert b. induction a as [|x a IH]; intros [|y b] E; try discriminate; auto. injection E as -> E. f_equal. auto. Qed.
Lemma middle erf ratio min max bins row : saturating erf -> odd erf -> min < max -> (0 < bins)%nat -> 0 < ratio ->
  best_for erf ratio min max bins ((min + max) / 2) row ->
  q_from_logit min max bins row = (min + max) / 2.
Proof.
  intros Se Od L B Rp [Lr Be].
  destruct (qloss_distribution ((min + max) / 2) Se L B Rp) as (t & Et & _ & _ & S1).
  unfold qloss_target in Be, Et. rewrite transform_eq in Be, Et. cbv zeta in Be, Et.
  assert (Cm : clamp min max ((min + max) / 2) = (min + max) / 2).
  { unfold clamp, Rmin, Rmax. destruct (Rle_dec ((min + max) / 2) min); [lra|]. destruct (Rle_dec ((min + max) / 2) max); lra. }
  rewrite Cm in Be, Et. set (m := (min + max) / 2) in *. set (sg := hl_sigma ratio min max bins) in *.
  set (g := fun i => erf ((tick min max bins i - m) / (sqrt 2 * sg))).
  change (map Some (softmax row) = map (fun i => vdiv (Some (g (Datatypes.S i) - g i)) (Some (g bins - g 0%nat))) (seq 0 bins)) in Be.
  change (map (fun i => vdiv (Some (g (Datatypes.S i) - g i)) (Some (g bins - g 0%nat))) (seq 0 bins) = map Some t) in Et.
  rewrite Et in Be. apply map_some_inj in Be.
  assert (D0 : g bins - g 0%nat <> 0).
  { intros D0. destruct bins as [|n]; [lia|]. cbn [seq map] in Et. rewrite D0 in Et. unfold vdiv in Et at 1.
    destruct (Req_EM_T 0 0); [|lra]. destruct t; discriminate. }
  set (z := g bins - g 0%nat) in *. set (p := fun i => (g (Datatypes.S i) - g i) / z).
  assert (Ht : t = map p (seq 0 bins)).
  { apply map_some_inj. rewrite <- Et, map_map. apply map_ext. intros i. unfold vdiv, p. destruct (Req_EM_T z 0); [contradiction|auto]. }
  assert (Pb : 0 < INR bins) by (apply lt_0_INR; lia).
  assert (Tk : forall i, (i <= bins)%nat -> tick min max bins (bins - i) = min + max - tick min max bins i).
  { intros i Hi. unfold tick. rewrite minus_INR by auto. field. lra. }
  assert (G : forall i, (i <= bins)%nat -> g (bins - i)%nat = - g i).
  { intros i Hi. unfold g. rewrite Tk by auto. rewrite <- Od. f_equal.
    replace (min + max) with (2 * m) by (unfold m; field). unfold Rdiv. ring. }
  set (c := fun i => (tick min max bins i + tick min max bins (Datatypes.S i)) / 2).
  assert (Ps : forall i, (i < bins)%nat -> p (bins - 1 - i)%nat = p i).
  { intros i Hi. unfold p. replace (Datatypes.S (bins - 1 - i)) with (bins - i)%nat by lia.
    replace (bins - 1 - i)%nat with (bins - Datatypes.S i)%nat by lia. rewrite !G by lia. f_equal. ring. }
  assert (Cs : forall i, (i < bins)%nat -> c (bins - 1 - i)%nat = min + max - c i).
  { intros i Hi. unfold c. replace (Datatypes.S (bins - 1 - i)) with (bins - i)%nat by lia.
    replace (bins - 1 - i)%nat with (bins - Datatypes.S i)%nat by lia. rewrite !Tk by lia. field. }
  unfold q_from_logit. rewrite Be, Ht, centers_eq. fold c. rewrite map2_softmax.
  set (q := rsum (map (fun i => p i * c i) (seq 0 bins))).
  assert (Q : q = (min + max) * rsum (map p (seq 0 bins)) - q).
  { unfold q at 1. rewrite rsum_rev_seq.
    transitivity (rsum (map (fun i => (min + max) * p i + (-1) * (p i * c i)) (seq 0 bins))).
    - f_equal. apply map_ext_in. intros i Hi. apply in_seq in Hi. rewrite Ps, Cs by lia. ring.
    - rewrite rsum_map_plus, !rsum_map_mult. unfold q. ring. }
  rewrite <- Ht, S1 in Q. unfold m. lra.
Qed.

Lemma clip_saturating_odd : saturating (fun x => Rmax (-1) (Rmin 1 x)) /\ odd (fun x => Rmax (-1) (Rmin 1 x)).
Proof.
  split; [apply clip_saturating|]. intros x. unfold Rmax, Rmin.
  destruct (Rle_dec 1 (-x)), (Rle_dec 1 x); repeat match goal with |- context [Rle_dec ?a ?b] => destruct (Rle_dec a b) end; lra.
Qed.
Lemma atan_odd : strictly_increasing atan /\ saturating atan /\ odd atan.
Proof.
  split; [exact atan_increasing|]. split; [|intros x; apply atan_opp].
  split; [|split]; intros.
  - destruct (Rle_lt_or_eq_dec _ _ H); [left; apply atan_increasing; auto|subst; lra].
  - apply atan_increasing. auto.
  - apply atan_increasing. auto.
Qed.
