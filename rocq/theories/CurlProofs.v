(** * CurlProofs *)
From Coq Require Import Reals Lra Lia.
From Verif Require Import Py NumModel NumProofs NumMatrix PolModel PolProofs PolMain PolSpec GenSpec GenProofs CurlModel CurlSpec.
Set Implicit Arguments.
Unset Strict Implicit.
Open Scope list_scope.
Open Scope R_scope.

Lemma shape_seq b n (f : nat -> nat -> R) : shape b n (map (fun i => map (f i) (seq 0 n)) (seq 0 b)).
Proof.
  split; [now rewrite map_length, seq_length|]. apply Forall_forall. intros r I. apply in_map_iff in I. destruct I as [i [<- _]].
  now rewrite map_length, seq_length.
Qed.
Lemma at_seq b n (f : nat -> nat -> R) i j : (i < b)%nat -> (j < n)%nat -> at_ (map (fun i => map (f i) (seq 0 n)) (seq 0 b)) i j = f i j.
Proof. intros I J. unfold at_, entry. rewrite nth_map_seq by exact I. now rewrite nth_map_seq. Qed.
Lemma map_seq_ext {B} (f g : nat -> B) n : (forall i, (i < n)%nat -> f i = g i) -> map f (seq 0 n) = map g (seq 0 n).
Proof. intros H. apply map_ext_in. intros i I. apply in_seq in I. apply H. lia. Qed.
Lemma dot_sum a b n : List.length a = n -> List.length b = n -> dot a b = rsum (map (fun k => entry a k * entry b k) (seq 0 n)).
Proof. intros A B. rewrite dot_nth by congruence. now rewrite A. Qed.
Lemma matmul_at b n c A B : (0 < n)%nat -> shape b n A -> shape n c B ->
  matmul A B = Ok (map (fun i => map (fun j => rsum (map (fun k => at_ A i k * at_ B k j) (seq 0 n))) (seq 0 c)) (seq 0 b)).
Proof.
  intros n0 SA SB. unfold matmul. pose proof (shape_width SB n0) as WB.
  destruct SA as [LA FA], SB as [LB FB].
  replace (forallb _ A) with true.
  - f_equal. rewrite WB.
    transitivity (map (fun i => map (fun j => dot (nth i A []) (column_of j B)) (seq 0 c)) (seq 0 b)).
    + rewrite <- LA. clear. change (list (list R)) with matrix in *.
      transitivity (map (fun row => map (fun j => dot row (column_of j B)) (seq 0 c)) (map (fun i => nth i A []) (seq 0 (List.length A)))).
      * f_equal. clear. induction A as [|x A IH]; simpl; auto. f_equal. rewrite <- seq_shift, map_map. exact IH.
      * now rewrite map_map.
    + apply map_seq_ext. intros i I. apply map_seq_ext. intros j J. rewrite (@dot_sum _ _ n).
      * apply f_equal. apply map_seq_ext. intros k K. unfold at_. f_equal. unfold entry at 1, column_of.
        rewrite (@map_nth_lt _ _ _ _ _ []) by lia. reflexivity.
      * rewrite Forall_forall in FA. apply FA, nth_In. lia.
      * unfold column_of. now rewrite map_length.
  - symmetry. apply forallb_forall. intros row I. rewrite Forall_forall in FA. apply Nat.eqb_eq. rewrite (FA _ I). congruence.
Qed.
Lemma transpose_at b n m : (0 < b)%nat -> shape b n m -> transpose m = map (fun j => map (fun i => at_ m i j) (seq 0 b)) (seq 0 n).
Proof.
  intros b0 S. unfold transpose. rewrite (shape_width S b0). apply map_seq_ext. intros j J. unfold column_of, at_, entry.
  destruct S as [L _]. rewrite <- L. clear. induction m as [|r m IH]; simpl; auto. f_equal. rewrite <- seq_shift, map_map. exact IH.
Qed.
Lemma rsum_seq_swap f a b : rsum (map (fun i => rsum (map (f i) (seq 0 b))) (seq 0 a)) = rsum (map (fun j => rsum (map (fun i => f i j) (seq 0 a))) (seq 0 b)).
Proof.
  generalize (seq 0 a). intros la. induction la as [|x la IH]; simpl.
  - now rewrite rsum_zero.
  - rewrite IH. now rewrite <- rsum_map_plus.
Qed.
Lemma rsum_scal {A} (f : A -> R) c l : rsum (map (fun x => c * f x) l) = c * rsum (map f l).
Proof. apply rsum_map_mult. Qed.

(** ** The logits *)
Section Loss.
Variables (b n : nat) (W z_a z_pos : matrix).
Hypotheses (b0 : (0 < b)%nat) (n0 : (0 < n)%nat) (SW : shape n n W) (SA : shape b n z_a) (SP : shape b n z_pos).
Lemma logits_at : rbind (matmul W (transpose z_pos)) (fun Wz => matmul z_a Wz) =
  Ok (map (fun i => map (similarity n W z_a z_pos i) (seq 0 b)) (seq 0 b)).
Proof.
  rewrite (transpose_at b0 SP). rewrite (matmul_at n0 SW (shape_seq n b _)). cbn [rbind].
  rewrite (matmul_at n0 SA (shape_seq n b _)). f_equal. apply map_seq_ext. intros i I. apply map_seq_ext. intros j J.
  unfold similarity. apply f_equal. apply map_seq_ext. intros k K. rewrite at_seq by assumption.
  rewrite <- rsum_map_mult. apply f_equal. apply map_seq_ext. intros l L. rewrite at_seq by assumption. ring.
Qed.
End Loss.

Lemma rsum_delta (g : nat -> R) n i : (i < n)%nat -> rsum (map (fun j => (if Nat.eqb i j then 1 else 0) * g j) (seq 0 n)) = g i.
Proof.
  induction n as [|n IH]; intros I; [lia|]. rewrite seq_S, map_app, rsum_app. simpl.
  destruct (Nat.eqb i n) eqn:E.
  - apply Nat.eqb_eq in E. subst n. rewrite (@rsum_ext _ (fun _ => 0)); [rewrite rsum_zero; ring|].
    intros k K. rewrite (proj2 (Nat.eqb_neq i k)) by lia. ring.
  - apply Nat.eqb_neq in E. rewrite IH by lia. ring.
Qed.
Lemma rsum_exp_pos (f : nat -> R) n : (0 < n)%nat -> 0 < rsum (map (fun j => exp (f j)) (seq 0 n)).
Proof.
  destruct n as [|n]; [lia|]. intros _. rewrite seq_S, map_app, rsum_app. simpl. pose proof (exp_pos (f n)).
  destruct (rsum_nonneg (f := fun j => exp (f j)) (l := seq 0 n)) as [P _]; [intros x _; pose proof (exp_pos (f x)); lra|]. lra.
Qed.
Lemma cross_entropy b (s : nat -> nat -> R) : (0 < b)%nat ->
  np_mean (map (fun yl => rsum (map (fun ab => - fst ab * snd ab) (combine (fst yl) (log_softmax (snd yl)))))
     (combine (one_hot_arange b) (map (fun i => map (s i) (seq 0 b)) (seq 0 b)))) = contrastive b s.
Proof.
  intros b0. unfold one_hot_arange. rewrite combine_seq, map_map. unfold np_mean. rewrite map_length, seq_length. unfold contrastive.
  f_equal. apply f_equal. apply map_seq_ext. intros i I. cbn [fst snd]. unfold log_softmax. rewrite !map_map, combine_seq, map_map. cbn [fst snd].
  transitivity (rsum (map (fun j => (if Nat.eqb i j then 1 else 0) * - (s i j - ln (rsum (map (fun x => exp (s i x)) (seq 0 b))))) (seq 0 b))).
  - apply f_equal. apply map_seq_ext. intros j J. destruct (Nat.eqb i j); ring.
  - rewrite (rsum_delta (fun j => - (s i j - ln (rsum (map (fun x => exp (s i x)) (seq 0 b))))) I).
    rewrite ln_div; [|apply exp_pos|now apply rsum_exp_pos]. rewrite ln_exp. reflexivity.
Qed.

Section Curl.
Variables (c : curl) (image1 image2 : list matrix) (b n : nat) (z_a z_pos : matrix).
Hypotheses (b0 : (0 < b)%nat) (n0 : (0 < n)%nat) (LI : List.length image1 = b)
  (EA : cu_encoder c image1 = Ok z_a) (EP : cu_target c image2 = Ok z_pos)
  (SW : shape n n (cu_W c)) (SA : shape b n z_a) (SP : shape b n z_pos).
Notation sim := (similarity n (cu_W c) z_a z_pos).
Lemma curl_temperature t : cu_temperature c = Some t -> curl_loss c image1 image2 = Ok (contrastive b (fun i j => sim i j / t)).
Proof.
  intros T. unfold curl_loss. rewrite EA, EP. cbn [rbind]. pose proof (logits_at b0 n0 SW SA SP) as L.
  destruct (matmul (cu_W c) (transpose z_pos)) as [Wz|e]; [|discriminate L]. cbn [rbind] in L |- *. rewrite L. cbn [rbind]. rewrite T.
  f_equal. rewrite LI, map_map. rewrite <- (cross_entropy (fun i j => sim i j / t) b0). apply f_equal. apply f_equal. apply f_equal.
  apply map_seq_ext. intros i I. now rewrite map_map.
Qed.
Definition rmax_of (i : nat) : R := row_max (map (sim i) (seq 0 b)).
Lemma curl_stable : cu_temperature c = None -> curl_loss c image1 image2 = Ok (contrastive b (fun i j => sim i j - rmax_of j)).
Proof.
  intros T. unfold curl_loss. rewrite EA, EP. cbn [rbind]. pose proof (logits_at b0 n0 SW SA SP) as L.
  destruct (matmul (cu_W c) (transpose z_pos)) as [Wz|e]; [|discriminate L]. cbn [rbind] in L |- *. rewrite L. cbn [rbind]. rewrite T.
  f_equal. rewrite LI. rewrite <- (cross_entropy (fun i j => sim i j - rmax_of j) b0). apply f_equal. apply f_equal. apply f_equal.
  unfold minus_vector. rewrite !map_map. apply map_seq_ext. intros i I. rewrite combine_seq, map_map. cbn [fst snd]. reflexivity.
Qed.
End Curl.

Lemma fold_max r : forall x, (In (fold_left Rmax r x) (x :: r)) /\ forall y, In y (x :: r) -> y <= fold_left Rmax r x.
Proof.
  induction r as [|z r IH]; intros x; simpl.
  - split; auto. intros y [-> |[]]. lra.
  - destruct (IH (Rmax x z)) as [I M]. split.
    + destruct I as [<- |I]; auto. unfold Rmax. destruct (Rle_dec x z); auto.
    + pose proof (M (Rmax x z) (or_introl eq_refl)) as M0. pose proof (Rmax_l x z). pose proof (Rmax_r x z).
      intros y [-> |[-> |Iy]]; [lra|lra|]. apply M. now right.
Qed.
Lemma row_max_greatest (f : nat -> R) b : (0 < b)%nat -> greatest b f (row_max (map f (seq 0 b))).
Proof.
  intros b0. destruct b as [|b]; [lia|]. cbn [seq map row_max]. destruct (fold_max (map f (seq 1 b)) (f 0%nat)) as [I M].
  change (f 0%nat :: map f (seq 1 b)) with (map f (seq 0 (S b))) in I, M.
  split.
  - apply in_map_iff in I. destruct I as [j [E J]]. apply in_seq in J. exists j. split; [lia|auto].
  - intros j J. apply M. apply in_map. apply in_seq. lia.
Qed.
Lemma greatest_unique n f x y : greatest n f x -> greatest n f y -> x = y.
Proof. intros [[i [I <-]] A] [[j [J <-]] B]. pose proof (A _ J). pose proof (B _ I). lra. Qed.

(** ** What a contrastive loss does *)
Lemma contrastive_row b s i : (i < b)%nat -> 0 <= - ln (exp (s i i) / rsum (map (fun j => exp (s i j)) (seq 0 b)))
  /\ ((2 <= b)%nat -> 0 < - ln (exp (s i i) / rsum (map (fun j => exp (s i j)) (seq 0 b)))).
Proof.
  intros I. assert (P : 0 < rsum (map (fun j => exp (s i j)) (seq 0 b))) by (apply rsum_exp_pos; lia).
  assert (D : rsum (map (fun j => exp (s i j)) (seq 0 b)) = exp (s i i) + rsum (map (fun j => (if Nat.eqb i j then 0 else 1) * exp (s i j)) (seq 0 b))).
  { rewrite <- (rsum_delta (fun j => exp (s i j)) I) at 1. rewrite <- rsum_map_plus. apply f_equal. apply map_seq_ext. intros j J. destruct (Nat.eqb i j); ring. }
  destruct (rsum_nonneg (f := fun j => (if Nat.eqb i j then 0 else 1) * exp (s i j)) (l := seq 0 b)) as [Q Z].
  { intros x _. pose proof (exp_pos (s i x)). destruct (Nat.eqb i x); lra. }
  pose proof (exp_pos (s i i)) as EX. rewrite ln_div by auto.
  split.
  - assert (ln (exp (s i i)) <= ln (rsum (map (fun j => exp (s i j)) (seq 0 b)))); [|lra].
    destruct (Rle_lt_or_eq_dec 0 _ Q) as [L|E].
    + left. apply ln_increasing; lra.
    + rewrite D, <- E, Rplus_0_r. lra.
  - intros b2. assert (ln (exp (s i i)) < ln (rsum (map (fun j => exp (s i j)) (seq 0 b)))); [|lra].
    apply ln_increasing; auto. rewrite D. destruct (Rle_lt_or_eq_dec 0 _ Q) as [L|E]; [lra|]. exfalso.
    destruct Z as [Z _]. symmetry in E. specialize (Z E (if Nat.eqb i 0 then 1 else 0)%nat).
    assert (In (if Nat.eqb i 0 then 1 else 0)%nat (seq 0 b)) as Iin by (apply in_seq; destruct (Nat.eqb i 0); lia).
    specialize (Z Iin). pose proof (exp_pos (s i (if Nat.eqb i 0 then 1 else 0)%nat)).
    destruct (Nat.eqb i 0) eqn:E0.
    + apply Nat.eqb_eq in E0. subst i. cbn in Z, H. lra.
    + rewrite E0 in Z. lra.
Qed.
Lemma contrastive_bounds b s : (0 < b)%nat -> 0 <= contrastive b s /\ (contrastive b s = 0 <-> b = 1%nat).
Proof.
  intros b0. unfold contrastive. assert (B : 0 < INR b) by (now apply lt_0_INR).
  destruct (rsum_nonneg (f := fun i => - ln (exp (s i i) / rsum (map (fun j => exp (s i j)) (seq 0 b)))) (l := seq 0 b)) as [P Z].
  { intros i I. apply in_seq in I. apply contrastive_row. lia. }
  split; [apply Rmult_le_pos; [exact P|left; now apply Rinv_0_lt_compat]|].
  split.
  - intros E. destruct (Nat.eq_dec b 1) as [|n1]; auto. exfalso. assert (b2 : (2 <= b)%nat) by lia.
    apply Rmult_integral in E. destruct E as [E|E]; [|pose proof (Rinv_0_lt_compat _ B); lra].
    destruct Z as [Z _]. specialize (Z E 0%nat ltac:(apply in_seq; lia)). destruct (contrastive_row s b0) as [_ H]. specialize (H b2). lra.
  - intros ->. simpl. replace (exp (s 0%nat 0%nat) / (exp (s 0%nat 0%nat) + 0)) with 1; [rewrite ln_1; lra|].
    field. pose proof (exp_pos (s 0%nat 0%nat)). lra.
Qed.
(** Subtracting something per anchor changes nothing. *)
Lemma contrastive_shift b s m : (0 < b)%nat -> contrastive b (fun i j => s i j - m i) = contrastive b s.
Proof.
  intros b0. unfold contrastive. f_equal. apply f_equal. apply map_seq_ext. intros i I.
  assert (E : forall j, exp (s i j - m i) = exp (- m i) * exp (s i j)) by (intros j; rewrite <- exp_plus; f_equal; ring).
  rewrite E. rewrite (@rsum_ext (fun j => exp (s i j - m i)) (fun j => exp (- m i) * exp (s i j))) by (intros; apply E).
  rewrite rsum_map_mult. pose proof (exp_pos (- m i)). pose proof (rsum_exp_pos (s i) b0). f_equal. f_equal. field. lra.
Qed.
Lemma contrastive_ext b s s' : (forall i j, (i < b)%nat -> (j < b)%nat -> s i j = s' i j) -> contrastive b s = contrastive b s'.
Proof.
  intros H. unfold contrastive. f_equal. apply f_equal. apply map_seq_ext. intros i I. rewrite H by assumption.
  f_equal. f_equal. f_equal. apply f_equal. apply map_seq_ext. intros j J. now rewrite H.
Qed.
