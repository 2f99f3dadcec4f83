(** * AmpMore: the discriminator's loss and the symmetry reward *)
From Coq Require Import Reals Lra Lia.
From Verif Require Import Py PyLemmas NumModel NumProofs NumMatrix NumTarget AmpModel AmpSpec AmpProofs.
Open Scope list_scope.
Open Scope R_scope.
Set Implicit Arguments.
Unset Strict Implicit.

Lemma concat_col {A} (f : A -> R) l : concat (map (fun x => [f x]) l) = map f l.
Proof. induction l; cbn; congruence. Qed.
Lemma mean_col {A} (f : A -> R) (l : list A) : mean_all (map (fun x => [f x]) l) = avg (map f l).
Proof. unfold mean_all, np_mean, avg. rewrite concat_col. auto. Qed.
Lemma gradient_avg g : gradient_loss g = avg (map length2 g).
Proof.
  unfold gradient_loss, np_mean, avg, length2. f_equal; [|rewrite !map_length; auto].
  f_equal. apply map_ext. intros r. f_equal. apply map_ext. intros x. unfold sq. ring.
Qed.
Lemma rsum_ge0 l : (forall x, In x l -> 0 <= x) -> 0 <= rsum l.
Proof.
  induction l; cbn; intros H; [lra|]. fold (rsum l).
  pose proof (H a (or_introl eq_refl)). assert (0 <= rsum l) by (apply IHl; auto). lra.
Qed.
Lemma rsum_eq0 l : (forall x, In x l -> 0 <= x) -> rsum l = 0 -> forall x, In x l -> x = 0.
Proof.
  induction l; cbn; intros H E x I; [tauto|]. fold (rsum l) in E.
  pose proof (H a (or_introl eq_refl)). assert (0 <= rsum l) by (apply rsum_ge0; auto).
  destruct I as [<-|I]; [lra|]. apply IHl; auto. lra.
Qed.
Lemma avg_ge0 l : l <> [] -> (forall x, In x l -> 0 <= x) -> 0 <= avg l /\ (avg l = 0 <-> forall x, In x l -> x = 0).
Proof.
  intros N H. unfold avg.
  assert (P : 0 < INR (List.length l)) by (destruct l; [congruence|]; apply lt_0_INR; cbn; lia).
  pose proof (rsum_ge0 H) as G. pose proof (Rinv_0_lt_compat _ P) as IP. split.
  - unfold Rdiv. nra.
  - split.
    + intros E. apply rsum_eq0; auto. unfold Rdiv in E. apply Rmult_integral in E. lra.
    + intros Z0. assert (rsum l = 0); [|rewrite H0; unfold Rdiv; lra].
      clear - Z0. induction l; cbn; auto. fold (rsum l). rewrite IHl; [|intros; apply Z0; right; auto].
      rewrite (Z0 a (or_introl eq_refl)). lra.
Qed.
Lemma sq_ge0 x : 0 <= sq x.
Proof. apply Rle_0_sqr. Qed.
Lemma sq_eq0 x : sq x = 0 -> x = 0.
Proof. unfold sq. intros H. apply Rmult_integral in H. tauto. Qed.
Lemma length2_ge0 g : 0 <= length2 g.
Proof. apply rsum_ge0. intros x I. apply in_map_iff in I as (y & <- & _). apply sq_ge0. Qed.
Lemma length2_eq0 g : length2 g = 0 <-> forall x, In x g -> x = 0.
Proof.
  unfold length2. split.
  - intros E x I. apply sq_eq0. revert E. intros E. eapply rsum_eq0; [|exact E|apply in_map; auto].
    intros y J. apply in_map_iff in J as (? & <- & _). apply sq_ge0.
  - intros H. induction g; cbn; auto. fold (rsum (map sq g)). rewrite IHg; [|intros; apply H; right; auto].
    rewrite (H a (or_introl eq_refl)). unfold sq. lra.
Qed.

(** The three averages for a network that scores rows. *)
Lemma adversarial_formula D disc G weight pos neg grad : scores D disc -> grad pos = map G pos ->
  adversarial_loss weight (disc pos) (disc neg) (grad pos) = least_squares D G weight pos neg.
Proof.
  intros HD HG. unfold adversarial_loss, least_squares. rewrite !HD, HG, gradient_avg, !map_map. cbn [map].
  rewrite !mean_col. f_equal. f_equal.
  - f_equal. apply map_ext. intros x. unfold sq. ring.
  - f_equal. apply map_ext. intros x. unfold sq. ring.
Qed.
Lemma flat_iff D x g : is_gradient D x g -> (length2 g = 0 <-> flat_at D x).
Proof.
  intros (E & H). rewrite length2_eq0. unfold flat_at. split.
  - intros Z0 j J. specialize (H j J). rewrite (Z0 (nth j g 0)) in H; auto. apply nth_In. lia.
  - intros F y I. apply In_nth with (d := 0) in I as (j & J & <-). rewrite E in J.
    apply uniqueness_limite with (1 := H j J) (2 := F j J).
Qed.
(** The loss is never negative, and zero exactly for a perfect discriminator. *)
Lemma least_squares_zero D G weight pos neg :
  (forall x, is_gradient D x (G x)) -> 0 < weight -> pos <> [] -> neg <> [] ->
  0 <= least_squares D G weight pos neg /\
  (least_squares D G weight pos neg = 0 <->
     (forall x, In x pos -> D x = 1 /\ flat_at D x) /\ (forall x, In x neg -> D x = -1)).
Proof.
  intros HI W NP NN. unfold least_squares.
  assert (A1 := @avg_ge0 (map (fun x => sq (D x - 1)) pos)).
  assert (A2 := @avg_ge0 (map (fun x => sq (D x + 1)) neg)).
  assert (A3 := @avg_ge0 (map (fun x => length2 (G x)) pos)).
  destruct A1 as (P1 & E1); [destruct pos; cbn; congruence|intros x I; apply in_map_iff in I as (? & <- & _); apply sq_ge0|].
  destruct A2 as (P2 & E2); [destruct neg; cbn; congruence|intros x I; apply in_map_iff in I as (? & <- & _); apply sq_ge0|].
  destruct A3 as (P3 & E3); [destruct pos; cbn; congruence|intros x I; apply in_map_iff in I as (? & <- & _); apply length2_ge0|].
  set (a1 := avg (map (fun x => sq (D x - 1)) pos)) in *.
  set (a2 := avg (map (fun x => sq (D x + 1)) neg)) in *.
  set (a3 := avg (map (fun x => length2 (G x)) pos)) in *.
  assert (P4 : 0 <= weight * a3) by nra.
  split; [lra|]. split.
  - intros E. assert (Z1 : a1 = 0) by lra. assert (Z2 : a2 = 0) by lra. assert (Z4 : weight * a3 = 0) by lra.
    assert (Z3 : a3 = 0) by (apply Rmult_integral in Z4; lra).
    rewrite E1 in Z1. rewrite E2 in Z2. rewrite E3 in Z3. split; intros x I.
    + split.
      * assert (D x - 1 = 0); [|lra]. apply sq_eq0, Z1. apply in_map_iff. eauto.
      * apply (flat_iff (HI x)). apply Z3. apply in_map_iff. eauto.
    + assert (D x + 1 = 0); [|lra]. apply sq_eq0, Z2. apply in_map_iff. eauto.
  - intros (H1 & H2).
    assert (Z1 : a1 = 0). { apply E1. intros y I. apply in_map_iff in I as (x & <- & I). destruct (H1 x I) as (-> & _). unfold sq. lra. }
    assert (Z2 : a2 = 0). { apply E2. intros y I. apply in_map_iff in I as (x & <- & I). rewrite (H2 x I). unfold sq. lra. }
    assert (Z3 : a3 = 0). { apply E3. intros y I. apply in_map_iff in I as (x & <- & I). apply (flat_iff (HI x)). apply H1; auto. }
    rewrite Z1, Z2, Z3. lra.
Qed.

Lemma pair_input_ok S sm key b obs next : each_row S sm ->
  dget (db_obs b) key = Some obs -> dget (db_next b) key = Some next -> List.length obs = List.length next ->
  pair_input sm key b = Ok (pairs_of S obs next).
Proof.
  intros HS G1 G2 E. unfold pair_input, lookup. rewrite G1, G2. cbn. rewrite !HS. unfold pairs_of.
  clear G1 G2. revert next E. induction obs as [|x o IH]; intros [|y n] E; try discriminate; cbn; [auto|].
  injection E as E. rewrite (IH _ E). auto.
Qed.
Lemma is_column_map {A} (f : A -> R) n l : is_column n (map (fun x => [f x]) l) = Nat.eqb (List.length l) n.
Proof.
  unfold is_column. rewrite map_length. destruct (Nat.eqb (List.length l) n); cbn; auto.
  induction l; cbn; auto.
Qed.
Lemma pairs_length S obs next : List.length obs = List.length next -> List.length (pairs_of S obs next) = List.length obs.
Proof. intros E. unfold pairs_of. rewrite map_length, combine_length. lia. Qed.

Lemma disc_loss D G disc grad S1 m1 S2 m2 weight key bi bp o1 n1 o2 n2 :
  scores D disc -> each_row G grad -> each_row S1 m1 -> each_row S2 m2 ->
  dget (db_obs bi) key = Some o1 -> dget (db_next bi) key = Some n1 -> List.length o1 = List.length n1 ->
  dget (db_obs bp) key = Some o2 -> dget (db_next bp) key = Some n2 -> List.length o2 = List.length n2 ->
  discriminator_loss disc grad m1 m2 weight key bi bp =
    if andb (Nat.eqb (List.length o1) (db_size bi)) (Nat.eqb (List.length o2) (db_size bp))
    then Ok (least_squares D G weight (pairs_of S1 o1 n1) (pairs_of S2 o2 n2))
    else Err AssertionError.
Proof.
  intros HD HG H1 H2 A1 A2 AE B1 B2 BE. unfold discriminator_loss.
  rewrite (pair_input_ok H1 A1 A2 AE), (pair_input_ok H2 B1 B2 BE). cbn [rbind].
  rewrite (@adversarial_formula D disc G) by auto.
  rewrite !HD, !is_column_map, !pairs_length by auto.
  destruct (Nat.eqb (List.length o1) (db_size bi)), (Nat.eqb (List.length o2) (db_size bp)); auto.
Qed.

(** ** Action symmetry *)
Lemma clamp_within x : clamp1 x = within1 x.
Proof.
  unfold clamp1, within1, Rmin, Rmax. destruct (Rlt_dec x (-1)), (Rle_dec x (-1)); try lra;
  repeat destruct (Rlt_dec _ _); repeat destruct (Rle_dec _ _); lra.
Qed.
Lemma within1_range x : -1 <= within1 x <= 1.
Proof. unfold within1. destruct (Rlt_dec x (-1)); [lra|]. destruct (Rlt_dec 1 x); lra. Qed.
Lemma confusion_eq right left : confusion (clamp1 right) (clamp1 left) = confusion_bonus right left.
Proof. rewrite !clamp_within. unfold confusion, confusion_bonus, style_bonus. field. Qed.
Lemma confusion_range right left : 0 <= confusion_bonus right left <= 2.
Proof.
  unfold confusion_bonus, style_bonus. pose proof (within1_range right). pose proof (within1_range left). split; nra.
Qed.
Lemma confusion_top right left : confusion_bonus right left = 2 <-> right <= -1 /\ 1 <= left.
Proof.
  assert (Q : forall p, p * p = 0 -> p = 0) by (intros p H; apply Rmult_integral in H; tauto).
  unfold confusion_bonus, style_bonus. split.
  - intros E.
    pose proof (Rle_0_sqr (within1 left - 1)) as Q1. pose proof (Rle_0_sqr (- within1 right - 1)) as Q2. unfold Rsqr in *.
    assert (L1 : within1 left = 1) by (assert (within1 left - 1 = 0); [apply Q|]; lra).
    assert (R1 : within1 right = -1) by (assert (- within1 right - 1 = 0); [apply Q|]; lra).
    unfold within1 in *. destruct (Rlt_dec left (-1)), (Rlt_dec 1 left), (Rlt_dec right (-1)), (Rlt_dec 1 right); lra.
  - intros (A & B). assert (within1 left = 1) as ->. { unfold within1. destruct (Rlt_dec left (-1)), (Rlt_dec 1 left); lra. }
    assert (within1 right = -1) as ->. { unfold within1. destruct (Rlt_dec right (-1)), (Rlt_dec 1 right); lra. }
    lra.
Qed.

Lemma slice_nth (row : list R) a b : (0 <= a <= b)%Z -> (b <= zlen row)%Z ->
  pyslice row a b = map (fun j => nth j row 0) (seq (Z.to_nat a) (Z.to_nat (b - a))).
Proof.
  intros H K. rewrite pyslice_inside by (unfold zlen in *; lia). unfold zlen in K.
  assert (L : (Z.to_nat a + Z.to_nat (b - a) <= List.length row)%nat) by lia.
  generalize dependent (Z.to_nat (b - a)). generalize (Z.to_nat a). clear. intros a n. revert a row.
  induction n as [|n IH]; intros a row L; cbn; [auto|].
  destruct (skipn a row) as [|x r] eqn:E.
  - apply (f_equal (@List.length R)) in E. rewrite skipn_length in E. cbn in E. lia.
  - f_equal.
    + rewrite <- (firstn_skipn a row), E. rewrite app_nth2; rewrite firstn_length; [|lia].
      replace (a - Nat.min a (List.length row))%nat with O by lia. auto.
    + rewrite <- (IH (S a) row) by lia. f_equal.
      clear - E. revert a E. induction row as [|y row IH2]; intros [|a] E; cbn in *; try discriminate.
      * injection E as _ E. rewrite E. auto.
      * apply IH2 in E. auto.
Qed.
Lemma action_map_part n idx m : inside n idx -> rows_of n m -> action_map idx m = Ok (map (part idx) m).
Proof.
  intros (NE & F) W. unfold action_map. destruct idx as [|f0 idx0] eqn:EI; [congruence|]. rewrite <- EI in *. clear NE EI f0 idx0.
  f_equal. apply map_ext_in. intros row I. unfold rows_of in W. rewrite Forall_forall in W. specialize (W _ I).
  unfold part. rewrite concat_map, map_map. f_equal. apply map_ext_in. intros f J. rewrite Forall_forall in F. specialize (F _ J).
  cbn beta in F. apply slice_nth; unfold zlen; lia.
Qed.
Lemma part_length n idx row : inside n idx -> Z.of_nat (List.length (part idx row)) = part_size idx.
Proof.
  intros (_ & F). unfold part, part_size. rewrite map_length.
  induction F as [|f idx H F IH]; cbn; auto. rewrite app_length, seq_length. unfold zsum in *. cbn in *. lia.
Qed.
Lemma cat_batches_ok w a b : rows_of w a -> rows_of w b -> cat_batches a b = Ok (a ++ b).
Proof.
  intros A B. unfold cat_batches.
  assert (W : rows_of w (a ++ b)) by (apply Forall_app; auto).
  assert (HB : forallb (fun row => Nat.eqb (List.length row) (width (a ++ b))) (a ++ b) = true); [|rewrite HB; auto].
  apply forallb_forall. intros r I. apply Nat.eqb_eq. unfold rows_of in W. rewrite Forall_forall in W.
  rewrite (W _ I). destruct (a ++ b) as [|x l]; [destruct I|]. cbn. symmetry. apply W. left; auto.
Qed.

Lemma zip_confusion (f g : list R -> R) (m : matrix) :
  zip_rows confusion (map (map clamp1) (map (fun x => [f x]) m)) (map (map clamp1) (map (fun x => [g x]) m)) =
  map (fun x => [confusion_bonus (f x) (g x)]) m.
Proof. induction m; cbn; [auto|]. rewrite confusion_eq. f_equal. apply IHm. Qed.
Lemma same_shape_two (f g : list R -> R) (m : matrix) :
  same_shape (map (map clamp1) (map (fun x => [f x]) m)) (map (map clamp1) (map (fun x => [g x]) m)) = true.
Proof.
  unfold same_shape. destruct (list_eq_dec _ _ _) as [|N]; auto. exfalso. apply N. rewrite !map_map. auto.
Qed.
Lemma scores_pair D disc (r l : list R -> list R) (m : matrix) : scores D disc ->
  firstn (List.length m) (disc (map r m ++ map l m)) = map (fun x => [D (r x)]) m /\
  skipn (List.length m) (disc (map r m ++ map l m)) = map (fun x => [D (l x)]) m.
Proof.
  intros HD. rewrite HD, map_app, !map_map. rewrite firstn_app, skipn_app, map_length, Nat.sub_diag. cbn.
  rewrite firstn_all2 by (rewrite map_length; lia). rewrite skipn_all2 by (rewrite map_length; lia).
  rewrite app_nil_r. auto.
Qed.
Lemma bcast_columns (a b : nat -> R) n : (1 <= n)%nat ->
  bcast_add (map (fun i => [a i]) (seq 0 n)) (map (fun i => [b i]) (seq 0 n)) = Ok (map (fun i => [a i + b i]) (seq 0 n)).
Proof.
  intros N. unfold bcast_add. rewrite !map_length, !seq_length.
  assert (W : forall f : nat -> R, width (map (fun i => [f i]) (seq 0 n)) = 1%nat) by (intros f; destruct n; [lia|auto]).
  rewrite !W. unfold dims_fit. rewrite Nat.eqb_refl. cbn.
  assert (DO : dim_out n n = n) by (unfold dim_out; destruct (Nat.eqb n 1); auto). rewrite DO.
  f_equal. apply map_ext_in. intros i I. apply in_seq in I. unfold bcast_at. rewrite !map_length, seq_length.
  assert (Q : forall f : nat -> R, nth (if Nat.eqb n 1 then 0%nat else i) (map (fun i => [f i]) (seq 0 n)) [] = [f i]).
  { intros f. destruct (Nat.eqb_spec n 1) as [->|].
    - cbn. replace i with 0%nat by lia. auto.
    - rewrite nth_indep with (d' := (fun i => [f i]) 0%nat) by (rewrite map_length, seq_length; lia).
      rewrite map_nth with (f := fun i => [f i]), seq_nth by lia. auto. }
  rewrite !Q. auto.
Qed.
Lemma bcast_row_column (a : list R) (b : nat -> R) n : (2 <= n)%nat -> List.length a = n ->
  bcast_add [a] (map (fun i => [b i]) (seq 0 n)) = Ok (map (fun i => map (fun j => nth j a 0 + b i) (seq 0 n)) (seq 0 n)).
Proof.
  intros N E. unfold bcast_add. rewrite !map_length, !seq_length. cbn [List.length width]. rewrite E.
  assert (W : width (map (fun i => [b i]) (seq 0 n)) = 1%nat) by (destruct n; [lia|auto]).
  assert (N1 : Nat.eqb n 1 = false) by (apply Nat.eqb_neq; lia).
  rewrite W. replace (dims_fit 1 n) with true by (unfold dims_fit; rewrite (Nat.eqb_refl 1), Bool.orb_true_r; auto).
  replace (dims_fit n 1) with true by (unfold dims_fit; rewrite (Nat.eqb_refl 1), !Bool.orb_true_r; auto).
  unfold dim_out. rewrite N1. cbn [Nat.eqb andb].
  f_equal. apply map_ext_in. intros i I. apply in_seq in I. apply map_ext_in. intros j J. apply in_seq in J.
  unfold bcast_at. rewrite !map_length, seq_length. cbn [List.length Nat.eqb nth]. rewrite E.
  destruct (Nat.eqb_spec n 1); [lia|]. f_equal.
  rewrite nth_indep with (d' := (fun i => [b i]) 0%nat) by (rewrite map_length, seq_length; lia).
  rewrite map_nth with (f := fun i => [b i]), seq_nth by lia. auto.
Qed.

Lemma symmetry_total D disc rights lefts w group n actions rewards :
  scores D disc -> inside n rights -> inside n lefts -> part_size rights = part_size lefts ->
  actions <> [] -> rows_of n actions -> List.length rewards = List.length actions ->
  symmetry_begin_batch disc (action_map rights) (action_map lefts) w group actions (T2 (col rewards)) =
    Ok [(group, [("rewards"%string,
      map (fun i => let a := nth i actions [] in
                    [nth i rewards 0 + w * confusion_bonus (D (part rights a)) (D (part lefts a))])
          (seq 0 (List.length actions)))])].
Proof.
  intros HD IR IL PS NE W ER. unfold symmetry_begin_batch.
  rewrite (action_map_part IR W), (action_map_part IL W). cbn [rbind].
  set (k := Z.to_nat (part_size rights)).
  assert (WR : rows_of k (map (part rights) actions)).
  { apply Forall_forall. intros r I. apply in_map_iff in I as (x & <- & _). pose proof (part_length x IR). unfold k. lia. }
  assert (WL : rows_of k (map (part lefts) actions)).
  { apply Forall_forall. intros r I. apply in_map_iff in I as (x & <- & _). pose proof (part_length x IL). unfold k. lia. }
  rewrite (cat_batches_ok WR WL). cbn [rbind].
  destruct (scores_pair (part rights) (part lefts) actions HD) as (-> & ->).
  rewrite same_shape_two, zip_confusion. cbn [as_matrix].
  assert (NL : (1 <= List.length actions)%nat) by (destruct actions; [congruence|cbn; lia]).
  assert (CR : col rewards = map (fun i => [nth i rewards 0]) (seq 0 (List.length actions))).
  { unfold col. rewrite <- (map_nth_seq rewards 0) at 1. rewrite ER, map_map. auto. }
  assert (CA : map (map (fun c => c * w)) (map (fun x => [confusion_bonus (D (part rights x)) (D (part lefts x))]) actions)
    = map (fun i => [confusion_bonus (D (part rights (nth i actions []))) (D (part lefts (nth i actions []))) * w]) (seq 0 (List.length actions))).
  { rewrite map_map. cbn [map]. rewrite <- (map_nth_seq actions []) at 1. rewrite map_map. auto. }
  rewrite CR, CA, bcast_columns by auto. cbn [rbind]. do 5 f_equal. apply map_ext. intros i. cbn zeta. f_equal. ring.
Qed.
(** Rewards without the second dimension give a matrix. *)
Lemma symmetry_flat D disc rights lefts w group n actions rewards :
  scores D disc -> inside n rights -> inside n lefts -> part_size rights = part_size lefts ->
  (2 <= List.length actions)%nat -> rows_of n actions -> List.length rewards = List.length actions ->
  symmetry_begin_batch disc (action_map rights) (action_map lefts) w group actions (T1 rewards) =
    Ok [(group, [("rewards"%string,
      map (fun i => map (fun j =>
             nth j rewards 0 + confusion_bonus (D (part rights (nth i actions []))) (D (part lefts (nth i actions []))) * w)
             (seq 0 (List.length actions)))
          (seq 0 (List.length actions)))])].
Proof.
  intros HD IR IL PS NL W ER. unfold symmetry_begin_batch.
  rewrite (action_map_part IR W), (action_map_part IL W). cbn [rbind].
  set (k := Z.to_nat (part_size rights)).
  assert (WR : rows_of k (map (part rights) actions)).
  { apply Forall_forall. intros r I. apply in_map_iff in I as (x & <- & _). pose proof (part_length x IR). unfold k. lia. }
  assert (WL : rows_of k (map (part lefts) actions)).
  { apply Forall_forall. intros r I. apply in_map_iff in I as (x & <- & _). pose proof (part_length x IL). unfold k. lia. }
  rewrite (cat_batches_ok WR WL). cbn [rbind].
  destruct (scores_pair (part rights) (part lefts) actions HD) as (-> & ->).
  rewrite same_shape_two, zip_confusion. cbn [as_matrix].
  assert (CA : map (map (fun c => c * w)) (map (fun x => [confusion_bonus (D (part rights x)) (D (part lefts x))]) actions)
    = map (fun i => [confusion_bonus (D (part rights (nth i actions []))) (D (part lefts (nth i actions []))) * w]) (seq 0 (List.length actions))).
  { rewrite map_map. cbn [map]. rewrite <- (map_nth_seq actions []) at 1. rewrite map_map. auto. }
  rewrite CA, bcast_row_column by auto. cbn [rbind]. auto.
Qed.
Lemma symmetry_loss_ok D G disc grad rights lefts weight n actions :
  scores D disc -> each_row G grad -> inside n rights -> inside n lefts -> rows_of n actions ->
  symmetry_loss disc grad (action_map rights) (action_map lefts) weight actions =
    Ok (least_squares D G weight (map (part rights) actions) (map (part lefts) actions)).
Proof.
  intros HD HG IR IL W. unfold symmetry_loss. rewrite (action_map_part IR W), (action_map_part IL W). cbn [rbind].
  rewrite (@adversarial_formula D disc G) by auto. auto.
Qed.
