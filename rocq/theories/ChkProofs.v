(** * ChkProofs *)
From Coq Require Import Reals Lra Lia Ascii.
From Verif Require Import Py PyLemmas NumModel NumProofs SchedModel LogModel LogSpec LogProofs ChkModel ChkSpec.
Set Implicit Arguments. Unset Strict Implicit.
Open Scope string_scope.
Open Scope list_scope.
Open Scope R_scope.

Lemma gt_num x y : gt (Num x) (Num y) = true <-> y < x.
Proof. unfold gt. destruct (Rlt_dec y x); split; intros; auto; discriminate. Qed.
Lemma gt_num_f x y : gt (Num x) (Num y) = false <-> x <= y.
Proof. unfold gt. destruct (Rlt_dec y x); split; intros; auto; try discriminate; lra. Qed.

Lemma sum_from l : forall a, fold_left (num2 Rplus) (map Num l) (Num a) = Num (a + rsum l).
Proof.
  induction l as [|x r IH]; intros a; cbn [map fold_left].
  - f_equal. change (rsum []) with 0. lra.
  - unfold num2 at 2. rewrite IH. f_equal. change (rsum (x :: r)) with (x + rsum r). lra.
Qed.
Lemma num_sum_ok l : num_sum (map Num l) = Num (rsum l).
Proof. unfold num_sum. rewrite sum_from. f_equal. lra. Qed.
Lemma num_mean_ok l : l <> [] -> num_mean (map Num l) = Num (mean l).
Proof.
  intros H. unfold num_mean. destruct (map Num l) as [|x r] eqn:E; [destruct l; [congruence|discriminate]|].
  rewrite <- E. rewrite num_sum_ok, map_length. reflexivity.
Qed.
Lemma nan_from l : fold_left (num2 Rplus) l NaN = NaN.
Proof. induction l; cbn; auto. Qed.
Lemma nan_sum l : forall a, In NaN l -> fold_left (num2 Rplus) l a = NaN.
Proof.
  induction l as [|x r IH]; intros a H; [destruct H|]. cbn [fold_left]. destruct H as [-> | H]; auto.
  replace (num2 Rplus a NaN) with NaN by (destruct a; auto). apply nan_from.
Qed.
Lemma nan_mean l : In NaN l -> num_mean l = NaN.
Proof. intros H. destruct l; auto. unfold num_mean. unfold num_sum. rewrite nan_sum; auto. Qed.

(** ** Final checks *)
Lemma losses_ok cbs : forall losses cutoffs, Forall2 logged_loss cbs (map Num losses) -> List.length losses = List.length cutoffs ->
  (loss_check cbs (map Num cutoffs) = Shutdown <-> Forall2 Rle losses cutoffs) /\
  (loss_check cbs (map Num cutoffs) = OtherError <-> ~ Forall2 Rle losses cutoffs).
Proof.
  induction cbs as [|[name logs] cbs IH]; intros losses cutoffs H L.
  - destruct losses; [|inversion H]. destruct cutoffs; [|discriminate]. simpl. split; split; intros; auto; try discriminate. destruct H0. constructor.
  - destruct losses as [|x losses]; [inversion H|]. destruct cutoffs as [|c cutoffs]; [discriminate|].
    cbn [map] in H. inversion H as [|? ? ? ? H1 H2]; subst. unfold logged_loss in H1. cbn [fst snd] in H1.
    cbn [map loss_check]. rewrite H1. injection L as L.
    destruct (IH losses cutoffs H2 L) as [A B].
    destruct (gt (Num x) (Num c)) eqn:E.
    + apply gt_num in E. split; split; intros Q; auto; try discriminate. { inversion Q; subst. lra. } intros Q2. inversion Q2; subst. lra.
    + apply gt_num_f in E. rewrite A, B. split; split; intros Q; auto.
      * inversion Q; auto.
      * intros Q2. inversion Q2; auto.
Qed.
Lemma losses_missing before cb after : forall losses cutoffs c rest, Forall2 logged_loss before (map Num losses) -> Forall2 Rle losses cutoffs ->
  (forall x, ~ logged_loss cb x) -> loss_check (before ++ cb :: after) (map Num cutoffs ++ c :: rest) = KeyError.
Proof.
  induction before as [|[name logs] before IH]; intros losses cutoffs c rest H F M.
  - destruct losses; [|inversion H]. inversion F; subst. destruct cb as [name logs]. cbn [map app loss_check]. unfold logged_loss in M. cbn [fst snd] in M.
    destruct (dget logs _) as [v|] eqn:E; auto. exfalso. apply (M v). reflexivity.
  - destruct losses as [|x losses]; [inversion H|]. inversion F as [|? y ? cs F1 F2]; subst. cbn [map] in H. inversion H as [|? ? ? ? H1 H2]; subst.
    unfold logged_loss in H1. cbn [fst snd] in H1. cbn [map app loss_check]. rewrite H1.
    assert (E : gt (Num x) (Num y) = false) by (apply gt_num_f; auto). rewrite E. eapply IH; eauto.
Qed.

Lemma decision (cutoff r : R) : let e := (if gt (Num cutoff) (Num r) then OtherError else Shutdown) in
  (e = Shutdown <-> cutoff <= r) /\ (e = OtherError <-> r < cutoff).
Proof.
  cbn zeta. destruct (gt (Num cutoff) (Num r)) eqn:E.
  - apply gt_num in E. split; split; intros; auto; try discriminate; lra.
  - apply gt_num_f in E. split; split; intros; auto; try discriminate; lra.
Qed.
Lemma reward_scalar scalars windows cutoff key r : dget scalars key = Some (Num r) ->
  (reward_check scalars windows (Num cutoff) key false = Shutdown <-> cutoff <= r) /\
  (reward_check scalars windows (Num cutoff) key false = OtherError <-> r < cutoff).
Proof. intros H. unfold reward_check. rewrite H. apply decision. Qed.
Lemma reward_window scalars windows cutoff key l : dget windows key = Some (map Num l) -> l <> [] ->
  (reward_check scalars windows (Num cutoff) key true = Shutdown <-> cutoff <= mean l) /\
  (reward_check scalars windows (Num cutoff) key true = OtherError <-> mean l < cutoff).
Proof.
  intros H N. unfold reward_check. rewrite H. destruct (map Num l) as [|x r] eqn:E; [destruct l; [congruence|discriminate]|].
  rewrite <- E, num_sum_ok, map_length. apply decision.
Qed.
Lemma reward_missing scalars windows cutoff key :
  (dget scalars key = None -> reward_check scalars windows cutoff key false = KeyError) /\
  (dget windows key = None -> reward_check scalars windows cutoff key true = KeyError) /\
  (dget windows key = Some [] -> reward_check scalars windows cutoff key true = ZeroDivisionError).
Proof. unfold reward_check. split; [|split]; intros ->; auto. Qed.
Lemma loss_nan name logs cutoff : logged_loss (name, logs) NaN -> loss_check [(name, logs)] [Num cutoff] = Shutdown.
Proof. intros H. unfold logged_loss in H. cbn [fst snd] in H. cbn [loss_check]. rewrite H. auto. Qed.
Lemma loss_unchecked cbs : loss_check cbs [] = Shutdown.
Proof. destruct cbs as [|[? ?] ?]; auto. Qed.
Lemma reward_nan scalars windows cutoff key : dget scalars key = Some NaN -> reward_check scalars windows (Num cutoff) key false = Shutdown.
Proof. unfold reward_check. intros ->. auto. Qed.
Lemma reward_nan_window scalars windows cutoff key l : dget windows key = Some l -> In NaN l -> reward_check scalars windows (Num cutoff) key true = Shutdown.
Proof.
  unfold reward_check. intros -> H. destruct l as [|x r]; [destruct H|]. unfold num_sum. rewrite nan_sum; auto.
Qed.

(** ** Progress *)
Lemma batches_app num_bp a b s : progress_batches num_bp s (a ++ b) = progress_batches num_bp (progress_batches num_bp s a) b.
Proof. revert s. induction a as [|[[[po no] pr] r] a IH]; intros s; cbn; auto. Qed.

Lemma block_app {A} w k (l x : list A) : ((k + 1) * w <= List.length l)%nat -> block w k (l ++ x) = block w k l.
Proof.
  intros H. unfold block. rewrite skipn_app, firstn_app. rewrite skipn_length.
  replace (w - (List.length l - k * w))%nat with 0%nat by nia. cbn [firstn]. apply app_nil_r.
Qed.

Lemma progress_inv num_bp bs : let w := window num_bp in let n := List.length bs in let errs := map batch_errors bs in
  let s := progress_batches num_bp (mkProg [] []) bs in
  pg_average s = map (fun k => (num_mean (map fst (block w k errs)), num_mean (map snd (block w k errs)))) (seq 0 (n / w)) /\
  pg_err s = skipn (n / w * w) errs.
Proof.
  cbn zeta. set (w := window num_bp). assert (W : (1 <= w)%nat) by (unfold w, window; lia).
  induction bs as [|b bs IH] using rev_ind.
  - cbn. rewrite Nat.div_small by lia. auto.
  - destruct IH as [I1 I2]. rewrite batches_app, map_app, app_length. destruct b as [[[po no] pr] r].
    cbn [map progress_batches List.length]. set (s := progress_batches num_bp (mkProg [] []) bs) in *.
    set (errs := map batch_errors bs) in *. set (n := List.length bs) in *.
    assert (Ln : List.length errs = n) by (unfold errs, n; apply map_length).
    set (e := batch_errors (po, no, pr, r)).
    unfold progress_batch. change (mean_abs_err po no, mean_abs_err pr r) with e. rewrite I1, I2. clear I1 I2.
    pose proof (Nat.div_mod n w ltac:(lia)) as D. pose proof (Nat.mod_upper_bound n w ltac:(lia)) as M.
    set (q := (n / w)%nat) in *. set (m := (n mod w)%nat) in *.
    assert (Lp : List.length (skipn (q * w) errs) = m) by (rewrite skipn_length; nia).
    assert (P : skipn (q * w) (errs ++ [e]) = skipn (q * w) errs ++ [e]).
    { rewrite skipn_app. replace (q * w - List.length errs)%nat with 0%nat by nia. reflexivity. }
    destruct (Z.leb (num_bp / 10) (zlen (skipn (q * w) errs ++ [e]))) eqn:E.
    + apply Z.leb_le in E. unfold zlen in E. rewrite app_length in E. cbn [List.length] in E.
      assert (Hm : S m = w) by (unfold w, window in *; lia).
      assert (Q : ((n + 1) / w = S q)%nat) by (symmetry; apply Nat.div_unique with 0%nat; nia).
      rewrite Q, seq_S. cbn [pg_average pg_err Nat.add]. rewrite (map_app _ (seq 0 q) [q]). cbn [map]. split.
      * f_equal.
        -- apply map_ext_in. intros k Hk. apply in_seq in Hk. rewrite block_app by nia. reflexivity.
        -- unfold block. rewrite P. rewrite firstn_all2 by (rewrite app_length; cbn [List.length]; lia). reflexivity.
      * symmetry. apply skipn_all2. rewrite app_length. cbn [List.length]. nia.
    + apply Z.leb_gt in E. unfold zlen in E. rewrite app_length in E. cbn [List.length] in E.
      assert (Hm : (S m < w)%nat) by (unfold w, window in *; lia).
      assert (Q : ((n + 1) / w = q)%nat) by (symmetry; apply Nat.div_unique with (S m); nia).
      rewrite Q. cbn [pg_average pg_err]. split; auto.
      apply map_ext_in. intros k Hk. apply in_seq in Hk. rewrite block_app by nia. reflexivity.
Qed.

Lemma end_cycle_cases l : progress_end_cycle l = Shutdown \/ progress_end_cycle l = OtherError.
Proof. induction l as [|a r IH]; cbn [progress_end_cycle]; auto. destruct (nth_error r 3) as [b|]; auto. destruct (gt (fst b) (fst a) || gt (snd b) (snd a)); auto. Qed.
Lemma end_cycle_iff l : progress_end_cycle l = Shutdown <->
  forall i a b, nth_error l i = Some a -> nth_error l (i + 4) = Some b -> gt (fst b) (fst a) = false /\ gt (snd b) (snd a) = false.
Proof.
  induction l as [|x r IH].
  - split; auto. intros _ i a b H. destruct i; discriminate.
  - cbn [progress_end_cycle]. destruct (nth_error r 3) as [y|] eqn:E.
    + destruct (gt (fst y) (fst x) || gt (snd y) (snd x)) eqn:G.
      * split; [discriminate|]. intros H. destruct (H 0%nat x y eq_refl E) as [A B]. rewrite A, B in G. discriminate.
      * apply Bool.orb_false_iff in G. rewrite IH. split.
        -- intros H i a b Ha Hb. destruct i as [|i]; [|apply (H i); auto].
           injection Ha as <-. change (nth_error r 3 = Some b) in Hb. rewrite E in Hb. injection Hb as <-. auto.
        -- intros H i a b Ha Hb. apply (H (S i)); auto.
    + split; auto. intros _ i a b Ha Hb. exfalso. apply nth_error_None in E. assert (nth_error (x :: r) (i + 4) <> None) by congruence.
      apply nth_error_Some in H. cbn [List.length] in H. lia.
Qed.
Lemma end_cycle_real l : let l' := map (fun p : R * R => (Num (fst p), Num (snd p))) l in
  (progress_end_cycle l' = Shutdown <-> forall i, (i + 4 < List.length l)%nat ->
      fst (nth (i + 4) l (0, 0)) <= fst (nth i l (0, 0)) /\ snd (nth (i + 4) l (0, 0)) <= snd (nth i l (0, 0))) /\
  (progress_end_cycle l' = Shutdown \/ progress_end_cycle l' = OtherError).
Proof.
  cbn zeta. split; [|apply end_cycle_cases]. rewrite end_cycle_iff. split.
  - intros H i Hi.
    destruct (H i (Num (fst (nth i l (0,0))), Num (snd (nth i l (0,0)))) (Num (fst (nth (i + 4) l (0,0))), Num (snd (nth (i + 4) l (0,0))))) as [A B].
    + rewrite nth_error_map, (nth_error_nth' l (0, 0)) by lia. reflexivity.
    + rewrite nth_error_map, (nth_error_nth' l (0, 0)) by lia. reflexivity.
    + cbn [fst snd] in A, B. apply gt_num_f in A. apply gt_num_f in B. auto.
  - intros H i a b Ha Hb. rewrite nth_error_map in Ha, Hb.
    destruct (nth_error l i) as [a'|] eqn:Ea; [|discriminate]. destruct (nth_error l (i + 4)) as [b'|] eqn:Eb; [|discriminate].
    injection Ha as <-. injection Hb as <-. cbn [fst snd]. rewrite !gt_num_f.
    assert (Hl : (i + 4 < List.length l)%nat) by (apply nth_error_Some; congruence).
    specialize (H i Hl). rewrite (nth_error_nth l i (0,0) Ea), (nth_error_nth l (i+4) (0,0) Eb) in H. auto.
Qed.

Lemma windows_count num_bp : (5 <= num_bp)%Z -> (5 <= Z.to_nat num_bp / window num_bp)%nat.
Proof.
  intros H. unfold window. apply Nat.div_le_lower_bound; [lia|].
  pose proof (Z.div_le_lower_bound num_bp 10 0 ltac:(lia) ltac:(lia)).
  pose proof (Z.mul_div_le num_bp 10 ltac:(lia)). destruct (Z.max_spec 1 (num_bp / 10)) as [[? ->] | [? ->]]; lia.
Qed.
Lemma few_windows l : (List.length l < 5)%nat -> progress_end_cycle l = Shutdown.
Proof.
  intros H. apply end_cycle_iff. intros i a b _ Hb. exfalso. assert (nth_error l (i + 4) <> None) by congruence. apply nth_error_Some in H0. lia.
Qed.
