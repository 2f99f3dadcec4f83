(** * TargProofs: target networks are moving averages of the networks' histories *)
From Coq Require Import Reals Lra Lia.
From Verif Require Import Py NumModel AlgoModel AlgoSpec AlgoProofs AlgoMore TargModel TargSpec.
Open Scope list_scope.
Open Scope R_scope.
Set Implicit Arguments.

Lemma write_length h : forall m v, List.length (write h m v) = List.length h.
Proof. induction h as [|x h IH]; intros [|m] v; simpl; auto. Qed.
Lemma read_write_eq h : forall m v, (m < List.length h)%nat -> read (write h m v) m = v.
Proof. unfold read. induction h as [|x h IH]; intros [|m] v L; simpl in *; try lia; auto. apply IH. lia. Qed.
Lemma read_write_neq h : forall m m' v, m <> m' -> read (write h m v) m' = read h m'.
Proof. unfold read. induction h as [|x h IH]; intros [|m] [|m'] v N; simpl; auto; try lia; try congruence. Qed.

Lemma update_other tau pairs : forall h m, ~ In m (map snd pairs) -> read (update_targets tau pairs h) m = read h m.
Proof.
  induction pairs as [|[q t] rest IH]; intros h m N; simpl in *; auto. rewrite IH by tauto. apply read_write_neq. tauto.
Qed.
Lemma update_length tau pairs : forall h, List.length (update_targets tau pairs h) = List.length h.
Proof. induction pairs as [|[q t] rest IH]; intros h; simpl; auto. rewrite IH. apply write_length. Qed.
Lemma update_pair tau pairs : forall h c q t, NoDup (map snd pairs) -> (forall p p', In p pairs -> In p' pairs -> fst p <> snd p') ->
  nth_error pairs c = Some (q, t) -> (t < List.length h)%nat ->
  read (update_targets tau pairs h) t = soft_update tau (read h q) (read h t).
Proof.
  induction pairs as [|[q0 t0] rest IH]; intros h [|c] q t N D E L; cbn [nth_error] in E; try discriminate; cbn [update_targets]; inversion N; subst.
  - injection E as -> ->. rewrite update_other by auto. apply read_write_eq. auto.
  - pose proof (nth_error_In _ _ E) as I.
    assert (Nt : t0 <> t). { intros ->. apply H1. apply in_map_iff. exists (q, t). auto. }
    assert (Nq : t0 <> q). { intros ->. apply (D (q, t) (q0, q)); [right; auto|left; auto|reflexivity]. }
    rewrite (IH _ c q t); auto.
    + rewrite !read_write_neq by auto. reflexivity.
    + intros p p' I1 I2. apply D; right; auto.
    + rewrite write_length. auto.
Qed.

Lemma ma_nil tau y : moving_average tau y [] = y.
Proof. unfold moving_average, rsum. simpl. lra. Qed.
Lemma ma_cons tau y x hist : moving_average tau (y * (1 - tau) + x * tau) hist = moving_average tau y (x :: hist).
Proof.
  unfold moving_average. cbn [List.length seq map]. rewrite <- seq_shift, map_map.
  replace (map (fun i => tau * (1 - tau) ^ (S (List.length hist) - 1 - S i) * nth (S i) (x :: hist) 0) (seq 0 (List.length hist)))
    with (map (fun i => tau * (1 - tau) ^ (List.length hist - 1 - i) * nth i hist 0) (seq 0 (List.length hist))).
  - unfold rsum at 2. cbn [fold_right]. fold (rsum (map (fun i => tau * (1 - tau) ^ (List.length hist - 1 - i) * nth i hist 0) (seq 0 (List.length hist)))).
    replace (S (List.length hist) - 1 - 0)%nat with (List.length hist) by lia. cbn [nth pow]. ring.
  - apply map_ext. intros i. cbn [nth]. do 3 f_equal. lia.
Qed.

Lemma same_sizes_entry a b i j x : same_sizes a b -> entry a i j = Some x -> exists y, entry b i j = Some y.
Proof.
  unfold same_sizes, entry. intros Z E. destruct (nth_error a i) as [p|] eqn:Ep; [|discriminate].
  assert (Hm : nth_error (map (@List.length R) a) i = Some (List.length p)) by (rewrite nth_error_map, Ep; reflexivity).
  rewrite Z, nth_error_map in Hm. destruct (nth_error b i) as [p'|]; [|discriminate]. injection Hm as Hm.
  destruct (nth_error p' j) as [y|] eqn:Ey; [eauto|]. apply nth_error_None in Ey. assert (nth_error p j <> None) as H by congruence.
  apply nth_error_Some in H. lia.
Qed.

Definition separate (n : nat) (h : modules) (pairs : list (nat * nat)) : Prop :=
  NoDup (map snd pairs) /\ Forall (fun p => (fst p < n)%nat /\ (n <= snd p < List.length h)%nat) pairs.

Lemma train_average n tau pairs c q t i j : nth_error pairs c = Some (q, t) ->
  forall steps h y0 h' trace k s,
  separate n h pairs -> Forall (optimizes n) steps ->
  same_sizes (read h q) (read h t) -> entry (read h t) i j = Some y0 ->
  train (mkQt pairs tau) h steps = (h', trace) -> nth_error trace k = Some s ->
  entry (nth c (used s) []) i j
  = Some (moving_average tau y0 (map (fun s => number i j (nth c (trained s) [])) (firstn k trace))).
Proof.
  intros Ec. induction steps as [|step steps IH]; intros h y0 h' trace k s [N F] O Z E T K; simpl in T.
  - injection T as <- <-. destruct k; discriminate.
  - destruct (train (mkQt pairs tau) (update_targets tau pairs (step h)) steps) as [h2 xs] eqn:T2.
    injection T as <- <-. inversion O as [|? ? (O1 & O2 & O3) O']; subst.
    pose proof (nth_error_In _ _ Ec) as Ip. rewrite Forall_forall in F. pose proof (F _ Ip) as [Hq Ht]. cbn [fst snd] in *.
    assert (Nth : forall f : nat * nat -> list (list R), nth c (map f pairs) [] = f (q, t)).
    { intros f. apply nth_error_nth. rewrite nth_error_map, Ec. reflexivity. }
    destruct k as [|k]; cbn [nth_error firstn map] in *.
    + injection K as <-. cbn [used]. rewrite Nth, ma_nil. exact E.
    + cbn [trained]. rewrite Nth. cbn [fst snd].
      destruct (same_sizes_entry i j (eq_trans (eq_sym Z) (O1 h q) : same_sizes (read h t) (read (step h) q)) E) as [x Ex].
      assert (Et : read (step h) t = read h t) by (apply O3; lia).
      assert (D : forall p p', In p pairs -> In p' pairs -> fst p <> snd p').
      { intros p p' I1 I2. pose proof (F _ I1). pose proof (F _ I2). lia. }
      assert (Ut : read (update_targets tau pairs (step h)) t = soft_update tau (read (step h) q) (read h t)).
      { erewrite update_pair; eauto; [rewrite Et; reflexivity|]. rewrite O2. lia. }
      assert (Uq : read (update_targets tau pairs (step h)) q = read (step h) q).
      { apply update_other. intros I. apply in_map_iff in I. destruct I as (p & Ep & I). pose proof (D _ _ Ip I). cbn [fst] in *. congruence. }
      assert (Zq : same_sizes (read (step h) q) (read h t)) by (unfold same_sizes in *; rewrite <- (O1 h q); exact Z).
      replace (number i j (read (step h) q)) with x by (unfold number; rewrite Ex; reflexivity).
      rewrite <- ma_cons.
      apply IH with (h := update_targets tau pairs (step h)) (h' := h2); auto.
      * split; auto. apply Forall_forall. intros p I. rewrite update_length, O2. auto.
      * rewrite Ut, Uq. apply soft_sizes. exact Zq.
      * rewrite Ut. apply soft_entry; auto.
Qed.

Lemma read_app h x m : (m < List.length h)%nat -> read (h ++ [x]) m = read h m.
Proof. intros L. unfold read. apply app_nth1. auto. Qed.
Lemma read_last h x : read (h ++ [x]) (List.length h) = x.
Proof. unfold read. rewrite app_nth2, Nat.sub_diag by lia. reflexivity. Qed.

Lemma sac_average h q1 q2 tau steps h0 qt h' trace c q k s i j first :
  (q1 < List.length h)%nat -> (q2 < List.length h)%nat -> Forall (optimizes (List.length h)) steps ->
  sac_qtarget h q1 q2 None None tau = (h0, qt) -> train qt h0 steps = (h', trace) ->
  nth_error [q1; q2] c = Some q -> entry (read h q) i j = Some first -> nth_error trace k = Some s ->
  entry (nth c (used s) []) i j
  = Some (moving_average tau first (map (fun s => number i j (nth c (trained s) [])) (firstn k trace))).
Proof.
  intros L1 L2 O E T Ec Ef K. unfold sac_qtarget, own_or_given in E. injection E as <- <-.
  rewrite (read_app h (read h q1) L2) in T.
  set (h1 := (h ++ [read h q1]) ++ [read h q2]) in *. rewrite app_length in T. cbn [List.length] in T. rewrite Nat.add_1_r in T.
  assert (Lh : List.length h1 = S (S (List.length h))) by (unfold h1; rewrite !app_length; simpl; lia).
  assert (S' : separate (List.length h) h1 [(q1, List.length h); (q2, S (List.length h))]).
  { split; [cbn; constructor; [intros [H|[]]; lia|constructor; [intros []|constructor]]|].
    constructor; [cbn [fst snd]; rewrite Lh; lia|constructor; [cbn [fst snd]; rewrite Lh; lia|constructor]]. }
  assert (R0 : forall m, (m < List.length h)%nat -> read h1 m = read h m).
  { intros m Lm. unfold h1. rewrite read_app, read_app; auto. rewrite app_length. simpl. lia. }
  assert (R1 : read h1 (List.length h) = read h q1).
  { unfold h1. rewrite read_app; [apply read_last|]. rewrite app_length. simpl. lia. }
  assert (R2 : read h1 (S (List.length h)) = read h q2).
  { unfold h1. replace (S (List.length h)) with (List.length (h ++ [read h q1])) by (rewrite app_length; simpl; lia). apply read_last. }
  destruct c as [|[|c]]; cbn [nth_error] in Ec; [injection Ec as <-|injection Ec as <-|destruct c; discriminate].
  - eapply (@train_average (List.length h) tau _ 0 q1 (List.length h)) with (h := h1); eauto; [reflexivity| |rewrite R1; auto].
    rewrite R1, R0 by auto. reflexivity.
  - eapply (@train_average (List.length h) tau _ 1 q2 (S (List.length h))) with (h := h1); eauto; [reflexivity| |rewrite R2; auto].
    rewrite R2, R0 by auto. reflexivity.
Qed.

Lemma dqn_average h q tau steps h0 qt h' trace k s i j first :
  (q < List.length h)%nat -> Forall (optimizes (List.length h)) steps ->
  dqn_qtarget h q None tau = (h0, qt) -> train qt h0 steps = (h', trace) ->
  entry (read h q) i j = Some first -> nth_error trace k = Some s ->
  entry (nth 0 (used s) []) i j
  = Some (moving_average tau first (map (fun s => number i j (nth 0 (trained s) [])) (firstn k trace))).
Proof.
  intros L O E T Ef K. unfold dqn_qtarget, own_or_given in E. injection E as <- <-.
  set (h1 := h ++ [read h q]) in *.
  assert (Lh : List.length h1 = S (List.length h)) by (unfold h1; rewrite app_length; simpl; lia).
  assert (R0 : read h1 q = read h q) by (apply read_app; auto).
  assert (R1 : read h1 (List.length h) = read h q) by apply read_last.
  eapply (@train_average (List.length h) tau _ 0 q (List.length h)) with (h := h1); eauto; [reflexivity| | |rewrite R1; auto].
  - split; [cbn; constructor; [intros []|constructor]|]. constructor; [cbn [fst snd]; rewrite Lh; lia|constructor].
  - rewrite R1, R0. reflexivity.
Qed.

(** ** Weights *)
Lemma ma_between tau lo hi : 0 <= tau <= 1 -> forall hist y, lo <= y <= hi -> Forall (fun x => lo <= x <= hi) hist ->
  lo <= moving_average tau y hist <= hi.
Proof.
  intros Ht. induction hist as [|x hist IH]; intros y Hy F; [rewrite ma_nil; auto|]. inversion F; subst.
  rewrite <- ma_cons. apply IH; auto.
  pose proof (Rmult_le_compat_r (1 - tau) lo y). pose proof (Rmult_le_compat_r (1 - tau) y hi).
  pose proof (Rmult_le_compat_r tau lo x). pose proof (Rmult_le_compat_r tau x hi). lra.
Qed.

(** ** A network that is its own target *)
Lemma own_target tau h q steps h' trace : 
  train (mkQt [(q, q)] tau) h steps = (h', trace) -> (q < List.length h)%nat -> Forall (optimizes (List.length h)) steps ->
  forall k s s' i j, nth_error trace k = Some s -> nth_error trace (S k) = Some s' ->
  forall x, entry (nth 0 (trained s) []) i j = Some x -> entry (nth 0 (used s') []) i j = Some x.
Proof.
  revert h h' trace. induction steps as [|step steps IH]; intros h h' trace T L O k s s' i j K K' x E; cbn [train] in T.
  - injection T as <- <-. destruct k; discriminate.
  - unfold train_batch in T. cbn [qt_tau qt_pairs map fst snd update_targets] in T.
    inversion O as [|? ? (O1 & O2 & O3) O']; subst.
    set (h1 := write (step h) q _) in T.
    destruct (train (mkQt [(q, q)] tau) h1 steps) as [h2 xs] eqn:T2. injection T as <- <-.
    assert (L1 : List.length h1 = List.length h) by (unfold h1; rewrite write_length, O2; reflexivity).
    destruct k as [|k]; cbn [nth_error] in K, K'.
    + injection K as <-. cbn [trained nth] in E.
      destruct steps as [|step2 steps]; cbn [train] in T2; [injection T2 as <- <-; discriminate|].
      unfold train_batch in T2. cbn [qt_tau qt_pairs map fst snd update_targets] in T2.
      destruct (train _ _ steps) as [h3 ys] in T2. injection T2 as <- <-. cbn [nth_error] in K'. injection K' as <-. cbn [used nth].
      unfold h1. rewrite read_write_eq by (rewrite O2; auto).
      rewrite (@soft_entry tau _ _ i j x x); auto; [f_equal; ring|reflexivity].
    + eapply (IH h1 h2 xs T2); eauto; rewrite L1; auto.
Qed.
