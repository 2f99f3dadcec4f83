(** * AlgoMore: the dynamics model, soft updates, HL-Gauss *)
From Coq Require Import Reals Lra Lia.
From Verif Require Import Py NumModel NumProofs AlgoModel AlgoSpec AlgoProofs.
Open Scope list_scope.
Open Scope R_scope.
Set Implicit Arguments. Unset Strict Implicit.

(** ** copy_dims *)
Lemma put_length A i (x : A) l : List.length (put i x l) = List.length l.
Proof. revert i. induction l as [|y t IH]; intros [|i]; simpl; auto. Qed.
Lemma put_nth A i (x : A) l j : (i < List.length l)%nat ->
  nth_error (put i x l) j = if Nat.eqb j i then Some x else nth_error l j.
Proof.
  revert i j. induction l as [|y t IH]; intros [|i] [|j] H; simpl in *; try lia; auto.
  apply IH. lia.
Qed.
Definition hits (n : nat) (dims : list Z) (i : nat) : bool :=
  existsb (fun d => match py_dim d n with Some k => Nat.eqb i k | None => false end) dims.

Lemma py_dim_lt d n i : py_dim d n = Some i -> (i < n)%nat.
Proof.
  unfold py_dim. intros E.
  destruct (_ && _)%bool eqn:B in E; [|discriminate]. injection E as <-.
  apply andb_prop in B. destruct B as [B1 B2]. apply Z.leb_le in B1. apply Z.ltb_lt in B2. lia.
Qed.
Lemma py_dim_ok d n : (- Z.of_nat n <= d < Z.of_nat n)%Z -> exists i, py_dim d n = Some i.
Proof.
  intros H. unfold py_dim.
  destruct (Z.ltb_spec d 0) as [L|L].
  - replace (Z.leb 0 (d + Z.of_nat n)) with true by (symmetry; apply Z.leb_le; lia).
    replace (Z.ltb (d + Z.of_nat n) (Z.of_nat n)) with true by (symmetry; apply Z.ltb_lt; lia). cbn [andb]. eauto.
  - replace (Z.leb 0 d) with true by (symmetry; apply Z.leb_le; lia).
    replace (Z.ltb d (Z.of_nat n)) with true by (symmetry; apply Z.ltb_lt; lia). cbn [andb]. eauto.
Qed.

Lemma copy_dims_spec A (n : nat) dims (src : list A) : forall tgt,
  List.length src = n -> List.length tgt = n -> dims_exist n dims ->
  exists out, copy_dims dims src tgt = Ok out /\ List.length out = n /\
    forall i, nth_error out i = if hits n dims i then nth_error src i else nth_error tgt i.
Proof.
  induction dims as [|d t IH]; intros tgt Ls Lt D; simpl.
  - exists tgt. auto.
  - pose proof (Forall_inv D) as H1. pose proof (Forall_inv_tail D) as H2. cbn beta in H1. rewrite Lt. destruct (py_dim_ok H1) as [i Ei]. rewrite Ei.
    pose proof (py_dim_lt Ei) as Hi.
    destruct (nth_error src i) as [x|] eqn:Ex; [|apply nth_error_None in Ex; lia].
    destruct (IH (put i x tgt)) as [out [Eo [Lo Ho]]]; auto. { rewrite put_length. auto. }
    exists out. split; auto. split; auto. intros j. rewrite Ho.
    destruct (hits n t j) eqn:Hh.
    + rewrite Bool.orb_true_r. reflexivity.
    + rewrite put_nth by lia. destruct (Nat.eqb_spec j i) as [->|N]; simpl; auto.
Qed.

Lemma nth_error_ext_eq A (l l' : list A) : (forall i, nth_error l i = nth_error l' i) -> l = l'.
Proof.
  revert l'. induction l as [|x t IH]; intros [|y t'] H; auto.
  - specialize (H 0%nat). discriminate.
  - specialize (H 0%nat). discriminate.
  - f_equal; [specialize (H 0%nat); simpl in H; congruence|]. apply IH. intros i. apply (H (Datatypes.S i)).
Qed.

(** ** One row of training target, and back *)
Lemma target_sample m n o x r : List.length o = n -> List.length x = n -> List.length r = 1%nat ->
  dims_exist n (dm_no_delta m) ->
  exists t, target_row m o x r = Ok t /\
    List.length t = (if dm_learned_rewards m then n + 1 else n)%nat /\
    forall m', dm_no_delta m' = dm_no_delta m -> dm_learned_rewards m' = dm_learned_rewards m ->
      sample_row m' (map Some o) (map Some t)
      = Ok (map Some x, if dm_learned_rewards m then map Some r else []).
Proof.
  intros Lo Lx Lr D. unfold target_row, rrowop. rewrite Lo, Lx, Nat.eqb_refl. cbn [rbind].
  assert (Ld : List.length (map2 Rminus x o) = n) by (rewrite map2_length; lia).
  destruct (copy_dims_spec Lx Ld D) as [t [Et [Lt Ht]]]. rewrite Et. cbn [rbind].
  eexists. split; [reflexivity|]. split.
  { destruct (dm_learned_rewards m); [rewrite app_length|]; lia. }
  intros m' Dm Lm. unfold sample_row. rewrite Lm, Dm.
  assert (K : exists out, rbind (rowop vadd (map Some t) (map Some o)) (fun tmp =>
     copy_dims (dm_no_delta m) (map Some t) tmp) = Ok out /\ out = map Some x).
  { unfold rowop. rewrite !map_length, Lt, Lo, Nat.eqb_refl. cbn [rbind].
    assert (L1 : List.length (map Some t) = n) by (rewrite map_length; auto).
    assert (L2 : List.length (map2 vadd (map Some t) (map Some o)) = n).
    { rewrite map2_length; rewrite ?map_length; lia. }
    destruct (copy_dims_spec L1 L2 D) as [out [Eo [Lout Ho]]]. exists out. split; auto.
    apply nth_error_ext_eq. intros i. rewrite Ho, map2_nth, !nth_error_map.
    specialize (Ht i). rewrite map2_nth in Ht. rewrite Ht.
    destruct (hits n (dm_no_delta m) i); [reflexivity|].
    destruct (nth_error x i) as [xi|] eqn:Ex; destruct (nth_error o i) as [oi|] eqn:Eo'; simpl; auto.
    - f_equal. f_equal. lra.
    - apply nth_error_None in Eo'. assert (nth_error x i <> None) as H by congruence.
      apply nth_error_Some in H. lia. }
  destruct K as [out [K ->]].
  destruct (dm_learned_rewards m).
  - rewrite map_app. rewrite app_length, !map_length, Lr, Lt.
    replace (Nat.pred (n + 1)) with (List.length (map (@Some R) t)) by (rewrite map_length; lia).
    rewrite firstn_app, Nat.sub_diag, firstn_all. cbn [firstn]. rewrite app_nil_r.
    rewrite skipn_app, Nat.sub_diag, skipn_all. cbn [skipn app].
    destruct (rowop vadd (map Some t) (map Some o)) as [tmp|e]; [|discriminate K]. cbn [rbind] in *.
    change (list (option R)) with (list val) in *. unfold val in *. rewrite K. reflexivity.
  - destruct (rowop vadd (map Some t) (map Some o)) as [tmp|e]; [|discriminate K]. cbn [rbind] in *.
    unfold val in *. rewrite K. reflexivity.
Qed.

Definition rewards_of (lr : bool) (rewards : list (list R)) : list (list val) :=
  if lr then finite rewards else map (fun _ => []) rewards.

Lemma targets_sample m n obs : forall next reward, dims_exist n (dm_no_delta m) ->
  List.length next = List.length obs -> List.length reward = List.length obs ->
  wide n obs -> wide n next -> wide 1 reward ->
  exists ts, targets m obs next reward = Ok ts /\ List.length ts = List.length obs /\
    wide (if dm_learned_rewards m then n + 1 else n) ts /\
    forall m', dm_no_delta m' = dm_no_delta m -> dm_learned_rewards m' = dm_learned_rewards m ->
      try_map2 (sample_row m') (finite obs) (finite ts)
      = Ok (combine (finite next) (rewards_of (dm_learned_rewards m) reward)).
Proof.
  induction obs as [|o os IH]; intros [|x xs] [|r rs] D L1 L2 W1 W2 W3; simpl in L1, L2; try lia.
  - exists []. split; auto. split; auto. split; [constructor|]. intros m' _ _. simpl.
    reflexivity.
  - inversion W1; inversion W2; inversion W3; subst.
    destruct (@target_sample m (List.length o) o x r) as [t [Et [Lt St]]]; auto.
    destruct (IH xs rs) as [ts [Ets [Lts [Wts Sts]]]]; try lia; auto.
    exists (t :: ts). cbn [targets]. rewrite Et. cbn [rbind]. rewrite Ets. cbn [rbind]. split; auto.
    split; [simpl; lia|]. split; [constructor; auto|].
    intros m' E1 E2. simpl. rewrite (St m') by auto. cbn [rbind].
    unfold finite in *. rewrite (Sts m') by auto. cbn [rbind].
    unfold rewards_of. destruct (dm_learned_rewards m); reflexivity.
Qed.

Lemma inputs_ok m obs : forall action,
  List.length action = List.length obs ->
  exists xs, get_model_input m obs action = Ok xs /\ List.length xs = List.length obs
    /\ xs = map2 (model_input_row m) obs action.
Proof.
  unfold get_model_input.
  induction obs as [|o os IH]; intros [|a t] L; simpl in *; try lia.
  - exists []. auto.
  - destruct (IH t) as [xs [E [Lx Ex]]]; [lia|]. rewrite E. cbn [rbind].
    eexists. split; [reflexivity|]. simpl. subst xs. auto.
Qed.

Definition in_width (f : option (list R -> list R)) (n_obs n_action : nat) (d : nat) : Prop :=
  forall o, List.length o = n_obs ->
    (List.length (match f with Some g => g o | None => o end) + n_action)%nat = d.
Lemma processes_width f n_obs n_action : processes n_obs f -> exists d, in_width f n_obs n_action d.
Proof.
  unfold processes, in_width. destruct f as [g|].
  - intros [d H]. exists (d + n_action)%nat. intros o Ho. rewrite H; auto.
  - intros _. exists (n_obs + n_action)%nat. intros o ->. reflexivity.
Qed.

Lemma inputs_wide m d n_obs n_action obs : forall action, in_width (dm_process m) n_obs n_action d ->
  wide n_obs obs -> wide n_action action -> wide d (map2 (model_input_row m) obs action).
Proof.
  unfold wide. induction obs as [|o os IH]; intros [|a t] Hw W1 W2; simpl; auto.
  inversion W1; inversion W2; subst. constructor; [|apply IH; auto].
  unfold model_input_row. rewrite app_length. apply Hw. reflexivity.
Qed.

(** What stays true of the model while it is trained. *)
Definition dm_good lr f dims n_in n_target (m : dynamic) : Prop :=
  dm_learned_rewards m = lr /\ dm_process m = f /\ dm_no_delta m = dims
  /\ nm_good n_in (dm_in m) /\ nm_good n_target (dm_target m).

Lemma process_batch_ok lr f dims n_obs n_action n_in m b :
  dims_exist n_obs dims -> in_width f n_obs n_action n_in -> fits n_obs n_action b ->
  dm_good lr f dims n_in (if lr then n_obs + 1 else n_obs)%nat m ->
  exists m' x y, process_batch m (t_obs b) (t_next b) (t_action b) (t_reward b) = Ok (m', (x, y)) /\
    dm_good lr f dims n_in (if lr then n_obs + 1 else n_obs)%nat m' /\
    forall net, net x = y ->
      sample m' net (t_action b) (t_obs b)
      = Ok (combine (finite (t_next b)) (rewards_of lr (t_reward b))).
Proof.
  intros D Hw [L0 [L1 [L2 [L3 [W0 [W1 [W2 W3]]]]]]] (Elr & Ef & Ed & Gi & Gt).
  unfold process_batch.
  destruct (@targets_sample m n_obs (t_obs b) (t_next b) (t_reward b)) as [ts [Ets [Lts [Wts Sts]]]]; auto.
  { rewrite Ed. auto. }
  rewrite Ets. cbn [rbind].
  destruct (@inputs_ok m (t_obs b) (t_action b)) as [xs [Exs [Lxs Vxs]]]; auto.
  rewrite Exs. cbn [rbind].
  assert (Ax : ample n_in xs).
  { split; [lia|]. subst xs. eapply inputs_wide; eauto. rewrite Ef. eauto. }
  rewrite Elr in Wts.
  assert (At : ample (if lr then n_obs + 1 else n_obs)%nat ts) by (split; auto; lia).
  unfold normalize_update.
  destruct (update_good Gi Ax) as [ni [-> [Gi' _]]]. cbn [rbind].
  destruct (nm_round Gi' (proj2 Ax)) as [xn [Exn [_ _]]]. rewrite Exn. cbn [rbind].
  destruct (update_good Gt At) as [nt [-> [Gt' _]]]. cbn [rbind].
  destruct (nm_round Gt' (proj2 At)) as [yn [Eyn [Dyn _]]]. rewrite Eyn. cbn [rbind].
  eexists. eexists. eexists. split; [reflexivity|].
  split. { unfold dm_good. cbn. auto. }
  intros net En. unfold sample. cbn [dm_in dm_target].
  assert (Eg : forall m1, dm_process m1 = dm_process m -> get_model_input m1 (t_obs b) (t_action b) = Ok xs).
  { intros m1 E1. rewrite <- Exs. unfold get_model_input, model_input_row. rewrite E1. reflexivity. }
  rewrite Eg by reflexivity. cbn [rbind]. rewrite Exn. cbn [rbind]. rewrite En, Dyn. cbn [rbind].
  rewrite <- Elr. apply Sts; reflexivity.
Qed.

Lemma trained_good lr f dims n_obs n_action n_in bs m :
  dims_exist n_obs dims -> in_width f n_obs n_action n_in ->
  trained_on (dm_new lr f dims) bs m -> Forall (fits n_obs n_action) bs ->
  dm_good lr f dims n_in (if lr then n_obs + 1 else n_obs)%nat m.
Proof.
  intros D Hw T. induction T as [|bs m b m' x y T IH E]; intros F.
  - unfold dm_good, dm_new. cbn. repeat split; auto; try (simpl; lra).
  - apply Forall_app in F. destruct F as [F Fb]. inversion Fb; subst.
    destruct (process_batch_ok D Hw H1 (IH F)) as (m1 & x1 & y1 & E1 & G1 & _). congruence.
Qed.

Lemma model_round_trip lr f dims n_obs n_action bs m b :
  dims_exist n_obs dims -> processes n_obs f ->
  trained_on (dm_new lr f dims) bs m -> Forall (fits n_obs n_action) (bs ++ [b]) ->
  exists m' x y, process_batch m (t_obs b) (t_next b) (t_action b) (t_reward b) = Ok (m', (x, y)) /\
    forall net, net x = y ->
      sample m' net (t_action b) (t_obs b)
      = Ok (combine (finite (t_next b)) (if lr then finite (t_reward b) else map (fun _ => []) (t_reward b))).
Proof.
  intros D P T F. destruct (processes_width n_action P) as [d Hw].
  apply Forall_app in F. destruct F as [F Fb]. inversion Fb; subst.
  destruct (process_batch_ok D Hw H1 (trained_good D Hw T F)) as (m1 & x1 & y1 & E1 & _ & S1).
  exists m1, x1, y1. split; auto.
Qed.

(** ** Soft updates *)
Lemma soft_entry tau source target i j s t :
  same_sizes source target -> entry source i j = Some s -> entry target i j = Some t ->
  entry (soft_update tau source target) i j = Some (t * (1 - tau) + s * tau).
Proof.
  unfold same_sizes, entry. revert target i. induction source as [|ps ss IH]; intros [|pt ts] i E; simpl in E; try discriminate.
  - destruct i; discriminate.
  - injection E as E1 E2. destruct i as [|i]; simpl.
    + intros Es Et. rewrite map2_nth, Et, Es. reflexivity.
    + intros Es Et. apply (IH ts i E2 Es Et).
Qed.

Lemma soft_sizes tau source target : same_sizes source target -> same_sizes source (soft_update tau source target).
Proof.
  unfold same_sizes. revert target. induction source as [|ps ss IH]; intros [|pt ts] E; simpl in *; try discriminate; auto.
  injection E as E1 E2. f_equal; auto. rewrite map2_length; lia.
Qed.

Lemma soft_entries k tau source : forall target i j s t,
  same_sizes source target -> entry source i j = Some s -> entry target i j = Some t ->
  entry (soft_updates k tau source target) i j = Some (s + (1 - tau) ^ k * (t - s)).
Proof.
  induction k as [|k IH]; intros target i j s t Z Es Et; simpl.
  - rewrite Et. f_equal. lra.
  - erewrite IH; [|apply soft_sizes; auto|exact Es|apply soft_entry; eauto]. f_equal. ring.
Qed.

Lemma soft_between k tau s t : 0 <= tau <= 1 ->
  Rmin s t <= s + (1 - tau) ^ k * (t - s) <= Rmax s t /\
  Rabs (s + (1 - tau) ^ k * (t - s) - s) = (1 - tau) ^ k * Rabs (t - s).
Proof.
  intros H. assert (P : 0 <= (1 - tau) ^ k <= 1).
  { induction k as [|k IH]; simpl; [lra|]. destruct IH as [I1 I2]. split.
    - apply Rmult_le_pos; lra.
    - pose proof (Rmult_le_compat (1-tau) 1 ((1-tau)^k) 1). lra. }
  set (a := (1 - tau) ^ k) in *. split.
  - unfold Rmin, Rmax. destruct (Rle_dec s t) as [L|L].
    + pose proof (Rmult_le_compat_r (t - s) a 1). pose proof (Rmult_le_pos a (t - s)). lra.
    + pose proof (Rmult_le_compat_r (s - t) a 1). pose proof (Rmult_le_pos a (s - t)). lra.
  - replace (s + a * (t - s) - s) with (a * (t - s)) by lra. rewrite Rabs_mult, (Rabs_pos_eq a); lra.
Qed.

(** Convergence. *)
Lemma soft_limit tau s t : 0 < tau <= 1 -> Un_cv (fun k => s + (1 - tau) ^ k * (t - s)) s.
Proof.
  intros H eps He.
  destruct (Req_EM_T t s) as [->|N].
  { exists 0%nat. intros n _. unfold R_dist. replace (s + _ - s) with 0 by lra. rewrite Rabs_R0. lra. }
  assert (A : 0 < Rabs (t - s)) by (apply Rabs_pos_lt; lra).
  destruct (pow_lt_1_zero (1 - tau)) with (y := eps / Rabs (t - s)) as [n0 Hn].
  - rewrite Rabs_pos_eq; lra.
  - apply Rdiv_lt_0_compat; lra.
  - exists n0. intros n Hge. unfold R_dist. replace (s + (1 - tau) ^ n * (t - s) - s) with ((1 - tau) ^ n * (t - s)) by lra.
    rewrite Rabs_mult. specialize (Hn n Hge). apply (Rmult_lt_compat_r (Rabs (t - s))) in Hn; auto.
    unfold Rdiv in Hn. rewrite Rmult_assoc, Rinv_l in Hn; lra.
Qed.

(** Parameters the source does not have are left alone. *)
Lemma soft_beyond tau source target i : (List.length source <= i)%nat ->
  nth_error (soft_update tau source target) i = nth_error target i.
Proof.
  revert target i. induction source as [|ps ss IH]; intros [|pt ts] i L; simpl in *; auto.
  destruct i as [|i]; [lia|]. simpl. apply IH. lia.
Qed.

(** ** HL-Gauss *)
Lemma rsum_nonneg l : Forall (fun x => 0 <= x) l -> 0 <= rsum l.
Proof. induction 1; cbn; [lra|]. fold (rsum l). lra. Qed.

Lemma weighted_bounds ws cs lo hi : List.length ws = List.length cs ->
  Forall (fun w => 0 <= w) ws -> Forall (fun c => lo <= c <= hi) cs ->
  rsum ws * lo <= rsum (map2 Rmult ws cs) <= rsum ws * hi.
Proof.
  revert cs. induction ws as [|w ws IH]; intros [|c cs] L F1 F2; simpl in L; try lia; cbn; [lra|].
  inversion F1; inversion F2; subst. destruct (IH cs) as [A B]; try lia; auto.
  unfold rsum in *. pose proof (Rmult_le_compat_l w lo c). pose proof (Rmult_le_compat_l w c hi). lra.
Qed.

Lemma softmax_sum logits : logits <> [] -> rsum (softmax logits) = 1 /\ Forall (fun w => 0 <= w) (softmax logits).
Proof.
  intros N. unfold softmax.
  assert (P : 0 < rsum (map exp logits)).
  { destruct logits as [|x t]; [congruence|]. cbn. pose proof (exp_pos x).
    assert (0 <= rsum (map exp t)).
    { apply rsum_nonneg. apply Forall_forall. intros y Hy. apply in_map_iff in Hy. destruct Hy as [z [<- _]].
      left. apply exp_pos. }
    unfold rsum in *. lra. }
  set (z := rsum (map exp logits)) in *. split.
  - transitivity (/ z * rsum (map exp logits)).
    + clearbody z. clear. induction logits as [|x t IH]; cbn; [lra|]. unfold rsum in *. rewrite IH. unfold Rdiv. ring.
    + fold z. apply Rinv_l. lra.
  - apply Forall_forall. intros y Hy. apply in_map_iff in Hy. destruct Hy as [x [<- _]].
    pose proof (exp_pos x). left. apply Rdiv_lt_0_compat; lra.
Qed.

Definition tick (min max : R) (bins i : nat) : R := min + INR i * ((max - min) / INR bins).

Lemma removelast_map_seq A (f : nat -> A) n : forall s, removelast (map f (seq s (Datatypes.S n))) = map f (seq s n).
Proof.
  induction n as [|n IH]; intros s; [reflexivity|]. cbn [seq map]. cbn [seq map] in IH.
  change (removelast (f s :: f (Datatypes.S s) :: map f (seq (Datatypes.S (Datatypes.S s)) n)))
    with (f s :: removelast (f (Datatypes.S s) :: map f (seq (Datatypes.S (Datatypes.S s)) n))).
  rewrite IH. reflexivity.
Qed.
Lemma map2_map A B C D (h : B -> C -> D) (f : A -> B) (g : A -> C) l : map2 h (map f l) (map g l) = map (fun x => h (f x) (g x)) l.
Proof. induction l; simpl; congruence. Qed.
Lemma tl_map_seq A (f : nat -> A) n s : tl (map f (seq s (Datatypes.S n))) = map (fun i => f (Datatypes.S i)) (seq s n).
Proof. cbn [seq map tl]. rewrite <- seq_shift, map_map. reflexivity. Qed.

Lemma centers_eq min max bins :
  centers (support min max bins) = map (fun i => (tick min max bins i + tick min max bins (Datatypes.S i)) / 2) (seq 0 bins).
Proof.
  unfold centers, support. rewrite removelast_map_seq, tl_map_seq, map2_map. reflexivity.
Qed.

Lemma tick_bounds min max bins i : min <= max -> (0 < bins)%nat -> (i <= bins)%nat -> min <= tick min max bins i <= max.
Proof.
  intros L B I. unfold tick. assert (P : 0 < INR bins) by (apply lt_0_INR; lia).
  assert (0 <= INR i) by apply pos_INR. assert (INR i <= INR bins) by (apply le_INR; lia).
  assert (E : INR i * ((max - min) / INR bins) = (INR i / INR bins) * (max - min)) by (field; lra).
  rewrite E.
  assert (0 <= INR i / INR bins <= 1) as [Q1 Q2].
  { split.
    - unfold Rdiv. apply Rmult_le_pos; auto. left. apply Rinv_0_lt_compat. auto.
    - apply (Rmult_le_reg_r (INR bins)); auto. unfold Rdiv. rewrite Rmult_assoc, Rinv_l; lra. }
  pose proof (Rmult_le_pos (INR i / INR bins) (max - min)).
  pose proof (Rmult_le_compat_r (max - min) (INR i / INR bins) 1). lra.
Qed.

Lemma q_in_range min max bins logits : min <= max -> (0 < bins)%nat -> List.length logits = bins ->
  min <= q_from_logit min max bins logits <= max.
Proof.
  intros L B E. unfold q_from_logit. destruct (@softmax_sum logits) as [S P].
  { intros ->. simpl in E. lia. }
  pose proof (@weighted_bounds (softmax logits) (centers (support min max bins)) min max) as W.
  rewrite S in W. rewrite !Rmult_1_l in W. apply W; auto.
  - unfold softmax. rewrite map_length, centers_eq, map_length, seq_length. auto.
  - rewrite centers_eq. apply Forall_forall. intros c Hc. apply in_map_iff in Hc. destruct Hc as [i [<- Hi]].
    apply in_seq in Hi.
    pose proof (@tick_bounds min max bins i). pose proof (@tick_bounds min max bins (Datatypes.S i)).
    destruct H; try lia; auto. destruct H0; try lia; auto. split; lra.
Qed.

Lemma last_map_seq (f : nat -> R) n d : last (map f (seq 0 (Datatypes.S n))) d = f n.
Proof. rewrite seq_S, map_app. simpl. rewrite last_last. reflexivity. Qed.

Lemma telescope (f : nat -> R) n : rsum (map (fun i => f (Datatypes.S i) - f i) (seq 0 n)) = f n - f 0%nat.
Proof.
  induction n as [|n IH]; [cbn; lra|].
  rewrite seq_S, map_app, rsum_app, IH. cbn. lra.
Qed.

Lemma rsum_div l z : rsum (map (fun p => p / z) l) = rsum l / z.
Proof. induction l as [|x t IH]; cbn; [unfold Rdiv; lra|]. unfold rsum in *. rewrite IH. unfold Rdiv. ring. Qed.

Lemma tick_incr min max bins i : min < max -> (0 < bins)%nat -> tick min max bins i < tick min max bins (Datatypes.S i).
Proof.
  intros L B. unfold tick. rewrite S_INR. assert (P : 0 < INR bins) by (apply lt_0_INR; lia).
  assert (0 < (max - min) / INR bins) by (apply Rdiv_lt_0_compat; lra). lra.
Qed.

Lemma transform_eq erf min max bins sigma target :
  let g := fun i => erf ((tick min max bins i - target) / (sqrt 2 * sigma)) in
  transform_to_probs erf min max bins sigma target =
  map (fun i => vdiv (Some (g (Datatypes.S i) - g i)) (Some (g bins - g 0%nat))) (seq 0 bins).
Proof.
  intros g. unfold transform_to_probs, support.
  rewrite map_map.
  change (fun x : nat => erf ((min + INR x * ((max - min) / INR bins) - target) / (sqrt 2 * sigma))) with g.
  rewrite last_map_seq. rewrite tl_map_seq, removelast_map_seq, map2_map, map_map. reflexivity.
Qed.

Lemma transform_distribution erf min max bins sigma target : strictly_increasing erf ->
  min < max -> (0 < bins)%nat -> 0 < sigma ->
  distribution bins (transform_to_probs erf min max bins sigma target).
Proof.
  intros Hi L B Hs. rewrite transform_eq. cbv zeta beta.
  set (g := fun i => erf ((tick min max bins i - target) / (sqrt 2 * sigma))).
  assert (S2 : 0 < sqrt 2 * sigma) by (apply Rmult_lt_0_compat; auto; apply sqrt_lt_R0; lra).
  assert (Inc : forall i, g i < g (Datatypes.S i)).
  { intros i. apply Hi. unfold Rdiv. apply Rmult_lt_compat_r; [apply Rinv_0_lt_compat; auto|].
    pose proof (@tick_incr min max bins i L B). lra. }
  assert (Pos : 0 < g bins - g 0%nat).
  { clearbody g. clear - Inc B. induction bins as [|n IH]; [lia|]. destruct n as [|n].
    - pose proof (Inc 0%nat). lra.
    - assert (0 < g (Datatypes.S n) - g 0%nat) by (apply IH; lia). pose proof (Inc (Datatypes.S n)). lra. }
  exists (map (fun i => (g (Datatypes.S i) - g i) / (g bins - g 0%nat)) (seq 0 bins)).
  split; [|split; [|split]].
  - rewrite map_map. apply map_ext. intros i. fold (g (Datatypes.S i)) (g i) (g bins) (g 0%nat). unfold vdiv. destruct (Req_EM_T (g bins - g 0%nat) 0); [lra|reflexivity].
  - rewrite map_length, seq_length. reflexivity.
  - apply Forall_forall. intros q Hq. apply in_map_iff in Hq. destruct Hq as [i [<- _]].
    pose proof (Inc i). left. apply Rdiv_lt_0_compat; lra.
  - rewrite <- (map_map (fun i => g (Datatypes.S i) - g i) (fun p => p / (g bins - g 0%nat))).
    rewrite rsum_div, telescope. unfold Rdiv. apply Rinv_r. lra.
Qed.

Lemma saturating_distribution erf min max bins sigma target : saturating erf ->
  min < max -> (0 < bins)%nat -> 0 < sigma -> min <= target <= max ->
  distribution bins (transform_to_probs erf min max bins sigma target).
Proof.
  intros [Mo [Pp Pn]] L B Hs Ht. rewrite transform_eq. cbv zeta beta.
  set (g := fun i => erf ((tick min max bins i - target) / (sqrt 2 * sigma))).
  assert (S2 : 0 < sqrt 2 * sigma) by (apply Rmult_lt_0_compat; auto; apply sqrt_lt_R0; lra).
  assert (I2 : 0 < / (sqrt 2 * sigma)) by (apply Rinv_0_lt_compat; auto).
  assert (Inc : forall i, g i <= g (Datatypes.S i)).
  { intros i. apply Mo. unfold Rdiv. apply Rmult_le_compat_r; [lra|].
    pose proof (@tick_incr min max bins i L B). lra. }
  assert (P : 0 < INR bins) by (apply lt_0_INR; lia).
  assert (T0 : tick min max bins 0 = min) by (unfold tick; cbn [INR]; lra).
  assert (Tb : tick min max bins bins = max) by (unfold tick; field; lra).
  assert (Pos : 0 < g bins - g 0%nat).
  { unfold g. rewrite T0, Tb.
    assert (N : (min - target) / (sqrt 2 * sigma) <= 0).
    { unfold Rdiv. apply Rmult_le_reg_r with (sqrt 2 * sigma); auto. rewrite Rmult_assoc, Rinv_l; lra. }
    assert (Q : 0 <= (max - target) / (sqrt 2 * sigma)).
    { unfold Rdiv. apply Rmult_le_pos; lra. }
    destruct (Rle_lt_or_eq_dec _ _ Q) as [Q'|Q'].
    - pose proof (Pp _ Q'). pose proof (Mo _ _ N). lra.
    - rewrite <- Q'. assert (E : max - target = 0).
      { unfold Rdiv in Q'. symmetry in Q'. apply Rmult_integral in Q'. destruct Q'; lra. }
      assert ((min - target) / (sqrt 2 * sigma) < 0).
      { unfold Rdiv. replace 0 with (0 * / (sqrt 2 * sigma)) by ring. apply Rmult_lt_compat_r; lra. }
      pose proof (Pn _ H). lra. }
  exists (map (fun i => (g (Datatypes.S i) - g i) / (g bins - g 0%nat)) (seq 0 bins)).
  split; [|split; [|split]].
  - rewrite map_map. apply map_ext. intros i. fold (g (Datatypes.S i)) (g i) (g bins) (g 0%nat). unfold vdiv. destruct (Req_EM_T (g bins - g 0%nat) 0); [lra|reflexivity].
  - rewrite map_length, seq_length. reflexivity.
  - apply Forall_forall. intros q Hq. apply in_map_iff in Hq. destruct Hq as [i [<- _]].
    pose proof (Inc i). unfold Rdiv. apply Rmult_le_pos; [lra|]. left. apply Rinv_0_lt_compat. lra.
  - rewrite <- (map_map (fun i => g (Datatypes.S i) - g i) (fun p => p / (g bins - g 0%nat))).
    rewrite rsum_div, telescope. unfold Rdiv. apply Rinv_r. lra.
Qed.
Lemma hl_sigma_pos ratio min max bins : min < max -> (0 < bins)%nat -> 0 < ratio -> 0 < hl_sigma ratio min max bins.
Proof.
  intros L B Hs. unfold hl_sigma.
  assert (P : 0 < INR bins) by (apply lt_0_INR; lia).
  apply Rdiv_lt_0_compat; auto. apply Rmult_lt_0_compat; lra.
Qed.
Lemma clamp_range min max q : min < max -> min <= clamp min max q <= max.
Proof. intros L. unfold clamp, Rmin, Rmax. destruct (Rle_dec q min); destruct (Rle_dec _ max); lra. Qed.
Lemma qloss_distribution erf ratio min max bins q : saturating erf ->
  min < max -> (0 < bins)%nat -> 0 < ratio ->
  distribution bins (qloss_target erf ratio min max bins q).
Proof.
  intros Hi L B Hs. apply saturating_distribution; auto; [apply hl_sigma_pos; auto|apply clamp_range; auto].
Qed.
Lemma qloss_nearest erf ratio min max bins q : min < max ->
  exists t, min <= t <= max /\ (forall u, min <= u <= max -> Rabs (q - t) <= Rabs (q - u)) /\
  qloss_target erf ratio min max bins q = transform_to_probs erf min max bins (ratio * ((max - min) / INR bins)) t.
Proof.
  intros L. exists (clamp min max q). split; [apply clamp_range; auto|]. split.
  - intros u Hu. unfold clamp, Rmin, Rmax. destruct (Rle_dec q min); destruct (Rle_dec _ max); unfold Rabs; repeat destruct (Rcase_abs _); lra.
  - unfold qloss_target, hl_sigma. f_equal. unfold Rdiv. ring.
Qed.
