(** * LossMore: learning rates, target networks and alpha *)
From Coq Require Import Reals Lra Lia.
From Verif Require Import Py PyLemmas NumModel NumProofs SchedModel LossModel LossSpec LossProofs.
Open Scope list_scope.
Open Scope R_scope.
Set Implicit Arguments.
Unset Strict Implicit.

Lemma constant_lr_default e r : (0 < e)%Z -> constant_lr 1 5 e r = r.
Proof. intros H. unfold constant_lr. destruct (Z.eqb_spec e 0); [lia|]. destruct (Z.eqb_spec e 5); auto. field. Qed.

(** ** The linear schedule *)
Lemma linear_den s e T k : 0 < s -> 0 <= e -> (0 < T)%Z -> (0 <= k < T)%Z -> 0 < IZR T * s + IZR k * (e - s).
Proof.
  intros HS E HT K. assert (A : 0 < IZR T - IZR k) by (rewrite <- minus_IZR; apply IZR_lt; lia).
  assert (B : 0 <= IZR k) by (apply IZR_le; lia).
  replace (IZR T * s + IZR k * (e - s)) with ((IZR T - IZR k) * s + IZR k * e) by ring. nra.
Qed.
Lemma linear_lr_steps s e T : 0 < s -> 0 <= e -> (0 < T)%Z -> forall n k x, (0 <= k)%Z -> (k + Z.of_nat n <= T)%Z ->
  lr_steps (linear_lr s e T) n k x =
  ((k + Z.of_nat n)%Z, x * (IZR T * s + IZR (k + Z.of_nat n) * (e - s)) / (IZR T * s + IZR k * (e - s))) \/ (n = O).
Proof.
  intros HS E HT. induction n as [|n IH]; intros k x K L; [right; auto|left].
  cbn [lr_steps]. pose proof (@linear_den s e T k HS E HT ltac:(lia)) as D.
  unfold linear_lr at 2. destruct (Z.eqb_spec (k + 1) 0); [lia|]. destruct (Z.ltb_spec T (k + 1)); [lia|].
  rewrite plus_IZR. replace (IZR k + 1 - 1) with (IZR k) by ring.
  destruct n as [|n].
  - cbn. replace (k + 1)%Z with (k + Z.pos (Pos.of_succ_nat 0))%Z by lia. f_equal.
    change (Z.pos (Pos.of_succ_nat 0)) with 1%Z. rewrite plus_IZR. field. lra.
  - destruct (IH (k + 1)%Z (x * (1 + (e - s) / (IZR T * s + IZR k * (e - s))))) as [-> | N]; try lia.
    replace (k + 1 + Z.of_nat (S n))%Z with (k + Z.of_nat (S (S n)))%Z by lia. f_equal.
    pose proof (@linear_den s e T (k + 1) HS E HT ltac:(lia)) as D1.
    set (q := IZR (k + Z.of_nat (S (S n)))). clearbody q. rewrite plus_IZR in D1 |- *. field. split; lra.
Qed.
Lemma linear_from_start s e T n x : 0 < s -> 0 <= e -> (0 < T)%Z -> (Z.of_nat n <= T)%Z ->
  lr_steps (linear_lr s e T) n 0 x = (Z.of_nat n, x * (s + (e - s) * INR n / IZR T) / s).
Proof.
  intros HS E HT L. assert (TP : 0 < IZR T) by (apply IZR_lt; auto).
  destruct (@linear_lr_steps s e T HS E HT n 0%Z x ltac:(lia) ltac:(lia)) as [-> | ->].
  - f_equal. rewrite Z.add_0_l, <- INR_IZR_INZ. field. split; lra.
  - cbn. f_equal. field. split; lra.
Qed.

Section Loss.
Context {OS : Type}.
Variable ostep : OS -> R -> list R -> list (option R) -> OS * list R.
Variable lrstep : Z -> R -> R.

Lemma run_one_lr gs : forall (l : loss OS) h,
  exists l', fst (run_losses ostep lrstep (map (fun g => (O, g)) gs) [l] h) = [l'] /\
    (ls_epoch l', ls_lr l') = lr_steps lrstep (List.length gs) (ls_epoch l) (ls_lr l) /\
    ls_params l' = ls_params l /\ ls_network l' = ls_network l /\ ls_max l' = ls_max l.
Proof.
  induction gs as [|g gs IH]; intros l h; cbn.
  - exists l. auto.
  - destruct (backward ostep lrstep g l h) as ((l1, h1), lg) eqn:EB. unfold backward in EB.
    destruct (ostep _ _ _ _) as (os, new). injection EB as <- <- <-.
    edestruct IH as (l' & E1 & E2 & E3). exists l'. split; [exact E1|]. cbn in E2, E3. auto.
Qed.
Lemma load_one (l l2 : loss OS) h h2 : same_build [l] [l2] ->
  exists h', load_all (save_all [l] h) [l2] h2 = Ok ([mkLoss (ls_params l) (ls_network l) (ls_max l) (ls_opt l) (ls_lr l) (ls_epoch l2)], h').
Proof.
  intros SB. inversion SB as [|? ? ? ? (P & N & M) _]; subst. cbn. rewrite P, N, M. eauto.
Qed.
Lemma selective lw lo (c : ckpt OS) l h l' h' c' : load_state_dict lw lo c l h = Ok (l', h', c') ->
  (lw = false -> h' = h) /\ (lo = false -> l' = l) /\
  (forall ow, lw = true -> ck_net c' = None /\ load_state_dict true ow c' l h = Err KeyError).
Proof.
  unfold load_state_dict. destruct lw; cbn; [destruct (ck_net c) as [w|]; cbn; [|discriminate]|];
    destruct lo; cbn; try (destruct (ck_opt c) as [(os, lr)|] eqn:EO; cbn; [|discriminate]);
    intros E; injection E as <- <- <-; cbn; repeat split; auto; try discriminate.
Qed.
End Loss.

(** What the learning rate is after [j] batches, a restart and [k] more batches. *)
Lemma resumed_rate {OS} (ostep : OS -> R -> list R -> list (option R) -> OS * list R) s e T gs1 gs2 (l l2 : loss OS) h h2 :
  0 < s -> 0 <= e -> (0 < T)%Z -> (Z.of_nat (List.length gs1 + List.length gs2) <= T)%Z ->
  ls_epoch l = 0%Z -> ls_epoch l2 = 0%Z -> same_build [l] [l2] ->
  let step := run_losses ostep (linear_lr s e T) in
  let calls := map (fun g => (O, g)) in
  let '(ls1, h1) := step (calls gs1) [l] h in
  exists ls', exists h', load_all (save_all ls1 h1) [l2] h2 = Ok (ls', h') /\
    map (@ls_lr OS) (fst (step (calls (gs1 ++ gs2)) [l] h)) =
      [ls_lr l / s * (s + (e - s) * INR (List.length gs1 + List.length gs2) / IZR T)] /\
    map (@ls_lr OS) (fst (step (calls gs2) ls' h')) =
      [ls_lr l / s * (s + (e - s) * INR (List.length gs1) / IZR T) / s * (s + (e - s) * INR (List.length gs2) / IZR T)].
Proof.
  intros HS E HT L E1 E2 SB. cbn zeta.
  destruct (@run_one_lr OS ostep (linear_lr s e T) gs1 l h) as (l1 & R1 & P1 & Q1 & Q2 & Q3).
  destruct (run_losses _ _ (map (fun g => (0%nat, g)) gs1) [l] h) as (ls1, h1) eqn:ER. cbn in R1. subst ls1.
  assert (SB1 : same_build [l1] [l2]).
  { inversion SB as [|? ? ? ? (P & N & M) _]; subst. repeat constructor; congruence. }
  destruct (@load_one OS l1 l2 h1 h2 SB1) as (h' & EL).
  eexists _, h'. split; [exact EL|]. split.
  - destruct (@run_one_lr OS ostep (linear_lr s e T) (gs1 ++ gs2) l h) as (l3 & R3 & P3 & _).
    unfold save_all in *. rewrite R3. cbn. rewrite E1, app_length in P3.
    rewrite (@linear_from_start s e T _ _ HS E HT L) in P3. injection P3 as _ ->. f_equal. field.
    split; [apply IZR_lt in HT; lra|lra].
  - destruct (@run_one_lr OS ostep (linear_lr s e T) gs2
       (mkLoss (ls_params l1) (ls_network l1) (ls_max l1) (ls_opt l1) (ls_lr l1) (ls_epoch l2)) h') as (l4 & R4 & P4 & _).
    rewrite R4. cbn in P4 |- *. rewrite E2 in P4. rewrite (@linear_from_start s e T (List.length gs2) _ HS E HT) in P4 by lia.
    rewrite E1, (@linear_from_start s e T (List.length gs1) _ HS E HT) in P1 by lia.
    injection P1 as _ P1. injection P4 as _ ->. rewrite P1. f_equal. field.
    split; [apply IZR_lt in HT; lra|lra].
Qed.

(** A gradient of an earlier loss changes what an optimizer with weight decay does to
    a parameter that this batch's loss does not depend on. *)
Definition decay_step (os : unit) (lr : R) (vals : list R) (gs : list (option R)) : unit * list R :=
  (os, map (fun vg => match snd vg with Some g => fst vg - lr * (g + fst vg) | None => fst vg end) (combine vals gs)).
Lemma leftover :
  let l := mkLoss [O] [O] 10 tt (1 / 2) 0 in
  let silent := fun (_ : list R) (_ : nat) => None in
  h_val (snd (fst (backward decay_step (constant_lr 1 5) silent l (mkHeap [1] [None])))) = [1] /\
  h_val (snd (fst (backward decay_step (constant_lr 1 5) silent l (mkHeap [1] [Some 7])))) = [1 / 2].
Proof.
  cbn. split; auto. f_equal. match goal with |- context [clip_coef ?a ?b] => generalize (clip_coef a b) end. intros r. lra.
Qed.

(** ** Alpha *)
Section Alpha.
Variable step : schedule -> res schedule.
Definition ends (ops : list alpha_op) : nat :=
  List.length (filter (fun o => match o with AEndBatch => true | _ => false end) ops).

Lemma alpha_do_frame o s s' : alpha_do step o s = Ok s' ->
  al_own s' = al_own s /\ al_policy s' = al_policy s /\ al_target s' = al_target s /\ al_max_ln s' = al_max_ln s /\
  (forall a, a <> al_own s -> ln_alpha_at s' a = ln_alpha_at s a) /\ List.length (al_heap s') = List.length (al_heap s).
Proof.
  assert (F : forall (h : list R) n x a, a <> n -> nth a (set_at n x h) 0 = nth a h 0).
  { induction h as [|y h IH]; intros [|n] x [|a] N; cbn; auto; try congruence. }
  intros E. destruct o; cbn in E.
  - injection E as <-. unfold ln_alpha_at. cbn. repeat split; auto using set_at_length.
  - destruct (step (al_entropy s)) as [e|]; [|discriminate]. cbn in E. injection E as <-.
    unfold ln_alpha_at. cbn. repeat split; auto using set_at_length.
  - injection E as <-. unfold ln_alpha_at. cbn. repeat split; auto using set_at_length.
Qed.
Lemma alpha_run_frame ops : forall s s', alpha_run step ops s = Ok s' ->
  al_own s' = al_own s /\ al_policy s' = al_policy s /\ al_target s' = al_target s /\ al_max_ln s' = al_max_ln s /\
  (forall a, a <> al_own s -> ln_alpha_at s' a = ln_alpha_at s a) /\ List.length (al_heap s') = List.length (al_heap s).
Proof.
  induction ops as [|o ops IH]; intros s s' E; cbn in E.
  - injection E as <-. repeat split; auto.
  - destruct (alpha_do step o s) as [s1|] eqn:E1; [|discriminate]. cbn in E.
    pose proof (alpha_do_frame E1) as (A1 & A2 & A3 & A4 & A5 & A6).
    destruct (IH _ _ E) as (B1 & B2 & B3 & B4 & B5 & B6).
    repeat split; try congruence. intros a N. rewrite B5 by congruence. apply A5. auto.
Qed.
Lemma alpha_run_app ops1 : forall ops2 s, alpha_run step (ops1 ++ ops2) s = rbind (alpha_run step ops1 s) (alpha_run step ops2).
Proof.
  induction ops1 as [|o ops1 IH]; intros ops2 s; cbn; auto. destruct (alpha_do step o s); cbn; auto.
Qed.
Lemma steps_of_shift k : forall s s1, step s = Ok s1 -> steps_of step k s1 = steps_of step (S k) s.
Proof.
  induction k as [|k IH]; intros s s1 E; cbn in *; [rewrite E; auto|]. rewrite (IH _ _ E). auto.
Qed.
Lemma alpha_run_entropy ops : forall s s', alpha_run step ops s = Ok s' ->
  steps_of step (ends ops) (al_entropy s) = Ok (al_entropy s').
Proof.
  induction ops as [|o ops IH]; intros s s' E; cbn in E.
  - injection E as <-. auto.
  - destruct (alpha_do step o s) as [s1|] eqn:E1; [|discriminate]. cbn in E. specialize (IH _ _ E).
    destruct o; cbn in E1.
    + injection E1 as <-. auto.
    + destruct (step (al_entropy s)) as [e|] eqn:ES; [|discriminate]. cbn in E1. injection E1 as <-. cbn in IH.
      change (ends (AEndBatch :: ops)) with (S (ends ops)). rewrite <- (@steps_of_shift _ _ _ ES). auto.
    + injection E1 as <-. auto.
Qed.

Lemma alpha_history tensors address n_actions max_alpha t_entropy ops s :
  (address < List.length tensors)%nat -> 0 < max_alpha ->
  alpha_run step ops (alpha_init tensors address n_actions max_alpha t_entropy) = Ok s ->
  ln_alpha_at s (al_policy s) = ln_alpha_at s (al_own s) /\
  ln_alpha_at s (al_target s) = ln_alpha_at s (al_own s) /\
  (forall a, a <> address -> ln_alpha_at s a = nth a tensors 0) /\
  forall s', alpha_do step AEndBatch s = Ok s' ->
    ln_alpha_at s' (al_own s') = Rmin (ln_alpha_at s (al_own s)) (ln max_alpha) /\
    exp (ln_alpha_at s' (al_policy s')) <= max_alpha /\ exp (ln_alpha_at s' (al_target s')) <= max_alpha.
Proof.
  intros H M E. destruct (alpha_run_frame E) as (B1 & B2 & B3 & B4 & B5 & B6). cbn in B1, B2, B3, B4, B5, B6.
  split; [congruence|]. split; [congruence|]. split; [exact B5|]. intros s' H0. split; [|split].
  - destruct (alpha_do_frame H0) as (C1 & _). rewrite C1.
    cbn in H0. destruct (step (al_entropy s)) as [e|]; [|discriminate]. cbn in H0. injection H0 as <-.
    unfold ln_alpha_at. cbn. rewrite B1, B4, set_at_nth_d, Nat.eqb_refl by lia. auto.
  - destruct (alpha_do_frame H0) as (C1 & C2 & C3 & _). rewrite C2, B2.
    cbn in H0. destruct (step (al_entropy s)) as [e|]; [|discriminate]. cbn in H0. injection H0 as <-.
    unfold ln_alpha_at. cbn. rewrite B1, B4, set_at_nth_d, Nat.eqb_refl by lia.
    rewrite <- (exp_ln max_alpha) at 2 by auto.
    destruct (Rle_lt_or_eq_dec _ _ (Rmin_r (nth address (al_heap s) 0) (ln max_alpha))) as [L|L];
      [left; apply exp_increasing; auto|rewrite L; lra].
  - destruct (alpha_do_frame H0) as (C1 & C2 & C3 & _). rewrite C3, B3.
    cbn in H0. destruct (step (al_entropy s)) as [e|]; [|discriminate]. cbn in H0. injection H0 as <-.
    unfold ln_alpha_at. cbn. rewrite B1, B4, set_at_nth_d, Nat.eqb_refl by lia.
    rewrite <- (exp_ln max_alpha) at 2 by auto.
    destruct (Rle_lt_or_eq_dec _ _ (Rmin_r (nth address (al_heap s) 0) (ln max_alpha))) as [L|L];
      [left; apply exp_increasing; auto|rewrite L; lra].
Qed.
End Alpha.

Lemma constant_steps k s : steps_of constant_step k s = Ok s.
Proof. induction k; cbn; auto. rewrite IHk. auto. Qed.
Lemma default_target tensors address n_actions max_alpha ops s :
  alpha_run constant_step ops (alpha_init tensors address n_actions max_alpha None) = Ok s ->
  sc_value (al_entropy s) = - IZR n_actions.
Proof.
  intros E. apply alpha_run_entropy in E. rewrite constant_steps in E. injection E as <-. cbn. apply opp_IZR.
Qed.
Lemma rsum_affine t x logps : rsum (map (fun logp => x * (- logp - t)) logps) =
  x * (rsum (map Ropp logps) - INR (List.length logps) * t).
Proof.
  induction logps as [|y l IH]; [cbn; ring|].
  change (rsum (map (fun logp => x * (- logp - t)) (y :: l))) with (x * (- y - t) + rsum (map (fun logp => x * (- logp - t)) l)).
  change (rsum (map Ropp (y :: l))) with (- y + rsum (map Ropp l)). rewrite IH. cbn [List.length]. rewrite S_INR. ring.
Qed.
Lemma alpha_slope logps t x : logps <> [] ->
  derivable_pt_lim (alpha_loss logps t) x (rsum (map Ropp logps) / INR (List.length logps) - t).
Proof.
  intros NE. assert (P : 0 < INR (List.length logps)) by (apply lt_0_INR; destruct logps; [congruence|cbn; lia]).
  set (c := rsum (map Ropp logps) / INR (List.length logps) - t).
  assert (E : forall y, alpha_loss logps t y = c * y).
  { intros y. unfold alpha_loss, np_mean. rewrite rsum_affine, map_length. unfold c. field. lra. }
  intros eps HE. exists (mkposreal 1 Rlt_0_1). intros h HN _. rewrite !E.
  replace ((c * (x + h) - c * x) / h - c) with 0 by (field; auto). rewrite Rabs_R0. auto.
Qed.

(** ** Target networks after a restart *)
Lemma nth_combine_pair tau (a b : list R) i : List.length a = List.length b -> (i < List.length a)%nat ->
  nth i (map (fun xy => fst xy * (1 - tau) + snd xy * tau) (combine a b)) 0 = nth i a 0 * (1 - tau) + nth i b 0 * tau.
Proof.
  intros L H. rewrite (nth_indep _ 0 (fst (0, 0) * (1 - tau) + snd (0, 0) * tau))
    by (rewrite map_length, combine_length; lia).
  rewrite (map_nth (fun xy => fst xy * (1 - tau) + snd xy * tau)), combine_nth by auto. auto.
Qed.
Lemma target_gap tau updates : forall p p2 n, pr_q p = pr_q p2 ->
  List.length (pr_q p) = n -> List.length (pr_qt p) = n -> List.length (pr_qt p2) = n ->
  Forall (fun u => forall q, List.length q = n -> List.length (u q) = n) updates ->
  let run := fold_left (fun p u => pair_batch tau u p) updates in
  pr_q (run p) = pr_q (run p2) /\
  forall i, (i < n)%nat -> nth i (pr_qt (run p2)) 0 - nth i (pr_qt (run p)) 0 =
    (1 - tau) ^ List.length updates * (nth i (pr_qt p2) 0 - nth i (pr_qt p) 0).
Proof.
  induction updates as [|u us IH]; intros p p2 n E L1 L2 L3 F; cbn.
  - split; auto. intros. ring.
  - inversion F as [|? ? FU F']; subst. specialize (FU (pr_q p) eq_refl).
    destruct (IH (pair_batch tau u p) (pair_batch tau u p2) (List.length (pr_q p))) as (A & B); auto.
    + cbn. congruence.
    + cbn. rewrite map_length, combine_length. lia.
    + cbn. rewrite map_length, combine_length, <- E. lia.
    + cbn in A, B. split; auto. intros i H. rewrite B by auto.
      rewrite !nth_combine_pair by (rewrite <- ?E; lia). rewrite E. ring.
Qed.
Lemma batches_length tau updates n : forall p, List.length (pr_q p) = n -> List.length (pr_qt p) = n ->
  Forall (fun u => forall q : list R, List.length q = n -> List.length (u q) = n) updates ->
  List.length (pr_q (fold_left (fun p u => pair_batch tau u p) updates p)) = n /\
  List.length (pr_qt (fold_left (fun p u => pair_batch tau u p) updates p)) = n.
Proof.
  induction updates as [|u us IH]; intros p L1 L2 F; cbn; [auto|]. inversion F as [|? ? FU F']; subst.
  apply IH; auto; cbn; rewrite ?map_length, ?combine_length, ?FU; auto. lia.
Qed.
Lemma resumed_target tau updates1 updates2 (q0 q1 : list R) : List.length q1 = List.length q0 ->
  Forall (fun u => forall q : list R, List.length q = List.length q0 -> List.length (u q) = List.length q0) (updates1 ++ updates2) ->
  let run updates p := fold_left (fun p u => pair_batch tau u p) updates p in
  let stopped := run updates1 (build_pair q0) in
  let loaded := pair_load (pair_save stopped) (build_pair q1) in
  pr_qt loaded = q1 /\
  pr_q (run updates2 loaded) = pr_q (run (updates1 ++ updates2) (build_pair q0)) /\
  forall i, (i < List.length q0)%nat ->
    nth i (pr_qt (run updates2 loaded)) 0 - nth i (pr_qt (run (updates1 ++ updates2) (build_pair q0))) 0 =
    (1 - tau) ^ List.length updates2 * (nth i q1 0 - nth i (pr_qt stopped) 0).
Proof.
  intros L F. cbn zeta. apply Forall_app in F as (F1 & F2). rewrite fold_left_app.
  destruct (@batches_length tau updates1 (List.length q0) (build_pair q0) eq_refl eq_refl F1) as (A & B).
  set (stopped := fold_left _ updates1 (build_pair q0)) in *. clearbody stopped.
  split; [reflexivity|].
  destruct (@target_gap tau updates2 stopped (pair_load (pair_save stopped) (build_pair q1)) (List.length q0)) as (C & D); auto.
Qed.
