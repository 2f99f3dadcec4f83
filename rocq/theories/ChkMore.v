(** * ChkMore: the progress check as a whole, the batch sampler, the loggers *)
From Coq Require Import Reals Lra Lia Ascii.
From Verif Require Import Py PyLemmas NumModel NumProofs SchedModel LogModel LogSpec LogProofs ChkModel ChkSpec ChkProofs.
Set Implicit Arguments. Unset Strict Implicit.
Open Scope string_scope.
Open Scope list_scope.
Open Scope R_scope.

(** ** Progress *)
Lemma mean_abs_ok p : forall a, List.length p = List.length a -> Forall2 (fun x y => List.length x = List.length y) p a ->
  concat p <> [] ->
  mean_abs_err (map (map Num) p) (map (map Num) a) = Num (mean (map (fun xy => Rabs (fst xy - snd xy)) (combine (concat p) (concat a)))).
Proof.
  intros a L F N. unfold mean_abs_err.
  assert (E : concat (map (fun pa => map (fun xy => num_abs (num2 Rminus (fst xy) (snd xy))) (combine (fst pa) (snd pa))) (combine (map (map Num) p) (map (map Num) a)))
    = map Num (map (fun xy => Rabs (fst xy - snd xy)) (combine (concat p) (concat a)))).
  { clear N L. revert F. revert a. induction p as [|x p IH]; intros a F; inversion F as [|? y ? a' F1 F2]; subst; auto.
    cbn [map combine concat]. rewrite IH by auto. clear IH F F2. cbn [fst snd].
    revert y F1. induction x as [|u x IHx]; intros [|v y] L; try discriminate; auto.
    cbn [map combine app]. rewrite IHx by auto. reflexivity. }
  rewrite E. apply num_mean_ok. intros Q. apply map_eq_nil in Q.
  assert (L2 : List.length (concat p) = List.length (concat a)).
  { clear - F. induction F as [|x y p a H F IH]; auto. cbn [concat]. rewrite !app_length. lia. }
  destruct (concat p); [congruence|]. destruct (concat a); [discriminate|discriminate].
Qed.

Lemma block_map {A B} (f : A -> B) w k l : block w k (map f l) = map f (block w k l).
Proof. unfold block. rewrite skipn_map, firstn_map. reflexivity. Qed.
Lemma block_length {A} w k (l : list A) : ((k + 1) * w <= List.length l)%nat -> List.length (block w k l) = w.
Proof. intros H. unfold block. rewrite firstn_length, skipn_length. nia. Qed.

Lemma progress_main num_bp bs errs : map batch_errors bs = map pair_num errs ->
  let w := window num_bp in let s := progress_batches num_bp (mkProg [] []) bs in
  (progress_end_cycle (pg_average s) = Shutdown <->
     forall k, ((k + 5) * w <= List.length errs)%nat ->
       mean (map fst (block w (k + 4) errs)) <= mean (map fst (block w k errs)) /\
       mean (map snd (block w (k + 4) errs)) <= mean (map snd (block w k errs))) /\
  (progress_end_cycle (pg_average s) = Shutdown \/ progress_end_cycle (pg_average s) = OtherError).
Proof.
  intros H. cbn zeta. destruct (progress_inv num_bp bs) as [A _]. cbn zeta in A. rewrite A. clear A.
  set (w := window num_bp). assert (W : (1 <= w)%nat) by (unfold w, window; lia).
  rewrite H. assert (L : List.length bs = List.length errs) by (rewrite <- (map_length batch_errors bs), H; apply map_length).
  rewrite L. set (q := (List.length errs / w)%nat).
  assert (Q : forall k, (k < q)%nat <-> ((k + 1) * w <= List.length errs)%nat).
  { intros k. unfold q. pose proof (Nat.div_mod (List.length errs) w ltac:(lia)). pose proof (Nat.mod_upper_bound (List.length errs) w ltac:(lia)). split; nia. }
  assert (E : map (fun k => (num_mean (map fst (block w k (map pair_num errs))), num_mean (map snd (block w k (map pair_num errs))))) (seq 0 q)
     = map pair_num (map (fun k => (mean (map fst (block w k errs)), mean (map snd (block w k errs)))) (seq 0 q))).
  { rewrite map_map. apply map_ext_in. intros k Hk. apply in_seq in Hk. rewrite block_map, !map_map. unfold pair_num. cbn [fst snd].
    assert (Lb : List.length (block w k errs) = w) by (apply block_length; apply Q; lia).
    rewrite <- (map_map fst Num), <- (map_map snd Num). rewrite !num_mean_ok; auto.
    - intros Z0. apply (f_equal (@List.length R)) in Z0. rewrite map_length in Z0. cbn in Z0. lia.
    - intros Z0. apply (f_equal (@List.length R)) in Z0. rewrite map_length in Z0. cbn in Z0. lia. }
  rewrite E. set (avg := map (fun k => (mean (map fst (block w k errs)), mean (map snd (block w k errs)))) (seq 0 q)).
  destruct (end_cycle_real avg) as [I J]. split; [|exact J]. unfold pair_num. rewrite I.
  assert (La : List.length avg = q) by (unfold avg; rewrite map_length, seq_length; auto).
  assert (Na : forall k, (k < q)%nat -> nth k avg (0, 0) = (mean (map fst (block w k errs)), mean (map snd (block w k errs)))).
  { intros k Hk. unfold avg. set (f := fun k => _). rewrite (nth_indep _ (0,0) (f 0%nat)) by (rewrite map_length, seq_length; auto).
    rewrite map_nth, seq_nth by auto. reflexivity. }
  rewrite La. split; intros G k Hk.
  - assert (k + 4 < q)%nat by (apply Q; lia). specialize (G k H0). rewrite !Na in G by lia. auto.
  - rewrite !Na by lia. cbn [fst snd]. apply G. apply Q in Hk. lia.
Qed.

Lemma progress_nan num_bp n bs : (forall b, In b bs -> batch_errors b = (NaN, NaN)) -> List.length bs = n ->
  progress_end_cycle (pg_average (progress_batches num_bp (mkProg [] []) bs)) = Shutdown.
Proof.
  intros H L. destruct (progress_inv num_bp bs) as [A _]. cbn zeta in A. rewrite A. apply end_cycle_iff.
  set (w := window num_bp) in *. assert (W : (1 <= w)%nat) by (unfold w, window; lia).
  assert (B : forall k, (k < List.length bs / w)%nat -> num_mean (map fst (block w k (map batch_errors bs))) = NaN /\ num_mean (map snd (block w k (map batch_errors bs))) = NaN).
  { intros k Hk. assert (Lk : List.length (block w k (map batch_errors bs)) = w).
    { apply block_length. rewrite map_length. pose proof (Nat.div_mod (List.length bs) w ltac:(lia)). nia. }
    assert (F : forall x, In x (block w k (map batch_errors bs)) -> x = (NaN, NaN)).
    { intros x Hx. unfold block in Hx. assert (In x (map batch_errors bs)).
      { rewrite <- (firstn_skipn (k * w) (map batch_errors bs)). apply in_or_app. right.
        rewrite <- (firstn_skipn w (skipn _ _)). apply in_or_app. left. auto. }
      apply in_map_iff in H0. destruct H0 as [b [<- Hb]]. apply H; auto. }
    destruct (block w k (map batch_errors bs)) as [|x r]; [cbn in Lk; lia|].
    rewrite (F x (or_introl eq_refl)). split; apply nan_mean; left; auto. }
  intros i a b Ha Hb. rewrite nth_error_map in Ha.
  destruct (nth_error (seq 0 (List.length bs / w)) i) as [k|] eqn:E; [|discriminate]. injection Ha as <-.
  assert (Hi : (i < List.length bs / w)%nat) by (rewrite <- (seq_length (List.length bs / w) 0); apply nth_error_Some; congruence).
  rewrite (nth_error_nth' _ 0%nat) in E by (rewrite seq_length; auto). rewrite seq_nth in E by auto. injection E as <-. cbn [Nat.add].
  destruct (B i Hi) as [-> ->]. cbn [fst snd]. destruct b as [[?|] [?|]]; auto.
Qed.

(** Errors that never grow from one batch to the next pass. *)
Lemma rsum_le : forall a b, Forall2 Rle a b -> rsum a <= rsum b.
Proof. intros a b H. induction H as [|x y a b H F IH]; [lra|]. change (rsum (x :: a)) with (x + rsum a). change (rsum (y :: b)) with (y + rsum b). lra. Qed.
Lemma nonincreasing (l : list R) : (forall i, (i + 1 < List.length l)%nat -> nth (i + 1) l 0 <= nth i l 0) ->
  forall d i, (i + d < List.length l)%nat -> nth (i + d) l 0 <= nth i l 0.
Proof.
  intros H. induction d as [|d IH]; intros i Hi.
  - rewrite Nat.add_0_r. lra.
  - apply Rle_trans with (nth (i + d) l 0). { replace (i + S d)%nat with (i + d + 1)%nat by lia. apply H. lia. } apply IH. lia.
Qed.
Lemma Forall2_nth_le : forall a b : list R, List.length a = List.length b -> (forall i, (i < List.length a)%nat -> nth i a 0 <= nth i b 0) -> Forall2 Rle a b.
Proof.
  induction a as [|x a IH]; intros [|y b] L H; try discriminate; auto. constructor.
  - apply (H 0%nat). cbn. lia.
  - apply IH; auto. intros i Hi. apply (H (S i)). cbn. lia.
Qed.
Lemma nth_firstn_lt {A} (d : A) w : forall l i, (i < w)%nat -> nth i (firstn w l) d = nth i l d.
Proof. induction w as [|w IH]; intros l i H; [lia|]. destruct l; auto. destruct i; auto. cbn. apply IH. lia. Qed.
Lemma nth_skipn_at {A} (d : A) n : forall l i, nth i (skipn n l) d = nth (n + i) l d.
Proof. induction n as [|n IH]; intros l i; auto. destruct l; cbn; [destruct i; auto|]. apply IH. Qed.
Lemma block_mean_le w k j (l : list R) : (1 <= w)%nat -> (k <= j)%nat -> ((j + 1) * w <= List.length l)%nat ->
  (forall i, (i + 1 < List.length l)%nat -> nth (i + 1) l 0 <= nth i l 0) -> mean (block w j l) <= mean (block w k l).
Proof.
  intros W K J H. unfold mean. rewrite !block_length by nia. unfold Rdiv. apply Rmult_le_compat_r.
  { left. apply Rinv_0_lt_compat. apply lt_0_INR. lia. }
  apply rsum_le. apply Forall2_nth_le. { rewrite !block_length by nia. auto. }
  rewrite block_length by auto. intros i Hi. unfold block. rewrite !nth_firstn_lt by auto. rewrite !nth_skipn_at.
  replace (j * w + i)%nat with ((k * w + i) + (j - k) * w)%nat by nia. apply nonincreasing; auto. nia.
Qed.
Lemma progress_decreasing num_bp bs errs : map batch_errors bs = map pair_num errs ->
  (forall i, (i + 1 < List.length errs)%nat ->
     fst (nth (i + 1) errs (0, 0)) <= fst (nth i errs (0, 0)) /\ snd (nth (i + 1) errs (0, 0)) <= snd (nth i errs (0, 0))) ->
  progress_end_cycle (pg_average (progress_batches num_bp (mkProg [] []) bs)) = Shutdown.
Proof.
  intros E H. apply (proj1 (progress_main num_bp E)). intros k Hk.
  assert (W : (1 <= window num_bp)%nat) by (unfold window; lia).
  rewrite <- !block_map. split; apply block_mean_le; auto; try lia; try (rewrite map_length; lia).
  - intros i Hi. rewrite map_length in Hi. change 0 with (fst (0, 0)). rewrite !map_nth. apply H. auto.
  - intros i Hi. rewrite map_length in Hi. change 0 with (snd (0, 0)). rewrite !map_nth. apply H. auto.
Qed.

(** ** Sampler *)
Section Smp.
Context {B : Type}.
Lemma sampler_refuted sched rnd fresh group received f (s : sampler B) :
  sampler_begin_batch batch_sampler_has_log_scalar sched rnd fresh group received f s = (s, Err AttributeError).
Proof. reflexivity. Qed.

Lemma step_counter sched rnd fresh group received f (s : sampler B) :
  bs_counter (fst (sampler_begin_batch true sched rnd fresh group received f s)) = S (bs_counter s).
Proof.
  unfold sampler_begin_batch, use_model_batch. destruct (Rlt_dec rnd (sched (INR (S (bs_counter s))))); auto.
  unfold sample_model_batch. cbn [bs_iter bs_counter]. destruct (bs_iter s); auto. destruct fresh; auto.
Qed.
Lemma step_iter sched rnd fresh group received f (s : sampler B) b :
  In b (bs_iter (fst (sampler_begin_batch true sched rnd fresh group received f s))) -> In b (bs_iter s ++ fresh).
Proof.
  unfold sampler_begin_batch, use_model_batch. rewrite in_app_iff. destruct (Rlt_dec rnd (sched (INR (S (bs_counter s))))); cbn [fst bs_iter]; auto.
  unfold sample_model_batch. cbn [bs_iter bs_counter]. destruct (bs_iter s) as [|x l0]; cbn [fst bs_iter In]; auto. destruct fresh as [|y q]; cbn [fst bs_iter In]; auto.
Qed.
Lemma run_nth sched group f : forall steps (s : sampler B) n rnd fresh received, nth_error steps n = Some (rnd, fresh, received) ->
  exists it, nth_error (sampler_run true sched group f s steps) n =
    Some (snd (sampler_begin_batch true sched rnd fresh group received f (mkSampler it (bs_counter s + n)))) /\
    forall b, In b it -> In b (bs_iter s ++ concat (map (fun x => snd (fst x)) (firstn n steps))).
Proof.
  induction steps as [|[[rnd0 fresh0] received0] steps IH]; intros s n rnd fresh received H; [destruct n; discriminate|].
  cbn [sampler_run]. destruct (sampler_begin_batch true sched rnd0 fresh0 group received0 f s) as [s' out] eqn:E.
  destruct n as [|n].
  - injection H as -> -> ->. exists (bs_iter s). cbn [nth_error]. rewrite Nat.add_0_r. split; [|intros b Hb; apply in_or_app; auto].
    destruct s as [it0 c0]. cbn [bs_iter bs_counter] in *. rewrite E. reflexivity.
  - cbn [nth_error] in H |- *. destruct (IH s' _ _ _ _ H) as [it [Hit Hin]]. exists it. rewrite Hit.
    assert (C : bs_counter s' = S (bs_counter s)) by (rewrite <- (step_counter sched rnd0 fresh0 group received0 f s), E; auto).
    rewrite C. replace (S (bs_counter s) + n)%nat with (bs_counter s + S n)%nat by lia. split; [reflexivity|].
    intros b Hb. apply Hin in Hb. cbn [firstn map concat fst snd]. rewrite !in_app_iff in *. destruct Hb as [Hb|Hb]; auto.
    pose proof (@step_iter sched rnd0 fresh0 group received0 f s b) as Q. rewrite E in Q. cbn [fst] in Q. apply Q in Hb. rewrite in_app_iff in Hb. tauto.
Qed.
Lemma sampler_step_ok lo hi from upto group f steps (it : list B) n rnd fresh received :
  nth_error steps n = Some (rnd, fresh, received) ->
  let prob := bp_evaluate_at from upto lo hi (INR (n + 1)) in
  exists out, nth_error (sampler_run true (bp_evaluate_at from upto lo hi) group f (mkSampler it 0) steps) n = Some out /\
    (prob <= rnd -> out = match dget received group with Some b => Ok (f b) | None => Err KeyError end) /\
    (rnd < prob -> fresh <> [] -> exists b, out = Ok b /\ In b (it ++ concat (map (fun x => snd (fst x)) (firstn (n + 1) steps)))).
Proof.
  intros H. cbn zeta. destruct (run_nth (bp_evaluate_at from upto lo hi) group f (mkSampler it 0) H) as [it' [Hit Hin]]. cbn [bs_counter bs_iter Nat.add] in Hit, Hin.
  rewrite Hit. eexists. split; [reflexivity|]. unfold sampler_begin_batch, use_model_batch. cbn [bs_counter bs_iter].
  replace (n + 1)%nat with (S n) by lia.
  destruct (Rlt_dec rnd (bp_evaluate_at from upto lo hi (INR (S n)))) as [Lt|Ge].
  - split; [intros; lra|]. intros _ Nf.
    assert (F : forall b, In b (it' ++ fresh) -> In b (it ++ concat (map (fun x => snd (fst x)) (firstn (S n) steps)))).
    { assert (E : firstn (S n) steps = firstn n steps ++ [(rnd, fresh, received)]).
      { clear - H. revert n H. induction steps as [|x l IH]; intros [|n] H; try discriminate; cbn in *. { injection H as ->. auto. } rewrite <- IH by auto. auto. }
      intros b. rewrite E, map_app, concat_app, app_assoc, !in_app_iff. cbn [map concat fst snd]. rewrite app_nil_r. intros [Hb|Hb]; auto. apply Hin in Hb. rewrite in_app_iff in Hb. tauto. }
    unfold sample_model_batch. cbn [bs_iter].
    destruct it' as [|b it']; [|exists b; split; [reflexivity|apply F; left; auto]]. destruct fresh as [|b r]; [congruence|exists b; split; [reflexivity|apply F; left; auto]].
  - split; [|intros; lra]. intros _. reflexivity.
Qed.
Lemma schedule_ramp from upto lo hi bp : lo <= hi ->
  lo <= bp_evaluate_at from upto lo hi bp <= hi /\
  (forall bp', bp <= bp' -> bp_evaluate_at from upto lo hi bp <= bp_evaluate_at from upto lo hi bp') /\
  (1 <= upto - from -> (bp <= from -> bp_evaluate_at from upto lo hi bp = lo) /\ (upto <= bp -> bp_evaluate_at from upto lo hi bp = hi) /\
     (from <= bp <= upto -> bp_evaluate_at from upto lo hi bp = lo + (bp - from) * ((hi - lo) / (upto - from)))).
Proof.
  intros H. unfold bp_evaluate_at. split; [apply ramp_bounds; auto|]. split; [intros; apply ramp_mono; auto|]. intros W.
  assert (T : / 10 ^ 10 <= upto - from). { apply Rle_trans with 1; auto. rewrite <- Rinv_1. apply Rinv_le_contravar; lra. }
  split; [|split]; intros.
  - apply ramp_low; auto.
  - apply ramp_high; auto.
  - apply ramp_mid; auto.
Qed.
Lemma model_batches_cons l k (s : sampler B) : (0 < List.length l)%nat ->
  model_batches s (repeat l (S k)) = snd (sample_model_batch l s) :: model_batches (fst (sample_model_batch l s)) (repeat l k).
Proof. intros H. cbn [repeat model_batches]. destruct (sample_model_batch l s); auto. Qed.
Lemma model_batches_order (l : list B) d : l <> [] -> forall k it c i, (i < k)%nat ->
  (exists done, l = done ++ it) ->
  nth i (model_batches (mkSampler it c) (repeat l k)) (Err StopIteration) = Ok (nth ((List.length l - List.length it + i) mod List.length l) l d).
Proof.
  intros N. assert (L : (0 < List.length l)%nat) by (destruct l; [congruence|cbn; lia]).
  induction k as [|k IH]; intros it c i Hi [done Hd]; [lia|].
  rewrite model_batches_cons by auto.
  destruct it as [|b it].
  - destruct l as [|b r] eqn:El; [congruence|]. rewrite <- El in *. unfold sample_model_batch. cbn [bs_iter]. rewrite El at 1 2. cbn [fst snd bs_counter].
    destruct i as [|i]; cbn [nth List.length].
    + rewrite Nat.sub_0_r, Nat.add_0_r, Nat.mod_same by lia. subst l. reflexivity.
    + rewrite IH; [|lia|exists [b]; auto]. do 2 f_equal. rewrite El. cbn [List.length].
      replace (S (List.length r) - 0 + S i)%nat with (S i + 1 * S (List.length r))%nat by lia. rewrite Nat.mod_add by lia.
      f_equal. lia.
  - unfold sample_model_batch. cbn [bs_iter fst snd bs_counter].
    assert (Ll : List.length l = (List.length done + S (List.length it))%nat) by (rewrite Hd, app_length; reflexivity).
    destruct i as [|i]; cbn [nth List.length].
    + rewrite Nat.mod_small by lia. replace (List.length l - S (List.length it) + 0)%nat with (List.length done) by lia.
      rewrite Hd, app_nth2, Nat.sub_diag by lia. reflexivity.
    + rewrite IH; [|lia|exists (done ++ [b]); rewrite <- app_assoc; auto]. do 3 f_equal. lia.
Qed.
End Smp.

(** ** Weights and Biases *)
Section WbP.
Context {P I V : Type}.
Definition assign (l : list (string * wbval I V)) (d : dict string (wbval I V)) := fold_left (fun d kv => dset d (fst kv) (snd kv)) l d.
Lemma assign_app a b d : assign (a ++ b) d = assign b (assign a d).
Proof. unfold assign. apply fold_left_app. Qed.
Lemma assign_map {A} (f : A -> string * wbval I V) l : forall d, fold_left (fun d x => dset d (fst (f x)) (snd (f x))) l d = assign (map f l) d.
Proof. unfold assign. induction l as [|x l IH]; intros d; cbn [map fold_left]; auto. Qed.
Lemma assign_get l : forall d t, dget (assign l d) t = match last_value l t with Some x => Some x | None => dget d t end.
Proof.
  induction l as [|[k v] l IH]; intros d t; cbn [assign fold_left last_value]; auto.
  change (fold_left (fun d kv => dset d (fst kv) (snd kv)) l (dset d k v)) with (assign l (dset d k v)). rewrite IH.
  destruct (last_value l t); auto. destruct (String.eqb_spec k t) as [-> | N].
  - apply dget_dset_eq.
  - apply dget_dset_neq; auto.
Qed.
Lemma wb_windows_ok ws : forall d : dict string (wbval I V), (forall k w n, In (k, (w, n)) ws -> w <> []) ->
  wb_windows ws d = Ok (assign (map (fun kw => (tag (fst kw), WbVal (WMean (zsum (fst (snd kw))) (zlen (fst (snd kw)))))) ws) d).
Proof.
  induction ws as [|[k [w n]] ws IH]; intros d H; auto. cbn [wb_windows map].
  destruct w as [|x w]. { exfalso. apply (H k [] n); [left; auto|auto]. }
  rewrite IH; [reflexivity|]. intros k' w' n' Hin. apply (H k' w' n'). right; auto.
Qed.
Lemma wb_one_ok (cb : loggable P I V) d : windows_filled cb -> wb_one cb d = Ok (assign (entries_of cb) d).
Proof.
  intros H. unfold wb_one. rewrite wb_windows_ok by exact H. cbn [rbind]. unfold entries_of. rewrite !assign_app. f_equal.
  rewrite <- (assign_map (fun kv => (tag (fst kv), WbVideo (snd kv)))). cbn [fst snd]. f_equal.
  rewrite <- (assign_map (fun kv => (tag (fst kv), WbImage (snd kv)))). cbn [fst snd]. f_equal.
  rewrite <- (assign_map (fun kv => (String.append (tag (fst kv)) "/cumulative", WbVal (WVal (snd kv))))). cbn [fst snd]. f_equal. f_equal.
  rewrite <- (assign_map (fun kv => (tag (fst kv), WbVal (WVal (snd kv))))). reflexivity.
Qed.
Lemma wb_all_ok (cbs : list (loggable P I V)) : forall d, (forall cb, In cb cbs -> windows_filled cb) -> wb_all cbs d = Ok (assign (flat_map entries_of cbs) d).
Proof.
  induction cbs as [|cb cbs IH]; intros d H; auto. cbn [wb_all flat_map]. rewrite wb_one_ok by (apply H; left; auto). cbn [rbind].
  rewrite IH by (intros; apply H; right; auto). rewrite assign_app. reflexivity.
Qed.
Lemma wb_main (cbs : list (loggable P I V)) step0 samples0 elapsed step samples : (forall cb, In cb cbs -> windows_filled cb) -> elapsed <> 0%Z ->
  exists d, wb_end_cycle cbs step0 samples0 elapsed step samples = Ok d /\
    forall t, dget d t = last_value (flat_map entries_of cbs ++
      [("performance/bp_samples_per_sec", WbVal (WRate (samples - samples0) elapsed));
       ("performance/bp_steps_per_sec", WbVal (WRate (step - step0) elapsed)); ("log/bp_step", WbStep step)]) t.
Proof.
  intros H E. unfold wb_end_cycle. rewrite wb_all_ok by auto. cbn [rbind]. destruct (Z.eqb_spec elapsed 0); [congruence|].
  eexists. split; [reflexivity|]. intros t.
  match goal with |- _ = last_value (?a ++ ?b) t => transitivity (dget (assign (a ++ b) []) t) end.
  - rewrite assign_app. reflexivity.
  - rewrite assign_get. destruct (last_value _ t); auto.
Qed.
Lemma last_value_app {A} (a b : list (string * A)) t : last_value (a ++ b) t = match last_value b t with Some x => Some x | None => last_value a t end.
Proof. induction a as [|[k v] a IH]; cbn [app last_value]. { destruct (last_value b t); auto. } rewrite IH. destruct (last_value b t); auto. Qed.
Lemma last_value_in {A} (l : list (string * A)) t x : last_value l t = Some x -> In (t, x) l.
Proof.
  induction l as [|[k v] l IH]; cbn [last_value]; [discriminate|]. destruct (last_value l t) as [y|]; intros H.
  - right. apply IH; auto.
  - destruct (String.eqb_spec k t) as [-> | N]; [|discriminate]. injection H as ->. left; auto.
Qed.
Lemma last_value_none {A} (l : list (string * A)) t : last_value l t = None <-> ~ In t (map fst l).
Proof.
  induction l as [|[k v] l IH]; cbn [last_value map fst In]; [tauto|]. destruct (last_value l t) as [y|] eqn:E.
  - split; [discriminate|]. intros H. exfalso. apply H. right. apply last_value_in in E. apply (in_map fst) in E. exact E.
  - destruct (String.eqb_spec k t); split; intros H; try discriminate; try tauto.
Qed.
Lemma last_value_nodup {A} (l : list (string * A)) t x : NoDup (map fst l) -> In (t, x) l -> last_value l t = Some x.
Proof.
  induction l as [|[k v] l IH]; cbn [last_value map fst]; [intros _ []|]. intros N [E|H]; inversion N; subst.
  - injection E as -> ->. destruct (last_value l t) eqn:Q. { apply last_value_in in Q. apply (in_map fst) in Q. contradiction. } rewrite String.eqb_refl. auto.
  - rewrite IH; auto.
Qed.
Lemma tag_head k : exists p, fst (split_on "/"%char (tag k)) = String.append p "_bp_step".
Proof.
  destruct (tag_eq k) as (p & ps & E & ->). exists p. destruct (split_join E) as (_ & H1 & H2). rewrite join_split; auto.
  apply without_app. split; auto. apply without_sfx.
Qed.
Lemma split_head_app a b : fst (split_on "/"%char (String.append a (String "/" b))) = fst (split_on "/"%char a).
Proof.
  induction a as [|c a IH]; cbn [String.append split_on fst].
  - destruct (split_on "/"%char b). reflexivity.
  - destruct (split_on "/"%char (String.append a (String "/" b))) as [p ps]. destruct (split_on "/"%char a) as [q qs]. cbn [fst] in IH. subst q.
    destruct (Ascii.eqb c "/"); reflexivity.
Qed.
Lemma entries_head (cbs : list (loggable P I V)) t : In t (map fst (flat_map entries_of cbs)) -> exists p, fst (split_on "/"%char t) = String.append p "_bp_step".
Proof.
  intros H. apply in_map_iff in H. destruct H as [[t' v] [<- H]]. apply in_flat_map in H. destruct H as [cb [_ H]]. unfold entries_of in H.
  rewrite !in_app_iff, !in_map_iff in H. cbn [fst].
  destruct H as [[x [E _]]|[[x [E _]]|[[x [E _]]|[[x [E _]]|[x [E _]]]]]]; injection E as <- _; try apply tag_head.
  change "/cumulative" with (String "/" "cumulative"). rewrite split_head_app. apply tag_head.
Qed.
Lemma no_suffix p : String.append p "_bp_step" <> "performance" /\ String.append p "_bp_step" <> "log".
Proof.
  split; intros H.
  - do 12 (destruct p as [|? p]; [discriminate H| cbn [String.append] in H; try (injection H as _ H); try discriminate H]).
  - do 4 (destruct p as [|? p]; [discriminate H| cbn [String.append] in H; try (injection H as _ H); try discriminate H]).
Qed.
Lemma wb_distinct (cbs : list (loggable P I V)) step0 samples0 elapsed step samples : (forall cb, In cb cbs -> windows_filled cb) -> elapsed <> 0%Z ->
  NoDup (map fst (flat_map entries_of cbs)) ->
  exists d, wb_end_cycle cbs step0 samples0 elapsed step samples = Ok d /\
    (forall cb t v, In cb cbs -> In (t, v) (entries_of cb) -> dget d t = Some v) /\
    dget d "performance/bp_samples_per_sec" = Some (WbVal (WRate (samples - samples0) elapsed)) /\
    dget d "performance/bp_steps_per_sec" = Some (WbVal (WRate (step - step0) elapsed)) /\
    dget d "log/bp_step" = Some (WbStep step).
Proof.
  intros H E N. destruct (wb_main step0 samples0 step samples H E) as [d [Hd G]]. exists d. split; auto. split.
  - intros cb t v Hc Hv. rewrite G, last_value_app.
    assert (Hin : In (t, v) (flat_map entries_of cbs)) by (apply in_flat_map; eauto).
    assert (Q : last_value [("performance/bp_samples_per_sec", WbVal (I := I) (V := V) (WRate (samples - samples0) elapsed));
       ("performance/bp_steps_per_sec", WbVal (WRate (step - step0) elapsed)); ("log/bp_step", WbStep step)] t = None).
    { apply last_value_none. intros C. destruct (@entries_head cbs t) as [p Hp]. { apply (in_map fst) in Hin. exact Hin. }
      destruct (no_suffix p) as [S1 S2]. cbn [map fst] in C. destruct C as [<- | [<- | [<- | []]]]; cbn in Hp; congruence. }
    rewrite Q. apply last_value_nodup; auto.
  - rewrite !G, !last_value_app. split; [|split]; reflexivity.
Qed.
Lemma wb_empty_window (cb : loggable P I V) cbs k n r step0 samples0 elapsed step samples : lg_windows (lb_logs cb) = (k, ([], n)) :: r ->
  wb_end_cycle (cb :: cbs) step0 samples0 elapsed step samples = Err ZeroDivisionError.
Proof. intros H. unfold wb_end_cycle. cbn [wb_all]. unfold wb_one. rewrite H. reflexivity. Qed.
End WbP.

(** ** System *)
Lemma system_memory s m c k : dget (sy_logs (system_end_cycle s m c k)) "system/ram_usage_mb" = Some m /\
  dget (sy_logs (system_end_cycle s m c k)) "system/cpu_load" = Some c.
Proof.
  unfold system_end_cycle. cbn [sy_logs]. rewrite dget_dset_eq, dget_dset_neq by discriminate. split; auto.
  destruct (0 <? k - sy_step s)%Z; [rewrite dget_dset_neq by discriminate|]; apply dget_dset_eq.
Qed.
Lemma system_growth s m c k : (sy_step s < k)%Z ->
  dget (sy_logs (system_end_cycle s m c k)) "system/ram_usage_growth_mb_step" = Some ((m - sy_memory s) / IZR (k - sy_step s)).
Proof.
  intros H. unfold system_end_cycle. cbn [sy_logs]. destruct (Z.ltb_spec 0 (k - sy_step s)); [|lia].
  rewrite dget_dset_neq by discriminate. apply dget_dset_eq.
Qed.
Lemma system_total cycles : forall s, increasing (sy_step s) (map snd cycles) ->
  growth_of (sy_step s) (map sy_logs (system_run s cycles)) (map snd cycles) = last (map (fun x => fst (fst x)) cycles) (sy_memory s) - sy_memory s.
Proof.
  induction cycles as [|[[m c] k] cycles IH]; intros s H.
  - cbn. lra.
  - cbn [map snd increasing] in H. destruct H as [H1 H2]. cbn [system_run map snd growth_of]. rewrite system_growth by auto.
    change (growth_of k) with (growth_of (sy_step (system_end_cycle s m c k))).
    rewrite (IH (system_end_cycle s m c k) H2). cbn [fst].
    assert (K : IZR (k - sy_step s) <> 0) by (apply not_0_IZR; lia).
    replace (last (m :: map (fun x => fst (fst x)) cycles) (sy_memory s)) with (last (map (fun x : R * R * Z => fst (fst x)) cycles) m).
    + cbn [sy_memory system_end_cycle]. field. auto.
    + clear. revert m. induction cycles as [|x l IH]; intros m; auto. cbn [map]. destruct l as [|y l]; auto.
      specialize (IH m). cbn [map last] in *. destruct (map _ l); auto.
Qed.
Lemma system_same_step s m c : dget (sy_logs (system_end_cycle s m c (sy_step s))) "system/ram_usage_growth_mb_step" = dget (sy_logs s) "system/ram_usage_growth_mb_step".
Proof. unfold system_end_cycle. cbn [sy_logs]. rewrite Z.sub_diag. cbn [Z.ltb Z.compare]. rewrite !dget_dset_neq by discriminate. auto. Qed.
Lemma terminal_ok logs step k v : In (k, step, v) (terminal_lines logs step) <-> exists d, In d logs /\ In (k, v) d.
Proof.
  unfold terminal_lines. rewrite in_flat_map. split.
  - intros [d [Hd H]]. apply in_map_iff in H. destruct H as [[k' v'] [E H]]. cbn in E. injection E as -> ->. eauto.
  - intros [d [Hd H]]. exists d. split; auto. apply in_map_iff. exists (k, v). auto.
Qed.
Lemma system_since_start cycles rss : increasing 0 (map snd cycles) ->
  growth_of 0 (map sy_logs (system_run (system_init rss) cycles)) (map snd cycles) = last (map (fun x => fst (fst x)) cycles) rss - rss.
Proof. exact (@system_total cycles (system_init rss)). Qed.
