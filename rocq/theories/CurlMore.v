(** * CurlMore *)
From Coq Require Import Reals Lra Lia.
From Verif Require Import Py NumModel NumProofs NumMatrix PolModel PolProofs PolMain PolSpec AlgoSpec GenSpec GenProofs CurlModel CurlSpec CurlProofs.
Set Implicit Arguments.
Unset Strict Implicit.
Open Scope list_scope.
Open Scope R_scope.

Lemma temperature_ok c image1 image2 b n z_a z_pos t : (0 < b)%nat -> (0 < n)%nat -> List.length image1 = b ->
  cu_encoder c image1 = Ok z_a -> cu_target c image2 = Ok z_pos -> shape n n (cu_W c) -> shape b n z_a -> shape b n z_pos ->
  cu_temperature c = Some t ->
  exists loss, curl_loss c image1 image2 = Ok loss /\
    loss = contrastive b (fun i j => similarity n (cu_W c) z_a z_pos i j / t) /\ 0 <= loss /\ (loss = 0 <-> b = 1%nat).
Proof.
  intros b0 n0 LI EA EP SW SA SP T. eexists. split; [exact (curl_temperature b0 n0 LI EA EP SW SA SP T)|].
  split; auto. now apply contrastive_bounds.
Qed.
Lemma unscaled_ok c image1 image2 b n z_a z_pos m : (0 < b)%nat -> (0 < n)%nat -> List.length image1 = b ->
  cu_encoder c image1 = Ok z_a -> cu_target c image2 = Ok z_pos -> shape n n (cu_W c) -> shape b n z_a -> shape b n z_pos ->
  cu_temperature c = None -> (forall i, (i < b)%nat -> greatest b (similarity n (cu_W c) z_a z_pos i) (m i)) ->
  exists loss, curl_loss c image1 image2 = Ok loss /\
    loss = contrastive b (fun i j => similarity n (cu_W c) z_a z_pos i j - m j) /\ 0 <= loss /\
    ((forall i, (i < b)%nat -> m i = m 0%nat) -> loss = contrastive b (similarity n (cu_W c) z_a z_pos)).
Proof.
  intros b0 n0 LI EA EP SW SA SP T M. eexists. split; [exact (curl_stable b0 n0 LI EA EP SW SA SP T)|].
  assert (E : contrastive b (fun i j => similarity n (cu_W c) z_a z_pos i j - rmax_of c b n z_a z_pos j) = contrastive b (fun i j => similarity n (cu_W c) z_a z_pos i j - m j)).
  { apply contrastive_ext. intros i j I J. f_equal. apply (greatest_unique (n := b) (f := similarity n (cu_W c) z_a z_pos j)).
    - now apply row_max_greatest.
    - now apply M. }
  split; auto. split; [now apply contrastive_bounds|]. intros Q. rewrite E.
  rewrite (@contrastive_ext b _ (fun i j => similarity n (cu_W c) z_a z_pos i j - (fun _ => m 0%nat) i)).
  - now apply (@contrastive_shift b (similarity n (cu_W c) z_a z_pos) (fun _ => m 0%nat)).
  - intros i j I J. now rewrite (Q j).
Qed.
Lemma contrastive_two s : contrastive 2 s = (ln (1 + exp (s 0%nat 1%nat - s 0%nat 0%nat)) + ln (1 + exp (s 1%nat 0%nat - s 1%nat 1%nat))) / 2.
Proof.
  unfold contrastive. simpl. assert (H : forall x y, - ln (exp x / (exp x + (exp y + 0))) = ln (1 + exp (y - x)) /\ - ln (exp y / (exp x + (exp y + 0))) = ln (1 + exp (x - y))).
  { intros x y. pose proof (exp_pos x). pose proof (exp_pos y). rewrite !ln_div by lra. split.
    - rewrite ln_exp. replace (exp x + (exp y + 0)) with (exp x * (1 + exp (y - x))).
      + rewrite ln_mult; [rewrite ln_exp; ring|lra|pose proof (exp_pos (y - x)); lra].
      + rewrite Rmult_plus_distr_l, Rmult_1_r, <- exp_plus. replace (x + (y - x)) with y by ring. ring.
    - rewrite ln_exp. replace (exp x + (exp y + 0)) with (exp y * (1 + exp (x - y))).
      + rewrite ln_mult; [rewrite ln_exp; ring|lra|pose proof (exp_pos (x - y)); lra].
      + rewrite Rmult_plus_distr_l, Rmult_1_r, <- exp_plus. replace (y + (x - y)) with x by ring. ring. }
  rewrite (proj1 (H (s 0%nat 0%nat) (s 0%nat 1%nat))), (proj2 (H (s 1%nat 0%nat) (s 1%nat 1%nat))). f_equal. ring.
Qed.
(** the witness: scores ((2, 0), (1, 1)) *)
Definition witness (t : option R) : curl := mkCurl (fun _ => Ok [[2; 0]; [1; 1]]) (fun _ => Ok [[1; 0]; [0; 1]]) [[1; 0]; [0; 1]] t.
Lemma witness_sim i j : (i < 2)%nat -> (j < 2)%nat ->
  similarity 2 [[1; 0]; [0; 1]] [[2; 0]; [1; 1]] [[1; 0]; [0; 1]] i j = at_ [[2; 0]; [1; 1]] i j.
Proof.
  intros I J. destruct i as [|[|i]]; [| |lia]; (destruct j as [|[|j]]; [| |lia]); unfold similarity, at_, PolSpec.entry; simpl; ring.
Qed.
Lemma witness_max i : (i < 2)%nat -> greatest 2 (similarity 2 [[1; 0]; [0; 1]] [[2; 0]; [1; 1]] [[1; 0]; [0; 1]] i) (nth i [2; 1] 0).
Proof.
  intros I. split.
  - exists 0%nat. split; [lia|]. rewrite witness_sim by lia. destruct i as [|[|i]]; [| |lia]; unfold at_, PolSpec.entry; reflexivity.
  - intros j J. rewrite witness_sim by lia. destruct i as [|[|i]]; [| |lia]; (destruct j as [|[|j]]; [| |lia]); unfold at_, PolSpec.entry; simpl; lra.
Qed.
Lemma shape_two a b c d : shape 2 2 [[a; b]; [c; d]].
Proof. split; auto. Qed.
Lemma unscaled_witness : exists c image1 image2 z_a z_pos loss, cu_temperature c = None /\ cu_encoder c image1 = Ok z_a /\ cu_target c image2 = Ok z_pos /\
  shape 2 2 (cu_W c) /\ shape 2 2 z_a /\ shape 2 2 z_pos /\ List.length image1 = 2%nat /\
  curl_loss c image1 image2 = Ok loss /\ loss < contrastive 2 (similarity 2 (cu_W c) z_a z_pos).
Proof.
  exists (witness None), [[]; []], [[]; []], [[2; 0]; [1; 1]], [[1; 0]; [0; 1]].
  destruct (@unscaled_ok (witness None) [[]; []] [[]; []] 2 2 [[2; 0]; [1; 1]] [[1; 0]; [0; 1]] (fun i => nth i [2; 1] 0)) as [loss [E [V _]]];
    try reflexivity; try lia; try apply shape_two.
  { exact witness_max. }
  exists loss. repeat (split; [try reflexivity; try apply shape_two; exact E|]). rewrite V.
  rewrite !contrastive_two. cbn [cu_W witness]. rewrite !witness_sim by lia. unfold at_, PolSpec.entry. cbn [nth].
  replace (0 - 1 - (2 - 2)) with (-1) by ring. replace (1 - 2 - (1 - 1)) with (-1) by ring. replace (0 - 2) with (-1 + -1) by ring. replace (1 - 1) with 0 by ring.
  rewrite exp_plus, exp_0. set (q := exp (-1)). assert (0 < q) by apply exp_pos.
  assert (q < 1) by (unfold q; rewrite <- exp_0; apply exp_increasing; lra).
  rewrite <- !ln_mult by nra. assert (ln ((1 + q) * (1 + q)) < ln ((1 + q * q) * (1 + 1))); [|lra].
  apply ln_increasing; nra.
Qed.
Lemma zdim_refuses c image1 image2 b n d rand z_a z_pos : (0 < b)%nat -> (0 < d)%nat -> n <> d -> cu_W c = init_W d rand ->
  cu_encoder c image1 = Ok z_a -> cu_target c image2 = Ok z_pos -> shape b n z_a -> shape b n z_pos ->
  curl_loss c image1 image2 = Err RuntimeError.
Proof.
  intros b0 d0 N EW EA EP SA SP. unfold curl_loss. rewrite EA, EP. cbn [rbind]. unfold matmul at 1. rewrite EW.
  replace (forallb _ (init_W d rand)) with false; [reflexivity|]. symmetry. unfold init_W.
  destruct d as [|d]; [lia|]. change (seq 0 (S d)) with (0%nat :: seq 1 d) at 2. cbn [map forallb]. rewrite map_length, seq_length.
  rewrite (transpose_at b0 SP), map_length, seq_length. rewrite (proj2 (Nat.eqb_neq _ _)) by congruence. reflexivity.
Qed.
Lemma init_W_shape d rand : shape d d (init_W d rand).
Proof. apply shape_seq. Qed.

(** ** The target projection *)
Lemma exhausted_update tau sv source target : soft_update_from_to tau sv [] source target = (sv, [], target).
Proof. destruct sv; reflexivity. Qed.
Lemma exhausted_batches tau sources : forall p, pr_target_vars p = [] ->
  pr_target (batches tau p sources) = pr_target p /\ pr_target_vars (batches tau p sources) = [].
Proof.
  induction sources as [|s r IH]; intros p E; cbn [batches fold_left]; auto.
  destruct (IH (batch tau p s)) as [A B].
  { unfold batch, update_target. cbn [pr_target_vars pr_source_vars pr_source pr_target]. rewrite E, exhausted_update. reflexivity. }
  split; [|exact B]. unfold batches in A. rewrite A. unfold batch, update_target. cbn [pr_target_vars pr_source_vars pr_source pr_target]. rewrite E, exhausted_update. reflexivity.
Qed.
Lemma blend_one t s : List.length t = List.length s -> blend 1 t s = s.
Proof.
  revert s. unfold blend. induction t as [|x t IH]; intros [|y s] E; simpl in *; try discriminate; auto.
  injection E as E. rewrite IH by exact E. f_equal. ring.
Qed.
Lemma set_at_here {A} (a : list A) x y r : set_at (List.length a) y (a ++ x :: r) = a ++ y :: r.
Proof. induction a as [|z a IH]; cbn; auto. now f_equal. Qed.
Lemma copy_loop source : forall pre k target, List.length pre = k -> Forall2 (fun s t => List.length t = List.length s) source target ->
  soft_update_from_to 1 (seq k (List.length source)) (seq k (List.length target)) (pre ++ source) (pre ++ target) = ([], [], pre ++ source).
Proof.
  induction source as [|s source IH]; intros pre k target L F; inversion F as [|? t ? target' E F']; subst; clear F; cbn [List.length seq soft_update_from_to]; auto.
  rewrite !app_nth2, Nat.sub_diag by lia. cbn [nth]. rewrite blend_one by exact E.
  rewrite set_at_here. replace (pre ++ s :: source) with ((pre ++ [s]) ++ source) by (rewrite <- app_assoc; reflexivity).
  replace (pre ++ s :: target') with ((pre ++ [s]) ++ target') by (rewrite <- app_assoc; reflexivity).
  apply IH; auto. rewrite app_length. simpl. lia.
Qed.
Lemma same_sizes_forall source target : same_sizes source target -> Forall2 (fun s t => List.length t = List.length s) source target.
Proof.
  unfold same_sizes. revert target. induction source as [|s r IH]; intros [|t tr] E; simpl in E; try discriminate; constructor.
  - injection E. auto.
  - apply IH. injection E. auto.
Qed.
Lemma target_initial source target : same_sizes source target -> pr_target (init_projections source target) = source /\ pr_source (init_projections source target) = source.
Proof.
  intros H. unfold init_projections, update_target. cbn [pr_target_vars pr_source_vars pr_source pr_target].
  pose proof (@copy_loop source [] 0 target eq_refl (same_sizes_forall H)) as E. cbn [app] in E. rewrite E. auto.
Qed.
Lemma target_frozen tau source target sources : same_sizes source target ->
  pr_target (batches tau (init_projections source target) sources) = source.
Proof.
  intros H. destruct (@exhausted_batches tau sources (init_projections source target)) as [E _].
  - unfold init_projections, update_target. cbn [pr_target_vars pr_source_vars pr_source pr_target].
    pose proof (@copy_loop source [] 0 target eq_refl (same_sizes_forall H)) as E. cbn [app] in E. rewrite E. reflexivity.
  - rewrite E. now apply target_initial.
Qed.
Lemma target_refuted tau source target : tau <> 0 -> same_sizes source target -> (exists i x, nth_error source i = Some x /\ x <> []) ->
  exists sources, Forall (same_sizes source) sources /\
    pr_target (batches tau (init_projections source target) sources) <> follows tau source sources.
Proof.
  intros T H [i [x [Ei X]]]. exists [map (map (fun v => v + 1)) source]. split.
  - constructor; auto. unfold same_sizes. rewrite map_map. apply map_ext. intros. now rewrite map_length.
  - rewrite target_frozen by exact H. cbn [follows fold_left]. unfold moved. intros E.
    assert (Z : nth_error (map (fun ts : list R * list R => map (fun yx => fst yx * (1 - tau) + snd yx * tau) (combine (fst ts) (snd ts))) (combine source (map (map (fun v => v + 1)) source))) i = Some x) by (rewrite <- E; exact Ei).
    assert (Z2 : nth_error (map (fun ts : list R * list R => map (fun yx => fst yx * (1 - tau) + snd yx * tau) (combine (fst ts) (snd ts))) (combine source (map (map (fun v => v + 1)) source))) i
                 = Some (map (fun v => v + tau) x)).
    { clear - Ei. revert i Ei. induction source as [|y r IH]; intros [|i] Ei; simpl in *; try discriminate.
      - injection Ei as ->. f_equal. clear. induction x as [|z x IH]; simpl; auto. f_equal; [ring|exact IH].
      - now apply IH. }
    rewrite Z2 in Z. injection Z as Z. destruct x as [|z x]; [congruence|]. simpl in Z. injection Z as Z _. lra.
Qed.
