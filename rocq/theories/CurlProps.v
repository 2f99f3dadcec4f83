(** * CurlProps: C100 and C101 *)
From Coq Require Import Reals Lra Lia.
From Verif Require Import Py NumModel PolSpec AlgoSpec GenSpec CurlModel CurlSpec CurlProofs CurlMore.
Open Scope list_scope.
Open Scope R_scope.

(** C100, with a temperature.  Whatever the two encoders return: the loss is the average
    over the images of minus the log of the probability with which an image picks its own
    augmentation among all, at scores similarity / temperature; it is never negative, and
    zero only for a batch of one image. *)
Theorem C100_temperature_loss : forall c image1 image2 b n z_a z_pos t, (0 < b)%nat -> (0 < n)%nat -> List.length image1 = b ->
  cu_encoder c image1 = Ok z_a -> cu_target c image2 = Ok z_pos -> shape n n (cu_W c) -> shape b n z_a -> shape b n z_pos ->
  cu_temperature c = Some t ->
  exists loss, curl_loss c image1 image2 = Ok loss /\
    loss = contrastive b (fun i j => similarity n (cu_W c) z_a z_pos i j / t) /\ 0 <= loss /\ (loss = 0 <-> b = 1%nat).
Proof. exact temperature_ok. Qed.
Print Assumptions C100_temperature_loss.

(** Scores may be shifted per image without a change of the loss: this is what subtracting
    the maximum "for numerical stability" relies on. *)
Theorem C100_shift : forall b score m, (0 < b)%nat -> contrastive b (fun i j => score i j - m i) = contrastive b score.
Proof. exact contrastive_shift. Qed.
Print Assumptions C100_shift.

(** Without a temperature the maximum of image [j]'s scores is subtracted from all scores
    of candidate [j]; the loss is right if all maxima are the same ... *)
Theorem C100_unscaled_loss_partial : forall c image1 image2 b n z_a z_pos m, (0 < b)%nat -> (0 < n)%nat -> List.length image1 = b ->
  cu_encoder c image1 = Ok z_a -> cu_target c image2 = Ok z_pos -> shape n n (cu_W c) -> shape b n z_a -> shape b n z_pos ->
  cu_temperature c = None -> (forall i, (i < b)%nat -> greatest b (similarity n (cu_W c) z_a z_pos i) (m i)) ->
  exists loss, curl_loss c image1 image2 = Ok loss /\
    loss = contrastive b (fun i j => similarity n (cu_W c) z_a z_pos i j - m j) /\ 0 <= loss /\
    ((forall i, (i < b)%nat -> m i = m 0%nat) -> loss = contrastive b (similarity n (cu_W c) z_a z_pos)).
Proof. exact unscaled_ok. Qed.
Print Assumptions C100_unscaled_loss_partial.
(** ... and wrong in general. *)
Theorem C100_unscaled_loss_refuted : exists c image1 image2 z_a z_pos loss, cu_temperature c = None /\ cu_encoder c image1 = Ok z_a /\ cu_target c image2 = Ok z_pos /\
  shape 2 2 (cu_W c) /\ shape 2 2 z_a /\ shape 2 2 z_pos /\ List.length image1 = 2%nat /\
  curl_loss c image1 image2 = Ok loss /\ loss < contrastive 2 (similarity 2 (cu_W c) z_a z_pos).
Proof. exact unscaled_witness. Qed.
Print Assumptions C100_unscaled_loss_refuted.

(** desired_zdim is not ignored without a projection layer: an encoder with another
    output size makes every loss fail. *)
Theorem C100_any_encoder_size_refuted : forall c image1 image2 b n d rand z_a z_pos, (0 < b)%nat -> (0 < d)%nat -> n <> d -> cu_W c = init_W d rand ->
  cu_encoder c image1 = Ok z_a -> cu_target c image2 = Ok z_pos -> shape b n z_a -> shape b n z_pos ->
  curl_loss c image1 image2 = Err RuntimeError.
Proof. exact zdim_refuses. Qed.
Print Assumptions C100_any_encoder_size_refuted.
(** With the right size the matrix fits. *)
Theorem C100_matrix_fits : forall d rand, shape d d (init_W d rand).
Proof. exact init_W_shape. Qed.
Print Assumptions C100_matrix_fits.

Example C100_case : exists loss, curl_loss (witness (Some (1 / 10))) [[]; []] [[]; []] = Ok loss /\ 0 < loss.
Proof.
  destruct (C100_temperature_loss (witness (Some (1 / 10))) [[]; []] [[]; []] 2 2 [[2; 0]; [1; 1]] [[1; 0]; [0; 1]] (1 / 10)) as [loss [E [_ [P Z]]]];
    try reflexivity; try lia; try apply shape_two.
  exists loss. split; [exact E|]. destruct (Rle_lt_or_eq_dec _ _ P) as [|N]; auto. symmetry in N. apply Z in N. discriminate.
Qed.
Example C100_size_case : curl_loss (mkCurl (fun _ => Ok [[1; 2]]) (fun _ => Ok [[3; 4]]) (init_W 3 (fun _ _ => 0)) None) [[]] [[]] = Err RuntimeError.
Proof. apply (C100_any_encoder_size_refuted _ _ _ 1 2 3 (fun _ _ => 0) [[1; 2]] [[3; 4]]); try reflexivity; try lia; split; auto. Qed.

(** C101.  After construction the target's projection layer is a copy of the encoder's. *)
Theorem C101_initial_copy_partial : forall source target, same_sizes source target ->
  pr_target (init_projections source target) = source /\ pr_source (init_projections source target) = source.
Proof. exact target_initial. Qed.
Print Assumptions C101_initial_copy_partial.
(** It stays this copy for ever, whatever tau and whatever the encoder learns. *)
Theorem C101_target_stays_finding : forall tau source target sources, same_sizes source target ->
  pr_target (batches tau (init_projections source target) sources) = source.
Proof. exact target_frozen. Qed.
Print Assumptions C101_target_stays_finding.
(** So it does not follow the encoder, for any tau except 0. *)
Theorem C101_target_follows_refuted : forall tau source target, tau <> 0 -> same_sizes source target -> (exists i x, nth_error source i = Some x /\ x <> []) ->
  exists sources, Forall (same_sizes source) sources /\
    pr_target (batches tau (init_projections source target) sources) <> follows tau source sources.
Proof. exact target_refuted. Qed.
Print Assumptions C101_target_follows_refuted.

Example C101_case : same_sizes [[1; 2]; [3]] [[0; 0]; [5]] /\ follows (1 / 2) [[1; 2]; [3]] [[[3; 2]; [3]]; [[4; 2]; [5]]] = [[3; 2]; [4]]
  /\ pr_target (batches (1 / 2) (init_projections [[1; 2]; [3]] [[0; 0]; [5]]) [[[3; 2]; [3]]; [[4; 2]; [5]]]) = [[1; 2]; [3]].
Proof.
  split; [reflexivity|]. split; [|apply C101_target_stays_finding; reflexivity].
  unfold follows, moved. simpl. repeat f_equal; lra.
Qed.
