(** * CstepProps: C146.  Read CstepSpec.v first. *)
From Coq Require Import Reals QArith ZArith.
From Verif Require Import Py NumModel VisModel VisSpec PolSpec CurlModel CurlSpec CstepModel CstepSpec CstepProofs.
Open Scope string_scope.
Open Scope list_scope.

(** Whatever is drawn, and whatever the networks: a step of contrastive learning compares
    augmentations of the very images of the batch, image by image; the images of the batch
    stay as they are; and what is logged is the first image and its two augmentations. *)
Theorem C146_contrast : forall (c : curl) (aug : augmentor) (both : bool) (h w ch b n : nat) (d1 d2 : draws (V := R))
    (observation : dict string (list (list (list (list R))))) (images : list (list (list (list R)))) (E T : list (list R) -> list R) (t : R),
  sane aug -> (1 <= h)%nat -> (1 <= w)%nat -> (1 <= b)%nat -> (1 <= n)%nat ->
  dget observation "images" = Some images -> List.length images = b -> Forall (is_image h w ch) images ->
  (forall d, d = d1 \/ d = d2 -> Forall unit_interval (dr_rand d) /\ (noisy aug d \/ noise_free aug d) /\
     Forall (is_image h w ch) (dr_noise d images) /\ List.length (dr_noise d images) = b) ->
  sees_each E (cu_encoder c) -> sees_each T (cu_target c) -> (forall x, List.length (E x) = n) -> (forall x, List.length (T x) = n) ->
  shape n n (cu_W c) -> cu_temperature c = Some t ->
  exists anchors positives, augmented aug h w d1 images anchors /\
    (if both then augmented aug h w d2 images positives else positives = images) /\
    curl_backward c aug both (Z.of_nat h) (Z.of_nat w) d1 d2 observation =
    Ok (contrastive b (fun i j => score n (cu_W c) (E (concat (nth i anchors []))) (T (concat (nth j positives []))) / t)%R,
        [nth 0 images []; nth 0 anchors []; nth 0 positives []]).
Proof. exact contrast_ok. Qed.
Print Assumptions C146_contrast.

(** Two images; the first augmentation adds no noise, the second does. *)
Example C146_case : sane case_aug /\ Forall (is_image 5 4 1) [dot 7; dot 8] /\
  (forall d, d = case_d1 \/ d = case_d2 -> Forall unit_interval (dr_rand d) /\ (noisy case_aug d \/ noise_free case_aug d) /\
     Forall (is_image 5 4 1) (dr_noise d [dot 7; dot 8]) /\ List.length (dr_noise d [dot 7; dot 8]) = 2%nat) /\
  sees_each total (cu_encoder case_curl) /\ sees_each total (cu_target case_curl) /\
  (forall x, List.length (total x) = 1%nat) /\ shape 1 1 (cu_W case_curl) /\
  snd (augment 0%R case_aug 5 4 case_d1 [dot 7; dot 8]) =
  Ok [[[[7]; [7]; [7]; [7]]; [[0]; [7]; [7]; [7]]; [[0]; [7]; [7]; [7]]; [[7]; [7]; [7]; [7]]; [[7]; [7]; [7]; [7]]];
      [[[8]; [8]; [8]; [8]]; [[8]; [8]; [8]; [8]]; [[8]; [0]; [8]; [8]]; [[8]; [0]; [8]; [8]]; [[8]; [8]; [8]; [8]]]]%R.
Proof.
  split; [repeat split; vm_compute; congruence|]. split; [repeat apply Forall_cons; try apply Forall_nil; apply dot_image|].
  split; [exact case_draws|]. split; [intros x; reflexivity|]. split; [intros x; reflexivity|].
  split; [exact (proj1 case_codes)|]. split; [exact (proj2 case_codes)|exact case_anchors].
Qed.
