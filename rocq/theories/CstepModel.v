(** * CstepModel: one step of contrastive learning (emote/nn/curl.py)

    Up to the loss; the optimizer step is in LossModel.  An image goes to the encoders as the
    list of its pixels, row after row. *)
From Coq Require Import Reals QArith ZArith.
From Verif Require Import Py NumModel VisModel CurlModel.
Open Scope string_scope.
Open Scope list_scope.

(** The pixels of an image, row after row; the order in which the tensors of
    emote/nn/curl.py:264-266 hold them. *)
Definition pixels (img : list (list (list R))) : matrix := concat img.

(** emote/nn/curl.py:236-245 and 254-257 CurlLoss.backward: the loss, and the three images that are
    logged.  [d1], [d2]: what is drawn by the two augmentations. Both work on clones, so that
    [images] stays as it is. *)
Definition curl_backward (c : curl) (aug : augmentor) (augment_anchor_and_pos : bool) (im_x im_y : Z)
    (d1 d2 : draws (V := R)) (observation : dict string (list (list (list (list R)))))
  : res (R * list (list (list (list R)))) :=
  rbind (match dget observation "images" with Some images => Ok images | None => Err KeyError end) (fun images =>
  rbind (snd (augment 0%R aug im_x im_y d1 images)) (fun image_aug1 =>
  rbind (if augment_anchor_and_pos then snd (augment 0%R aug im_x im_y d2 images) else Ok images) (fun image_aug2 =>
  rmap (fun loss => (loss, [nth 0 images []; nth 0 image_aug1 []; nth 0 image_aug2 []]))
    (curl_loss c (map pixels image_aug1) (map pixels image_aug2))))).
