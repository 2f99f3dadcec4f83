(** * CurlModel: emote/nn/curl.py (contrastive loss, target projection)

    Simplifications: floating point numbers are real numbers; a batch is the list of its
    rows; the encoders are arbitrary functions from a batch of images to a batch of rows;
    a parameter is the list of its numbers; image augmentation is in VisModel. *)
From Coq Require Import Reals.
From Verif Require Import Py NumModel.
Open Scope list_scope.
Open Scope R_scope.

(** [z.T] of a batch; emote/nn/curl.py:269 *)
Definition transpose (m : matrix) : matrix := map (fun j => column_of j m) (seq 0 (width m)).
(** torch.amax(logits, dim=1), of one row that is not empty; emote/nn/curl.py:281 *)
Definition row_max (row : list R) : R := match row with [] => 0 | x :: r => fold_left Rmax r x end.
(** [logits - maxima]: PyTorch lines a vector up with the last dimension, so entry [j] is
    subtracted in column [j]; emote/nn/curl.py:281 *)
Definition minus_vector (m : matrix) (v : list R) : matrix :=
  map (fun row => map (fun xy => fst xy - snd xy) (combine row v)) m.
(** F.log_softmax of one row; emote/nn/curl.py:286 *)
Definition log_softmax (row : list R) : list R :=
  let z := ln (rsum (map exp row)) in map (fun x => x - z) row.
(** F.one_hot(torch.arange(n), n).float(); emote/nn/curl.py:285 *)
Definition one_hot_arange (n : nat) : matrix :=
  map (fun i => map (fun j => if Nat.eqb i j then 1 else 0) (seq 0 n)) (seq 0 n).

(** emote/nn/curl.py:175-202 what the constructor decides on: the projection layers (here as
    functions on batches, none if use_projection_layer is off), the matrix W of
    desired_zdim rows and columns, and the temperature (none if use_temperature_variant
    is off). *)
Record curl : Type := mkCurl {
  cu_encoder : list matrix -> res matrix; cu_target : list matrix -> res matrix;
  cu_W : matrix; cu_temperature : option R }.

(** emote/nn/curl.py:259-287 CurlLoss._loss; an image is a matrix here *)
Definition curl_loss (c : curl) (image1 image2 : list matrix) : res R :=
  let batch_size := List.length image1 in
  rbind (cu_encoder c image1) (fun z_a =>
  rbind (cu_target c image2) (fun z_pos =>
  rbind (matmul (cu_W c) (transpose z_pos)) (fun Wz =>
  rbind (matmul z_a Wz) (fun logits =>
  let logits := match cu_temperature c with
                | Some t => map (map (fun x => x / t)) logits
                | None => minus_vector logits (map row_max logits)
                end in
  let labels := one_hot_arange batch_size in
  let loss := map (fun yl => rsum (map (fun ab => - fst ab * snd ab) (combine (fst yl) (log_softmax (snd yl)))))
                  (combine labels logits) in
  Ok (np_mean loss))))).

(** emote/nn/curl.py:198-202: W has desired_zdim rows and columns, with or without a
    projection layer; [rand] are the numbers drawn. *)
Definition init_W (desired_zdim : nat) (rand : nat -> nat -> R) : matrix :=
  map (fun i => map (rand i) (seq 0 desired_zdim)) (seq 0 desired_zdim).

(** ** The target projection layer *)
(** The weights of the two projection layers, and what is left of the two generators
    that layer.parameters() returned: the numbers of the parameters still to come.
    emote/nn/curl.py:181-187 *)
Record projections : Type := mkProj {
  pr_source : list (list R); pr_target : list (list R);
  pr_source_vars : list nat; pr_target_vars : list nat }.
(** target.data * (1.0 - tau) + param.data * tau; emote/nn/curl.py:15.
    Simplification: no broadcasting. *)
Definition blend (tau : R) (target param : list R) : list R :=
  map (fun ts => fst ts * (1 - tau) + snd ts * tau) (combine target param).
(** emote/nn/curl.py:13-15 soft_update_from_to on two generators: zip takes from the target
    generator, then from the source generator, and stops at the first that has ended;
    what it took is gone. *)
Fixpoint soft_update_from_to (tau : R) (source_vars target_vars : list nat) (source target : list (list R))
  : list nat * list nat * list (list R) :=
  match target_vars with
  | [] => (source_vars, [], target)
  | t :: target_vars' =>
    match source_vars with
    | [] => ([], target_vars', target)
    | s :: source_vars' =>
      soft_update_from_to tau source_vars' target_vars' source
        (set_at t (blend tau (nth t target []) (nth s source [])) target)
    end
  end.
(** one call with the generators that the callback keeps; emote/nn/curl.py:191 and 291-295 *)
Definition update_target (tau : R) (p : projections) : projections :=
  let '(sv, tv, target) := soft_update_from_to tau (pr_source_vars p) (pr_target_vars p) (pr_source p) (pr_target p) in
  mkProj (pr_source p) target sv tv.
(** emote/nn/curl.py:180-191 the constructor *)
Definition init_projections (source target : list (list R)) : projections :=
  update_target 1 (mkProj source target (seq 0 (List.length source)) (seq 0 (List.length target))).
(** One batch: the optimizer gives the source projection the weights [source]
    (emote/nn/curl.py:247; the target's are not among its parameters, 233-234), then end_batch,
    emote/nn/curl.py:289-295 *)
Definition batch (tau : R) (p : projections) (source : list (list R)) : projections :=
  update_target tau (mkProj source (pr_target p) (pr_source_vars p) (pr_target_vars p)).
(** a training run; emote/nn/curl.py:236-257 and 289-295 *)
Definition batches (tau : R) (p : projections) (sources : list (list (list R))) : projections :=
  fold_left (batch tau) sources p.
