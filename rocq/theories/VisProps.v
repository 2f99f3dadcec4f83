(** * VisProps: C84-C87 *)
From Coq Require Import QArith.
From Verif Require Import Py VisModel VisSpec VisProofs VisFrames VisCut VisCases.
Open Scope list_scope.
Open Scope Z_scope.

(** C84: for as many settings as layers, every result of an encoder has the shape that
    get_encoder_output_size reports, and a result exists exactly when every kernel fits. *)
Theorem C84_output_size2_partial : forall (A : Type) (zero : A) w shape channels ks ss ps last flatten e x,
  make_enc2 w shape channels ks ss ps last flatten = Ok e ->
  channels <> [] -> Forall (fun c => 1 <= c) channels -> zipped channels ks ss ps -> input2 shape x ->
  forall out, forward2 zero e x = Ok out -> exists sh, output_size2 e = Ok sh /\ has_shape2 out sh.
Proof. exact @output_size2_exact. Qed.
Print Assumptions C84_output_size2_partial.
Theorem C84_forward2 : forall (A : Type) (zero : A) w shape channels ks ss ps last flatten e x,
  make_enc2 w shape channels ks ss ps last flatten = Ok e ->
  Forall (fun c => 1 <= c) channels -> zipped channels ks ss ps -> input2 shape x ->
  let '(a, b, c) := shape in
  let '(sx, sy) := if last then (a, b) else (b, c) in
  (exists out, forward2 zero e x = Ok out) <-> (fits sx (settings ks ss ps) /\ fits sy (settings ks ss ps)).
Proof. exact @forward2_iff. Qed.
Print Assumptions C84_forward2.
Theorem C84_output_size1_partial : forall (A : Type) (zero : A) w shape channels ks ss ps last flatten e x,
  make_enc1 w shape channels ks ss ps last flatten = Ok e ->
  channels <> [] -> Forall (fun c => 1 <= c) channels -> zipped channels ks ss ps -> input1 shape x ->
  forall out, forward1 zero e x = Ok out -> exists sh, output_size1 e = Ok sh /\ has_shape1 out sh.
Proof. exact @output_size1_exact. Qed.
Print Assumptions C84_output_size1_partial.
Theorem C84_forward1 : forall (A : Type) (zero : A) w shape channels ks ss ps last flatten e x,
  make_enc1 w shape channels ks ss ps last flatten = Ok e ->
  Forall (fun c => 1 <= c) channels -> zipped channels ks ss ps -> input1 shape x ->
  (exists out, forward1 zero e x = Ok out) <-> fits (if last then fst shape else snd shape) (settings ks ss ps).
Proof. exact @forward1_iff. Qed.
Print Assumptions C84_forward1.
(** With longer lists of settings the reported size is that of layers that do not exist. *)
Theorem C84_longer_refuted : exists (e : enc2 (A := Z)) x m,
  make_enc2 (fun _ _ _ => 0) (1, 4, 4) [1] [1; 3] [1; 1] [0; 0] false false = Ok e /\
  forward2 0 e x = Ok (Maps2 m) /\ is2 1 4 4 m /\ output_size2 e = Ok (Shape2 1 2 2).
Proof. exact longer_settings. Qed.
Print Assumptions C84_longer_refuted.
(** A positive size is also reported for layers whose kernels never fit. *)
Theorem C84_impossible_finding : exists (e : enc2 (A := Z)),
  make_enc2 (fun _ _ _ => 0) (1, 2, 2) [1] [4] [1] [0] false true = Ok e /\
  output_size2 e = Ok (Vec2 1) /\ forall x, input2 (1, 2, 2) x -> forward2 0 e x = Err RuntimeError.
Proof. exact impossible_layers. Qed.
Print Assumptions C84_impossible_finding.
Example C84_case : exists e out, make_enc2 (A := Z) (fun _ j f => Z.of_nat j + zsum (concat (concat f))) (5, 6, 1) [2; 3] [3; 2] [1; 2] [1; 0] true true = Ok e /\
  forward2 0 e (repeat (repeat [1] 6) 5) = Ok (Flat2 out) /\ output_size2 e = Ok (Vec2 18) /\ zlen out = 18 /\
  zipped [2; 3] [3; 2] [1; 2] [1; 0] /\ input2 (5, 6, 1) (repeat (repeat [1] 6) 5).
Proof. exact encoder_case. Qed.

(** C85: after any sequence of resets, steps and looks at earlier observations, every
    observation that was returned shows the last [n] frames of its episode at the time
    it was returned (filled up with the first), and reset and step always return one. *)
Theorem C85_last_frames : forall (P E Act : Type) (g : genv (P := P) E Act) n h w c, (1 <= n)%nat -> images_of g h w c -> forall e ops,
  let s := fs_run g n (mkStack e [] []) (FReset :: ops) in
  Forall2 (fun z fs => List.length fs = n /\ exists o, snd (force z) = Ok o /\ is_image h w (c * n) o /\
             forall x y, (x < h)%nat -> (y < w)%nat -> pixel o x y = concat (map (fun f => pixel f x y) fs))
          (fs_seen s) (shown_from g n e ops).
Proof. exact @stacks_shown. Qed.
Print Assumptions C85_last_frames.
Theorem C85_always_answers : forall (P E Act : Type) (g : genv (P := P) E Act) n, (1 <= n)%nat -> forall e ops a,
  let s := fs_run g n (mkStack e [] []) (FReset :: ops) in
  snd (fs_step g n s a) = Ok (List.length (fs_seen s)) /\ snd (fs_reset g n s) = Ok (List.length (fs_seen s)).
Proof. exact @stack_always_answers. Qed.
Print Assumptions C85_always_answers.
Example C85_case :
  let g := mkGenv (P := Z) (fun e : Z => (e + 100, [[[e]]])) (fun e a => (e + a, [[[e]]])) in
  images_of g 1 1 1 /\
  map (fun z => snd (force z)) (fs_seen (fs_run g 3 (mkStack 0 [] []) [FReset; FStep 1; FLook 0; FStep 1; FReset; FStep 5]))
  = [Ok [[[0; 0; 0]]]; Ok [[[0; 0; 100]]]; Ok [[[0; 100; 101]]]; Ok [[[102; 102; 102]]]; Ok [[[102; 102; 202]]]].
Proof. exact frames_case. Qed.

(** C86: the observations of ScaledFloatFrame lie between -1 and 1; the declared space is
    [0, 1], and every pixel in the lower half leaves it. *)
Theorem C86_scaled_partial : forall px, 0 <= px <= 255 ->
  (-(1) <= scaled px /\ scaled px <= 1)%Q /\ (128 <= px -> (scaled_low <= scaled px /\ scaled px <= scaled_high)%Q).
Proof. exact (fun px H => conj (scaled_range H) (fun L => scaled_above (conj L (proj2 H)))). Qed.
Print Assumptions C86_scaled_partial.
Theorem C86_scaled_refuted : forall px, px < 128 -> (scaled px < scaled_low)%Q.
Proof. exact scaled_below. Qed.
Print Assumptions C86_scaled_refuted.
Example C86_case : (scaled 0 == -(1))%Q /\ (scaled 255 == 1)%Q.
Proof. exact scaled_case. Qed.

(** C87: the result is the batch, with noise when the first number drawn is below a quarter, where every image is blanked in
    exactly one rectangle of a relative size between the two bounds that lies inside
    the image; the fast variant uses one rectangle for all images, the default of the
    others one size. *)
Theorem C87_cutout_partial : forall (V : Type) (zero : V) c h w ch d images, sane c -> (1 <= h)%nat -> (1 <= w)%nat -> Forall unit_interval (dr_rand d) ->
  Forall (is_image h w ch) images -> Forall (is_image h w ch) (dr_noise d images) ->
  exists base out rs, snd (augment zero c (Z.of_nat h) (Z.of_nat w) d images) = Ok out /\
    ((noisy c d -> base = dr_noise d images) /\ (noise_free c d -> base = images)) /\
    all_cut zero c h w rs base out /\
    (au_fast c = true -> exists r, rs = map (fun _ => r) base) /\
    (au_fast c = false -> au_per_image c = false -> exists mx my, Forall (fun r => snd (fst r) = mx /\ snd r = my) rs).
Proof. exact @augment_result. Qed.
Print Assumptions C87_cutout_partial.
(** The batch that was passed in stays as it was when noise is added; when none is added,
    it becomes the result: the caller's images are blanked. *)
Theorem C87_argument_refuted : forall (V : Type) (zero : V) c h w d images,
  (noisy c d -> fst (augment zero c h w d images) = images) /\
  (noise_free c d -> forall out, snd (augment zero c h w d images) = Ok out -> fst (augment zero c h w d images) = out).
Proof. exact @augment_argument. Qed.
Print Assumptions C87_argument_refuted.
(** The last row and the last column are never blanked. *)
Theorem C87_last_row_finding : forall (V : Type) (zero : V) c h w ch d images, sane c -> (1 <= h)%nat -> (1 <= w)%nat -> Forall unit_interval (dr_rand d) ->
  Forall (is_image h w ch) images -> Forall (is_image h w ch) (dr_noise d images) ->
  exists base out, snd (augment zero c (Z.of_nat h) (Z.of_nat w) d images) = Ok out /\
    ((noisy c d -> base = dr_noise d images) /\ (noise_free c d -> base = images)) /\ Forall2 (spared h w) base out.
Proof. exact @augment_spares. Qed.
Print Assumptions C87_last_row_finding.
Example C87_case :
  let c := mkAug false false false (1 # 5) (1 # 2) in
  let img := repeat (repeat [7] 4) 5 in
  sane c /\ is_image 5 4 1 img /\
  augment 0 c 5 4 (mkDraws [9 # 10]%Q [1; 5; 0; 1] (fun x => x)) [img; img]
  = (let out := [[[[7]; [7]; [7]; [7]]; [[0]; [7]; [7]; [7]]; [[0]; [7]; [7]; [7]]; [[7]; [7]; [7]; [7]]; [[7]; [7]; [7]; [7]]];
                 [[[7]; [7]; [7]; [7]]; [[7]; [7]; [7]; [7]]; [[7]; [0]; [7]; [7]]; [[7]; [0]; [7]; [7]]; [[7]; [7]; [7]; [7]]]] in (out, Ok out)).
Proof. exact cut_case. Qed.
