(** * VisModel: convolutional encoders (emote/nn/layers.py), frame stacking
    (emote/env/wrappers.py) and image augmentation (emote/nn/curl.py)

    Simplifications: a tensor is the nested list of its rows; the batch dimension of an
    encoder's input is left out, because every layer treats the images of a batch
    separately. *)
From Coq Require Import QArith Qround.
From Verif Require Import Py.
Open Scope list_scope.
Open Scope Z_scope.

(** ** Convolution *)

(** The windows of [k] elements that start at 0, s, 2s, ... and fit into [l];
    [fuel] only makes the recursion structural (the number of elements is enough).  for the convolutions of emote/nn/layers.py:54-65, 141-152 *)
Fixpoint windows_from {B} (fuel k s : nat) (l : list B) : list (list B) :=
  match fuel with
  | 0%nat => []
  | S f => if (k <=? List.length l)%nat then firstn k l :: windows_from f k s (skipn s l) else []
  end.
(** for the convolutions of emote/nn/layers.py:54-65, 141-152 *)
Definition windows {B} (k s : nat) (l : list B) : list (list B) := windows_from (List.length l) k s l.
(** Zero padding on both sides.  for the convolutions of emote/nn/layers.py:54-65, 141-152 *)
Definition pad {B} (zero : B) (p : nat) (l : list B) : list B := repeat zero p ++ l ++ repeat zero p.

(** The size of the first two dimensions of a map.  as in emote/nn/layers.py:54-65, 141-152 *)
Definition size1 {B} (x : list (list B)) : nat := match x with [] => 0%nat | r :: _ => List.length r end.

Section Conv.
Context {A : Type} (zero : A).

(** One output channel of torch.nn.Conv1d: a value from the receptive field, which has
    one row of kernel size per input channel.  Simplification: any function of the
    field stands for the weighted sum with bias followed by the activation.  emote/nn/layers.py:141-152 *)
Definition unit1 : Type := list (list A) -> A.
(** torch.nn.Conv1d(c_in, _, k, s, padding=p).  emote/nn/layers.py:141-152 *)
Record conv1 : Type := mkConv1 { c1_in : Z; c1_k : Z; c1_s : Z; c1_p : Z; c1_units : list unit1 }.
(** Apply it to a map channel x position.  torch raises for a wrong number of channels, for
    a kernel that is larger than the padded input, and for settings that are not positive
    (negative for the padding).  emote/nn/layers.py:161-163 *)
Definition run_conv1 (l : conv1) (x : list (list A)) : res (list (list A)) :=
  let n := zlen (nth 0 x []) in
  if negb (zlen x =? c1_in l) || (c1_k l <? 1) || (c1_s l <? 1) || (c1_p l <? 0) || (n + 2 * c1_p l <? c1_k l)
  then Err RuntimeError
  else
    let k := Z.to_nat (c1_k l) in
    let s := Z.to_nat (c1_s l) in
    let padded := map (pad zero (Z.to_nat (c1_p l))) x in
    (* all windows of every channel, then the windows at one place from all channels *)
    let per_channel := map (windows k s) padded in
    let places := seq 0 (size1 per_channel) in
    let fields := map (fun i => map (fun ws => nth i ws []) per_channel) places in
    Ok (map (fun u => map u fields) (c1_units l)).

(** torch.nn.Conv2d: the receptive field is channel x kernel x kernel.  emote/nn/layers.py:54-65 *)
Definition unit2 : Type := list (list (list A)) -> A.
(** emote/nn/layers.py:54-65 *)
Record conv2 : Type := mkConv2 { c2_in : Z; c2_k : Z; c2_s : Z; c2_p : Z; c2_units : list unit2 }.
(** for the convolutions of emote/nn/layers.py:54-65 *)
Definition pad2 (p : nat) (x : list (list A)) : list (list A) :=
  pad (repeat zero (size1 x + 2 * p)) p (map (pad zero p) x).
(** All windows of one channel: by row of windows, by column of windows.  for the convolutions of emote/nn/layers.py:54-65 *)
Definition windows2 (k s : nat) (x : list (list A)) : list (list (list (list A))) :=
  map (fun rows => let cuts := map (windows k s) rows in
                   map (fun j => map (fun ws => nth j ws []) cuts) (seq 0 (size1 cuts)))
      (windows k s x).
(** one layer of emote/nn/layers.py:54-65, as called in 72-78 *)
Definition run_conv2 (l : conv2) (x : list (list (list A))) : res (list (list (list A))) :=
  let nx := zlen (nth 0 x []) in
  let ny := zlen (nth 0 (nth 0 x []) []) in
  if negb (zlen x =? c2_in l) || (c2_k l <? 1) || (c2_s l <? 1) || (c2_p l <? 0)
     || (nx + 2 * c2_p l <? c2_k l) || (ny + 2 * c2_p l <? c2_k l)
  then Err RuntimeError
  else
    let k := Z.to_nat (c2_k l) in
    let s := Z.to_nat (c2_s l) in
    let per_channel := map (fun m => windows2 k s (pad2 (Z.to_nat (c2_p l)) m)) x in
    let field i j := map (fun w => nth j (nth i w []) []) per_channel in
    let fields := map (fun i => map (fun j => field i j) (seq 0 (size1 (nth 0 per_channel []))))
                      (seq 0 (List.length (nth 0 per_channel []))) in
    Ok (map (fun u => map (map u) fields) (c2_units l)).

(** *** Conv2dEncoder *)
(** emote/nn/layers.py:27-70 *)
Record enc2 : Type := mkEnc2
  { e2_shape : Z * Z * Z; e2_channels : list Z; e2_kernels : list Z; e2_strides : list Z; e2_padding : list Z;
    e2_last : bool; e2_flatten : bool; e2_layers : list conv2 }.

(** emote/nn/layers.py:54-65: the layers, built from the lists of settings.  [w i j] is unit [j] of
    layer [i].  Simplification: the activation is part of the unit. *)
Fixpoint build2 (w : nat -> nat -> unit2) (i : nat) (c_in : Z) (channels ks ss ps : list Z) : res (list conv2) :=
  match channels with
  | [] => Ok []
  | c :: channels' =>
      match ks, ss, ps with
      | k :: ks', s :: ss', p :: ps' =>
          rbind (build2 w (S i) c channels' ks' ss' ps')
                (fun ls => Ok (mkConv2 c_in k s p (map (w i) (seq 0 (Z.to_nat c))) :: ls))
      | _, _, _ => Err IndexError
      end
  end.
(** emote/nn/layers.py:28-70 Conv2dEncoder.__init__ *)
Definition make_enc2 (w : nat -> nat -> unit2) (input_shape : Z * Z * Z) (channels ks ss ps : list Z) (last flatten : bool) : res enc2 :=
  let '(a, b, c) := input_shape in
  let shape := if last then (c, a, b) else input_shape in
  let '(ch, _, _) := shape in
  rbind (build2 w 0 ch channels ks ss ps)
        (fun ls => Ok (mkEnc2 shape channels ks ss ps last flatten ls)).

(** What an encoder returns: maps, or one vector.  emote/nn/layers.py:72-78 *)
Inductive out2 : Type := Maps2 (m : list (list (list A))) | Flat2 (v : list A).
(** emote/nn/layers.py:72-78, the loop *)
Fixpoint run_layers2 (ls : list conv2) (x : list (list (list A))) : res (list (list (list A))) :=
  match ls with [] => Ok x | l :: r => rbind (run_conv2 l x) (run_layers2 r) end.
(** x.permute(0, 3, 1, 2) of an image x * y * channel.  emote/nn/layers.py:72-78 *)
Definition channels_first2 (x : list (list (list A))) : list (list (list A)) :=
  map (fun c => map (map (fun px => nth c px zero)) x) (seq 0 (size1 (nth 0 x []))).
(** emote/nn/layers.py:72-78 Conv2dEncoder.forward *)
Definition forward2 (e : enc2) (x : list (list (list A))) : res out2 :=
  let x := if e2_last e then channels_first2 x else x in
  rbind (run_layers2 (e2_layers e) x)
        (fun m => Ok (if e2_flatten e then Flat2 (concat (map (@concat A) m)) else Maps2 m)).

(** emote/nn/layers.py:83-85, the loop over zip(kernels, strides, padding) for one dimension *)
Fixpoint out_size (cur : Z) (ks ss ps : list Z) : res Z :=
  match ks, ss, ps with
  | k :: ks', s :: ss', p :: ps' =>
      if s =? 0 then Err ZeroDivisionError else out_size ((cur - k + 2 * p) / s + 1) ks' ss' ps'
  | _, _, _ => Ok cur
  end.
(** emote/nn/layers.py:80-92 *)
Inductive shape2 : Type := Shape2 (c x y : Z) | Vec2 (n : Z).
(** emote/nn/layers.py:80-92 Conv2dEncoder.get_encoder_output_size *)
Definition output_size2 (e : enc2) : res shape2 :=
  let '(_, sx, sy) := e2_shape e in
  rbind (out_size sx (e2_kernels e) (e2_strides e) (e2_padding e)) (fun x =>
  rbind (out_size sy (e2_kernels e) (e2_strides e) (e2_padding e)) (fun y =>
  rbind (pyindex (e2_channels e) (-1)) (fun c =>
  Ok (if e2_flatten e then Vec2 (c * x * y) else Shape2 c x y)))).

(** *** Conv1dEncoder *)
(** emote/nn/layers.py:111-157 *)
Record enc1 : Type := mkEnc1
  { e1_shape : Z * Z; e1_channels : list Z; e1_kernels : list Z; e1_strides : list Z; e1_padding : list Z;
    e1_last : bool; e1_flatten : bool; e1_layers : list conv1 }.
(** emote/nn/layers.py:141-152 *)
Fixpoint build1 (w : nat -> nat -> unit1) (i : nat) (c_in : Z) (channels ks ss ps : list Z) : res (list conv1) :=
  match channels with
  | [] => Ok []
  | c :: channels' =>
      match ks, ss, ps with
      | k :: ks', s :: ss', p :: ps' =>
          rbind (build1 w (S i) c channels' ks' ss' ps')
                (fun ls => Ok (mkConv1 c_in k s p (map (w i) (seq 0 (Z.to_nat c))) :: ls))
      | _, _, _ => Err IndexError
      end
  end.
(** emote/nn/layers.py:112-157 Conv1dEncoder.__init__ *)
Definition make_enc1 (w : nat -> nat -> unit1) (input_shape : Z * Z) (channels ks ss ps : list Z) (last flatten : bool) : res enc1 :=
  let '(a, b) := input_shape in
  let shape := if last then (b, a) else input_shape in
  rbind (build1 w 0 (fst shape) channels ks ss ps)
        (fun ls => Ok (mkEnc1 shape channels ks ss ps last flatten ls)).
(** emote/nn/layers.py:159-165 *)
Inductive out1 : Type := Maps1 (m : list (list A)) | Flat1 (v : list A).
(** emote/nn/layers.py:159-165, the loop *)
Fixpoint run_layers1 (ls : list conv1) (x : list (list A)) : res (list (list A)) :=
  match ls with [] => Ok x | l :: r => rbind (run_conv1 l x) (run_layers1 r) end.
(** x.permute(0, 2, 1) of a signal position * channel.  emote/nn/layers.py:159-165 *)
Definition channels_first1 (x : list (list A)) : list (list A) :=
  map (fun c => map (fun px => nth c px zero) x) (seq 0 (size1 x)).
(** emote/nn/layers.py:159-165 Conv1dEncoder.forward *)
Definition forward1 (e : enc1) (x : list (list A)) : res out1 :=
  let x := if e1_last e then channels_first1 x else x in
  rbind (run_layers1 (e1_layers e) x)
        (fun m => Ok (if e1_flatten e then Flat1 (concat m) else Maps1 m)).
(** emote/nn/layers.py:167-178 *)
Inductive shape1 : Type := Shape1 (c x : Z) | Vec1 (n : Z).
(** emote/nn/layers.py:167-178 Conv1dEncoder.get_encoder_output_size *)
Definition output_size1 (e : enc1) : res shape1 :=
  rbind (out_size (snd (e1_shape e)) (e1_kernels e) (e1_strides e) (e1_padding e)) (fun x =>
  rbind (pyindex (e1_channels e) (-1)) (fun c =>
  Ok (if e1_flatten e then Vec1 (c * x) else Shape1 c x))).
End Conv.

(** ** FrameStack and LazyFrames *)
Section Frames.
Context {P : Type}.
(** An image height * width * channel. *)
Notation frame := (list (list (list P))).

(** The shape of a well formed image.  emote/env/wrappers.py:63-68, 116 *)
Definition frame_dims (f : frame) : nat * nat * nat := (List.length f, size1 f, size1 (nth 0 f [])).
(** for emote/env/wrappers.py:116 *)
Definition dims_eqb (a b : nat * nat * nat) : bool :=
  let '(x, y, z) := a in let '(x', y', z') := b in ((x =? x') && (y =? y') && (z =? z'))%nat.
(** np.concatenate([f, g], axis=2) of two images of the same height and width: the
    channels of every pixel one after the other.  emote/env/wrappers.py:116 *)
Definition glue (f g : frame) : frame :=
  map (fun rr => map (fun pp => fst pp ++ snd pp) (combine (fst rr) (snd rr))) (combine f g).
(** np.concatenate(frames, axis=2).  Simplification: numpy also joins images with
    different numbers of channels; images of one environment have the same shape.  emote/env/wrappers.py:116 *)
Definition concat2 (fs : list frame) : res frame :=
  match fs with
  | [] => Err ValueError
  | f :: r => if forallb (fun g => dims_eqb (frame_dims f) (frame_dims g)) r then Ok (fold_left glue r f) else Err ValueError
  end.

(** The wrapped environment, from the outside: what reset and step return.  Simplification:
    reward, done and info are passed through unchanged and left out.  emote/env/wrappers.py:72, 78 *)
Record genv (E Act : Type) : Type := mkGenv { g_reset : E -> E * frame; g_step : E -> Act -> E * frame }.
Arguments mkGenv {E Act}. Arguments g_reset {E Act}. Arguments g_step {E Act}.

(** A LazyFrames object: emote/env/wrappers.py:111-112 *)
Record lazy : Type := mkLazy { lz_frames : option (list frame); lz_out : option frame }.
(** emote/env/wrappers.py:114-118 _force *)
Definition force (z : lazy) : lazy * res frame :=
  match lz_out z with
  | Some o => (z, Ok o)
  | None => match lz_frames z with
            | None => (z, Err TypeError)
            | Some fs => match concat2 fs with
                         | Ok o => (mkLazy None (Some o), Ok o)
                         | Err e => (z, Err e)
                         end
            end
  end.

(** deque(maxlen=n).append(x).  as in emote/env/wrappers.py:74, 79 *)
Definition push (n : nat) (l : list frame) (x : frame) : list frame :=
  let l' := l ++ [x] in skipn (List.length l' - n) l'.

(** A FrameStack with the observations it has returned so far (they are objects that the
    caller keeps).  emote/env/wrappers.py:60-62 *)
Record stack (E : Type) : Type := mkStack { fs_env : E; fs_frames : list frame; fs_seen : list lazy }.
Arguments mkStack {E}. Arguments fs_env {E}. Arguments fs_frames {E}. Arguments fs_seen {E}.

(** emote/env/wrappers.py:82-84 _get_ob *)
Definition get_ob {E} (n : nat) (s : stack E) : stack E * res nat :=
  if (List.length (fs_frames s) =? n)%nat
  then (mkStack (fs_env s) (fs_frames s) (fs_seen s ++ [mkLazy (Some (fs_frames s)) None]),
        Ok (List.length (fs_seen s)))
  else (s, Err AssertionError).
(** emote/env/wrappers.py:71-75 reset; the number of the returned observation *)
Definition fs_reset {E Act} (g : genv E Act) (n : nat) (s : stack E) : stack E * res nat :=
  let '(e, obs) := g_reset g (fs_env s) in
  let frames := fold_left (fun l _ => push n l obs) (seq 0 n) (fs_frames s) in
  get_ob n (mkStack e frames (fs_seen s)).
(** emote/env/wrappers.py:77-80 step *)
Definition fs_step {E Act} (g : genv E Act) (n : nat) (s : stack E) (a : Act) : stack E * res nat :=
  let '(e, obs) := g_step g (fs_env s) a in
  get_ob n (mkStack e (push n (fs_frames s) obs) (fs_seen s)).

(** What a user does: reset, step, or look at an observation returned earlier
    (np.array, len or indexing, emote/env/wrappers.py:120-130: all of them force it). *)
Inductive fop (Act : Type) : Type := FReset | FStep (a : Act) | FLook (i : nat).
Arguments FReset {Act}. Arguments FStep {Act}. Arguments FLook {Act}.
(** replacing one LazyFrames object; emote/env/wrappers.py:116-117 *)
Fixpoint set_nth {B} (i : nat) (x : B) (l : list B) : list B :=
  match l, i with
  | [], _ => []
  | _ :: r, 0%nat => x :: r
  | y :: r, S j => y :: set_nth j x r
  end.
(** one call of emote/env/wrappers.py:71-84, 120-130 *)
Definition fs_op {E Act} (g : genv E Act) (n : nat) (s : stack E) (o : fop Act) : stack E :=
  match o with
  | FReset => fst (fs_reset g n s)
  | FStep a => fst (fs_step g n s a)
  | FLook i => match nth_error (fs_seen s) i with
                 | Some z => mkStack (fs_env s) (fs_frames s) (set_nth i (fst (force z)) (fs_seen s))
                 | None => s
                 end
  end.
(** calls of emote/env/wrappers.py:71-84, 120-130 *)
Definition fs_run {E Act} (g : genv E Act) (n : nat) (s : stack E) (ops : list (fop Act)) : stack E :=
  fold_left (fs_op g n) ops s.
End Frames.
Arguments FReset {Act}. Arguments FStep {Act}. Arguments FLook {Act}.
Arguments mkGenv {P E Act}. Arguments g_reset {P E Act}. Arguments g_step {P E Act}.
Arguments mkStack {P E}. Arguments fs_env {P E}. Arguments fs_frames {P E}. Arguments fs_seen {P E}.

(** emote/env/wrappers.py:97, one pixel; Simplification: exact fractions for float32 *)
Definition scaled (px : Z) : Q := (((inject_Z px / 255) - (1 # 2)) * 2)%Q.
(** emote/env/wrappers.py:90-92, the bounds of the declared space *)
Definition scaled_low : Q := 0%Q.
(** emote/env/wrappers.py:91 *)
Definition scaled_high : Q := 1%Q.

(** ** ImageAugmentor *)

(** [l[a:b] = f(l[a:b])] with bounds inside the list.  as in emote/nn/curl.py:84, 93, 99 *)
Definition on_slice {B} (a b : nat) (f : B -> B) (l : list B) : list B :=
  firstn a l ++ map f (firstn (b - a) (skipn a l)) ++ skipn (Nat.max a b) l.
(** int(q): towards zero.  as in emote/nn/curl.py:62 *)
Definition qint (q : Q) : Z := Z.quot (Qnum q) (Zpos (Qden q)).

Section Augment.
Context {V : Type} (zero : V).
Notation image := (list (list (list V))).

(** What torch's generators produce: numbers in [0, 1) from rand, integers from randint
    (reduced to the range asked for), and the noise.  emote/nn/curl.py:20, 63-64, 73 *)
Record draws : Type := mkDraws { dr_rand : list Q; dr_int : list Z; dr_noise : list image -> list image }.

(** emote/nn/curl.py:35-40 *)
Record augmentor : Type := mkAug { au_noise : bool; au_fast : bool; au_per_image : bool; au_min : Q; au_max : Q }.

(** torch.rand([1])[0].  emote/nn/curl.py:20, 61, 70 *)
Definition next_rand (d : draws) : draws * Q :=
  match dr_rand d with [] => (d, 0%Q) | q :: r => (mkDraws r (dr_int d) (dr_noise d), q) end.
(** torch.randint(low=0, high=high, size=[n]).  emote/nn/curl.py:63-64 *)
Fixpoint next_ints (n : nat) (high : Z) (d : draws) : draws * list Z :=
  match n with
  | 0%nat => (d, [])
  | S m => let '(x, d') := match dr_int d with [] => (0, d) | x :: r => (x, mkDraws (dr_rand d) r (dr_noise d)) end in
           let '(d'', xs) := next_ints m high d' in (d'', x mod high :: xs)
  end.
(** emote/nn/curl.py:18-21 rand_uniform *)
Definition rand_uniform (lo hi : Q) (d : draws) : draws * Q :=
  let '(d', r) := next_rand d in (d', ((hi - lo) * r + lo)%Q).

(** emote/nn/curl.py:55-67 _get_mask_indices: (start_i, start_j, end_i, end_j) per slice.
    torch.randint raises RuntimeError for an empty range. *)
Definition mask_indices (c : augmentor) (im_x im_y : Z) (n : nat) (d : draws) : draws * res (list (Z * Z * Z * Z)) :=
  let '(d1, size) := rand_uniform (au_min c) (au_max c) d in
  let mx := qint (inject_Z im_x * size) in
  let my := qint (inject_Z im_y * size) in
  if im_x - mx <=? 0 then (d1, Err RuntimeError) else
  let '(d2, si) := next_ints n (im_x - mx) d1 in
  if im_y - my <=? 0 then (d2, Err RuntimeError) else
  let '(d3, sj) := next_ints n (im_y - my) d2 in
  (d3, Ok (map (fun ij => (fst ij, snd ij, fst ij + mx, snd ij + my)) (combine si sj))).

(** images[i, start_i:end_i, start_j:end_j, :] = 0, for one image.  emote/nn/curl.py:84, 93, 99 *)
Definition blank (r : Z * Z * Z * Z) (img : image) : image :=
  let '(si, sj, ei, ej) := r in
  on_slice (Z.to_nat si) (Z.to_nat ei) (on_slice (Z.to_nat sj) (Z.to_nat ej) (map (fun _ => zero))) img.

(** emote/nn/curl.py:78-85 _cutout_per_image_mask_size, the loop; the images before the one that
    raises have already been changed *)
Fixpoint cut_each (c : augmentor) (im_x im_y : Z) (d : draws) (images : list image) : draws * (list image * res unit) :=
  match images with
  | [] => (d, ([], Ok tt))
  | img :: rest =>
      match mask_indices c im_x im_y 1 d with
      | (d', Err e) => (d', (images, Err e))
      | (d', Ok rs) => let '(d'', (rest', r)) := cut_each c im_x im_y d' rest in
                       (d'', (blank (nth 0 rs (0, 0, 0, 0)) img :: rest', r))
      end
  end.
(** emote/nn/curl.py:42-53 with 69-76 and 78-100: (the argument afterwards, the result). Without
    noise the tensor that was passed in is changed and returned. *)
Definition augment (c : augmentor) (im_x im_y : Z) (d : draws) (images : list image) : list image * res (list image) :=
  (* [fresh]: prob_sample < noise_prob, the cutout works on the new tensor image + noise *)
  let '(d1, fresh) := if au_noise c
                      then let '(d', p) := rand_uniform 0 1 d in (d', negb (Qle_bool (1 # 4) p))
                      else (d, false) in
  let work := if fresh then dr_noise d1 images else images in
  let '(after, r) :=
    if au_fast c then
      match mask_indices c im_x im_y 1 d1 with
      | (_, Err e) => (work, Err e)
      | (_, Ok rs) => let w := map (blank (nth 0 rs (0, 0, 0, 0))) work in (w, Ok w)
      end
    else if au_per_image c then
      let '(_, (w, r)) := cut_each c im_x im_y d1 work in (w, match r with Ok _ => Ok w | Err e => Err e end)
    else
      match mask_indices c im_x im_y (List.length work) d1 with
      | (_, Err e) => (work, Err e)
      | (_, Ok rs) => let w := map (fun ri => blank (fst ri) (snd ri)) (combine rs work) in (w, Ok w)
      end in
  (if fresh then images else after, r).
End Augment.
