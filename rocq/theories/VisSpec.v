(** * VisSpec: what C84-C87 say *)
From Coq Require Import QArith.
From Verif Require Import Py VisModel.
Open Scope list_scope.
Open Scope Z_scope.

(** ** C84 *)
(** A signal of [c] rows with [x] numbers, a stack of [c] maps with [x] rows of [y]. *)
Definition is1 {A} (c x : Z) (m : list (list A)) : Prop := zlen m = c /\ Forall (fun r => zlen r = x) m.
Definition is2 {A} (c x y : Z) (m : list (list (list A))) : Prop := zlen m = c /\ Forall (is1 x y) m.

(** The result of an encoder has the shape that is reported. *)
Definition has_shape1 {A} (o : out1 (A := A)) (s : shape1) : Prop :=
  match o, s with
  | Maps1 m, Shape1 c x => is1 c x m
  | Flat1 v, Vec1 n => zlen v = n
  | _, _ => False
  end.
Definition has_shape2 {A} (o : out2 (A := A)) (s : shape2) : Prop :=
  match o, s with
  | Maps2 m, Shape2 c x y => is2 c x y m
  | Flat2 v, Vec2 n => zlen v = n
  | _, _ => False
  end.

(** [m] is the number of places where a kernel of [k] numbers that moves by [s] fits into
    [n] numbers padded by [p] on both sides. *)
Definition places (n k s p m : Z) : Prop := forall i, 0 <= i -> (i < m <-> i * s + k <= n + 2 * p).

(** The kernel of every layer fits somewhere, layer after layer. *)
Fixpoint fits (n : Z) (settings : list (Z * Z * Z)) : Prop :=
  match settings with
  | [] => True
  | (k, s, p) :: r => 1 <= k /\ 1 <= s /\ 0 <= p /\ exists m, 1 <= m /\ places n k s p m /\ fits m r
  end.
Definition settings (ks ss ps : list Z) : list (Z * Z * Z) := combine (combine ks ss) ps.

(** The settings of the layers are as many as the layers (one of the three lists may be longer). *)
Definition zipped (channels ks ss ps : list Z) : Prop :=
  Nat.min (Nat.min (List.length ks) (List.length ss)) (List.length ps) = List.length channels.

(** An input of the shape the encoder was told to expect. *)
Definition input1 {A} (shape : Z * Z) (x : list (list A)) : Prop :=
  let '(a, b) := shape in 1 <= a /\ 1 <= b /\ is1 a b x.
Definition input2 {A} (shape : Z * Z * Z) (x : list (list (list A))) : Prop :=
  let '(a, b, c) := shape in 1 <= a /\ 1 <= b /\ 1 <= c /\ is2 a b c x.

(** ** C85 *)
(** The last [n] frames of an episode, where the first frame stands for the missing ones. *)
Definition last_frames {F} (n : nat) (first : F) (later : list F) : list F :=
  skipn (List.length later) (repeat first n ++ later).

Section Frames.
Context {P : Type}.
Notation frame := (list (list (list P))).
(** The stacks a user should see, in the order of the resets and steps. *)
Fixpoint shown {E Act} (g : genv (P := P) E Act) (n : nat) (e : E) (first : frame) (later : list frame) (ops : list (fop Act)) : list (list frame) :=
  match ops with
  | [] => []
  | FReset :: r => let '(e', f) := g_reset g e in last_frames n f [] :: shown g n e' f [] r
  | FStep a :: r => let '(e', f) := g_step g e a in
                    last_frames n first (later ++ [f]) :: shown g n e' first (later ++ [f]) r
  | FLook _ :: r => shown g n e first later r
  end.
Definition shown_from {E Act} (g : genv (P := P) E Act) (n : nat) (e : E) (ops : list (fop Act)) : list (list frame) :=
  let '(e', f) := g_reset g e in last_frames n f [] :: shown g n e' f [] ops.

(** An image of height [h] and width [w] with [c] channels. *)
Definition is_image (h w c : nat) (f : frame) : Prop :=
  List.length f = h /\ Forall (fun r => List.length r = w /\ Forall (fun px => List.length px = c) r) f.
Definition pixel (f : frame) (x y : nat) : list P := nth y (nth x f []) [].
(** Everything the environment returns is such an image. *)
Definition images_of {E Act} (g : genv (P := P) E Act) (h w c : nat) : Prop :=
  (forall e, is_image h w c (snd (g_reset g e))) /\ (forall e a, is_image h w c (snd (g_step g e a))).
End Frames.

(** ** C87 *)
Section Cut.
Context {V : Type}.
Notation image := (list (list (list V))).
(** [img'] is [img] with the pixels of a rectangle blanked: [mx] rows from row [si] on
    and [my] columns from column [sj] on. *)
Definition cut_out (zero : V) (si sj mx my : Z) (img img' : image) : Prop :=
  List.length img' = List.length img /\
  forall i, List.length (nth i img' []) = List.length (nth i img []) /\
  forall j, nth j (nth i img' []) [] =
            if (si <=? Z.of_nat i) && (Z.of_nat i <? si + mx) && (sj <=? Z.of_nat j) && (Z.of_nat j <? sj + my)
            then map (fun _ => zero) (nth j (nth i img []) []) else nth j (nth i img []) [].
(** The size is the given share of the image, rounded down, and the rectangle lies in it. *)
Definition share_of (n : Z) (size : Q) (m : Z) : Prop := (inject_Z m <= inject_Z n * size /\ inject_Z n * size < inject_Z (m + 1))%Q.
Definition cut_by (zero : V) (im_x im_y : Z) (lo hi : Q) (r : Z * Z * Z * Z) (img img' : image) : Prop :=
  let '(si, sj, mx, my) := r in
  cut_out zero si sj mx my img img' /\
  0 <= si /\ si + mx <= im_x /\ 0 <= sj /\ sj + my <= im_y /\
  exists size, (lo <= size /\ size <= hi)%Q /\ share_of im_x size mx /\ share_of im_y size my.
(** Every image is cut by its rectangle. *)
Definition all_cut (zero : V) (c : augmentor) (h w : nat) (rs : list (Z * Z * Z * Z)) (images out : list image) : Prop :=
  Forall2 (fun r io => cut_by zero (Z.of_nat h) (Z.of_nat w) (au_min c) (au_max c) r (fst io) (snd io)) rs (combine images out) /\
  List.length out = List.length images /\ List.length rs = List.length images.
(** The last row and the last column of an image survive. *)
Definition spared (h w : nat) (i o : image) : Prop :=
  nth (h - 1) o [] = nth (h - 1) i [] /\ forall x, nth (w - 1) (nth x o []) [] = nth (w - 1) (nth x i []) [].
End Cut.
(** The relative sizes that make sense, and what torch.rand produces. *)
Definition sane (c : augmentor) : Prop := (0 <= au_min c /\ au_min c <= au_max c /\ au_max c < 1)%Q.
Definition unit_interval (q : Q) : Prop := (0 <= q /\ q < 1)%Q.
(** Noise is added when the first number that is drawn is below a quarter. *)
Definition noisy {V} (c : augmentor) (d : draws (V := V)) : Prop := au_noise c = true /\ exists p r, dr_rand d = p :: r /\ (p < 1 # 4)%Q.
Definition noise_free {V} (c : augmentor) (d : draws (V := V)) : Prop := au_noise c = false \/ exists p r, dr_rand d = p :: r /\ (1 # 4 <= p)%Q.
