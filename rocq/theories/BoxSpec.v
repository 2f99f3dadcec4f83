(** * BoxSpec: what a vision environment should do *)
From Coq Require Import QArith.
From Verif Require Import Py VisSpec BoxModel.
Open Scope list_scope.
Open Scope Z_scope.

(** An image with all its numbers between [low] and [high]. *)
Definition image_between (h w c : nat) (low high : Q) (f : frame) : Prop :=
  is_image h w c f /\ Forall (Forall (Forall (fun px => (low <= px /\ px <= high)%Q))) f.
Definition grey_between (h w : nat) (low high : Q) (g : list (list Q)) : Prop :=
  List.length g = h /\ Forall (fun r => List.length r = w /\ Forall (fun px => (low <= px /\ px <= high)%Q) r) g.

(** OpenCV: converting a colour image to grey and resizing keep numbers between 0 and 255, and
    resizing to (w, h) gives h rows of w numbers. *)
Definition open_cv (cvt_color : frame -> res (list (list Q))) (resize : list (list Q) -> Z * Z -> res (list (list Q))) : Prop :=
  (forall h w f, image_between h w 3 0 255 f -> exists g, cvt_color f = Ok g /\ grey_between h w 0 255 g)
  /\ (forall h w g, grey_between h w 0 255 g -> forall width height, 0 < width -> 0 < height ->
        exists r, resize g (width, height) = Ok r /\ grey_between (Z.to_nat height) (Z.to_nat width) 0 255 r).

Section Env.
Context {E Act : Type}.
(** The interface of gymnasium: reset returns an observation and a dict; step returns an
    observation, a reward, two truth values and a dict.  Observations are colour images. *)
Definition speaks_gymnasium (h w : nat) (e : env E Act) : Prop :=
  (forall s, exists f, snd (ev_reset e s) = Ok (VTup [VFrame f; VOther]) /\ image_between h w 3 0 255 f)
  /\ (forall s a, exists f, snd (ev_step e s a) = Ok (VTup [VFrame f; VOther; VOther; VOther; VOther])
                            /\ image_between h w 3 0 255 f).
(** Environments of gymnasium have no method [seed] (it was removed before gymnasium 0.26). *)
Definition no_seed (e : env E Act) : Prop := ev_seed e = None.
End Env.

(** The observation in what reset (two values) or step (five) returned. *)
Definition shows (r : res val) (o : val) : Prop :=
  r = Ok (VTup [o; VOther]) \/ r = Ok (VTup [o; VOther; VOther; VOther; VOther]).
(** An image in a declared space. *)
Definition in_box (b : box) (f : frame) : Prop :=
  match bx_shape b with
  | [h; w; c] => image_between (Z.to_nat h) (Z.to_nat w) (Z.to_nat c) (bx_low b) (bx_high b) f
  | _ => False
  end.

(** What an observation [o] of a wrapped environment should show of the frame [f] of the
    environment: the grey picture of 84 rows of 84 pixels; scaled from 0..255 to -1..1, if
    that is wanted. *)
Definition seen (cvt_color : frame -> res (list (list Q))) (resize : list (list Q) -> Z * Z -> res (list (list Q)))
    (scaling : bool) (f o : frame) : Prop :=
  exists g r, cvt_color f = Ok g /\ resize g (84, 84) = Ok r
  /\ List.length o = List.length r
  /\ forall x, (x < List.length r)%nat -> List.length (nth x o []) = List.length (nth x r [])
     /\ forall y, (y < List.length (nth x r []))%nat ->
        exists px, pixel o x y = [px] /\ (px == if scaling then 2 * nth y (nth x r []) 0 / 255 - 1 else nth y (nth x r []) 0)%Q.
