(** * BoxModel: emote/env/box2d/__init__.py and the wrappers it puts together

    What an environment's methods return is a Python value, so that the number of values of
    [step] (gymnasium: five; the older gym: four) is part of the model.  Exact fractions for
    pixels of any type. *)
From Coq Require Import QArith.
From Verif Require Import Py VisModel.
Open Scope list_scope.
Open Scope Z_scope.

(** An image height * width * channel; emote/env/wrappers.py:36-44 *)
Definition frame : Type := list (list (list Q)).
(** What reset and step can return: an image, a LazyFrames (with its frames), anything else, a
    tuple.  emote/env/wrappers.py:71-84 *)
Inductive val : Type := VFrame (f : frame) | VLazy (l : list val) | VOther | VTup (l : list val).

(** spaces.Box: the bounds and the shape; emote/env/wrappers.py:29-34.  The dtype is left out. *)
Record box : Type := mkBox { bx_low : Q; bx_high : Q; bx_shape : list Z }.

(** An environment, from the outside; [ev_seed] is the method [seed], where there is one.
    emote/env/box2d/__init__.py:23-24 *)
Record env (E Act : Type) : Type := mkEnv
  { ev_space : box; ev_seed : option (E -> Z -> E * res val);
    ev_reset : E -> E * res val; ev_step : E -> Act -> E * res val }.
Arguments mkEnv {E Act}. Arguments ev_space {E Act}. Arguments ev_seed {E Act}.
Arguments ev_reset {E Act}. Arguments ev_step {E Act}.

(** Unpacking into [n] names: a ValueError if there are more or fewer values.  An image is
    unpacked into its rows (only the number of which matters here), anything else is a
    TypeError.  as in emote/env/wrappers.py:78 *)
Definition unpack (n : nat) (v : val) : res (list val) :=
  match v with
  | VTup l => if (List.length l =? n)%nat then Ok l else Err ValueError
  | VFrame f => if (List.length f =? n)%nat then Ok (map (fun r => VFrame [r]) f) else Err ValueError
  | VLazy _ => Err ValueError
  | VOther => Err TypeError
  end.

Section Wrappers.
Context {E Act : Type}.

(** gymnasium.ObservationWrapper (version 0.27 or later; the library is not in the
    repository), the base of emote/env/wrappers.py:20 and emote/env/wrappers.py:87: reset
    returns two values and step five, the observation is transformed, other methods are those
    of the wrapped environment.  A missing value is [VOther]. *)
Definition observation_wrapper (space : box) (observation : val -> res val) (e : env E Act) : env E Act :=
  mkEnv space (ev_seed e)
    (fun s => let '(s1, r) := ev_reset e s in
              (s1, rbind r (fun v => rbind (unpack 2 v) (fun l =>
                   rmap (fun o => VTup [o; nth 1 l VOther]) (observation (nth 0 l VOther))))))
    (fun s a => let '(s1, r) := ev_step e s a in
              (s1, rbind r (fun v => rbind (unpack 5 v) (fun l =>
                   rmap (fun o => VTup [o; nth 1 l VOther; nth 2 l VOther; nth 3 l VOther; nth 4 l VOther])
                        (observation (nth 0 l VOther)))))).

(** cv2.cvtColor(., COLOR_RGB2GRAY) and cv2.resize(., (width, height)); emote/env/wrappers.py:42-43 *)
Context (cvt_color : frame -> res (list (list Q))) (resize : list (list Q) -> Z * Z -> res (list (list Q))).

(** emote/env/wrappers.py:36-44 WarpFrame.observation; what is no image is refused by OpenCV *)
Definition warp_observation (width height : Z) (v : val) : res val :=
  match v with
  | VFrame f => rbind (cvt_color f) (fun g => rbind (resize g (width, height)) (fun r =>
                Ok (VFrame (map (map (fun px => [px])) r))))
  | _ => Err TypeError
  end.
(** emote/env/wrappers.py:20-34 WarpFrame *)
Definition warp_frame (width height : Z) (e : env E Act) : env E Act :=
  observation_wrapper (mkBox 0 255 [height; width; 1]) (warp_observation width height) e.

(** emote/env/wrappers.py:94-97 ScaledFloatFrame.observation *)
Definition scaled_observation (v : val) : res val :=
  match v with
  | VFrame f => Ok (VFrame (map (map (map (fun px => ((px / 255) - (1 # 2)) * 2)%Q)) f))
  | _ => Err TypeError
  end.
(** emote/env/wrappers.py:87-92 *)
Definition scaled_float_frame (e : env E Act) : env E Act :=
  observation_wrapper (mkBox 0 1 (bx_shape (ev_space e))) scaled_observation e.

(** [deque(maxlen=n).append(x)], emote/env/wrappers.py:74, 79 *)
Definition deque_append (n : nat) (l : list val) (x : val) : list val :=
  let l' := l ++ [x] in skipn (List.length l' - n) l'.
(** emote/env/wrappers.py:82-84 FrameStack._get_ob *)
Definition get_ob (n : nat) (frames : list val) : res val :=
  if (List.length frames =? n)%nat then Ok (VLazy frames) else Err AssertionError.
(** emote/env/wrappers.py:47-84 FrameStack: the state is that of the environment and the frames *)
Definition frame_stack_env (n : nat) (e : env E Act) : env (E * list val) Act :=
  let shp := bx_shape (ev_space e) in
  mkEnv (mkBox 0 255 [nth 0 shp 0; nth 1 shp 0; nth 2 shp 0 * Z.of_nat n])
    (match ev_seed e with Some f => Some (fun s k => let '(s1, r) := f (fst s) k in ((s1, snd s), r)) | None => None end)
    (fun s => let '(s1, r) := ev_reset e (fst s) in
       match r with
       | Err er => ((s1, snd s), Err er)
       | Ok obs => let frames := fold_left (fun l _ => deque_append n l obs) (seq 0 n) (snd s) in
                   ((s1, frames), get_ob n frames)
       end)
    (fun s a => let '(s1, r) := ev_step e (fst s) a in
       match rbind r (unpack 4) with
       | Err er => ((s1, snd s), Err er)
       | Ok l => let frames := deque_append n (snd s) (nth 0 l VOther) in
                 ((s1, frames), rmap (fun o => VTup [o; nth 1 l VOther; nth 2 l VOther; nth 3 l VOther]) (get_ob n frames))
       end).
(** Simplification: an environment without FrameStack has the same type of state, with frames
    nobody looks at.  emote/env/box2d/__init__.py:29 *)
Definition unstacked (e : env E Act) : env (E * list val) Act :=
  mkEnv (ev_space e)
    (match ev_seed e with Some f => Some (fun s k => let '(s1, r) := f (fst s) k in ((s1, snd s), r)) | None => None end)
    (fun s => let '(s1, r) := ev_reset e (fst s) in ((s1, snd s), r))
    (fun s a => let '(s1, r) := ev_step e (fst s) a in ((s1, snd s), r)).

(** emote/env/box2d/__init__.py:6-33 make_vision_box2d_env; [made] and [s] are what
    gymnasium.make returns.  The result is the environment and its state. *)
Definition vision_thunk (made : env E Act) (s : E) (rank seed frame_stack : Z) (use_float_scaling : bool)
  : res (env (E * list val) Act * (E * list val)) :=
  match ev_seed made with
  | None => Err AttributeError
  | Some f =>
      let '(s1, r) := f s (seed + rank) in
      rbind r (fun _ =>
      let env := warp_frame 84 84 made in
      let env := if use_float_scaling then scaled_float_frame env else env in
      Ok ((if frame_stack >? 1 then frame_stack_env (Z.to_nat frame_stack) env else unstacked env), (s1, [])))
  end.
End Wrappers.

(** What an observation is as an array: emote/env/wrappers.py:114-118 for a LazyFrames.
    np.concatenate of anything but images is a ValueError (a tuple of an image and a dict is
    no array with three axes). *)
Definition as_frame (v : val) : option frame := match v with VFrame f => Some f | _ => None end.
(** np.concatenate(frames, axis=2); emote/env/wrappers.py:114-118 *)
Definition as_array (v : val) : res frame :=
  match v with
  | VFrame f => Ok f
  | VLazy l => rbind (rmapM (fun x => match as_frame x with Some f => Ok f | None => Err ValueError end) l) concat2
  | _ => Err ValueError
  end.

(** What a user does with an environment.  emote/env/box2d/__init__.py:33 *)
Inductive eop (Act : Type) : Type := EReset | EStep (a : Act).
Arguments EReset {Act}. Arguments EStep {Act}.
(** Calls of reset and step, with their results.  emote/env/wrappers.py:71-80 *)
Fixpoint env_run {E Act} (e : env E Act) (s : E) (h : list (eop Act)) : E * list (res val) :=
  match h with
  | [] => (s, [])
  | o :: r =>
      let '(s1, x) := match o with EReset => ev_reset e s | EStep a => ev_step e s a end in
      let '(s2, xs) := env_run e s1 r in (s2, x :: xs)
  end.
