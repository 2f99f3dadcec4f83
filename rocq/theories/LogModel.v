(** * LogModel: emote/mixins/logging.py and emote/callbacks/logging.py

    Numbers are exact integers (of some fixed small unit): rounding is not
    modelled. *)
From Coq Require Import DecimalString Ascii.
From Verif Require Import Py.
Open Scope string_scope.
Open Scope list_scope.
Open Scope Z_scope.

(** ** Strings *)

(** [sub in s].  as in emote/mixins/logging.py:51 *)
Fixpoint contains (sub s : string) : bool :=
  if String.prefix sub s then true
  else match s with EmptyString => false | String _ r => contains sub r end.
(** [s.split(c)] for a one-character separator: at least one piece.  as in emote/mixins/logging.py:52-53, emote/callbacks/logging.py:43 *)
Fixpoint split_on (c : ascii) (s : string) : string * list string :=
  match s with
  | EmptyString => (EmptyString, [])
  | String x r =>
      let '(p, ps) := split_on c r in
      if Ascii.eqb x c then (EmptyString, p :: ps) else (String x p, ps)
  end.
(** [sep.join(pieces)].  as in emote/callbacks/logging.py:45 *)
Fixpoint join_with (c : ascii) (p : string) (ps : list string) : string :=
  match ps with
  | [] => p
  | q :: r => String.append p (String c (join_with c q r))
  end.
(** [s[:-1]].  as in emote/mixins/logging.py:53 *)
Fixpoint drop_last (s : string) : string :=
  match s with
  | EmptyString => EmptyString
  | String _ EmptyString => EmptyString
  | String x r => String x (drop_last r)
  end.
(** [int(s)], of decimal digits with an optional minus sign; everything else is
    taken to be a ValueError (Python also accepts blanks, a plus sign and
    underscores).  as in emote/mixins/logging.py:53 *)
Definition parse_int (s : string) : res Z :=
  match NilZero.int_of_string s with
  | Some d => Ok (Z.of_int d)
  | None => Err ValueError
  end.

(** ** LoggingMixin *)

Section Log.
(** Histograms, images and videos are not looked into. *)
Context {P : Type}.

(** emote/mixins/logging.py:17-27.  A window: its contents, oldest first, and its maxlen. *)
Record logs : Type := mkLogs {
  lg_scalars : dict string Z;
  lg_windows : dict string (list Z * Z);
  lg_cumulative : dict string Z;
  lg_other : P;
  lg_default : Z }.

(** emote/mixins/logging.py:17-27: a new object *)
Definition new_logs (default : Z) (p : P) : logs := mkLogs [] [] [] p default.

(** What can be handed to [log_windowed_scalar]: a number, a collection of numbers
    (list, 1-d array or tensor), an iterator that can be gone through once, a 0-d
    tensor.  emote/mixins/logging.py:36-40, 60-67 *)
Inductive lval : Type :=
| LNum (z : Z) | LMany (l : list Z) | LOnce (l : list Z) | LTensor0 (z : Z).

(** emote/mixins/logging.py:29-34 *)
Definition log_scalar (key : string) (v : Z) (s : logs) : logs :=
  mkLogs (dset (lg_scalars s) key v) (lg_windows s) (lg_cumulative s) (lg_other s) (lg_default s).

(** emote/mixins/logging.py:51-55 *)
Definition window_length (default : Z) (key : string) : res Z :=
  if contains "windowed[" key then
    let p := fst (split_on ":"%char key) in
    match snd (split_on "["%char p) with
    | [] => Err IndexError
    | q :: _ => parse_int (drop_last q)
    end
  else Ok default.

(** [deque.append], [deque.extend] with a maxlen.  as in emote/mixins/logging.py:57, 62, 66 *)
Definition dq_extend (w : list Z) (maxlen : Z) (l : list Z) : list Z :=
  let all := w ++ l in skipn (List.length all - Z.to_nat maxlen) all.

(** emote/mixins/logging.py:49-58: a deque with a negative maxlen is a ValueError *)
Definition ensure_window (key : string) (s : logs) : res logs :=
  if dmem (lg_windows s) key then Ok s
  else
    match window_length (lg_default s) key with
    | Err e => Err e
    | Ok n =>
        if n <? 0 then Err ValueError
        else Ok (mkLogs (lg_scalars s) (dset (lg_windows s) key ([], n))
                        (dset (lg_cumulative s) key 0) (lg_other s) (lg_default s))
    end.
(** The window of [key] extended by [l], [added] to the cumulative value
    (emote/mixins/logging.py:60-67). *)
Definition push (key : string) (l : list Z) (added : Z) (s : logs) : logs * res unit :=
  match dget (lg_windows s) key with
  | None => (s, Err KeyError)
  | Some (w, n) =>
      let s' := mkLogs (lg_scalars s) (dset (lg_windows s) key (dq_extend w n l, n))
                       (lg_cumulative s) (lg_other s) (lg_default s) in
      match dget (lg_cumulative s) key with
      | None => (s', Err KeyError)
      | Some c => (mkLogs (lg_scalars s') (lg_windows s') (dset (lg_cumulative s) key (c + added))
                          (lg_other s') (lg_default s'), Ok tt)
      end
  end.
(** emote/mixins/logging.py:36-67.  A tensor of any dimension is an [Iterable]
    ([torch.Tensor.__iter__] exists), so that a 0-d tensor takes the first branch
    and going through its numpy array is a TypeError. *)
Definition log_windowed (key : string) (v : lval) (s : logs) : logs * res unit :=
  match ensure_window key s with
  | Err e => (s, Err e)
  | Ok s1 =>
      match v with
      | LNum z => push key [z] z s1
      | LMany l => push key l (zsum l) s1
      | LOnce l => push key l 0 s1
      | LTensor0 _ => (s1, Err TypeError)
      end
  end.

(** A history of calls; exceptions are caught by the caller.  calls of emote/mixins/logging.py:36-67 *)
Fixpoint log_all (ops : list (string * lval)) (s : logs) : logs :=
  match ops with
  | [] => s
  | (k, v) :: r => log_all r (fst (log_windowed k v s))
  end.

(** emote/mixins/logging.py:91-109: what is put into the state dict (the rest of it, of the
    other base classes, is left out) *)
Record saved_logs : Type := mkSaved {
  sv_scalars : dict string Z;
  sv_windows : dict string (list Z * Z);
  sv_cumulative : dict string Z;
  sv_other : P }.
(** emote/mixins/logging.py:91-109 state_dict *)
Definition save_logs (s : logs) : saved_logs :=
  mkSaved (lg_scalars s) (lg_windows s) (lg_cumulative s) (lg_other s).

(** emote/mixins/logging.py:123-125: [deque(v[0], maxlen=v[1])] for the windows [v] of the
    object itself, which are deques of numbers. *)
Definition rebuild (ws : dict string (list Z * Z)) : res (dict string (list Z * Z)) :=
  match ws with
  | [] => Ok []
  | (_, (w, _)) :: _ =>
      match w with
      | _ :: _ :: _ => Err TypeError
      | _ => Err IndexError
      end
  end.
(** emote/mixins/logging.py:111-128 *)
Definition load_logs (sv : saved_logs) (load_hparams : bool) (s : logs) : logs * res unit :=
  if load_hparams then
    let s1 := mkLogs (sv_scalars sv) (lg_windows s) (lg_cumulative s) (sv_other sv) (lg_default s) in
    match rebuild (lg_windows s) with
    | Err e => (s1, Err e)
    | Ok ws => (mkLogs (sv_scalars sv) ws (sv_cumulative sv) (sv_other sv) (lg_default s), Ok tt)
    end
  else (s, Ok tt).

(** ** TensorboardLogger *)

(** emote/callbacks/logging.py:43-45: [k_split[0] + "_" + suffix] *)
Definition tag (k : string) : string :=
  let '(p, ps) := split_on "/"%char k in
  join_with "/"%char (String.append p (String.append "_" "bp_step")) ps.

(** What is written: a value; the mean of a window, as its sum and length; a rate,
    as an amount and a time.  emote/callbacks/logging.py:47, 54, 61, 80, 86 *)
Inductive written : Type := WVal (z : Z) | WMean (sum len : Z) | WRate (amount time : Z).
(** one add_scalar, emote/callbacks/logging.py:47, 54, 61, 78-88: the tag, the value, the step *)
Definition event : Type := string * written * Z.

(** emote/callbacks/logging.py:49-54 *)
Fixpoint write_windows (step : Z) (ws : dict string (list Z * Z)) : list event * res unit :=
  match ws with
  | [] => ([], Ok tt)
  | (k, (w, _)) :: r =>
      match w with
      | [] => ([], Err ZeroDivisionError)
      | _ => let '(ev, e) := write_windows step r in ((tag k, WMean (zsum w) (zlen w), step) :: ev, e)
      end
  end.
(** emote/callbacks/logging.py:41-61, for one loggable (images and videos left out) *)
Definition write_one (step : Z) (s : logs) : list event * res unit :=
  let sc := map (fun kv => (tag (fst kv), WVal (snd kv), step)) (lg_scalars s) in
  match write_windows step (lg_windows s) with
  | (ev, Err e) => (sc ++ ev, Err e)
  | (ev, Ok _) =>
      (sc ++ ev ++ map (fun kv => (String.append (tag (fst kv)) "/cumulative", WVal (snd kv), step)) (lg_cumulative s), Ok tt)
  end.
(** emote/callbacks/logging.py:41-61, the loop over the loggables *)
Fixpoint write_all (step : Z) (ls : list logs) : list event * res unit :=
  match ls with
  | [] => ([], Ok tt)
  | s :: r =>
      match write_one step s with
      | (ev, Err e) => (ev, Err e)
      | (ev, Ok _) => let '(ev', e) := write_all step r in (ev ++ ev', e)
      end
  end.
(** emote/callbacks/logging.py:38-90; [elapsed] is the time since [begin_training] as the
    clock shows it, [step0], [samples0] the counters then. *)
Definition tensorboard_end_cycle (ls : list logs) (step0 samples0 elapsed step samples : Z)
  : list event * res unit :=
  match write_all step ls with
  | (ev, Err e) => (ev, Err e)
  | (ev, Ok _) =>
      if elapsed =? 0 then (ev, Err ZeroDivisionError)
      else (ev ++ [("performance/bp_samples_per_sec", WRate (samples - samples0) elapsed, step);
                   ("performance/bp_steps_per_sec", WRate (step - step0) elapsed, step)], Ok tt)
  end.
End Log.
Arguments logs P : clear implicits.
Arguments saved_logs P : clear implicits.
