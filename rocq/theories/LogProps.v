(** * LogProps: logged metrics (C55, C56, C77)

    [log_all ops s]: a history of calls [log_windowed_scalar(key, value)] (a call
    that raises leaves the object as it then is).  [new_logs default p]: a new
    object.  Read [logged], [mentioned], [plain], [last_of], [window_is] in
    LogSpec.v. *)
From Coq Require Import Ascii.
From Verif Require Import Py PyLemmas CkptModel LogModel LogSpec LogProofs.
Open Scope string_scope.
Open Scope list_scope.
Open Scope Z_scope.

(** ** C55 *)

(** The window of a key has the last [n] numbers logged for it, the cumulative
    value is the sum of all of them; [n] is the length the key asks for.  Numbers
    and collections of numbers only (see the refutations). *)
Theorem C55_window_partial : forall (P : Type) ops default (p : P) key n,
  Forall (fun kv => plain (snd kv)) ops -> mentioned key ops ->
  window_length default key = Ok n -> 0 <= n ->
  window_is key n (logged key ops) (log_all ops (new_logs default p)).
Proof. exact @windows_main. Qed.
Print Assumptions C55_window_partial.

(** Other keys do not matter: a key never mentioned has no window. *)
Theorem C55_unused : forall (P : Type) ops default (p : P) key,
  Forall (fun kv => plain (snd kv)) ops -> ~ mentioned key ops ->
  no_window key (log_all ops (new_logs default p)).
Proof. exact @windows_unused. Qed.
Print Assumptions C55_unused.

(** No call with a sensible key raises. *)
Theorem C55_succeeds_partial : forall (P : Type) ops default (p : P) key v n,
  Forall (fun kv => plain (snd kv)) ops -> plain v ->
  window_length default key = Ok n -> 0 <= n ->
  snd (log_windowed key v (log_all ops (new_logs default p))) = Ok tt.
Proof. exact @call_succeeds. Qed.
Print Assumptions C55_succeeds_partial.

(** The key syntax: anything without colon and bracket, then windowed[N], then
    the end or a colon and anything. *)
Theorem C55_key_syntax : forall default pre n rest,
  without ":" pre -> without "[" pre -> 0 <= n ->
  (rest = "" \/ exists r, rest = String ":" r) ->
  window_length default
    (String.append pre (String.append "windowed[" (String.append (str_Z n) (String.append "]" rest)))) = Ok n.
Proof. exact key_syntax. Qed.
Print Assumptions C55_key_syntax.
Theorem C55_key_default : forall default key,
  (~ exists a b, key = String.append a (String.append "windowed[" b)) -> window_length default key = Ok default.
Proof. exact key_default. Qed.
Print Assumptions C55_key_default.

(** An iterator that can be gone through once is used up by filling the window;
    the cumulative value does not change. *)
Theorem C55_iterator_refuted :
  let s := log_all [("a", LOnce [1; 2])] (new_logs 250 tt) in
  logged "a" [("a", LOnce [1; 2])] = [1; 2]
  /\ lg_windows s = [("a", ([1; 2], 250))] /\ lg_cumulative s = [("a", 0)].
Proof. vm_compute. auto. Qed.
Print Assumptions C55_iterator_refuted.
(** A 0-d tensor is not logged at all: TypeError (and an empty window stays). *)
Theorem C55_scalar_tensor_refuted :
  log_windowed "a" (LTensor0 1) (new_logs 250 tt)
  = (mkLogs [] [("a", ([], 250))] [("a", 0)] tt 250, Err TypeError).
Proof. vm_compute. auto. Qed.
Print Assumptions C55_scalar_tensor_refuted.

(** ** C56 *)

(** Loading into a new object restores scalars and cumulative values (and the
    rest), ... *)
Theorem C56_scalars_partial : forall (P : Type) before sc default (p p' : P),
  let s := fold_left (fun s kv => log_scalar (fst kv) (snd kv) s) sc (log_all before (new_logs default p)) in
  let s' := fst (load_logs (save_logs s) true (new_logs default p')) in
  snd (load_logs (save_logs s) true (new_logs default p')) = Ok tt
  /\ lg_scalars s' = lg_scalars s /\ lg_cumulative s' = lg_cumulative s /\ lg_other s' = lg_other s.
Proof. exact @load_values. Qed.
Print Assumptions C56_scalars_partial.
(** ... where a scalar is the last value logged, ... *)
Theorem C56_scalar_value : forall (P : Type) sc (s : logs P) key,
  dget (lg_scalars (fold_left (fun s kv => log_scalar (fst kv) (snd kv) s) sc s)) key
  = match dget (rev sc) key with Some v => Some v | None => dget (lg_scalars s) key end.
Proof. exact @scalar_last. Qed.
Print Assumptions C56_scalar_value.
(** ... but no windows: later logging starts from nothing, the cumulative value
    too. *)
Theorem C56_windows_lost_refuted : forall (P : Type) before after default (p p' : P) key n,
  Forall (fun kv => plain (snd kv)) after -> mentioned key after ->
  window_length default key = Ok n -> 0 <= n ->
  window_is key n (logged key after)
    (log_all after (fst (load_logs (save_logs (log_all before (new_logs default p))) true (new_logs default p')))).
Proof. exact @after_load. Qed.
Print Assumptions C56_windows_lost_refuted.
(** That is wrong as soon as what was logged before does not sum to zero. *)
Theorem C56_continuation_refuted : forall (P : Type) before after default (p p' : P) key n,
  Forall (fun kv => plain (snd kv)) after -> mentioned key after ->
  window_length default key = Ok n -> 0 <= n ->
  zsum (logged key before) <> 0 ->
  ~ window_is key n (logged key (before ++ after))
    (log_all after (fst (load_logs (save_logs (log_all before (new_logs default p))) true (new_logs default p')))).
Proof. exact @after_load_wrong. Qed.
Print Assumptions C56_continuation_refuted.
(** Loading into an object that already has a window raises, always. *)
Theorem C56_load_used_refuted : forall (P : Type) (sv : saved_logs P) (s : logs P),
  lg_windows s <> [] ->
  exists e, snd (load_logs sv true s) = Err e /\ (e = TypeError \/ e = IndexError).
Proof. exact @load_used. Qed.
Print Assumptions C56_load_used_refuted.

(** ** C77: TensorboardLogger *)

(** If no window is empty and the clock has moved, exactly these are written, all
    at the current step: every scalar, the mean of every window, every cumulative
    value, the two rates. *)
Theorem C77_written : forall (P : Type) (ls : list (logs P)) step0 samples0 elapsed step samples,
  (forall s k w n, In s ls -> In (k, (w, n)) (lg_windows s) -> w <> []) -> elapsed <> 0 ->
  exists ev, tensorboard_end_cycle ls step0 samples0 elapsed step samples = (ev, Ok tt)
  /\ forall t x st, In (t, x, st) ev <->
     st = step /\
     ((exists s k v, In s ls /\ In (k, v) (lg_scalars s) /\ t = tag k /\ x = WVal v)
      \/ (exists s k w n, In s ls /\ In (k, (w, n)) (lg_windows s) /\ t = tag k /\ x = WMean (zsum w) (zlen w))
      \/ (exists s k v, In s ls /\ In (k, v) (lg_cumulative s) /\ t = String.append (tag k) "/cumulative" /\ x = WVal v)
      \/ (t = "performance/bp_samples_per_sec" /\ x = WRate (samples - samples0) elapsed)
      \/ (t = "performance/bp_steps_per_sec" /\ x = WRate (step - step0) elapsed)).
Proof. exact @tensorboard_ok. Qed.
Print Assumptions C77_written.
(** The tag of a key: "_bp_step" after the part before the first slash; different
    keys have different tags. *)
Theorem C77_tag : forall a rest,
  without "/" a -> (rest = "" \/ exists r, rest = String "/" r) ->
  tag (String.append a rest) = String.append a (String.append "_bp_step" rest).
Proof. exact tag_spec. Qed.
Print Assumptions C77_tag.
Theorem C77_tags_differ : forall k k', tag k = tag k' -> k = k'.
Proof. exact tag_inj. Qed.
Print Assumptions C77_tags_differ.
(** No window is empty after a history of non-empty values into windows of a
    length other than 0. *)
Theorem C77_no_empty_window : forall (P : Type) ops default (p : P),
  Forall (fun kv => plain (snd kv) /\ numbers (snd kv) <> []) ops ->
  (forall key, mentioned key ops -> window_length default key <> Ok 0) ->
  forall k w n, In (k, (w, n)) (lg_windows (log_all ops (new_logs default p))) -> w <> [].
Proof. exact @history_nonempty. Qed.
Print Assumptions C77_no_empty_window.
(** With an empty window the logger raises in the middle (and with it training
    stops). *)
Theorem C77_empty_window_finding : forall (P : Type) (s : logs P) k n r step0 samples0 elapsed step samples,
  lg_windows s = (k, ([], n)) :: r ->
  snd (tensorboard_end_cycle [s] step0 samples0 elapsed step samples) = Err ZeroDivisionError.
Proof. exact @tensorboard_empty. Qed.
Print Assumptions C77_empty_window_finding.

(** ** Concrete cases *)
Definition ex_ops : list (string * lval) :=
  [("windowed[3]:train/reward", LNum 1); ("loss/x", LMany [5; 6]); ("windowed[3]:train/reward", LMany [2; 3; 4]);
   ("windowed[x]:bad", LNum 7); ("loss/x", LNum 7); ("windowed[3]:train/reward", LNum 5)].
Example ex_lengths :
  map (window_length 2) ["windowed[3]:train/reward"; "loss/x"; "windowed[x]:bad"; "a:windowed[3]"; "windowed[-1]:x"]
  = [Ok 3; Ok 2; Err ValueError; Err IndexError; Ok (-1)].
Proof. vm_compute. reflexivity. Qed.
Example ex_log : log_all ex_ops (new_logs 2 tt)
  = mkLogs [] [("windowed[3]:train/reward", ([3; 4; 5], 3)); ("loss/x", ([6; 7], 2))]
      [("windowed[3]:train/reward", 15); ("loss/x", 18)] tt 2.
Proof. vm_compute. reflexivity. Qed.
Example ex_plain : Forall (fun kv : string * lval => plain (snd kv)) ex_ops /\ mentioned "loss/x" ex_ops.
Proof. split; [repeat constructor|right; left; reflexivity]. Qed.
Example ex_write :
  tensorboard_end_cycle [log_scalar "loss" 9 (log_all ex_ops (new_logs 2 tt))] 1 0 10 21 640
  = ([("loss_bp_step", WVal 9, 21);
      ("windowed[3]:train_bp_step/reward", WMean 12 3, 21); ("loss_bp_step/x", WMean 13 2, 21);
      ("windowed[3]:train_bp_step/reward/cumulative", WVal 15, 21); ("loss_bp_step/x/cumulative", WVal 18, 21);
      ("performance/bp_samples_per_sec", WRate 640 10, 21); ("performance/bp_steps_per_sec", WRate 20 10, 21)], Ok tt).
Proof. vm_compute. reflexivity. Qed.
Example ex_load :
  let s := log_all ex_ops (new_logs 2 tt) in
  let s' := fst (load_logs (save_logs s) true (new_logs 2 tt)) in
  lg_cumulative s' = [("windowed[3]:train/reward", 15); ("loss/x", 18)] /\ lg_windows s' = []
  /\ lg_cumulative (log_all [("loss/x", LNum 1)] s') = [("windowed[3]:train/reward", 15); ("loss/x", 1)]
  /\ zsum (logged "loss/x" ex_ops) = 18.
Proof. vm_compute. auto. Qed.
