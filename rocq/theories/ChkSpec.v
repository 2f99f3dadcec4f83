(** * ChkSpec: what the checks, the batch sampler and the loggers should do *)
From Coq Require Import Reals.
From Verif Require Import Py NumModel LogModel ChkModel.
Open Scope string_scope.
Open Scope list_scope.
Open Scope R_scope.

(** Callback [cb] has logged the loss [x]. *)
Definition logged_loss (cb : string * dict string num) (x : num) : Prop :=
  dget (snd cb) (String.append "loss/" (String.append (fst cb) "_loss")) = Some x.

Definition mean (l : list R) : R := rsum l / INR (List.length l).
(** The number of batches averaged over: a tenth of [num_bp], at least one. *)
Definition window (num_bp : Z) : nat := Z.to_nat (Z.max 1 (num_bp / 10)).
(** The [k]-th window of [w] elements. *)
Definition block {A} (w k : nat) (l : list A) : list A := firstn w (skipn (k * w) l).

(** The errors of one batch: mean absolute differences of observations and rewards. *)
Definition batch_errors (b : list (list num) * list (list num) * list (list num) * list (list num)) : num * num :=
  let '(po, no, pr, r) := b in (mean_abs_err po no, mean_abs_err pr r).

(** What a callback has to show, under which tag. *)
Definition entries_of {P I V} (cb : loggable P I V) : list (string * wbval I V) :=
  map (fun kv => (tag (fst kv), WbVal (WVal (snd kv)))) (lg_scalars (lb_logs cb))
  ++ map (fun kw => (tag (fst kw), WbVal (WMean (zsum (fst (snd kw))) (zlen (fst (snd kw)))))) (lg_windows (lb_logs cb))
  ++ map (fun kv => (String.append (tag (fst kv)) "/cumulative", WbVal (WVal (snd kv)))) (lg_cumulative (lb_logs cb))
  ++ map (fun kv => (tag (fst kv), WbImage (snd kv))) (lb_images cb)
  ++ map (fun kv => (tag (fst kv), WbVideo (snd kv))) (lb_videos cb).
Definition windows_filled {P I V} (cb : loggable P I V) : Prop :=
  forall k w n, In (k, (w, n)) (lg_windows (lb_logs cb)) -> w <> [].
(** The value given last for [t]. *)
Fixpoint last_value {A} (l : list (string * A)) (t : string) : option A :=
  match l with
  | [] => None
  | (k, v) :: r => match last_value r t with Some x => Some x | None => if (k =? t)%string then Some v else None end
  end.

(** The memory growth that the logged rates add up to, over the cycles. *)
Fixpoint growth_of (step : Z) (logs : list (dict string R)) (steps : list Z) : R :=
  match logs, steps with
  | d :: ds, k :: ks =>
      match dget d "system/ram_usage_growth_mb_step" with
      | Some r => r * IZR (k - step) + growth_of k ds ks
      | None => growth_of k ds ks
      end
  | _, _ => 0
  end.
Fixpoint increasing (x : Z) (l : list Z) : Prop :=
  match l with [] => True | y :: r => (x < y)%Z /\ increasing y r end.
(** Two real numbers as floats. *)
Definition pair_num (p : R * R) : num * num := (Num (fst p), Num (snd p)).
