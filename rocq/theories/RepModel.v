(** * RepModel: the rest of emote/mixins/logging.py (histograms, images, videos), what
    LoggingProxyWrapper does with the metadata of observations (emote/memory/memory.py), and
    the per-parameter logs of emote/callbacks/loss.py

    Numbers are exact integers (of some fixed small unit), as in LogModel. *)
From Coq Require Import Ascii.
From Verif Require Import Py CkptModel LogModel ProxyModel LoaderModel.
Open Scope string_scope.
Open Scope list_scope.
Open Scope Z_scope.

(** ** Histograms, images, videos *)

(** What is kept for a histogram, emote/mixins/logging.py:24, 84, 87: a deque with its maxlen;
    a list handed in by the caller (kept by reference: what [append] adds is added to the
    caller's list too, which is not modelled); anything else that can be gone through (a
    tensor, an array), which cannot be appended to. *)
Inductive hist : Type := HDeque (w : list Z) (maxlen : Z) | HList (l : list Z) | HArray (l : list Z).
(** The numbers in it.  as in emote/memory/memory.py:328, 384-388 *)
Definition hist_values (h : hist) : list Z :=
  match h with HDeque w _ => w | HList l => l | HArray l => l end.
(** What can be handed to [log_histogram]: a number, a list, a tensor or array (its values in
    order).  emote/mixins/logging.py:78-82 *)
Inductive hval : Type := HNum (z : Z) | HMany (l : list Z) | HTensor (l : list Z).

(** A value kept or written: a number, the mean of values (sum and length), a rate (amount and
    time), the 2-norm of values.  emote/memory/memory.py:342, 358, 374, emote/callbacks/loss.py:82, 88 *)
Inductive rval : Type :=
| RVal (z : Z) | RMean (sum len : Z) | RRate (amount time : Z) | RNorm (l : list Z).

(** An image: its shape and its values.  emote/mixins/logging.py:69-72 *)
Record image : Type := mkImage { im_shape : list Z; im_data : list Z }.

(** emote/mixins/logging.py:20-25: scalars (values that need not be integers), histograms,
    images, videos (frames and frames per second) *)
Record media : Type := mkMedia {
  md_scalars : dict string rval;
  md_hists : dict string hist;
  md_images : dict string image;
  md_videos : dict string (list image * Z) }.
(** emote/mixins/logging.py:20-25 *)
Definition no_media : media := mkMedia [] [] [] [].
(** emote/mixins/logging.py:17-27: an object with all its logs *)
Definition mlogs : Type := logs media.
(** emote/mixins/logging.py:17-27 *)
Definition with_media (s : mlogs) (m : media) : mlogs :=
  mkLogs (lg_scalars s) (lg_windows s) (lg_cumulative s) m (lg_default s).

(** emote/mixins/logging.py:29-34 *)
Definition log_value (key : string) (v : rval) (s : mlogs) : mlogs :=
  let m := lg_other s in
  with_media s (mkMedia (dset (md_scalars m) key v) (md_hists m) (md_images m) (md_videos m)).
(** emote/mixins/logging.py:69-72 *)
Definition log_image (key : string) (v : image) (s : mlogs) : mlogs :=
  let m := lg_other s in
  if (List.length (im_shape v) =? 3)%nat
  then with_media s (mkMedia (md_scalars m) (md_hists m) (dset (md_images m) key v) (md_videos m))
  else s.
(** emote/mixins/logging.py:74-76 *)
Definition log_video (key : string) (v : list image * Z) (s : mlogs) : mlogs :=
  let m := lg_other s in
  with_media s (mkMedia (md_scalars m) (md_hists m) (md_images m) (dset (md_videos m) key v)).
(** emote/mixins/logging.py:84, 87, 89: what [hist_logs[key]] is set to *)
Definition set_hist (key : string) (h : hist) (s : mlogs) : mlogs :=
  let m := lg_other s in
  with_media s (mkMedia (md_scalars m) (dset (md_hists m) key h) (md_images m) (md_videos m)).
(** emote/mixins/logging.py:78-89.  A deque with a negative maxlen is a ValueError. *)
Definition log_histogram (key : string) (v : hval) (s : mlogs) : mlogs * res unit :=
  match v with
  | HMany l => (set_hist key (HList l) s, Ok tt)
  | HTensor l => (set_hist key (HArray l) s, Ok tt)
  | HNum z =>
      match dget (md_hists (lg_other s)) key with
      | Some (HDeque w n) => (set_hist key (HDeque (dq_extend w n [z]) n) s, Ok tt)
      | Some (HList l) => (set_hist key (HList (l ++ [z])) s, Ok tt)
      | Some (HArray _) => (s, Err AttributeError)
      | None =>
          if lg_default s <? 0 then (s, Err ValueError)
          else (set_hist key (HDeque (dq_extend [] (lg_default s) [z]) (lg_default s)) s, Ok tt)
      end
  end.
(** A history of calls of emote/mixins/logging.py:78-89; exceptions are caught by the caller. *)
Definition hist_all (ops : list (string * hval)) (s : mlogs) : mlogs :=
  fold_left (fun s kv => fst (log_histogram (fst kv) (snd kv) s)) ops s.

(** ** Reports *)

(** emote/typing.py:65-68 MetaData *)
Record meta : Type := mkMeta { mt_info : dict string Z; mt_lists : dict string (list Z) }.

(** [key.startswith("histogram:")] and [key[10:]].  as in emote/memory/memory.py:306-307, 327-328 *)
Definition histogram_key (key : string) : option string :=
  if String.prefix "histogram:" key
  then Some (String.substring 10 (String.length key - 10) key) else None.

(** emote/memory/memory.py:305-309, the body of the first loop *)
Definition report_number (key : string) (v : Z) (s : mlogs) : mlogs * res unit :=
  match histogram_key key with
  | Some k => log_histogram k (HNum v) s
  | None => log_windowed key (LNum v) s
  end.
(** emote/memory/memory.py:311-315, the body of the second loop *)
Definition report_list (key : string) (v : list Z) (s : mlogs) : mlogs * res unit :=
  match histogram_key key with
  | Some k => log_histogram k (HMany v) s
  | None => log_windowed key (LMany v) s
  end.
(** A loop that an exception ends.  as in emote/memory/memory.py:305, 311 *)
Fixpoint each {A} (f : string -> A -> mlogs -> mlogs * res unit) (d : dict string A) (s : mlogs)
  : mlogs * res unit :=
  match d with
  | [] => (s, Ok tt)
  | (k, v) :: r =>
      match f k v s with
      | (s', Ok _) => each f r s'
      | (s', Err e) => (s', Err e)
      end
  end.
(** emote/memory/memory.py:300-315 LoggingProxyWrapper.report *)
Definition report (m : meta) (s : mlogs) : mlogs * res unit :=
  match each report_number (mt_info m) s with
  | (s', Ok _) => each report_list (mt_lists m) s'
  | (s', Err e) => (s', Err e)
  end.

(** [sum(window) / len(window)].  as in emote/memory/memory.py:329, 333, 358, 374 *)
Definition mean_of (l : list Z) : res rval :=
  if zlen l =? 0 then Err ZeroDivisionError else Ok (RMean (zsum l) (zlen l)).

(** emote/memory/memory.py:325-336, the body of the loop *)
Definition get_one (infs : Z) (s : mlogs) (key : string)
    (out : dict string rval * dict string (list Z)) : res (dict string rval * dict string (list Z)) :=
  let other :=
    match dget (lg_windows s) key with
    | Some (w, _) =>
        rbind (mean_of w) (fun m =>
        match dget (lg_cumulative s) key with
        | None => Err KeyError
        | Some c => Ok (dset (dset (fst out) key m) (String.append key "/cumulative") (RVal c), dset (snd out) key w)
        end)
    | None => if (key =? "inf_step")%string then Ok (dset (fst out) key (RVal infs), snd out) else Ok out
    end in
  match histogram_key key with
  | Some k =>
      match dget (md_hists (lg_other s)) k with
      | Some h => rbind (mean_of (hist_values h)) (fun m => Ok (dset (fst out) key m, snd out))
      | None => other
      end
  | None => other
  end.
(** emote/memory/memory.py:317-338 LoggingProxyWrapper.get_report.  [order] is the order in
    which Python goes through [set(keys)]: any order, every key once. *)
Fixpoint get_report (infs : Z) (s : mlogs) (order : list string)
    (out : dict string rval * dict string (list Z)) : res (dict string rval * dict string (list Z)) :=
  match order with
  | [] => Ok out
  | k :: r => rbind (get_one infs s k out) (fun out' => get_report infs s r out')
  end.

(** ** The end of a cycle *)

(** What the SummaryWriter is told: emote/memory/memory.py:361-397 *)
Inductive wevent : Type :=
| EScalar (tag : string) (v : rval) (step : Z)
| EHist (tag : string) (l : list Z) (step : Z)
| EImage (tag : string) (i : image) (step : Z)
| EVideo (tag : string) (v : list image * Z) (step : Z).

(** emote/memory/memory.py:372, 377: [k.split(":")[1] if k.startswith("windowed[") else k] *)
Definition window_tag (k : string) : res string :=
  if String.prefix "windowed[" k then
    match snd (split_on ":"%char k) with [] => Err IndexError | q :: _ => Ok q end
  else Ok k.

(** emote/memory/memory.py:371-374 *)
Fixpoint write_means (step : Z) (ws : dict string (list Z * Z)) : list wevent * res unit :=
  match ws with
  | [] => ([], Ok tt)
  | (k, (w, _)) :: r =>
      match rbind (window_tag k) (fun t => rbind (mean_of w) (fun m => Ok (t, m))) with
      | Err e => ([], Err e)
      | Ok (t, m) => let '(ev, x) := write_means step r in (EScalar t m step :: ev, x)
      end
  end.
(** emote/memory/memory.py:376-379 *)
Fixpoint write_cumulative (step : Z) (cs : dict string Z) : list wevent * res unit :=
  match cs with
  | [] => ([], Ok tt)
  | (k, v) :: r =>
      match window_tag k with
      | Err e => ([], Err e)
      | Ok t => let '(ev, x) := write_cumulative step r in
                (EScalar (String.append t "/cumulative") (RVal v) step :: ev, x)
      end
  end.
(** emote/memory/memory.py:387-391.  The writer refuses a histogram without values
    (torch.utils.tensorboard.summary.make_histogram: ValueError). *)
Fixpoint write_hists (step : Z) (hs : dict string hist) : list wevent * res unit :=
  match hs with
  | [] => ([], Ok tt)
  | (k, h) :: r =>
      match hist_values h with
      | [] => ([], Err ValueError)
      | l => let '(ev, x) := write_hists step r in (EHist k l step :: ev, x)
      end
  end.
(** emote/memory/memory.py:354-366: the distribution of the rewards *)
Definition write_rewards (step eps : Z) (s : mlogs) : list wevent * res unit :=
  match dget (lg_windows s) "episode/reward" with
  | None => ([], Ok tt)
  | Some (w, _) =>
      match mean_of w with
      | Err e => ([], Err e)
      | Ok m => ([EScalar "env_vs_episode/reward" m eps; EHist "episode/reward_distribution" w step;
                  EHist "env_vs_episode/reward_distribution" w eps], Ok tt)
      end
  end.
(** one statement after another; what was written before an exception stays written.
    as in emote/memory/memory.py:340-397 *)
Definition then_write (a b : list wevent * res unit) : list wevent * res unit :=
  match a with
  | (ev, Ok _) => let '(ev', x) := b in (ev ++ ev', x)
  | (ev, Err e) => (ev, Err e)
  end.

(** The clock and the block timers at the end of a cycle: emote/memory/memory.py:341-342, 349,
    389: the time since the last cycle, since the start, the timer statistics *)
Record readings : Type := mkReadings
  { rd_cycle : Z; rd_start : Z; rd_timers : list (string * (Z * Z)) }.

(** emote/memory/memory.py:345-351: the scalars that are set first *)
Definition cycle_scalars (name : string) (cycle_infs eps : Z) (rd : readings) (s : mlogs) : mlogs :=
  let s1 := log_value "training/inf_per_sec" (RRate cycle_infs (rd_cycle rd)) s in
  let s2 := log_value "episode/completed" (RVal eps) s1 in
  fold_left (fun s t =>
      let pre := String.append "memory/" (String.append name (String.append "/" (fst t))) in
      log_value (String.append pre "/timing/var") (RVal (snd (snd t)))
        (log_value (String.append pre "/timing/mean") (RVal (fst (snd t))) s))
    (rd_timers rd) s2.

(** emote/memory/memory.py:353-397: everything that is written *)
Definition write_cycle (infs eps infs_at_start : Z) (rd : readings) (s : mlogs) : list wevent * res unit :=
  let m := lg_other s in
  then_write (write_rewards infs eps s)
 (then_write (map (fun kv => EScalar (fst kv) (snd kv) infs) (md_scalars m), Ok tt)
 (then_write (write_means infs (lg_windows s))
 (then_write (write_cumulative infs (lg_cumulative s))
 (then_write (map (fun kv => EImage (fst kv) (snd kv) infs) (md_images m), Ok tt)
 (then_write (map (fun kv => EVideo (fst kv) (snd kv) infs) (md_videos m), Ok tt)
 (then_write (write_hists infs (md_hists m))
   (if rd_start rd =? 0 then ([], Err ZeroDivisionError)
    else ([EScalar "performance/inf_steps_per_sec" (RRate (infs - infs_at_start) (rd_start rd)) infs], Ok tt)))))))).

(** ** LoggingProxyWrapper with its metrics *)
Section Wrapper.
Context {S : Type} {I : Type}.
(** The wrapped proxy: any object with an [add] method. *)
Context (inner_add : I -> dict Z (obs S) -> dict Z (resp S) -> I * res unit).

(** emote/memory/memory.py:239-257: the counters of LoaderModel, the logs, the inferences at the
    start of the cycle, the name of the memory, and everything written so far *)
Record rlogw : Type := mkRlogw
  { rw_base : logw I; rw_logs : mlogs; rw_cycle_infs : Z; rw_name : string; rw_written : list wevent }.
(** emote/memory/memory.py:239-257 *)
Definition rlogw_new (name : string) (interval : Z) (i : I) : rlogw :=
  mkRlogw (logw_new interval i) (new_logs 1000 no_media) 0 name [].

(** emote/typing.py:71-76: an observation with its metadata *)
Definition mobs : Type := (obs S * option meta)%type.
(** what the inner proxy looks at, emote/memory/memory.py:298 *)
Definition plain_obs (observations : dict Z mobs) : dict Z (obs S) :=
  map (fun kv => (fst kv, fst (snd kv))) observations.

(** emote/memory/memory.py:288-292: a report for every observation with metadata *)
Fixpoint report_all (observations : dict Z mobs) (s : mlogs) : mlogs * res unit :=
  match observations with
  | [] => (s, Ok tt)
  | (_, (_, None)) :: r => report_all r s
  | (_, (_, Some m)) :: r =>
      match report m s with
      | (s', Ok _) => report_all r s'
      | (s', Err e) => (s', Err e)
      end
  end.

(** emote/memory/memory.py:340-402 LoggingProxyWrapper._end_cycle *)
Definition end_cycle (infs eps : Z) (rd : readings) (w : rlogw) : rlogw * res unit :=
  let b := rw_base w in
  if rd_cycle rd =? 0 then (w, Err ZeroDivisionError)
  else
    let s := cycle_scalars (rw_name w) (infs - rw_cycle_infs w) eps rd (rw_logs w) in
    let '(ev, x) := write_cycle infs eps (lw_start b) rd s in
    let written := rw_written w ++ ev in
    match x with
    | Ok _ => (mkRlogw b s infs (rw_name w) written, Ok tt)
    | Err e => (mkRlogw b s (rw_cycle_infs w) (rw_name w) written, Err e)
    end.

(** emote/memory/memory.py:279-298 LoggingProxyWrapper.add *)
Definition rlogw_add (w : rlogw) (rd : readings) (observations : dict Z mobs) (responses : dict Z (resp S))
  : rlogw * res unit :=
  let b := rw_base w in
  let counter := lw_counter b + 1 in
  let infs := lw_infs b + zlen observations in
  let eps := lw_eps b + (zlen observations - zlen responses) in
  let base c cycles i := mkLogw infs eps c (lw_interval b) (lw_start b) cycles i in
  let '(s, x) := report_all observations (rw_logs w) in
  let w1 := mkRlogw (base counter (lw_cycles b) (lw_inner b)) s (rw_cycle_infs w) (rw_name w) (rw_written w) in
  match x with
  | Err e => (w1, Err e)
  | Ok _ =>
      if lw_interval b =? 0 then (w1, Err ZeroDivisionError)
      else
        let cyc := counter mod lw_interval b =? 0 in
        let '(w2, y) := if cyc then end_cycle infs eps rd w1 else (w1, Ok tt) in
        match y with
        | Err e => (w2, Err e)
        | Ok _ =>
            let '(i, z) := inner_add (lw_inner b) (plain_obs observations) responses in
            (mkRlogw (base (if cyc then 0 else counter) (if cyc then lw_cycles b ++ [infs] else lw_cycles b) i)
               (rw_logs w2) (rw_cycle_infs w2) (rw_name w2) (rw_written w2), z)
        end
  end.

(** One call of [add]: emote/memory/memory.py:279-298 *)
Record acall : Type := mkAcall
  { ac_readings : readings; ac_obs : dict Z mobs; ac_resp : dict Z (resp S) }.
(** A history of calls; exceptions are caught by the caller.  emote/memory/memory.py:279-298 *)
Fixpoint rlogw_run (w : rlogw) (h : list acall) : rlogw * list (res unit) :=
  match h with
  | [] => (w, [])
  | c :: r =>
      let '(w1, x) := rlogw_add w (ac_readings c) (ac_obs c) (ac_resp c) in
      let '(w2, xs) := rlogw_run w1 r in (w2, x :: xs)
  end.
End Wrapper.
Arguments rlogw I : clear implicits.
Arguments acall S : clear implicits.
Arguments mobs S : clear implicits.

(** ** Per-parameter logs (emote/callbacks/loss.py) *)

(** A parameter of the network: its name, which tensor it is, shape and values, and shape and
    values of the gradient if it has one.  emote/callbacks/loss.py:46-54, 71-88 *)
Record param : Type := mkParam
  { pr_name : string; pr_id : Z; pr_shape : list Z; pr_data : list Z; pr_grad : option (list Z) }.

(** emote/callbacks/loss.py:12-13 _friendly_size_str: [str(list(size))] without brackets,
    with underscores for separators *)
Definition friendly_size_str (size : list Z) : string :=
  match map str_Z size with
  | [] => ""
  | d :: ds => join_with "_"%char d ds
  end.

(** emote/callbacks/loss.py:46-54: the parameters of the network that the optimizer has *)
Definition optimized (network : list param) (ids : list Z) : list param :=
  filter (fun p => inb (pr_id p) ids) network.

(** emote/callbacks/loss.py:73-75: [self.name + "_" + "_".join(split[:-1])] and [split[-1]] *)
Definition log_name (loss : string) (pname : string) : string :=
  let '(p, ps) := split_on "."%char pname in
  String.append loss (String "_"%char
    (match removelast (p :: ps) with [] => "" | q :: qs => join_with "_"%char q qs end)).
(** emote/callbacks/loss.py:75 *)
Definition param_type (pname : string) : string :=
  let '(p, ps) := split_on "."%char pname in last (p :: ps) "".
(** emote/callbacks/loss.py:79, 81, 87, 88: [f"{param_type}{mid}/{log_name}_{shape}"] *)
Definition param_key (mid loss : string) (p : param) : string :=
  String.append (param_type (pr_name p)) (String.append mid (String "/"%char
    (String.append (log_name loss (pr_name p)) (String "_"%char (friendly_size_str (pr_shape p)))))).

(** emote/callbacks/loss.py:77-88, the body of the loop *)
Definition log_param (weights grads : bool) (loss : string) (p : param) (s : mlogs) : mlogs :=
  let s1 :=
    match (if grads then pr_grad p else None) with
    | Some g => log_value (param_key "_grads_l2" loss p) (RNorm g)
                  (fst (log_histogram (param_key "_grads" loss p) (HTensor g) s))
    | None => s
    end in
  if weights
  then log_value (param_key "_l2" loss p) (RNorm (pr_data p))
         (fst (log_histogram (param_key "" loss p) (HTensor (pr_data p)) s1))
  else s1.
(** emote/callbacks/loss.py:71-88 LossCallback.log_per_param_weights_and_grads.  Simplification:
    a histogram keeps the values of the moment (the code keeps the parameter's own storage). *)
Definition log_per_param (weights grads : bool) (loss : string) (network : list param) (ids : list Z)
    (s : mlogs) : mlogs :=
  fold_left (fun s p => log_param weights grads loss p s) (optimized network ids) s.
(** A history of reports; exceptions are caught by the caller.  calls of emote/memory/memory.py:300-315 *)
Definition reports (h : list meta) (s : mlogs) : mlogs := fold_left (fun s m => fst (report m s)) h s.
