(** * NumModel: the numeric helpers of emote/utils, and the Q-targets

    Simplification: floating point numbers are real numbers; a tensor is the list
    of its entries, a matrix the list of its rows.  Not-a-number is [None]. *)
From Coq Require Import Reals.
From Verif Require Import Py.
Open Scope list_scope.
Open Scope R_scope.

(** sum over a tensor or list; used for emote/utils/timed_call.py:99, emote/utils/gamma_matrix.py:46 *)
Definition rsum (l : list R) : R := fold_right Rplus 0 l.

(** ** Statistics: emote/utils/timed_call.py *)
(** emote/utils/timed_call.py:48-76 WelfordAccumulator. *)
Record welford : Type := mkWelford { wf_count : nat; wf_mean : R; wf_diff : R }.
(** emote/utils/timed_call.py:53-55 *)
Definition wf_init : welford := mkWelford 0 0 0.
(** emote/utils/timed_call.py:57-66 *)
Definition wf_add (w : welford) (value : R) : welford :=
  let count := S (wf_count w) in
  let delta := value - wf_mean w in
  let mean := wf_mean w + delta / INR count in
  let delta2 := value - mean in
  mkWelford count mean (wf_diff w + delta * delta2).
(** emote/utils/timed_call.py:68-76 *)
Definition wf_current (w : welford) : option (R * R) :=
  if Nat.eqb (wf_count w) 0 then None else Some (wf_mean w, wf_diff w / INR (wf_count w)).

(** numpy.mean, numpy.var.  as in emote/utils/timed_call.py:99 *)
Definition np_mean (l : list R) : R := rsum l / INR (List.length l).
(** as in emote/utils/timed_call.py:99 *)
Definition np_var (l : list R) : R := np_mean (map (fun x => (x - np_mean l) ^ 2) l).

(** emote/utils/timed_call.py:79-99 MovingWindowAccumulator: a deque of the last 100. *)
Definition window_size : nat := Nat.mul 10 10.
(** emote/utils/timed_call.py:83-88 *)
Definition mw_add (values : list R) (value : R) : list R :=
  let l := values ++ [value] in
  if Nat.ltb window_size (List.length l) then tl l else l.
(** emote/utils/timed_call.py:90-99 *)
Definition mw_current (values : list R) : option (R * R) :=
  if Nat.eqb (List.length values) 0 then None else Some (np_mean values, np_var values).

(** emote/utils/timed_call.py:102-131 TimedBlock, with a MovingWindowAccumulator. *)
Record block : Type := mkBlock { bk_values : list R; bk_start : option R }.
(** emote/utils/timed_call.py:106-113 *)
Definition bk_init : block := mkBlock [] None.
(** emote/utils/timed_call.py:115-116 *)
Definition bk_enter (now : R) (b : block) : block := mkBlock (bk_values b) (Some now).
(** emote/utils/timed_call.py:118-119; leaving a block never entered is a TypeError *)
Definition bk_exit (now : R) (b : block) : res block :=
  match bk_start b with
  | None => Err TypeError
  | Some s => Ok (mkBlock (mw_add (bk_values b) (now - s)) (bk_start b))
  end.
(** emote/utils/timed_call.py:134-142 BlockTimers: [with timers.scope(name): ...].  The events
    of a run: a block of some name is entered or left, at some time. *)
Inductive tevent : Type := TEnter (name : string) (now : R) | TExit (name : string) (now : R).
(** emote/utils/timed_call.py:135-136 *)
Definition timers : Type := dict string block.
(** emote/utils/timed_call.py:138-139, a defaultdict *)
Definition scope (name : string) (ts : timers) : block := dget_default ts name bk_init.
(** emote/utils/timed_call.py:115-119, 138-139 *)
Definition timers_event (e : tevent) (ts : timers) : res timers :=
  match e with
  | TEnter n now => Ok (dset ts n (bk_enter now (scope n ts)))
  | TExit n now => rbind (bk_exit now (scope n ts)) (fun b => Ok (dset ts n b))
  end.
(** a sequence of uses of emote/utils/timed_call.py:134-142 *)
Fixpoint timers_run (es : list tevent) (ts : timers) : res timers :=
  match es with [] => Ok ts | e :: r => rbind (timers_event e ts) (timers_run r) end.
(** emote/utils/timed_call.py:141-142 *)
Definition timers_stats (ts : timers) : dict string (option (R * R)) :=
  map (fun p => (fst p, mw_current (bk_values (snd p)))) ts.

(** ** deprecated: emote/utils/deprecated.py:32-48.  A call: the new number of
    warnings given so far, whether there was a warning, what is returned. *)
Definition deprecated_call {A B} (f : A -> B) (max_warn_count : Z) (warn_count : Z) (x : A) : Z * (bool * B) :=
  if (warn_count <? max_warn_count)%Z then ((warn_count + 0)%Z, (true, f x)) else (warn_count, (false, f x)).
(** a sequence of calls of the wrapper in emote/utils/deprecated.py:37-48 *)
Fixpoint deprecated_calls {A B} (f : A -> B) (max_warn_count : Z) (warn_count : Z) (xs : list A) : list (bool * B) :=
  match xs with
  | [] => []
  | x :: r => let '(wc, out) := deprecated_call f max_warn_count warn_count x in
              out :: deprecated_calls f max_warn_count wc r
  end.

(** ** truncated_linear: emote/utils/math.py:7-29 *)
Definition truncated_linear (min_x max_x min_y max_y x : R) : R :=
  if Rlt_dec (max_x - min_x) (/ 10 ^ 10) then max_y
  else if Rle_dec x min_x then min_y
  else let dx := (x - min_x) / (max_x - min_x) in
       let dx := Rmin dx 1 in
       dx * (max_y - min_y) + min_y.

(** ** Gamma matrices: emote/utils/gamma_matrix.py *)
Definition matrix : Type := list (list R).
(** for the item assignment in emote/utils/gamma_matrix.py:23-31 *)
Fixpoint set_at {A} (n : nat) (x : A) (l : list A) : list A :=
  match n, l with
  | _, [] => []
  | O, _ :: r => x :: r
  | S m, y :: r => y :: set_at m x r
  end.
(** [m[c:, c] = v[0 : len(m) - c]].  emote/utils/gamma_matrix.py:23-31 *)
Fixpoint set_column (c : nat) (from : nat) (v : list R) (m : matrix) : matrix :=
  match m with
  | [] => []
  | row :: r =>
      match from with
      | S f => row :: set_column c f v r
      | O => match v with
             | [] => row :: r
             | x :: v' => set_at c x row :: set_column c O v' r
             end
      end
  end.
(** emote/utils/gamma_matrix.py:23-31 *)
Definition make_gamma_matrix (gamma : R) (roll_length : nat) : matrix :=
  let gamma_vector := map (fun cc => gamma ^ cc) (seq 0 (roll_length + 1)) in
  fold_left (fun m cc => set_column cc cc (firstn (roll_length + 1 - cc) gamma_vector) m)
            (seq 0 roll_length)
            (repeat (repeat 0 roll_length) (roll_length + 1)).

(** torch.matmul; torch.cat along the rows.  emote/utils/gamma_matrix.py:46 *)
Fixpoint dot (a b : list R) : R :=
  match a, b with x :: a', y :: b' => x * y + dot a' b' | _, _ => 0 end.
(** for torch.matmul in emote/utils/gamma_matrix.py:46 *)
Definition column_of (j : nat) (m : matrix) : list R := map (fun row => nth j row 0) m.
(** for torch.matmul in emote/utils/gamma_matrix.py:46 *)
Definition width (m : matrix) : nat := match m with [] => O | row :: _ => List.length row end.
(** emote/utils/gamma_matrix.py:46 *)
Definition matmul (a b : matrix) : res matrix :=
  if forallb (fun row => Nat.eqb (List.length row) (List.length b)) a
  then Ok (map (fun row => map (fun j => dot row (column_of j b)) (seq 0 (width b))) a)
  else Err RuntimeError.
(** emote/utils/gamma_matrix.py:44 *)
Fixpoint cat_rows (a b : matrix) : res matrix :=
  match a, b with
  | [], [] => Ok []
  | x :: a', y :: b' => rbind (cat_rows a' b') (fun r => Ok ((x ++ y) :: r))
  | _, _ => Err RuntimeError
  end.
(** emote/utils/gamma_matrix.py:42-48; the result is a column vector. *)
Definition discount (rewards values gamma_matrix : matrix) : res (list R) :=
  rbind (cat_rows rewards values) (fun reward_matrix =>
  rbind (matmul reward_matrix gamma_matrix) (fun d => Ok (concat d))).
(** emote/utils/gamma_matrix.py:51-52: a view as rows of [rollout_len] entries. *)
Fixpoint chunks {A} (n size : nat) (data : list A) : list (list A) :=
  match n with O => [] | S m => firstn size data :: chunks m size (skipn size data) end.
(** emote/utils/gamma_matrix.py:51-52 *)
Definition split_rollouts {A} (data : list A) (rollout_len : nat) : res (list (list A)) :=
  let n := List.length data in
  if Nat.eqb rollout_len 0 then Err ZeroDivisionError
  else if Nat.eqb (Nat.mul (Nat.div n rollout_len) rollout_len) n then Ok (chunks (Nat.div n rollout_len) rollout_len data)
  else Err RuntimeError.

(** ** Q-targets *)
(** Elementwise product of two column vectors, with torch's broadcasting.  as in emote/algorithms/sac.py:161 *)
Fixpoint zip_mult (a b : list R) : list R :=
  match a, b with x :: a', y :: b' => x * y :: zip_mult a' b' | _, _ => [] end.
(** emote/algorithms/sac.py:161 *)
Definition multiply (a b : list R) : res (list R) :=
  match a, b with
  | [x], _ => Ok (map (Rmult x) b)
  | _, [y] => Ok (map (fun x => x * y) a)
  | _, _ => if Nat.eqb (List.length a) (List.length b) then Ok (zip_mult a b) else Err RuntimeError
  end.
(** emote/algorithms/sac.py:146-171 QTarget.begin_batch, use_terminal_masking = [masking];
    emote/algorithms/dqn.py:54-65 does the same with masking.  [next_value] stands for
    emote/algorithms/sac.py:147-154: the networks' (and for SAC the sampled action's) value of the next
    observations, one number for each; logging is left out. *)
Definition q_target {O} (gamma reward_scale : R) (rollout_len : nat) (masking : bool)
    (next_value : list O -> list R) (next_observation : list O) (rewards masks : list R) : res (list R) :=
  let value := next_value next_observation in
  let scaled_reward := map (Rmult reward_scale) rewards in
  rbind (split_rollouts masks rollout_len) (fun ms =>
  let last_step_masks := map (fun row => last row 0) ms in
  rbind (split_rollouts scaled_reward rollout_len) (fun rs =>
  rbind (if masking then multiply value last_step_masks else Ok value) (fun value =>
  rbind (discount rs (map (fun v => [v]) value) (make_gamma_matrix gamma rollout_len)) (fun qt =>
  if Nat.eqb (List.length qt) (List.length rewards) then Ok qt else Err AssertionError)))).
