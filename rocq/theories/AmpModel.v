(** * AmpModel: adversarial rewards (emote/algorithms/amp.py, emote/algorithms/action_symmetry.py)

    Simplification: floating point numbers are real numbers; a two-dimensional tensor
    is the list of its rows.  The discriminator and the state maps are arbitrary
    functions from batches to batches; logging is left out. *)
From Coq Require Import Reals.
From Verif Require Import Py NumModel.
Open Scope list_scope.
Open Scope R_scope.

(** A tensor with one or two dimensions, for the rewards of emote/algorithms/amp.py:139 and
    emote/algorithms/action_symmetry.py:110 *)
Inductive tensor : Type := T1 (v : list R) | T2 (m : matrix).

(** torch.reshape(a, b, -1), as in emote/algorithms/amp.py:152: the entries in order; the last
    dimension cannot be inferred when [a * b] is zero. *)
Definition reshape3 (a b : nat) (flat : list R) : res (list matrix) :=
  let n := List.length flat in
  let ab := Nat.mul a b in
  if Nat.eqb ab 0 then Err RuntimeError
  else if Nat.eqb (Nat.modulo n ab) 0
       then let k := Nat.div n ab in
            Ok (map (chunks b k) (chunks a (Nat.mul b k) flat))
       else Err RuntimeError.
(** torch.reshape(a, -1), as in emote/algorithms/amp.py:159 *)
Definition reshape2 (a : nat) (flat : list R) : res matrix :=
  let n := List.length flat in
  if Nat.eqb a 0 then Err RuntimeError
  else if Nat.eqb (Nat.modulo n a) 0 then Ok (chunks a (Nat.div n a) flat)
       else Err RuntimeError.
(** torch.cat((rollouts, next_obs.unsqueeze(1)), dim=1), emote/algorithms/amp.py:155-156: one row is
    appended to every rollout; it has to have the width of the rollout's rows. *)
Fixpoint cat_next (rollouts : list matrix) (next_obs : matrix) : res (list matrix) :=
  match rollouts, next_obs with
  | [], [] => Ok []
  | m :: ms, x :: xs =>
      if forallb (fun row => Nat.eqb (List.length row) (List.length x)) m
      then rbind (cat_next ms xs) (fun r => Ok ((m ++ [x]) :: r))
      else Err RuntimeError
  | _, _ => Err RuntimeError
  end.
(** Entry by entry, for tensors of the same shape; emote/algorithms/amp.py:172 *)
Fixpoint zip_with (f : R -> R -> R) (a b : list R) : list R :=
  match a, b with x :: a', y :: b' => f x y :: zip_with f a' b' | _, _ => [] end.
(** emote/algorithms/amp.py:172 *)
Fixpoint zip_rows (f : R -> R -> R) (a b : matrix) : matrix :=
  match a, b with x :: a', y :: b' => zip_with f x y :: zip_rows f a' b' | _, _ => [] end.
(** [a.shape == b.shape], emote/algorithms/amp.py:170 *)
Definition same_shape (a b : matrix) : bool :=
  if list_eq_dec Nat.eq_dec (map (@List.length R) a) (map (@List.length R) b) then true else false.
(** emote/algorithms/amp.py:168 *)
Definition style (prediction : R) : R := 1 - (1 / 4) * (prediction - 1) ^ 2.
(** [dict[key]], emote/algorithms/amp.py:150, 153 *)
Definition lookup (d : dict string matrix) (key : string) : res matrix :=
  match dget d key with Some v => Ok v | None => Err KeyError end.

(** emote/algorithms/amp.py:138-181 AMPReward.begin_batch *)
Definition amp_begin_batch (discriminator state_map : matrix -> matrix) (weight : R) (rollout_length : nat)
    (obs_key data_group : string) (observation next_observation : dict string matrix) (rewards : tensor)
    : res (dict string (dict string matrix)) :=
  rbind (lookup observation obs_key) (fun obs =>
  let bsz := List.length obs in
  if Nat.eqb rollout_length 0 then Err ZeroDivisionError else
  rbind (reshape3 (Nat.div bsz rollout_length) rollout_length (concat obs)) (fun rollouts =>
  rbind (lookup next_observation obs_key) (fun next_obs =>
  rbind (cat_next rollouts next_obs) (fun combined_obs =>
  let next_obs := map (@tl (list R)) combined_obs in
  rbind (reshape2 bsz (concat (concat next_obs))) (fun next_obs =>
  let state := state_map obs in
  let next_state := state_map next_obs in
  rbind (cat_rows state next_state) (fun consecutive_states =>
  let predictions := discriminator consecutive_states in
  let style_reward := map (map style) predictions in
  let scaled_style_reward := map (map (Rmult weight)) style_reward in
  match rewards with
  | T1 _ => Err AssertionError
  | T2 rewards =>
      if same_shape scaled_style_reward rewards
      then Ok [(data_group, [("rewards"%string, zip_rows Rplus rewards scaled_style_reward)])]
      else Err AssertionError
  end)))))).

(** A batch of the discriminator's loss; emote/algorithms/amp.py:74-80 *)
Record dbatch : Type := mkDBatch { db_size : nat; db_obs : dict string matrix; db_next : dict string matrix }.
(** [output.shape == (n, 1)], emote/algorithms/amp.py:93-94 *)
Definition is_column (n : nat) (m : matrix) : bool :=
  andb (Nat.eqb (List.length m) n) (forallb (fun row => Nat.eqb (List.length row) 1) m).
(** torch.mean over all entries, emote/algorithms/amp.py:96-99 *)
Definition mean_all (m : matrix) : R := np_mean (concat m).
(** emote/algorithms/amp.py:12-30 gradient_loss_function, from the gradient [grad] of the sum of the
    outputs with respect to the input, which autograd (lines 23-26) computes. *)
Definition gradient_loss (grad : matrix) : R :=
  np_mean (map (fun row => rsum (map (fun g => g ^ 2) row)) grad).
(** The three terms of emote/algorithms/amp.py:96-103 and emote/algorithms/action_symmetry.py:68-77 *)
Definition adversarial_loss (weight : R) (pos_output neg_output grad : matrix) : R :=
  let pos_loss := mean_all (map (map (fun p => (p - 1) ^ 2)) pos_output) in
  let neg_loss := mean_all (map (map (fun p => (p + 1) ^ 2)) neg_output) in
  let grad_penalty_loss := weight * gradient_loss grad in
  pos_loss + neg_loss + grad_penalty_loss.
(** emote/algorithms/amp.py:82-84, 87-89: the input of the discriminator for one batch *)
Definition pair_input (map_fn : matrix -> matrix) (obs_key : string) (b : dbatch) : res matrix :=
  rbind (lookup (db_obs b) obs_key) (fun obs =>
  rbind (lookup (db_next b) obs_key) (fun next_obs =>
  cat_rows (map_fn obs) (map_fn next_obs))).
(** emote/algorithms/amp.py:62-114 DiscriminatorLoss.loss; [gradient x] is what autograd computes for
    the input [x]. *)
Definition discriminator_loss (discriminator : matrix -> matrix) (gradient : matrix -> matrix)
    (imitation_map policy_map : matrix -> matrix) (weight : R) (obs_key : string)
    (imitation_batch policy_batch : dbatch) : res R :=
  rbind (pair_input imitation_map obs_key imitation_batch) (fun pos_input =>
  rbind (pair_input policy_map obs_key policy_batch) (fun neg_input =>
  let pos_output := discriminator pos_input in
  let neg_output := discriminator neg_input in
  if negb (is_column (db_size imitation_batch) pos_output) then Err AssertionError else
  if negb (is_column (db_size policy_batch) neg_output) then Err AssertionError else
  Ok (adversarial_loss weight pos_output neg_output (gradient pos_input)))).

(** ** Action symmetry *)
(** emote/algorithms/action_symmetry.py:14-26 _get_action_mapping_fn, [start] and [end] of each part;
    torch.cat needs at least one part. *)
Definition action_map (action_indices : list (Z * Z)) (obs : matrix) : res matrix :=
  match action_indices with
  | [] => Err RuntimeError
  | _ => Ok (map (fun row => concat (map (fun f => pyslice row (fst f) (snd f)) action_indices)) obs)
  end.
(** emote/algorithms/action_symmetry.py:57-88 ActionSymmetryDiscriminatorLoss.loss *)
Definition symmetry_loss (discriminator : matrix -> matrix) (gradient : matrix -> matrix)
    (right_map left_map : matrix -> res matrix) (weight : R) (actions : matrix) : res R :=
  rbind (right_map actions) (fun right_actions =>
  rbind (left_map actions) (fun left_actions =>
  let pos_output := discriminator right_actions in
  let neg_output := discriminator left_actions in
  Ok (adversarial_loss weight pos_output neg_output (gradient right_actions)))).
(** torch.clamp(x, -1.0, 1.0), emote/algorithms/action_symmetry.py:130-131 *)
Definition clamp1 (x : R) : R := Rmin (Rmax x (-1)) 1.
(** torch.cat((right, left), dim=0), emote/algorithms/action_symmetry.py:124: rows of one width *)
Definition cat_batches (a b : matrix) : res matrix :=
  if forallb (fun row => Nat.eqb (List.length row) (width (a ++ b))) (a ++ b) then Ok (a ++ b) else Err RuntimeError.
(** Sizes of one dimension that can be broadcast, emote/algorithms/action_symmetry.py:138 *)
Definition dims_fit (x y : nat) : bool := Nat.eqb x y || Nat.eqb x 1 || Nat.eqb y 1.
(** the broadcast size, emote/algorithms/action_symmetry.py:138 *)
Definition dim_out (x y : nat) : nat := if Nat.eqb x 1 then y else x.
(** the entry that position [i], [j] of the broadcast tensor shows, emote/algorithms/action_symmetry.py:138 *)
Definition bcast_at (m : matrix) (i j : nat) : R :=
  let row := nth (if Nat.eqb (List.length m) 1 then O else i) m [] in
  nth (if Nat.eqb (List.length row) 1 then O else j) row 0.
(** [a + b] with torch's broadcasting, emote/algorithms/action_symmetry.py:138 *)
Definition bcast_add (a b : matrix) : res matrix :=
  if andb (dims_fit (List.length a) (List.length b)) (dims_fit (width a) (width b))
  then Ok (map (fun i => map (fun j => bcast_at a i j + bcast_at b i j)
                             (seq 0 (dim_out (width a) (width b))))
               (seq 0 (dim_out (List.length a) (List.length b))))
  else Err RuntimeError.
(** A one-dimensional tensor is one row when it meets a two-dimensional one,
    emote/algorithms/action_symmetry.py:138 *)
Definition as_matrix (t : tensor) : matrix := match t with T1 v => [v] | T2 m => m end.
(** emote/algorithms/action_symmetry.py:133-134 *)
Definition confusion (right left : R) : R :=
  let confusion_reward := 1 - (1 / 4) * (left - 1) ^ 2 in
  confusion_reward + (1 - (1 / 4) * (right + 1) ^ 2).
(** emote/algorithms/action_symmetry.py:110-149 ActionSymmetryAMPReward.begin_batch.  Simplification:
    the two halves of the predictions have the same shape, otherwise a RuntimeError. *)
Definition symmetry_begin_batch (discriminator : matrix -> matrix) (right_map left_map : matrix -> res matrix)
    (weight : R) (data_group : string) (actions : matrix) (rewards : tensor)
    : res (dict string (dict string matrix)) :=
  let batch_size := List.length actions in
  rbind (right_map actions) (fun right_actions =>
  rbind (left_map actions) (fun left_actions =>
  rbind (cat_batches right_actions left_actions) (fun all_actions =>
  let predictions := discriminator all_actions in
  let predictions_right := map (map clamp1) (firstn batch_size predictions) in
  let predictions_left := map (map clamp1) (skipn batch_size predictions) in
  if same_shape predictions_right predictions_left then
    let confusion_reward := zip_rows confusion predictions_right predictions_left in
    let scaled_confusion_reward := map (map (fun c => c * weight)) confusion_reward in
    rbind (bcast_add (as_matrix rewards) scaled_confusion_reward) (fun total_reward =>
    Ok [(data_group, [("rewards"%string, total_reward)])])
  else Err RuntimeError))).
