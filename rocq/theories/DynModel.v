(** * DynModel: the training loss of a dynamics model, emote/models/model.py and emote/models/callbacks.py *)
From Coq Require Import Reals.
From Verif Require Import Py NumModel AlgoModel AmpModel PolModel EnsModel.
Open Scope list_scope.
Open Scope R_scope.

(** A row that is free of NaN, as numbers.  Tensors of emote/models/model.py:76-79. *)
Fixpoint numbers (row : list val) : option (list R) :=
  match row with
  | [] => Some []
  | None :: _ => None
  | Some x :: t => match numbers t with Some r => Some (x :: r) | None => None end
  end.
(** A tensor that is free of NaN.  Tensors of emote/models/model.py:76-79. *)
Fixpoint number_rows (rows : list (list val)) : option matrix :=
  match rows with
  | [] => Some []
  | r :: t => match numbers r, number_rows t with Some r', Some t' => Some (r' :: t') | _, _ => None end
  end.

(** emote/models/model.py:58-79 DynamicModel.loss with a DeterministicModel.  The model is
    changed by it: process_batch updates the normalizers.  A NaN anywhere makes the loss NaN,
    [None].  Simplification: the network is a function, as it is when its batch
    normalisation is in evaluation mode. *)
Definition dynamic_loss (m : dynamic) (network : matrix -> res matrix) (obs next_obs action reward : matrix)
  : res (dynamic * val) :=
  rbind (process_batch m obs next_obs action reward) (fun '(m', (model_in, target)) =>
  match number_rows model_in, number_rows target with
  | Some x, Some y => rbind (det_loss network x y) (fun loss => Ok (m', Some loss))
  | _, _ => Ok (m', None)
  end).
(** emote/models/callbacks.py:55-62 ModelLoss.loss *)
Definition model_loss (input_key : string) (m : dynamic) (network : matrix -> res matrix)
  (observation next_observation : dict string matrix) (actions rewards : matrix) : res (dynamic * val) :=
  rbind (lookup observation input_key) (fun obs =>
  rbind (lookup next_observation input_key) (fun next_obs =>
  dynamic_loss m network obs next_obs actions rewards)).

(** emote/models/model.py:240-256 DeterministicModel.sample, as DynamicModel.sample calls it
    (emote/models/model.py:103-104): the network's output.  Simplification: what is not
    computed, because the input has a NaN or the network refuses it, is an empty tensor. *)
Definition det_sample (network : matrix -> res matrix) (model_in : list (list val)) : list (list val) :=
  match number_rows model_in with
  | Some x => match network x with Ok y => finite y | Err _ => [] end
  | None => []
  end.
