(** * HlgModel: the HL-Gauss network and loss (emote/algorithms/hlgauss.py)

    Simplification: floating point numbers are real numbers, [None] is not-a-number
    (AlgoModel); a tensor of two dimensions is the list of its rows, with its width. *)
From Coq Require Import Reals.
From Verif Require Import Py NumModel AlgoModel.
Open Scope list_scope.
Open Scope R_scope.

(** torch.log_softmax of one row, part of F.cross_entropy at emote/algorithms/hlgauss.py:78 *)
Definition log_softmax (logits : list R) : list R :=
  let z := rsum (map exp logits) in map (fun x => x - ln z) logits.
(** A sum of numbers that may be NaN.  emote/algorithms/hlgauss.py:78 *)
Definition vsum (l : list val) : val := fold_right vadd (Some 0) l.
(** One row of F.cross_entropy with a distribution as target.  emote/algorithms/hlgauss.py:78 *)
Definition row_cross_entropy (logits : list R) (target : list val) : val :=
  vsub (Some 0) (vsum (map2 vmul target (map Some (log_softmax logits)))).
(** F.cross_entropy (reduction "mean").  emote/algorithms/hlgauss.py:78 *)
Definition cross_entropy (logits : list (list R)) (targets : list (list val)) : val :=
  vdiv (vsum (map2 row_cross_entropy logits targets)) (Some (INR (List.length logits))).
(** emote/algorithms/hlgauss.py:75-78 HLGaussLoss.forward.  [width]: number of columns of the
    logits; [targets]: the one column of the targets. *)
Definition hl_forward (erf : R -> R) (min max : R) (bins : nat) (sigma : R)
    (width : nat) (logits : list (list R)) (targets : list R) : res val :=
  if (Nat.eqb (List.length logits) (List.length targets) && Nat.eqb width bins)%bool
  then Ok (cross_entropy logits (map (transform_to_probs erf min max bins sigma) targets))
  else Err AssertionError.

(** emote/algorithms/hlgauss.py:43-47 for a batch: [probs * centers] needs equal widths, or one
    of width one (which is repeated; what comes out of that is not modelled, [None]) *)
Definition batch_q (min max : R) (bins width : nat) (logits : list (list R)) : res (list val) :=
  if Nat.eqb width bins then Ok (map (fun r => Some (q_from_logit min max bins r)) logits)
  else if (Nat.eqb width 1 || Nat.eqb bins 1)%bool then Ok (repeat None (List.length logits))
  else Err RuntimeError.
(** emote/algorithms/hlgauss.py:37-41 QNet.forward: a tensor of one column.  [logits] is what the
    network returned. *)
Definition qnet_forward (min max : R) (bins width : nat) (logits : list (list R)) : res (list (list val)) :=
  rmap (map (fun v => [v])) (batch_q min max bins width logits).

(** emote/algorithms/hlgauss.py:144-149 QLoss.loss: what is logged as the prediction (the mean),
    and the loss *)
Definition qloss_loss (erf : R -> R) (smoothing_ratio min max : R) (bins width : nat)
    (logits : list (list R)) (q_target : list R) : res (val * val) :=
  rbind (batch_q min max bins width logits) (fun qs =>
  let prediction := vdiv (vsum qs) (Some (INR (List.length qs))) in
  rmap (fun l => (prediction, l))
    (hl_forward erf min max bins (hl_sigma smoothing_ratio min max bins) width logits
       (map (clamp min max) q_target))).
