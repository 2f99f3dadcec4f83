(** * StratModel: the distributions the weighted strategies sample from.

    [np.random.choice(self._ids, p=self._prios)] draws [_ids[i]] with probability
    [_prios[i]].  MemModel.v keeps the numerators of [_prios] and the visit counts
    of the last rebalance ([w_prios], [w_pcounts]); here the probabilities are
    spelled out.  Simplification: the divisions and the power are exact rational
    or real operations; the rounding of numpy is left out. *)
From Verif Require Import Py MemModel AdaptorModel.
From Coq Require Import QArith Reals.
Open Scope Z_scope.

(** The strategy object of the table's sampler, if it is a weighted one.  emote/memory/uniform_strategy.py:58, emote/memory/coverage_based_strategy.py:54 *)
Definition weighted_of (s : sampler) : weighted :=
  match s with SWeighted w => w | SFifo _ _ _ => w_init false end.

(** emote/memory/uniform_strategy.py:36-39 and 59-63: the (identity, probability) pairs handed
    to np.random.choice by the next call of sample(). *)
Definition uniform_dist (w : weighted) : list (Z * Q) :=
  let w1 := fst (w_refresh w) in
  let total := zsum (w_prios w1) in
  combine (w_ids w1) (map (fun p => (inject_Z p / inject_Z total)%Q) (w_prios w1)).

(** emote/memory/coverage_based_strategy.py:42-48: combined_prios. *)
Definition coverage_weights (alpha : R) (w : weighted) : list R :=
  let total := zsum (w_prios w) in
  map2 (fun p c => (IZR p / IZR total * (1 / Rpower (IZR (c + 1)) alpha))%R)
       (w_prios w) (w_pcounts w).

(** sum as in emote/memory/uniform_strategy.py:38, emote/memory/coverage_based_strategy.py:42, 50 *)
Definition rsum (l : list R) : R := fold_right Rplus 0%R l.

(** emote/memory/coverage_based_strategy.py:40-51 and 59-62. *)
Definition coverage_dist (alpha : R) (w : weighted) : list (Z * R) :=
  let w1 := fst (w_refresh w) in
  let ws := coverage_weights alpha w1 in
  combine (w_ids w1) (map (fun x => (x / rsum ws)%R) ws).
