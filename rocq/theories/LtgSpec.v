(** * LtgSpec: the Q-targets of a batch are the returns of what happened (for C153) *)
From Coq Require Import Reals.
From Verif Require Import Py MemModel MemSpec ProxyModel NumModel NumSpec GymModel GymTSpec LiveModel LiveSpec.
Open Scope string_scope.
Open Scope list_scope.

(** What a callback that computes Q-targets asks of the memory: a column of rewards, next observations (pairs of a
    next-observation column and the column it looks into; all of them at the end of a rollout), a mask. *)
Definition target_columns {S} (cols : list (column S)) (L : nat) (reward mask : column S) (nexts : list (column S * column S)) : Prop :=
  In reward cols /\ is_base reward /\ c_name reward = "rewards" /\
  In mask cols /\ (exists tg, c_kind mask = KVirt tg MMask) /\
  Forall (fun q => In (fst q) cols /\ In (snd q) cols /\
    (c_kind (fst q) = KVirt (c_name (snd q)) MNextLast \/ c_kind (fst q) = KVirt (c_name (snd q)) MNext /\ L = 1%nat)) nexts.

(** For every discount, reward scale and value function: the Q-targets computed from the [n] rollouts of [L] steps in
    [rows] are the returns, step by step, of stretches of episodes whose steps were taken and added, as noted in [notes]. *)
Definition targets_happened {S E V} {HS : Scalar S} (num : S -> R) (env : genv S E)
    (agent : V -> nat -> dict Z (obs S) -> res (dict Z (resp S))) (cols : list (column S)) (n L : nat)
    (notes : list (note S V)) (rows : dict string (array S)) : Prop :=
  forall gamma scale masking reward mask nexts (value : nat -> list (row (S:=S)) -> R),
  target_columns cols L reward mask nexts ->
  exists qt,
    q_target gamma scale L masking (row_by_row value) (observations rows (map (fun q => c_name (fst q)) nexts) n)
      (numbers num rows (c_name reward)) (numbers num rows (c_name mask)) = Ok qt /\ List.length qt = (n * L)%nat /\
    forall j, (j < n)%nat -> exists l : list (estep S), List.length l = L /\ in_an_episode env l /\ Forall (was_taken agent notes) l /\
      forall t, (t < L)%nat -> nth_error qt (j * L + t) =
        Some (return_of num gamma scale masking reward (map snd nexts) (value j) (map (fun x => (es_did x, es_got x)) l) t).
