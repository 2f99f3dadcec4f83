(** * GenSpec: divergence, latent actions, loading by name *)
From Coq Require Import Reals.
From Verif Require Import Py NumModel MemModel ProxyModel PolSpec.
Open Scope list_scope.
Open Scope R_scope.

(** An expectation over a variable with mean 0 and variance 1. *)
Definition standard_expectation (E : (R -> R) -> R) : Prop :=
  (forall f g, (forall e, f e = g e) -> E f = E g) /\
  (forall f g a b, E (fun e => a * f e + b * g e) = a * E f + b * E g) /\
  E (fun _ => 1) = 1 /\ E (fun e => e) = 0 /\ E (fun e => e ^ 2) = 1.
(** The divergence of a normal distribution from the standard normal one: the expected
    difference of the log-densities at m + s e. *)
Definition divergence (m s : R) : R := (s ^ 2 + m ^ 2 - 1) / 2 - ln s.
(** The sum over a batch of [b] rows of [n] entries. *)
Definition total (b n : nat) (f : nat -> nat -> R) : R :=
  rsum (map (fun i => rsum (map (f i) (seq 0 n))) (seq 0 b)).
(** Entry [i, j] of a batch. *)
Definition at_ (m : list (list R)) (i j : nat) : R := entry (nth i m []) j.
(** A batch times a number. *)
Definition scaled (c : R) (m : list (list R)) : list (list R) := map (map (Rmult c)) m.

(** An agent's response with its actions replaced by their latent. *)
Definition replaced {S} (action_key : string) (latent : list S) (r : @resp S) : @resp S :=
  mkResp (dset (r_list r) action_key latent) (r_scalar r).
(** What goes into the memory for one agent's response [r]: the response itself if its
    actions are empty, otherwise the response with latent actions. *)
Definition goes_in {S} (encoder : list S -> list S -> res (list S)) (input_key action_key : string)
    (observations : dict Z (@obs S)) (aid : Z) (r r' : @resp S) : Prop :=
  (dget (r_list r) action_key = Some [] /\ r' = r) \/
  (exists actions o x latent, dget (r_list r) action_key = Some actions /\ actions <> [] /\
     dget observations aid = Some o /\ dget (o_data o) input_key = Some x /\ encoder actions x = Ok latent /\
     r' = replaced action_key latent r).
(** Some parameter of the module occurs in the checkpoint. *)
Definition known (own state : dict string (list R)) : Prop := exists k, In k (dkeys own) /\ In k (dkeys state).
