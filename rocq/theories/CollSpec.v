(** * CollSpec: what a user expects of the collector *)
From Verif Require Import Py MemModel ProxyModel ProxySpec EnvModel EnvSpec CollModel.
Open Scope string_scope.
Open Scope list_scope.
Open Scope Z_scope.

Section Spec.
Context {S : Type} `{Scalar S}.
Notation row := (list S).
Notation output := (dict Z (dobs row row)).

(** The agent answers everybody who waits, with values of these names. *)
Definition agent_answers (c : kconf S) : Prop :=
  forall t (d : output) a, In a (waiting d) -> dget (kc_agent c t d) a <> None.
Definition agent_names (c : kconf S) (ns : list string) : Prop :=
  forall t (d : output) a r, dget (kc_agent c t d) a = Some r ->
  forall k, orelse (dget (r_scalar r) k) (dget (r_list r) k) <> None <-> In k ns.
(** Python's dicts have distinct keys. *)
Definition agent_dicts (c : kconf S) : Prop :=
  forall t (d : output), Forall (fun x => NoDup (dkeys (r_list (snd x))) /\ NoDup (dkeys (r_scalar (snd x)))) (kc_agent c t d).

(** What an agent was told by the environment, in order. *)
Definition views {O W : Type} (a : Z) (outs : list (dict Z (dobs O W))) : list (dobs O W) :=
  flat_map (fun d => match dget d a with Some x => [x] | None => [] end) outs.

(** The memory, which started as [t0], refuses a sequence or a size. *)
Definition memory_refuses (t0 : table S) (x : exn) : Prop :=
  exists ops, (exists a s d, snd (add_sequence (run t0 ops) a s d) = Err x) \/ exists size, snd (t_resize (run t0 ops) size) = Err x.

(** The batches after which the rollout has at least one sample. *)
Definition long_batches (c : kconf S) (batches : nat) : nat :=
  List.length (filter (fun b => 0 <=? kc_len c (Z.of_nat b)) (seq 1 batches)).
End Spec.
