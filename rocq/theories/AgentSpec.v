(** * AgentSpec: what the agent proxy and the optimizer have to do *)
From Verif Require Import Py MemModel ProxyModel AgentModel.
Open Scope string_scope.
Open Scope list_scope.
Open Scope nat_scope.

(** ** The agent proxy *)
Section Agent.
Context {S : Type} `{Scalar S}.
Notation row := (list S).

(** The agents that wait for an answer: their episode goes on. *)
Definition waits (o : obs S) : Prop := o_state o <> TERMINAL /\ o_state o <> INTERRUPTED.
Definition waiting (observations : dict Z (obs S)) : list (Z * obs S) :=
  filter (fun ao => match o_state (snd ao) with TERMINAL | INTERRUPTED => false | _ => true end) observations.
(** The input of one agent: its row of every input key. *)
Definition own_input (keys : list string) (o : obs S) : list row :=
  map (fun k => match dget (o_data o) k with Some r => r | None => [] end) keys.
(** One tensor per input key: the rows of the agents, in their order. *)
Definition stacked (keys : list string) (agents : list (Z * obs S)) : list (list row) :=
  map (fun k => map (fun ao => match dget (o_data (snd ao)) k with Some r => r | None => [] end) agents) keys.
(** Every agent that waits has all the inputs, of the expected sizes. *)
Definition inputs_fit (keys : list string) (size : string -> nat) (observations : dict Z (obs S)) : Prop :=
  forall a o k, In (a, o) observations -> waits o -> In k keys ->
    exists r, dget (o_data o) k = Some r /\ List.length r = size k.
(** The sizes the spaces give, when there are spaces. *)
Definition sizes_fit (keys : list string) (size : string -> nat) (sizes : option (dict string nat)) : Prop :=
  match sizes with None => True | Some d => forall k, In k keys -> dget d k = Some (size k) end.
(** Row [i] of the arguments. *)
Definition input_row (args : list (list row)) (i : nat) : list row := map (fun t => nth i t []) args.
(** A network that treats the rows of a batch one by one: [f] maps the input of one
    agent to its outputs, [n_out] of them. *)
Definition row_by_row (n_out : nat) (f : list row -> list row) (p : pargs (S:=S) -> res (list (list row))) : Prop :=
  forall (args : list (list row)) (n : nat), Forall (fun t => List.length t = n) args ->
    exists outs, p (map Some args) = Ok outs /\ List.length outs = n_out /\
      forall j out, nth_error outs j = Some out ->
        List.length out = n /\ forall i, i < n -> nth_error out i = nth_error (f (input_row args i)) j.
(** The outputs without the log-probabilities. *)
Definition no_logprob {A} (l : list A) : list A := match l with a :: _ :: t => a :: t | _ => l end.
End Agent.

(** ** Weight decay *)
(** The layers of a network: every module with its own parameters. *)
Definition layer_of (network : module) (pn : mpath) (i : nat) (path : mpath) (m : module) (name : string) : Prop :=
  In (path, m) (named_modules network) /\ In (name, i) (mod_own m) /\ pn = path ++ [name].
(** A module one of whose sub-modules (not itself) has parameters. *)
Definition container (m : module) : Prop :=
  exists path x, In (path, x) (named_modules m) /\ path <> [] /\ mod_own x <> [].
(** [name] ends with [suffix]. *)
Definition ends_with (suffix name : string) : Prop := exists front, name = String.append front suffix.
(** The class of [m], or one it inherits from, is among [classes]. *)
Definition instance_of (m : module) (classes : list string) : Prop := exists c, In c (mod_mro m) /\ In c classes.
(** The networks that ModifiedAdamW is made for: every parameter occurs once and is
    a bias, or the weight of a module on one of the lists, or belongs to an
    excluded layer; containers are on no list. *)
Definition ordinary (network : module) (white black : list string) (excluded : list mpath) : Prop :=
  NoDup (map fst (all_params network)) /\ NoDup (map snd (all_params network)) /\
  (forall path m name i, In (path, m) (named_modules network) -> In (name, i) (mod_own m) ->
     In path excluded \/ ends_with "bias" name \/
     (ends_with "weight" name /\ (instance_of m white \/ instance_of m black))) /\
  (forall path m, In (path, m) (named_modules network) -> container m ->
     ~ In path excluded /\ ~ instance_of m white /\ ~ instance_of m black).
(** The parameters that have to decay. *)
Definition decays (white black : list string) (excluded : list mpath) (path : mpath) (m : module) (name : string) : Prop :=
  ~ In path excluded /\ ~ ends_with "bias" name /\ ends_with "weight" name
  /\ instance_of m white /\ ~ instance_of m black.
