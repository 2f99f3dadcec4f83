(** * AgentModel: emote/proxies.py GenericAgentProxy, and emote/optimizers.py *)
From Verif Require Import Py MemModel ProxyModel.
Open Scope string_scope.
Open Scope list_scope.
Open Scope nat_scope.

Section Agent.
Context {S : Type} `{Scalar S}.
Notation row := (list S).

(** The arguments of the policy: one tensor per input key, or None.
    Simplification: a tensor is the list of its rows, a row the list of its
    numbers, whatever its shape.  The list tensor_obs_list, emote/proxies.py:105-118. *)
Definition pargs : Type := list (option (list row)).
(** The policy and what it returns: a tuple of tensors, the second of which is the
    log-probability, or a single tensor (uses_logprobs=False).  emote/proxies.py:120-129. *)
Inductive policy : Type :=
| WithLogprobs (p : pargs -> res (list (list row)))
| Plain (p : pargs -> res (list row)).

(** emote/proxies.py:68-92 __init__; [ap_sizes] holds the number of numbers in one
    observation of each state space. *)
Record aproxy : Type := mkAp {
  ap_policy : policy; ap_in : list string; ap_out : list string; ap_sizes : option (dict string nat) }.

(** emote/proxies.py:99-103 *)
Definition active_agents (observations : dict Z (obs S)) : list Z :=
  map fst (filter (fun '(_, o) => negb (is_final (o_state o))) observations).

(** numpy.array of rows: they need the same size.  emote/proxies.py:107-109. *)
Definition np_array (rows : list row) : res (list row) :=
  match rows with
  | [] => Ok []
  | r :: t => if forallb (fun x => Nat.eqb (List.length x) (List.length r)) t then Ok rows else Err ValueError
  end.
(** emote/proxies.py:111-114: reshape to the size of the space. *)
Definition to_space (sizes : option (dict string nat)) (key : string) (rows : list row) : res (list row) :=
  match sizes with
  | None => Ok rows
  | Some d =>
      match dget d key with
      | None => Err KeyError
      | Some n => match rows with
                  | [] => Ok rows
                  | r :: _ => if Nat.eqb (List.length r) n then Ok rows else Err ValueError
                  end
      end
  end.
(** emote/proxies.py:106-116: the rows of one input key. *)
Definition gather (ap : aproxy) (observations : dict Z (obs S)) (active : list Z) (key : string) : res (list row) :=
  rbind (rmapM (fun a => match dget observations a with
                         | None => Err KeyError
                         | Some o => match dget (o_data o) key with None => Err KeyError | Some r => Ok r end
                         end) active) (fun rows =>
  rbind (np_array rows) (fun rows => to_space (ap_sizes ap) key rows)).
(** [list.index].  emote/proxies.py:117. *)
Fixpoint index_of (k : string) (l : list string) : nat :=
  match l with [] => 0 | x :: t => if String.eqb k x then 0 else Datatypes.S (index_of k t) end.
(** tensor_obs_list[index] = ..., emote/proxies.py:118. *)
Fixpoint set_slot {A} (l : list A) (i : nat) (x : A) : list A :=
  match l, i with
  | [], _ => []
  | _ :: t, 0 => x :: t
  | y :: t, Datatypes.S i' => y :: set_slot t i' x
  end.
(** emote/proxies.py:105-118 *)
Fixpoint fill_slots (ap : aproxy) (observations : dict Z (obs S)) (active : list Z) (keys : list string) (slots : pargs)
  : res pargs :=
  match keys with
  | [] => Ok slots
  | k :: t => rbind (gather ap observations active k) (fun rows =>
              fill_slots ap observations active t (set_slot slots (index_of k (ap_in ap)) (Some rows)))
  end.
(** emote/proxies.py:123-126: the output of each key; element 1 is dropped. *)
Fixpoint name_outputs (keys : list string) (outputs : list (list row)) (d : dict string (list row))
  : res (dict string (list row)) :=
  match keys with
  | [] => Ok d
  | k :: t => match outputs with
              | [] => Err IndexError
              | o :: os => name_outputs t os (dset d k o)
              end
  end.
(** emote/proxies.py:120-129 *)
Definition run_policy (ap : aproxy) (args : pargs) : res (dict string (list row)) :=
  match ap_policy ap with
  | WithLogprobs p => rbind (p args) (fun outputs =>
      name_outputs (ap_out ap) (firstn 1 outputs ++ skipn 2 outputs) [])
  | Plain p => rbind (p args) (fun output =>
      Ok (fold_left (fun d k => dset d k output) (ap_out ap) []))
  end.
(** emote/proxies.py:136-137: row [i] of every output *)
Fixpoint take_row (i : nat) (outputs : dict string (list row)) (d : dict string row) : res (dict string row) :=
  match outputs with
  | [] => Ok d
  | (k, data) :: t => match nth_error data i with
                      | None => Err IndexError
                      | Some r => take_row i t (dset d k r)
                      end
  end.
(** emote/proxies.py:131-139, the loop over the active agents. *)
Fixpoint responses (i : nat) (active : list Z) (outputs : dict string (list row)) : res (list (Z * resp S)) :=
  match active with
  | [] => Ok []
  | a :: t => rbind (take_row i outputs []) (fun d =>
              rbind (responses (Datatypes.S i) t outputs) (fun l => Ok ((a, mkResp d []) :: l)))
  end.
(** emote/proxies.py:94-139 GenericAgentProxy.__call__.  [dict(agent_data)] keeps the
    order: the agents are keys of a dict and therefore different. *)
Definition agent_call (ap : aproxy) (observations : dict Z (obs S)) : res (dict Z (resp S)) :=
  if Nat.eqb (List.length observations) 0 then Err AssertionError else
  let active := active_agents observations in
  rbind (fill_slots ap observations active (ap_in ap) (repeat None (List.length (ap_in ap)))) (fun args =>
  rbind (run_policy ap args) (fun outputs =>
  responses 0 active outputs)).

(** emote/algorithms/sac.py:382-403 FeatureAgentProxy, emote/algorithms/sac.py:415-443 MultiKeyAgentProxy *)
Definition feature_proxy (p : policy) (input_key : string) : aproxy := mkAp p [input_key] ["actions"] None.
(** emote/algorithms/sac.py:415-443 MultiKeyAgentProxy *)
Definition multi_key_proxy (p : policy) (input_keys : list string) (sizes : option (dict string nat)) : aproxy :=
  mkAp p input_keys ["actions"] sizes.
End Agent.

(** ** emote/optimizers.py *)
(** torch.nn.Module: the names of its class and the classes it inherits from, its
    own parameters (name and identity), and its children.
    Simplification: no module occurs twice in the tree (parameters may).  The argument of emote/optimizers.py:13 and 73. *)
Inductive module : Type :=
| Mod (mro : list string) (own : list (string * nat)) (children : list (string * module)).
(** The classes that isinstance looks at, emote/optimizers.py:48-51. *)
Definition mod_mro (m : module) : list string := let 'Mod c _ _ := m in c.
(** The parameters that belong to a module itself, emote/optimizers.py:39. *)
Definition mod_own (m : module) : list (string * nat) := let 'Mod _ o _ := m in o.

(** torch: Module.named_modules.  Simplification: the dotted name "a.b" is the
    list ["a"; "b"]; torch forbids dots in the parts.  emote/optimizers.py:38. *)
Definition mpath : Type := list string.
(** torch: Module.named_modules, emote/optimizers.py:38. *)
Fixpoint named_modules (m : module) : list (mpath * module) :=
  match m with
  | Mod _ _ children =>
      ([], m) :: (fix go (l : list (string * module)) : list (mpath * module) :=
                    match l with
                    | [] => []
                    | (n, c) :: t => map (fun px => (n :: fst px, snd px)) (named_modules c) ++ go t
                    end) children
  end.
(** All parameters of all sub-modules, before duplicates are left out.  emote/optimizers.py:39. *)
Definition all_params (m : module) : list (mpath * nat) :=
  flat_map (fun px => map (fun ni => (fst px ++ [fst ni], snd ni)) (mod_own (snd px))) (named_modules m).
(** torch: Module.named_parameters: a parameter with several names has the first.  emote/optimizers.py:39. *)
Fixpoint first_names (seen : list nat) (l : list (mpath * nat)) : list (mpath * nat) :=
  match l with
  | [] => []
  | (n, i) :: t => if existsb (Nat.eqb i) seen then first_names seen t else (n, i) :: first_names (i :: seen) t
  end.
(** torch: Module.named_parameters, emote/optimizers.py:39 and 87. *)
Definition named_parameters (m : module) : list (mpath * nat) := first_names [] (all_params m).

(** [pn.endswith(...)]: the last part of the name decides.  emote/optimizers.py:45-51. *)
Definition str_endswith (suffix s : string) : bool :=
  let n := String.length s in let k := String.length suffix in
  Nat.leb k n && String.eqb (String.substring (n - k) k s) suffix.
(** The end of a dotted name, emote/optimizers.py:45-51. *)
Definition last_part (pn : mpath) : string := last pn "".
(** Python: isinstance(m, classes), emote/optimizers.py:48-51. *)
Definition isinstance (m : module) (classes : list string) : bool :=
  existsb (fun c => existsb (String.eqb c) classes) (mod_mro m).
(** Python: equality of names, emote/optimizers.py:38-53. *)
Definition path_eqb (a b : mpath) : bool := if list_eq_dec string_dec a b then true else false.

(** emote/optimizers.py:42-53: what one visit of a parameter does. *)
Inductive verdict : Type := Decay | NoDecay | Nothing.
(** emote/optimizers.py:42-53, one parameter of one module. *)
Definition visit (white black : list string) (excluded : list mpath) (mn : mpath) (m : module) (pn : mpath) : verdict :=
  if existsb (path_eqb mn) excluded then NoDecay
  else if str_endswith "bias" (last_part pn) then NoDecay
  else if str_endswith "weight" (last_part pn) && isinstance m black then NoDecay
  else if str_endswith "weight" (last_part pn) && isinstance m white then Decay
  else Nothing.
(** [set.add].  emote/optimizers.py:44-53. *)
Definition set_add (x : mpath) (s : list mpath) : list mpath := if existsb (path_eqb x) s then s else s ++ [x].
(** emote/optimizers.py:42-53, with the sets so far. *)
Definition visit_one white black excluded (acc : list mpath * list mpath) (v : mpath * module * mpath)
  : list mpath * list mpath :=
  let '(mn, m, pn) := v in
  match visit white black excluded mn m pn with
  | Decay => (set_add (mn ++ pn) (fst acc), snd acc)
  | NoDecay => (fst acc, set_add (mn ++ pn) (snd acc))
  | Nothing => acc
  end.
(** emote/optimizers.py:38-39: the visits of the two loops, in order *)
Definition visits (network : module) : list (mpath * module * mpath) :=
  flat_map (fun px => map (fun ni => (fst px, snd px, fst ni)) (named_parameters (snd px))) (named_modules network).
(** emote/optimizers.py:12-55 separate_modules_for_weight_decay *)
Definition separate (network : module) (white black : list string) (excluded : list mpath)
  : res (list mpath * list mpath) :=
  if existsb (fun c => existsb (String.eqb c) black) white then Err AssertionError
  else Ok (fold_left (visit_one white black excluded) (visits network) ([], [])).

(** param_dict[pn], emote/optimizers.py:87-97. *)
Definition param_at (network : module) (pn : mpath) : res nat :=
  match find (fun ni => path_eqb (fst ni) pn) (named_parameters network) with
  | Some ni => Ok (snd ni)
  | None => Err KeyError
  end.
(** emote/optimizers.py:71-100 ModifiedAdamW.__init__.  [order] is the order in which
    Python iterates over a set of strings: it changes from process to process.
    torch.optim.Optimizer refuses a parameter that is in two groups. *)
Definition modified_adamw (order : list mpath -> list mpath) (network : module) (white black : list string)
  (excluded : list mpath) : res (list nat * list nat) :=
  rbind (separate network white black excluded) (fun '(decay, no_decay) =>
  rbind (rmapM (param_at network) (order decay)) (fun g1 =>
  rbind (rmapM (param_at network) (order no_decay)) (fun g2 =>
  if existsb (fun i => existsb (Nat.eqb i) g2) g1 then Err ValueError else Ok (g1, g2)))).

(** torch.optim.Optimizer.state_dict / load_state_dict: the state of the parameter
    at each position of the groups, one group after the other.  Used by emote/callbacks/loss.py:90-96. *)
Definition opt_state {V} (groups : list nat * list nat) (moments : nat -> V) : list V :=
  map moments (fst groups ++ snd groups).
(** torch.optim.Optimizer.load_state_dict, used by emote/callbacks/loss.py:98-111. *)
Definition opt_load {V} (groups : list nat * list nat) (saved : list V) : list (nat * V) :=
  combine (fst groups ++ snd groups) saved.
