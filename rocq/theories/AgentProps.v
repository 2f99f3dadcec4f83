(** * AgentProps: C74, C75, C83 *)
From Coq Require Import Permutation.
From Verif Require Import Py MemModel ProxyModel AgentModel AgentSpec AgentProofs AgentOpt.
Open Scope string_scope.
Open Scope list_scope.
Open Scope nat_scope.

(** C74: exactly the waiting agents are answered, in their order, and each with what
    the network computes from its own observation. *)
Theorem C74_answers : forall (S : Type) (ap : aproxy (S:=S)) (observations : dict Z (obs S)) size p n_out f,
  NoDup (dkeys observations) -> NoDup (ap_in ap) -> NoDup (ap_out ap) -> observations <> [] ->
  inputs_fit (ap_in ap) size observations -> sizes_fit (ap_in ap) size (ap_sizes ap) ->
  ap_policy ap = WithLogprobs p -> row_by_row n_out f p -> Datatypes.S (List.length (ap_out ap)) <= n_out ->
  agent_call ap observations =
  Ok (map (fun ao => (fst ao, mkResp (combine (ap_out ap) (no_logprob (f (own_input (ap_in ap) (snd ao))))) []))
          (waiting observations)).
Proof. exact @call_rows. Qed.
Print Assumptions C74_answers.
Theorem C74_answers_plain : forall (S : Type) (ap : aproxy (S:=S)) (observations : dict Z (obs S)) size p g,
  NoDup (dkeys observations) -> NoDup (ap_in ap) -> NoDup (ap_out ap) -> observations <> [] ->
  inputs_fit (ap_in ap) size observations -> sizes_fit (ap_in ap) size (ap_sizes ap) ->
  ap_policy ap = Plain p ->
  (forall args n, Forall (fun t => List.length t = n) args ->
     p (map Some args) = Ok (map (fun i => g (input_row args i)) (seq 0 n))) ->
  agent_call ap observations =
  Ok (map (fun ao => (fst ao, mkResp (map (fun k => (k, g (own_input (ap_in ap) (snd ao)))) (ap_out ap)) []))
          (waiting observations)).
Proof. exact @call_plain. Qed.
Print Assumptions C74_answers_plain.
(** A policy of any kind is called once with the rows of the waiting agents, and
    agent number [i] among them gets row [i] of every output but the log-probability. *)
Theorem C74_batch : forall (S : Type) (ap : aproxy (S:=S)) (observations : dict Z (obs S)) size p outs,
  NoDup (dkeys observations) -> NoDup (ap_in ap) -> NoDup (ap_out ap) -> observations <> [] ->
  inputs_fit (ap_in ap) size observations -> sizes_fit (ap_in ap) size (ap_sizes ap) ->
  ap_policy ap = WithLogprobs p ->
  p (map Some (stacked (ap_in ap) (waiting observations))) = Ok outs ->
  Forall (fun t => List.length t = List.length (waiting observations)) outs ->
  Datatypes.S (List.length (ap_out ap)) <= List.length outs ->
  agent_call ap observations =
  Ok (combine (map fst (waiting observations))
       (map (fun i => mkResp (combine (ap_out ap) (map (fun t => nth i t []) (no_logprob outs))) [])
            (seq 0 (List.length (waiting observations))))).
Proof. exact @call_batch. Qed.
Print Assumptions C74_batch.
(** [waiting] are the agents whose episode goes on. *)
Theorem C74_waiting : forall (S : Type) (observations : dict Z (obs S)) a o,
  In (a, o) (waiting observations) <-> In (a, o) observations /\ waits o.
Proof. exact @In_waiting. Qed.
Print Assumptions C74_waiting.
(** When all episodes have ended the policy is called without any row, and what it
    raises reaches the caller. *)
Theorem C74_all_ended_finding : forall (S : Type) (ap : aproxy (S:=S)) (observations : dict Z (obs S)) p e,
  NoDup (dkeys observations) -> NoDup (ap_in ap) -> observations <> [] ->
  ap_sizes ap = None -> ap_policy ap = WithLogprobs p ->
  (forall a o, In (a, o) observations -> ~ waits o) ->
  p (map (fun _ => Some []) (ap_in ap)) = Err e -> agent_call ap observations = Err e.
Proof. exact @call_all_ended. Qed.
Print Assumptions C74_all_ended_finding.
(** A call without any observation is refused. *)
Theorem C74_nobody_finding : forall (S : Type) (ap : aproxy (S:=S)), agent_call ap [] = Err AssertionError.
Proof. exact @call_nobody. Qed.
Print Assumptions C74_nobody_finding.
(** An input key that is listed twice: the policy gets None as its second argument. *)
Theorem C74_twice_finding : forall (S : Type) (ap : aproxy (S:=S)) (observations : dict Z (obs S)) size p k,
  NoDup (dkeys observations) -> observations <> [] ->
  ap_in ap = [k; k] -> inputs_fit [k] size observations -> ap_sizes ap = None -> ap_policy ap = WithLogprobs p ->
  (forall x, p [x; None] = Err AttributeError) -> agent_call ap observations = Err AttributeError.
Proof. exact @call_twice. Qed.
Print Assumptions C74_twice_finding.

Definition ex_observations : dict Z (obs Z) :=
  [(7%Z, mkObs [] RUNNING [("obs", [1; 2]%Z)]); (3%Z, mkObs [] TERMINAL [("obs", [9; 9]%Z)]);
   (5%Z, mkObs [] INITIAL [("obs", [3; 4]%Z)])].
(** actions = 10 * obs, log-probability = [0] *)
Definition ex_policy (args : pargs (S:=Z)) : res (list (list (list Z))) :=
  match args with
  | [Some rows] => Ok [map (map (Z.mul 10)) rows; map (fun _ => [0%Z]) rows]
  | _ => Err TypeError
  end.
Example C74_case :
  NoDup (dkeys ex_observations) /\ inputs_fit ["obs"] (fun _ => 2) ex_observations /\
  agent_call (feature_proxy (WithLogprobs ex_policy) "obs") ex_observations
  = Ok [(7%Z, mkResp [("actions", [10; 20]%Z)] []); (5%Z, mkResp [("actions", [30; 40]%Z)] [])].
Proof.
  split; [|split; [|vm_compute; reflexivity]].
  - repeat constructor; simpl; intuition discriminate.
  - intros a o k [E|[E|[E|[]]]] W [<-|[]]; injection E as <- <-.
    + eexists; split; reflexivity.
    + destruct W as [W _]. destruct W. reflexivity.
    + eexists; split; reflexivity.
Qed.

(** C75, for networks whose parameters are biases, or weights of modules that are on
    a list, or belong to an excluded layer, each occurring once, and whose
    containers are neither listed nor excluded: the optimizer is created and every
    parameter is in exactly one group, the right one. *)
Theorem C75_partition_partial : forall white black excluded order net,
  ordinary net white black excluded ->
  (forall c, In c white -> ~ In c black) -> (forall l, Permutation (order l) l) ->
  exists g1 g2, modified_adamw order net white black excluded = Ok (g1, g2) /\
    (forall i, In i (g1 ++ g2) -> In i (map snd (all_params net))) /\ NoDup (g1 ++ g2) /\
    forall path m name i, In (path, m) (named_modules net) -> In (name, i) (mod_own m) ->
      (In i g1 <-> decays white black excluded path m name) /\
      (In i g2 <-> ~ decays white black excluded path m name).
Proof. exact adamw_ordinary. Qed.
Print Assumptions C75_partition_partial.
Example C75_case : ordinary small_net white0 black0 [["2"; "out"]].
Proof. exact small_net_ordinary. Qed.
(** Parameter 0, the weight of a convolution, is in no group. *)
Theorem C75_convolution_refuted :
  modified_adamw (fun l => l) (sequential [("0", conv 0 1); ("1", linear 2 3)]) white0 black0 [] = Ok ([2], [1; 3]).
Proof. exact conv_left_out. Qed.
Print Assumptions C75_convolution_refuted.
(** Parameter 0, called log_std, is in no group. *)
Theorem C75_other_name_refuted :
  modified_adamw (fun l => l) (Mod ["Policy"; "Module"] [("log_std", 0)] [("net", linear 1 2)]) white0 black0 []
  = Ok ([1], [2]).
Proof. exact log_std_left_out. Qed.
Print Assumptions C75_other_name_refuted.
(** Excluding a block of layers puts its weights into both groups. *)
Theorem C75_excluded_block_refuted :
  modified_adamw (fun l => l) (sequential [("head", sequential [("0", linear 0 1)])]) white0 black0 [["head"]]
  = Err ValueError.
Proof. exact excluded_block. Qed.
Print Assumptions C75_excluded_block_refuted.
Theorem C75_shared_weight_refuted :
  modified_adamw (fun l => l) (sequential [("a", linear 0 1); ("b", linear 0 2)]) white0 black0 [] = Err KeyError.
Proof. exact tied_weights. Qed.
Print Assumptions C75_shared_weight_refuted.

(** C83: the saved state of the optimizer reaches its parameters if the groups are
    in the same order; the order is that of a Python set of strings, and another
    order exchanges the states of parameters. *)
Theorem C83_restored_partial : forall V (groups : list nat * list nat) (moments : nat -> V) i v,
  In (i, v) (opt_load groups (opt_state groups moments)) -> v = moments i.
Proof. exact same_order_restored. Qed.
Print Assumptions C83_restored_partial.
Theorem C83_exchanged_refuted : forall V (moments : nat -> V), exists g g',
  modified_adamw (fun l => l) two_layers white0 black0 [] = Ok g /\
  modified_adamw (@rev mpath) two_layers white0 black0 [] = Ok g' /\
  opt_load g' (opt_state g moments) = [(2, moments 0); (0, moments 2); (3, moments 1); (1, moments 3)].
Proof. exact other_order. Qed.
Print Assumptions C83_exchanged_refuted.
