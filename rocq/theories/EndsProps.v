(** * EndsProps: when an episode is over (C27).  Read EndsSpec.v first. *)
From Verif Require Import Py MemModel ProxyModel ProxySpec ProxyExamples EndsSpec EndsProofs.
Open Scope list_scope.

(** What C27 calls the completed episodes of an agent's stream of messages: the maximal
    runs of INITIAL and RUNNING messages, each with the TERMINAL or INTERRUPTED message that
    follows it. *)
Theorem C27_episodes : forall (S : Type) (st ms : list (obs S * option (resp S))),
  In ms (episodes [] st) <->
  exists pre mids last post, st = pre ++ mids ++ last :: post /\ ms = mids ++ [last] /\ mids <> [] /\
    Forall going mids /\ ended last /\ (pre = [] \/ exists l x, pre = l ++ [x] /\ ended x).
Proof. exact @episodes_are. Qed.
Print Assumptions C27_episodes.

(** A memory proxy has an episode under way for exactly the agents whose last message was
    neither TERMINAL nor INTERRUPTED. *)
Theorem C27_open_agents : forall (S : Type) (HS : Scalar S) (pc : pconf) (t0 : table S) (h : list (pop S)) (p : proxy S),
  batches_ok h -> prun pc (px_new t0) h = (p, Ok tt) ->
  forall a, In a (dkeys (px_store p)) <-> exists l m, stream a h = l ++ [m] /\ ~ ended m.
Proof. exact @open_agents. Qed.
Print Assumptions C27_open_agents.

(** The agents of C27's example: agent 1's episode is interrupted; after the first four
    calls agents 1 and 2 are under way. *)
Example C27_ends_case : batches_ok px_h /\ snd (prun px_pc (px_new px_table0) (firstn 5 px_h)) = Ok tt /\
  dkeys (px_store (fst (prun px_pc (px_new px_table0) (firstn 5 px_h)))) = [1%Z; 2%Z] /\
  In [(ob INITIAL 10, Some (ac 60)); (ob RUNNING 11, Some (ac 61)); (ob RUNNING 12, Some (ac 62)); (ob INTERRUPTED 13, None)]
    (episodes [] (stream 1%Z px_h)).
Proof. split; [exact px_batches|]. split; [vm_compute; reflexivity|]. split; [vm_compute; reflexivity|]. left. reflexivity. Qed.
