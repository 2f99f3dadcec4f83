(** * WrapProps: attribute access through wrappers (C125, C126)

    [around ws c]: the chain [c] wrapped into the wrappers [ws], the outermost first.
    [get c name]: Python's getattr.  [ABound owner name]: that method of that object. *)
From Verif Require Import Py WrapModel WrapSpec WrapProofs.
Open Scope string_scope.
Open Scope list_scope.
Open Scope Z_scope.

(** C125: a method that the wrappers do not have is that of the first inner object that has it. *)
Theorem C125_method : forall ws c name, Forall (lacks name) ws -> has_method name (outer c) ->
  get (around ws c) name = Ok (ABound (ob_id (outer c)) name).
Proof. exact forward_method. Qed.
Print Assumptions C125_method.
(** A property likewise; what its getter raises is raised (an AttributeError aside). *)
Theorem C125_property : forall ws c name r, Forall (lacks name) ws ->
  dget (ob_class (outer c)) name = Some (CProperty r) -> r <> Err AttributeError ->
  get (around ws c) name = rmap AValue r.
Proof. exact forward_property. Qed.
Print Assumptions C125_property.
(** Nothing else is forwarded, if no object has a property of that name. *)
Theorem C125_other_partial : forall ws c name, whole c -> Forall (lacks name) ws -> ws <> [] -> has_other name (outer c) ->
  (forall o, In o (layers c) -> ~ has_property name o) -> get (around ws c) name = Err AttributeError.
Proof. exact refuse_other. Qed.
Print Assumptions C125_other_partial.
Theorem C125_missing : forall c name, whole c -> Forall (lacks name) (layers c) -> get c name = Err AttributeError.
Proof. exact missing. Qed.
Print Assumptions C125_missing.
(** Whatever a wrapper forwards is what the wrapped object answers. *)
Theorem C125_same : forall o c name a, lacks name o -> get (Wrapper o c) name = Ok a ->
  get c name = Ok a /\ (ismethod a = true \/ exists l, In l (layers c) /\ has_property name l).
Proof. exact only_allowed. Qed.
Print Assumptions C125_same.
(** An attribute of an inner wrapper's instance is handed out if a property of the same name
    exists further inside. *)
Theorem C125_leak_refuted :
  let w1 := mkObj 1 wrapper_class [("name", IValue 5)] in
  let w2 := mkObj 2 wrapper_class [] in
  get (Wrapper w2 (Wrapper w1 (Proxy (memory_table_proxy 0 7)))) "name" = Ok (AValue 5).
Proof. vm_compute. reflexivity. Qed.
Print Assumptions C125_leak_refuted.
(** For all stacks of the wrappers in the code around the memory proxy. *)
Theorem C125_memory : forall ws id nm, Forall emote_wrapper ws ->
  let c := around ws (Proxy (memory_table_proxy id nm)) in
  (forall name, In name ["size"; "resize"; "is_initial"; "timers"] -> get c name = Ok (ABound id name))
  /\ get c "name" = Ok (AValue nm).
Proof. exact emote_public. Qed.
Print Assumptions C125_memory.
Theorem C125_private : forall ws id nm name, Forall emote_wrapper ws -> ws <> [] ->
  In name ["_store"; "_table"; "_min_length_filter"; "_completed_episodes"; "_term_states"; "_use_terminal"; "_name"] ->
  get (around ws (Proxy (memory_table_proxy id nm))) name = Err AttributeError.
Proof. exact emote_private. Qed.
Print Assumptions C125_private.
Theorem C125_own : forall w c name, emote_wrapper w -> In name ["add"; "store"; "state_dict"; "load_state_dict"] ->
  get (Wrapper w c) name = Ok (ABound (ob_id w) name).
Proof. exact emote_own. Qed.
Print Assumptions C125_own.
Theorem C125_report : forall ws id c name, (forall o, In o ws -> exists i, o = exporter_wrapper i) ->
  In name ["report"; "get_report"] ->
  get (around ws (Wrapper (logging_wrapper id) c)) name = Ok (ABound id name).
Proof. exact emote_report. Qed.
Print Assumptions C125_report.
(** A wrapper that copy or pickle has just created cannot even be asked whether it has a
    [__setstate__] - which is what they do next: no wrapper can be copied or unpickled. *)
Theorem C125_copy_finding : (forall o name, lacks name o -> get (Blank o) name = Err RecursionError)
  /\ forall w, emote_wrapper w -> get (Blank w) "__setstate__" = Err RecursionError.
Proof. split; [exact blank|exact emote_copy]. Qed.
Print Assumptions C125_copy_finding.
Example C125_case :
  let c := Wrapper (logging_wrapper 1) (Proxy (memory_table_proxy 0 7)) in
  lacks "size" (exporter_wrapper 2) /\ lacks "report" (exporter_wrapper 2) /\ has_method "report" (outer c)
  /\ get (Wrapper (exporter_wrapper 2) c) "report" = Ok (ABound 1 "report")
  /\ get (Wrapper (exporter_wrapper 2) c) "size" = Ok (ABound 0 "size")
  /\ get (Wrapper (exporter_wrapper 2) c) "completed_episodes" = Err AttributeError
  /\ get c "completed_episodes" = Ok (AValue 0).
Proof. vm_compute. intuition. Qed.

(** C126: an agent proxy in its wrapper has the same names and the same policy, ... *)
Theorem C126_properties_partial : forall (I O P : Type) (inner : agent I O P),
  ag_inputs (agent_wrapper inner) = ag_inputs inner /\ ag_outputs (agent_wrapper inner) = ag_outputs inner
  /\ ag_policy (agent_wrapper inner) = ag_policy inner.
Proof. intros. repeat split. Qed.
Print Assumptions C126_properties_partial.
(** ... but never answers. *)
Theorem C126_answer_refuted : exists (inner : agent Z Z Z),
  forall x, ag_call inner x = Some x /\ ag_call (agent_wrapper inner) x = None.
Proof. exists (mkAgent (fun x => Some x) [] [] 0). intros x. split; reflexivity. Qed.
Print Assumptions C126_answer_refuted.
