(** * CallbackProps: C50, C51, C52

    Every hook of a callback is replaced, when the callback is made, by one that
    picks from the training state what the method asks for ([wrap]).  [fn_body f]
    is what the method does with the parameters it was given, any function.

    Read: [method] (a method that can be written), [fits] (at most one positional
    argument, as the trainer gives), [exactly], [callable], [source], [gvalue],
    [routed] in CallbackSpec.v. *)
From Verif Require Import Py PyLemmas CallbackModel CallbackSpec CallbackProofs.
Open Scope string_scope.
Open Scope list_scope.
Open Scope Z_scope.

(** A hook without data group: the method is called with exactly those of its
    parameters that are given by position or are in the state (under the key they
    are renamed to), and the state is not changed.  A required parameter that is
    in neither is a TypeError.  Excluded: a state with the key "self", and a state
    that has the parameter that is also given by position (see the refutation). *)
Theorem C50_without_group_partial : forall {A : Type} (f : func A) (h : hook A) pos st,
  method f -> wrap f None = Ok h -> fits f pos ->
  ~ In "self" (dkeys st) ->
  (forall p, positional f pos p <> None -> dget st (source f p) = None) ->
  let value := fun p => either (positional f pos p) (dget st (source f p)) in
  (callable f value -> exists b, exactly f value b /\ h pos st = (st, fn_body f b))
  /\ (~ callable f value -> h pos st = (st, Err TypeError)).
Proof. exact @no_group_args. Qed.
Print Assumptions C50_without_group_partial.

(** With a data group that is in the state: the group's values first, then the
    state's; results go where C51 says.  Also excluded: a renamed parameter whose
    key only the group has (see C52). *)
Theorem C50_with_group_partial : forall {A : Type} (f : func A) group (h : hook A) pos st g,
  method f -> returns_mappings f group -> fn_params f <> [] -> wrap f (Some group) = Ok h -> fits f pos ->
  group_state st group g ->
  (forall p key, dget (fn_keys f) p = Some key -> dget g key <> None -> dget st key <> None) ->
  (forall p, positional f pos p <> None -> gvalue f g st p = None) ->
  let value := fun p => either (positional f pos p) (gvalue f g st p) in
  (callable f value -> exists b, exactly f value b /\ routed group g st (fn_body f b) (h pos st))
  /\ (~ callable f value -> h pos st = (st, Err TypeError)).
Proof. exact @group_hook. Qed.
Print Assumptions C50_with_group_partial.

(** Wrapping never fails. *)
Theorem C50_wrapping : forall {A : Type} (f : func A) g, method f -> exists h, wrap f g = Ok h.
Proof. exact @wrap_ok. Qed.
Print Assumptions C50_wrapping.

(** C51: a method with a data group, at least one parameter and that is called. *)
Theorem C51_group_results_partial : forall {A : Type} (f : func A) group (h : hook A) pos st g,
  method f -> returns_mappings f group -> fn_params f <> [] -> wrap f (Some group) = Ok h -> fits f pos ->
  group_state st group g ->
  (forall p key, dget (fn_keys f) p = Some key -> dget g key <> None -> dget st key <> None) ->
  (forall p, positional f pos p <> None -> gvalue f g st p = None) ->
  callable f (fun p => either (positional f pos p) (gvalue f g st p)) ->
  exists b, exactly f (fun p => either (positional f pos p) (gvalue f g st p)) b
    /\ routed group g st (fn_body f b) (h pos st).
Proof. exact @group_call. Qed.
Print Assumptions C51_group_results_partial.

(** C52: a renamed parameter gets the state's value of the key: as it should when
    there is no group or the group does not have the key, ... *)
Theorem C52_not_in_group_partial : forall {A : Type} (f : func A) group (h : hook A) pos st g p key,
  method f -> returns_mappings f group -> wrap f (Some group) = Ok h -> fits f pos ->
  group_state st group g ->
  (forall p, positional f pos p <> None -> gvalue f g st p = None) ->
  callable f (fun p => either (positional f pos p) (gvalue f g st p)) ->
  (forall p key, dget (fn_keys f) p = Some key -> dget g key = None) ->
  dget (fn_keys f) p = Some key -> positional f pos p = None ->
  exists b, routed group g st (fn_body f b) (h pos st) /\ dget b p = either (dget g key) (dget st key).
Proof. exact @renamed_not_in_group. Qed.
Print Assumptions C52_not_in_group_partial.
Theorem C52_without_group_partial : forall {A : Type} (f : func A) (h : hook A) pos st,
  method f -> wrap f None = Ok h -> fits f pos -> ~ In "self" (dkeys st) ->
  (forall p, positional f pos p <> None -> dget st (source f p) = None) ->
  callable f (fun p => either (positional f pos p) (dget st (source f p))) ->
  exists b, snd (h pos st) = fn_body f b
    /\ forall p key, dget (fn_keys f) p = Some key -> positional f pos p = None -> dget b p = dget st key.
Proof. exact @renamed_without_group. Qed.
Print Assumptions C52_without_group_partial.

(** ... but never the group's: if the group has the key and the state does not,
    the hook raises KeyError instead of passing the group's value; ... *)
Theorem C52_group_only_refuted : forall {A : Type} (f : func A) group (h : hook A) pos st g p key,
  method f -> wrap f (Some group) = Ok h -> dget st group = Some (PDict g) ->
  dget (fn_keys f) p = Some key -> dget g key <> None -> dget st key = None ->
  h pos st = (st, Err KeyError).
Proof. exact @renamed_missing. Qed.
Print Assumptions C52_group_only_refuted.
(** ... and if both have it, it is the state's value that is passed. *)
Theorem C52_both_refuted : forall {A : Type} (f : func A) group (h : hook A) pos st g p key,
  method f -> returns_mappings f group -> wrap f (Some group) = Ok h -> fits f pos ->
  group_state st group g ->
  (forall p, positional f pos p <> None -> gvalue f g st p = None) ->
  callable f (fun p => either (positional f pos p) (gvalue f g st p)) ->
  (forall p key, dget (fn_keys f) p = Some key -> dget g key <> None -> dget st key <> None) ->
  dget (fn_keys f) p = Some key -> positional f pos p = None ->
  exists b, routed group g st (fn_body f b) (h pos st) /\ dget b p = dget st key.
Proof. exact @renamed_both. Qed.
Print Assumptions C52_both_refuted.

(** The group is looked up even by a hook that runs before there is a batch
    (restore_state, begin_training, the first begin_cycle): KeyError. *)
Theorem C50_group_not_there_refuted : forall {A : Type} (f : func A) group (h : hook A) pos st,
  method f -> fn_params f <> [] -> wrap f (Some group) = Ok h ->
  dget st group = None -> h pos st = (st, Err KeyError).
Proof. exact @group_missing. Qed.
Print Assumptions C50_group_not_there_refuted.

(** Concrete cases ([echo], [run]: end of CallbackProofs.v).  A value is a number;
    the method returns what it was given. *)

(** A parameter given by position and present in the state: TypeError, although
    the method could be called. *)
Theorem C50_position_and_state_refuted :
  method (echo ["exc"] [] ["exc"] [])
  /\ run (echo ["exc"] [] ["exc"] []) None [n_ 1] [("exc", n_ 2)] = ([("exc", n_ 2)], Err TypeError)
  /\ run (echo ["exc"] [] ["exc"] []) None [n_ 1] [("other", n_ 2)]
     = ([("other", n_ 2)], Ok (PDict [("exc", n_ 1)])).
Proof. exact clash_example. Qed.
Print Assumptions C50_position_and_state_refuted.

(** A method with a group but without parameters: what it returns under the name
    of the group is not merged into the group (the trainer then replaces the whole
    group by it). *)
Theorem C51_no_parameters_refuted :
  let f := mkFunc [] [] [] false [] (fun _ => Ok (PDict [("default", PDict [("loss", n_ 1)])])) in
  let st := [("default", PDict [("batch_size", n_ 8)])] in
  method f /\ run f (Some "default") [] st = (st, Ok (PDict [("default", PDict [("loss", n_ 1)])])).
Proof. exact no_parameters_example. Qed.
Print Assumptions C51_no_parameters_refuted.

(** A group with a value of a parameter, one in the state, a renamed one, a
    parameter with a default that is nowhere, other keys that are not passed. *)
Definition ex_f : func Z := echo ["obs"; "step"; "w"] ["opt"] ["obs"; "step"; "w"] [("w", "weight")].
Definition ex_st : kwargs Z :=
  [("default", PDict [("obs", n_ 1); ("noise", n_ 2)]); ("obs", n_ 9); ("step", n_ 3); ("weight", n_ 4); ("junk", n_ 5)].
Example ex_method : method ex_f.
Proof.
  split; [reflexivity|]. split; [|split; [|split]].
  - cbn. repeat constructor; simpl; intuition discriminate.
  - intros p; cbn. tauto.
  - cbn. repeat constructor; simpl; tauto.
  - intros p; cbn. tauto.
Qed.
Example ex_group : run ex_f (Some "default") [] ex_st
  = (ex_st, Ok (PDict [("obs", n_ 1); ("step", n_ 3); ("w", n_ 4)])).
Proof. vm_compute. reflexivity. Qed.
Example ex_no_group : run ex_f None [] ex_st
  = (ex_st, Ok (PDict [("obs", n_ 9); ("step", n_ 3); ("w", n_ 4)])).
Proof. vm_compute. reflexivity. Qed.
Example ex_hypotheses :
  fits ex_f [] /\ group_state ex_st "default" [("obs", n_ 1); ("noise", n_ 2)]
  /\ callable ex_f (gvalue ex_f [("obs", n_ 1); ("noise", n_ 2)] ex_st)
  /\ callable ex_f (fun p => dget ex_st (source ex_f p)).
Proof.
  split; [split; simpl; [lia|left; lia]|]. split.
  { split; [reflexivity|]. split; [repeat constructor; simpl; intuition discriminate|].
    split; simpl; intuition discriminate. }
  split; intros p; cbn [ex_f echo fn_required]; simpl In; intros [<-|[<-|[<-|[]]]]; discriminate.
Qed.
Example ex_missing : run ex_f None [] [("obs", n_ 1); ("step", n_ 2)] = ([("obs", n_ 1); ("step", n_ 2)], Err TypeError).
Proof. vm_compute. reflexivity. Qed.
(** Results for the group *)
Definition ex_r : func Z :=
  mkFunc ["obs"] [] ["obs"] false [] (fun b => Ok (PDict [("default", PDict [("loss", n_ 7)]); ("lr", n_ 8)])).
Example ex_results : run ex_r (Some "default") [] ex_st
  = (("default", PDict [("obs", n_ 1); ("noise", n_ 2); ("loss", n_ 7)]) :: tl ex_st, Ok (PDict [("lr", n_ 8)])).
Proof. vm_compute. reflexivity. Qed.
(** Renaming to a key of the group. *)
Example ex_renamed_group : run (echo ["w"] [] ["w"] [("w", "noise")]) (Some "default") [] ex_st = (ex_st, Err KeyError).
Proof. vm_compute. reflexivity. Qed.
Example ex_renamed_both :
  snd (run (echo ["w"] [] ["w"] [("w", "obs")]) (Some "default") [] ex_st) = Ok (PDict [("w", n_ 9)]).
Proof. vm_compute. reflexivity. Qed.
