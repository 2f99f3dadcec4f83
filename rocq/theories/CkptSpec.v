(** * CkptSpec: what checkpoints have to be *)
From Verif Require Import Py TrainModel TrainSpec CkptModel.
Open Scope string_scope.
Open Scope list_scope.
Open Scope Z_scope.

(** The file of checkpoint [i]: folder/checkpoint_i.tar *)
Definition ckpt_path (folder : string) (i : Z) : string := path_join folder (ckpt_name i).

Section Spec.
Context {O X D E : Type}.
Notation cworld := (cworld O X D E).

(** The callbacks other than [excl] do not touch checkpoint files and folders and
    the counter of the Checkpointer. *)
Definition keeps_files (act : behaviour O cworld) (excl : list nat) : Prop :=
  forall c ph x st w, ~ In (cb_id c) excl ->
    let w' := fst (act c ph x st w) in
    cw_files w' = cw_files w /\ cw_index w' = cw_index w /\ cw_dirs w' = cw_dirs w.

(** The states the Checkpointer [cid] saw in its successful calls, in order. *)
Definition saves (cid : nat) (tr : list (entry O)) : list (tstate O) :=
  flat_map (fun e => match e with
    | TCall PEndCycle c _ seen (Ok _) => if Nat.eqb (cb_id c) cid then [seen] else []
    | _ => [] end) tr.

(** A checkpoint as the user expects it: number [i], taken in state [seen].  (A
    mapping has each of its keys once.) *)
Definition describes (f : ckpt_file O D) (i : Z) (seen : tstate O) : Prop :=
  NoDup (dkeys (cf_training f))
  /\ dget (cf_training f) "bp_step" = dget seen "bp_step"
  /\ dget (cf_training f) "bp_samples" = dget seen "bp_samples"
  /\ dget (cf_training f) "checkpoint_index" = Some (VNum i).

(** The file has the state of each of the restorees [names] under its own name,
    and nothing else. *)
Definition holds (state_dict : string -> X -> D) (names : list string) (objs : dict string X)
  (f : ckpt_file O D) : Prop :=
  (forall n, In n names -> exists o, dget objs n = Some o /\ dget (cf_callbacks f) n = Some (state_dict n o))
  /\ (forall n, ~ In n names -> dget (cf_callbacks f) n = None).

(** A sequence of checkpoints of one Checkpointer, with arbitrary changes to
    everything else between them: the training state, the restorees and the rest
    at each of them. *)
Definition moment : Type := tstate O * dict string X * E.
Fixpoint checkpoints (path_obj : string -> O) (state_dict : string -> X -> D)
  (folder : string) (names : list string) (ms : list moment) (w : cworld) : cworld * list (res (tstate O)) :=
  match ms with
  | [] => (w, [])
  | (st, objs, rest) :: r =>
      let '(w1, res1) := ckpt_end_cycle path_obj state_dict folder names st
                           (mkCW (cw_dirs w) (cw_files w) (cw_index w) objs rest) in
      let '(w2, res2) := checkpoints path_obj state_dict folder names r w1 in
      (w2, res1 :: res2)
  end.
(** What a checkpoint needs. *)
Definition ready (names : list string) (m : moment) : Prop :=
  let '(st, objs, _) := m in
  In "bp_step" (dkeys st) /\ In "bp_samples" (dkeys st) /\ incl names (dkeys objs).
End Spec.
