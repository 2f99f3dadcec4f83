(** * CkptProps: checkpoints (C49, C53, C54) *)
From Coq Require Import DecimalString.
From Verif Require Import Py PyLemmas TrainModel TrainSpec TrainMain TrainThms CkptModel CkptSpec CkptProofs CkptRun CkptMain CkptThms
  CkptExamples CkptFolder.
Open Scope string_scope.
Open Scope list_scope.
Open Scope Z_scope.

(** ** C49: resuming *)
(** The counters of a run resumed from a file with bp_step N and bp_samples M: the
    samples are continued; but the first batch is given step N again, not N+1. *)
Theorem C49_resume_partial :
  forall (O X D E : Type) (path_obj : string -> O) (state_dict : string -> X -> D) load_state_dict
    cid lid folder names lo (act : behaviour O (cworld O X D E)),
  keeps_files act [cid; lid] ->
  forall size cbs d sizes st0 w s out a ph c x seen r b f N M,
  train (with_checkpoints path_obj state_dict load_state_dict cid folder names lid lo act) size cbs d st0 w
  = (s, out) ->
  cid <> lid -> NoDup (map cb_id cbs) -> In lid (map cb_id cbs) -> lo_hparams lo = true ->
  proper act (da_items d) -> Forall2 (sized size) (da_items d) sizes ->
  size <> "bp_step" -> size <> "bp_samples" ->
  leaves act cbs anytime "bp_step" -> leaves act cbs anytime "bp_samples" ->
  dget (cw_files w) (ckpt_path (lo_folder lo) (lo_index lo)) = Some f ->
  NoDup (dkeys (cf_training f)) ->
  dget (cf_training f) "bp_step" = Some (VNum N) -> dget (cf_training f) "bp_samples" = Some (VNum M) ->
  wd_trace s = a ++ TCall ph c x seen r :: b ->
  let k := List.length (batches a) in
  (0 < k)%nat ->
  dget seen "bp_step" = Some (VNum (N + Z.of_nat k - 1))
  /\ dget seen "bp_samples" = Some (VNum (M + zsum (firstn k sizes))).
Proof. exact (@resume_counters). Qed.
Print Assumptions C49_resume_partial.

(** The same for a run and one resumed from its j-th checkpoint. *)
Theorem C49_two_runs_partial :
  forall (O X D E : Type) (path_obj : string -> O) (state_dict : string -> X -> D) load_state_dict
    cid lid folder names lo1 lo2 (act1 act2 : behaviour O (cworld O X D E))
    size cbs1 d1 sizes1 st1 w1 s1 out1 p j cbs2 d2 sizes2 st2 w2 s2 out2 a ph c x seen r b,
  let act1' := with_checkpoints path_obj state_dict load_state_dict cid folder names lid lo1 act1 in
  let act2' := with_checkpoints path_obj state_dict load_state_dict cid folder names lid lo2 act2 in
  cid <> lid -> size <> "bp_step" -> size <> "bp_samples" ->
  keeps_files act1 [cid; lid] -> keeps_files act2 [cid; lid] ->
  (* the first run *)
  train act1' size cbs1 d1 st1 w1 = (s1, out1) ->
  NoDup (map cb_id cbs1) -> ~ In lid (map cb_id cbs1) ->
  (forall c, In c cbs1 -> cb_id c = cid -> cb_cycle c = Some p) ->
  proper act1 (da_items d1) -> Forall2 (sized size) (da_items d1) sizes1 ->
  leaves act1 cbs1 anytime "bp_step" -> leaves act1 cbs1 anytime "bp_samples" ->
  (j < List.length (saves cid (wd_trace s1)))%nat ->
  (* the resumed run *)
  train act2' size cbs2 d2 st2 w2 = (s2, out2) ->
  cw_files w2 = cw_files (wd_world s1) ->
  lo_folder lo2 = folder -> lo_index lo2 = cw_index w1 + Z.of_nat j -> lo_hparams lo2 = true ->
  NoDup (map cb_id cbs2) -> In lid (map cb_id cbs2) ->
  proper act2 (da_items d2) -> Forall2 (sized size) (da_items d2) sizes2 ->
  leaves act2 cbs2 anytime "bp_step" -> leaves act2 cbs2 anytime "bp_samples" ->
  wd_trace s2 = a ++ TCall ph c x seen r :: b ->
  let N := (Z.of_nat j + 1) * p in
  let k := List.length (batches a) in
  (0 < k)%nat ->
  dget seen "bp_step" = Some (VNum (N + Z.of_nat k - 1))
  /\ dget seen "bp_samples" = Some (VNum (zsum (firstn (Z.to_nat N) sizes1) + zsum (firstn k sizes2))).
Proof. exact (@two_runs). Qed.
Print Assumptions C49_two_runs_partial.

(** Five batches, a checkpoint after the fourth; the batches of the resumed run
    are steps 4, 5, 6 instead of 5, 6, 7. *)
Theorem C49_resume_refuted :
  snd ex_run1 = Running /\ snd ex_run2 = Running
  /\ option_map (fun f => dget (cf_training f) "bp_step") (dget ex_files (ckpt_path ex_folder 1))
     = Some (Some (VNum 4))
  /\ map fst (batches (wd_trace (fst ex_run2))) = [4; 5; 6].
Proof. split; [|split; [|split]]; vm_compute; reflexivity. Qed.
Print Assumptions C49_resume_refuted.

(** ** C53: numbers and names *)
(** The check in the constructors of Checkpointer and CheckpointLoader. *)
Theorem C53_unique_names :
  forall names,
  (NoDup names -> names_ok names = Ok tt) /\ (~ NoDup names -> names_ok names = Err ValueError).
Proof. exact names_ok_iff. Qed.
Print Assumptions C53_unique_names.

(** The files do not collide. *)
Theorem C53_file_names :
  forall folder i j, ckpt_path folder i = ckpt_path folder j -> i = j.
Proof. exact ckpt_path_inj. Qed.
Print Assumptions C53_file_names.
(** They are in the folder, under the number in decimal. *)
Theorem C53_paths : forall folder i, let file := String.append "checkpoint_" (String.append (NilZero.string_of_int (Z.to_int i)) ".tar") in
  (folder = "" -> ckpt_path folder i = file)
  /\ ((exists r, folder = String.append r "/") -> ckpt_path folder i = String.append folder file)
  /\ (folder <> "" -> (forall r, folder <> String.append r "/") -> ckpt_path folder i = String.append folder (String.append "/" file)).
Proof. exact ckpt_path_is. Qed.
Print Assumptions C53_paths.

(** Any number of checkpoints: the j-th has number start + j and the state every
    restoree had at that time, under its own name; other files stay. *)
Theorem C53_checkpoint_sequence :
  forall (O X D E : Type) (path_obj : string -> O) (state_dict : string -> X -> D)
    folder names ms (w w' : cworld O X D E) rs,
  In folder (cw_dirs w) -> Forall (ready names) ms ->
  checkpoints path_obj state_dict folder names ms w = (w', rs) ->
  Forall (fun r => exists u, r = Ok u) rs
  /\ cw_dirs w' = cw_dirs w
  /\ cw_index w' = cw_index w + Z.of_nat (List.length ms)
  /\ (forall j st objs rest, nth_error ms j = Some (st, objs, rest) ->
        exists f, dget (cw_files w') (ckpt_path folder (cw_index w + Z.of_nat j)) = Some f
             /\ describes f (cw_index w + Z.of_nat j) st /\ holds state_dict names objs f)
  /\ (forall p, (forall j, (j < List.length ms)%nat -> p <> ckpt_path folder (cw_index w + Z.of_nat j)) ->
        dget (cw_files w') p = dget (cw_files w) p).
Proof. exact (@checkpoints_facts). Qed.
Print Assumptions C53_checkpoint_sequence.

(** Loading the j-th hands every restoree what its own state_dict gave then. *)
Theorem C53_load_own :
  forall (O X D E : Type) (path_obj : string -> O) (state_dict : string -> X -> D) load_state_dict
    folder names ms (w w' : cworld O X D E) rs j st objs rest lo objs' (rest' : E),
  In folder (cw_dirs w) -> Forall (ready names) ms ->
  checkpoints path_obj state_dict folder names ms w = (w', rs) ->
  nth_error ms j = Some (st, objs, rest) ->
  lo_folder lo = folder -> lo_index lo = cw_index w + Z.of_nat j ->
  NoDup (lo_names lo) -> incl (lo_names lo) names -> incl (lo_names lo) (dkeys objs') ->
  exists (w2 : cworld O X D E) (f : ckpt_file O D),
    load_restore load_state_dict lo (mkCW (cw_dirs w') (cw_files w') (cw_index w') objs' rest')
    = (w2, Ok (if lo_hparams lo then dupdate [] (cf_training f) else []))
  /\ describes f (lo_index lo) st
  /\ (forall n o0 o, In n (lo_names lo) -> dget objs n = Some o0 -> dget objs' n = Some o ->
        dget (cw_objs w2) n
        = Some (load_state_dict n (state_dict n o0) (lo_weights lo) (lo_optimizers lo) (lo_hparams lo) o))
  /\ (forall n, ~ In n (lo_names lo) -> dget (cw_objs w2) n = dget objs' n).
Proof. exact (@load_own). Qed.
Print Assumptions C53_load_own.

(** In a run of the trainer that does not resume: checkpoint start + j is taken
    at step (j+1) * interval. *)
Theorem C53_in_training :
  forall (O X D E : Type) (path_obj : string -> O) (state_dict : string -> X -> D) load_state_dict
    cid lid folder names lo (act : behaviour O (cworld O X D E)),
  keeps_files act [cid; lid] ->
  forall size cbs d sizes st0 w s out p j,
  train (with_checkpoints path_obj state_dict load_state_dict cid folder names lid lo act) size cbs d st0 w
  = (s, out) ->
  NoDup (map cb_id cbs) -> ~ In lid (map cb_id cbs) ->
  (forall c, In c cbs -> cb_id c = cid -> cb_cycle c = Some p) ->
  proper act (da_items d) -> Forall2 (sized size) (da_items d) sizes ->
  size <> "bp_step" -> size <> "bp_samples" ->
  leaves act cbs anytime "bp_step" -> leaves act cbs anytime "bp_samples" ->
  (j < List.length (saves cid (wd_trace s)))%nat ->
  let N := (Z.of_nat j + 1) * p in
  exists f, dget (cw_files (wd_world s)) (ckpt_path folder (cw_index w + Z.of_nat j)) = Some f
    /\ NoDup (dkeys (cf_training f))
    /\ dget (cf_training f) "bp_step" = Some (VNum N)
    /\ dget (cf_training f) "bp_samples" = Some (VNum (zsum (firstn (Z.to_nat N) sizes)))
    /\ dget (cf_training f) "checkpoint_index" = Some (VNum (cw_index w + Z.of_nat j)).
Proof. exact (@ckpt_steps). Qed.
Print Assumptions C53_in_training.

(** No checkpoint of a run fails, whether or not the folder exists at the start
    and whether or not the run resumes another, as long as the restorees are
    there. *)
Theorem C53_every_checkpoint :
  forall (O X D E : Type) (path_obj : string -> O) (state_dict : string -> X -> D) load_state_dict
    cid lid folder names lo (act : behaviour O (cworld O X D E)),
  keeps_files act [cid; lid] ->
  (forall c ph x st w, ~ In (cb_id c) [cid; lid] ->
     incl names (dkeys (cw_objs w)) -> incl names (dkeys (cw_objs (fst (act c ph x st w))))) ->
  forall size cbs d st0 w s out a c x seen r b,
  train (with_checkpoints path_obj state_dict load_state_dict cid folder names lid lo act) size cbs d st0 w
  = (s, out) ->
  incl names (dkeys (cw_objs w)) ->
  wd_trace s = a ++ TCall PEndCycle c x seen r :: b -> cb_id c = cid ->
  exists u, r = Ok u.
Proof. exact (@every_checkpoint). Qed.
Print Assumptions C53_every_checkpoint.
(** The folder does not exist at the start. *)
Example ex_no_folder :
  let r := train (ex_act' 0) "batch_size" ex_cbs (ex_data [3; 4; 5; 6; 7]) []
             (mkCW [] [] 0 [("net", 0); ("opt", 100)] tt) in
  snd r = Running /\ List.length (saves 1 (wd_trace (fst r))) = 2%nat
  /\ (forall c ph x st w, ~ In (cb_id c) [1%nat; 2%nat] ->
     incl ["net"; "opt"] (dkeys (cw_objs w)) -> incl ["net"; "opt"] (dkeys (cw_objs (fst (ex_act c ph x st w))))).
Proof.
  split; [vm_compute; reflexivity|]. split; [vm_compute; reflexivity|].
  intros c ph x st w _ I. destruct ph; try exact I. cbn [ex_act fst cw_objs].
  intros k K. apply (@CkptFolder.grow_dset_any). apply I. auto.
Qed.

(** ** C54: checkpoints of a resumed run *)
(** Nothing is overwritten if the Checkpointer is given an index above N. *)
Theorem C54_explicit_index_partial :
  forall (O X D E : Type) (path_obj : string -> O) (state_dict : string -> X -> D) load_state_dict
    cid lid folder names lo (act : behaviour O (cworld O X D E)),
  keeps_files act [cid; lid] ->
  forall size cbs d st0 w s out N,
  train (with_checkpoints path_obj state_dict load_state_dict cid folder names lid lo act) size cbs d st0 w
  = (s, out) ->
  N < cw_index w ->
  (forall i, i <= N -> dget (cw_files (wd_world s)) (ckpt_path folder i) = dget (cw_files w) (ckpt_path folder i))
  /\ (forall j seen, nth_error (saves cid (wd_trace s)) j = Some seen ->
        exists i f, N < i /\ dget (cw_files (wd_world s)) (ckpt_path folder i) = Some f /\ describes f i seen).
Proof. exact (@later_indices). Qed.
Print Assumptions C54_explicit_index_partial.

(** Otherwise its first checkpoint replaces the first of the original run,
    whichever checkpoint was loaded. *)
Theorem C54_overwrites_refuted :
  forall (O X D E : Type) (path_obj : string -> O) (state_dict : string -> X -> D) load_state_dict
    cid lid folder names lo (act : behaviour O (cworld O X D E)),
  keeps_files act [cid; lid] ->
  forall size cbs d st0 w s out seen rest,
  train (with_checkpoints path_obj state_dict load_state_dict cid folder names lid lo act) size cbs d st0 w
  = (s, out) ->
  saves cid (wd_trace s) = seen :: rest ->
  exists f, dget (cw_files (wd_world s)) (ckpt_path folder (cw_index w)) = Some f
       /\ describes f (cw_index w) seen.
Proof. exact (@overwrites). Qed.
Print Assumptions C54_overwrites_refuted.

(** ** The hypotheses can be met; what C54_overwrites_refuted means in a run *)
Example C53_example :
  snd ex_run1 = Running /\ keeps_files ex_act [1%nat; 2%nat] /\ NoDup (map cb_id ex_cbs)
  /\ ~ In 2%nat (map cb_id ex_cbs)
  /\ proper ex_act (map ex_item [3; 4; 5; 6; 7])
  /\ Forall2 (sized "batch_size") (map ex_item [3; 4; 5; 6; 7]) [3; 4; 5; 6; 7]
  /\ leaves ex_act ex_cbs anytime "bp_step" /\ leaves ex_act ex_cbs anytime "bp_samples"
  /\ List.length (saves 1 (wd_trace (fst ex_run1))) = 2%nat
  /\ map (fun p => (fst p, cf_callbacks (snd p), dget (cf_training (snd p)) "bp_step",
                    dget (cf_training (snd p)) "bp_samples")) ex_files
     = [("run/checkpoints/checkpoint_0.tar", [("net", 2); ("opt", 100)], Some (VNum 2), Some (VNum 7));
        ("run/checkpoints/checkpoint_1.tar", [("net", 4); ("opt", 100)], Some (VNum 4), Some (VNum 18))].
Proof. exact ex_facts1. Qed.
Example C54_example :
  snd ex_run2 = Running
  /\ map fst (batches (wd_trace (fst ex_run2))) = [4; 5; 6]
  /\ map (fun p => (fst p, dget (cf_training (snd p)) "bp_step")) (cw_files (wd_world (fst ex_run2)))
     = [("run/checkpoints/checkpoint_0.tar", Some (VNum 4));
        ("run/checkpoints/checkpoint_1.tar", Some (VNum 6))].
Proof. exact ex_facts2. Qed.
