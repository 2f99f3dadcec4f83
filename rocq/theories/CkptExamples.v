(** * CkptExamples: a run with checkpoints, and resuming it *)
From Verif Require Import Py PyLemmas TrainModel TrainSpec TrainProofs TrainState TrainMain TrainMore TrainThms TrainThms2
  CkptModel CkptSpec CkptProofs CkptRun CkptMain CkptThms.
Open Scope string_scope.
Open Scope list_scope.
Open Scope Z_scope.

(** Two restorees: callback 5 counts backward calls in "net"; "opt" does not
    change. *)
Definition ex_act : behaviour string (cworld string Z Z unit) := fun c ph x st w =>
  match ph with
  | PBackward =>
      (mkCW (cw_dirs w) (cw_files w) (cw_index w)
         (dset (cw_objs w) "net" (match dget (cw_objs w) "net" with Some n => n + 1 | None => 0 end)) (cw_rest w),
       Ok [("loss", VNum 1)])
  | _ => (w, Ok [])
  end.
Definition ex_sd (n : string) (x : Z) : Z := x.
Definition ex_ld (n : string) (d : Z) (a b c : bool) (x : Z) : Z := if a then d else x.
Definition ex_folder : string := "run/checkpoints".
Definition ex_lo (i : Z) : loader_cfg := mkLoader ex_folder ["net"; "opt"] i true true true.
Definition ex_act' (i : Z) : behaviour string (cworld string Z Z unit) :=
  with_checkpoints (fun p => p) ex_sd ex_ld 1 ex_folder ["net"; "opt"] 2 (ex_lo i) ex_act.
Definition ex_cbs : list callback := [mkCb 1 0 (Some 2); mkCb 5 0 None].
Definition ex_cbs2 : list callback := mkCb 2 0 None :: ex_cbs.
Definition ex_item (n : Z) : item string :=
  mkItem (Ok [("obs", VObj "tensor"); ("batch_size", VNum n)]) (Ok false).
Definition ex_data (l : list Z) : data string := mkData (map ex_item l) false.
Definition ex_w (files : dict string (ckpt_file string Z)) (start : Z) : cworld string Z Z unit :=
  mkCW [ex_folder] files start [("net", 0); ("opt", 100)] tt.
Definition ex_run1 := train (ex_act' 0) "batch_size" ex_cbs (ex_data [3; 4; 5; 6; 7]) [] (ex_w [] 0).
Definition ex_files := cw_files (wd_world (fst ex_run1)).
(** Resumed in a new process, with the same configuration, from checkpoint 1. *)
Definition ex_run2 := train (ex_act' 1) "batch_size" ex_cbs2 (ex_data [8; 9; 10]) [] (ex_w ex_files 0).

Lemma ex_sized l : Forall2 (sized "batch_size") (map ex_item l) l.
Proof.
  induction l; simpl; [constructor|]. apply Forall2_cons; auto.
  intros b E. injection E as <-. repeat split.
  - repeat constructor; simpl; intuition discriminate.
  - simpl. intuition discriminate.
Qed.
Lemma ex_leaves cbs key : key <> "loss" -> leaves ex_act cbs anytime key.
Proof.
  intros N c ph x st w u _ _ E. destruct ph; simpl in E; injection E as <-; simpl; intuition congruence.
Qed.
Lemma ex_proper l : proper ex_act (map ex_item l).
Proof.
  split.
  - intros c ph x st w u E. destruct ph; simpl in E; injection E as <-; repeat constructor; simpl; tauto.
  - apply Forall_forall. intros it I. apply in_map_iff in I. destruct I as (n & <- & _).
    intros b E. injection E as <-. repeat constructor; simpl; intuition discriminate.
Qed.
Lemma ex_keeps excl : keeps_files ex_act excl.
Proof. intros c ph x st w _. destruct ph; simpl; auto. Qed.

Lemma ex_facts1 :
  snd ex_run1 = Running /\ keeps_files ex_act [1%nat; 2%nat] /\ NoDup (map cb_id ex_cbs)
  /\ ~ In 2%nat (map cb_id ex_cbs)
  /\ proper ex_act (map ex_item [3; 4; 5; 6; 7])
  /\ Forall2 (sized "batch_size") (map ex_item [3; 4; 5; 6; 7]) [3; 4; 5; 6; 7]
  /\ leaves ex_act ex_cbs anytime "bp_step" /\ leaves ex_act ex_cbs anytime "bp_samples"
  /\ List.length (saves 1 (wd_trace (fst ex_run1))) = 2%nat
  /\ map (fun p => (fst p, cf_callbacks (snd p), dget (cf_training (snd p)) "bp_step",
                    dget (cf_training (snd p)) "bp_samples")) ex_files
     = [("run/checkpoints/checkpoint_0.tar", [("net", 2); ("opt", 100)], Some (VNum 2), Some (VNum 7));
        ("run/checkpoints/checkpoint_1.tar", [("net", 4); ("opt", 100)], Some (VNum 4), Some (VNum 18))].
Proof.
  split; [vm_compute; reflexivity|]. split; [apply ex_keeps|].
  split; [repeat constructor; simpl; intuition discriminate|].
  split; [simpl; intuition discriminate|]. split; [apply ex_proper|]. split; [apply ex_sized|].
  split; [apply ex_leaves; discriminate|]. split; [apply ex_leaves; discriminate|].
  split; vm_compute; reflexivity.
Qed.

(** The steps the batches of the resumed run are given, and what is in the
    checkpoints after it. *)
Lemma ex_facts2 :
  snd ex_run2 = Running
  /\ map fst (batches (wd_trace (fst ex_run2))) = [4; 5; 6]
  /\ map (fun p => (fst p, dget (cf_training (snd p)) "bp_step")) (cw_files (wd_world (fst ex_run2)))
     = [("run/checkpoints/checkpoint_0.tar", Some (VNum 4));
        ("run/checkpoints/checkpoint_1.tar", Some (VNum 6))].
Proof. split; [|split]; vm_compute; reflexivity. Qed.
