(** * CrudListedProps: the theorem for C144 and a case that meets its hypotheses *)
From Verif Require Import Py PyLemmas LockModel CrudModel CrudSpec CrudListedSpec CrudListed CrudExamples.
Open Scope string_scope.
Open Scope list_scope.
Open Scope Z_scope.

(** Any number of threads that create and delete, under every schedule, at every
    moment: what is listed was returned by some call and has a file; what was
    returned and nobody deletes is listed; and once no call is under way, an item
    that was returned and is listed no more has left no file. *)
Theorem C144_listed : forall (D T : Type) (dir prefix ext : string) (f : fs D) (c : config) (s : state D T)
    (programs : list (list (job D T))) (sched : list nat),
  init dir prefix ext f = Ok (c, s) -> proper f ->
  Forall (Forall (@tidy D T)) programs -> Forall (Forall (@disk_job D T)) programs ->
  let y := csteps c sched (cstart s programs) in
  (forall it, In it (s_items (c_state y)) ->
     In it (results y) /\ exists d, dget (s_fs (c_state y)) (it_path it) = Some (File d))
  /\ (forall it, In it (results y) -> (forall p, In p programs -> ~ In (JDelete (it_handle it)) p) ->
        In it (s_items (c_state y)))
  /\ (Forall (fun w => w_place w = Between) (c_workers y) ->
      forall it, In it (results y) -> ~ In it (s_items (c_state y)) -> dget (s_fs (c_state y)) (it_path it) = None).
Proof. exact (@listed_exist). Qed.
Print Assumptions C144_listed.

Definition later_run : csys Z unit := csteps (fst storage) (alternate ++ [0; 0; 0; 0]%nat) (cstart (snd storage) two_threads).
Example C144_case : init "/d" "x" "bin" disk = Ok storage /\ proper disk
  /\ Forall (Forall (@tidy Z unit)) two_threads /\ Forall (Forall (@disk_job Z unit)) two_threads
  /\ map (@it_handle unit) (results later_run) = [2; 1]
  /\ map (@it_path unit) (s_items (c_state later_run)) = ["/d/x1_2.bin"]
  /\ Forall (fun w => w_place w = Between) (c_workers later_run)
  /\ dget (s_fs (c_state later_run)) "/d/x1_1.bin" = None
  /\ dget (s_fs (c_state later_run)) "/d/x1_2.bin" = Some (File 11).
Proof.
  split; [exact storage_ok|]. split; [exact disk_proper|]. split; [exact two_tidy|]. split.
  - assert (X : forall d, disk_saver (write_saver d)).
    { intros d p f0 P. unfold write_saver. cbn [fst]. apply NoDup_dset. exact P. }
    repeat (apply Forall_cons || apply Forall_nil); cbn [disk_job]; repeat (apply Forall_cons || apply Forall_nil); auto.
  - split; [vm_compute; reflexivity|]. split; [vm_compute; reflexivity|]. split; [|split; vm_compute; reflexivity].
    vm_compute. repeat (apply Forall_cons || apply Forall_nil); reflexivity.
Qed.
