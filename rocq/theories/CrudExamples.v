(** * CrudExamples: concrete storages and the witnesses of the findings *)
From Verif Require Import Py PyLemmas CkptModel LogModel LogProofs LockModel CrudModel CrudSpec CrudProofs CrudMore.
Set Implicit Arguments.
Unset Strict Implicit.
Open Scope string_scope.
Open Scope list_scope.
Open Scope Z_scope.

(** A disk with the folder and somebody else's file at the first name that will
    be tried. *)
Definition disk : fs Z := [("/d", Folder); ("/d/x1_0.bin", File 7)].
Definition storage : config * state Z unit :=
  match init "/d" "x" "bin" disk with Ok cs => cs | Err _ => (mkConfig "" "" "", mkState 0 [] []) end.
Lemma storage_ok : init "/d" "x" "bin" disk = Ok storage.
Proof. reflexivity. Qed.
Lemma disk_proper : proper disk.
Proof. unfold proper, disk. simpl. repeat constructor; simpl; intuition discriminate. Qed.

Definition day : list (op Z unit) :=
  [OData "1" tt 10; OData "1" tt 20; OUpdate 1 11; OItems; ODelete 2; ODelete 2; OLatest; OUpdate 9 0; OData "0" tt 30; OGet 3].
Definition day_events : list (event Z unit) := Eval vm_compute in history (fst storage) day (snd storage).
Lemma day_eq : history (fst storage) day (snd storage) = day_events.
Proof. vm_compute. reflexivity. Qed.
Lemma day_plain : Forall (@plain Z unit) day.
Proof. repeat constructor. Qed.
Lemma day_answers : map (@e_answer Z unit) day_events =
  [Ok (AItem (mkItem 1 tt "/d/x1_1.bin")); Ok (AItem (mkItem 2 tt "/d/x1_2.bin")); Ok ANone_;
   Ok (AItems [mkItem 1 tt "/d/x1_1.bin"; mkItem 2 tt "/d/x1_2.bin"]); Ok (ABool true); Ok (ABool false);
   Ok (AOption (Some (mkItem 1 tt "/d/x1_1.bin"))); Err AssertionError;
   Ok (AItem (mkItem 3 tt "/d/x0_3.bin")); Ok (AOption (Some (mkItem 3 tt "/d/x0_3.bin")))].
Proof. reflexivity. Qed.

(** The same file registered twice. *)
Definition twice : list (op Z unit) := [ORegister tt "/d/x1_0.bin"; ORegister tt "/d/x1_0.bin"; ODelete 0; ODelete 1; OItems].
Lemma twice_answers : map (@e_answer Z unit) (history (fst storage) twice (snd storage)) =
  [Ok (AItem (mkItem 0 tt "/d/x1_0.bin")); Ok (AItem (mkItem 1 tt "/d/x1_0.bin")); Ok (ABool true); Err OtherError; Ok (AItems [])].
Proof. vm_compute. reflexivity. Qed.

(** Two threads that save at the same time, in the same minute. *)
Definition write_saver (d : Z) : saver Z := fun p f => (dset f p (File d), None).
Lemma write_only d : only_at (write_saver d).
Proof. intros p f q Q. simpl. apply dget_dset_neq. auto. Qed.
Definition two_threads : list (list (job Z unit)) :=
  [[JCreate "1" tt [write_saver 10; write_saver 11]; JDelete 1]; [JCreate "1" tt [write_saver 20]]].
Lemma two_tidy : Forall (Forall (@tidy Z unit)) two_threads.
Proof. repeat constructor; apply write_only. Qed.
Definition alternate : list nat := [0; 1; 0; 1; 0; 1; 0; 1; 0; 1; 0; 1; 1; 1; 1; 0; 0; 0; 0]%nat.
Definition two_run : csys Z unit := csteps (fst storage) alternate (cstart (snd storage) two_threads).
Lemma two_paths : saver_paths two_run = ["/d/x1_1.bin"; "/d/x1_2.bin"].
Proof. vm_compute. reflexivity. Qed.
Lemma two_items : map (@it_handle unit) (results two_run) = [2; 1] /\ map (@it_handle unit) (s_items (c_state two_run)) = [1; 2].
Proof. vm_compute. auto. Qed.
