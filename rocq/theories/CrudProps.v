(** * CrudProps: the theorems for C64 and C65, and cases that meet their hypotheses *)
From Verif Require Import Py LockModel CrudModel CrudSpec CrudProofs CrudMore CrudExamples.
From Coq Require Import Sorted.
Open Scope string_scope.
Open Scope list_scope.
Open Scope Z_scope.

(** ** C64 *)
(** Every call in every history, with savers that may do anything, fail or raise,
    and with somebody else changing the disk at will. *)
Theorem C64_storage : forall (D T : Type) (dir prefix ext : string) (f : fs D) (c : config) (s : state D T) (ops : list (op D T)),
  proper f -> init dir prefix ext f = Ok (c, s) -> Forall (@decent D T) ops ->
  conforms c (history c ops s).
Proof. exact (@storage_conforms). Qed.
Print Assumptions C64_storage.

(** Handles of the live items increase, whatever happened. *)
Theorem C64_handles_increase : forall (D T : Type) (dir prefix ext : string) (f : fs D) (c : config) (s : state D T) (ops : list (op D T)),
  proper f -> init dir prefix ext f = Ok (c, s) -> Forall (@decent D T) ops ->
  StronglySorted Z.lt (map (@it_handle T) (flat_map created (history c ops s)))
  /\ StronglySorted Z.lt (map (@it_handle T) (live (history c ops s) [])).
Proof. exact (@handles_increase). Qed.
Print Assumptions C64_handles_increase.

(** When the disk is left alone, every live item has what was last stored under
    its handle, and deleting it succeeds. *)
Theorem C64_contents : forall (D T : Type) (dir prefix ext : string) (f : fs D) (c : config) (s : state D T) (ops : list (op D T)),
  proper f -> init dir prefix ext f = Ok (c, s) -> Forall (@plain D T) ops ->
  forall past e rest, history c ops s = past ++ e :: rest ->
  forall it, In it (live past []) ->
  (exists d, stored (it_handle it) past None = Some d /\ dget (e_before e) (it_path it) = Some (File d))
  /\ (e_op e = ODelete (it_handle it) -> e_answer e = Ok (ABool true)).
Proof. exact (@contents). Qed.
Print Assumptions C64_contents.

Theorem C64_handle_text : forall h, handle_from_string (handle_str h) = Some h.
Proof. exact handle_text. Qed.
Print Assumptions C64_handle_text.

(** Registering one file twice makes two items of one file: deleting the first
    takes the file away from the second. *)
Theorem C64_shared_file_finding : exists c (s : state Z unit) (ops : list (op Z unit)),
  init "/d" "x" "bin" disk = Ok (c, s) /\
  map (@e_answer Z unit) (history c ops s) =
  [Ok (AItem (mkItem 0 tt "/d/x1_0.bin")); Ok (AItem (mkItem 1 tt "/d/x1_0.bin")); Ok (ABool true); Err OtherError; Ok (AItems [])].
Proof. exists (fst storage), (snd storage), twice. split; [exact storage_ok|exact twice_answers]. Qed.
Print Assumptions C64_shared_file_finding.

Example C64_case : proper disk /\ init "/d" "x" "bin" disk = Ok storage /\ Forall (@plain Z unit) day
  /\ map (@e_answer Z unit) (history (fst storage) day (snd storage)) =
  [Ok (AItem (mkItem 1 tt "/d/x1_1.bin")); Ok (AItem (mkItem 2 tt "/d/x1_2.bin")); Ok ANone_;
   Ok (AItems [mkItem 1 tt "/d/x1_1.bin"; mkItem 2 tt "/d/x1_2.bin"]); Ok (ABool true); Ok (ABool false);
   Ok (AOption (Some (mkItem 1 tt "/d/x1_1.bin"))); Err AssertionError;
   Ok (AItem (mkItem 3 tt "/d/x0_3.bin")); Ok (AOption (Some (mkItem 3 tt "/d/x0_3.bin")))].
Proof.
  split; [exact disk_proper|]. split; [exact storage_ok|]. split; [exact day_plain|]. rewrite day_eq. exact day_answers.
Qed.

(** ** C65 *)
(** Any number of threads, any clock readings, any savers, registrations,
    deletions and outsiders, under every schedule. *)
Theorem C65_unique_paths : forall (D T : Type) (dir prefix ext : string) (f : fs D) (c : config) (s : state D T)
    (programs : list (list (job D T))) (sched : list nat),
  init dir prefix ext f = Ok (c, s) ->
  let y := csteps c sched (cstart s programs) in
  NoDup (saver_paths y) /\ NoDup (map (@it_handle T) (results y)).
Proof. exact (@unique_paths_init). Qed.
Print Assumptions C65_unique_paths.

(** When nobody but the savers and deletes touches the folder, a saver is only
    called with a path where there is nothing, and the file of a returned item
    changes in no other way than by being removed by a delete. *)
Theorem C65_no_overwrite : forall (D T : Type) (dir prefix ext : string) (f : fs D) (c : config) (s : state D T)
    (programs : list (list (job D T))) (sched : list nat),
  init dir prefix ext f = Ok (c, s) -> Forall (Forall (@tidy D T)) programs ->
  let y := csteps c sched (cstart s programs) in
  (forall p b, In (p, b) (c_calls y) -> b = false)
  /\ (forall i it, In it (results y) ->
        dget (s_fs (c_state (cstep c i y))) (it_path it) <> dget (s_fs (c_state y)) (it_path it) ->
        exists w, nth_error (c_workers y) i = Some w /\ w_place w = Removing (it_path it)).
Proof. exact (@no_overwrite_init). Qed.
Print Assumptions C65_no_overwrite.

Example C65_case : Forall (Forall (@tidy Z unit)) two_threads
  /\ saver_paths two_run = ["/d/x1_1.bin"; "/d/x1_2.bin"]
  /\ map (@it_handle unit) (results two_run) = [2; 1].
Proof. split; [exact two_tidy|]. split; [exact two_paths|exact (proj1 two_items)]. Qed.
