(** * JgapProps: a JointMemoryLoader whose memories are used by other threads (C159) *)
From Coq Require Import Lia.
From Verif Require Import Py MemModel MemSpec ProxyModel ProxySpec ProxyExamples LoaderModel GapSpec JgapModel JgapSpec JgapProofs.
Open Scope string_scope.
Open Scope list_scope.
Open Scope Z_scope.

(** ** C159: a joint loader whose memories had enough when its iteration began keeps yielding while other threads use the
    memories.  It does as long as every memory has enough at its turn; it raises for the first batch for which one has not,
    because it asks every loader anew for every batch. *)
Theorem C159_joint_amid_partial : forall (S : Type) (HS : Scalar S) (size_key : string) (ms : list (memory S)) ls rounds,
  ls = map (fun m => mkSource (m_pc m) (m_loader m) (fst (proxy_of m (m_done m)))) ms ->
  NoDup (map (fun m => ld_group (m_loader m)) ms) -> ~ In size_key (map (fun m => ld_group (m_loader m)) ms) ->
  (forall k m, nth_error ms k = Some m -> fits m (for_memory k rounds)) ->
  (forall m, In m ms -> holds_enough m (m_done m)) ->
  forall i, (i < List.length rounds)%nat -> (forall j, (j < i)%nat -> exists b, nth_error (joint_amid size_key ls rounds) j = Some (Ok b)) ->
  nth_error (joint_amid size_key ls rounds) i = Some (Err Diverges) \/
  nth_error (joint_amid size_key ls rounds) i = Some (Err OtherError) /\ (exists k m, nth_error ms k = Some m /\ ~ holds_enough m (history k m rounds i)) \/
  exists b, nth_error (joint_amid size_key ls rounds) i = Some (Ok b) /\ dget b size_key = Some (ENum (zsum (map wanted ms))) /\
    forall k m, nth_error ms k = Some m -> holds_enough m (history k m rounds i) /\ shows_rollouts m (history k m rounds i) b.
Proof. exact joint_amid_ok. Qed.
Print Assumptions C159_joint_amid_partial.

(** Adding an episode is enough to end it: the memory makes room for the new episode by dropping a longer one. *)
Theorem C159_joint_stops_refuted : exists (ms : list (memory Z)) rounds b,
  NoDup (map (fun m => ld_group (m_loader m)) ms) /\ ~ In "batch_size" (map (fun m => ld_group (m_loader m)) ms) /\
  (forall k m, nth_error ms k = Some m -> fits m (for_memory k rounds)) /\ (forall m, In m ms -> holds_enough m (m_done m)) /\
  (forall acts a o, In acts rounds -> In a acts -> In o (fst a) -> exists os rs dr, o = PAdd os rs dr) /\
  joint_amid "batch_size" (map (fun m => mkSource (m_pc m) (m_loader m) (fst (proxy_of m (m_done m)))) ms) rounds = [Ok b; Err OtherError].
Proof. exact joint_stops. Qed.
Print Assumptions C159_joint_stops_refuted.

(** The two memories of the refutation meet the hypotheses of the partial theorem; with the room of the first for both,
    both batches come. *)
Example C159_fits : forall k m, nth_error [jg_mem 10 "demos"; jg_mem 10 "default"] k = Some m -> fits m (for_memory k jg_rounds) /\ holds_enough m (m_done m).
Proof. intros [|[|[|k]]] m E; try discriminate; injection E as <-; split; try (apply jg_fits; [lia|discriminate|vm_compute; reflexivity]); vm_compute; discriminate. Qed.
Example C159_run : map (fun r => match r with Ok b => Some (dget b "batch_size", match dget b "default" with Some (EData d) => dget d "obs" | _ => None end) | Err _ => None end)
    (joint_amid "batch_size" (map (fun m => mkSource (m_pc m) (m_loader m) (fst (proxy_of m (m_done m)))) [jg_mem 10 "demos"; jg_mem 10 "default"]) jg_rounds)
  = [Some (Some (ENum 6), Some (CRows [[10]; [11]; [12]])); Some (Some (ENum 6), Some (CRows [[0]; [1]; [10]]))].
Proof. vm_compute. reflexivity. Qed.
