(** * CntSpec: how often a training added to the memory (for C152) *)
From Verif Require Import Py TrainModel LiveModel.
Open Scope list_scope.

(** The hooks that are called before the first and before each batch is worked on. *)
Definition early (ph : phase) : Prop :=
  ph = PRestore \/ ph = PBeginTraining \/ ph = PBeginCycle \/ ph = PBeginBatch.
(** How many calls of memory.add an observer saw succeed. *)
Definition additions {S V} (l : list (note S V)) : nat :=
  List.length (filter (fun x => match x with NAdd _ _ _ => true | NDrew _ => false end) l).
