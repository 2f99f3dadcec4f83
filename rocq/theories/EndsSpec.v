(** * EndsSpec: when an episode is over *)
From Verif Require Import Py ProxyModel.

(** The states with which an episode ends, and the others. *)
Definition ended {S : Type} (m : obs S * option (resp S)) : Prop :=
  o_state (fst m) = TERMINAL \/ o_state (fst m) = INTERRUPTED.
Definition going {S : Type} (m : obs S * option (resp S)) : Prop :=
  o_state (fst m) = INITIAL \/ o_state (fst m) = RUNNING.
