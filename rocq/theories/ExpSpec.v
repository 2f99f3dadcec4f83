(** * ExpSpec: how long the episodes of an environment are *)
From Verif Require Import Py GymModel LiveModel LiveSpec.
Open Scope Z_scope.

(** No episode has more than [m] steps. *)
Definition at_most {S E : Type} (env : genv S E) (m : Z) : Prop :=
  forall e0 e o l e' o', g_reset env e0 = (e, o) -> path env e o l e' o' -> Forall (fun x => ends x = false) (removelast l) -> zlen l <= m.
