(** * CrudListedSpec: savers for C144 *)
From Verif Require Import Py CrudModel CrudSpec.

(** Savers leave the disk a disk: no path is listed twice. *)
Definition disk_saver {D : Type} (m : saver D) : Prop := forall p f, proper f -> proper (fst (m p f)).
Definition disk_job {D T : Type} (j : job D T) : Prop :=
  match j with JCreate _ _ sv => Forall disk_saver sv | _ => True end.
