(** * V1Spec: vocabulary for exporting and importing a table. *)
From Verif Require Import Py MemModel MemSpec.
Open Scope Z_scope.

Section Spec.
Context {S : Type}.

(** Casting a value to a dtype twice is casting it once. *)
Definition idempotent (f : S -> S) : Prop := forall x, f (f x) = f x.

(** Every added episode brings at least one row for every data column, under an
    identity that is a non-negative 64-bit integer. *)
Definition has_data (cols : list (column S)) (s : sequence S) : Prop :=
  forall c, In c (storage_cols cols) -> 1 <= seq_len (c_name c) s.
Definition exportable (cols : list (column S)) (ops : list (op S)) : Prop :=
  Forall (fun e => 0 <= fst e < 2 ^ 63 /\ has_data cols (snd e)) (adds ops).

(** A sane set-up for exporting: configuration, dtypes, strategies and client. *)
Definition export_ok (cols : list (column S)) (lenkey : string) (smp : sampler) (ej : ejector)
    (ops : list (op S)) : Prop :=
  config_ok cols lenkey /\ (forall c, In c cols -> idempotent (c_cast c)) /\
  fresh_sampler smp /\ fresh_ejector ej /\ client_ok cols ops /\ exportable cols ops.
End Spec.
