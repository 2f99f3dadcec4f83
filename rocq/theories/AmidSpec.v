(** * AmidSpec: adding one agent at a time (for C156) *)
From Verif Require Import Py MemModel ProxyModel.
Open Scope list_scope.
Open Scope Z_scope.

Section Spec.
Context {S : Type} {HS : Scalar S}.
(** A history that adds these observations, in order and one agent at a time, with the uses [us] of the table, in order,
    in between. *)
Inductive one_by_one (rs : dict Z (resp S)) : dict Z (obs S) -> list (op S) -> list (pop S) -> Prop :=
| ob_end : one_by_one rs [] [] []
| ob_add : forall a o draws os us h, one_by_one rs os us h -> one_by_one rs ((a, o) :: os) us (PAdd [(a, o)] rs draws :: h)
| ob_use : forall u os us h, one_by_one rs os us h -> one_by_one rs os (u :: us) (PUse u :: h).
(** Uses of a memory by loaders and by those who resize it. *)
Definition uses_only (us : list (op S)) : Prop := Forall (fun u => match u with OAdd _ _ _ | OClear => False | _ => True end) us.
End Spec.
