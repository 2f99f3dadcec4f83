(** * GapSpec: what has been done to a memory when a loader draws (for C158) *)
From Verif Require Import Py MemModel ProxyModel LoaderModel.
Open Scope list_scope.
Open Scope Z_scope.

Section Spec.
Context {S : Type}.
(** A batch drawn by the loader is a use of the memory. *)
Definition drawing (l : loader) (draws : list draw) : pop S := PUse (OSample (ld_count l) (ld_length l) draws).
(** All that is done to the memory in some rounds, and before the draw of round [i]. *)
Definition doings (l : loader) (rounds : list (list (pop S) * list draw)) : list (pop S) :=
  flat_map (fun r => fst r ++ [drawing l (snd r)]) rounds.
Definition before_draw (l : loader) (rounds : list (list (pop S) * list draw)) (i : nat) : list (pop S) :=
  doings l (firstn i rounds) ++ match nth_error rounds i with Some r => fst r | None => [] end.
(** The batch [b] holds these rows, and its size. *)
Definition carries (l : loader) (rows : dict string (array S)) (b : batch S) : Prop :=
  let n := Z.of_nat (ld_count l) * Z.of_nat (ld_length l) in
  exists data, dget b (ld_group l) = Some (EData data) /\ dget b (ld_size_key l) = Some (ENum n) /\
    forall c, c <> ld_size_key l -> dget data c = option_map CRows (dget rows c).
End Spec.
