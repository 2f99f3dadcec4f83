(** * LogSpec: what logging should do *)
From Coq Require Import Ascii.
From Verif Require Import Py LogModel.
Open Scope string_scope.
Open Scope list_scope.
Open Scope Z_scope.

(** The numbers in a logged value. *)
Definition numbers (v : lval) : list Z :=
  match v with LNum z => [z] | LMany l => l | LOnce l => l | LTensor0 z => [z] end.
(** Everything logged for [key], in order. *)
Definition logged (key : string) (ops : list (string * lval)) : list Z :=
  flat_map (fun kv => if (fst kv =? key)%string then numbers (snd kv) else []) ops.
Definition mentioned (key : string) (ops : list (string * lval)) : Prop := In key (map fst ops).
(** Neither a 0-d tensor nor an iterator. *)
Definition plain (v : lval) : Prop := match v with LNum _ | LMany _ => True | _ => False end.

(** [w] is the last [n] of [l], or all of [l] if it has fewer. *)
Definition last_of (n : Z) (l w : list Z) : Prop :=
  (exists before, l = before ++ w) /\ zlen w = Z.min n (zlen l).

(** What the window and the cumulative value of [key] should be. *)
Definition window_is {P} (key : string) (n : Z) (l : list Z) (s : logs P) : Prop :=
  (exists w, dget (lg_windows s) key = Some (w, n) /\ last_of n l w)
  /\ dget (lg_cumulative s) key = Some (zsum l).
Definition no_window {P} (key : string) (s : logs P) : Prop :=
  dget (lg_windows s) key = None /\ dget (lg_cumulative s) key = None.

(** The character does not occur. *)
Fixpoint without (c : ascii) (s : string) : Prop :=
  match s with EmptyString => True | String x r => x <> c /\ without c r end.
