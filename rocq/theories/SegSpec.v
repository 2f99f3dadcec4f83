(** * SegSpec: an array with folds. *)
From Verif Require Import Py.
Open Scope Z_scope.

Section Spec.
Context {A : Type}.

(** The value at index [i] after the assignments [h]. *)
Definition last_value (neutral : A) (h : list (Z * A)) (i : Z) : A :=
  fold_left (fun acc iv => if fst iv =? i then snd iv else acc) h neutral.

(** All assignments are to indices of the array. *)
Definition in_range (cap : Z) (h : list (Z * A)) : Prop := Forall (fun iv => 0 <= fst iv < cap) h.

(** x1 op (x2 op (... op xn)), for a non-empty list. *)
Fixpoint fold1 (op : A -> A -> A) (x : A) (l : list A) : A :=
  match l with [] => x | y :: r => op x (fold1 op y r) end.

(** The items start, ..., start+n (n+1 of them) combined. *)
Definition fold_range (op : A -> A -> A) (f : Z -> A) (start : Z) (n : nat) : A :=
  fold1 op (f start) (map (fun i => f (start + 1 + Z.of_nat i)) (seq 0 n)).

Definition associative (op : A -> A -> A) : Prop := forall x y z, op x (op y z) = op (op x y) z.
End Spec.

(** items[0] + ... + items[i-1] *)
Definition prefix_sum (f : Z -> Z) (i : Z) : Z := zsum (map (fun j => f (Z.of_nat j)) (seq 0 (Z.to_nat i))).
