(** * ConcSpec: executing calls one at a time. *)
From Verif Require Import Py MemModel ConcModel.

Section Spec.
Context {S : Type} `{Scalar S}.

(** Execute the calls in [order] one after the other; [order] says which thread
    makes which call.  Yields the final table and every reply. *)
Fixpoint replay (t : table S) (order : list (nat * op S))
  : table S * list (nat * (op S * res (reply S))) :=
  match order with
  | [] => (t, [])
  | (i, o) :: r =>
      let '(t1, x) := do_op t o in
      let '(t2, l) := replay t1 r in
      (t2, (i, (o, x)) :: l)
  end.

(** What thread [i] sees of it. *)
Definition replies_of (i : nat) (l : list (nat * (op S * res (reply S))))
  : list (op S * res (reply S)) :=
  map snd (filter (fun x => Nat.eqb (fst x) i) l).

(** [mic] cuts every call into steps in some way: together they do what the call
    does. *)
Definition micro_ok (mic : op S -> list (micro S)) : Prop :=
  forall o t, exec (mic o) (t, MRun) = (fst (do_op t o), MRet (snd (do_op t o))).
End Spec.
