(** * StratSpec: how often each sequence has been sampled. *)
From Verif Require Import Py MemModel MemSpec.
Open Scope Z_scope.

Section Visits.
Context {S : Type} `{Scalar S}.

(** Occurrences of an identity in a vector of random outcomes. *)
Definition drawn (id : Z) (draws : list draw) : Z :=
  zlen (filter (fun d => fst d =? id) draws).

(** How often sequence [id] was drawn by the sample() calls of the history [ops]
    of table [t] (calls in which the strategy returned points). *)
Fixpoint visits (t : table S) (ops : list (op S)) (id : Z) : Z :=
  match ops with
  | [] => 0
  | o :: r =>
      (match o with
       | OSample count L draws =>
           match snd (s_sample (t_sampler t) count (Z.of_nat L) draws) with
           | Ok _ => if Nat.eqb count 0 then 0 else drawn id draws
           | Err _ => 0
           end
       | _ => 0
       end) + visits (step t o) r id
  end.
End Visits.
