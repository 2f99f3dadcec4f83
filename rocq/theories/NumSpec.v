(** * NumSpec: what the numeric helpers have to compute *)
From Coq Require Import Reals.
From Verif Require Import Py MemModel MemSpec NumModel.
Open Scope list_scope.
Open Scope R_scope.

Definition average (l : list R) : R := rsum l / INR (List.length l).
(** The population variance: the average squared distance from the average. *)
Definition population_variance (l : list R) : R := average (map (fun x => (x - average l) * (x - average l)) l).
(** The last [n] elements. *)
Definition last_n {A} (n : nat) (l : list A) : list A := skipn (List.length l - n) l.

(** The events of one name. *)
Definition about (name : string) (e : tevent) : bool :=
  match e with TEnter n _ | TExit n _ => String.eqb n name end.
(** The blocks of one name, one after the other: each is left before the next is
    entered.  [durations] are the times spent in them. *)
Inductive blocks (name : string) : list tevent -> list R -> Prop :=
| blocks_nil : blocks name [] []
| blocks_snoc es ds t0 t1 : blocks name es ds ->
    blocks name (es ++ [TEnter name t0; TExit name t1]) (ds ++ [t1 - t0]).

(** The return of step [t] of a rollout with rewards [r], followed by value [v]. *)
Definition n_step_return (gamma : R) (r : list R) (v : R) (t : nat) : R :=
  rsum (map (fun k => gamma ^ k * nth (t + k) r 0) (seq 0 (List.length r - t)))
  + gamma ^ (List.length r - t) * v.

(** ** Q-targets of a sampled batch *)
Section Target.
Context {S : Type} {HS : Scalar S}.
(** The number a cell stands for, the only cell of a row. *)
Definition number (num : S -> R) (r : row (S:=S)) : R := num (hd s_zero r).
Definition row_or_empty (o : option (row (S:=S))) : row (S:=S) := match o with Some r => r | None => [] end.

(** The columns of a batch as the target computation gets them. *)
Definition numbers (num : S -> R) (out : dict string (array S)) (name : string) : list R :=
  map (number num) (dget_default out name []).
(** The next observations: for each row the rows of all observation columns. *)
Definition observations (out : dict string (array S)) (names : list string) (n : nat) : list (list (row (S:=S))) :=
  map (fun i => map (fun name => nth i (dget_default out name []) []) names) (seq 0 n).
(** Networks work row by row: [value i o] is the value of next observation [o] in row
    [i] (the sampled action can differ from row to row). *)
Definition row_by_row (value : nat -> list (row (S:=S)) -> R) (obs : list (list (row (S:=S)))) : list R :=
  map (fun p => value (fst p) (snd p)) (combine (seq 0 (List.length obs)) obs).

(** What the target of step [t] of window [w], the [i]-th of the batch, has to be: the
    discounted rewards of the window's episode from that step to the end of the
    window, and the value of the observation after the window. *)
Definition target_of (num : S -> R) (gamma scale : R) (L : nat) (masking : bool) (lenkey : string)
    (reward : column S) (obs : list (column S)) (value : nat -> list (row (S:=S)) -> R)
    (i : nat) (w : window S) (t : nat) : R :=
  let at_step c k := row_or_empty (row_at (column_data c (w_seq w)) (w_start w + Z.of_nat k)) in
  let rewards := map (fun k => scale * number num (at_step reward k)) (seq 0 L) in
  let after := value i (map (fun c => at_step c L) obs) in
  let ends := (w_start w + Z.of_nat L =? seq_len lenkey (w_seq w))%Z in
  n_step_return gamma rewards (if andb masking ends then 0 else after) t.
End Target.
