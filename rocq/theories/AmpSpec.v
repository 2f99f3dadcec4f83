(** * AmpSpec: what adversarial rewards and losses have to be *)
From Coq Require Import Reals.
From Verif Require Import Py NumModel.
Open Scope list_scope.
Open Scope R_scope.

(** A network that gives one number for each row of a batch. *)
Definition scores (D : list R -> R) (network : matrix -> matrix) : Prop :=
  forall xs, network xs = map (fun x => [D x]) xs.
(** A function that treats each row of a batch by itself. *)
Definition each_row (S : list R -> list R) (f : matrix -> matrix) : Prop := forall xs, f xs = map S xs.
(** All rows have [d] entries. *)
Definition rows_of (d : nat) (m : matrix) : Prop := Forall (fun row => List.length row = d) m.
(** The numbers as a column. *)
Definition col (v : list R) : matrix := map (fun x => [x]) v.

(** The observation after step [i] of a batch of rollouts of length [L]: the next row
    of the batch within a rollout; the final observation of the rollout at its end. *)
Definition following (L : nat) (obs final : matrix) (i : nat) : list R :=
  if Nat.eqb (Nat.modulo (i + 1) L) 0 then nth (Nat.div i L) final [] else nth (i + 1) obs [].
(** The style reward of a prediction: 1 for a sample labelled as real, less for others. *)
Definition style_bonus (p : R) : R := 1 - (p - 1) * (p - 1) / 4.

Definition avg (l : list R) : R := rsum l / INR (List.length l).
Definition sq (x : R) : R := x * x.
(** [x] with entry [j] replaced. *)
Definition replace (x : list R) (j : nat) (t : R) : list R := firstn j x ++ t :: skipn (j + 1) x.
(** [g] lists the partial derivatives of [D] at [x]. *)
Definition is_gradient (D : list R -> R) (x g : list R) : Prop :=
  List.length g = List.length x /\
  forall j, (j < List.length x)%nat ->
    derivable_pt_lim (fun t => D (replace x j t)) (nth j x 0) (nth j g 0).
(** The squared length of a gradient. *)
Definition length2 (g : list R) : R := rsum (map sq g).

(** All partial derivatives of [D] at [x] are zero. *)
Definition flat_at (D : list R -> R) (x : list R) : Prop :=
  forall j, (j < List.length x)%nat -> derivable_pt_lim (fun t => D (replace x j t)) (nth j x 0) 0.
(** The pairs a batch consists of. *)
Definition pairs_of (S : list R -> list R) (obs next : matrix) : matrix :=
  map (fun p => S (fst p) ++ S (snd p)) (combine obs next).

(** The loss of a discriminator [D], whose gradient is [G], on real and policy samples. *)
Definition least_squares (D : list R -> R) (G : list R -> list R) (weight : R) (real policy : matrix) : R :=
  avg (map (fun x => sq (D x - 1)) real) + avg (map (fun x => sq (D x + 1)) policy)
  + weight * avg (map (fun x => length2 (G x)) real).

(** The entries of an action at the positions of the given parts, [start] included
    and [end] excluded. *)
Definition part (indices : list (Z * Z)) (row : list R) : list R :=
  map (fun j => nth j row 0)
      (concat (map (fun f => seq (Z.to_nat (fst f)) (Z.to_nat (snd f - fst f))) indices)).
(** Parts that lie inside a row of [n] entries. *)
Definition inside (n : nat) (indices : list (Z * Z)) : Prop :=
  indices <> [] /\ Forall (fun f => (0 <= fst f <= snd f /\ snd f <= Z.of_nat n)%Z) indices.
(** How many entries the parts have together. *)
Definition part_size (indices : list (Z * Z)) : Z := zsum (map (fun f => (snd f - fst f)%Z) indices).
(** The nearest number between -1 and 1. *)
Definition within1 (x : R) : R := if Rlt_dec x (-1) then -1 else if Rlt_dec 1 x then 1 else x.
(** The confusion reward of the scores of the two sides: each side counts most when it
    is taken for the other one. *)
Definition confusion_bonus (right left : R) : R := style_bonus (within1 left) + style_bonus (- within1 right).
