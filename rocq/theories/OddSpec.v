(** * OddSpec: minima, layers, tags *)
From Coq Require Import Reals.
From Verif Require Import Py OddModel.
Open Scope string_scope.
Open Scope list_scope.
Open Scope Z_scope.

(** [x <= y], with infinity. *)
Definition num_le (x y : num) : Prop :=
  match x, y with _, None => True | None, Some _ => False | Some a, Some b => a <= b end.

(** At most two standard deviations from the mean. *)
Definition within (mean std v : R) : Prop := (mean - 2 * std <= v <= mean + 2 * std)%R.

(** The trees [m] and [m'] have the same modules in the same places, and [P] holds of each module
    and its weight and bias in both. *)
Inductive everywhere (P : kind -> list nat -> option content -> option content -> option content -> option content -> Prop)
  : module -> module -> Prop :=
| everywhere_intro : forall k shape w b w' b' cs cs', P k shape w b w' b' -> Forall2 (everywhere P) cs cs' ->
    everywhere P (mkModule k shape w b cs) (mkModule k shape w' b' cs').
(** [x] is a module of the tree [m]. *)
Inductive part_of (x : module) : module -> Prop :=
| part_here : part_of x x
| part_below : forall k shape w b cs c, In c cs -> part_of x c -> part_of x (mkModule k shape w b cs).
(** As torch makes them: layers have a weight, batch norms a bias too, a linear layer's weight
    has the shape (outputs, inputs), an ensemble layer's (members, inputs, outputs) and a bias. *)
Definition well_made (x : module) : Prop :=
  let '(mkModule k shape w b _) := x in
  match k with
  | KOther => True
  | KNorm => w <> None /\ b <> None
  | KEnsemble => w <> None /\ b <> None /\ exists m i o, shape = [m; i; o]
  | KLinear => w <> None /\ exists o i, shape = [o; i]
  | _ => w <> None
  end.
(** A linear layer made with [bias=False]. *)
Definition linear_without_bias (x : module) : Prop :=
  let '(mkModule k _ _ b _) := x in k = KLinear /\ b = None.
(** A bias, if there is one, becomes zero. *)
Definition zeroed (b b' : option content) : Prop := b' = match b with None => None | Some _ => Some (Const 0) end.
(** The ensemble layers of a tree, in order: shape, weight, bias. *)
Fixpoint ensemble_layers (m : module) : list (list nat * option content * option content) :=
  let '(mkModule k shape w b cs) := m in
  (match k with KEnsemble => [(shape, w, b)] | _ => [] end) ++ flat_map ensemble_layers cs.
(** A layer as it should be: normal numbers for its inputs, cut at two standard deviations, and
    zero biases. *)
Definition fresh_layer (members n_in n_out : nat) : list nat * option content * option content :=
  ([members; n_in; n_out], Some (Truncated (1 / (2 * sqrt (INR n_in)))), Some (Const 0)).
