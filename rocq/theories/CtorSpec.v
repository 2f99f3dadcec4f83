(** * CtorSpec: what a user expects of a loss and of its checkpoint *)
From Coq Require Import Reals.
From Verif Require Import Py NumModel SchedModel LossModel LossSpec CtorModel.
Open Scope list_scope.
Open Scope R_scope.

Section Ctor.
Context {OS : Type}.

(** The parameters that training this loss changes: those of the optimizer that was passed
    in; for a CurlLoss the encoder, the projection layer in use and the matrix W. *)
Definition trained (x : library_loss OS) : list nat :=
  match x with
  | SacQ _ o _ | DqnQ _ o _ | HlGaussQ _ o _ | Policy _ _ _ o _ | Alpha _ _ o _ | Dynamics _ o _
  | Vae _ o _ | AmpDiscriminator _ o _ | SymmetryDiscriminator _ o _ => op_params o
  | Curl e p w b _ _ _ => e ++ (if b then p else []) ++ w
  end.
(** The bound on the gradient's norm that the user asked for. *)
Definition bound (x : library_loss OS) : R :=
  match x with
  | SacQ _ _ m | DqnQ _ _ m | HlGaussQ _ _ m | Policy _ _ _ _ m | Alpha _ _ _ m | Dynamics _ _ m
  | Vae _ _ m | AmpDiscriminator _ _ m | SymmetryDiscriminator _ _ m => m
  | Curl _ _ _ _ _ _ m => m
  end.
(** The parameters of the object the loss is said to train: the network, the weight of the
    entropy.  A CurlLoss is given none: it makes W and the projection layer itself. *)
Definition subject (x : library_loss OS) : list nat :=
  match x with
  | SacQ n _ _ | DqnQ n _ _ | HlGaussQ n _ _ | Policy n _ _ _ _ | Dynamics n _ _
  | Vae n _ _ | AmpDiscriminator n _ _ | SymmetryDiscriminator n _ _ => n
  | Alpha _ a _ _ => [a]
  | Curl _ _ _ _ _ _ _ => []
  end.
Definition is_curl (x : library_loss OS) : Prop :=
  match x with Curl _ _ _ _ _ _ _ => True | _ => False end.
Definition is_alpha (x : library_loss OS) : Prop :=
  match x with Alpha _ _ _ _ => True | _ => False end.
(** The loss is given an optimizer of its own subject's parameters, all of which exist. *)
Definition usual (n : nat) (x : library_loss OS) : Prop :=
  NoDup (subject x) /\ Forall (fun p => (p < n)%nat) (subject x) /\
  (~ is_curl x -> forall p, In p (trained x) -> In p (subject x)).
(** The optimizer's state and learning rate in a loss. *)
Definition optimizer_of (c : callback OS) : OS * R := (ls_opt (cb_loss c), ls_lr (cb_loss c)).
(** A callback of the same training, later: built by the same call, its optimizer and its
    schedule somewhere else. *)
Definition later (x : library_loss OS) (c : callback OS) : Prop :=
  exists os lr epoch,
    c = mkCb (mkLoss (ls_params (cb_loss (build x))) (ls_network (cb_loss (build x)))
                     (ls_max (cb_loss (build x))) os lr epoch)
             (cb_network (build x)) (cb_ln_alpha (build x)).
End Ctor.
