(** * CstepSpec: what contrastive learning has to compare *)
From Coq Require Import Reals QArith ZArith.
From Verif Require Import Py NumModel VisModel VisSpec.
Open Scope list_scope.
Open Scope R_scope.

(** The score of an anchor's code [a] and a candidate's code [p]. *)
Definition score (n : nat) (W : list (list R)) (a p : list R) : R :=
  rsum (map (fun k => rsum (map (fun l => nth k a 0 * nth l (nth k W []) 0 * nth l p 0) (seq 0 n))) (seq 0 n)).
(** A network that looks at images one by one. *)
Definition sees_each (N : list (list R) -> list R) (network : list (list (list R)) -> res (list (list R))) : Prop :=
  forall x, network x = Ok (map N x).
(** [out]: the images, with noise if the draw says so, each with a rectangle blanked. *)
Definition augmented (aug : augmentor) (h w : nat) (d : draws (V := R)) (images out : list (list (list (list R)))) : Prop :=
  exists base rs, (noisy aug d -> base = dr_noise d images) /\ (noise_free aug d -> base = images) /\
    all_cut 0 aug h w rs base out.
