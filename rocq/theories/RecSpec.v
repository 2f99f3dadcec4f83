(** * RecSpec: what an autoencoder of actions has to be trained on *)
From Coq Require Import Reals.
From Verif Require Import Py MemModel MemSpec ProxyModel ProxySpec NumModel E2ESpec.
Open Scope list_scope.
Open Scope R_scope.

(** A network with an optional condition, row by row. *)
Definition row_network {B} (N : list R -> option (list R) -> B) (network : matrix -> option matrix -> res (list B)) : Prop :=
  (forall x, network x None = Ok (map (fun a => N a None) x)) /\
  (forall x c, List.length x = List.length c ->
     network x (Some c) = Ok (map (fun ac => N (fst ac) (Some (snd ac))) (combine x c))).
(** The encoder answers means and logarithmic deviations. *)
Definition encodes (E : list R -> option (list R) -> list R * list R) (encoder : matrix -> option matrix -> res (matrix * matrix)) : Prop :=
  exists network, row_network E network /\ forall x c, encoder x c = rmap (@split (list R) (list R)) (network x c).
(** The condition: none, or a function of the observation. *)
Definition conditions (C : option (list R -> list R)) (conditioning : matrix -> option matrix) : Prop :=
  forall m, conditioning m = option_map (fun f => map f m) C.
Definition given (C : option (list R -> list R)) (o : list R) : option (list R) := option_map (fun f => f o) C.

(** The latent of a mean, a logarithmic deviation and some noise. *)
Definition latent_of (l : nat) (mean log_std noise : list R) : list R :=
  map (fun j => nth j mean 0 + exp (nth j log_std 0) * nth j noise 0) (seq 0 l).
(** The average squared error of a reconstruction. *)
Definition misfit (n : nat) (original copy : list R) : R :=
  rsum (map (fun i => (nth i copy 0 - nth i original 0) ^ 2) (seq 0 n)) / INR n.
(** The penalty on latents that are not standard normal (C97). *)
Definition penalty (l : nat) (mean log_std : list R) : R :=
  rsum (map (fun j => nth j mean 0 ^ 2 / 2 + (exp (nth j log_std 0) - 1 - nth j log_std 0)) (seq 0 l)).

Section Spec.
Context {S : Type} {HS : Scalar S}.
(** What agents do in a column always has [n] numbers. *)
Definition does (action : MemModel.column S) (n : nat) (h : list (pop S)) : Prop :=
  forall a ms m v, In ms (episodes [] (stream a h)) -> In m ms -> answered m (c_name action) = Some v -> List.length v = n.
End Spec.
