(** * RecModel: the autoencoder's loss callback (emote/algorithms/genrl/vae.py)

    Real numbers for floating point; logging is left out. *)
From Coq Require Import Reals.
From Verif Require Import Py NumModel AmpModel GenModel.
Open Scope list_scope.
Open Scope R_scope.

(** emote/algorithms/genrl/vae.py:74-81 VAELoss.loss; [eps] is the noise of forward (line 33) *)
Definition vae_callback_loss (beta : R) (latent_size : nat) (encoder : matrix -> option matrix -> res (matrix * matrix))
    (decoder : matrix -> option matrix -> res matrix) (conditioning_func : matrix -> option matrix) (input_key : string)
    (eps : matrix) (observation : dict string matrix) (actions : matrix) : res R :=
  rbind (lookup observation input_key) (fun obs =>
  let condition := conditioning_func obs in
  rbind (vae_forward encoder decoder eps actions condition) (fun r =>
  let '(samples, dist_mean, dist_log_std, _) := r in
  rmap (fun li => fst (fst li)) (vae_loss beta latent_size actions samples dist_mean dist_log_std))).
