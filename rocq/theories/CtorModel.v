(** * CtorModel: how the losses of the library are built, and what their checkpoints hold

    The constructors of emote/callbacks/loss.py, emote/algorithms/sac.py,
    emote/algorithms/dqn.py, emote/algorithms/hlgauss.py, emote/models/callbacks.py,
    emote/algorithms/genrl/vae.py, emote/algorithms/amp.py,
    emote/algorithms/action_symmetry.py and emote/nn/curl.py.  As in LossModel every entry
    of a tensor is a parameter of its own, and a parameter is its position in the heap.
    Names, data groups and the flags of the per-parameter logs are left out. *)
From Coq Require Import Reals.
From Verif Require Import Py NumModel SchedModel LossModel.
Open Scope list_scope.
Open Scope R_scope.

Section Ctor.
Context {OS : Type}.

(** A loss as built: what LossModel knows of it, [self.network] (None or its parameters),
    and the tensor [self.ln_alpha] of an AlphaLoss.  emote/callbacks/loss.py:19-55,
    emote/algorithms/sac.py:315 *)
Record callback : Type := mkCb {
  cb_loss : loss OS; cb_network : option (list nat); cb_ln_alpha : option nat }.
(** An optimizer: the parameters in its groups, its state and its learning rate.
    emote/callbacks/loss.py:35, 39-41 *)
Record optimizer : Type := mkOpt { op_params : list nat; op_state : OS; op_lr : R }.

(** emote/callbacks/loss.py:19-55 LossCallback.__init__ *)
Definition loss_callback (network : option (list nat)) (opt : optimizer) (max_grad_norm : R) : callback :=
  mkCb (mkLoss (op_params opt) (match network with Some n => n | None => [] end) max_grad_norm
               (op_state opt) (op_lr opt) 0) network None.
(** emote/algorithms/sac.py:50-73 QLoss.__init__ *)
Definition sac_q_loss (q : list nat) (opt : optimizer) (max_grad_norm : R) : callback :=
  loss_callback (Some q) opt max_grad_norm.
(** emote/algorithms/dqn.py:86-109 QLoss.__init__ *)
Definition dqn_q_loss (q : list nat) (opt : optimizer) (max_grad_norm : R) : callback :=
  loss_callback (Some q) opt max_grad_norm.
(** emote/algorithms/hlgauss.py:116-142 QLoss.__init__; its bins are no parameters (emote/algorithms/hlgauss.py:63-73) *)
Definition hlgauss_q_loss (q : list nat) (opt : optimizer) (max_grad_norm : R) : callback :=
  loss_callback (Some q) opt max_grad_norm.
(** emote/algorithms/sac.py:211-239 PolicyLoss.__init__; the value networks are used, not saved. *)
Definition policy_loss (pi q q2 : list nat) (opt : optimizer) (max_grad_norm : R) : callback :=
  loss_callback (Some pi) opt max_grad_norm.
(** emote/algorithms/sac.py:282-315 AlphaLoss.__init__ *)
Definition alpha_callback (pi : list nat) (ln_alpha : nat) (opt : optimizer) (max_grad_norm : R) : callback :=
  let c := loss_callback None opt max_grad_norm in
  mkCb (cb_loss c) (cb_network c) (Some ln_alpha).
(** emote/models/callbacks.py:33-53 ModelLoss.__init__ *)
Definition model_loss (model : list nat) (opt : optimizer) (max_grad_norm : R) : callback :=
  loss_callback (Some model) opt max_grad_norm.
(** emote/algorithms/genrl/vae.py:50-72 VAELoss.__init__ *)
Definition vae_loss (vae : list nat) (opt : optimizer) (max_grad_norm : R) : callback :=
  loss_callback (Some vae) opt max_grad_norm.
(** emote/algorithms/amp.py:36-60 DiscriminatorLoss.__init__ *)
Definition amp_discriminator_loss (discriminator : list nat) (opt : optimizer) (max_grad_norm : R) : callback :=
  loss_callback (Some discriminator) opt max_grad_norm.
(** emote/algorithms/action_symmetry.py:32-55 ActionSymmetryDiscriminatorLoss.__init__ *)
Definition symmetry_discriminator_loss (discriminator : list nat) (opt : optimizer) (max_grad_norm : R) : callback :=
  loss_callback (Some discriminator) opt max_grad_norm.
(** emote/nn/curl.py:132-234 CurlLoss.__init__ and parameters: the optimizer is made here, for
    the encoder, the projection layer (if there is one) and W; [adam] is its initial state.
    Simplification: the learning rate is that after LinearLR's first factor. *)
Definition curl_callback (encoder projection w : list nat) (use_projection_layer : bool)
    (adam : list nat -> OS) (learning_rate max_grad_norm : R) : callback :=
  let encoder_model := if use_projection_layer then encoder ++ projection else encoder in
  let parameters := encoder_model ++ w in
  loss_callback None (mkOpt parameters (adam parameters) learning_rate) max_grad_norm.

(** The losses of the library, with the arguments of their constructors; the lines are those
    of the constructors above (emote/algorithms/sac.py:50-73 and so on). *)
Inductive library_loss : Type :=
| SacQ (q : list nat) (opt : optimizer) (max_grad_norm : R)
| DqnQ (q : list nat) (opt : optimizer) (max_grad_norm : R)
| HlGaussQ (q : list nat) (opt : optimizer) (max_grad_norm : R)
| Policy (pi q q2 : list nat) (opt : optimizer) (max_grad_norm : R)
| Alpha (pi : list nat) (ln_alpha : nat) (opt : optimizer) (max_grad_norm : R)
| Dynamics (model : list nat) (opt : optimizer) (max_grad_norm : R)
| Vae (vae : list nat) (opt : optimizer) (max_grad_norm : R)
| AmpDiscriminator (discriminator : list nat) (opt : optimizer) (max_grad_norm : R)
| SymmetryDiscriminator (discriminator : list nat) (opt : optimizer) (max_grad_norm : R)
| Curl (encoder projection w : list nat) (use_projection_layer : bool) (adam : list nat -> OS)
       (learning_rate max_grad_norm : R).
(** The constructor call; lines as above (emote/algorithms/sac.py:50-73 and so on). *)
Definition build (x : library_loss) : callback :=
  match x with
  | SacQ q o m => sac_q_loss q o m
  | DqnQ q o m => dqn_q_loss q o m
  | HlGaussQ q o m => hlgauss_q_loss q o m
  | Policy pi q q2 o m => policy_loss pi q q2 o m
  | Alpha pi a o m => alpha_callback pi a o m
  | Dynamics n o m => model_loss n o m
  | Vae n o m => vae_loss n o m
  | AmpDiscriminator n o m => amp_discriminator_loss n o m
  | SymmetryDiscriminator n o m => symmetry_discriminator_loss n o m
  | Curl e p w b adam lr m => curl_callback e p w b adam lr m
  end.

(** emote/callbacks/loss.py:90-96 LossCallback.state_dict and emote/algorithms/sac.py:337-340
    AlphaLoss.state_dict *)
Definition cb_state_dict (c : callback) (h : heap) : ckpt OS :=
  let value p := nth p (h_val h) 0 in
  mkCkpt (Some (ls_opt (cb_loss c), ls_lr (cb_loss c)))
         (match cb_ln_alpha c with
          | Some a => Some [value a]
          | None => option_map (map value) (cb_network c)
          end).
(** emote/callbacks/loss.py:98-111 LossCallback.load_state_dict and emote/algorithms/sac.py:342-358
    AlphaLoss.load_state_dict, which copies its tensor whatever load_weights says *)
Definition cb_load_state_dict (load_weights load_optimizers : bool) (d : ckpt OS) (c : callback) (h : heap)
    : res (callback * heap) :=
  rbind (match cb_ln_alpha c with
         | Some a => match ck_net d with
                     | Some (x :: _) => Ok (mkHeap (write [a] [x] (h_val h)) (h_grad h))
                     | _ => Err KeyError
                     end
         | None => Ok h
         end) (fun h =>
  rbind (match cb_network c with
         | Some n => if load_weights
                     then match ck_net d with
                          | Some ws => Ok (mkHeap (write n ws (h_val h)) (h_grad h))
                          | None => Err KeyError
                          end
                     else Ok h
         | None => Ok h
         end) (fun h =>
  if load_optimizers
  then match ck_opt d with
       | Some (os, lr) =>
           let l := cb_loss c in
           Ok (mkCb (mkLoss (ls_params l) (ls_network l) (ls_max l) os lr (ls_epoch l))
                    (cb_network c) (cb_ln_alpha c), h)
       | None => Err KeyError
       end
  else Ok (c, h))).
(** emote/callbacks/checkpointing.py:70-76 Checkpointer: the state of every restoree *)
Definition checkpoint (cs : list callback) (h : heap) : list (ckpt OS) := map (fun c => cb_state_dict c h) cs.
(** emote/callbacks/checkpointing.py:151-166 CheckpointLoader.restore_state, the loop over the restorees *)
Fixpoint restore_all (load_weights load_optimizers : bool) (ds : list (ckpt OS)) (cs : list callback) (h : heap)
    : res (list callback * heap) :=
  match ds, cs with
  | d :: ds', c :: cs' =>
      rbind (cb_load_state_dict load_weights load_optimizers d c h) (fun r =>
      rbind (restore_all load_weights load_optimizers ds' cs' (snd r)) (fun r' =>
      Ok (fst r :: fst r', snd r')))
  | _, _ => Ok ([], h)
  end.
End Ctor.
Arguments callback OS : clear implicits.
Arguments optimizer OS : clear implicits.
Arguments library_loss OS : clear implicits.
