(** * LossModel: emote/callbacks/loss.py, the alpha loss of emote/algorithms/sac.py

    Simplifications: floating point numbers are real numbers; every entry of a
    parameter tensor is a parameter of its own.  The optimizer's rule and the gradient
    that autograd computes are arbitrary functions.  PyTorch is the pinned release 1.12. *)
From Coq Require Import Reals.
From Verif Require Import Py NumModel SchedModel.
Open Scope list_scope.
Open Scope R_scope.

(** All parameters of the program with their [.grad], shared by all callbacks; a
    parameter is its position.  emote/callbacks/loss.py:39-41 *)
Record heap : Type := mkHeap { h_val : list R; h_grad : list (option R) }.
(** [f i x] for the entry [x] at position [i]; emote/callbacks/loss.py:58-61 *)
Fixpoint mapi {A B} (f : nat -> A -> B) (i : nat) (l : list A) : list B :=
  match l with [] => [] | x :: r => f i x :: mapi f (S i) r end.
(** optimizer.zero_grad(): a gradient that is there becomes zero; emote/callbacks/loss.py:58 *)
Definition zero_grad (ps : list nat) (g : list (option R)) : list (option R) :=
  mapi (fun i x => if inb i ps then option_map (fun _ => 0) x else x) 0 g.
(** adding to [.grad], loss.backward(); emote/callbacks/loss.py:60 *)
Definition add_grad (old new : option R) : option R :=
  match old, new with
  | None, n => n
  | o, None => o
  | Some a, Some b => Some (a + b)
  end.
(** loss.backward() adds the loss's gradient [new] to every parameter it depends on;
    emote/callbacks/loss.py:60 *)
Definition accumulate (new : nat -> option R) (g : list (option R)) : list (option R) :=
  mapi (fun i x => add_grad x (new i)) 0 g.
(** the gradients that are there; emote/callbacks/loss.py:61 *)
Fixpoint present (gs : list (option R)) : list R :=
  match gs with [] => [] | Some x :: r => x :: present r | None :: r => present r end.
(** the gradient of a parameter; emote/callbacks/loss.py:61-62 *)
Definition grad_at (g : list (option R)) (p : nat) : option R :=
  match nth_error g p with Some x => x | None => None end.
(** total norm of the gradients in nn.utils.clip_grad_norm_; emote/callbacks/loss.py:61 *)
Definition total_norm (gs : list (option R)) : R := sqrt (rsum (map (fun x => x ^ 2) (present gs))).
(** the factor of nn.utils.clip_grad_norm_; emote/callbacks/loss.py:61 *)
Definition clip_coef (max_norm norm : R) : R := Rmin (max_norm / (norm + / 10 ^ 6)) 1.
(** nn.utils.clip_grad_norm_; emote/callbacks/loss.py:61 *)
Definition clip_grad (ps : list nat) (max_norm : R) (g : list (option R)) : list (option R) :=
  let c := clip_coef max_norm (total_norm (map (grad_at g) ps)) in
  mapi (fun i x => if inb i ps then option_map (fun y => y * c) x else x) 0 g.
(** the optimizer's new values of its parameters; emote/callbacks/loss.py:62 *)
Fixpoint write (ps : list nat) (new : list R) (vals : list R) : list R :=
  match ps, new with
  | p :: ps', x :: new' => write ps' new' (set_at p x vals)
  | _, _ => vals
  end.

Section Loss.
(** The optimizer: its state, and one step from the learning rate, the values and the
    gradients of its parameters.  emote/callbacks/loss.py:62 *)
Context {OS : Type}.
Variable ostep : OS -> R -> list R -> list (option R) -> OS * list R.
(** The learning rate schedule: the rate of the new epoch from the old rate, as in
    PyTorch's chainable schedules.  emote/callbacks/loss.py:63 *)
Variable lrstep : Z -> R -> R.

(** emote/callbacks/loss.py:19-55 LossCallback.  The optimizer's parameters, the
    network's parameters, the norm bound, the optimizer's state and learning rate, the
    schedule's epoch. *)
Record loss : Type := mkLoss {
  ls_params : list nat; ls_network : list nat; ls_max : R; ls_opt : OS; ls_lr : R; ls_epoch : Z }.

(** emote/callbacks/loss.py:57-69 LossCallback.backward; [gradient vals p] is the derivative
    of this batch's loss at the parameters' values, [None] for a parameter it does not
    depend on.  Also returned are the logged learning rate and gradient norm; the rest of
    the logging is left out. *)
Definition backward (gradient : list R -> nat -> option R) (l : loss) (h : heap) : loss * heap * (R * R) :=
  let ps := ls_params l in
  let g := zero_grad ps (h_grad h) in
  let g := accumulate (gradient (h_val h)) g in
  let grad_norm := total_norm (map (grad_at g) ps) in
  let g := clip_grad ps (ls_max l) g in
  let '(os, new) := ostep (ls_opt l) (ls_lr l) (map (fun p => nth p (h_val h) 0) ps) (map (grad_at g) ps) in
  let epoch := (ls_epoch l + 1)%Z in
  let lr := lrstep epoch (ls_lr l) in
  (mkLoss ps (ls_network l) (ls_max l) os lr epoch, mkHeap (write ps new (h_val h)) g, (lr, grad_norm)).

(** The losses of a trainer, and the backward calls of a run: which loss, and its
    gradient on that batch.  emote/trainer.py:93 and emote/callbacks/loss.py:57 *)
Fixpoint run_losses (calls : list (nat * (list R -> nat -> option R))) (ls : list loss) (h : heap)
    : list loss * heap :=
  match calls with
  | [] => (ls, h)
  | (k, gradient) :: r =>
      match nth_error ls k with
      | None => run_losses r ls h
      | Some l => let '(l', h', _) := backward gradient l h in run_losses r (set_at k l' ls) h'
      end
  end.

(** emote/callbacks/loss.py:90-96 LossCallback.state_dict, without the logs: the optimizer's state
    (with its learning rate, as PyTorch saves it) and the network's weights. *)
Record ckpt : Type := mkCkpt { ck_opt : option (OS * R); ck_net : option (list R) }.
(** emote/callbacks/loss.py:90-96 *)
Definition state_dict (l : loss) (h : heap) : ckpt :=
  mkCkpt (Some (ls_opt l, ls_lr l)) (Some (map (fun p => nth p (h_val h) 0) (ls_network l))).
(** emote/callbacks/loss.py:98-111 LossCallback.load_state_dict; what is loaded is removed from the
    dictionary that was passed in, which is the third result.  Simplification: the saved
    network has as many parameters as this one. *)
Definition load_state_dict (load_weights load_optimizers : bool) (c : ckpt) (l : loss) (h : heap)
    : res (loss * heap * ckpt) :=
  rbind (if load_weights
         then match ck_net c with
              | Some w => Ok (mkHeap (write (ls_network l) w (h_val h)) (h_grad h), mkCkpt (ck_opt c) None)
              | None => Err KeyError
              end
         else Ok (h, c)) (fun hc =>
  let '(h, c) := hc in
  if load_optimizers
  then match ck_opt c with
       | Some (os, lr) => Ok (mkLoss (ls_params l) (ls_network l) (ls_max l) os lr (ls_epoch l), h, mkCkpt None (ck_net c))
       | None => Err KeyError
       end
  else Ok (l, h, c)).
(** Saving all losses, and loading them one after the other;
    emote/callbacks/checkpointing.py:75, 155-159 with emote/callbacks/loss.py:90-111 *)
Definition save_all (ls : list loss) (h : heap) : list ckpt := map (fun l => state_dict l h) ls.
(** emote/callbacks/checkpointing.py:155-159 *)
Fixpoint load_all (cs : list ckpt) (ls : list loss) (h : heap) : res (list loss * heap) :=
  match cs, ls with
  | c :: cs', l :: ls' =>
      rbind (load_state_dict true true c l h) (fun r =>
      let '(l', h', _) := r in
      rbind (load_all cs' ls' h') (fun r' => Ok (l' :: fst r', snd r')))
  | _, _ => Ok ([], h)
  end.
End Loss.
Arguments loss OS : clear implicits.
Arguments ckpt OS : clear implicits.

(** PyTorch's ConstantLR(optimizer, factor=1.0), the default of emote/callbacks/loss.py:36-37 (five
    epochs, then the factor is undone). *)
Definition constant_lr (factor : R) (total : Z) (epoch : Z) (lr : R) : R :=
  if (epoch =? 0)%Z then lr * factor
  else if (epoch =? total)%Z then lr * (1 / factor) else lr.
(** PyTorch's LinearLR, as used for emote/nn/curl.py:218-223 *)
Definition linear_lr (start_factor end_factor : R) (total : Z) (epoch : Z) (lr : R) : R :=
  if (epoch =? 0)%Z then lr * start_factor
  else if (total <? epoch)%Z then lr
  else lr * (1 + (end_factor - start_factor) /
                 (IZR total * start_factor + (IZR epoch - 1) * (end_factor - start_factor))).
(** [n] steps of a schedule from an epoch; emote/callbacks/loss.py:63 *)
Fixpoint lr_steps (lrstep : Z -> R -> R) (n : nat) (epoch : Z) (lr : R) : Z * R :=
  match n with
  | O => (epoch, lr)
  | S m => lr_steps lrstep m (epoch + 1) (lrstep (epoch + 1)%Z lr)
  end.

(** ** Target networks and checkpoints: emote/algorithms/sac.py:114-135, 173-176 *)
(** A network and its target network. *)
Record pair : Type := mkPair { pr_q : list R; pr_qt : list R }.
(** emote/algorithms/sac.py:134-135: the target starts as a copy of the network *)
Definition build_pair (q : list R) : pair := mkPair q q.
(** One batch: an update of the network (emote/callbacks/loss.py:57-69), then
    emote/algorithms/sac.py:173-176 *)
Definition pair_batch (tau : R) (update : list R -> list R) (p : pair) : pair :=
  let q := update (pr_q p) in
  mkPair q (map (fun xy => fst xy * (1 - tau) + snd xy * tau) (combine (pr_qt p) q)).
(** A checkpoint holds the networks of the losses; QTarget (emote/algorithms/sac.py:81) has no
    [state_dict] of its own.  emote/callbacks/loss.py:94-95 *)
Definition pair_save (p : pair) : list R := pr_q p.
(** emote/callbacks/loss.py:105-106 *)
Definition pair_load (saved : list R) (p : pair) : pair := mkPair saved (pr_qt p).

(** ** AlphaLoss: emote/algorithms/sac.py:259-358 *)
(** Tensors by address, and who holds which: AlphaLoss, PolicyLoss
    (emote/algorithms/sac.py:237) and QTarget (emote/algorithms/sac.py:136). *)
Record alpha : Type := mkAlpha {
  al_heap : list R; al_own : nat; al_policy : nat; al_target : nat;
  al_max_ln : R; al_entropy : schedule }.
(** What an AlphaLoss goes through: an optimizer step that leaves some value
    (emote/callbacks/loss.py:62), emote/algorithms/sac.py:328-335, emote/algorithms/sac.py:342-358. *)
Inductive alpha_op : Type :=
| AStep (new : R)
| AEndBatch
| ALoad (saved : R) (load_weights : bool).
(** the value of ln_alpha that a holder of address [a] reads; emote/algorithms/sac.py:249, 331 *)
Definition ln_alpha_at (s : alpha) (a : nat) : R := nth a (al_heap s) 0.
(** emote/algorithms/sac.py:282-315 AlphaLoss.__init__ with a number or a schedule for t_entropy
    ([None]: minus the number of actions); ConstantSchedule as emote/extra/schedules.py:38-49. *)
Definition alpha_init (tensors : list R) (address : nat) (n_actions : Z) (max_alpha : R)
    (t_entropy : option schedule) : alpha :=
  mkAlpha tensors address address address (ln max_alpha)
    (match t_entropy with Some s => s | None => sc_init (IZR (- n_actions)) (IZR (- n_actions)) 0 end).
(** emote/algorithms/sac.py:328-335 AlphaLoss.end_batch, emote/algorithms/sac.py:342-358 load_state_dict (whatever
    load_weights says).  All writes are in place.  [step] is the entropy schedule's. *)
Definition alpha_do (step : schedule -> res schedule) (o : alpha_op) (s : alpha) : res alpha :=
  let put v := set_at (al_own s) v (al_heap s) in
  match o with
  | AStep new => Ok (mkAlpha (put new) (al_own s) (al_policy s) (al_target s) (al_max_ln s) (al_entropy s))
  | AEndBatch =>
      let h := put (Rmin (ln_alpha_at s (al_own s)) (al_max_ln s)) in
      rbind (step (al_entropy s)) (fun e =>
      Ok (mkAlpha h (al_own s) (al_policy s) (al_target s) (al_max_ln s) e))
  | ALoad saved _ => Ok (mkAlpha (put saved) (al_own s) (al_policy s) (al_target s) (al_max_ln s) (al_entropy s))
  end.
(** a history of these; emote/algorithms/sac.py:328-358 *)
Fixpoint alpha_run (step : schedule -> res schedule) (ops : list alpha_op) (s : alpha) : res alpha :=
  match ops with [] => Ok s | o :: r => rbind (alpha_do step o s) (alpha_run step r) end.
(** emote/algorithms/sac.py:317-326 AlphaLoss.loss from the log-probabilities of the batch *)
Definition alpha_loss (logp_pi : list R) (t_entropy : R) (ln_alpha : R) : R :=
  np_mean (map (fun logp => ln_alpha * (- logp - t_entropy)) logp_pi).
