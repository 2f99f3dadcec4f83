(** * PolModel: emote/nn/gaussian_policy.py, emote/nn/action_value_mlp.py and the losses
    of emote/algorithms/sac.py and emote/algorithms/dqn.py

    Simplifications: floating point numbers are real numbers; a batch is the list of its
    rows and has at least one; weights are arbitrary (initialisation is not modelled). *)
From Coq Require Import Reals.
From Verif Require Import Py NumModel AmpModel.
Open Scope list_scope.
Open Scope R_scope.

(** entrywise operations on tensors of one shape; emote/nn/gaussian_policy.py:63, 72 *)
Fixpoint zipw {A B C} (f : A -> B -> C) (a : list A) (b : list B) : list C :=
  match a, b with x :: a', y :: b' => f x y :: zipw f a' b' | _, _ => [] end.
(** nn.Linear: sizes, weight and bias; emote/nn/gaussian_policy.py:45-46 *)
Record linear : Type := mkLinear { ln_in : nat; ln_out : nat; ln_w : nat -> nat -> R; ln_b : nat -> R }.
(** a linear layer on one row; emote/nn/gaussian_policy.py:56-57 *)
Definition apply_linear (l : linear) (row : list R) : res (list R) :=
  if Nat.eqb (List.length row) (ln_in l)
  then Ok (map (fun i => rsum (map (fun j => ln_w l i j * nth j row 0) (seq 0 (ln_in l))) + ln_b l i) (seq 0 (ln_out l)))
  else Err RuntimeError.
(** nn.ReLU; emote/nn/gaussian_policy.py:80 *)
Definition relu (x : R) : R := Rmax x 0.
(** nn.Sequential of linear layers, each followed by nn.ReLU, on one row;
    emote/nn/gaussian_policy.py:78-83, emote/nn/action_value_mlp.py:16-21 *)
Fixpoint encoder (ls : list linear) (row : list R) : res (list R) :=
  match ls with
  | [] => Ok row
  | l :: r => rbind (apply_linear l row) (fun y => encoder r (map relu y))
  end.
(** the layers for [zip([n] + hidden_dims, hidden_dims)], layer [k] with weights
    [params k]; emote/nn/gaussian_policy.py:79-82, emote/nn/action_value_mlp.py:17-20 *)
Fixpoint build_layers (n : nat) (hidden : list nat) (k : nat) (params : nat -> (nat -> nat -> R) * (nat -> R)) : list linear :=
  match hidden with
  | [] => []
  | m :: r => mkLinear n m (fst (params k)) (snd (params k)) :: build_layers m r (S k) params
  end.

(** ** emote/nn/gaussian_policy.py *)
(** emote/nn/gaussian_policy.py:37-46 GaussianPolicyHead *)
Record head : Type := mkHead { hd_mean : linear; hd_log_std : linear; hd_action_dim : nat }.
(** [x.clamp(min=lo, max=hi)]; emote/nn/gaussian_policy.py:56-57 *)
Definition clamp (lo hi x : R) : R := Rmin (Rmax x lo) hi.
(** dists.Normal(mean, std).log_prob(z); emote/nn/gaussian_policy.py:60, 65 *)
Definition normal_log_prob (mean std z : R) : R :=
  - ((z - mean) ^ 2) / (2 * std ^ 2) - ln std - ln (sqrt (2 * PI)).
(** torch's softplus, ln (1 + exp x); for emote/nn/gaussian_policy.py:61 *)
Definition softplus (x : R) : R := ln (1 + exp x).
(** TanhTransform.log_abs_det_jacobian; emote/nn/gaussian_policy.py:61, 65 *)
Definition tanh_log_det (z : R) : R := 2 * (ln 2 - z - softplus (- 2 * z)).
(** means and standard deviations of one row; emote/nn/gaussian_policy.py:56-57 *)
Definition head_params (h : head) (row : list R) : res (list R * list R) :=
  rbind (apply_linear (hd_mean h) row) (fun m =>
  rbind (apply_linear (hd_log_std h) row) (fun s =>
  Ok (map (clamp (-5) 5) m, map (fun x => exp (clamp (-20) 2 x)) s))).
(** [mean + std * noise]; emote/nn/gaussian_policy.py:63, 72 *)
Definition pre_action (ms : list R * list R) (noise : list R) : list R :=
  zipw Rplus (fst ms) (zipw Rmult (snd ms) noise).
(** the log-probability of one sample, through the transform's cache of the value before
    tanh; the actions of a row are independent.  emote/nn/gaussian_policy.py:59-65 *)
Definition sample_log_prob (ms : list R * list R) (z : list R) : R :=
  rsum (zipw (fun msj zj => normal_log_prob (fst msj) (snd msj) zj) (combine (fst ms) (snd ms)) z)
  - rsum (map tanh_log_det z).
(** emote/nn/gaussian_policy.py:48-72 GaussianPolicyHead.forward: actions and, in training
    mode, log-probabilities.  [noise] is the normal noise that rsample draws (of the
    batch's shape).  Simplification: an epsilon of another shape, which PyTorch may
    broadcast, is refused. *)
Definition head_forward (training : bool) (h : head) (x : matrix) (noise : matrix) (epsilon : option matrix)
    : res (matrix * option matrix) :=
  rbind (rmapM (head_params h) x) (fun ms =>
  if training
  then
    let z := zipw pre_action ms noise in
    let sample := map (map tanh) z in
    let log_prob := map (fun v => [v]) (zipw sample_log_prob ms z) in
    if forallb (fun row => Nat.eqb (List.length row) (hd_action_dim h)) sample
       && Nat.eqb (List.length sample) (List.length x)
    then Ok (sample, Some log_prob) else Err AssertionError
  else
    match epsilon with
    | None => Err TypeError
    | Some e =>
        if same_shape (map fst ms) e
        then Ok (map (map tanh) (zipw pre_action ms e), None)
        else Err RuntimeError
    end).
(** emote/nn/gaussian_policy.py:75-87 GaussianMlpPolicy *)
Record policy : Type := mkPolicy { po_encoder : list linear; po_head : head }.
(** emote/nn/gaussian_policy.py:76-84; [hidden_dims[-1]] *)
Definition build_policy (observation_dim action_dim : nat) (hidden : list nat)
    (params : nat -> (nat -> nat -> R) * (nat -> R)) (mean log_std : (nat -> nat -> R) * (nat -> R)) : res policy :=
  match rev hidden with
  | [] => Err IndexError
  | last :: _ =>
      Ok (mkPolicy (build_layers observation_dim hidden 0 params)
            (mkHead (mkLinear last action_dim (fst mean) (snd mean))
                    (mkLinear last action_dim (fst log_std) (snd log_std)) action_dim))
  end.
(** emote/nn/gaussian_policy.py:89-90 GaussianMlpPolicy.forward *)
Definition policy_forward (training : bool) (p : policy) (obs : matrix) (noise : matrix) (epsilon : option matrix)
    : res (matrix * option matrix) :=
  rbind (rmapM (encoder (po_encoder p)) obs) (fun x => head_forward training (po_head p) x noise epsilon).

(** ** emote/nn/action_value_mlp.py *)
(** emote/nn/action_value_mlp.py:12-25 ActionValueMlp *)
Record valuenet : Type := mkValueNet { vn_obs : nat; vn_act : nat; vn_encoder : list linear; vn_final : linear }.
(** emote/nn/action_value_mlp.py:12-25; [hidden_dims[-1]] *)
Definition build_value (observation_dim action_dim : nat) (hidden : list nat)
    (params : nat -> (nat -> nat -> R) * (nat -> R)) (final : (nat -> nat -> R) * (nat -> R)) : res valuenet :=
  match rev hidden with
  | [] => Err IndexError
  | last :: _ =>
      Ok (mkValueNet observation_dim action_dim (build_layers (observation_dim + action_dim) hidden 0 params)
            (mkLinear last 1 (fst final) (snd final)))
  end.
(** emote/nn/action_value_mlp.py:27-36 ActionValueMlp.forward *)
Definition value_forward (v : valuenet) (action obs : matrix) : res matrix :=
  if negb (Nat.eqb (List.length obs) (List.length action)) then Err AssertionError else
  if negb (Nat.eqb (width obs) (vn_obs v)) then Err AssertionError else
  if negb (Nat.eqb (width action) (vn_act v)) then Err AssertionError else
  let x := zipw (@app R) obs action in
  rbind (rmapM (fun row => rbind (encoder (vn_encoder v) row) (apply_linear (vn_final v))) x) (fun out =>
  if is_column (List.length obs) out then Ok out else Err AssertionError).
(** emote/nn/action_value_mlp.py:51-54 SharedEncoderActionValueNet.forward *)
Definition shared_forward (shared_enc : matrix -> res matrix) (v : valuenet) (action obs : matrix) : res matrix :=
  rbind (shared_enc obs) (fun x => value_forward v action x).

(** ** Losses *)
(** nn.MSELoss()(a, b); emote/algorithms/sac.py:78, emote/algorithms/dqn.py:115.
    Simplification: shapes that differ, which PyTorch broadcasts with a warning if it
    can, are refused. *)
Definition mse (a b : matrix) : res R :=
  if same_shape a b
  then Ok (np_mean (concat (zip_rows (fun x y => (x - y) ^ 2) a b)))
  else Err RuntimeError.
(** emote/algorithms/sac.py:75-78 QLoss.loss *)
Definition q_loss (q_network : matrix -> res matrix) (actions q_target : matrix) : res R :=
  rbind (q_network actions) (fun q_value => mse q_value q_target).
(** [x.to(torch.int64)]: towards zero; emote/algorithms/dqn.py:112 *)
Definition to_int (x : R) : Z := if Rle_dec 0 x then Int_part x else (- Int_part (- x))%Z.
(** [t.gather(1, indices)] on one row; emote/algorithms/dqn.py:113 *)
Definition gather_row (row : list R) (indices : list Z) : res (list R) :=
  rmapM (fun i => if ((0 <=? i) && (i <? Z.of_nat (List.length row)))%Z
                  then Ok (nth (Z.to_nat i) row 0) else Err RuntimeError) indices.
(** [t.gather(1, indices)]; emote/algorithms/dqn.py:113.  Indices may have fewer rows. *)
Definition gather (t : matrix) (indices : list (list Z)) : res matrix :=
  if Nat.leb (List.length indices) (List.length t)
  then rmapM (fun ri => gather_row (fst ri) (snd ri)) (combine t indices)
  else Err RuntimeError.
(** emote/algorithms/dqn.py:111-115 QLoss.loss *)
Definition dqn_loss (q_network : matrix -> res matrix) (observation q_target actions : matrix) : res R :=
  let indices := map (map to_int) actions in
  rbind (q_network observation) (fun q =>
  rbind (gather q indices) (fun q_value => mse q_value q_target)).
(** emote/algorithms/sac.py:241-256 PolicyLoss.loss from the policy's sample and
    log-probabilities and the networks' values of that sample (columns, as
    emote/nn/action_value_mlp.py:35 asserts).  [q2 = None]: no second network. *)
Definition policy_loss (ln_alpha : R) (logp_pi q1 : list R) (q2 : option (list R)) : R :=
  let q_pi_min := match q2 with Some q2 => zipw Rmin q1 q2 | None => q1 end in
  let alpha := exp ln_alpha in
  np_mean (zipw (fun logp q => alpha * logp - q) logp_pi q_pi_min).
