(** * PolProps: C94 to C96 *)
From Coq Require Import Reals Lra Lia.
From Verif Require Import Py NumModel AmpModel PolModel PolSpec PolProofs PolMain.
Open Scope list_scope.
Open Scope R_scope.

(** C94.  For all sizes, weights, observations and noise: the action is the tanh of a
    normal variable, in training mode (noise drawn by the sampler) and in evaluation mode
    (noise passed by the caller) alike, and the reported log-probability is the logarithm of
    the density of that very action. *)
Theorem C94_squashed_gaussian :
  forall od ad hidden params mean log_std p obs noise b,
  build_policy od ad hidden params mean log_std = Ok p -> shape b od obs -> shape b ad noise ->
  let feat := fun i => features od hidden 0 params (entry (nth i obs [])) in
  let mu := fun i j => limited (-5) 5 (affine mean (last_size od hidden) (feat i) j) in
  let sigma := fun i j => exp (limited (-20) 2 (affine log_std (last_size od hidden) (feat i) j)) in
  exists sample, exists logp,
    (forall eps, policy_forward true p obs noise eps = Ok (sample, Some logp)) /\
    (forall any, policy_forward false p obs any (Some noise) = Ok (sample, None)) /\
    shape b ad sample /\ shape b 1 logp /\
    (forall i j, (i < b)%nat -> (j < ad)%nat ->
       entry (nth i sample []) j = tanh (mu i j + sigma i j * entry (nth i noise []) j)) /\
    (forall i, (i < b)%nat ->
       entry (nth i logp []) 0 =
       rsum (map (fun j => ln (squashed_density (mu i j) (sigma i j) (entry (nth i sample []) j))) (seq 0 ad))).
Proof. exact policy_ok. Qed.
Print Assumptions C94_squashed_gaussian.

(** Every action lies strictly between -1 and 1. *)
Theorem C94_bounds :
  forall od ad hidden params mean log_std p obs noise any eps training sample logp b,
  build_policy od ad hidden params mean log_std = Ok p -> shape b od obs ->
  shape b ad noise -> (training = true /\ any = noise \/ training = false /\ eps = Some noise) ->
  policy_forward training p obs any eps = Ok (sample, logp) ->
  shape b ad sample /\ forall i j, (i < b)%nat -> (j < ad)%nat -> -1 < entry (nth i sample []) j < 1.
Proof. exact policy_bounds. Qed.
Print Assumptions C94_bounds.

(** Means stay within [-5, 5], standard deviations within [exp (-20), exp 2]. *)
Theorem C94_limits : forall x y,
  -5 <= limited (-5) 5 x <= 5 /\ exp (-20) <= exp (limited (-20) 2 y) <= exp 2.
Proof. exact limits_ok. Qed.
Print Assumptions C94_limits.

(** The density is right: if [Phi] is a distribution function of the normal variable,
    [Phi (atanh a)] is the probability that its tanh is at most [a], and the density is
    its derivative. *)
Theorem C94_density : forall Phi m s a, 0 < s -> -1 < a < 1 ->
  (forall z, derivable_pt_lim Phi z (normal_density m s z)) ->
  (forall z, tanh z <= a <-> z <= atanh a) /\
  derivable_pt_lim (fun a => Phi (atanh a)) a (squashed_density m s a).
Proof. exact density_ok. Qed.
Print Assumptions C94_density.

(** A larger noise gives a larger action. *)
Theorem C94_increasing : forall m s e e2, 0 < s -> e < e2 -> tanh (m + s * e) < tanh (m + s * e2).
Proof. exact action_increasing. Qed.
Print Assumptions C94_increasing.

(** Policies need at least one hidden layer, and refuse observations of another width. *)
Theorem C94_built : forall od ad hidden params mean log_std,
  (exists p, build_policy od ad hidden params mean log_std = Ok p) <-> hidden <> [].
Proof. exact policy_built. Qed.
Print Assumptions C94_built.
Theorem C94_refuses : forall od ad hidden params mean log_std p obs row training any eps,
  build_policy od ad hidden params mean log_std = Ok p ->
  In row obs -> List.length row <> od -> policy_forward training p obs any eps = Err RuntimeError.
Proof. exact policy_refuses. Qed.
Print Assumptions C94_refuses.

(** Finding: [epsilon] is an optional argument, but in evaluation mode leaving it out
    raises an error. *)
Theorem C94_eval_needs_noise_finding : forall od ad hidden params mean log_std p obs b any,
  build_policy od ad hidden params mean log_std = Ok p ->
  shape b od obs -> policy_forward false p obs any None = Err TypeError.
Proof. exact policy_needs_noise. Qed.
Print Assumptions C94_eval_needs_noise_finding.

(** A policy with two hidden layers, and the action it takes. *)
Example c94_case : exists p,
  build_policy 2 1 [3; 2]%nat (fun k => (fun i j => INR (i + j + k), fun i => - INR i)) (fun i j => 1, fun i => 0) (fun _ _ => 0, fun _ => 0) = Ok p /\
  shape 2 2 [[1; -1]; [0; 3]] /\ shape 2 1 [[1]; [-1]].
Proof. eexists. split; [reflexivity|]. split; (split; [reflexivity|]); repeat constructor. Qed.
Example c94_action : policy_forward false
  (mkPolicy [mkLinear 1 1 (fun _ _ => 1) (fun _ => 0)] (mkHead (mkLinear 1 1 (fun _ _ => 2) (fun _ => 0)) (mkLinear 1 1 (fun _ _ => 0) (fun _ => 0)) 1))
  [[1]] [] (Some [[3]]) = Ok ([[tanh 5]], None).
Proof. exact policy_case. Qed.

(** C95.  For all sizes, weights and batches: one value per row, computed from that
    row's observation followed by its action. *)
Theorem C95_value_of_row :
  forall od ad hidden params final v actions obs b,
  build_value od ad hidden params final = Ok v -> (0 < b)%nat -> shape b od obs -> shape b ad actions ->
  exists out, value_forward v actions obs = Ok out /\ shape b 1 out /\
    forall i, (i < b)%nat -> entry (nth i out []) 0 =
      affine final (last_size (od + ad) hidden)
        (features (od + ad) hidden 0 params (entry (nth i obs [] ++ nth i actions []))) 0.
Proof. exact value_ok. Qed.
Print Assumptions C95_value_of_row.

(** Anything else (rows that do not pair up, observations or actions of another width,
    observations and actions swapped) is refused, whenever the three sizes differ from the
    declared ones. *)
Theorem C95_refuses :
  forall od ad hidden params final v actions obs b b2 o a,
  build_value od ad hidden params final = Ok v -> (0 < b)%nat -> (0 < b2)%nat ->
  shape b o obs -> shape b2 a actions -> (b, o, a) <> (b2, od, ad) -> value_forward v actions obs = Err AssertionError.
Proof. exact value_refuses. Qed.
Print Assumptions C95_refuses.
Theorem C95_built : forall od ad hidden params final,
  (exists v, build_value od ad hidden params final = Ok v) <-> hidden <> [].
Proof. exact value_built. Qed.
Print Assumptions C95_built.

(** Behind a shared encoder, the network sees the encoded observations. *)
Theorem C95_shared_encoder : forall shared_enc od ad hidden params final v actions obs x b,
  build_value od ad hidden params final = Ok v -> (0 < b)%nat -> shared_enc obs = Ok x -> shape b od x -> shape b ad actions ->
  exists out, shared_forward shared_enc v actions obs = Ok out /\ shape b 1 out /\
    forall i, (i < b)%nat -> entry (nth i out []) 0 =
      affine final (last_size (od + ad) hidden)
        (features (od + ad) hidden 0 params (entry (nth i x [] ++ nth i actions []))) 0.
Proof. exact shared_value_ok. Qed.
Print Assumptions C95_shared_encoder.

Example c95_case : exists v, build_value 2 1 [3]%nat (fun k => (fun i j => INR (i + j), fun i => - INR i)) (fun i j => 1, fun i => 0) = Ok v /\
  value_forward v [[1]; [2]] [[1; 0]] = Err AssertionError.
Proof. eexists. split; reflexivity. Qed.
Example c95_value : value_forward
  (mkValueNet 1 1 [mkLinear 2 1 (fun _ j => if Nat.eqb j 0 then 1 else 10) (fun _ => 0)] (mkLinear 1 1 (fun _ _ => 2) (fun _ => 1)))
  [[3]; [-1]] [[4]; [1]] = Ok [[69]; [1]].
Proof. exact value_case. Qed.

(** C96.  The critic loss is the mean squared error against the target: never negative,
    zero exactly at the target. *)
Theorem C96_q_loss : forall q_network actions qv target b,
  (0 < b)%nat -> q_network actions = Ok qv -> shape b 1 qv -> shape b 1 target ->
  exists loss, q_loss q_network actions target = Ok loss /\ loss = mean_square_error (first_column qv) (first_column target) /\
  0 <= loss /\ (loss = 0 <-> qv = target).
Proof. exact q_loss_ok. Qed.
Print Assumptions C96_q_loss.

(** For discrete actions, it is that of the values of the actions taken: the values of
    the other actions do not matter. *)
Theorem C96_dqn_loss : forall q_network obs q n b actions target taken,
  q_network obs = Ok q -> shape b n q -> shape b 1 actions -> shape b 1 target ->
  List.length taken = b -> first_column actions = map INR taken -> Forall (fun k => (k < n)%nat) taken ->
  dqn_loss q_network obs target actions =
  Ok (mean_square_error (map (fun qk => nth (snd qk) (fst qk) 0) (combine q taken)) (first_column target)).
Proof. exact dqn_ok. Qed.
Print Assumptions C96_dqn_loss.
Theorem C96_dqn_refuses : forall q_network obs q n b actions target i k,
  q_network obs = Ok q -> shape b n q -> shape b 1 actions ->
  (i < b)%nat -> entry (nth i actions []) 0 = IZR k -> (k < 0 \/ Z.of_nat n <= k)%Z ->
  dqn_loss q_network obs target actions = Err RuntimeError.
Proof. exact dqn_refuses. Qed.
Print Assumptions C96_dqn_refuses.
(** Finding: actions that are no whole numbers are cut towards zero, without an error. *)
Theorem C96_dqn_truncates_finding : forall qn obs target,
  dqn_loss qn obs target [[3 / 2]] = dqn_loss qn obs target [[1]] /\
  dqn_loss qn obs target [[- (1 / 2)]] = dqn_loss qn obs target [[0]].
Proof. exact dqn_truncates. Qed.
Print Assumptions C96_dqn_truncates_finding.

(** The policy loss is the average of alpha times log-probability minus the smaller
    value; *)
Theorem C96_policy_loss : forall la logp q1 q2,
  List.length q1 = List.length logp -> List.length q2 = List.length logp ->
  policy_loss la logp q1 (Some q2) =
    rsum (map (fun i => exp la * nth i logp 0 - Rmin (nth i q1 0) (nth i q2 0)) (seq 0 (List.length logp))) / INR (List.length logp) /\
  policy_loss la logp q1 None =
    rsum (map (fun i => exp la * nth i logp 0 - nth i q1 0) (seq 0 (List.length logp))) / INR (List.length logp).
Proof. exact policy_loss_ok. Qed.
Print Assumptions C96_policy_loss.
(** it is never more optimistic than with either network alone. *)
Theorem C96_policy_loss_pessimistic : forall la logp q1 q2,
  List.length q1 = List.length logp -> List.length q2 = List.length logp -> logp <> [] ->
  policy_loss la logp q1 None <= policy_loss la logp q1 (Some q2) /\ policy_loss la logp q2 None <= policy_loss la logp q1 (Some q2).
Proof. exact policy_loss_pessimistic. Qed.
Print Assumptions C96_policy_loss_pessimistic.

Example c96_case : dqn_loss (fun _ => Ok [[1; 2; 3]; [4; 5; 6]]) [] [[0]; [0]] [[INR 2]; [INR 0]] = Ok ((9 + 16) / 2).
Proof. exact dqn_case. Qed.
Example c96_policy : policy_loss 0 [1; 2] [5; 7] (Some [6; 3]) = - 5 / 2.
Proof. exact policy_loss_case. Qed.
