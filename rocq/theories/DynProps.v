(** * DynProps: C135 *)
From Coq Require Import Reals Lra Lia.
From Verif Require Import Py NumModel AlgoModel AlgoSpec AmpModel PolModel EnsModel DynModel DynSpec DynProofs.
Open Scope list_scope.
Open Scope R_scope.

(** C135: the loss of a batch is the mean squared error of what the model, as the loss leaves
    it, predicts for that batch, each number in units of its running standard deviation. *)
Theorem C135_loss : forall lr f dims n_obs n_action bs m b key network (observation next_observation : dict string matrix) m' loss,
  dims_exist n_obs dims -> processes n_obs f ->
  trained_on (dm_new lr f dims) bs m -> Forall (fits n_obs n_action) (bs ++ [b]) ->
  dget observation key = Some (t_obs b) -> dget next_observation key = Some (t_next b) ->
  model_loss key m network observation next_observation (t_action b) (t_reward b) = Ok (m', loss) ->
  trained_on (dm_new lr f dims) (bs ++ [b]) m' /\
  exists predicted mean units,
    AlgoModel.sample m' (det_sample network) (t_action b) (t_obs b) = Ok (returns predicted)
    /\ sizes lr (List.length (t_obs b)) n_obs predicted
    /\ nm_stats (dm_target m') = Some (mean, map Some units)
    /\ List.length units = (if lr then n_obs + 1 else n_obs)%nat /\ Forall (fun u => 0 < u) units
    /\ loss = Some (mean_of (all_errors units (joined predicted) (happened lr (t_next b) (t_reward b)))).
Proof. exact loss_is_error. Qed.
Print Assumptions C135_loss.

(** So no prediction is further off than the loss allows, and a loss of zero means that the
    batch is predicted exactly. *)
Theorem C135_close : forall lr f dims n_obs n_action bs m b key network (observation next_observation : dict string matrix) m' loss,
  dims_exist n_obs dims -> processes n_obs f ->
  trained_on (dm_new lr f dims) bs m -> Forall (fits n_obs n_action) (bs ++ [b]) ->
  dget observation key = Some (t_obs b) -> dget next_observation key = Some (t_next b) ->
  model_loss key m network observation next_observation (t_action b) (t_reward b) = Ok (m', loss) ->
  exists predicted mean units l,
    AlgoModel.sample m' (det_sample network) (t_action b) (t_obs b) = Ok (returns predicted)
    /\ nm_stats (dm_target m') = Some (mean, map Some units)
    /\ loss = Some l /\ 0 <= l
    /\ (l = 0 -> joined predicted = happened lr (t_next b) (t_reward b))
    /\ forall i j p r u x y,
         nth_error (joined predicted) i = Some p -> nth_error (happened lr (t_next b) (t_reward b)) i = Some r ->
         nth_error units j = Some u -> nth_error p j = Some x -> nth_error r j = Some y ->
         Rabs (x - y) <= u * sqrt (l * INR (List.length (t_obs b) * List.length units)).
Proof. exact loss_bounds. Qed.
Print Assumptions C135_close.

(** The loss is a number for every batch, if the network answers every row. *)
Theorem C135_computed : forall lr f dims n_obs n_action bs m b key network (observation next_observation : dict string matrix),
  dims_exist n_obs dims -> processes n_obs f ->
  trained_on (dm_new lr f dims) bs m -> Forall (fits n_obs n_action) (bs ++ [b]) ->
  dget observation key = Some (t_obs b) -> dget next_observation key = Some (t_next b) ->
  (forall x, List.length x = List.length (t_obs b) ->
     exists y, network x = Ok y /\ List.length y = List.length x /\ wide (if lr then n_obs + 1 else n_obs)%nat y) ->
  exists m' l, model_loss key m network observation next_observation (t_action b) (t_reward b) = Ok (m', Some l).
Proof. exact loss_computed. Qed.
Print Assumptions C135_computed.

(** A batch of two transitions with rewards, the second coordinate predicted as it is, and a
    network whose answer depends on its input. *)
Definition ex_batch : transitions := mkTr [[0; 1]; [2; 3]] [[1; 1]; [4; 2]] [[0]; [1]] [[5]; [7]].
Definition ex_network (x : matrix) : res matrix := Ok (map (fun row => [nth 0 row 0; nth 1 row 0; 1]) x).
Example C135_case : dims_exist 2 [-1]%Z /\ processes 2 None /\ trained_on (dm_new true None [-1]%Z) [] (dm_new true None [-1]%Z)
  /\ Forall (fits 2 1) ([] ++ [ex_batch])
  /\ exists m' l, model_loss "obs" (dm_new true None [-1]%Z) ex_network [("obs"%string, t_obs ex_batch)] [("obs"%string, t_next ex_batch)]
                    (t_action ex_batch) (t_reward ex_batch) = Ok (m', Some l).
Proof.
  assert (D : dims_exist 2 [-1]%Z) by (repeat constructor; lia).
  assert (F : Forall (fits 2 1) ([] ++ [ex_batch])) by (constructor; [unfold fits; cbn; repeat split; repeat constructor|constructor]).
  split; [exact D|]. split; [exact I|]. split; [constructor|]. split; [exact F|].
  apply (C135_computed true None [-1]%Z 2 1 [] (dm_new true None [-1]%Z) ex_batch "obs"); [exact D|exact I|constructor|exact F|reflexivity|reflexivity|].
  intros x Lx. eexists. split; [reflexivity|]. rewrite map_length. split; auto.
  apply Forall_forall. intros r Hr. apply in_map_iff in Hr. destruct Hr as (q & <- & _). reflexivity.
Qed.
