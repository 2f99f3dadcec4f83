(** * GenModel: emote/algorithms/genrl (variational autoencoders, latent action spaces)

    Simplifications: floating point numbers are real numbers; a batch is the list of its
    rows; encoders, decoders and conditioning functions are arbitrary functions; moving
    tensors between devices and types does not change them; the wrapped policy is in the
    same mode (training or evaluation) as its wrapper. *)
From Coq Require Import Reals.
From Verif Require Import Py NumModel AmpModel MemModel ProxyModel PolModel.
Open Scope list_scope.
Open Scope R_scope.

(** ** emote/algorithms/genrl/vae.py *)
(** [x_hat.view(x.size())] for a batch [x] of rows of one width; emote/algorithms/genrl/vae.py:36 *)
Definition view_as (x_hat x : matrix) : res matrix :=
  let flat := concat x_hat in
  if Nat.eqb (List.length flat) (Nat.mul (List.length x) (width x))
  then Ok (chunks (List.length x) (width x) flat) else Err RuntimeError.
(** emote/algorithms/genrl/vae.py:30-37 VariationalAutoencoder.forward; [eps] is the normal
    noise of line 33, of the shape of [log_std].  Results: x_hat, mu, log_std, latent.
    Simplification: mu and log_std of different shapes are refused. *)
Definition vae_forward (encoder : matrix -> option matrix -> res (matrix * matrix))
    (decoder : matrix -> option matrix -> res matrix) (eps x : matrix) (condition : option matrix)
    : res (matrix * matrix * matrix * matrix) :=
  rbind (encoder x condition) (fun ml =>
  let '(mu, log_std) := ml in
  let var := map (map exp) log_std in
  if same_shape mu log_std
  then
    let latent := zip_rows Rplus (zip_rows Rmult eps var) mu in
    rbind (decoder latent condition) (fun x_hat =>
    rbind (view_as x_hat x) (fun x_hat => Ok (x_hat, mu, log_std, latent)))
  else Err RuntimeError).
(** emote/algorithms/genrl/vae.py:39-46 VariationalAutoencoder.loss: the loss and the entries
    restore_loss and kl_loss of info. *)
Definition vae_loss (beta : R) (latent_size : nat) (x x_hat mu log_std : matrix) : res (R * R * R) :=
  rbind (mse x_hat x) (fun restore_loss =>
  if same_shape mu log_std
  then
    let terms := zip_rows (fun m s => - s + m ^ 2 * (1 / 2) + exp s) mu log_std in
    let kld := map (fun row => rsum row - INR latent_size) terms in
    let kl_loss := np_mean kld in
    Ok (restore_loss + beta * kl_loss, restore_loss, kl_loss)
  else Err RuntimeError).

(** ** emote/algorithms/genrl/wrappers.py *)
(** emote/algorithms/genrl/wrappers.py:29-49 DecoderWrapper.forward *)
Definition decoder_forward (decoder : matrix -> option matrix -> res matrix) (condition_fn : matrix -> matrix)
    (multiplier : R) (latent : matrix) (observation : option matrix) : res matrix :=
  let latent := map (map (fun z => z * multiplier)) latent in
  let condition := option_map condition_fn observation in
  decoder latent condition.
(** emote/algorithms/genrl/wrappers.py:77-94 EncoderWrapper.forward *)
Definition encoder_forward (encoder : matrix -> option matrix -> res (matrix * matrix)) (condition_fn : matrix -> matrix)
    (action : matrix) (observation : option matrix) : res matrix :=
  let condition := option_map condition_fn observation in
  rmap fst (encoder action condition).
(** emote/algorithms/genrl/wrappers.py:115-127 PolicyWrapper.forward, on a policy network
    with its noise as in PolModel; the log-probabilities come in training mode only. *)
Definition wrapper_forward (decoder : matrix -> option matrix -> res matrix) (condition_fn : matrix -> matrix)
    (multiplier : R) (latent_size : nat) (training : bool) (p : policy) (obs noise : matrix) (epsilon : option matrix)
    : res (matrix * option matrix) :=
  let epsilon := option_map (map (firstn latent_size)) epsilon in
  rbind (policy_forward training p obs noise epsilon) (fun sl =>
  let '(sample, log_prob) := sl in
  rbind (decoder_forward decoder condition_fn multiplier sample (Some obs)) (fun action =>
  Ok (action, log_prob))).
(** Parameters by name; a tensor is the list of its entries, its length stands for its
    shape.  nn.Module.load_state_dict on a dictionary with exactly the module's names: entries of
    the right shape are copied, and if there are others an error follows.
    emote/algorithms/genrl/wrappers.py:56, 101 *)
Definition module_load (own new : dict string (list R)) : dict string (list R) * res unit :=
  let fits (k : string) (v : list R) := match dget own k with Some w => Nat.eqb (List.length w) (List.length v) | None => false end in
  (map (fun kw => (fst kw, match dget new (fst kw) with
                           | Some v => if fits (fst kw) v then v else snd kw
                           | None => snd kw end)) own,
   if forallb (fun kv => fits (fst kv) (snd kv)) new then Ok tt else Err RuntimeError).
(** emote/algorithms/genrl/wrappers.py:51-56, 96-101 load_state_dict *)
Definition wrapper_load (own state_dict : dict string (list R)) : dict string (list R) * res unit :=
  let new_state_dict := filter (fun kv => dmem own (fst kv)) state_dict in
  match new_state_dict with
  | [] => (own, Err AssertionError)
  | _ => module_load own (dupdate own new_state_dict)
  end.

(** ** emote/algorithms/genrl/proxies.py *)
Section Encoded.
Context {S : Type} `{Scalar S}.
(** emote/algorithms/genrl/proxies.py:32-43: the responses with latent actions.  Actions
    and observations are rows, as in ProxyModel. *)
Fixpoint encode_responses (encoder : list S -> list S -> res (list S)) (input_key action_key : string)
    (observations : dict Z (@obs S)) (responses : dict Z (@resp S)) (acc : dict Z (@resp S)) : res (dict Z (@resp S)) :=
  match responses with
  | [] => Ok acc
  | (agent_id, response) :: rest =>
      rbind (match dget (r_list response) action_key with
             | None => Err KeyError
             | Some [] => Ok response
             | Some actions =>
                 match dget observations agent_id with
                 | None => Err KeyError
                 | Some o =>
                     match dget (o_data o) input_key with
                     | None => Err KeyError
                     | Some x => rmap (fun latent => mkResp [(action_key, latent)] []) (encoder actions x)
                     end
                 end
             end)
        (fun r => encode_responses encoder input_key action_key observations rest (dset acc agent_id r))
  end.
(** emote/algorithms/genrl/proxies.py:27-44 MemoryProxyWithEncoder.add *)
Definition encoded_add (encoder : list S -> list S -> res (list S)) (input_key action_key : string)
    (pc : pconf) (p : proxy S) (observations : dict Z (@obs S)) (responses : dict Z (@resp S)) (draws : list (list draw))
    : proxy S * res unit :=
  match encode_responses encoder input_key action_key observations responses [] with
  | Err e => (p, Err e)
  | Ok updated_responses => proxy_add pc p observations updated_responses draws
  end.
End Encoded.
