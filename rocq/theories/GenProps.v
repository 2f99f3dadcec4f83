(** * GenProps: C97 to C99 *)
From Coq Require Import Reals Lra Lia.
From Verif Require Import Py NumModel AmpModel MemModel ProxyModel PolModel PolSpec GenModel GenSpec GenProofs GenMore ProxyExamples.
Open Scope string_scope.
Open Scope list_scope.
Open Scope R_scope.

(** C97.  Whatever encoder and decoder: the latent is mean plus standard deviation times
    noise, and the reconstruction is the decoder's output at that latent. *)
Theorem C97_sample : forall encoder decoder b n l eps x cond mu log_std latent x_hat, (0 < b)%nat ->
  encoder x cond = Ok (mu, log_std) -> shape b n x -> shape b l mu -> shape b l log_std -> shape b l eps ->
  shape b l latent -> (forall i j, (i < b)%nat -> (j < l)%nat -> at_ latent i j = at_ mu i j + exp (at_ log_std i j) * at_ eps i j) ->
  decoder latent cond = Ok x_hat -> shape b n x_hat ->
  vae_forward encoder decoder eps x cond = Ok (x_hat, mu, log_std, latent).
Proof. exact vae_sample. Qed.
Print Assumptions C97_sample.

(** The loss is the mean squared reconstruction error plus beta times a penalty; both
    are never negative; the first is zero exactly for a perfect reconstruction, the second
    exactly if every latent is standard normal. *)
Theorem C97_loss : forall beta b n l x x_hat mu log_std, (0 < b)%nat -> (0 < n)%nat ->
  shape b n x -> shape b n x_hat -> shape b l mu -> shape b l log_std ->
  exists restore, exists kl, vae_loss beta l x x_hat mu log_std = Ok (restore + beta * kl, restore, kl) /\
    restore = total b n (fun i j => (at_ x_hat i j - at_ x i j) ^ 2) / (INR b * INR n) /\
    kl = total b l (fun i j => at_ mu i j ^ 2 / 2 + (exp (at_ log_std i j) - 1 - at_ log_std i j)) / INR b /\
    0 <= restore /\ (restore = 0 <-> x_hat = x) /\
    0 <= kl /\ (kl = 0 <-> forall i j, (i < b)%nat -> (j < l)%nat -> at_ mu i j = 0 /\ at_ log_std i j = 0).
Proof. exact vae_loss_ok. Qed.
Print Assumptions C97_loss.

(** [divergence] is the divergence of the distribution of the latents from the standard
    normal one. *)
Theorem C97_divergence : forall E m s, standard_expectation E -> 0 < s ->
  E (fun e => ln (normal_density m s (m + s * e)) - ln (normal_density 0 1 (m + s * e))) = divergence m s.
Proof. exact divergence_ok. Qed.
Print Assumptions C97_divergence.

(** The penalty is not that divergence: it is too small, by half the square of the
    standard deviation minus one, in every latent entry; it is right only where every
    standard deviation is one. *)
Theorem C97_divergence_refuted : forall beta b n l x x_hat mu log_std restore kl loss, (0 < b)%nat -> (0 < n)%nat ->
  shape b n x -> shape b n x_hat -> shape b l mu -> shape b l log_std ->
  vae_loss beta l x x_hat mu log_std = Ok (loss, restore, kl) ->
  let true_kl := total b l (fun i j => divergence (at_ mu i j) (exp (at_ log_std i j))) / INR b in
  true_kl - kl = total b l (fun i j => (exp (at_ log_std i j) - 1) ^ 2 / 2) / INR b /\
  kl <= true_kl /\ (kl = true_kl <-> forall i j, (i < b)%nat -> (j < l)%nat -> at_ log_std i j = 0).
Proof. exact kl_short. Qed.
Print Assumptions C97_divergence_refuted.

Example c97_expectation : standard_expectation (fun f => (f 1 + f (-1)) / 2).
Proof. exact two_points. Qed.
Example c97_case : vae_loss 1 1 [[1]] [[2]] [[1]] [[0]] = Ok (1 + 1 * (1 / 2), 1, 1 / 2).
Proof. exact vae_case. Qed.

(** C98.  The memory behind the encoder holds what the plain memory proxy would hold for
    the responses with latent actions.  Missing because false: responses that carry
    anything besides their actions. *)
Theorem C98_memory_holds_latents_partial :
  forall S (SC : Scalar S) (encoder : list S -> list S -> res (list S)) input_key action_key pc p observations responses responses' draws,
  NoDup (dkeys responses) ->
  Forall2 (fun a b => fst a = fst b /\ goes_in encoder input_key action_key observations (fst a) (snd a) (snd b)) responses responses' ->
  Forall (fun ar => dget (r_list (snd ar)) action_key <> Some [] -> dkeys (r_list (snd ar)) = [action_key] /\ r_scalar (snd ar) = []) responses ->
  encoded_add encoder input_key action_key pc p observations responses draws = proxy_add pc p observations responses' draws.
Proof. exact @encoded_ok. Qed.
Print Assumptions C98_memory_holds_latents_partial.

(** Anything else in a response is dropped silently. *)
Theorem C98_other_data_lost_refuted :
  let enc := fun (_ _ : list Z) => Ok [7%Z] in
  let observations := [(0%Z, ob INITIAL 3)] in
  let p0 := mkPx [] [] px_table0 in
  px_store (fst (encoded_add enc "obs" "actions" px_pc p0 observations [(0%Z, gen_response)] [])) =
    [(0%Z, [("obs", [[3%Z]]); ("actions", [[7%Z]])])] /\
  px_store (fst (proxy_add px_pc p0 observations [(0%Z, replaced "actions" [7%Z] gen_response)] [])) =
    [(0%Z, [("obs", [[3%Z]]); ("actions", [[7%Z]]); ("value", [[9%Z]])])].
Proof. exact gen_lost. Qed.
Print Assumptions C98_other_data_lost_refuted.

(** A response without actions, or without the observation to encode them with, is
    refused before anything is added. *)
Theorem C98_refuses :
  forall S (SC : Scalar S) (encoder : list S -> list S -> res (list S)) input_key action_key pc p observations responses draws aid r,
  In (aid, r) responses ->
  dget (r_list r) action_key = None \/
  (exists a, dget (r_list r) action_key = Some a /\ a <> [] /\
     (dget observations aid = None \/ exists o, dget observations aid = Some o /\ dget (o_data o) input_key = None)) ->
  (forall a x, exists z, encoder a x = Ok z) ->
  encoded_add encoder input_key action_key pc p observations responses draws = (p, Err KeyError).
Proof. exact @encoded_bad. Qed.
Print Assumptions C98_refuses.

Example c98_case : exists responses',
  Forall2 (fun a b => fst a = fst b /\ goes_in (fun (_ _ : list Z) => Ok [7%Z]) "obs" "actions" [(0%Z, ob INITIAL 3); (1%Z, ob RUNNING 4)] (fst a) (snd a) (snd b))
    [(0%Z, ac 5); (1%Z, mkResp [("actions", [])] [])] responses' /\ List.length responses' = 2%nat.
Proof.
  exists [(0%Z, mkResp [("actions", [7%Z])] []); (1%Z, mkResp [("actions", [])] [])]. split; [|reflexivity].
  constructor; [split; [reflexivity|]; right; exists [5%Z], (ob INITIAL 3), [3%Z], [7%Z]; repeat split; discriminate|].
  constructor; [split; [reflexivity|]; left; split; reflexivity|]. constructor.
Qed.

(** C99.  Acting: the policy's latent action, times the multiplier, is decoded under the
    observation; in evaluation mode noise for the original action space is cut to the
    latent size. *)
Theorem C99_acts_through_decoder :
  forall od hidden params mean log_std p obs noise b dec cf mult l,
  build_policy od l hidden params mean log_std = Ok p -> shape b od obs -> shape b l noise ->
  exists sample, exists logp, policy_forward true p obs noise None = Ok (sample, Some logp) /\
    forall action, dec (scaled mult sample) (Some (cf obs)) = Ok action ->
      (forall eps, wrapper_forward dec cf mult l true p obs noise eps = Ok (action, Some logp)) /\
      (forall any eps, List.map (firstn l) eps = noise -> wrapper_forward dec cf mult l false p obs any (Some eps) = Ok (action, None)).
Proof. exact wrapper_ok. Qed.
Print Assumptions C99_acts_through_decoder.

(** Remembering: if the encoder inverts the decoder, the latent stored for an action is
    the policy's latent action times the multiplier; *)
Theorem C99_stored_latent_partial : forall enc dec cf mult sample obs action spread,
  (forall z c a, dec z c = Ok a -> enc a c = Ok (z, spread)) ->
  decoder_forward dec cf mult sample (Some obs) = Ok action ->
  encoder_forward enc cf action (Some obs) = Ok (scaled mult sample).
Proof. exact stored_latent. Qed.
Print Assumptions C99_stored_latent_partial.
(** so it is the latent action the policy chose only if the multiplier is one or the
    action zero; *)
Theorem C99_scale : forall c m, scaled c m = m <-> c = 1 \/ Forall (Forall (fun z => z = 0)) m.
Proof. exact scaled_same. Qed.
Print Assumptions C99_scale.
(** with the default multiplier 3, even an encoder that inverts the decoder perfectly
    stores latent actions that the policy, whose actions lie between -1 and 1, can never
    choose. *)
Theorem C99_stored_latent_refuted :
  (forall z c a, copy_dec z c = Ok a -> copy_enc a c = Ok (z, [])) /\
  decoder_forward copy_dec (fun o => o) 3 [[1 / 2]] (Some [[0]]) = Ok [[1 / 2 * 3]] /\
  encoder_forward copy_enc (fun o => o) [[1 / 2 * 3]] (Some [[0]]) = Ok [[1 / 2 * 3]] /\
  [[1 / 2 * 3]] <> [[1 / 2]] /\ ~ (-1 < 1 / 2 * 3 < 1).
Proof. exact gen_scale. Qed.
Print Assumptions C99_stored_latent_refuted.

(** Loading an autoencoder's checkpoint into one of its halves: the parameters that occur
    in it are taken over, all others stay; *)
Theorem C99_load : forall own state : dict string (list R), NoDup (dkeys own) -> NoDup (dkeys state) -> known own state ->
  (forall k w v, dget own k = Some w -> dget state k = Some v -> List.length w = List.length v) ->
  exists own', wrapper_load own state = (own', Ok tt) /\ dkeys own' = dkeys own /\
    forall k, In k (dkeys own) -> dget own' k = match dget state k with Some v => Some v | None => dget own k end.
Proof. exact load_ok. Qed.
Print Assumptions C99_load.
(** a checkpoint of something else is refused and changes nothing. *)
Theorem C99_load_refuses : forall own state : dict string (list R), ~ known own state -> wrapper_load own state = (own, Err AssertionError).
Proof. exact load_nothing. Qed.
Print Assumptions C99_load_refuses.
(** Finding: a checkpoint with parameters of another shape is refused only after the
    others have been overwritten. *)
Theorem C99_load_not_atomic_finding :
  wrapper_load [("a", [1]); ("b", [2])] [("a", [5]); ("b", [6; 7])] = ([("a", [5]); ("b", [2])], Err RuntimeError).
Proof. exact load_half. Qed.
Print Assumptions C99_load_not_atomic_finding.

Example c99_case : wrapper_load [("encoder.w", [1; 2])] [("decoder.w", [5]); ("encoder.w", [3; 4])] = ([("encoder.w", [3; 4])], Ok tt).
Proof. reflexivity. Qed.
