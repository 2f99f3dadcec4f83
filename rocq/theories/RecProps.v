(** * RecProps: C143.  Read RecSpec.v first. *)
From Coq Require Import Reals Lra Lia.
From Verif Require Import Py MemModel MemSpec ProxyModel ProxySpec ProxyExamples MemExamples NumModel NumSpec E2ESpec E2EExamples
  PolSpec CriticSpec ActorSpec StyleSpec RecModel RecSpec RecProofs.
Open Scope string_scope.
Open Scope list_scope.
Open Scope R_scope.

(** Whatever agents did, and whichever windows the memory draws: the loss of an autoencoder
    of actions is the average, over the steps drawn, of the error in reconstructing what an
    agent did and the penalty on its latent, both under what that agent saw then. *)
Theorem C143_reconstructs : forall (S : Type) (HS : Scalar S) (num : S -> R)
    (pc : pconf) (cols : list (MemModel.column S)) (lenkey : string) (maxlen : Z) (smp : sampler) (ej : ejector)
    (sch : schema) (h : list (pop S)) (p : proxy S) (count L : nat) (draws : list draw) (out : dict string (array S))
    (obs action : MemModel.column S) (n l : nat) (beta : R)
    (E : list R -> option (list R) -> list R * list R) (D : list R -> option (list R) -> list R) (C : option (list R -> list R))
    (encoder : matrix -> option matrix -> res (matrix * matrix)) (decoder : matrix -> option matrix -> res matrix)
    (conditioning : matrix -> option matrix) (key : string) (eps : matrix) (observation : dict string matrix),
  config_ok cols lenkey -> fresh_sampler smp -> fresh_ejector ej ->
  schema_ok (pc_terminal pc) sch -> layout cols lenkey (pc_terminal pc) sch ->
  batches_ok h -> agents_ok pc cols lenkey sch L h -> (1 <= L)%nat -> (1 <= count)%nat ->
  prun pc (px_new (t_create cols lenkey maxlen smp ej)) h = (p, Ok tt) ->
  snd (t_sample (px_table p) count L draws) = Ok out ->
  In obs cols -> is_base obs -> In (c_name obs) (sc_obs sch) ->
  In action cols -> is_base action -> In (c_name action) (sc_resp sch) -> does action n h -> (1 <= n)%nat ->
  encodes E encoder -> row_network D decoder -> conditions C conditioning ->
  (forall a c, List.length (fst (E a c)) = l /\ List.length (snd (E a c)) = l) -> (forall z c, List.length (D z c) = n) ->
  shape (count * L) l eps -> dget observation key = Some (shown num out (c_name obs)) ->
  exists from, origin h count L from /\
    vae_callback_loss beta l encoder decoder conditioning key eps observation (shown num out (c_name action)) =
    Ok (average count L (fun r j t =>
      let a := did num action (fst (from j)) (snd (from j) + t) in
      let c := given C (viewed num obs (fst (from j)) (snd (from j) + t)) in
      let (mean, log_std) := E a c in
      misfit n a (D (latent_of l mean log_std (nth r eps [])) c) + beta * penalty l mean log_std)).
Proof. exact @autoencoder_ok. Qed.
Print Assumptions C143_reconstructs.

(** The memory and agents of C132's example (which meet the other hypotheses): two steps of
    agent 1, who saw 10 and 11 and did 60 and 61.  The encoder adds the observation, which
    the decoder does not take away again. *)
Definition rec_enc (a : list R) (c : option (list R)) : list R * list R :=
  ([nth 0 a 0 + match c with Some o => nth 0 o 0 | None => 0 end], [0]).
Definition rec_dec (z : list R) (c : option (list R)) : list R := [nth 0 z 0].
Definition rec_rows {B} (N : list R -> option (list R) -> B) (x : matrix) (c : option matrix) : res (list B) :=
  match c with None => Ok (map (fun a => N a None) x) | Some c => Ok (map (fun ac => N (fst ac) (Some (snd ac))) (combine x c)) end.
Example C143_case :
  does (mkCol "actions" 1 idz KBase) 1 px_h
  /\ encodes rec_enc (fun x c => rmap (@split _ _) (rec_rows rec_enc x c)) /\ row_network rec_dec (rec_rows rec_dec)
  /\ conditions (Some (fun o => o)) (fun m => Some m)
  /\ exists p out, prun px_pc (px_new ee_table) px_h = (p, Ok tt)
     /\ snd (t_sample (px_table p) 1 2 [(1, 0)]%Z) = Ok out
     /\ vae_callback_loss 2 1 (fun x c => rmap (@split _ _) (rec_rows rec_enc x c)) (rec_rows rec_dec) (fun m => Some m) "obs"
          [[1]; [0]] [("obs", shown IZR out "obs")] (shown IZR out "actions") = Ok ((11 ^ 2 + 11 ^ 2) / 2 + 2 * ((70 ^ 2 / 2 + 72 ^ 2 / 2) / 2)).
Proof.
  split; [|split; [|split; [|split]]].
  - intros a ms m v I Im Ev. rewrite px_streams in I.
    destruct (a =? 0)%Z; [|destruct (a =? 1)%Z; [|destruct (a =? 2)%Z; [|destruct (a =? 7)%Z]]]; vm_compute in I; try tauto;
      (destruct I as [<-|[]]; cbn in Im; decompose [or] Im; try tauto; subst; vm_compute in Ev; try discriminate;
       injection Ev as <-; reflexivity).
  - exists (rec_rows rec_enc). split; [|reflexivity]. split; reflexivity.
  - split; reflexivity.
  - intros m. cbn. rewrite map_id. reflexivity.
  - eexists. eexists. split; [vm_compute; reflexivity|]. split; [vm_compute; reflexivity|]. cbn. f_equal.
    unfold np_mean. cbn. rewrite exp_0. lra.
Qed.
