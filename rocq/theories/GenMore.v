(** * GenMore: the memory proxy with an encoder *)
From Coq Require Import Reals Lra Lia.
From Verif Require Import Py PyLemmas NumModel AmpModel MemModel ProxyModel PolModel PolSpec GenModel GenSpec GenProofs ProxyExamples.
Open Scope string_scope.
Open Scope list_scope.
Open Scope Z_scope.
Set Implicit Arguments.
Unset Strict Implicit.

Section Encoded.
Context {S : Type} `{Scalar S}.
Variables (encoder : list S -> list S -> res (list S)) (input_key action_key : string).

Lemma encode_one observations responses responses' : forall acc,
  Forall2 (fun a b => fst a = fst b /\ goes_in encoder input_key action_key observations (fst a) (snd a) (snd b)) responses responses' ->
  Forall (fun ar => dget (r_list (snd ar)) action_key <> Some [] -> dkeys (r_list (snd ar)) = [action_key] /\ r_scalar (snd ar) = []) responses ->
  NoDup (dkeys acc ++ dkeys responses) ->
  encode_responses encoder input_key action_key observations responses acc = Ok (acc ++ responses').
Proof.
  revert responses'. induction responses as [|(aid, r) rest IH]; intros responses' acc F2 ON ND.
  - inversion F2; subst. cbn. rewrite app_nil_r. auto.
  - inversion F2 as [|? (aid', r') ? rest' (EA & GI) F2']; subst. cbn [fst snd] in EA, GI. subst aid'.
    inversion ON as [|? ? O1 ON']; subst. cbn [fst snd] in O1.
    assert (FR : ~ In aid (dkeys acc)).
    { cbn in ND. apply NoDup_remove_2 in ND. intros I. apply ND. apply in_or_app. auto. }
    assert (ND' : NoDup (dkeys (acc ++ [(aid, r')]) ++ dkeys rest)).
    { rewrite dkeys_app. rewrite <- app_assoc. exact ND. }
    cbn [encode_responses]. destruct GI as [(E & ->) | (actions & o & x & latent & E & NE & EO & EX & EE & ->)].
    + rewrite E. cbn [rbind]. rewrite dset_fresh by auto. rewrite (IH rest' _ F2' ON' ND'), <- app_assoc. auto.
    + rewrite E. destruct actions as [|a0 ar] eqn:EAC; [congruence|]. rewrite EO, EX, EE. cbn [rmap rbind].
      rewrite dset_fresh by auto.
      assert (RR : replaced action_key latent r = mkResp [(action_key, latent)] []).
      { destruct O1 as (K1 & K2); [rewrite E; congruence|]. unfold replaced. rewrite K2. f_equal.
        destruct r as [rl rs]. cbn in *. destruct rl as [|(k, v) [|]]; try discriminate. cbn in K1. injection K1 as ->.
        cbn. rewrite String.eqb_refl. auto. }
      rewrite RR in *. rewrite (IH rest' _ F2' ON' ND'), <- app_assoc. auto.
Qed.
Lemma encoded_ok pc p observations responses responses' draws :
  NoDup (dkeys responses) ->
  Forall2 (fun a b => fst a = fst b /\ goes_in encoder input_key action_key observations (fst a) (snd a) (snd b)) responses responses' ->
  Forall (fun ar => dget (r_list (snd ar)) action_key <> Some [] -> dkeys (r_list (snd ar)) = [action_key] /\ r_scalar (snd ar) = []) responses ->
  encoded_add encoder input_key action_key pc p observations responses draws = proxy_add pc p observations responses' draws.
Proof.
  intros ND F2 ON. unfold encoded_add. rewrite (encode_one (acc := []) F2 ON); auto.
Qed.
(** A response that cannot be encoded: nothing is added. *)
Lemma encode_bad observations responses aid r : In (aid, r) responses ->
  dget (r_list r) action_key = None \/
  (exists a, dget (r_list r) action_key = Some a /\ a <> [] /\
     (dget observations aid = None \/ exists o, dget observations aid = Some o /\ dget (o_data o) input_key = None)) ->
  (forall a x, exists z, encoder a x = Ok z) ->
  forall acc, encode_responses encoder input_key action_key observations responses acc = Err KeyError.
Proof.
  intros I B T. induction responses as [|(aid', r') rest IH]; intros acc; [inversion I|].
  cbn [encode_responses]. destruct I as [E|I].
  - injection E as -> ->. destruct B as [-> | (a & -> & NE & B)]; auto. destruct a; [congruence|].
    destruct B as [-> | (o & -> & ->)]; auto.
  - assert (G : forall q, rbind q (fun r0 => encode_responses encoder input_key action_key observations rest (dset acc aid' r0)) = Err KeyError \/
       exists e, q = Err e) by (intros [q|e]; cbn; eauto).
    destruct (dget (r_list r') action_key) as [[|a0 ar]|]; cbn [rbind]; auto.
    destruct (dget observations aid') as [o|]; cbn [rbind]; auto. destruct (dget (o_data o) input_key) as [x|]; cbn [rbind]; auto.
    destruct (T (a0 :: ar) x) as (z & ->). cbn [rmap rbind]. auto.
Qed.
Lemma encoded_bad pc p observations responses draws aid r : In (aid, r) responses ->
  dget (r_list r) action_key = None \/
  (exists a, dget (r_list r) action_key = Some a /\ a <> [] /\
     (dget observations aid = None \/ exists o, dget observations aid = Some o /\ dget (o_data o) input_key = None)) ->
  (forall a x, exists z, encoder a x = Ok z) ->
  encoded_add encoder input_key action_key pc p observations responses draws = (p, Err KeyError).
Proof. intros I B T. unfold encoded_add. rewrite (encode_bad I B T). auto. Qed.
(** What is lost. *)
Lemma encoded_drops pc p observations responses draws aid r rest o x a latent :
  responses = (aid, r) :: rest -> rest = [] -> dget (r_list r) action_key = Some a -> a <> [] ->
  dget observations aid = Some o -> dget (o_data o) input_key = Some x -> encoder a x = Ok latent ->
  encoded_add encoder input_key action_key pc p observations responses draws =
  proxy_add pc p observations [(aid, mkResp [(action_key, latent)] [])] draws.
Proof.
  intros -> -> E NE EO EX EE. unfold encoded_add. cbn [encode_responses]. rewrite E. destruct a; [congruence|]. rewrite EO, EX, EE. auto.
Qed.
End Encoded.

Definition gen_response : resp Z := mkResp [("actions", [5])] [("value", [9])].
Lemma gen_lost :
  let enc := fun (_ _ : list Z) => Ok [7] in
  let observations := [(0, ob INITIAL 3)] in
  let p0 := mkPx [] [] px_table0 in
  px_store (fst (encoded_add enc "obs" "actions" px_pc p0 observations [(0, gen_response)] [])) =
    [(0, [("obs", [[3]]); ("actions", [[7]])])] /\
  px_store (fst (proxy_add px_pc p0 observations [(0, replaced "actions" [7] gen_response)] [])) =
    [(0, [("obs", [[3]]); ("actions", [[7]]); ("value", [[9]])])].
Proof. split; vm_compute; reflexivity. Qed.
