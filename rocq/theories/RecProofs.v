(** * RecProofs: from agents to the autoencoder's loss (C143) *)
From Coq Require Import Reals Lra Lia.
From Verif Require Import Py PyLemmas MemModel MemSpec ProxyModel ProxySpec ProxyE2E NumModel NumSpec NumTarget E2ESpec E2EProofs
  PolSpec CriticSpec CriticProofs AmpModel AmpSpec ActorSpec ActorProofs StyleSpec StyleProofs GenModel GenSpec GenProofs RecModel RecSpec.
Set Implicit Arguments.
Unset Strict Implicit.
Open Scope list_scope.
Open Scope R_scope.

Lemma split_map {A B C} (f : A -> B * C) l : split (map f l) = (map (fun x => fst (f x)) l, map (fun x => snd (f x)) l).
Proof. induction l as [|x t IH]; [reflexivity|]. cbn [map split]. rewrite IH. destruct (f x). reflexivity. Qed.
Lemma shape_rows (f : nat -> list R) b n : (forall k, (k < b)%nat -> List.length (f k) = n) -> shape b n (map f (seq 0 b)).
Proof.
  intros H. split; [rewrite map_length, seq_length; auto|]. apply Forall_forall. intros r I. apply in_map_iff in I as (k & <- & Ik).
  apply in_seq in Ik. apply H. lia.
Qed.
Lemma at_rows (f : nat -> list R) b i j : (i < b)%nat -> at_ (map f (seq 0 b)) i j = nth j (f i) 0.
Proof. intros H. unfold at_. rewrite nth_map_seq by auto. reflexivity. Qed.
Lemma rsum_lin (f g : nat -> R) c l : rsum (map (fun i => f i + c * g i) l) = rsum (map f l) + c * rsum (map g l).
Proof. induction l as [|x t IH]; cbn; [lra|]. unfold rsum in *. rewrite IH. lra. Qed.
Lemma rsum_scale (f : nat -> R) c l : rsum (map (fun i => f i / c) l) = rsum (map f l) / c.
Proof. induction l as [|x t IH]; cbn; [lra|]. unfold rsum in *. rewrite IH. lra. Qed.

(** A batch given by its rows. *)
Lemma callback_rows beta l n b E D C encoder decoder conditioning key (eps : matrix) (observation : dict string matrix)
    (A O : nat -> list R) : (0 < b)%nat -> (0 < n)%nat ->
  encodes E encoder -> row_network D decoder -> conditions C conditioning ->
  (forall a c, List.length (fst (E a c)) = l /\ List.length (snd (E a c)) = l) -> (forall z c, List.length (D z c) = n) ->
  shape b l eps -> (forall k, (k < b)%nat -> List.length (A k) = n) ->
  dget observation key = Some (map O (seq 0 b)) ->
  vae_callback_loss beta l encoder decoder conditioning key eps observation (map A (seq 0 b)) =
  Ok (rsum (map (fun k =>
        let c := given C (O k) in let code := E (A k) c in
        misfit n (A k) (D (latent_of l (fst code) (snd code) (nth k eps [])) c) + beta * penalty l (fst code) (snd code)) (seq 0 b)) / INR b).
Proof.
  intros B N (net & (En0 & En1) & Ee) (D0 & D1) Hc LE LD SE LA Eo.
  set (cd := fun k => given C (O k)). set (M := fun k => fst (E (A k) (cd k))). set (Ls := fun k => snd (E (A k) (cd k))).
  set (Zt := fun k => latent_of l (M k) (Ls k) (nth k eps [])). set (X := fun k => D (Zt k) (cd k)).
  assert (Lmap : forall f : nat -> list R, List.length (map f (seq 0 b)) = b) by (intros; rewrite map_length, seq_length; auto).
  assert (E1 : encoder (map A (seq 0 b)) (conditioning (map O (seq 0 b))) = Ok (map M (seq 0 b), map Ls (seq 0 b))).
  { rewrite Ee, Hc. unfold M, Ls, cd. destruct C as [f|]; cbn [option_map given].
    - rewrite En1 by (rewrite map_map, !Lmap; auto). cbn [rmap rbind]. rewrite map_map, combine_maps, map_map, split_map. reflexivity.
    - rewrite En0. cbn [rmap rbind]. rewrite map_map, split_map. reflexivity. }
  assert (E2 : decoder (map Zt (seq 0 b)) (conditioning (map O (seq 0 b))) = Ok (map X (seq 0 b))).
  { rewrite Hc. unfold X, cd. destruct C as [f|]; cbn [option_map given].
    - rewrite D1 by (rewrite map_map, !Lmap; auto). rewrite map_map, combine_maps, map_map. reflexivity.
    - rewrite D0, map_map. reflexivity. }
  assert (SA : shape b n (map A (seq 0 b))) by (apply shape_rows; auto).
  assert (SM : shape b l (map M (seq 0 b))) by (apply shape_rows; intros; apply LE).
  assert (SL : shape b l (map Ls (seq 0 b))) by (apply shape_rows; intros; apply LE).
  assert (SZ : shape b l (map Zt (seq 0 b))) by (apply shape_rows; intros; unfold Zt, latent_of; rewrite map_length, seq_length; auto).
  assert (SX : shape b n (map X (seq 0 b))) by (apply shape_rows; intros; apply LD).
  unfold vae_callback_loss, lookup. rewrite Eo. cbn [rbind].
  rewrite (@vae_sample encoder decoder b n l eps _ _ _ _ (map Zt (seq 0 b)) (map X (seq 0 b)) B E1 SA SM SL SE SZ); auto.
  - cbn [rbind]. destruct (@vae_loss_ok beta b n l _ _ _ _ B N SA SX SM SL) as (restore & kl & -> & -> & -> & _).
    cbn [rmap rbind fst]. f_equal.
    assert (Pb : 0 < INR b) by (apply lt_0_INR; lia). assert (Pn : 0 < INR n) by (apply lt_0_INR; lia).
    assert (T1 : total b n (fun i j => (at_ (map X (seq 0 b)) i j - at_ (map A (seq 0 b)) i j) ^ 2) =
                 INR n * rsum (map (fun k => misfit n (A k) (X k)) (seq 0 b))).
    { unfold misfit. rewrite rsum_scale. unfold total. field_simplify; [|lra]. f_equal. apply map_ext_in. intros k Ik. apply in_seq in Ik.
      f_equal. apply map_ext. intros i. rewrite !at_rows by lia. reflexivity. }
    assert (T2 : total b l (fun i j => at_ (map M (seq 0 b)) i j ^ 2 / 2 + (exp (at_ (map Ls (seq 0 b)) i j) - 1 - at_ (map Ls (seq 0 b)) i j)) =
                 rsum (map (fun k => penalty l (M k) (Ls k)) (seq 0 b))).
    { unfold total, penalty. f_equal. apply map_ext_in. intros k Ik. apply in_seq in Ik.
      f_equal. apply map_ext. intros i. rewrite !at_rows by lia. reflexivity. }
    rewrite T1, T2. cbv zeta. rewrite (rsum_lin (fun k => misfit n (A k) (X k)) (fun k => penalty l (M k) (Ls k)) beta). field. lra.
  - intros i j Hi Hj. rewrite !at_rows by auto. unfold Zt at 1, latent_of. rewrite nth_map_seq by auto. reflexivity.
Qed.

Section T.
Context {S : Type} {HS : Scalar S}.
Variable num : S -> R.

Lemma autoencoder_ok pc cols lk maxlen smp ej sch (h : list (pop S)) p count L draws out obs action n l
    beta E D C encoder decoder conditioning key eps (observation : dict string matrix) :
  config_ok cols lk -> fresh_sampler smp -> fresh_ejector ej ->
  schema_ok (pc_terminal pc) sch -> layout cols lk (pc_terminal pc) sch ->
  batches_ok h -> agents_ok pc cols lk sch L h -> (1 <= L)%nat -> (1 <= count)%nat ->
  prun pc (px_new (t_create cols lk maxlen smp ej)) h = (p, Ok tt) ->
  snd (t_sample (px_table p) count L draws) = Ok out ->
  In obs cols -> is_base obs -> In (c_name obs) (sc_obs sch) ->
  In action cols -> is_base action -> In (c_name action) (sc_resp sch) -> does action n h -> (1 <= n)%nat ->
  encodes E encoder -> row_network D decoder -> conditions C conditioning ->
  (forall a c, List.length (fst (E a c)) = l /\ List.length (snd (E a c)) = l) -> (forall z c, List.length (D z c) = n) ->
  shape (count * L) l eps -> dget observation key = Some (shown num out (c_name obs)) ->
  exists from, origin h count L from /\
    vae_callback_loss beta l encoder decoder conditioning key eps observation (shown num out (c_name action)) =
    Ok (average count L (fun r j t =>
      let a := did num action (fst (from j)) (snd (from j) + t) in
      let c := given C (viewed num obs (fst (from j)) (snd (from j) + t)) in
      let (mean, log_std) := E a c in
      misfit n a (D (latent_of l mean log_std (nth r eps [])) c) + beta * penalty l mean log_std)).
Proof.
  intros CO Fs Fe SO LA BO AG HL HC Er Eo Io Bo No Ia Ba Na Do HN Ee Ed Ec LE LD SE Eob.
  destruct (rows_origin CO Fs Fe SO LA BO AG HL Er Eo) as (Sz & from & Or & Hf).
  exists from. split; auto.
  set (A := fun k => did num action (fst (from (k / L)%nat)) (snd (from (k / L)%nat) + k mod L)).
  set (O := fun k => viewed num obs (fst (from (k / L)%nat)) (snd (from (k / L)%nat) + k mod L)).
  assert (SOME : forall (col : MemModel.column S) (x : option (list S)), x <> None -> option_map (map num) (cast_by col x) = Some (map num (row_or_empty (cast_by col x)))).
  { intros col [v|] N; [reflexivity|congruence]. }
  assert (Es1 : shown num out (c_name obs) = map O (seq 0 (count * L))).
  { eapply shown_rows; eauto; [unfold is_base in Bo; rewrite Bo; reflexivity|]. intros k Hk. destruct (Hf k Hk) as (m & m' & E1 & E2 & T).
    destruct (T obs Io) as (T1 & _). destruct (T1 Bo No) as (N & ->). unfold O, viewed, of_moment. rewrite E1. apply SOME. exact N. }
  assert (Es2 : shown num out (c_name action) = map A (seq 0 (count * L))).
  { eapply shown_rows; eauto; [unfold is_base in Ba; rewrite Ba; reflexivity|]. intros k Hk. destruct (Hf k Hk) as (m & m' & E1 & E2 & T).
    destruct (T action Ia) as (_ & T1 & _). destruct (T1 Ba Na) as (N & ->). unfold A, did, of_moment. rewrite E1. apply SOME. exact N. }
  assert (Lw : forall k, (k < count * L)%nat -> List.length (A k) = n).
  { intros k Hk. destruct (Hf k Hk) as (m & m' & E1 & E2 & T). destruct (T action Ia) as (_ & T1 & _). destruct (T1 Ba Na) as (N & _).
    assert (K1 : (k / L < count)%nat) by (apply Nat.div_lt_upper_bound; lia). destruct (Or _ K1) as (a & Ims & _).
    unfold A, did, of_moment. rewrite E1. destruct (answered m (c_name action)) as [v|] eqn:Ev; [|congruence].
    cbn. rewrite !map_length. eapply Do; eauto. eapply nth_error_In; eauto. }
  rewrite Es1 in Eob. rewrite Es2.
  rewrite (@callback_rows beta l n (count * L) E D C encoder decoder conditioning key eps observation A O); auto; [|nia].
  f_equal. unfold average. f_equal. f_equal. apply map_ext. intros k. cbv zeta. fold (A k) (O k). destruct (E (A k) _) as [mu ls]. reflexivity.
Qed.
End T.
