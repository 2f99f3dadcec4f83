(** * ActorProofs: from agents to the losses of the policy, the temperature and the model (C141) *)
From Coq Require Import Reals Lra Lia.
From Verif Require Import Py PyLemmas MemModel MemSpec ProxyModel ProxySpec ProxyE2E NumModel NumSpec NumTarget E2ESpec E2EProofs
  PolModel PolSpec PolMain LossModel CriticSpec CriticProofs AlgoModel AlgoSpec AmpModel EnsModel DynModel DynSpec DynProofs ActorModel ActorSpec.
Set Implicit Arguments.
Unset Strict Implicit.
Open Scope list_scope.
Open Scope R_scope.

Lemma zipw_maps {A B C D} (h : B -> C -> D) (f : A -> B) (g : A -> C) l : zipw h (map f l) (map g l) = map (fun x => h (f x) (g x)) l.
Proof. induction l; cbn; auto. rewrite IHl. auto. Qed.
Lemma rows_seq {O A} (policy : nat -> O -> A * R) n (f : nat -> O) :
  policy_rows policy (map f (seq 0 n)) = map (fun k => policy k (f k)) (seq 0 n).
Proof.
  unfold policy_rows. rewrite map_length, seq_length. rewrite <- (map_id (seq 0 n)) at 1. rewrite combine_maps, map_map. reflexivity.
Qed.
Lemma cautious_min {A O} (q1 q2 : A -> O -> R) a o : cautious q1 (Some q2) a o = Rmin (q1 a o) (q2 a o).
Proof. unfold cautious, Rmin. reflexivity. Qed.
Lemma actor_rows {O A} (policy : nat -> O -> A * R) q1 q2 la n (f : nat -> O) :
  actor_loss policy q1 q2 la (map f (seq 0 n)) =
  rsum (map (fun k => exp la * snd (policy k (f k)) - cautious q1 q2 (fst (policy k (f k))) (f k)) (seq 0 n)) / INR n.
Proof.
  unfold actor_loss. rewrite rows_seq, !map_map, combine_maps. unfold policy_loss, np_mean.
  destruct q2 as [q2|]; cbn [option_map]; rewrite !map_map; cbn [fst snd]; rewrite ?zipw_maps, ?map_length, seq_length; f_equal; f_equal.
Qed.
Lemma temperature_rows {O A} (policy : nat -> O -> A * R) te la n (f : nat -> O) :
  temperature_loss policy te la (map f (seq 0 n)) = rsum (map (fun k => la * (- snd (policy k (f k)) - te)) (seq 0 n)) / INR n.
Proof. unfold temperature_loss, alpha_loss, np_mean. rewrite rows_seq, !map_map, map_length, seq_length. reflexivity. Qed.

Section T.
Context {S : Type} {HS : Scalar S}.
Variable num : S -> R.

(** Where the rows of a batch come from. *)
Lemma rows_origin pc cols lk maxlen smp ej sch (h : list (pop S)) p count L draws out :
  config_ok cols lk -> fresh_sampler smp -> fresh_ejector ej ->
  schema_ok (pc_terminal pc) sch -> layout cols lk (pc_terminal pc) sch ->
  batches_ok h -> agents_ok pc cols lk sch L h -> (1 <= L)%nat ->
  prun pc (px_new (t_create cols lk maxlen smp ej)) h = (p, Ok tt) ->
  snd (t_sample (px_table p) count L draws) = Ok out ->
  batch_sized cols out count L /\ exists from, origin h count L from /\
    forall k, (k < count * L)%nat -> exists m m',
      nth_error (fst (from (k / L)%nat)) (snd (from (k / L)%nat) + k mod L) = Some m /\
      nth_error (fst (from (k / L)%nat)) (snd (from (k / L)%nat) + k mod L + 1) = Some m' /\ is_transition cols sch out k m m'.
Proof.
  intros CO Fs Fe SO LA BO AG HL E Eo.
  destruct (end_to_end_windows maxlen count draws CO Fs Fe SO LA BO AG HL E Eo) as [Sz W]. split; auto.
  destruct (@finite_choice (list (@moment S) * nat) ([], O) (fun j x => exists a, In (fst x) (episodes [] (stream a h)) /\
      is_window cols sch out L j (fst x) (snd x)) count) as (from & Hf).
  { intros j Hj. destruct (W j Hj) as (a & ms & i & I & WW). exists (ms, i), a. auto. }
  exists from. split.
  { intros j Hj. destruct (Hf j Hj) as (a & I & (Wl & _)). exists a. auto. }
  intros k Hk.
  assert (K1 : (k / L < count)%nat) by (apply Nat.div_lt_upper_bound; lia).
  assert (K2 : (k mod L < L)%nat) by (apply Nat.mod_upper_bound; lia).
  assert (K3 : (k / L * L + k mod L = k)%nat) by (rewrite (Nat.mul_comm (k / L)); symmetry; apply Nat.div_mod; lia).
  destruct (Hf _ K1) as (a & I & (Wl & Wt & _)).
  set (ms := fst (from (k / L)%nat)) in *. set (i := snd (from (k / L)%nat)) in *.
  destruct (nth_error ms (i + k mod L)) as [m|] eqn:E1; [|apply nth_error_None in E1; lia].
  destruct (nth_error ms (i + k mod L + 1)) as [m'|] eqn:E2; [|apply nth_error_None in E2; lia].
  exists m, m'. split; auto. split; auto. specialize (Wt _ m m' K2 E1 E2). rewrite K3 in Wt. exact Wt.
Qed.

Lemma seen_rows pc cols lk maxlen smp ej sch (h : list (pop S)) p count L draws out obs :
  config_ok cols lk -> fresh_sampler smp -> fresh_ejector ej ->
  schema_ok (pc_terminal pc) sch -> layout cols lk (pc_terminal pc) sch ->
  batches_ok h -> agents_ok pc cols lk sch L h -> (1 <= L)%nat ->
  prun pc (px_new (t_create cols lk maxlen smp ej)) h = (p, Ok tt) ->
  snd (t_sample (px_table p) count L draws) = Ok out ->
  Forall (fun c => In c cols /\ is_base c /\ In (c_name c) (sc_obs sch)) obs ->
  exists from, origin h count L from /\
    observations out (map (@c_name S) obs) (count * L) =
      map (fun k => seen_at obs (fst (from (k / L)%nat)) (snd (from (k / L)%nat) + k mod L)) (seq 0 (count * L)).
Proof.
  intros CO Fs Fe SO LA BO AG HL E Eo OB.
  destruct (rows_origin CO Fs Fe SO LA BO AG HL E Eo) as (Sz & from & Or & Hf).
  exists from. split; auto. unfold observations. apply map_ext_in. intros k Ik. apply in_seq in Ik.
  destruct (Hf k ltac:(lia)) as (m & m' & E1 & _ & T). unfold seen_at. rewrite map_map. apply map_ext_in. intros c Ic.
  rewrite Forall_forall in OB. destruct (OB c Ic) as (I1 & I2 & I3). destruct (Sz c I1) as (rows & Ec & _).
  unfold dget_default. rewrite Ec. assert (G : nth k rows [] = row_or_empty (batch_row out (c_name c) k)) by (apply nth_rows; unfold batch_row; rewrite Ec; reflexivity).
  rewrite G. f_equal. destruct (T c I1) as (T1 & _). destruct (T1 I2 I3) as (_ & ->). unfold of_moment. rewrite E1. reflexivity.
Qed.

Lemma actor_ok pc cols lk maxlen smp ej sch (h : list (pop S)) p count L draws out obs A
    (policy : nat -> list (row (S:=S)) -> A * R) q1 q2 ln_alpha t_entropy :
  config_ok cols lk -> fresh_sampler smp -> fresh_ejector ej ->
  schema_ok (pc_terminal pc) sch -> layout cols lk (pc_terminal pc) sch ->
  batches_ok h -> agents_ok pc cols lk sch L h -> (1 <= L)%nat ->
  prun pc (px_new (t_create cols lk maxlen smp ej)) h = (p, Ok tt) ->
  snd (t_sample (px_table p) count L draws) = Ok out ->
  Forall (fun c => In c cols /\ is_base c /\ In (c_name c) (sc_obs sch)) obs ->
  exists from, origin h count L from /\
    let seen j t := seen_at obs (fst (from j)) (snd (from j) + t) in
    actor_loss policy q1 q2 ln_alpha (observations out (map (@c_name S) obs) (count * L)) =
      average count L (fun r j t => exp ln_alpha * snd (policy r (seen j t)) - cautious q1 q2 (fst (policy r (seen j t))) (seen j t))
    /\ temperature_loss policy t_entropy ln_alpha (observations out (map (@c_name S) obs) (count * L)) =
      average count L (fun r j t => ln_alpha * (- snd (policy r (seen j t)) - t_entropy)).
Proof.
  intros CO Fs Fe SO LA BO AG HL E Eo OB.
  destruct (seen_rows CO Fs Fe SO LA BO AG HL E Eo OB) as (from & Or & Es). exists from. split; auto. cbv zeta.
  rewrite Es. split; [rewrite actor_rows|rewrite temperature_rows]; reflexivity.
Qed.

Lemma drawn_ok pc cols lk maxlen smp ej sch (h : list (pop S)) p count draws out obs next action reward :
  config_ok cols lk -> fresh_sampler smp -> fresh_ejector ej ->
  schema_ok (pc_terminal pc) sch -> layout cols lk (pc_terminal pc) sch ->
  batches_ok h -> agents_ok pc cols lk sch 1 h ->
  prun pc (px_new (t_create cols lk maxlen smp ej)) h = (p, Ok tt) ->
  snd (t_sample (px_table p) count 1 draws) = Ok out ->
  In obs cols -> is_base obs -> In (c_name obs) (sc_obs sch) ->
  In next cols -> c_kind next = KVirt (c_name obs) MNext ->
  In action cols -> is_base action -> In (c_name action) (sc_resp sch) ->
  In reward cols -> is_base reward -> c_name reward = "rewards"%string ->
  exists from, origin h count 1 from /\
    drawn num out (c_name obs) (c_name next) (c_name action) (c_name reward) = experienced num obs action reward count from.
Proof.
  intros CO Fs Fe SO LA BO AG E Eo Io Bo No Ix Kx Ia Ba Na Ir Br Nr.
  destruct (rows_origin CO Fs Fe SO LA BO AG (le_n 1) E Eo) as (Sz & from & Or & Hf).
  exists from. split; auto. rewrite Nat.mul_1_r in Hf.
  assert (Hf' : forall k, (k < count)%nat -> exists m m', nth_error (fst (from k)) (snd (from k)) = Some m /\ nth_error (fst (from k)) (snd (from k) + 1) = Some m'
      /\ is_transition cols sch out k m m').
  { intros k Hk. destruct (Hf k Hk) as (m & m' & H1 & H2 & H3). rewrite Nat.div_1_r, Nat.mod_1_r, Nat.add_0_r in *. exists m, m'. auto. }
  assert (ROW : forall col f, In col cols -> (match c_kind col with KVirt _ MNextLast => False | KTag => False | _ => True end) ->
      (forall k, (k < count)%nat -> option_map (map num) (batch_row out (c_name col) k) = Some (f k)) ->
      match dget out (c_name col) with Some l => map (map num) l | None => [] end = map f (seq 0 count)).
  { intros col f Ic Kc F. destruct (Sz col Ic) as (rows & Ec & Lr). rewrite Ec. apply list_as_seq.
    - etransitivity; [apply map_length|]. etransitivity; [exact Lr|]. destruct (c_kind col) as [| |t []]; try contradiction; lia.
    - intros k Hk. rewrite nth_error_map. rewrite <- (F k Hk). unfold batch_row. rewrite Ec. reflexivity. }
  assert (SOME : forall (col : MemModel.column S) (x : option (list S)), x <> None -> option_map (map num) (cast_by col x) = Some (map num (row_or_empty (cast_by col x)))).
  { intros col [v|] N; [reflexivity|congruence]. }
  unfold drawn, experienced. cbv zeta. f_equal; apply ROW; auto.
  - unfold is_base in Bo. rewrite Bo. exact I.
  - intros k Hk. destruct (Hf' k Hk) as (m & m' & E1 & E2 & T). destruct (T obs Io) as (T1 & _). destruct (T1 Bo No) as (N & ->).
    unfold viewed, of_moment. rewrite E1. apply SOME. exact N.
  - rewrite Kx. exact I.
  - intros k Hk. destruct (Hf' k Hk) as (m & m' & E1 & E2 & T). destruct (T next Ix) as (_ & _ & _ & T1 & _). destruct (T1 obs Io Kx) as (N & ->).
    unfold viewed, of_moment. rewrite E2. apply SOME. exact N.
  - unfold is_base in Ba. rewrite Ba. exact I.
  - intros k Hk. destruct (Hf' k Hk) as (m & m' & E1 & E2 & T). destruct (T action Ia) as (_ & T1 & _). destruct (T1 Ba Na) as (N & ->).
    unfold did, of_moment. rewrite E1. apply SOME. exact N.
  - unfold is_base in Br. rewrite Br. exact I.
  - intros k Hk. destruct (Hf' k Hk) as (m & m' & E1 & E2 & T). destruct (T reward Ir) as (_ & _ & T1 & _). destruct (T1 Br Nr) as (N & ->).
    unfold gained, of_moment. rewrite E2. apply SOME. exact N.
Qed.

Lemma dynamics_ok pc cols lk maxlen smp ej sch (h : list (pop S)) p count draws out obs next action reward
    lr f dims n_obs n_action bs m key network (observation next_observation : dict string matrix) m' loss :
  config_ok cols lk -> fresh_sampler smp -> fresh_ejector ej ->
  schema_ok (pc_terminal pc) sch -> layout cols lk (pc_terminal pc) sch ->
  batches_ok h -> agents_ok pc cols lk sch 1 h ->
  prun pc (px_new (t_create cols lk maxlen smp ej)) h = (p, Ok tt) ->
  snd (t_sample (px_table p) count 1 draws) = Ok out ->
  In obs cols -> is_base obs -> In (c_name obs) (sc_obs sch) ->
  In next cols -> c_kind next = KVirt (c_name obs) MNext ->
  In action cols -> is_base action -> In (c_name action) (sc_resp sch) ->
  In reward cols -> is_base reward -> c_name reward = "rewards"%string ->
  let b := drawn num out (c_name obs) (c_name next) (c_name action) (c_name reward) in
  dims_exist n_obs dims -> processes n_obs f ->
  trained_on (dm_new lr f dims) bs m -> Forall (fits n_obs n_action) (bs ++ [b]) ->
  dget observation key = Some (t_obs b) -> dget next_observation key = Some (t_next b) ->
  model_loss key m network observation next_observation (t_action b) (t_reward b) = Ok (m', loss) ->
  exists from, origin h count 1 from /\ let x := experienced num obs action reward count from in
  exists predicted mean units,
    AlgoModel.sample m' (det_sample network) (t_action x) (t_obs x) = Ok (returns predicted)
    /\ sizes lr count n_obs predicted
    /\ nm_stats (dm_target m') = Some (mean, map Some units) /\ Forall (fun u => 0 < u) units
    /\ loss = Some (mean_of (all_errors units (joined predicted) (happened lr (t_next x) (t_reward x)))).
Proof.
  intros CO Fs Fe SO LA BO AG E Eo Io Bo No Ix Kx Ia Ba Na Ir Br Nr b D P T F Eob Enx EL.
  destruct (drawn_ok CO Fs Fe SO LA BO AG E Eo Io Bo No Ix Kx Ia Ba Na Ir Br Nr) as (from & Or & Ed).
  exists from. split; auto. cbv zeta. fold b in Ed. rewrite <- Ed.
  destruct (@loss_is_error lr f dims n_obs n_action bs m b key network observation next_observation m' loss D P T F Eob Enx EL) as (_ & predicted & mean & units & L1 & L2 & L3 & L4 & L5 & L6).
  exists predicted, mean, units. split; auto. split; [|auto].
  replace count with (List.length (t_obs b)); auto. rewrite Ed. cbn. rewrite map_length, seq_length. reflexivity.
Qed.

(** Agents fit for rollouts are fit for shorter ones. *)
Lemma agents_shorter pc cols lk sch L L' (h : list (pop S)) : (L' <= L)%nat -> agents_ok pc cols lk sch L h -> agents_ok pc cols lk sch L' h.
Proof.
  intros LE [A B]. split; auto. intros a. destruct (B a) as [B1 B2]. split; auto. intros ms I. destruct (B2 ms I) as (C1 & C2 & C3 & C4).
  split; auto. split; auto. split; auto. lia.
Qed.
End T.
