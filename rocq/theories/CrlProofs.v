(** * CrlProofs: what a critic learns from in an experiment (proofs for C154) *)
From Coq Require Import Reals Lia.
From Verif Require Import Py PyLemmas MemModel MemSpec ProxyModel ProxySpec NumModel NumSpec NumProofs E2ESpec E2EProofs PolModel PolSpec PolMain
  CriticModel CriticSpec CriticProofs LoaderModel TrainModel TrainSpec
  GymModel GymSpec GymTSpec LiveModel LiveSpec LiveMain ExpSpec ThrModel ThrMain LtgSpec LtgProofs CrlSpec.
Set Implicit Arguments. Unset Strict Implicit.
Open Scope string_scope.
Open Scope list_scope.
Open Scope R_scope.

Section T.
Context {S E V : Type} {HSc : Scalar S}.
Variable num : S -> R.
Hypothesis num0 : num s_zero = 0.
Hypothesis num1 : num s_one = 1.
Variable env : genv S E.
Variable agent : V -> nat -> dict Z (obs S) -> res (dict Z (resp S)).

Definition nothing : estep S := mkStep [] [] (mkAns [] s_zero false false).
Lemma nth_seq_map (l : list (estep S)) L : List.length l = L -> map (fun t => nth t l nothing) (seq 0 L) = l.
Proof using HSc.
  clear. intros Ll. symmetry. apply list_as_seq; auto. intros k Hk. apply nth_error_nth'. rewrite Ll. exact Hk.
Qed.
Lemma batch_steps cols n L notes rows gamma scale masking reward mask nexts obs action (value : nat -> list (row (S:=S)) -> R) :
  (1 <= L)%nat -> batch_sized cols rows n L -> (forall j, (j < n)%nat -> rollout_happened env agent cols L notes rows j) ->
  target_columns cols L reward mask nexts -> critic_columns cols obs action ->
  exists qt step, stretches env agent notes n L step /\
    q_target gamma scale L masking (row_by_row value) (observations rows (map (fun q => c_name (fst q)) nexts) n)
      (numbers num rows (c_name reward)) (numbers num rows (c_name mask)) = Ok qt /\
    qt = map (fun k => stretch_return num gamma scale masking reward (map snd nexts) value L step (k / L) (k mod L)) (seq 0 (n * L)) /\
    observations rows [c_name obs] (n * L) = map (fun k => seen obs (step (k / L) (k mod L))%nat) (seq 0 (n * L)) /\
    map (map num) (dget_default rows (c_name action) []) = map (fun k => done num action (step (k / L) (k mod L))%nat) (seq 0 (n * L)).
Proof.
  intros HL Sz W TC (Io & Bo & No & Ia & Ba & Na).
  destruct (@targets_shown S V HSc num num0 num1 agent cols n L rows gamma scale masking reward mask nexts value HL Sz TC) as (qt & Eq & Lq & Hq).
  destruct (@finite_choice (list (estep S)) [] (fun j l => List.length l = L /\ in_an_episode env l /\ Forall (was_taken agent notes) l /\ shown cols L rows j l) n) as (ls & Hl).
  { intros j Hj. destruct (W j Hj) as (l & Ll & Ie & Tk & Hr & Hn). exists l. split; [|split; [|split]]; auto. split; auto. }
  assert (KL : forall k, (k < n * L)%nat -> (k / L < n)%nat /\ (k mod L < L)%nat /\ (k / L * L + k mod L = k)%nat).
  { intros k Hk. split; [apply Nat.div_lt_upper_bound; lia|]. split; [apply Nat.mod_upper_bound; lia|].
    rewrite (Nat.mul_comm (k / L)). symmetry. apply Nat.div_mod. lia. }
  exists qt, (fun j t => nth t (ls j) nothing). split; [|split; [exact Eq|split; [|split]]].
  - intros j Hj. destruct (Hl j Hj) as (Ll & Ie & Tk & _). rewrite nth_seq_map; auto.
  - apply list_as_seq; auto. intros k Hk. destruct (KL k Hk) as (K1 & K2 & K3). destruct (Hl _ K1) as (Ll & _ & _ & Sh).
    pose proof (Hq _ _ K1 Ll Sh _ K2) as T. rewrite K3 in T. rewrite T. unfold stretch_return. rewrite nth_seq_map; auto.
  - unfold observations. apply map_ext_in. intros k Ik. apply in_seq in Ik. destruct (KL k ltac:(lia)) as (K1 & K2 & K3).
    destruct (Hl _ K1) as (Ll & _ & _ & Hr & _). unfold seen. cbn [map]. f_equal.
    destruct (Sz obs Io) as (r0 & Ec & _). unfold dget_default. rewrite Ec.
    destruct (nth_error (ls (k / L)%nat) (k mod L)) as [x|] eqn:Ex; [|apply nth_error_None in Ex; lia].
    destruct (Hr _ x Ex obs Io) as (T & _). specialize (T Bo No). rewrite K3 in T. rewrite <- No in T. unfold batch_row in T. rewrite Ec in T.
    rewrite (nth_error_nth _ _ _ Ex). apply nth_error_nth. exact T.
  - destruct (Sz action Ia) as (r0 & Ec & Lr). rewrite Ba in Lr. unfold dget_default. rewrite Ec.
    apply list_as_seq; [rewrite map_length; auto|]. intros k Hk. destruct (KL k Hk) as (K1 & K2 & K3).
    destruct (Hl _ K1) as (Ll & _ & _ & Hr & _).
    destruct (nth_error (ls (k / L)%nat) (k mod L)) as [x|] eqn:Ex; [|apply nth_error_None in Ex; lia].
    destruct (Hr _ x Ex action Ia) as (_ & T & _). specialize (T Ba Na). rewrite K3 in T. rewrite <- Na in T. unfold batch_row in T. rewrite Ec in T.
    rewrite (nth_error_nth _ _ _ Ex), nth_error_map. unfold done.
    etransitivity; [exact (f_equal (option_map (map num)) T)|]. reflexivity.
Qed.

Lemma sac_ok cols n L notes rows : (1 <= L)%nat -> batch_sized cols rows n L ->
  (forall j, (j < n)%nat -> rollout_happened env agent cols L notes rows j) -> sac_learns num env agent cols n L notes rows.
Proof.
  intros HL Sz W gamma scale masking reward mask nexts obs action policy q q1t q2t ln_alpha Hn TC CC.
  destruct (@batch_steps cols n L notes rows gamma scale masking reward mask nexts obs action (soft_value policy q1t q2t (exp ln_alpha)) HL Sz W TC CC)
    as (qt & step & St & Eq & Eqt & Eob & Eac).
  exists step. split; auto. unfold sac_critic, sac_begin_batch.
  rewrite (@q_target_ext _ gamma scale L masking (sac_next_values policy q1t q2t ln_alpha) (row_by_row (soft_value policy q1t q2t (exp ln_alpha)))) by apply sac_values.
  rewrite Eq. cbn [rbind]. rewrite Eob, Eac, Eqt.
  set (N := (n * L)%nat) in *.
  assert (NP : (0 < N)%nat) by (unfold N; apply Nat.mul_pos_pos; lia).
  edestruct q_loss_ok as (loss & -> & -> & _); [exact NP|reflexivity| | |].
  - rewrite combine_maps, map_map. split; [rewrite map_length, seq_length; reflexivity|].
    apply Forall_forall. intros r I. apply in_map_iff in I as (k & <- & _). auto.
  - rewrite map_map. split; [rewrite map_length, seq_length; reflexivity|].
    apply Forall_forall. intros r I. apply in_map_iff in I as (k & <- & _). auto.
  - f_equal. rewrite combine_maps. unfold first_column. rewrite !map_map. cbn [PolSpec.entry nth fst snd]. apply msq_seq.
Qed.

Lemma dqn_ok' cols n L notes rows : (1 <= L)%nat -> batch_sized cols rows n L ->
  (forall j, (j < n)%nat -> rollout_happened env agent cols L notes rows j) -> dqn_learns num env agent cols n L notes rows.
Proof.
  intros HL Sz W gamma scale reward mask nexts obs action q_net target_q_net best m Hn TC CC Hm Hb Hc.
  destruct (@batch_steps cols n L notes rows gamma scale true reward mask nexts obs action (fun _ => best) HL Sz W TC CC)
    as (qt & step & St & Eq & Eqt & Eob & Eac).
  assert (KL : forall k, (k < n * L)%nat -> (k / L < n)%nat /\ (k mod L < L)%nat).
  { intros k Hk. split; [apply Nat.div_lt_upper_bound; lia|apply Nat.mod_upper_bound; lia]. }
  assert (D : forall j t, (j < n)%nat -> (t < L)%nat -> exists a, (a < m)%nat /\ done num action (step j t) = [INR a]).
  { intros j t Hj Ht. apply Hc. destruct (St j Hj) as (_ & F). rewrite Forall_forall in F. apply F. apply in_map. apply in_seq. lia. }
  destruct (@finite_choice nat O (fun k a => done num action (step (k / L) (k mod L))%nat = [INR a] /\ (a < m)%nat) (n * L)) as (tk & Ht).
  { intros k Hk. destruct (KL k Hk) as (K1 & K2). destruct (D _ _ K1 K2) as (a & La & Ea). exists a. auto. }
  exists step, (fun j t => tk (j * L + t)%nat). split; auto. split.
  { intros j t Hj Hk. assert (B : (j * L + t < n * L)%nat).
    { assert (((j + 1) * L <= n * L)%nat) by (apply Nat.mul_le_mono_r; lia). lia. }
    destruct (Ht _ B) as (T1 & T2). split; auto.
    replace ((j * L + t) / L)%nat with j in T1; [replace ((j * L + t) mod L)%nat with t in T1; auto|].
    - rewrite Nat.add_comm, Nat.mod_add by lia. symmetry. apply Nat.mod_small. auto.
    - rewrite Nat.div_add_l, Nat.div_small by lia. lia. }
  unfold dqn_critic, dqn_begin_batch.
  rewrite (@q_target_ext _ gamma scale L true (dqn_next_values target_q_net) (row_by_row (fun _ => best))).
  2:{ rewrite dqn_values. unfold row_by_row. apply map_ext. intros (i, o). cbn [fst snd].
      apply (@greatest_unique (target_q_net o)); auto. apply row_max_greatest. intros X. destruct (Hb o) as (I & _). rewrite X in I. destruct I. }
  rewrite Eq. cbn [rbind].
  set (N := (n * L)%nat) in *.
  set (obl := observations rows [c_name obs] N) in *.
  assert (Lo : List.length obl = N) by (rewrite Eob, map_length, seq_length; auto).
  rewrite (@dqn_ok (fun _ => Ok (map q_net obl)) [] (map q_net obl) m N _ _ (map tk (seq 0 N))); auto.
  - f_equal. unfold first_column. rewrite map_map. cbn [PolSpec.entry nth]. rewrite Eob, map_map.
    rewrite combine_maps, map_map. cbn [fst snd]. rewrite Eqt, map_map.
    unfold mean_over. fold N.
    etransitivity; [apply msq_seq|]. f_equal. f_equal. apply map_ext_in. intros k Ik. apply in_seq in Ik.
    replace (k / L * L + k mod L)%nat with k; [reflexivity|].
    rewrite (Nat.mul_comm (k / L)). apply Nat.div_mod. lia.
  - split; [rewrite map_length; auto|]. apply Forall_forall. intros r Ir'. apply in_map_iff in Ir' as (o & <- & _). auto.
  - split; [rewrite Eac, map_length, seq_length; auto|]. apply Forall_forall. intros r Ir'. rewrite Eac in Ir'.
    apply in_map_iff in Ir' as (k & <- & Ik). apply in_seq in Ik. destruct (Ht k ltac:(lia)) as (-> & _). auto.
  - split; [rewrite Eqt, !map_length, seq_length; auto|]. apply Forall_forall. intros r Ir'.
    apply in_map_iff in Ir' as (k & <- & _). auto.
  - rewrite map_length, seq_length. auto.
  - rewrite Eac. unfold first_column. rewrite !map_map. apply map_ext_in. intros k Ik. apply in_seq in Ik.
    destruct (Ht k ltac:(lia)) as (-> & _). reflexivity.
  - apply Forall_forall. intros a Ia. apply in_map_iff in Ia as (k & <- & Ik). apply in_seq in Ik. apply Ht. lia.
Qed.
End T.

Open Scope Z_scope.
Lemma simple_learns : forall (S E : Type) (HSc : Scalar S) (O V : Type) (num : S -> R) (env : genv S E)
    (agent : V -> nat -> dict Z (obs S) -> res (dict Z (resp S))) (others : behaviour O V)
    eject_draws sample_draws (obj : dict string (cell S) -> O) pc ld sc stop envs cols maxlen smp ej dobs dact kmin size_key cbs fuel st0 v s out,
  num s_zero = 0%R -> num s_one = 1%R ->
  envs <> [] -> shows env dobs -> (forall v, answers_all dobs dact (agent v)) ->
  pc_min pc = Some kmin -> Z.of_nat (ld_length ld) <= kmin -> (1 <= ld_length ld)%nat ->
  config_ok cols "actions" -> fresh_sampler smp -> fresh_ejector ej -> layout cols "actions" (pc_terminal pc) (mkSchema ["obs"] ["actions"]) ->
  gym_sizes dobs dact cols -> ld_group ld <> ld_size_key ld -> NoDup (map cb_id cbs) ->
  live_train (lab_act num env agent others eject_draws pc sc) (lab_next sample_draws obj ld stop) size_key cbs fuel st0
    (lab_new envs (t_create cols "actions" maxlen smp ej) v) = (s, out) ->
  Z.of_nat (List.length (lb_notes (wd_world s))) <= 2 ^ 53 ->
  forall k b, In (TBatch k b) (wd_trace s) ->
  exists before rows after, lb_notes (wd_world s) = before ++ NDrew rows :: after /\ batch_of obj ld rows b /\
    sac_learns num env agent cols (ld_count ld) (ld_length ld) before rows /\ dqn_learns num env agent cols (ld_count ld) (ld_length ld) before rows.
Proof.
  intros S E HSc O V num env agent others ed sd obj pc ld sc stop envs cols maxlen smp ej dobs dact kmin size_key cbs fuel st0 v s out N0 N1 A1 A2 A3 A4 A5 A6 A7 A8 A9 A10 A11 A12 A13 L Ln k b I.
  destruct (@batches_happened S E HSc O V num env agent others ed sd obj pc ld sc stop envs cols maxlen smp ej dobs dact kmin size_key cbs fuel st0 v s out A1 A2 A3 A4 A5 A6 A7 A8 A9 A10 A11 A12 A13 L Ln k b I) as (before & rows & after & H1 & H2 & H3 & H4).
  exists before, rows, after. split; auto. split; auto. split; [apply sac_ok|apply dqn_ok']; auto.
Qed.
Lemma threaded_learns : forall (S E : Type) (HSc : Scalar S) (O V : Type) (num : S -> R) (env : genv S E)
    (agent : V -> nat -> dict Z (obs S) -> res (dict Z (resp S))) (others : behaviour O V)
    eject_draws sample_draws (obj : dict string (cell S) -> O) pc ld tc sched stop envs cols maxlen smp dobs dact kmin size_key cbs fuel st0 v s out,
  num s_zero = 0%R -> num s_one = 1%R ->
  envs <> [] -> shows env dobs -> (forall v, answers_all dobs dact (agent v)) ->
  pc_min pc = Some kmin -> Z.of_nat (ld_length ld) <= kmin -> (1 <= ld_length ld)%nat ->
  config_ok cols "actions" -> fresh_sampler smp -> layout cols "actions" (pc_terminal pc) (mkSchema ["obs"] ["actions"]) ->
  gym_sizes dobs dact cols -> at_most env maxlen -> maxlen <= 2 ^ 53 -> ld_group ld <> ld_size_key ld -> NoDup (map cb_id cbs) ->
  live_train (thr_act num env agent others eject_draws pc tc sched) (thr_next num env agent eject_draws sample_draws obj pc ld sched stop) size_key cbs fuel st0
    (thr_new envs (t_create cols "actions" maxlen smp (EFifo fifo_init)) v) = (s, out) ->
  Z.of_nat (List.length (lb_notes (tl_lab (wd_world s)))) <= 2 ^ 53 ->
  forall k b, In (TBatch k b) (wd_trace s) ->
  exists before rows after, lb_notes (tl_lab (wd_world s)) = before ++ NDrew rows :: after /\ batch_of obj ld rows b /\
    sac_learns num env agent cols (ld_count ld) (ld_length ld) before rows /\ dqn_learns num env agent cols (ld_count ld) (ld_length ld) before rows.
Proof.
  intros S E HSc O V num env agent others ed sd obj pc ld tc sched stop envs cols maxlen smp dobs dact kmin size_key cbs fuel st0 v s out N0 N1 A1 A2 A3 A4 A5 A6 A7 A8 A9 A10 A11 A12 A13 A14 L Ln k b I.
  destruct (@threaded_happened S E HSc O V num env agent others ed sd obj pc ld tc sched stop envs cols maxlen smp dobs dact kmin size_key cbs fuel st0 v s out A1 A2 A3 A4 A5 A6 A7 A8 A9 A10 A11 A12 A13 A14 L Ln k b I) as (before & rows & after & H1 & H2 & H3 & H4).
  exists before, rows, after. split; auto. split; auto. split; [apply sac_ok|apply dqn_ok']; auto.
Qed.
