(** * AclProofs: what a policy, its temperature and a dynamics model learn from in an experiment (proofs for C155) *)
From Coq Require Import Reals Lia.
From Verif Require Import Py PyLemmas MemModel MemSpec ProxyModel ProxySpec NumModel NumSpec NumProofs E2ESpec E2EProofs
  CriticSpec CriticProofs AlgoSpec ActorModel ActorSpec ActorProofs LoaderModel TrainModel TrainSpec
  GymModel GymSpec GymTSpec LiveModel LiveSpec LiveMain ExpSpec ThrModel ThrMain LtgSpec LtgProofs CrlSpec CrlProofs AclSpec.
Set Implicit Arguments. Unset Strict Implicit.
Open Scope string_scope.
Open Scope list_scope.
Open Scope R_scope.

Section T.
Context {S E V : Type} {HSc : Scalar S}.
Variable num : S -> R.
Variable env : genv S E.
Variable agent : V -> nat -> dict Z (obs S) -> res (dict Z (resp S)).

Lemma choose cols n L notes rows : (forall j, (j < n)%nat -> rollout_happened env agent cols L notes rows j) ->
  exists ls, forall j, (j < n)%nat -> List.length (ls j) = L /\ in_an_episode env (ls j) /\ Forall (was_taken agent notes) (ls j) /\ shown cols L rows j (ls j).
Proof.
  intros W. apply (@finite_choice (list (estep S)) [] (fun j l => List.length l = L /\ in_an_episode env l /\ Forall (was_taken agent notes) l /\ shown cols L rows j l)).
  intros j Hj. destruct (W j Hj) as (l & Ll & Ie & Tk & Hr & Hn). exists l. split; [|split; [|split]]; auto. split; auto.
Qed.
Lemma actor_learns_ok cols n L notes rows : (1 <= L)%nat -> batch_sized cols rows n L ->
  (forall j, (j < n)%nat -> rollout_happened env agent cols L notes rows j) -> actor_learns env agent cols n L notes rows.
Proof.
  intros HL Sz W A policy q1 q2 la te obs Hn Io Bo No. destruct (choose W) as (ls & Hl).
  exists (fun j t => nth t (ls j) nothing). split.
  { intros j Hj. destruct (Hl j Hj) as (Ll & Ie & Tk & _). rewrite nth_seq_map; auto. }
  assert (Eob : observations rows [c_name obs] (n * L) = map (fun k => seen obs (nth (k mod L) (ls (k / L)%nat) nothing)) (seq 0 (n * L))).
  { unfold observations. apply map_ext_in. intros k Ik. apply in_seq in Ik.
    assert (K1 : (k / L < n)%nat) by (apply Nat.div_lt_upper_bound; lia).
    assert (K2 : (k mod L < L)%nat) by (apply Nat.mod_upper_bound; lia).
    assert (K3 : (k / L * L + k mod L = k)%nat) by (rewrite (Nat.mul_comm (k / L)); symmetry; apply Nat.div_mod; lia).
    destruct (Hl _ K1) as (Ll & _ & _ & Hr & _). unfold seen. cbn [map]. f_equal.
    destruct (Sz obs Io) as (r0 & Ec & _). unfold dget_default. rewrite Ec.
    destruct (nth_error (ls (k / L)%nat) (k mod L)) as [x|] eqn:Ex; [|apply nth_error_None in Ex; lia].
    destruct (Hr _ x Ex obs Io) as (T & _). specialize (T Bo No). rewrite K3 in T. rewrite <- No in T. unfold batch_row in T. rewrite Ec in T.
    rewrite (nth_error_nth _ _ _ Ex). apply nth_error_nth. exact T. }
  rewrite Eob. split; [rewrite actor_rows|rewrite temperature_rows]; reflexivity.
Qed.
Lemma model_learns_ok cols n notes rows : batch_sized cols rows n 1 ->
  (forall j, (j < n)%nat -> rollout_happened env agent cols 1 notes rows j) -> model_learns num env agent cols n notes rows.
Proof.
  intros Sz W obs next action reward Io Bo No Ix Kx Ia Ba Na Ir Br Nr. destruct (choose W) as (ls & Hl).
  assert (ONE : forall j, (j < n)%nat -> ls j = [nth 0 (ls j) nothing]).
  { intros j Hj. destruct (Hl j Hj) as (Ll & _). destruct (ls j) as [|x [|]]; try discriminate. reflexivity. }
  set (f := fun j => nth 0 (ls j) nothing) in *.
  exists (map f (seq 0 n)). split; [rewrite map_length, seq_length; auto|]. split.
  { apply Forall_forall. intros x I. apply in_map_iff in I as (j & <- & Ij). apply in_seq in Ij. destruct (Hl j ltac:(lia)) as (_ & Ie & Tk & _).
    rewrite ONE in Ie, Tk by lia. inversion Tk; subst. auto. }
  assert (ROW : forall c g, In c cols -> (match c_kind c with KVirt _ MNextLast => False | KTag => False | _ => True end) ->
      (forall j, (j < n)%nat -> batch_row rows (c_name c) j = Some (g (f j))) ->
      match dget rows (c_name c) with Some l => map (map num) l | None => [] end = map (fun x => map num (g x)) (map f (seq 0 n))).
  { intros c g Ic Kc F. destruct (Sz c Ic) as (r & Ec & Lr). rewrite Ec, map_map. apply list_as_seq.
    - etransitivity; [apply map_length|]. etransitivity; [exact Lr|]. destruct (c_kind c) as [| |t []]; try contradiction; lia.
    - intros k Hk. rewrite nth_error_map. specialize (F k Hk). unfold batch_row in F. rewrite Ec in F.
      etransitivity; [exact (f_equal (option_map (map num)) F)|]. reflexivity. }
  assert (RW : forall j, (j < n)%nat -> gym_row cols rows j (es_saw (f j)) (es_did (f j)) (es_got (f j))).
  { intros j Hj. destruct (Hl j Hj) as (_ & _ & _ & Hr & _). rewrite (ONE j Hj) in Hr. specialize (Hr 0%nat (f j) eq_refl).
    replace (j * 1 + 0)%nat with j in Hr by lia. exact Hr. }
  unfold drawn, happened_steps. cbv zeta. f_equal.
  - apply (ROW obs (fun x => map (c_cast obs) (es_saw x))); auto.
    + unfold is_base in Bo. rewrite Bo. exact I.
    + intros j Hj. destruct (RW j Hj obs Io) as (T & _). rewrite No. auto.
  - apply (ROW next (fun x => map (c_cast obs) (an_obs (es_got x)))); auto.
    + rewrite Kx. exact I.
    + intros j Hj. destruct (RW j Hj next Ix) as (_ & _ & _ & T & _). auto.
  - apply (ROW action (fun x => map (c_cast action) (es_did x))); auto.
    + unfold is_base in Ba. rewrite Ba. exact I.
    + intros j Hj. destruct (RW j Hj action Ia) as (_ & T & _). rewrite Na. auto.
  - apply (ROW reward (fun x => [c_cast reward (an_reward (es_got x))])); auto.
    + unfold is_base in Br. rewrite Br. exact I.
    + intros j Hj. destruct (RW j Hj reward Ir) as (_ & _ & T & _). rewrite Nr. auto.
Qed.
End T.

Open Scope Z_scope.
Lemma simple_actors : forall (S E : Type) (HSc : Scalar S) (O V : Type) (num : S -> R) (env : genv S E)
    (agent : V -> nat -> dict Z (obs S) -> res (dict Z (resp S))) (others : behaviour O V)
    eject_draws sample_draws (obj : dict string (cell S) -> O) pc ld sc stop envs cols maxlen smp ej dobs dact kmin size_key cbs fuel st0 v s out,
  envs <> [] -> shows env dobs -> (forall v, answers_all dobs dact (agent v)) ->
  pc_min pc = Some kmin -> Z.of_nat (ld_length ld) <= kmin -> (1 <= ld_length ld)%nat ->
  config_ok cols "actions" -> fresh_sampler smp -> fresh_ejector ej -> layout cols "actions" (pc_terminal pc) (mkSchema ["obs"] ["actions"]) ->
  gym_sizes dobs dact cols -> ld_group ld <> ld_size_key ld -> NoDup (map cb_id cbs) ->
  live_train (lab_act num env agent others eject_draws pc sc) (lab_next sample_draws obj ld stop) size_key cbs fuel st0
    (lab_new envs (t_create cols "actions" maxlen smp ej) v) = (s, out) ->
  Z.of_nat (List.length (lb_notes (wd_world s))) <= 2 ^ 53 ->
  forall k b, In (TBatch k b) (wd_trace s) ->
  exists before rows after, lb_notes (wd_world s) = before ++ NDrew rows :: after /\ batch_of obj ld rows b /\
    actor_learns env agent cols (ld_count ld) (ld_length ld) before rows /\
    (ld_length ld = 1%nat -> model_learns num env agent cols (ld_count ld) before rows).
Proof.
  intros S E HSc O V num env agent others ed sd obj pc ld sc stop envs cols maxlen smp ej dobs dact kmin size_key cbs fuel st0 v s out A1 A2 A3 A4 A5 A6 A7 A8 A9 A10 A11 A12 A13 L Ln k b I.
  destruct (@batches_happened S E HSc O V num env agent others ed sd obj pc ld sc stop envs cols maxlen smp ej dobs dact kmin size_key cbs fuel st0 v s out A1 A2 A3 A4 A5 A6 A7 A8 A9 A10 A11 A12 A13 L Ln k b I) as (before & rows & after & H1 & H2 & H3 & H4).
  exists before, rows, after. split; auto. split; auto. split; [apply actor_learns_ok; auto|]. intros E1. rewrite E1 in *. apply model_learns_ok; auto.
Qed.
Lemma threaded_actors : forall (S E : Type) (HSc : Scalar S) (O V : Type) (num : S -> R) (env : genv S E)
    (agent : V -> nat -> dict Z (obs S) -> res (dict Z (resp S))) (others : behaviour O V)
    eject_draws sample_draws (obj : dict string (cell S) -> O) pc ld tc sched stop envs cols maxlen smp dobs dact kmin size_key cbs fuel st0 v s out,
  envs <> [] -> shows env dobs -> (forall v, answers_all dobs dact (agent v)) ->
  pc_min pc = Some kmin -> Z.of_nat (ld_length ld) <= kmin -> (1 <= ld_length ld)%nat ->
  config_ok cols "actions" -> fresh_sampler smp -> layout cols "actions" (pc_terminal pc) (mkSchema ["obs"] ["actions"]) ->
  gym_sizes dobs dact cols -> at_most env maxlen -> maxlen <= 2 ^ 53 -> ld_group ld <> ld_size_key ld -> NoDup (map cb_id cbs) ->
  live_train (thr_act num env agent others eject_draws pc tc sched) (thr_next num env agent eject_draws sample_draws obj pc ld sched stop) size_key cbs fuel st0
    (thr_new envs (t_create cols "actions" maxlen smp (EFifo fifo_init)) v) = (s, out) ->
  Z.of_nat (List.length (lb_notes (tl_lab (wd_world s)))) <= 2 ^ 53 ->
  forall k b, In (TBatch k b) (wd_trace s) ->
  exists before rows after, lb_notes (tl_lab (wd_world s)) = before ++ NDrew rows :: after /\ batch_of obj ld rows b /\
    actor_learns env agent cols (ld_count ld) (ld_length ld) before rows /\
    (ld_length ld = 1%nat -> model_learns num env agent cols (ld_count ld) before rows).
Proof.
  intros S E HSc O V num env agent others ed sd obj pc ld tc sched stop envs cols maxlen smp dobs dact kmin size_key cbs fuel st0 v s out A1 A2 A3 A4 A5 A6 A7 A8 A9 A10 A11 A12 A13 A14 L Ln k b I.
  destruct (@threaded_happened S E HSc O V num env agent others ed sd obj pc ld tc sched stop envs cols maxlen smp dobs dact kmin size_key cbs fuel st0 v s out A1 A2 A3 A4 A5 A6 A7 A8 A9 A10 A11 A12 A13 A14 L Ln k b I) as (before & rows & after & H1 & H2 & H3 & H4).
  exists before, rows, after. split; auto. split; auto. split; [apply actor_learns_ok; auto|]. intros E1. rewrite E1 in *. apply model_learns_ok; auto.
Qed.
