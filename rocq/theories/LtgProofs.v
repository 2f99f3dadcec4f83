(** * LtgProofs: the Q-targets of a batch are the returns of what happened (proofs for C153) *)
From Coq Require Import Reals Lia.
From Verif Require Import Py PyLemmas MemModel MemSpec ProxyModel ProxySpec NumModel NumSpec NumProofs E2ESpec E2EProofs LoaderModel TrainModel TrainSpec
  GymModel GymSpec GymTSpec LiveModel LiveSpec LiveMain ExpSpec ThrModel ThrMain LtgSpec.
Set Implicit Arguments. Unset Strict Implicit.
Open Scope string_scope.
Open Scope list_scope.

Section T.
Context {S E V : Type} {HSc : Scalar S}.
Variable num : S -> R.
Hypothesis num0 : num s_zero = 0%R.
Hypothesis num1 : num s_one = 1%R.
Variable env : genv S E.
Variable agent : V -> nat -> dict Z (obs S) -> res (dict Z (resp S)).

Lemma last_of (l : list (estep S)) L x : List.length l = L -> nth_error l (L - 1) = Some x -> (1 <= L)%nat -> exists r, rev l = x :: r.
Proof.
  intros Ll Ex L1. destruct (rev l) as [|y r] eqn:Er; [apply (f_equal (@List.length _)) in Er; rewrite rev_length in Er; cbn in Er; lia|].
  assert (El : l = rev r ++ [y]) by (rewrite <- (rev_involutive l), Er; reflexivity). rewrite El in Ex, Ll. rewrite app_length in Ll. cbn in Ll.
  rewrite nth_error_app2 in Ex by lia. replace (L - 1 - List.length (rev r))%nat with 0%nat in Ex by lia. cbn in Ex. injection Ex as ->. eauto.
Qed.

(** The rollout in place [j] of a batch shows these steps. *)
Definition shown cols L (rows : dict string (array S)) j (l : list (estep S)) : Prop :=
  (forall t x, nth_error l t = Some x -> gym_row cols rows (j * L + t) (es_saw x) (es_did x) (es_got x)) /\
  (forall c d x, In c cols -> In d cols -> c_kind c = KVirt (c_name d) MNextLast -> nth_error l (L - 1) = Some x ->
     batch_row rows (c_name c) j = Some (map (c_cast d) (an_obs (es_got x)))).
Lemma targets_shown cols n L rows gamma scale masking reward mask nexts (value : nat -> list (row (S:=S)) -> R) :
  (1 <= L)%nat -> batch_sized cols rows n L -> target_columns cols L reward mask nexts ->
  exists qt,
    q_target gamma scale L masking (row_by_row value) (observations rows (map (fun q => c_name (fst q)) nexts) n)
      (numbers num rows (c_name reward)) (numbers num rows (c_name mask)) = Ok qt /\ List.length qt = (n * L)%nat /\
    forall j l, (j < n)%nat -> List.length l = L -> shown cols L rows j l ->
      forall t, (t < L)%nat -> nth_error qt (j * L + t) =
        Some (return_of num gamma scale masking reward (map snd nexts) (value j) (map (fun x => (es_did x, es_got x)) l) t).
Proof.
  intros HL Sz (Ir & Br & Nr & Imk & (tg & Km) & Nx).
  destruct (Sz reward Ir) as (rrows & Er & Lr). rewrite Br in Lr.
  destruct (Sz mask Imk) as (mrows & Em & Lm). rewrite Km in Lm.
  destruct (@target_rows S HSc num rows n L gamma scale masking (c_name reward) (c_name mask) (map (fun q => c_name (fst q)) nexts) value rrows mrows HL Er Lr Em Lm)
    as (qt & Eq & Lq & Hq).
  exists qt. split; auto. split; auto. intros j l Hj Ll (Hr & Hn) t Ht. rewrite (Hq j t Hj Ht). f_equal. unfold return_of.
  assert (G : forall name r0 r v, dget rows name = Some r0 -> batch_row rows name r = Some v -> nth r r0 [] = v).
  { intros name r0 r v Eg Eb. unfold batch_row in Eb. rewrite Eg in Eb. apply nth_error_nth. exact Eb. }
  f_equal.
  - rewrite map_map. cbn [snd]. rewrite <- Ll. apply (nth_ext _ _ 0%R 0%R); rewrite !map_length, seq_length; auto. intros q Hlq.
    destruct (nth_error l q) as [x|] eqn:Ex; [|apply nth_error_None in Ex; lia].
    set (f := fun k => (scale * number num (nth (j * List.length l + k) rrows []))%R).
    rewrite nth_indep with (d' := f 0%nat) by (rewrite map_length, seq_length; auto). rewrite (map_nth f), seq_nth by auto. unfold f.
    symmetry. apply nth_error_nth. rewrite nth_error_map, Ex. cbn [option_map]. f_equal. f_equal. rewrite Ll in *. cbn [Nat.add].
    destruct (Hr q x Ex reward Ir) as (_ & _ & T & _). pose proof (T Br Nr) as T'. rewrite <- Nr in T'. rewrite (G _ _ _ _ Er T'). reflexivity.
  - destruct (nth_error l (L - 1)) as [x|] eqn:Ex; [|apply nth_error_None in Ex; lia].
    destruct (last_of Ll Ex HL) as [r Erv].
    assert (Er' : rev (map (fun x => (es_did x, es_got x)) l) = (es_did x, es_got x) :: map (fun x => (es_did x, es_got x)) r) by (rewrite <- map_rev, Erv; reflexivity).
    rewrite Er'.
    assert (Vw : map (fun nm => nth j (dget_default rows nm []) []) (map (fun q => c_name (fst q)) nexts)
                 = map (fun c => map (c_cast c) (an_obs (es_got x))) (map snd nexts)).
    { rewrite !map_map. apply map_ext_in. intros [c d] Icd. cbn [fst snd]. rewrite Forall_forall in Nx. destruct (Nx _ Icd) as (Ic & Id & K). cbn [fst snd] in *.
      destruct (Sz c Ic) as (r0 & Ec & _). unfold dget_default. rewrite Ec. apply (G _ _ _ _ Ec). destruct K as [K|[K EL]].
      - first [exact (Hn c d x Ic Id K Ex) | exact (Hn c d x Ic Id K eq_refl)].
      - destruct (Hr (L - 1)%nat x Ex c Ic) as (_ & _ & _ & T & _). rewrite <- (T d Id K). f_equal. rewrite EL. lia. }
    cbv zeta. rewrite Vw. cbn [snd]. unfold over. cbn [snd]. destruct masking; cbn [andb]; auto.
    destruct (Hr (L - 1)%nat x Ex mask Imk) as (_ & _ & _ & _ & _ & T). rewrite (G _ _ _ _ Em (T tg Km)). unfold number. cbn [hd].
    destruct (an_term (es_got x) || an_trunc (es_got x)); rewrite ?num0, ?num1; ring.
Qed.
Lemma targets_ok cols n L notes rows : (1 <= L)%nat -> batch_sized cols rows n L ->
  (forall j, (j < n)%nat -> rollout_happened env agent cols L notes rows j) -> targets_happened num env agent cols n L notes rows.
Proof.
  intros HL Sz W gamma scale masking reward mask nexts value TC.
  destruct (@targets_shown cols n L rows gamma scale masking reward mask nexts value HL Sz TC) as (qt & Eq & Lq & Hq).
  exists qt. split; auto. split; auto. intros j Hj. destruct (W j Hj) as (l & Ll & Ie & Tk & Hr & Hn).
  exists l. split; auto. split; auto. split; auto. intros t Ht. apply Hq; auto. split; auto.
Qed.
End T.

Open Scope Z_scope.
Lemma simple_targets : forall (S E : Type) (HSc : Scalar S) (O V : Type) (num : S -> R) (env : genv S E)
    (agent : V -> nat -> dict Z (obs S) -> res (dict Z (resp S))) (others : behaviour O V)
    eject_draws sample_draws (obj : dict string (cell S) -> O) pc ld sc stop envs cols maxlen smp ej dobs dact kmin size_key cbs fuel st0 v s out,
  num s_zero = 0%R -> num s_one = 1%R ->
  envs <> [] -> shows env dobs -> (forall v, answers_all dobs dact (agent v)) ->
  pc_min pc = Some kmin -> Z.of_nat (ld_length ld) <= kmin -> (1 <= ld_length ld)%nat ->
  config_ok cols "actions" -> fresh_sampler smp -> fresh_ejector ej -> layout cols "actions" (pc_terminal pc) (mkSchema ["obs"] ["actions"]) ->
  gym_sizes dobs dact cols -> ld_group ld <> ld_size_key ld -> NoDup (map cb_id cbs) ->
  live_train (lab_act num env agent others eject_draws pc sc) (lab_next sample_draws obj ld stop) size_key cbs fuel st0
    (lab_new envs (t_create cols "actions" maxlen smp ej) v) = (s, out) ->
  Z.of_nat (List.length (lb_notes (wd_world s))) <= 2 ^ 53 ->
  forall k b, In (TBatch k b) (wd_trace s) ->
  exists before rows after, lb_notes (wd_world s) = before ++ NDrew rows :: after /\ batch_of obj ld rows b /\
    targets_happened num env agent cols (ld_count ld) (ld_length ld) before rows.
Proof.
  intros S E HSc O V num env agent others ed sd obj pc ld sc stop envs cols maxlen smp ej dobs dact kmin size_key cbs fuel st0 v s out N0 N1 A1 A2 A3 A4 A5 A6 A7 A8 A9 A10 A11 A12 A13 L Ln k b I.
  destruct (@batches_happened S E HSc O V num env agent others ed sd obj pc ld sc stop envs cols maxlen smp ej dobs dact kmin size_key cbs fuel st0 v s out A1 A2 A3 A4 A5 A6 A7 A8 A9 A10 A11 A12 A13 L Ln k b I) as (before & rows & after & H1 & H2 & H3 & H4).
  exists before, rows, after. split; auto. split; auto. apply targets_ok; auto.
Qed.
Lemma threaded_targets : forall (S E : Type) (HSc : Scalar S) (O V : Type) (num : S -> R) (env : genv S E)
    (agent : V -> nat -> dict Z (obs S) -> res (dict Z (resp S))) (others : behaviour O V)
    eject_draws sample_draws (obj : dict string (cell S) -> O) pc ld tc sched stop envs cols maxlen smp dobs dact kmin size_key cbs fuel st0 v s out,
  num s_zero = 0%R -> num s_one = 1%R ->
  envs <> [] -> shows env dobs -> (forall v, answers_all dobs dact (agent v)) ->
  pc_min pc = Some kmin -> Z.of_nat (ld_length ld) <= kmin -> (1 <= ld_length ld)%nat ->
  config_ok cols "actions" -> fresh_sampler smp -> layout cols "actions" (pc_terminal pc) (mkSchema ["obs"] ["actions"]) ->
  gym_sizes dobs dact cols -> at_most env maxlen -> maxlen <= 2 ^ 53 -> ld_group ld <> ld_size_key ld -> NoDup (map cb_id cbs) ->
  live_train (thr_act num env agent others eject_draws pc tc sched) (thr_next num env agent eject_draws sample_draws obj pc ld sched stop) size_key cbs fuel st0
    (thr_new envs (t_create cols "actions" maxlen smp (EFifo fifo_init)) v) = (s, out) ->
  Z.of_nat (List.length (lb_notes (tl_lab (wd_world s)))) <= 2 ^ 53 ->
  forall k b, In (TBatch k b) (wd_trace s) ->
  exists before rows after, lb_notes (tl_lab (wd_world s)) = before ++ NDrew rows :: after /\ batch_of obj ld rows b /\
    targets_happened num env agent cols (ld_count ld) (ld_length ld) before rows.
Proof.
  intros S E HSc O V num env agent others ed sd obj pc ld tc sched stop envs cols maxlen smp dobs dact kmin size_key cbs fuel st0 v s out N0 N1 A1 A2 A3 A4 A5 A6 A7 A8 A9 A10 A11 A12 A13 A14 L Ln k b I.
  destruct (@threaded_happened S E HSc O V num env agent others ed sd obj pc ld tc sched stop envs cols maxlen smp dobs dact kmin size_key cbs fuel st0 v s out A1 A2 A3 A4 A5 A6 A7 A8 A9 A10 A11 A12 A13 A14 L Ln k b I) as (before & rows & after & H1 & H2 & H3 & H4).
  exists before, rows, after. split; auto. split; auto. apply targets_ok; auto.
Qed.
