(** * C16 and C17: the distributions of the uniform and the coverage strategy. *)
From Verif Require Import Py PyLemmas MemModel MemSpec MemProofs MemRun MemSample MemSample2
  StratModel StratSpec StratProofs MemExamples MemProps2.
From Coq Require Import QArith Qabs Reals Lra.
Open Scope string_scope.
Open Scope list_scope.
Open Scope Z_scope.

(** ** C16: uniform sampling is uniform over the experience.

    Identities are drawn from exactly the stored sequences, with probability
    length / total. *)
Theorem C16_sequence_probability :
  forall (S : Type) (HS : Scalar S) (cols : list (column S)) (lenkey : string) (maxlen : Z)
         (ej : ejector) (ops : list (op S)),
  config_ok cols lenkey -> fresh_ejector ej -> client_ok cols ops ->
  Forall (fun x => 0 <= fst x < 2 ^ 63) (adds ops) ->
  let t := run (t_create cols lenkey maxlen (SWeighted (w_init false)) ej) ops in
  exists b, holds t b /\ sublist b (adds ops) /\
    uniform_dist (weighted_of (t_sampler t)) =
      map (fun x => (fst x, (inject_Z (seq_len lenkey (snd x)) / inject_Z (total_len lenkey b))%Q)) b.
Proof. intros S HS. exact uniform_table. Qed.
Print Assumptions C16_sequence_probability.

(** Given the sequence, each of its n = length - L + 1 windows is produced by an
    interval of 2^53 / n of the 2^53 equally likely values of random(), give or
    take fewer than two values (binary64 rounding of the product included). *)
Theorem C16_window_probability :
  forall (S : Type) (HS : Scalar S) (cols : list (column S)) (lenkey : string) (maxlen : Z)
         (cov : bool) (ej : ejector) (ops : list (op S)) (L : nat),
  sampling_ok cols lenkey (SWeighted (w_init cov)) ej ops L ->
  Forall (fun x => 0 <= fst x < 2 ^ 63 /\ seq_len lenkey (snd x) <= 2 ^ 52) (adds ops) ->
  let t := run (t_create cols lenkey maxlen (SWeighted (w_init cov)) ej) ops in
  forall b x j, holds t b -> In x b -> 0 <= j -> j + Z.of_nat L <= seq_len lenkey (snd x) ->
  let n := seq_len lenkey (snd x) - Z.of_nat L + 1 in
  exists lo hi, 0 <= lo <= hi /\ hi <= 2 ^ 53 /\ Z.abs (n * (hi - lo) - 2 ^ 53) < 2 * n /\
    forall k, 0 <= k < 2 ^ 53 ->
      (snd (s_sample (t_sampler t) 1 (Z.of_nat L) [(fst x, k)]) = Ok [(fst x, j, j + Z.of_nat L)]
       <-> lo <= k < hi).
Proof. intros S HS. exact window_uniform. Qed.
Print Assumptions C16_window_probability.

(** L = 1: the probability of each stored transition (sequence probability times
    the share of random() values) is 1 / size, up to 2^-52. *)
Theorem C16_transition_probability :
  forall (S : Type) (HS : Scalar S) (cols : list (column S)) (lenkey : string) (maxlen : Z)
         (ej : ejector) (ops : list (op S)),
  sampling_ok cols lenkey (SWeighted (w_init false)) ej ops 1 ->
  Forall (fun x => 0 <= fst x < 2 ^ 63 /\ seq_len lenkey (snd x) <= 2 ^ 52) (adds ops) ->
  let t := run (t_create cols lenkey maxlen (SWeighted (w_init false)) ej) ops in
  exists b, holds t b /\ sublist b (adds ops) /\
  forall x j, In x b -> 0 <= j < seq_len lenkey (snd x) ->
  exists p lo hi, In (fst x, p) (uniform_dist (weighted_of (t_sampler t))) /\
    0 <= lo <= hi /\ hi <= 2 ^ 53 /\
    (forall k, 0 <= k < 2 ^ 53 ->
      (snd (s_sample (t_sampler t) 1 1 [(fst x, k)]) = Ok [(fst x, j, j + 1)] <-> lo <= k < hi)) /\
    (Qabs (p * (inject_Z (hi - lo) / inject_Z (2 ^ 53)) - 1 / inject_Z (total_len lenkey b))
       <= inject_Z 2 / inject_Z (2 ^ 53))%Q.
Proof. intros S HS. exact transition_uniform. Qed.
Print Assumptions C16_transition_probability.

Definition ex_uniform : table Z :=
  run (ex_create 9 (SWeighted (w_init false)) (EFifo fifo_init)) ex_ops.

Example C16_example :
  sampling_ok ex_cols "actions" (SWeighted (w_init false)) (EFifo fifo_init) ex_ops 2 /\
  Forall (fun x => 0 <= fst x < 2 ^ 63 /\ seq_len "actions" (snd x) <= 2 ^ 52) (adds ex_ops) /\
  map fst (uniform_dist (weighted_of (t_sampler ex_uniform))) = [7; 8; 9] /\
  Forall2 Qeq (map snd (uniform_dist (weighted_of (t_sampler ex_uniform)))) [3 # 9; 2 # 9; 4 # 9]%Q.
Proof.
  split; [apply ex_sampling_ok; constructor|]. split; [|vm_compute; repeat constructor].
  apply Forall_forall. intros x Hx. simpl in Hx.
  repeat (destruct Hx as [<-|Hx]; [cbn [fst snd]; rewrite ex_seq_len; unfold wrap_id; simpl; lia|]).
  destruct Hx.
Qed.

(** Finding: with L > 1 windows of different episodes are not equally likely.
    With L = 2, episode 8 (2 transitions) has one window and probability 2/9,
    episode 7 (3 transitions) has two windows that share 3/9. *)
Theorem C16_windows_differ_finding :
  exists p7 p8,
    In (7, p7) (uniform_dist (weighted_of (t_sampler ex_uniform))) /\
    In (8, p8) (uniform_dist (weighted_of (t_sampler ex_uniform))) /\
    (p7 * (1 # 2) < p8 * 1)%Q.
Proof. eexists _, _. split; [|split]; [vm_compute; auto..|]. vm_compute. reflexivity. Qed.
Print Assumptions C16_windows_differ_finding.

(** ** C17: coverage sampling favours less-visited sequences.

    What holds: right after a sequence was added, the priorities are positive,
    sum to 1, belong to exactly the stored sequences, and of two sequences of
    equal length the one that was drawn less often so far is strictly more
    likely.  What is missing: "whenever it samples" - the priorities are only
    recomputed after an addition or ejection ([C17_stale_refuted]). *)
Theorem C17_after_add_partial :
  forall (S : Type) (HS : Scalar S) (cols : list (column S)) (lenkey : string) (maxlen : Z)
         (alpha : R) (ej : ejector) (ops : list (op S)) (id : Z) (sq : sequence S) (dr : list draw),
  (0 < alpha)%R ->
  config_ok cols lenkey -> fresh_ejector ej -> client_ok cols (ops ++ [OAdd id sq dr]) ->
  Forall (fun x => 0 <= fst x < 2 ^ 63 /\ 1 <= seq_len lenkey (snd x)) (adds (ops ++ [OAdd id sq dr])) ->
  let t0 := t_create cols lenkey maxlen (SWeighted (w_init true)) ej in
  snd (add_sequence (run t0 ops) id sq dr) = Ok tt ->
  let h := ops ++ [OAdd id sq dr] in
  let t := run t0 h in
  exists b, holds t b /\ sublist b (adds h) /\
    let dist := coverage_dist alpha (weighted_of (t_sampler t)) in
    map fst dist = map fst b /\
    Forall (fun p => 0 < snd p)%R dist /\ rsum (map snd dist) = 1%R /\
    forall x1 x2 p1 p2, In x1 b -> In x2 b -> In (fst x1, p1) dist -> In (fst x2, p2) dist ->
      seq_len lenkey (snd x1) = seq_len lenkey (snd x2) ->
      visits t0 h (fst x1) < visits t0 h (fst x2) -> (p2 < p1)%R.
Proof. intros S HS. exact coverage_fresh. Qed.
Print Assumptions C17_after_add_partial.

(** Sampling alone never changes the distribution. *)
Theorem C17_frozen_finding :
  forall (S : Type) (HS : Scalar S) (alpha : R) (t : table S) (count L : nat) (draws : list draw),
  coverage_dist alpha (weighted_of (t_sampler (fst (t_sample t count L draws)))) =
  coverage_dist alpha (weighted_of (t_sampler t)).
Proof. intros S HS. exact coverage_frozen. Qed.
Print Assumptions C17_frozen_finding.

(** Two episodes of the same length, then three draws of episode 7. *)
Definition cov_ops : list (op Z) :=
  [ OAdd 7 (ex_seq 0 2) []; OAdd 8 (ex_seq 10 2) []; OSample 3 1 [(7, 0); (7, 0); (7, 0)] ].
Definition cov_t0 : table Z := ex_create 10 (SWeighted (w_init true)) (EFifo fifo_init).

Example C17_example :
  config_ok ex_cols "actions" /\ client_ok ex_cols (cov_ops ++ [OAdd 9 (ex_seq 20 2) []]) /\
  Forall (fun x => 0 <= fst x < 2 ^ 63 /\ 1 <= seq_len "actions" (snd x))
         (adds (cov_ops ++ [OAdd 9 (ex_seq 20 2) []])) /\
  snd (add_sequence (run cov_t0 cov_ops) 9 (ex_seq 20 2) []) = Ok tt /\
  visits cov_t0 (cov_ops ++ [OAdd 9 (ex_seq 20 2) []]) 7 = 3 /\
  visits cov_t0 (cov_ops ++ [OAdd 9 (ex_seq 20 2) []]) 8 = 0.
Proof.
  split; [apply ex_config_ok|]. split; [solve_client|].
  split; [|split; [|split]; vm_compute; auto].
  apply Forall_forall. intros x Hx. simpl in Hx.
  repeat (destruct Hx as [<-|Hx]; [cbn [fst snd]; rewrite ex_seq_len; unfold wrap_id; simpl; lia|]).
  destruct Hx.
Qed.

(** The next call of sample() draws 7 and 8 with the same probability although 7
    was drawn three times and 8 never. *)
Theorem C17_stale_refuted :
  forall alpha : R,
  let t := run cov_t0 cov_ops in
  visits cov_t0 cov_ops 8 < visits cov_t0 cov_ops 7 /\
  exists p, coverage_dist alpha (weighted_of (t_sampler t)) = [(7, p); (8, p)].
Proof.
  intros alpha t. split; [vm_compute; auto|].
  eexists. unfold coverage_dist, coverage_weights. unfold t. vm_compute (run cov_t0 cov_ops).
  cbv [weighted_of t_sampler w_refresh w_dirty fst w_ids w_prios w_pcounts AdaptorModel.map2 map combine].
  reflexivity.
Qed.
Print Assumptions C17_stale_refuted.
