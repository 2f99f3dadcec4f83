(** * C08 - C14 and C18: what sampling the memory table returns. *)
From Verif Require Import Py PyLemmas MemModel MemSpec MemProofs MemRun MemSample MemSample2 MemSample3
  MemSample4 MemExamples.
Open Scope Z_scope.
Open Scope string_scope.
Open Scope list_scope.

(** The example history meets [sampling_ok] for windows of two transitions, for
    every sampler and ejector. *)
Lemma ex_col_ok from n : (1 <= n)%nat -> episode_ok ex_cols "actions" (ex_seq from n).
Proof.
  intros Hn. assert (E1 : seq_len "actions" (ex_seq from n) = Z.of_nat n) by apply ex_seq_len.
  assert (E2 : seq_len "obs" (ex_seq from n) = Z.of_nat n + 1).
  { unfold seq_len, ex_seq, zlen, ex_rows. simpl. rewrite map_length, seq_length. lia. }
  unfold episode_ok, ex_cols. repeat constructor; unfold col_ok; simpl; lia.
Qed.

Lemma ex_sampling_ok s e : fresh_sampler s -> fresh_ejector e ->
  sampling_ok ex_cols "actions" s e ex_ops 2.
Proof.
  intros Fs Fe. split; [apply ex_config_ok|]. split; auto. split; auto. split; [apply ex_client_ok|].
  split; [lia|]. apply Forall_forall. intros x Hx. simpl in Hx.
  repeat (destruct Hx as [<-|Hx]; [cbn [snd]; rewrite ex_seq_len; split; [apply ex_col_ok; lia|lia]|]).
  destruct Hx.
Qed.

(** ** C08: a sampled batch has the promised shape and is aligned across columns. *)
Theorem C08_sample_aligned :
  forall (S : Type) (HS : Scalar S) (cols : list (column S)) (lenkey : string) (maxlen : Z)
         (smp : sampler) (ej : ejector) (ops : list (op S)) (count L : nat) (draws : list draw)
         (out : dict string (array S)),
  sampling_ok cols lenkey smp ej ops L ->
  let t := run (t_create cols lenkey maxlen smp ej) ops in
  snd (t_sample t count L draws) = Ok out ->
  exists ws : list (window S), batch_of t lenkey count L ws /\
    forall c, In c cols -> is_base c -> rows_of_windows out L c ws.
Proof. intros S HS. exact sample_aligned. Qed.
Print Assumptions C08_sample_aligned.

(** All columns at once: the same windows account for every column of the batch,
    whatever its kind. *)
Theorem C08_whole_batch :
  forall (S : Type) (HS : Scalar S) (cols : list (column S)) (lenkey : string) (maxlen : Z)
         (smp : sampler) (ej : ejector) (ops : list (op S)) (count L : nat) (draws : list draw)
         (out : dict string (array S)),
  sampling_ok cols lenkey smp ej ops L ->
  let t := run (t_create cols lenkey maxlen smp ej) ops in
  snd (t_sample t count L draws) = Ok out ->
  exists ws : list (window S), batch_of t lenkey count L ws /\
    Forall (column_of_batch cols lenkey out L ws) cols.
Proof. intros S HS. exact sample_whole. Qed.
Print Assumptions C08_whole_batch.

(** Tag columns give one row per window: the first row of the sequence. *)
Theorem C08_sample_tags :
  forall (S : Type) (HS : Scalar S) (cols : list (column S)) (lenkey : string) (maxlen : Z)
         (smp : sampler) (ej : ejector) (ops : list (op S)) (count L : nat) (draws : list draw)
         (out : dict string (array S)) (c : column S),
  sampling_ok cols lenkey smp ej ops L ->
  let t := run (t_create cols lenkey maxlen smp ej) ops in
  snd (t_sample t count L draws) = Ok out ->
  In c cols -> c_kind c = KTag ->
  exists ws tags, batch_of t lenkey count L ws /\ dget out (c_name c) = Some tags /\
    List.length tags = count /\
    forall i w, nth_error ws i = Some w ->
      nth_error tags i = row_at (column_data c (w_seq w)) 0 /\ nth_error tags i <> None.
Proof. intros S HS. exact sample_tag. Qed.
Print Assumptions C08_sample_tags.

(** Sampling a non-empty table succeeds: the only "error" left is a vector of
    random outcomes that the generators cannot return ([Diverges]). *)
Theorem C08_sample_succeeds :
  forall (S : Type) (HS : Scalar S) (cols : list (column S)) (lenkey : string) (maxlen : Z)
         (smp : sampler) (ej : ejector) (ops : list (op S)) (count L : nat) (draws : list draw)
         (er : exn) (b : buffer S),
  sampling_ok cols lenkey smp ej ops L ->
  Forall (fun x => fst x < 2 ^ 63) (adds ops) -> Forall (fun x => - 2 ^ 63 <= fst x) (adds ops) ->
  let t := run (t_create cols lenkey maxlen smp ej) ops in
  holds t b -> b <> [] ->
  snd (t_sample t count L draws) = Err er -> er = Diverges.
Proof. intros S HS. exact sample_total. Qed.
Print Assumptions C08_sample_succeeds.

Example C08_example :
  sampling_ok ex_cols "actions" (SWeighted (w_init false)) (EFifo fifo_init) ex_ops 2 /\
  snd (t_sample (run (ex_create 9 (SWeighted (w_init false)) (EFifo fifo_init)) ex_ops) 2 2
         [(9, 2 ^ 53 - 1); (7, 0)]) =
  Ok [("obs", [[22]; [23]; [0]; [1]]); ("actions", [[122]; [123]; [100]; [101]]);
      ("next_obs", [[23]; [24]; [1]; [2]]); ("masks", [[1]; [0]; [1]; [1]])].
Proof.
  split; [apply ex_sampling_ok; constructor|]. vm_compute. reflexivity.
Qed.

(** ** C09: sample windows are always inside the episode, floating point included. *)
Theorem C09_offset_in_bounds :
  forall k n : Z, 0 <= k < 2 ^ 53 -> 1 <= n <= 2 ^ 53 -> 0 <= int_rand_mul k n < n.
Proof. exact int_rand_bounds. Qed.
Print Assumptions C09_offset_in_bounds.

Theorem C09_offset_reachable :
  forall n j : Z, 1 <= n <= 2 ^ 52 -> 0 <= j < n ->
  exists k, 0 <= k < 2 ^ 53 /\ int_rand_mul k n = j.
Proof. exact int_rand_reach. Qed.
Print Assumptions C09_offset_reachable.

(** Whatever the sampler: every window of a batch lies inside a stored episode. *)
Theorem C09_windows_inside :
  forall (S : Type) (HS : Scalar S) (cols : list (column S)) (lenkey : string) (maxlen : Z)
         (smp : sampler) (ej : ejector) (ops : list (op S)) (count L : nat) (draws : list draw)
         (out : dict string (array S)),
  sampling_ok cols lenkey smp ej ops L ->
  let t := run (t_create cols lenkey maxlen smp ej) ops in
  snd (t_sample t count L draws) = Ok out ->
  exists s' ws b, s_sample (t_sampler t) count (Z.of_nat L) draws =
      (s', Ok (map (fun w => ((fst (fst w), w_start w), w_start w + Z.of_nat L)) ws)) /\
    holds t b /\ Forall (window_in lenkey b (Z.of_nat L)) ws.
Proof. intros S HS. exact windows_inside. Qed.
Print Assumptions C09_windows_inside.

(** For a whole table with the uniform or coverage sampler: every combination of
    windows of the stored episodes is the outcome of some random draw (C08
    says that nothing else is). *)
Theorem C09_every_window_reachable :
  forall (S : Type) (HS : Scalar S) (cols : list (column S)) (lenkey : string) (maxlen : Z)
         (cov : bool) (ej : ejector) (ops : list (op S)) (L : nat),
  sampling_ok cols lenkey (SWeighted (w_init cov)) ej ops L ->
  Forall (fun x => - 2 ^ 63 <= fst x < 2 ^ 63 /\ seq_len lenkey (snd x) <= 2 ^ 52) (adds ops) ->
  let t := run (t_create cols lenkey maxlen (SWeighted (w_init cov)) ej) ops in
  exists b, holds t b /\ sublist b (adds ops) /\
  forall ws, Forall (window_in lenkey b (Z.of_nat L)) ws ->
  exists draws out, snd (t_sample t (List.length ws) L draws) = Ok out /\
    forall c, In c cols -> is_base c -> rows_of_windows out L c ws.
Proof. intros S HS. exact sample_reach. Qed.
Print Assumptions C09_every_window_reachable.

Example C09_example :
  sampling_ok ex_cols "actions" (SWeighted (w_init true)) (EFifo fifo_init) ex_ops 2 /\
  Forall (fun x => - 2 ^ 63 <= fst x < 2 ^ 63 /\ seq_len "actions" (snd x) <= 2 ^ 52) (adds ex_ops) /\
  (* the largest value of random() and an episode of three windows *)
  int_rand_mul (2 ^ 53 - 1) 3 = 2.
Proof.
  split; [apply ex_sampling_ok; constructor|]. split; [|vm_compute; auto].
  apply Forall_forall. intros x Hx. simpl in Hx.
  repeat (destruct Hx as [<-|Hx]; [cbn [fst snd]; rewrite ex_seq_len; unfold wrap_id; simpl; lia|]).
  destruct Hx.
Qed.

(** ** C10: sampling a too short episode never fabricates data.

    Proved: with a FIFO sampler, and with the weighted samplers when the window is at
    most two transitions longer than the episode and the episode has at least two. *)
Theorem C10_short_weighted_partial :
  forall (S : Type) (HS : Scalar S) (cols : list (column S)) (lenkey : string) (maxlen : Z)
         (cov : bool) (ej : ejector) (ops : list (op S)) (count L : nat) (draws : list draw),
  config_ok cols lenkey -> fresh_ejector ej -> client_ok cols ops -> (1 <= count)%nat ->
  let t := run (t_create cols lenkey maxlen (SWeighted (w_init cov)) ej) ops in
  exists b, holds t b /\ sublist b (adds ops) /\
  forall x k, In x b -> In (fst x, k) draws ->
    2 <= seq_len lenkey (snd x) < Z.of_nat L -> Z.of_nat L <= seq_len lenkey (snd x) + 2 ->
    forall out, snd (t_sample t count L draws) <> Ok out.
Proof. intros S HS. exact short_weighted. Qed.
Print Assumptions C10_short_weighted_partial.

Theorem C10_short_fifo_partial :
  forall (S : Type) (HS : Scalar S) (cols : list (column S)) (lenkey : string) (maxlen : Z)
         (pe ro : bool) (ej : ejector) (ops : list (op S)) (count L : nat) (draws : list draw),
  config_ok cols lenkey -> fresh_ejector ej -> client_ok cols ops -> (1 <= count)%nat ->
  (1 <= L)%nat ->
  let t := run (t_create cols lenkey maxlen (SFifo fifo_init pe ro) ej) ops in
  exists b, holds t b /\ sublist b (adds ops) /\
  (pe = true -> (List.length b <= count)%nat ->
     forall x, In x b -> seq_len lenkey (snd x) < Z.of_nat L ->
     forall out, snd (t_sample t count L draws) <> Ok out) /\
  (forall x, nth_error b 0 = Some x -> 2 <= seq_len lenkey (snd x) < Z.of_nat L ->
     forall out, snd (t_sample t count L draws) <> Ok out).
Proof. intros S HS. exact short_fifo. Qed.
Print Assumptions C10_short_fifo_partial.

Example C10_example :
  (* the episode of two transitions cannot give a window of three *)
  client_ok ex_cols ex_ops /\
  snd (t_sample (run (ex_create 9 (SWeighted (w_init false)) (EFifo fifo_init)) ex_ops) 1 3 [(8, 0)])
  = Err ValueError.
Proof. split; [apply ex_client_ok|vm_compute; auto]. Qed.

(** A table with one column and a uniform sampler. *)
Definition one_col : list (column Z) := [mkCol "actions" 1 idz KBase].
Lemma one_col_ok : config_ok one_col "actions".
Proof.
  constructor.
  - repeat constructor; simpl; tauto.
  - intros c [<-|[]]; simpl; lia.
  - exists (mkCol "actions" 1 idz KBase). unfold is_base. simpl. auto.
  - intros c tg m [<-|[]]; discriminate.
Qed.

(** Finding: an episode of one transition satisfies a request for windows of any
    length: its only row is repeated (numpy broadcasting). *)
Theorem C10_broadcast_refuted :
  exists (ops : list (op Z)) (draws : list draw),
  config_ok one_col "actions" /\ client_ok one_col ops /\
  let t := run (t_create one_col "actions" 10 (SWeighted (w_init false)) (EFifo fifo_init)) ops in
  holds t [(1, [("actions", [[42]])])] /\
  snd (t_sample t 1 3 draws) = Ok [("actions", [[42]; [42]; [42]])].
Proof.
  exists [OAdd 1 [("actions", [[42]])] []], [(1, 0)].
  split; [apply one_col_ok|]. split; [|split].
  - split; [repeat constructor; discriminate|]. split; [|simpl; repeat constructor; simpl; tauto].
    simpl. constructor; [|constructor]. split; [repeat constructor; simpl; tauto|].
    split; [simpl; tauto|].
    intros c fr Hc E. simpl in Hc. destruct Hc as [<-|[]]. simpl in E. inversion E; subst. repeat constructor.
  - intros c Hc. simpl in Hc. destruct Hc as [<-|[]]. vm_compute. auto.
  - vm_compute. auto.
Qed.
Print Assumptions C10_broadcast_refuted.

(** Finding: with a window three or more transitions longer than the episode the
    random offset can be -1, and the last row is repeated. *)
Theorem C10_negative_offset_refuted :
  exists (ops : list (op Z)) (draws : list draw),
  config_ok one_col "actions" /\
  let t := run (t_create one_col "actions" 10 (SWeighted (w_init false)) (EFifo fifo_init)) ops in
  holds t [(1, [("actions", [[41]; [42]])])] /\
  snd (t_sample t 1 5 draws) = Ok [("actions", [[42]; [42]; [42]; [42]; [42]])].
Proof.
  exists [OAdd 1 [("actions", [[41]; [42]])] []], [(1, 2 ^ 53 - 1)].
  split; [apply one_col_ok|]. split.
  - intros c Hc. simpl in Hc. destruct Hc as [<-|[]]. vm_compute. auto.
  - vm_compute. auto.
Qed.
Print Assumptions C10_negative_offset_refuted.

(** ** C11: next-observation rows are the successors of observation rows. *)
Theorem C11_next_is_successor :
  forall (S : Type) (HS : Scalar S) (cols : list (column S)) (lenkey : string) (maxlen : Z)
         (smp : sampler) (ej : ejector) (ops : list (op S)) (count L : nat) (draws : list draw)
         (out : dict string (array S)) (c d : column S),
  sampling_ok cols lenkey smp ej ops L ->
  let t := run (t_create cols lenkey maxlen smp ej) ops in
  snd (t_sample t count L draws) = Ok out ->
  In d cols -> is_base d -> In c cols -> c_kind c = KVirt (c_name d) MNext ->
  exists ws rows nexts, batch_of t lenkey count L ws /\
    dget out (c_name d) = Some rows /\ dget out (c_name c) = Some nexts /\
    List.length rows = (count * L)%nat /\ List.length nexts = (count * L)%nat /\
    forall i k w, nth_error ws i = Some w -> (k < L)%nat ->
      let step := w_start w + Z.of_nat k in
      nth_error rows (i * L + k) = row_at (column_data d (w_seq w)) step /\
      nth_error nexts (i * L + k) = row_at (column_data d (w_seq w)) (step + 1) /\
      nth_error nexts (i * L + k) <> None.
Proof. intros S HS. exact sample_next. Qed.
Print Assumptions C11_next_is_successor.

(** ** C12: synthetic dones and masks mark exactly the last transition. *)
Theorem C12_dones_and_masks :
  forall (S : Type) (HS : Scalar S) (cols : list (column S)) (lenkey : string) (maxlen : Z)
         (smp : sampler) (ej : ejector) (ops : list (op S)) (count L : nat) (draws : list draw)
         (out : dict string (array S)) (c : column S) (target : string) (mask : bool),
  sampling_ok cols lenkey smp ej ops L ->
  let t := run (t_create cols lenkey maxlen smp ej) ops in
  snd (t_sample t count L draws) = Ok out ->
  In c cols -> c_kind c = KVirt target (if mask then MMask else MDones) ->
  exists ws flags, batch_of t lenkey count L ws /\ dget out (c_name c) = Some flags /\
    List.length flags = (count * L)%nat /\
    forall i k w, nth_error ws i = Some w -> (k < L)%nat ->
      let last := (w_start w + Z.of_nat k =? seq_len lenkey (w_seq w) - 1)%Z in
      nth_error flags (i * L + k) =
        Some [if mask then (if last then s_zero else s_one) else (if last then s_one else s_zero)] /\
      (last = true -> k = (L - 1)%nat).
Proof. intros S HS. exact sample_dones. Qed.
Print Assumptions C12_dones_and_masks.

(** Example for C11 and C12: the batch of [C08_example] has the final observation 24 of
    episode 9 as successor of 23, and mask 0 for its last transition only. *)
Example C11_C12_example :
  In (mkCol "obs" 1 idz KBase) ex_cols /\
  In (mkCol "next_obs" 1 idz (KVirt "obs" MNext)) ex_cols /\
  In (mkCol "masks" 1 idz (KVirt "actions" MMask)) ex_cols.
Proof. simpl. auto 10. Qed.

(** ** C13: N-step tables return the observation right after each window. *)
Theorem C13_next_after_window :
  forall (S : Type) (HS : Scalar S) (cols : list (column S)) (lenkey : string) (maxlen : Z)
         (smp : sampler) (ej : ejector) (ops : list (op S)) (count L : nat) (draws : list draw)
         (out : dict string (array S)) (c d : column S),
  sampling_ok cols lenkey smp ej ops L ->
  let t := run (t_create cols lenkey maxlen smp ej) ops in
  snd (t_sample t count L draws) = Ok out ->
  In d cols -> is_base d -> In c cols -> c_kind c = KVirt (c_name d) MNextLast ->
  exists ws lasts, batch_of t lenkey count L ws /\ dget out (c_name c) = Some lasts /\
    List.length lasts = count /\
    forall i w, nth_error ws i = Some w ->
      nth_error lasts i = row_at (column_data d (w_seq w)) (w_start w + Z.of_nat L) /\
      nth_error lasts i <> None.
Proof. intros S HS. exact sample_next_last. Qed.
Print Assumptions C13_next_after_window.

Definition nstep_cols : list (column Z) :=
  [ mkCol "obs" 1 idz KBase; mkCol "actions" 1 idz KBase; mkCol "id" 1 idz KTag;
    mkCol "next_obs" 1 idz (KVirt "obs" MNextLast) ].

Example C13_example :
  let seq := [("obs", ex_rows 0 5); ("actions", ex_rows 100 4); ("id", [[77]])] in
  episode_ok nstep_cols "actions" seq /\
  snd (t_sample (run (t_create nstep_cols "actions" 10 (SWeighted (w_init false)) (EFifo fifo_init))
         [OAdd 1 seq []]) 2 3 [(1, 0); (1, 2 ^ 53 - 1)]) =
  Ok [("obs", [[0]; [1]; [2]; [1]; [2]; [3]]); ("actions", [[100]; [101]; [102]; [101]; [102]; [103]]);
      ("id", [[77]; [77]]); ("next_obs", [[3]; [4]])].
Proof.
  split; [|vm_compute; reflexivity].
  unfold episode_ok, nstep_cols. repeat constructor; vm_compute; congruence.
Qed.

(** ** C14: NextNElementWrapper is exact or raises. *)
Theorem C14_nextn_exact :
  forall (S : Type) (HS : Scalar S) (arr : array S) (n a b : Z), 0 <= n -> 0 <= a <= b ->
  match read_mapped (MNextN n) arr a b with
  | Err e => e = IndexError /\ zlen arr < b + n \/ e = IndexError /\ a = b
  | Ok rows => zlen rows = b - a /\
      forall k, 0 <= k < b - a -> row_at rows k = row_at arr (a + n + k) /\ row_at rows k <> None
  end.
Proof. intros S HS. exact nextn_exact. Qed.
Print Assumptions C14_nextn_exact.

Example C14_example :
  read_mapped (MNextN 2) [[0]; [1]; [2]; [3]] 0 2 = Ok [[2]; [3]] /\
  read_mapped (MNextN 2) [[0]; [1]; [2]; [3]] 1 3 = Err IndexError.
Proof. vm_compute. auto. Qed.

(** Finding: with a negative n (accepted by with_n) the bounds check is one-sided:
    the slice silently returns too few rows. *)
Theorem C14_negative_n_finding :
  exists (arr rows : array Z) (n a b : Z), 0 <= a <= b /\
  read_mapped (MNextN n) arr a b = Ok rows /\ zlen rows <> b - a.
Proof.
  exists [[0]; [1]; [2]], [], (-1), 0, 1. split; [lia|]. split; [vm_compute; auto|discriminate].
Qed.
Print Assumptions C14_negative_n_finding.

(** ** C18: FIFO sampling visits episodes in insertion order. *)
Theorem C18_fifo_order :
  forall (S : Type) (HS : Scalar S) (cols : list (column S)) (lenkey : string) (maxlen : Z)
         (per_episode random_offset : bool) (ej : ejector) (ops : list (op S)) (count L : nat)
         (draws : list draw) (out : dict string (array S)),
  sampling_ok cols lenkey (SFifo fifo_init per_episode random_offset) ej ops L ->
  let t := run (t_create cols lenkey maxlen (SFifo fifo_init per_episode random_offset) ej) ops in
  snd (t_sample t count L draws) = Ok out ->
  exists b ws, holds t b /\ sublist b (adds ops) /\ List.length ws = count /\
    (forall c, In c cols -> is_base c -> rows_of_windows out L c ws) /\
    forall i w, nth_error ws i = Some w ->
      window_in lenkey b (Z.of_nat L) w /\
      (per_episode = true -> nth_error b (i mod List.length b) = Some (fst w)) /\
      (per_episode = false ->
         let pass := tiling lenkey (Z.of_nat L) b in
         exists w', nth_error pass (i mod List.length pass) = Some w' /\ fst w = fst w' /\
                    (random_offset = false -> w = w')).
Proof. intros S HS. exact sample_fifo_order. Qed.
Print Assumptions C18_fifo_order.

Example C18_example :
  sampling_ok ex_cols "actions" (SFifo fifo_init false false) (EFifo fifo_init) ex_ops 2 /\
  map (fun w => (fst (fst w), w_start w)) (tiling "actions" 2 (adds ex_ops)) = [(7, 0); (8, 0); (9, 0); (9, 2)] /\
  exists out, snd (t_sample (run (ex_create 9 (SFifo fifo_init false false) (EFifo fifo_init)) ex_ops)
                     5 2 []) = Ok out /\
  dget out "actions" = Some [[100]; [101]; [110]; [111]; [120]; [121]; [122]; [123]; [100]; [101]].
Proof.
  split; [apply ex_sampling_ok; constructor|]. split; [vm_compute; auto|].
  eexists. split; [vm_compute; reflexivity|vm_compute; reflexivity].
Qed.
