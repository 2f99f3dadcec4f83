(** * ShareProps: learners and collectors that share one table (C134), and real time for C26 *)
From Verif Require Import Py MemModel MemSpec MemExamples ConcModel ConcSpec ConcProofs ShareSpec ShareProofs ShareExamples.
Open Scope string_scope.
Open Scope list_scope.
Open Scope Z_scope.

(** ** C26: the order respects real time.  Whatever happens after a configuration [c],
    the calls that have returned by then come first in the order that explains everything. *)
Theorem C26_real_time :
  forall (S : Type) (HS : Scalar S) (mic : op S -> list (micro S)) (t0 : table S)
         (progs : nat -> list (op S)) (c c' : config S),
  micro_ok mic -> csteps mic (start t0 progs) c -> csteps mic c c' ->
  exists order later,
    (forall i, th_log (cf_threads c i) = replies_of i (snd (replay t0 order))) /\
    (forall i, th_log (cf_threads c' i) = replies_of i (snd (replay t0 (order ++ later)))) /\
    (cf_holder c' = None -> cf_table c' = fst (replay t0 (order ++ later))).
Proof. exact @real_time. Qed.
Print Assumptions C26_real_time.

(** ** C134: a batch drawn while collectors are running consists of windows of sequences
    whose additions had returned when the call began, in every column. *)
Theorem C134_shared_batch :
  forall (S : Type) (HS : Scalar S) (cols : list (column S)) (lenkey : string) (maxlen : Z) (smp : sampler) (ej : ejector)
         (progs : nat -> list (op S)) (c c1 c2 : config S) (i count L : nat) (draws : list draw) (out : dict string (array S)),
  config_ok cols lenkey -> fresh_sampler smp -> fresh_ejector ej ->
  cooperating cols progs -> long_enough cols lenkey L progs -> (1 <= L)%nat ->
  (* thread [i] begins to sample in [c], and in [c2] has got a batch *)
  csteps op_micros (start (t_create cols lenkey maxlen smp ej) progs) c ->
  cstep op_micros c c1 -> begins c c1 i (OSample count L draws) -> csteps op_micros c1 c2 ->
  nth_error (th_log (cf_threads c2 i)) (List.length (th_log (cf_threads c i))) = Some (OSample count L draws, Ok (RBatch out)) ->
  exists ws : list (window S), List.length ws = count
    /\ Forall (fun w => was_added c (fst (fst w)) (w_seq w) /\ 0 <= w_start w
                        /\ w_start w + Z.of_nat L <= seq_len lenkey (w_seq w)) ws
    /\ Forall (column_of_batch cols lenkey out L ws) cols.
Proof. exact @shared_batch. Qed.
Print Assumptions C134_shared_batch.

(** When all threads are done, a FIFO table holds the longest suffix that fits of some merge
    of what they added. *)
Theorem C134_final_contents :
  forall (S : Type) (HS : Scalar S) (cols : list (column S)) (lenkey : string) (maxlen : Z) (smp : sampler)
         (progs : nat -> list (op S)) (c : config S),
  config_ok cols lenkey -> fresh_sampler smp -> cooperating cols progs ->
  (forall i n, ~ In (OResize n) (progs i)) ->
  (forall i k s, In (k, s) (additions (progs i)) -> seq_len lenkey s <= maxlen) ->
  csteps op_micros (start (t_create cols lenkey maxlen smp (EFifo fifo_init)) progs) c -> finished c ->
  exists h, merged progs h /\ holds (cf_table c) (longest_suffix lenkey maxlen (map snd h)).
Proof. exact @shared_final. Qed.
Print Assumptions C134_final_contents.

Example C134_ex_threads : cooperating ex_cols sh_progs /\ long_enough ex_cols "actions" 2 sh_progs.
Proof.
  split; [split; [|split; [|split]]|].
  - intros i I. destruct i as [|[|[|[|i]]]]; cbn in I; try tauto; destruct I as [E|I]; try discriminate; try destruct I; try discriminate; tauto.
  - intros i k s I. destruct (sh_additions _ _ _ I) as [[_ [[_ ->]|[_ ->]]]|[_ [_ ->]]]; apply ex_seq_ok.
  - intros i. destruct i as [|[|[|[|i]]]]; cbn; repeat constructor; cbn; try tauto; try lia.
  - intros i j k Ne I1 I2. destruct (sh_keys _ _ I1) as [s J1], (sh_keys _ _ I2) as [s' J2].
    destruct (sh_additions _ _ _ J1) as [[-> [[-> _]|[-> _]]]|[-> [-> _]]], (sh_additions _ _ _ J2) as [[-> [[Q _]|[Q _]]]|[-> [Q _]]];
      try discriminate; apply Ne; reflexivity.
  - intros i k s I. destruct (sh_additions _ _ _ I) as [[_ [[_ ->]|[_ ->]]]|[_ [_ ->]]]; (split; [|rewrite ex_seq_len; lia]);
      repeat (apply Forall_cons; [unfold col_ok, seq_len, zlen; cbn; lia|]); apply Forall_nil.
Qed.

(** Threads 1 and 3 collect, thread 2 learns; it samples after two of the three episodes. *)
Example C134_ex :
  csteps op_micros sh_start sh_c2 /\ cstep op_micros sh_c2 sh_c3 /\ begins sh_c2 sh_c3 2 sh_sample
  /\ csteps op_micros sh_c3 sh_c5 /\ finished sh_c5
  /\ List.length (th_log (cf_threads sh_c2 2)) = 0%nat
  /\ th_log (cf_threads sh_c5 2) =
     [(sh_sample, Ok (RBatch [("obs", [[10]; [11]; [1]; [2]]); ("actions", [[110]; [111]; [101]; [102]]);
                              ("next_obs", [[11]; [12]; [2]; [3]]); ("masks", [[1]; [0]; [1]; [0]])]))]
  /\ (forall i n, ~ In (OResize n) (sh_progs i))
  /\ (forall i k s, In (k, s) (additions (sh_progs i)) -> seq_len "actions" s <= 6).
Proof.
  split. { apply (sh_call sh_start 1 (OAdd 7 (ex_seq 0 3) []) [OAdd 9 (ex_seq 20 4) []] []); [reflexivity|reflexivity|].
           apply (sh_call sh_c1 3 (OAdd 8 (ex_seq 10 2) []) [] []); [reflexivity|reflexivity|]. apply csteps_refl. }
  split. { apply sh_begin; reflexivity. }
  split. { split; [reflexivity|]. eexists. reflexivity. }
  split. { eapply csteps_trans; [apply sh_end|]. 
           apply (sh_call sh_c4 1 (OAdd 9 (ex_seq 20 4) []) [] (th_log (cf_threads sh_c4 1))); [reflexivity|reflexivity|]. apply csteps_refl. }
  split. { split; [reflexivity|]. intros i. destruct i as [|[|[|[|i]]]]; reflexivity. }
  split; [reflexivity|]. split; [vm_compute; reflexivity|]. split.
  - intros i n I. destruct i as [|[|[|[|i]]]]; cbn in I; try tauto; destruct I as [E|I]; try discriminate; try destruct I; try discriminate; tauto.
  - intros i k s I. destruct (sh_additions _ _ _ I) as [[_ [[_ ->]|[_ ->]]]|[_ [_ ->]]]; rewrite ex_seq_len; lia.
Qed.
