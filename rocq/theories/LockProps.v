(** * LockProps: the theorems for C57 and C58, and cases that meet their hypotheses *)
From Verif Require Import Py LockModel LockSpec LockProofs LockTraced.
Open Scope list_scope.
Open Scope Z_scope.

(** ** C57 *)
(** Whatever is done under the lock, by whatever threads, under every schedule: the
    results are those of the calls made one after the other in some order. *)
Theorem C57_atomic : forall (S L : Type) (d : S) (programs : list (list (call S L))) (sched : list nat),
  as_if_alone d programs (ticks sched (start d programs)).
Proof. exact (@linearizable). Qed.
Print Assumptions C57_atomic.

(** What the methods do when nobody else is around. *)
Theorem C57_methods : forall (A : Type) (v d : Z) (x : A) (c : option A),
  alone (ai_increment v) d = (mkRegs d d, d + v)
  /\ snd (alone (ai_iadd v) d) = d + v /\ snd (alone (ai_isub v) d) = d - v
  /\ (rg_result (fst (alone (ai_swap v) d)), snd (alone (ai_swap v) d)) = (d, v)
  /\ alone (@ac_take A) c = (c, None) /\ alone (@ac_read A) c = (c, c)
  /\ snd (alone (ac_set x) c) = Some x /\ alone (lr_swap x) c = (c, Some x).
Proof. exact methods_alone. Qed.
Print Assumptions C57_methods.

Theorem C57_increments : forall (initial : Z) (incs : list (list Z)) (sched : list nat),
  Forall (Forall (fun v => 0 < v)) incs ->
  let s := ticks sched (start initial (map (map ai_increment) incs)) in
  NoDup (returned s)
  /\ (finished s -> sy_data s = initial + zsum (concat incs)
                   /\ List.length (returned s) = List.length (concat incs)).
Proof. exact atomic_int. Qed.
Print Assumptions C57_increments.

(** What one thread puts into an AtomicContainer, at most one thread takes out. *)
Theorem C57_take_once : forall (A : Type) (sets : list (list A)) (takers : list nat) (sched : list nat),
  NoDup (concat sets) ->
  let s := ticks sched (start None (map (map (@ac_set A)) sets ++ map (repeat (@ac_take A)) takers)) in
  NoDup (flat_map (fun t => taken (th_done t)) (skipn (List.length sets) (sy_threads s))).
Proof. exact (@take_once). Qed.
Print Assumptions C57_take_once.

(** Nobody is stuck: as long as some thread has something to do, some thread can go on. *)
Theorem C57_progress : forall (S L : Type) (d : S) (programs : list (list (call S L))) (sched : list nat),
  finished (ticks sched (start d programs)) \/ exists i, tick i (ticks sched (start d programs)) <> ticks sched (start d programs).
Proof. exact (@progress). Qed.
Print Assumptions C57_progress.

Definition C57_end : system Z regs :=
  ticks [0;1;0;1;0;0;0;1;1;1;1;1;1;0;0;0;0;0;0;1;1;1;1;1;0;0;0;0;0;0]%nat
        (start 10 (map (map ai_increment) [[1; 5]; [2; 3]])).
Example C57_ex :
  map (fun t => (List.length (th_todo t), match th_in t with None => true | _ => false end)) (sy_threads C57_end)
    = [(0%nat, true); (0%nat, true)]
  /\ returned C57_end = [10; 16; 11; 13] /\ sy_data C57_end = 21
  /\ sy_lock (ticks [0;1]%nat (start 10 (map (map ai_increment) [[1]; [2]]))) = Some 0%nat.
Proof. split; [|split; [|split]]; vm_compute; reflexivity. Qed.

(** ** C58 *)
Theorem C58_block_time : forall (counts : list nat) (es : list event),
  let s0 := traced_start counts in let s := traced_run es s0 in
  all_outside s -> tl_block s = clock_at Enters es s0 - clock_at Asks es s0.
Proof. exact block_time. Qed.
Print Assumptions C58_block_time.

(** Missing: threads that enter while another is still in [__exit__]. *)
Theorem C58_exec_time_partial : forall (counts : list nat) (es : list event),
  let s0 := traced_start counts in let s := traced_run es s0 in
  always calm es s0 -> all_outside s ->
  tl_exec s = clock_at Leaves es s0 - clock_at Enters es s0.
Proof. exact exec_time. Qed.
Print Assumptions C58_exec_time_partial.

Theorem C58_one_thread_partial : forall (n : nat) (es : list event),
  let s0 := traced_start [n] in let s := traced_run es s0 in
  all_outside s -> tl_exec s = clock_at Leaves es s0 - clock_at Enters es s0.
Proof. exact exec_time_one. Qed.
Print Assumptions C58_one_thread_partial.

(** Two threads: one leaves while the other enters.  The accumulated time is not
    the time measured; with a clock that only goes forward it can even be negative. *)
Theorem C58_exec_time_refuted : exists es,
  forward es /\
  let s0 := traced_start [1%nat; 1%nat] in let s := traced_run es s0 in
  all_outside s /\ tl_exec s <> clock_at Leaves es s0 - clock_at Enters es s0.
Proof. exact exec_time_wrong. Qed.
Print Assumptions C58_exec_time_refuted.

Theorem C58_negative_refuted : exists es,
  forward es /\
  let s := traced_run es (traced_start [1%nat; 1%nat]) in
  tl_exec s < 0 /\ exists n now, nth_error (tl_threads s) 1 = Some (n, Inside now).
Proof. exact exec_time_negative. Qed.
Print Assumptions C58_negative_refuted.

Definition C58_events : list event :=
  map Step [0;0;0;0;0;0]%nat ++ [Step 1%nat; Advance 7; Step 0%nat] ++ map Step [0;0;0;0]%nat
  ++ [Step 1%nat; Advance 2] ++ map Step [1;1;1;1]%nat ++ [Advance 5] ++ map Step [1;1;1;1;1]%nat.
Example C58_ex :
  let s0 := traced_start [1; 1]%nat in let s := traced_run C58_events s0 in
  map snd (tl_threads s) = [Outside; Outside] /\ always calm C58_events s0 /\ tl_block s = 9 /\ tl_exec s = 12.
Proof.
  cbv zeta. split; [|split; [|split]]; [|apply alwaysb_ok| |]; vm_compute; reflexivity.
Qed.
