(** * C19 to C26: exporting, importing, clearing, crashing and sharing a table. *)
From Verif Require Import Py PyLemmas MemModel MemSpec MemProofs MemRun MemSample2 V1Spec V1Proofs
  LegacyProofs ConcModel ConcSpec ConcProofs MemExamples.
Open Scope string_scope.
Open Scope list_scope.
Open Scope Z_scope.

(** Three episodes (identities 7, 8, 9) of 3, 2 and 4 transitions. *)
Definition ex_table (maxlen : Z) (s : sampler) (e : ejector) : table Z := run (ex_create maxlen s e) ex_ops.
Definition fifo_s : sampler := SFifo fifo_init true false.
Definition unif_s : sampler := SWeighted (w_init false).
Definition fifo_e : ejector := EFifo fifo_init.
Definition unif_e : ejector := EWeighted (w_init false).

Lemma ex_export_ok smp ej : fresh_sampler smp -> fresh_ejector ej ->
  export_ok ex_cols "actions" smp ej ex_ops.
Proof.
  intros Fs Fe. split; [apply ex_config_ok|]. split.
  { intros c Ic. simpl in Ic. repeat (destruct Ic as [<-|Ic]; [intros x; reflexivity|]). destruct Ic. }
  split; auto. split; auto. split; [apply ex_client_ok|].
  unfold exportable. change (adds ex_ops) with [(7, ex_seq 0 3); (8, ex_seq 10 2); (9, ex_seq 20 4)].
  repeat constructor; try (intros c Ic; simpl in Ic; destruct Ic as [<-|[<-|[]]]; vm_compute; discriminate);
    simpl; try lia.
Qed.

(** ** C19: store/restore round-trips *)
Theorem C19_roundtrip :
  forall (S : Type) (HS : Scalar S) (cols : list (column S)) (lenkey : string)
         (smp : sampler) (ej : ejector) (ops : list (op S)) (maxlen maxlen' : Z),
  export_ok cols lenkey smp ej ops ->
  let t := run (t_create cols lenkey maxlen smp ej) ops in
  0 < t_size t -> t_size t <= maxlen' ->
  exists f, serialize t = Ok f /\ forall draws,
  exists t', deserialize (t_create cols lenkey maxlen' smp ej) f None draws = (t', Ok tt) /\
    t_data t' = t_data t /\ t_size t' = t_size t /\ t_lengths t' = t_lengths t /\
    sampler_ids (t_sampler t') = sampler_ids (t_sampler t) /\
    ejector_ids (t_ejector t') = ejector_ids (t_ejector t) /\
    (ej = EFifo fifo_init -> maxlen' = t_maxlen t -> forall ops2, client_ok cols (ops ++ ops2) ->
       t_data (run t' ops2) = t_data (run t ops2) /\ t_size (run t' ops2) = t_size (run t ops2)).
Proof. intros S HS. exact roundtrip. Qed.
Print Assumptions C19_roundtrip.

Example C19_example :
  export_ok ex_cols "actions" unif_s fifo_e ex_ops /\
  0 < t_size (ex_table 20 unif_s fifo_e) <= 20 /\
  match serialize (ex_table 20 unif_s fifo_e) with
  | Ok f => t_data (fst (deserialize (ex_create 20 unif_s fifo_e) f None [])) =
            t_data (ex_table 20 unif_s fifo_e)
  | Err _ => False
  end.
Proof. split; [apply ex_export_ok; constructor|]. vm_compute. intuition discriminate. Qed.

(** full() is not part of the exported state: a table that is full is restored
    as one that is not. *)
Theorem C19_full_finding :
  t_full (ex_table 8 fifo_s fifo_e) = true /\
  match serialize (ex_table 8 fifo_s fifo_e) with
  | Ok f => t_full (fst (deserialize (ex_create 8 fifo_s fifo_e) f None [])) = false
  | Err _ => False
  end.
Proof. vm_compute. auto. Qed.
Print Assumptions C19_full_finding.

(** ** C20: exactly the tables in which every data column holds at least one
    row can be exported. *)
Theorem C20_export_iff_partial :
  forall (S : Type) (HS : Scalar S) (cols : list (column S)) (lenkey : string)
         (smp : sampler) (ej : ejector) (ops : list (op S)) (maxlen : Z),
  config_ok cols lenkey -> fresh_sampler smp -> fresh_ejector ej -> client_ok cols ops ->
  let t := run (t_create cols lenkey maxlen smp ej) ops in
  (exists f, serialize t = Ok f) <->
  (forall c, In c (storage_cols cols) ->
     exists store, dget (t_data t) (c_name c) = Some store /\ concat (dvals store) <> []).
Proof. intros S HS. exact export_iff. Qed.
Print Assumptions C20_export_iff_partial.

(** An empty table; a table with a column that received no data; a negative
    identity, which exports but cannot be imported. *)
Theorem C20_export_refuted :
  serialize (ex_create 10 fifo_s fifo_e) = Err ValueError /\
  serialize (run (ex_create 10 fifo_s fifo_e) [OAdd 1 (ex_seq 0 0) []]) = Err ValueError /\
  exists f, serialize (run (ex_create 10 fifo_s fifo_e) [OAdd (-1) (ex_seq 0 2) []]) = Ok f /\
    snd (deserialize (ex_create 10 fifo_s fifo_e) f None []) = Err KeyError.
Proof.
  split; [reflexivity|]. split; [reflexivity|]. eexists. split; [vm_compute; reflexivity|reflexivity].
Qed.
Print Assumptions C20_export_refuted.

(** ** C21: restoring into a smaller FIFO table *)
Theorem C21_restore_smaller :
  forall (S : Type) (HS : Scalar S) (cols : list (column S)) (lenkey : string)
         (smp : sampler) (ops : list (op S)) (maxlen maxlen' : Z),
  let ej := EFifo fifo_init in
  export_ok cols lenkey smp ej ops ->
  let t := run (t_create cols lenkey maxlen smp ej) ops in
  0 < t_size t -> 0 <= maxlen' ->
  exists f b, serialize t = Ok f /\ holds t b /\ sublist b (adds ops) /\
  (Forall (fun e => seq_len lenkey (snd e) <= maxlen') b ->
   forall draws, exists t', deserialize (t_create cols lenkey maxlen' smp ej) f None draws = (t', Ok tt) /\
     holds t' (longest_suffix lenkey maxlen' b) /\
     t_size t' = total_len lenkey (longest_suffix lenkey maxlen' b)).
Proof. intros S HS. exact restore_smaller. Qed.
Print Assumptions C21_restore_smaller.

(** 9 transitions restored into a table for 6: episodes 8 and 9 remain. *)
Example C21_example :
  export_ok ex_cols "actions" fifo_s fifo_e ex_ops /\
  match serialize (ex_table 20 fifo_s fifo_e) with
  | Ok f => let t' := fst (deserialize (ex_create 6 fifo_s fifo_e) f None []) in
            t_lengths t' = [(8, 2); (9, 4)] /\ t_size t' = 6
  | Err _ => False
  end.
Proof. split; [apply ex_export_ok; constructor|]. vm_compute. auto. Qed.

(** A file written by a table with a random ejector carries no FIFO order: the
    FIFO table it is restored into cannot eject. *)
Theorem C21_foreign_file_finding :
  match serialize (ex_table 20 fifo_s unif_e) with
  | Ok f => snd (deserialize (ex_create 6 fifo_s fifo_e) f None []) = Err IndexError
  | Err _ => False
  end.
Proof. vm_compute. auto. Qed.
Print Assumptions C21_foreign_file_finding.

(** ** C22: clear() empties the data; restore() into a table with FIFO
    strategies does not depend on what was there. *)
Theorem C22_clear_partial :
  forall (S : Type) (HS : Scalar S) (t : table S), config_ok (t_cols t) (t_lenkey t) ->
  holds (t_clear t) [] /\ t_size (t_clear t) = 0 /\ t_full (t_clear t) = false.
Proof. intros S HS. exact clear_data. Qed.
Print Assumptions C22_clear_partial.

Theorem C22_restore_partial :
  forall (S : Type) (HS : Scalar S) (t : table S) (f : v1file S) (draws : list (list draw))
         (smp : sampler) (ej : ejector) (b1 b2 : bool),
  (exists fs, t_sampler t = SFifo fs b1 b2) -> (exists fe, t_ejector t = EFifo fe) ->
  v_sampler_state f <> None -> v_ejector_state f <> None ->
  smp = SFifo fifo_init b1 b2 -> ej = EFifo fifo_init ->
  deserialize t f None draws =
  deserialize (t_create (t_cols t) (t_lenkey t) (t_maxlen t) smp ej) f None draws.
Proof. intros S HS. exact restore_forgets. Qed.
Print Assumptions C22_restore_partial.

Example C22_example :
  config_ok (t_cols (ex_table 20 fifo_s fifo_e)) (t_lenkey (ex_table 20 fifo_s fifo_e)) /\
  (exists fs, t_sampler (ex_table 20 fifo_s fifo_e) = SFifo fs true false) /\
  (exists fe, t_ejector (ex_table 20 fifo_s fifo_e) = EFifo fe) /\
  match serialize (ex_table 20 fifo_s fifo_e) with
  | Ok f => v_sampler_state f <> None /\ v_ejector_state f <> None
  | Err _ => False
  end.
Proof.
  split; [apply ex_config_ok|]. split; [vm_compute; eauto|]. split; [vm_compute; eauto|].
  vm_compute. split; discriminate.
Qed.

(** After clear() the samplers still draw the forgotten identity 7: sampling
    raises KeyError, where a new table serves the same request.  The FIFO
    ejector picks the forgotten identity too. *)
Theorem C22_clear_refuted :
  let used := [OAdd 7 (ex_seq 0 3) []; OClear] in
  let later := [OAdd 8 (ex_seq 10 3) []] in
  snd (t_sample (run (ex_create 4 fifo_s fifo_e) (used ++ later)) 1 1 [(0, 0)]) = Err KeyError /\
  (exists out, snd (t_sample (run (ex_create 4 fifo_s fifo_e) later) 1 1 [(0, 0)]) = Ok out) /\
  snd (t_sample (run (ex_create 4 unif_s fifo_e) (used ++ later)) 1 1 [(7, 0)]) = Err KeyError /\
  snd (add_sequence (run (ex_create 4 unif_s fifo_e) (used ++ later)) 9 (ex_seq 20 3) []) = Err KeyError /\
  snd (add_sequence (run (ex_create 4 unif_s fifo_e) later) 9 (ex_seq 20 3) []) = Ok tt.
Proof.
  vm_compute. split; [auto|]. split; [eexists; reflexivity|]. auto.
Qed.
Print Assumptions C22_clear_refuted.

(** A uniform sampler still draws identity 7 after a table that does not have it
    was restored. *)
Theorem C22_restore_refuted :
  match serialize (run (ex_create 9 unif_s fifo_e) [OAdd 8 (ex_seq 10 3) []]) with
  | Ok f =>
      let t := fst (deserialize (run (ex_create 9 unif_s fifo_e) [OAdd 7 (ex_seq 0 3) []]) f None []) in
      t_lengths t = [(8, 3)] /\ sampler_ids (t_sampler t) = [7; 8] /\
      snd (t_sample t 1 1 [(7, 0)]) = Err KeyError
  | Err _ => False
  end.
Proof. vm_compute. auto. Qed.
Print Assumptions C22_restore_refuted.

(** ** C23: a crash while storing *)
Theorem C23_crash_safe :
  forall (S : Type) (HS : Scalar S) (cols : list (column S)) (lenkey : string)
         (smp : sampler) (ej : ejector) (ops : list (op S)) (maxlen : Z),
  config_ok cols lenkey -> fresh_sampler smp -> fresh_ejector ej -> client_ok cols ops ->
  let t := run (t_create cols lenkey maxlen smp ej) ops in
  forall (s : fs S) (fail : option nat) (k : nat),
  let s' := crash s (store_actions (serialize t) fail) k in
  fs_target s' = fs_target s \/
  (exists f l, serialize t = Ok f /\ fs_target s' = Some l /\ read_file l = Some f).
Proof. intros S HS. exact crash_safe_reach. Qed.
Print Assumptions C23_crash_safe.

Theorem C23_store_completes :
  forall (S : Type) (HS : Scalar S) (cols : list (column S)) (lenkey : string)
         (smp : sampler) (ej : ejector) (ops : list (op S)) (maxlen : Z) (f : v1file S),
  config_ok cols lenkey -> fresh_sampler smp -> fresh_ejector ej -> client_ok cols ops ->
  let t := run (t_create cols lenkey maxlen smp ej) ops in
  serialize t = Ok f -> forall s : fs S,
  let acts := store_actions (serialize t) None in
  exists l, fs_target (crash s acts (List.length acts)) = Some l /\ read_file l = Some f /\
    fs_temp (crash s acts (List.length acts)) = None.
Proof. intros S HS. exact store_completes_reach. Qed.
Print Assumptions C23_store_completes.

(** The export takes ten steps; the new file appears with the ninth. *)
Example C23_example :
  client_ok ex_cols ex_ops /\
  match serialize (ex_table 20 fifo_s fifo_e) with
  | Ok f =>
      let old := mkFs (Some [MVersion]) None 0 in
      let acts := store_actions (Ok f) None in
      List.length acts = 10%nat /\
      fs_target (crash old acts 8) = Some [MVersion] /\
      fs_target (crash old acts 9) = Some (members f ++ [MDirectory]) /\
      fs_target (crash old (store_actions (Ok f) (Some 3%nat)) 100) = Some [MVersion]
  | Err _ => False
  end.
Proof. split; [apply ex_client_ok|]. vm_compute. auto. Qed.

(** ** C24: a failed restore.  With weighted strategies (uniform and coverage) on
    a new table, whatever the failure point. *)
Theorem C24_failed_restore_partial :
  forall (S : Type) (HS : Scalar S) (cols : list (column S)) (lenkey : string) (maxlen : Z)
         (sc ec : bool) (f : v1file S) (k : nat) (draws : list (list draw)),
  config_ok cols lenkey -> v_columns f = cols ->
  let t := t_create cols lenkey maxlen (SWeighted (w_init sc)) (EWeighted (w_init ec)) in
  exists t' e, deserialize t f (Some k) draws = (t', Err e) /\
  forall ops, client_ok cols ops -> exists b,
    holds (run t' ops) b /\ sublist b (adds ops) /\ t_size (run t' ops) = total_len lenkey b /\
    sampler_ids (t_sampler (run t' ops)) = map fst b /\ ejector_ids (t_ejector (run t' ops)) = map fst b /\
    (0 <= maxlen -> t_size (run t' ops) <= t_maxlen (run t' ops)).
Proof. intros S HS. exact failed_restore_weighted. Qed.
Print Assumptions C24_failed_restore_partial.

Example C24_example :
  config_ok ex_cols "actions" /\ client_ok ex_cols ex_ops /\
  match serialize (ex_table 20 unif_s unif_e) with
  | Ok f => v_columns f = ex_cols
  | Err _ => False
  end.
Proof. split; [apply ex_config_ok|]. split; [apply ex_client_ok|]. vm_compute. reflexivity. Qed.

(** With FIFO strategies the import flag stays set: sequences added later are
    stored but neither sampled nor ejected, and the table cannot make room. *)
Theorem C24_failed_restore_refuted :
  match serialize (ex_table 20 fifo_s fifo_e) with
  | Ok f =>
      let t := fst (deserialize (ex_create 4 fifo_s fifo_e) f (Some 0%nat) []) in
      let t' := run t [OAdd 7 (ex_seq 0 3) []] in
      t_size t' = 3 /\ sampler_ids (t_sampler t') = [] /\ ejector_ids (t_ejector t') = [] /\
      (exists e, snd (t_sample t' 1 1 [(0, 0)]) = Err e) /\
      snd (add_sequence t' 8 (ex_seq 10 3) []) = Err IndexError
  | Err _ => False
  end.
Proof. vm_compute. intuition eauto. Qed.
Print Assumptions C24_failed_restore_refuted.

(** ** C25: legacy files.  Everything k >= 0 is renamed to -k-1 everywhere; later
    additions do not collide; storing and restoring that table again drops the
    sequences with negative identities everywhere. *)
Theorem C25_legacy_rename_partial :
  forall (S : Type) (HS : Scalar S) (cols : list (column S)) (lenkey : string) (maxlen : Z)
         (smp : sampler) (ej : ejector) (ops : list (op S)) (lk0 : string) (m0 : Z)
         (s0 : sampler) (e0 : ejector),
  config_ok cols lenkey -> fresh_sampler smp -> fresh_ejector ej -> client_ok cols ops ->
  smp <> SWeighted (w_init true) -> ej <> EWeighted (w_init true) ->
  Forall (fun e => 0 <= fst e < 2 ^ 63) (adds ops) ->
  let t := run (t_create cols lenkey maxlen smp ej) ops in
  exists b t', holds t b /\ sublist b (adds ops) /\
    restore_legacy (t_create cols lk0 m0 s0 e0) (store_legacy t) = (t', Ok tt) /\
    (let b' := map (fun e => (- fst e - 1, snd e)) b in
     holds t' b' /\ t_size t' = t_size t /\ dkeys (t_lengths t') = map fst b' /\
     sampler_ids (t_sampler t') = map fst b' /\ ejector_ids (t_ejector t') = map fst b' /\
     forall ops2, client_ok cols ops2 -> Forall (fun e => 0 <= fst e < 2 ^ 63) (adds ops2) ->
       exists b2, holds (run t' ops2) b2 /\ sublist b2 (b' ++ adds ops2) /\
         NoDup (map fst b2) /\ t_size (run t' ops2) = total_len lenkey b2 /\
         exists t'', restore_legacy (t_create cols lk0 m0 s0 e0) (store_legacy (run t' ops2)) = (t'', Ok tt) /\
           (let b3 := map (fun e => (- fst e - 1, snd e)) (filter (fun e => 0 <=? fst e) b2) in
            holds t'' b3 /\ dkeys (t_lengths t'') = map fst b3 /\
            sampler_ids (t_sampler t'') = map fst b3 /\ ejector_ids (t_ejector t'') = map fst b3)).
Proof. intros S HS. exact legacy_rename. Qed.
Print Assumptions C25_legacy_rename_partial.

Example C25_example :
  config_ok ex_cols "actions" /\ client_ok ex_cols ex_ops /\
  Forall (fun e => 0 <= fst e < 2 ^ 63) (adds ex_ops) /\
  t_lengths (fst (restore_legacy (ex_create 20 unif_s fifo_e) (store_legacy (ex_table 20 unif_s fifo_e)))) =
    [(-8, 3); (-9, 2); (-10, 4)].
Proof.
  split; [apply ex_config_ok|]. split; [apply ex_client_ok|]. split; [|reflexivity].
  change (adds ex_ops) with [(7, ex_seq 0 3); (8, ex_seq 10 2); (9, ex_seq 20 4)].
  repeat (apply Forall_cons; [simpl; lia|]). apply Forall_nil.
Qed.

(** The coverage sampler is not renamed: it draws identities that are gone. *)
Theorem C25_coverage_refuted :
  let t := fst (restore_legacy (ex_create 20 unif_s fifo_e)
                  (store_legacy (ex_table 20 (SWeighted (w_init true)) fifo_e))) in
  dkeys (t_lengths t) = [-8; -9; -10] /\ sampler_ids (t_sampler t) = [7; 8; 9] /\
  snd (t_sample t 1 1 [(7, 0)]) = Err KeyError.
Proof. vm_compute. auto. Qed.
Print Assumptions C25_coverage_refuted.

(** ** C26: concurrent callers.  Any number of threads, any programs, any way of
    cutting the calls into steps, any interleaving: whenever no call is in
    progress there is one order of all completed calls that explains the table
    and every reply, and each thread's calls appear in it in program order. *)
Theorem C26_linearizable :
  forall (S : Type) (HS : Scalar S) (mic : op S -> list (micro S)) (t0 : table S)
         (progs : nat -> list (op S)) (c : config S),
  micro_ok mic -> csteps mic (start t0 progs) c -> cf_holder c = None ->
  exists order, cf_table c = fst (replay t0 order) /\
    forall i, th_log (cf_threads c i) = replies_of i (snd (replay t0 order)) /\
              progs i = map fst (th_log (cf_threads c i)) ++ th_todo (cf_threads c i).
Proof. intros S HS. exact linearizable_top. Qed.
Print Assumptions C26_linearizable.

(** The steps of the code are one such way. *)
Theorem C26_code_steps :
  forall (S : Type) (HS : Scalar S), micro_ok (S:=S) op_micros.
Proof. intros S HS. exact op_micros_ok. Qed.
Print Assumptions C26_code_steps.

(** No reachable state is stuck with a call in progress. *)
Theorem C26_no_deadlock :
  forall (S : Type) (HS : Scalar S) (mic : op S -> list (micro S)) (t0 : table S)
         (progs : nat -> list (op S)) (c : config S),
  micro_ok mic -> csteps mic (start t0 progs) c ->
  exists c', csteps mic c c' /\ cf_holder c' = None.
Proof. intros S HS. exact holder_leaves. Qed.
Print Assumptions C26_no_deadlock.

(** Thread 1 adds an episode in five steps, thread 2 asks for the size. *)
Definition two_progs (i : nat) : list (op Z) :=
  match i with 1%nat => [OAdd 7 (ex_seq 0 3) []] | 2%nat => [OSize] | _ => [] end.
Example C26_example :
  exists c, csteps op_micros (start (ex_create 20 fifo_s fifo_e) two_progs) c /\ cf_holder c = None /\
    th_log (cf_threads c 2) = [(OSize, Ok (RSize 3))].
Proof.
  assert (fwd : forall a b c : config Z, cstep op_micros a b -> csteps op_micros b c -> csteps op_micros a c).
  { intros a b c St R. eapply csteps_trans; [|exact R]. eapply csteps_more; [apply csteps_refl|exact St]. }
  eexists. split; [|split].
  - eapply fwd. { eapply acquire with (i := 1%nat) (o := OAdd 7 (ex_seq 0 3) []). reflexivity. }
    do 5 (eapply fwd; [eapply work; reflexivity|]).
    eapply fwd. { eapply release. reflexivity. }
    eapply fwd. { eapply acquire with (i := 2%nat) (o := OSize). reflexivity. }
    eapply fwd. { eapply work; reflexivity. }
    eapply fwd. { eapply release. reflexivity. }
    apply csteps_refl.
  - reflexivity.
  - vm_compute. reflexivity.
Qed.

(** The tail of a legacy restore (emote/memory/table.py:528-533) runs outside the lock: an
    addition between head and tail is lost from the length table but stays in
    the columns, which no one-at-a-time order produces. *)
Theorem C26_legacy_tail_finding :
  let f := store_legacy (ex_table 20 fifo_s fifo_e) in
  let t0 := ex_create 20 fifo_s fifo_e in
  let add t := fst (add_sequence t 5 (ex_seq 0 2) []) in
  let mixed := fst (legacy_tail (add (fst (legacy_head t0 f)))) in
  t_lengths mixed <> t_lengths (add (fst (restore_legacy t0 f))) /\
  t_lengths mixed <> t_lengths (fst (restore_legacy (add t0) f)).
Proof. vm_compute. split; discriminate. Qed.
Print Assumptions C26_legacy_tail_finding.
