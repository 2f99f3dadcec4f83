(** * C01 - C07: what the memory table stores. *)
From Verif Require Import Py PyLemmas MemModel MemSpec MemProofs MemRun MemExamples.
Open Scope Z_scope.
Open Scope string_scope.
Open Scope list_scope.

(** ** C01: size() is exact and never exceeds maxlen. *)
Theorem C01_size_exact :
  forall (S : Type) (HS : Scalar S) (cols : list (column S)) (lenkey : string) (maxlen : Z)
         (smp : sampler) (ej : ejector) (ops : list (op S)),
  config_ok cols lenkey -> fresh_sampler smp -> fresh_ejector ej -> 0 <= maxlen ->
  client_ok cols ops ->
  let t := run (t_create cols lenkey maxlen smp ej) ops in
  exists b : buffer S,
    holds t b /\ sublist b (adds ops) /\
    t_size t = total_len lenkey b /\ t_size t = stored_rows t /\
    0 <= t_size t <= t_maxlen t.
Proof. intros S HS. exact size_exact. Qed.
Print Assumptions C01_size_exact.

Example C01_example :
  config_ok ex_cols "actions" /\ client_ok ex_cols ex_ops /\
  (* uniform sampler, uniform ejector whose random choice ejects sequence 8 *)
  let ops := [OAdd 7 (ex_seq 0 3) []; OAdd 8 (ex_seq 10 2) []; OAdd 9 (ex_seq 20 2) [(8, 0)]] in
  let t := run (ex_create 6 (SWeighted (w_init false)) (EWeighted (w_init false))) ops in
  t_size t = 5 /\ dkeys (t_lengths t) = [7; 9] /\ t_full t = true.
Proof.
  split; [apply ex_config_ok|]. split; [apply ex_client_ok|]. vm_compute. auto.
Qed.

(** ** C02: FIFO ejection keeps exactly the longest recent suffix that fits. *)
Theorem C02_fifo_longest_suffix :
  forall (S : Type) (HS : Scalar S) (cols : list (column S)) (lenkey : string) (maxlen : Z)
         (smp : sampler) (ops : list (op S)),
  config_ok cols lenkey -> fresh_sampler smp -> client_ok cols ops ->
  Forall no_resize ops -> Forall (fun e => seq_len lenkey (snd e) <= maxlen) (adds ops) ->
  let t := run (t_create cols lenkey maxlen smp (EFifo fifo_init)) ops in
  holds t (longest_suffix lenkey maxlen (adds ops)).
Proof. intros S HS. exact fifo_longest_suffix. Qed.
Print Assumptions C02_fifo_longest_suffix.

(** The specification function is what its name says: a suffix of the history,
    which fits, and every suffix that fits is a suffix of it. *)
Theorem C02_longest_suffix_meaning :
  forall (S : Type) (lenkey : string) (maxlen : Z) (h : buffer S), 0 <= maxlen ->
  (exists dropped, h = (dropped ++ longest_suffix lenkey maxlen h)%list) /\
  total_len lenkey (longest_suffix lenkey maxlen h) <= maxlen /\
  (forall a s, h = (a ++ s)%list -> total_len lenkey s <= maxlen ->
     exists x, longest_suffix lenkey maxlen h = (x ++ s)%list).
Proof.
  intros S lenkey maxlen h Hm.
  split; [exact (longest_suffix_spec lenkey maxlen h)|].
  split; [exact (longest_suffix_fits lenkey h Hm)|].
  intros a s. exact (@longest_suffix_max S lenkey maxlen h a s).
Qed.
Print Assumptions C02_longest_suffix_meaning.

(** The same with resizing and with sequences that can never fit: the table
    follows the FIFO specification machine step by step. *)
Theorem C02_fifo_machine :
  forall (S : Type) (HS : Scalar S) (cols : list (column S)) (lenkey : string) (maxlen : Z)
         (smp : sampler) (ops : list (op S)),
  config_ok cols lenkey -> fresh_sampler smp -> client_ok cols ops ->
  let t := run (t_create cols lenkey maxlen smp (EFifo fifo_init)) ops in
  let '(m, b) := fifo_spec lenkey maxlen ops in
  holds t b /\ t_maxlen t = m /\ t_size t = total_len lenkey b.
Proof.
  intros S HS cols lenkey maxlen smp ops C Fs Co.
  pose proof (fifo_contents maxlen C Fs Co) as E.
  destruct (fifo_spec lenkey maxlen ops) as [m b]. exact E.
Qed.
Print Assumptions C02_fifo_machine.

Example C02_example :
  client_ok ex_cols ex_ops /\ Forall no_resize ex_ops /\
  Forall (fun e => seq_len "actions" (snd e) <= 6) (adds ex_ops) /\
  longest_suffix "actions" 6 (adds ex_ops) = [(8, ex_seq 10 2); (9, ex_seq 20 4)].
Proof.
  split; [apply ex_client_ok|]. split; [unfold ex_ops; repeat constructor|].
  split; [apply Forall_forall; intros e He; simpl in He;
          repeat (destruct He as [<-|He]; [vm_compute; discriminate|]); destruct He|]. vm_compute. auto.
Qed.

(** ** C03: ejection removes whole sequences and never alters the others. *)
Theorem C03_ejection_frame :
  forall (S : Type) (HS : Scalar S) (cols : list (column S)) (lenkey : string) (maxlen : Z)
         (smp : sampler) (ej : ejector) (ops : list (op S))
         (id : Z) (sq : sequence S) (draws : list draw),
  config_ok cols lenkey -> fresh_sampler smp -> fresh_ejector ej ->
  client_ok cols (ops ++ [OAdd id sq draws]) ->
  let t := run (t_create cols lenkey maxlen smp ej) ops in
  let t' := fst (add_sequence t id sq draws) in
  exists b, holds t b /\ t_size t = total_len lenkey b /\
    match snd (add_sequence t id sq draws) with
    | Err _ => holds t' b /\ t_size t' = t_size t
    | Ok _ => exists kept, sublist kept b /\ holds t' (kept ++ [(wrap_id id, sq)]) /\
                t_size t' = total_len lenkey kept + seq_len lenkey sq /\
                t_size t' <= t_maxlen t /\
                (t_size t + seq_len lenkey sq <= t_maxlen t -> kept = b)
    end.
Proof. intros S HS. exact add_frame. Qed.
Print Assumptions C03_ejection_frame.

Example C03_example :
  let ops := [OAdd 7 (ex_seq 0 3) []; OAdd 8 (ex_seq 10 2) []] in
  client_ok ex_cols (ops ++ [OAdd 9 (ex_seq 20 2) [(8, 0)]]) /\
  let t := run (ex_create 6 (SFifo fifo_init true true) (EWeighted (w_init true))) ops in
  snd (add_sequence t 9 (ex_seq 20 2) [(8, 0)]) = Ok tt /\
  holds (fst (add_sequence t 9 (ex_seq 20 2) [(8, 0)])) [(7, ex_seq 0 3); (9, ex_seq 20 2)].
Proof.
  split; [solve_client|]. split; [vm_compute; auto|].
  intros c Hc. simpl in Hc. destruct Hc as [<-|[<-|[]]]; vm_compute; auto.
Qed.

(** ** C04: full() is true exactly when an addition has overflowed the table. *)
Theorem C04_full_spec :
  forall (S : Type) (HS : Scalar S) (cols : list (column S)) (lenkey : string) (maxlen : Z)
         (smp : sampler) (ej : ejector) (ops : list (op S)),
  config_ok cols lenkey -> fresh_sampler smp -> fresh_ejector ej -> 0 <= maxlen ->
  client_ok cols ops -> Forall no_resize ops ->
  let t := run (t_create cols lenkey maxlen smp ej) ops in
  (t_full t = true <-> maxlen < total_len lenkey (adds ops)) /\
  (t_full t = false -> holds t (adds ops)).
Proof. intros S HS. exact full_spec. Qed.
Print Assumptions C04_full_spec.

Example C04_example :
  total_len "actions" (adds ex_ops) = 9 /\
  t_full (run (ex_create 9 (SFifo fifo_init true true) (EFifo fifo_init)) ex_ops) = false /\
  t_full (run (ex_create 8 (SFifo fifo_init true true) (EFifo fifo_init)) ex_ops) = true.
Proof. vm_compute. auto. Qed.

(** ** C05: resize only grows and never touches contents. *)
Theorem C05_resize :
  forall (S : Type) (HS : Scalar S) (t : table S) (n : Z),
  let t' := fst (t_resize t n) in
  (n < t_maxlen t -> snd (t_resize t n) = Err ValueError /\ t' = t) /\
  (t_maxlen t <= n -> snd (t_resize t n) = Ok tt /\ t_maxlen t' = n) /\
  t_size t' = t_size t /\ t_full t' = t_full t /\ t_cols t' = t_cols t /\
  (forall b, holds t' b <-> holds t b) /\
  sampler_ids (t_sampler t') = sampler_ids (t_sampler t) /\
  ejector_ids (t_ejector t') = ejector_ids (t_ejector t) /\
  (forall count len draws, snd (t_sample t' count len draws) = snd (t_sample t count len draws)).
Proof. intros S HS. exact resize_spec. Qed.
Print Assumptions C05_resize.

Example C05_example :
  let t := run (ex_create 9 (SFifo fifo_init true true) (EFifo fifo_init)) ex_ops in
  snd (t_resize t 8) = Err ValueError /\ snd (t_resize t 12) = Ok tt /\
  t_size (fst (t_resize t 12)) = 9 /\ t_maxlen (fst (t_resize t 12)) = 12.
Proof. vm_compute. auto. Qed.

(** ** C06: an addition that raises leaves the table as it was.

    Holds for sequences that match the configuration and have a new identity
    (too long for the table, or refused by the ejector), and for a sequence without the
    length column. *)
Theorem C06_failed_add_partial :
  forall (S : Type) (HS : Scalar S) (cols : list (column S)) (lenkey : string) (maxlen : Z)
         (smp : sampler) (ej : ejector) (ops : list (op S))
         (id : Z) (sq : sequence S) (draws : list draw) (er : exn),
  config_ok cols lenkey -> fresh_sampler smp -> fresh_ejector ej ->
  client_ok cols (ops ++ [OAdd id sq draws]) ->
  let t := run (t_create cols lenkey maxlen smp ej) ops in
  snd (add_sequence t id sq draws) = Err er ->
  let t' := fst (add_sequence t id sq draws) in
  (forall b, holds t b <-> holds t' b) /\ t_size t' = t_size t /\ t_maxlen t' = t_maxlen t /\
  sampler_ids (t_sampler t') = sampler_ids (t_sampler t) /\
  ejector_ids (t_ejector t') = ejector_ids (t_ejector t).
Proof. intros S HS. exact failed_add. Qed.
Print Assumptions C06_failed_add_partial.

Theorem C06_missing_length_key_partial :
  forall (S : Type) (t : table S) (id : Z) (sq : sequence S) (draws : list draw),
  ~ In (t_lenkey t) (map fst sq) -> add_sequence t id sq draws = (t, Err KeyError).
Proof. intros S. exact missing_length_key. Qed.
Print Assumptions C06_missing_length_key_partial.

(** A concrete refused addition: 7 transitions do not fit in a table of 6. *)
Example C06_example :
  let ops := [OAdd 7 (ex_seq 0 3) []] in
  client_ok ex_cols (ops ++ [OAdd 9 (ex_seq 20 7) []]) /\
  snd (add_sequence (run (ex_create 6 (SFifo fifo_init true true) (EFifo fifo_init)) ops)
         9 (ex_seq 20 7) []) = Err IndexError.
Proof. split; [solve_client|vm_compute; auto]. Qed.

(** Finding: an identity that is already stored is refused only after the old
    sequence was overwritten and counted twice. *)
Theorem C06_duplicate_identity_refuted :
  exists (ops : list (op Z)) (id : Z) (sq : sequence Z),
  client_ok ex_cols ops /\ seq_ok ex_cols sq /\
  let t := run (ex_create 10 (SFifo fifo_init true true) (EFifo fifo_init)) ops in
  let t' := fst (add_sequence t id sq []) in
  snd (add_sequence t id sq []) = Err AssertionError /\
  t_size t = 3 /\ stored_rows t = 3 /\ t_size t' = 5 /\ stored_rows t' = 2.
Proof.
  exists [OAdd 7 (ex_seq 0 3) []], 7, (ex_seq 50 2).
  split; [solve_client|]. split; [apply ex_seq_ok|]. vm_compute. auto.
Qed.
Print Assumptions C06_duplicate_identity_refuted.

(** Finding: an unknown column raises after stored sequences were ejected. *)
Theorem C06_unknown_column_refuted :
  exists (ops : list (op Z)) (id : Z) (sq : sequence Z),
  client_ok ex_cols ops /\
  let t := run (ex_create 4 (SFifo fifo_init true true) (EFifo fifo_init)) ops in
  let t' := fst (add_sequence t id sq []) in
  snd (add_sequence t id sq []) = Err KeyError /\ t_size t = 3 /\ t_size t' = 0.
Proof.
  exists [OAdd 7 (ex_seq 0 3) []], 8, (ex_seq 50 2 ++ [("rewards", ex_rows 0 2)]).
  split; [solve_client|]. vm_compute. auto.
Qed.
Print Assumptions C06_unknown_column_refuted.

(** ** C07: identities never collide after the unsigned extension. *)
Definition int64 (z : Z) : Prop := - 2 ^ 63 <= z < 2 ^ 63.

Theorem C07_wrap_injective_partial :
  forall a b : Z, int64 a -> int64 b ->
  (wrap_id a = wrap_id b -> a = b) /\ 0 <= wrap_id a < 2 ^ 64.
Proof. exact wrap_injective. Qed.
Print Assumptions C07_wrap_injective_partial.

(** No stored identity is negative, so none collides with a legacy import. *)
Theorem C07_stored_ids_nonnegative_partial :
  forall (S : Type) (HS : Scalar S) (cols : list (column S)) (lenkey : string) (maxlen : Z)
         (smp : sampler) (ej : ejector) (ops : list (op S)) (c : column S)
         (store : dict Z (array S)) (id : Z),
  config_ok cols lenkey -> fresh_sampler smp -> fresh_ejector ej -> client_ok cols ops ->
  Forall (fun o => match o with OAdd id _ _ => int64 id | _ => True end) ops ->
  let t := run (t_create cols lenkey maxlen smp ej) ops in
  In c (storage_cols cols) -> dget (t_data t) (c_name c) = Some store -> In id (map fst store) ->
  0 <= id.
Proof. intros S HS. exact stored_ids_nonneg. Qed.
Print Assumptions C07_stored_ids_nonnegative_partial.

Example C07_example : int64 (-1) /\ int64 5 /\ wrap_id (-1) = 18446744073709551615 /\
  wrap_id 5 = 5.
Proof. unfold int64. vm_compute. intuition discriminate. Qed.

(** Finding: a sequence added under a negative identity cannot be sampled by the
    uniform sampler: every sample call raises OverflowError. *)
Theorem C07_every_identity_sampled_refuted :
  exists ops : list (op Z), client_ok ex_cols ops /\
  let t := run (ex_create 10 (SWeighted (w_init false)) (EFifo fifo_init)) ops in
  t_size t = 3 /\ forall draws, snd (t_sample t 1 1 draws) = Err OverflowError.
Proof.
  exists [OAdd (-1) (ex_seq 0 3) []]. split; [solve_client|].
  split; [vm_compute; auto|]. intros draws. vm_compute. auto.
Qed.
Print Assumptions C07_every_identity_sampled_refuted.
