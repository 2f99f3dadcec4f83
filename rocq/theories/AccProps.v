(** * AccProps: which additions a memory accepts (C148) *)
From Verif Require Import Py MemModel MemSpec MemExamples MemProps1 AccProofs.
Open Scope string_scope.
Open Scope list_scope.
Open Scope Z_scope.

(** With a FIFO ejector: an episode is stored exactly if it is not longer than the memory. *)
Theorem C148_fifo : forall (S : Type) (HS : Scalar S) cols lk maxlen smp ops id (sq : sequence S) draws,
  config_ok cols lk -> fresh_sampler smp -> client_ok cols (ops ++ [OAdd id sq draws]) ->
  let t := run (t_create cols lk maxlen smp (EFifo fifo_init)) ops in
  snd (add_sequence t id sq draws) = Ok tt <-> seq_len lk sq <= t_maxlen t.
Proof. intros S HS. exact (@acc_fifo S HS). Qed.
Print Assumptions C148_fifo.

(** With any ejector: an episode that fits is stored, unless the random choices go on for ever; one that is too long is not. *)
Theorem C148_any_partial : forall (S : Type) (HS : Scalar S) cols lk maxlen smp ej ops id (sq : sequence S) draws,
  config_ok cols lk -> fresh_sampler smp -> fresh_ejector ej -> client_ok cols (ops ++ [OAdd id sq draws]) ->
  Forall (fun x => - 2 ^ 63 <= fst x < 2 ^ 63) (adds ops) ->
  let t := run (t_create cols lk maxlen smp ej) ops in
  (seq_len lk sq <= t_maxlen t -> snd (add_sequence t id sq draws) = Ok tt \/ snd (add_sequence t id sq draws) = Err Diverges) /\
  (t_maxlen t < seq_len lk sq -> exists e, snd (add_sequence t id sq draws) = Err e).
Proof. intros S HS. exact (@acc_any S HS). Qed.
Print Assumptions C148_any_partial.

(** The random choices of a uniform or coverage based ejector end as soon as every stored episode has come up. *)
Theorem C148_random_ends : forall (S : Type) (HS : Scalar S) cols lk maxlen smp cov ops id (sq : sequence S) draws b,
  config_ok cols lk -> fresh_sampler smp -> client_ok cols (ops ++ [OAdd id sq draws]) ->
  Forall (fun x => - 2 ^ 63 <= fst x < 2 ^ 63) (adds ops) ->
  let t := run (t_create cols lk maxlen smp (EWeighted (w_init cov))) ops in
  holds t b -> Forall (fun d => exists s, In (fst d, s) b /\ 0 < seq_len lk s) draws ->
  (forall i s, In (i, s) b -> 0 < seq_len lk s -> In i (map fst draws)) ->
  seq_len lk sq <= t_maxlen t -> snd (add_sequence t id sq draws) = Ok tt.
Proof. intros S HS. exact (@acc_weighted S HS). Qed.
Print Assumptions C148_random_ends.

(** Finding: with such an ejector, adding an episode that is longer than the memory never returns, whatever is drawn. *)
Theorem C148_hangs_finding : forall (S : Type) (HS : Scalar S) cols lk maxlen smp cov ops id (sq : sequence S) draws b,
  config_ok cols lk -> fresh_sampler smp -> client_ok cols (ops ++ [OAdd id sq draws]) ->
  Forall (fun x => - 2 ^ 63 <= fst x < 2 ^ 63) (adds ops) ->
  let t := run (t_create cols lk maxlen smp (EWeighted (w_init cov))) ops in
  holds t b -> (exists e, In e b /\ 0 < seq_len lk (snd e)) -> t_maxlen t < seq_len lk sq -> snd (add_sequence t id sq draws) = Err Diverges.
Proof. intros S HS. exact (@acc_hangs S HS). Qed.
Print Assumptions C148_hangs_finding.

(** It is not refused: a memory of 6 transitions that holds 3 is given an episode of 7. *)
Theorem C148_refused_refuted : exists (ops : list (op Z)) (id : Z) (sq : sequence Z),
  let t := run (ex_create 6 (SWeighted (w_init false)) (EWeighted (w_init false))) ops in
  t_size t = 3 /\ t_maxlen t = 6 /\ seq_len "actions" sq = 7 /\
  forall draws, client_ok ex_cols (ops ++ [OAdd id sq draws]) /\ snd (add_sequence t id sq draws) = Err Diverges.
Proof.
  exists [OAdd 7 (ex_seq 0 3) []], 9, (ex_seq 20 7). split; [reflexivity|]. split; [reflexivity|]. split; [reflexivity|].
  intros draws. assert (C : client_ok ex_cols ([OAdd 7 (ex_seq 0 3) []] ++ [OAdd 9 (ex_seq 20 7) draws])) by solve_client. split; [exact C|].
  refine (@acc_hangs Z _ ex_cols "actions" 6 _ false _ 9 (ex_seq 20 7) draws [(7, ex_seq 0 3)] _ _ C _ _ _ _).
  - apply ex_config_ok.
  - constructor.
  - repeat constructor; vm_compute; congruence.
  - intros c I. simpl in I. decompose [or] I; subst; try reflexivity; tauto.
  - eexists. split; [left; reflexivity|]. vm_compute. reflexivity.
  - vm_compute. reflexivity.
Qed.
Print Assumptions C148_refused_refuted.

(** What fits is stored, also if everything else has to go. *)
Example C148_example :
  client_ok ex_cols ([OAdd 7 (ex_seq 0 3) []; OAdd 8 (ex_seq 10 2) []] ++ [OAdd 9 (ex_seq 20 6) [(8, 0); (8, 0); (7, 0)]]) /\
  (forall ej, ej = EWeighted (w_init false) \/ ej = EFifo fifo_init ->
   let t := run (ex_create 6 (SWeighted (w_init false)) ej) [OAdd 7 (ex_seq 0 3) []; OAdd 8 (ex_seq 10 2) []] in
   snd (add_sequence t 9 (ex_seq 20 6) [(8, 0); (8, 0); (7, 0)]) = Ok tt) /\
  snd (add_sequence (run (ex_create 6 (SWeighted (w_init false)) (EFifo fifo_init)) [OAdd 7 (ex_seq 0 3) []]) 9 (ex_seq 20 7) []) = Err IndexError.
Proof. split; [solve_client|]. split; [intros ej [-> | ->]; vm_compute; reflexivity|vm_compute; reflexivity]. Qed.
