(** * RetProps: how long a memory keeps a sequence (C163) *)
From Coq Require Import Lia.
From Verif Require Import Py MemModel MemSpec MemExamples RetProofs.
Open Scope string_scope.
Open Scope list_scope.
Open Scope Z_scope.

(** ** C163: a memory keeps a sequence until what was added since does not fit beside it.  It does with a FIFO ejector,
    wherever in the history the sequence was added and whatever was there before. *)
Theorem C163_fifo_keeps_partial : forall (S : Type) (HS : Scalar S) (cols : list (column S)) lk maxlen smp ops id s dr more,
  config_ok cols lk -> fresh_sampler smp -> client_ok cols (ops ++ OAdd id s dr :: more) ->
  seq_len lk s + total_len lk (adds more) <= maxlen ->
  exists older newer, holds (run (t_create cols lk maxlen smp (EFifo fifo_init)) (ops ++ OAdd id s dr :: more)) (older ++ (wrap_id id, s) :: newer).
Proof. exact @retained. Qed.
Print Assumptions C163_fifo_keeps_partial.
(** And no longer than that. *)
Theorem C163_fifo_forgets : forall (S : Type) (HS : Scalar S) (cols : list (column S)) lk maxlen smp ops id s dr more,
  config_ok cols lk -> fresh_sampler smp -> client_ok cols (ops ++ OAdd id s dr :: more) ->
  Forall no_resize (ops ++ OAdd id s dr :: more) -> Forall (fun e => seq_len lk (snd e) <= maxlen) (adds (ops ++ OAdd id s dr :: more)) ->
  maxlen < seq_len lk s + total_len lk (adds more) ->
  exists b, holds (run (t_create cols lk maxlen smp (EFifo fifo_init)) (ops ++ OAdd id s dr :: more)) b /\ ~ In (wrap_id id) (map fst b).
Proof. exact @forgotten. Qed.
Print Assumptions C163_fifo_forgets.

(** With a random ejector the sequence added last may be the one that goes. *)
Theorem C163_random_drops_refuted : exists (ops : list (op Z)) id s dr more b,
  client_ok ex_cols (ops ++ OAdd id s dr :: more) /\ seq_len "actions" s + total_len "actions" (adds more) <= 7 /\
  holds (run (t_create ex_cols "actions" 7 (SWeighted (w_init false)) (EWeighted (w_init false))) (ops ++ OAdd id s dr :: more)) b /\ ~ In (wrap_id id) (map fst b).
Proof. exact random_drops. Qed.
Print Assumptions C163_random_drops_refuted.

Example C163_fits : client_ok ex_cols ([OAdd 7 (ex_seq 0 3) []] ++ OAdd 8 (ex_seq 10 3) [] :: [OSize; OAdd 9 (ex_seq 20 4) []]) /\
  seq_len "actions" (ex_seq 10 3) + total_len "actions" (adds [OSize; OAdd 9 (ex_seq 20 4) []]) <= 7.
Proof. split; [solve_client|vm_compute; discriminate]. Qed.
Example C163_forgets : let ops := [OAdd 7 (ex_seq 0 3) []] ++ OAdd 8 (ex_seq 10 3) [] :: [OSize; OAdd 9 (ex_seq 20 4) []] in
  client_ok ex_cols ops /\ Forall no_resize ops /\ Forall (fun e => seq_len "actions" (snd e) <= 6) (adds ops) /\
  6 < seq_len "actions" (ex_seq 10 3) + total_len "actions" (adds [OSize; OAdd 9 (ex_seq 20 4) []]).
Proof.
  split; [solve_client|]. split; [repeat constructor|]. split; [|vm_compute; reflexivity].
  repeat (apply Forall_cons; [vm_compute; discriminate|]). apply Forall_nil.
Qed.
