(** * ShareSpec: learners and collectors that share one table *)
From Verif Require Import Py MemModel MemSpec ConcModel.
Open Scope Z_scope.

Section Spec.
Context {S : Type}.

(** The call [o] of thread [i] has returned [r]. *)
Definition returned (c : config S) (i : nat) (o : op S) (r : res (reply S)) : Prop :=
  In (o, r) (th_log (cf_threads c i)).
(** Some thread has added the sequence [s] under the stored identity [k]. *)
Definition was_added (c : config S) (k : Z) (s : sequence S) : Prop :=
  exists i id draws, k = wrap_id id /\ returned c i (OAdd id s draws) (Ok RUnit).

(** The sequences a thread adds, with the identities they are stored under. *)
Definition additions (calls : list (op S)) : list (Z * sequence S) :=
  flat_map (fun o => match o with OAdd id s _ => [(wrap_id id, s)] | _ => [] end) calls.

(** Threads that work together: none of them clears the table, the sequences match the
    columns and no identity is used twice, by the same thread or by another one. *)
Definition cooperating (cols : list (column S)) (progs : nat -> list (op S)) : Prop :=
  (forall i, ~ In OClear (progs i))
  /\ (forall i k s, In (k, s) (additions (progs i)) -> seq_ok cols s)
  /\ (forall i, NoDup (map fst (additions (progs i))))
  /\ (forall i j k, i <> j -> In k (map fst (additions (progs i))) -> ~ In k (map fst (additions (progs j)))).
(** Every sequence added has a complete set of columns and between L and 2^53 transitions. *)
Definition long_enough (cols : list (column S)) (lenkey : string) (L : nat) (progs : nat -> list (op S)) : Prop :=
  forall i k s, In (k, s) (additions (progs i)) ->
    episode_ok cols lenkey s /\ Z.of_nat L <= seq_len lenkey s <= 2 ^ 53.

(** Thread [i] has begun the call [o] and no call of another thread is in progress. *)
Definition begins (c c' : config S) (i : nat) (o : op S) : Prop :=
  cf_holder c = None /\ exists ms, cf_holder c' = Some (i, o, ms, MRun).

(** All threads are done. *)
Definition finished (c : config S) : Prop := cf_holder c = None /\ forall i, th_todo (cf_threads c i) = [].
(** [h] lists what the threads add, each thread's sequences in its own order. *)
Definition merged (progs : nat -> list (op S)) (h : list (nat * (Z * sequence S))) : Prop :=
  forall i, map snd (filter (fun x => Nat.eqb (fst x) i) h) = additions (progs i).
End Spec.
