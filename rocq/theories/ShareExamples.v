(** * ShareExamples: three threads *)
From Verif Require Import Py MemModel MemSpec MemExamples ConcModel ConcSpec ConcProofs ShareSpec.
Open Scope string_scope.
Open Scope list_scope.
Open Scope Z_scope.

(** Threads 1 and 3 collect, thread 2 learns; it samples after two of the three episodes. *)
Definition sh_progs (i : nat) : list (op Z) :=
  match i with
  | 1%nat => [OAdd 7 (ex_seq 0 3) []; OAdd 9 (ex_seq 20 4) []]
  | 2%nat => [OSample 2 2 [(8, 0); (7, 2 ^ 53 - 1)]]
  | 3%nat => [OAdd 8 (ex_seq 10 2) []]
  | _ => [] end.
Definition sh_start := start (ex_create 6 (SWeighted (w_init false)) (EFifo fifo_init)) sh_progs.

Lemma sh_additions i k s : In (k, s) (additions (sh_progs i)) ->
  i = 1%nat /\ (k = 7 /\ s = ex_seq 0 3 \/ k = 9 /\ s = ex_seq 20 4) \/ i = 3%nat /\ k = 8 /\ s = ex_seq 10 2.
Proof.
  destruct i as [|[|[|[|i]]]]; cbn -[ex_seq]; try tauto.
  - intros [E|[E|[]]]; injection E as <- <-; auto.
  - intros [E|[]]; injection E as <- <-; auto.
Qed.
Lemma sh_keys i k : In k (map fst (additions (sh_progs i))) -> exists s, In (k, s) (additions (sh_progs i)).
Proof. intros I. apply in_map_iff in I as ([k' s] & E & I). cbn in E. subst k'. eauto. Qed.


(** A call from beginning to end. *)
Definition after_call (c : config Z) (i : nat) (o : op Z) (r : list (op Z)) (l : list (op Z * res (reply Z))) : config Z :=
  let x := do_op (cf_table c) o in
  mkCfg (fst x) None (upd (upd (cf_threads c) i (mkTh r l)) i (mkTh r (l ++ [(o, snd x)]))).
Lemma sh_exec i o th ms : forall (t : table Z) st,
  csteps op_micros (mkCfg t (Some (i, o, ms, st)) th)
    (mkCfg (fst (exec ms (t, st))) (Some (i, o, [], snd (exec ms (t, st)))) th).
Proof.
  induction ms as [|m ms IH]; intros t st; [apply csteps_refl|].
  eapply csteps_trans.
  - eapply csteps_more; [apply csteps_refl|]. eapply work. apply surjective_pairing.
  - change (exec (m :: ms) (t, st)) with (exec ms (m (t, st))). destruct (m (t, st)) as [t' st']. apply IH.
Qed.
Definition begun (c : config Z) (i : nat) (o : op Z) (r : list (op Z)) (l : list (op Z * res (reply Z))) : config Z :=
  mkCfg (cf_table c) (Some (i, o, op_micros o, MRun)) (upd (cf_threads c) i (mkTh r l)).
Lemma sh_begin c i o r l : cf_holder c = None -> cf_threads c i = mkTh (o :: r) l -> cstep op_micros c (begun c i o r l).
Proof. intros H E. destruct c as [t h th]. cbn in H, E. subst h. apply acquire. exact E. Qed.
Lemma sh_end c i o r l : csteps op_micros (begun c i o r l) (after_call c i o r l).
Proof.
  destruct c as [t h th]. unfold begun, after_call. cbn [cf_table cf_threads].
  eapply csteps_more; [apply sh_exec|]. rewrite (op_micros_ok o t). cbn [fst snd]. apply release.
  unfold upd. rewrite Nat.eqb_refl. reflexivity.
Qed.
Lemma sh_call c i o r l c' : cf_holder c = None -> cf_threads c i = mkTh (o :: r) l ->
  csteps op_micros (after_call c i o r l) c' -> csteps op_micros c c'.
Proof.
  intros H E R. eapply csteps_trans; [|exact R]. eapply csteps_trans; [|apply sh_end].
  eapply csteps_more; [apply csteps_refl|]. apply sh_begin; auto.
Qed.

Definition sh_c1 := after_call sh_start 1 (OAdd 7 (ex_seq 0 3) []) [OAdd 9 (ex_seq 20 4) []] [].
Definition sh_c2 := after_call sh_c1 3 (OAdd 8 (ex_seq 10 2) []) [] [].
Definition sh_sample : op Z := OSample 2 2 [(8, 0); (7, 2 ^ 53 - 1)].
Definition sh_c3 := begun sh_c2 2 sh_sample [] [].
Definition sh_c4 := after_call sh_c2 2 sh_sample [] [].
Definition sh_c5 := after_call sh_c4 1 (OAdd 9 (ex_seq 20 4) []) [] (th_log (cf_threads sh_c4 1)).
