(** * GapProps: a MemoryLoader whose memory is used by other threads (C158) *)
From Coq Require Import Lia.
From Verif Require Import Py MemModel MemSpec ProxyModel ProxySpec ProxyExamples LoaderModel GapModel GapSpec GapProofs.
Open Scope string_scope.
Open Scope list_scope.
Open Scope Z_scope.

(** ** C158: once there is enough in the memory, a loader keeps yielding, whatever other threads do to the memory between its
    check and its first batch and between its batches (short of clearing it); each batch holds what was complete by then *)
Theorem C158_keeps_yielding : forall (S : Type) (HS : Scalar S) pc (l : loader) (cols : list (column S)) lk maxlen smp ej sch h p rounds q,
  config_ok cols lk -> fresh_sampler smp -> fresh_ejector ej -> schema_ok (pc_terminal pc) sch -> layout cols lk (pc_terminal pc) sch ->
  (1 <= ld_length l)%nat -> (1 <= ld_count l)%nat -> ld_group l <> ld_size_key l ->
  batches_ok (h ++ doings l rounds) -> agents_ok pc cols lk sch (ld_length l) (h ++ doings l rounds) ->
  (forall os rs dr a, In (PAdd os rs dr) (h ++ doings l rounds) -> In a (dkeys os) -> a < 2 ^ 63) ->
  prun pc (px_new (t_create cols lk maxlen smp ej)) h = (p, Ok tt) -> prun pc p (doings l rounds) = (q, Ok tt) ->
  (t_size (px_table p) < Z.of_nat (ld_count l * ld_length l) -> iterate_amid pc l p rounds = [Err OtherError]) /\
  (Z.of_nat (ld_count l * ld_length l) <= t_size (px_table p) ->
   forall i, (i < List.length rounds)%nat -> (forall j, (j < i)%nat -> exists b, nth_error (iterate_amid pc l p rounds) j = Some (Ok b)) ->
   nth_error (iterate_amid pc l p rounds) i = Some (Err Diverges) \/
   exists b rows, nth_error (iterate_amid pc l p rounds) i = Some (Ok b) /\ carries l rows b /\ batch_sized cols rows (ld_count l) (ld_length l) /\
     forall j, (j < ld_count l)%nat -> exists a ms k, In ms (episodes [] (stream a (h ++ before_draw l rounds i))) /\ is_window cols sch rows (ld_length l) j ms k).
Proof. exact @keeps_amid. Qed.
Print Assumptions C158_keeps_yielding.

(** The history of C29's example: the check is made after its third add; an agent that starts and one that ends come
    between the check and the first batch, more before the second. *)
Definition gap_ld : loader := mkLoader 1 2 "batch_size" "default".
Definition gap_h := firstn 3 px_h.
Definition gap_rounds : list (list (pop Z) * list draw) := [(firstn 2 (skipn 3 px_h), [(0, 0)]); (skipn 5 px_h, [(1, 2 ^ 53 - 1)])].
Definition gap_p := fst (prun px_pc (px_new px_table0) gap_h).
Example C158_fits : batches_ok (gap_h ++ doings gap_ld gap_rounds) /\ agents_ok px_pc px_cols "actions" px_sch 2 (gap_h ++ doings gap_ld gap_rounds) /\
  (forall os rs dr a, In (PAdd os rs dr) (gap_h ++ doings gap_ld gap_rounds) -> In a (dkeys os) -> a < 2 ^ 63) /\
  snd (prun px_pc (px_new px_table0) gap_h) = Ok tt /\ snd (prun px_pc gap_p (doings gap_ld gap_rounds)) = Ok tt /\ t_size (px_table gap_p) = 2.
Proof.
  assert (Hin : forall o, In o (gap_h ++ doings gap_ld gap_rounds) -> In o px_h \/ exists d, o = drawing gap_ld d).
  { intros o I. cbn in I. cbn. repeat (destruct I as [<-|I]; [first [right; eexists; reflexivity|left; tauto]|]). destruct I. }
  split; [|split; [|split; [|vm_compute; auto]]].
  - apply Forall_forall. intros o I. destruct (Hin o I) as [Q|[d ->]]; [|exact Logic.I]. pose proof px_batches as B. unfold batches_ok in B. rewrite Forall_forall in B. exact (B o Q).
  - destruct px_agents as [A1 A2]. split; [|exact A2]. apply Forall_forall. intros o I. destruct (Hin o I) as [Q|[d ->]]; [|discriminate]. rewrite Forall_forall in A1. exact (A1 o Q).
  - intros os rs dr a I. destruct (Hin _ I) as [Q|[d Q]]; [|discriminate]. clear I. cbn in Q.
    repeat (destruct Q as [Q|Q]; [try discriminate; injection Q as <- <- <-; cbn; intros J; repeat (destruct J as [<-|J]; [reflexivity|]); destruct J|]). destruct Q.
Qed.
Example C158_run : map (fun r => match r with Ok b => match dget b "default" with Some (EData d) => dget d "obs" | _ => None end | Err _ => None end)
    (iterate_amid px_pc gap_ld gap_p gap_rounds) = [Some (CRows [[0]; [1]]); Some (CRows [[11]; [12]])].
Proof. vm_compute. reflexivity. Qed.
