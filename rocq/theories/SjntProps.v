(** * SjntProps: a JointMemoryLoader whose loaders share one memory (C162) *)
From Coq Require Import Lia.
From Verif Require Import Py MemModel MemSpec ProxyModel ProxySpec ProxyExamples LoaderModel GapSpec JgapModel JgapSpec JgapProofs SjntModel SjntSpec SjntProofs.
Open Scope string_scope.
Open Scope list_scope.
Open Scope Z_scope.

(** ** C162: a joint loader whose loaders share one memory yields, for every loader, full rollouts of episodes complete at
    that loader's turn, and stops only at a turn at which the memory has too little for the loader *)
Theorem C162_shared_memory : forall (S : Type) (HS : Scalar S) (size_key : string) (m : memory S) ls rounds,
  NoDup (map ld_group ls) -> ~ In size_key (map ld_group ls) ->
  (forall l, In l ls -> fits (seen_by m l (m_done m ++ all_told ls rounds)) []) ->
  let yielded := shared_amid (m_pc m) size_key ls (fst (proxy_of m (m_done m))) rounds in
  ((exists l, In l ls /\ ~ enough_for m l (m_done m)) -> yielded = [Err OtherError]) /\
  ((forall l, In l ls -> enough_for m l (m_done m)) ->
   forall i, (i < List.length rounds)%nat -> (forall j, (j < i)%nat -> exists b, nth_error yielded j = Some (Ok b)) ->
   nth_error yielded i = Some (Err Diverges) \/
   nth_error yielded i = Some (Err OtherError) /\ (exists k l, nth_error ls k = Some l /\ ~ enough_for m l (at_turn m ls rounds i k)) \/
   exists b, nth_error yielded i = Some (Ok b) /\ dget b size_key = Some (ENum (zsum (map (fun l => Z.of_nat (ld_count l * ld_length l)) ls))) /\
     forall k l, nth_error ls k = Some l -> enough_for m l (at_turn m ls rounds i k) /\ shows_for m l (at_turn m ls rounds i k) b).
Proof. exact shared_ok. Qed.
Print Assumptions C162_shared_memory.

(** With capacity for a batch of each loader and the longest episode, less one, it does not stop. *)
Theorem C162_shared_keeps_yielding : forall (S : Type) (HS : Scalar S) (size_key : string) (m : memory S) ls rounds longest,
  NoDup (map ld_group ls) -> ~ In size_key (map ld_group ls) ->
  (forall l, In l ls -> fits (seen_by m l (m_done m ++ all_told ls rounds)) []) ->
  (forall a ms, In ms (episodes [] (stream a (m_done m ++ all_told ls rounds))) -> zlen ms - 1 <= longest) ->
  (forall l, In l ls -> Z.of_nat (ld_count l * ld_length l) + longest - 1 <= m_maxlen m) ->
  let yielded := shared_amid (m_pc m) size_key ls (fst (proxy_of m (m_done m))) rounds in
  (forall l, In l ls -> enough_for m l (m_done m)) ->
  forall i, (i < List.length rounds)%nat -> (forall j, (j < i)%nat -> exists b, nth_error yielded j = Some (Ok b)) ->
  nth_error yielded i = Some (Err Diverges) \/
  exists b, nth_error yielded i = Some (Ok b) /\ dget b size_key = Some (ENum (zsum (map (fun l => Z.of_nat (ld_count l * ld_length l)) ls))) /\
    forall k l, nth_error ls k = Some l -> shows_for m l (at_turn m ls rounds i k) b.
Proof. exact shared_roomy. Qed.
Print Assumptions C162_shared_keeps_yielding.

(** Single steps and pairs of steps of one memory; before the last turn another agent's episode is added. *)
Definition sj_loaders : list loader := [mkLoader 3 1 "batch_size" "steps"; mkLoader 1 2 "batch_size" "pairs"].
Definition sj_rounds : list (list (list (pop Z) * list draw)) :=
  [ [([], jg_three 1); ([], [(1, 0)])]; [([], jg_three 1); ([jg_add], [(0, 0)])] ].
Definition sj_mem : memory Z := jg_mem 10 "steps".
Example C162_fits : (forall l, In l sj_loaders -> fits (seen_by sj_mem l (m_done sj_mem ++ all_told sj_loaders sj_rounds)) []) /\
  (forall l, In l sj_loaders -> enough_for sj_mem l (m_done sj_mem)).
Proof.
  split; [|intros l [<-|[<-|[]]]; vm_compute; discriminate].
  set (h := m_done sj_mem ++ all_told sj_loaders sj_rounds).
  assert (B : batches_ok h) by (unfold h, batches_ok; cbn; repeat constructor; simpl; intuition discriminate).
  assert (St : forall a, stream a h = stream a (jg_all [] [])) by reflexivity.
  assert (A : forall L, (L <= 2)%nat -> agents_ok px_pc px_cols "actions" px_sch L h).
  { intros L HL. destruct px_agents as [_ A]. split; [unfold h; cbn; repeat constructor; simpl; try lia; discriminate|].
    intros a. cbv zeta. rewrite St, jg_streams. specialize (A a). cbv zeta in A. rewrite px_streams in A.
    destruct (a =? 0); [|destruct (a =? 1)].
    - destruct A as [A1 A2]. split; [exact A1|]. intros ms I. destruct (A2 ms I) as (B1 & B2 & B3 & B4). split; auto. split; auto. split; auto. lia.
    - destruct A as [A1 A2]. split; [exact A1|]. intros ms I. destruct (A2 ms I) as (B1 & B2 & B3 & B4). split; auto. split; auto. split; auto. lia.
    - split; [vm_compute; lia|]. intros ms I. vm_compute in I. destruct I. }
  assert (D : forall os rs dr a, In (PAdd os rs dr) h -> In a (dkeys os) -> a < 2 ^ 63).
  { intros os rs dr a J. cbn in J. repeat (destruct J as [Q|J]; [try discriminate; injection Q as <- <- <-; cbn; intros J'; repeat (destruct J' as [<-|J']; [reflexivity|]); destruct J'|]). destruct J. }
  assert (G : forall l, (1 <= ld_length l <= 2)%nat -> (1 <= ld_count l)%nat -> ld_group l <> ld_size_key l -> snd (proxy_of (seen_by sj_mem l h) h) = Ok tt -> fits (seen_by sj_mem l h) []).
  { intros l H1 H2 H3 H4. unfold fits. cbv zeta. cbn [seen_by sj_mem jg_mem m_pc m_loader m_cols m_lenkey m_maxlen m_sampler m_ejector m_schema m_done].
    change (doings l []) with (@nil (pop Z)). rewrite app_nil_r.
    split; [exact px_config|]. split; [constructor|]. split; [constructor|]. split; [exact px_schema|]. split; [exact px_layout|].
    split; [lia|]. split; [lia|]. split; [exact H3|]. split; [exact B|]. split; [apply A; lia|]. split; [exact D|exact H4]. }
  intros l [<-|[<-|[]]]; (apply G; [cbn; lia|cbn; lia|cbn; discriminate|vm_compute; reflexivity]).
Qed.
Example C162_run : map (fun r => match r with Ok b => (dget b "batch_size", match dget b "pairs" with Some (EData d) => dget d "obs" | _ => None end) | Err _ => (None, None) end)
    (shared_amid px_pc "batch_size" sj_loaders (fst (proxy_of sj_mem (m_done sj_mem))) sj_rounds)
  = [(Some (ENum 5), Some (CRows [[10]; [11]])); (Some (ENum 5), Some (CRows [[0]; [1]]))].
Proof. vm_compute. reflexivity. Qed.
Example C162_roomy : (forall a ms, In ms (episodes [] (stream a (m_done sj_mem ++ all_told sj_loaders sj_rounds))) -> zlen ms - 1 <= 3) /\
  (forall l, In l sj_loaders -> Z.of_nat (ld_count l * ld_length l) + 3 - 1 <= m_maxlen sj_mem).
Proof.
  split; [|intros l [<-|[<-|[]]]; vm_compute; discriminate]. intros a ms. change (stream a (m_done sj_mem ++ all_told sj_loaders sj_rounds)) with (stream a (jg_all [] [])).
  rewrite jg_streams. destruct (a =? 0); [|destruct (a =? 1)]; intros I; vm_compute in I; [destruct I as [<-|[]]; vm_compute; discriminate|destruct I as [<-|[]]; vm_compute; discriminate|destruct I].
Qed.
