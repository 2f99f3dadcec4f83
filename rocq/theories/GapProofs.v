(** * GapProofs: a MemoryLoader whose memory is used by other threads (proofs for C158) *)
From Coq Require Import Lia.
From Verif Require Import Py PyLemmas MemModel MemSpec MemProofs MemRun ProxyModel ProxySpec ProxyProofs ProxyE2E LoaderModel LoaderProofs ExpMem AmidProofs GapModel GapSpec.
Set Implicit Arguments. Unset Strict Implicit.
Open Scope list_scope.
Open Scope Z_scope.

Section P.
Context {S : Type} {HS : Scalar S}.
Variables (pc : pconf) (l : loader) (cols : list (column S)) (lk : string) (maxlen : Z) (smp : sampler) (ej : ejector) (sch : schema).
Notation L := (ld_length l).
Notation N := (ld_count l).
Notation T0 := (t_create cols lk maxlen smp ej).
Hypothesis CO : config_ok cols lk.
Hypothesis Fs : fresh_sampler smp.
Hypothesis Fe : fresh_ejector ej.
Hypothesis SO : schema_ok (pc_terminal pc) sch.
Hypothesis LA : layout cols lk (pc_terminal pc) sch.
Hypothesis L1 : (1 <= L)%nat.
Hypothesis N1 : (1 <= N)%nat.
Hypothesis Ng : ld_group l <> ld_size_key l.

Lemma prun_ok h : forall h' (p q : proxy S), prun pc p (h ++ h') = (q, Ok tt) -> exists p1, prun pc p h = (p1, Ok tt).
Proof. clear. induction h as [|o h IH]; intros h' p q E; cbn [prun app] in *; [eauto|]. destruct (pstep pc p o) as [p1 [u|e]]; [eauto|discriminate]. Qed.
Lemma agents_app (h h' : list (pop S)) : agents_ok pc cols lk sch L (h ++ h') -> agents_ok pc cols lk sch L h.
Proof.
  clear. intros [A1 A2]. apply Forall_app in A1 as [A1 _]. split; auto. intros a. destruct (A2 a) as [B1 B2]. cbv zeta. rewrite stream_join, episodes_more, filter_app in B1, B2.
  split; [rewrite app_length in B1; lia|]. intros ms I. apply B2. apply in_or_app. auto.
Qed.
Lemma stocked_history (h h' : list (pop S)) (p p' : proxy S) : batches_ok (h ++ h') -> agents_ok pc cols lk sch L (h ++ h') ->
  prun pc (px_new T0) h = (p, Ok tt) -> prun pc p h' = (p', Ok tt) -> stocked (px_table p) -> stocked (px_table p').
Proof.
  intros BO AO E E' Sk. pose proof BO as BO'. apply Forall_app in BO' as [B1 B2]. pose proof AO as [A1 _].
  assert (Nc : forall o, In (PUse o) (h ++ h') -> o <> OClear) by (intros o Io; rewrite Forall_forall in A1; apply (A1 _ Io)).
  assert (Nc1 : forall o, In (PUse o) h -> o <> OClear) by (intros o Io; apply Nc, in_or_app; auto).
  destruct (history_ops B1 E Nc1) as (ops & Et & No & F & SR).
  assert (Ek : t_lenkey (px_table p) = lk).
  { destruct (sampling_of CO Fs Fe SO LA (agents_app AO) L1 No F) as [(_ & _ & _ & Co & _) _]. destruct (run_create maxlen CO Fs Fe Co) as (B & _ & _ & _ & F2 & _). rewrite Et. exact F2. }
  destruct (@builder S HS pc lk h' B2 p p' (fun a => running [] (stream a h)) Ek SR E') as (more & A2 & A3 & A4 & _).
  assert (No2 : Forall no_clear more).
  { apply Forall_forall. intros o Io. destruct (is_add o) eqn:Ea; [destruct o; discriminate|].
    assert (In o (uses h')) as Iu by (rewrite <- A3; apply filter_In; rewrite Ea; auto).
    unfold uses in Iu. apply in_flat_map in Iu as (x & Ix & Ox). destruct x as [|o']; [destruct Ox|]. destruct Ox as [->|[]]. apply Nc. apply in_or_app. auto. }
  assert (F2 : forall a, Forall2 (records (pc_terminal pc) lk) (added_by a (additions (ops ++ more))) (filter (kept pc lk) (episodes [] (stream a (h ++ h'))))).
  { intros a. rewrite stream_join, episodes_more, filter_app, additions_app. unfold added_by. rewrite filter_app, map_app. apply Forall2_app; [exact (F a)|exact (A4 a)]. }
  destruct (sampling_of CO Fs Fe SO LA AO L1 (proj2 (Forall_app _ _ _) (conj No No2)) F2) as [(_ & _ & _ & Co & _) _].
  rewrite A2, Et. rewrite Et in Sk. pose proof (stocked_more CO Fs Fe Co Sk) as Q. unfold run in *. rewrite fold_left_app in Q. exact Q.
Qed.

Lemma load_carries (t t' : table S) dr rows : t_sample t N L dr = (t', Ok rows) -> exists b, load_one l t dr = (t', Ok b) /\ carries l rows b.
Proof.
  intros Es. unfold load_one. rewrite Es. eexists. split; [reflexivity|]. unfold carries. eexists. rewrite dget_dset_neq by congruence. rewrite !dget_dset_eq. split; [reflexivity|]. split; [reflexivity|].
  intros c Hc. rewrite dget_dset_neq by auto. apply (dget_map_val (@CRows S)).
Qed.

Lemma loop_amid rounds : forall (h : list (pop S)) (p q : proxy S), batches_ok (h ++ doings l rounds) -> agents_ok pc cols lk sch L (h ++ doings l rounds) ->
  (forall os rs dr a, In (PAdd os rs dr) (h ++ doings l rounds) -> In a (dkeys os) -> a < 2 ^ 63) ->
  prun pc (px_new T0) h = (p, Ok tt) -> prun pc p (doings l rounds) = (q, Ok tt) -> stocked (px_table p) ->
  forall i, (i < List.length rounds)%nat -> (forall j, (j < i)%nat -> exists b, nth_error (batches_amid pc l p rounds) j = Some (Ok b)) ->
  nth_error (batches_amid pc l p rounds) i = Some (Err Diverges) \/
  exists b rows, nth_error (batches_amid pc l p rounds) i = Some (Ok b) /\ carries l rows b /\ batch_sized cols rows N L /\
    forall j, (j < N)%nat -> exists a ms k, In ms (episodes [] (stream a (h ++ before_draw l rounds i))) /\ is_window cols sch rows L j ms k.
Proof.
  induction rounds as [|[h1 dr] rounds IH]; intros h p q BO AO Hid E Eq Sk i Hi Ha; [cbn in Hi; lia|].
  assert (Ed : h ++ doings l ((h1, dr) :: rounds) = (h ++ h1) ++ drawing l dr :: doings l rounds).
  { unfold doings. cbn [flat_map fst snd]. rewrite <- !app_assoc. reflexivity. }
  assert (Ed' : h ++ doings l ((h1, dr) :: rounds) = ((h ++ h1) ++ [drawing l dr]) ++ doings l rounds).
  { rewrite Ed, <- (app_assoc (h ++ h1)). reflexivity. }
  assert (Eq' : prun pc p (h1 ++ drawing l dr :: doings l rounds) = (q, Ok tt)).
  { rewrite <- Eq. unfold doings. cbn [flat_map fst snd]. rewrite <- app_assoc. reflexivity. }
  destruct (prun_ok Eq') as [p1 E1].
  assert (E01 : prun pc (px_new T0) (h ++ h1) = (p1, Ok tt)) by (rewrite (prun_join h1 E); exact E1).
  rewrite (prun_join _ E1) in Eq'. cbn [prun drawing pstep step] in Eq'.
  rewrite Ed in BO, AO, Hid. pose proof BO as BO1. apply Forall_app in BO1 as [BO1 _]. pose proof (agents_app AO) as AO1.
  assert (Sk1 : stocked (px_table p1)) by (eapply stocked_history; eauto).
  assert (Hid1 : forall os rs dr a, In (PAdd os rs dr) (h ++ h1) -> In a (dkeys os) -> a < 2 ^ 63) by (intros os rs d a I; apply (Hid os rs d a); apply in_or_app; auto).
  destruct (sample_hist N dr CO Fs Fe SO LA L1 BO1 AO1 E01 Sk1 Hid1) as [Q1 Q2].
  cbn [batches_amid] in *. rewrite E1 in *. destruct (t_sample (px_table p1) N L dr) as [t' [rows|e]] eqn:Es; cbn [fst snd] in *.
  - destruct (load_carries Es) as (b & El & Cb). rewrite El in *. destruct i as [|i].
    + right. exists b, rows. split; auto. split; auto. unfold before_draw, doings. cbn [firstn flat_map nth_error fst app].
      eapply end_to_end_windows; [exact CO|exact Fs|exact Fe|exact SO|exact LA|exact BO1|exact AO1|exact L1|exact E01|]. rewrite Es. reflexivity.
    + cbn [nth_error].
      assert (Eb : h ++ before_draw l ((h1, dr) :: rounds) (Datatypes.S i) = ((h ++ h1) ++ [drawing l dr]) ++ before_draw l rounds i).
      { unfold before_draw, doings. cbn [firstn flat_map nth_error fst snd]. rewrite <- !app_assoc. reflexivity. }
      rewrite Eb. apply IH with (q := q).
      * rewrite <- Ed', Ed. exact BO.
      * rewrite <- Ed', Ed. exact AO.
      * rewrite <- Ed', Ed. exact Hid.
      * rewrite (prun_join [drawing l dr] E01). cbn [prun drawing pstep step]. rewrite Es. reflexivity.
      * rewrite <- Eq'. reflexivity.
      * exact Q2.
      * cbn [List.length] in Hi. lia.
      * intros j Hj. exact (Ha (Datatypes.S j) ltac:(lia)).
  - left. rewrite (Q1 e eq_refl) in *. unfold load_one in *. rewrite Es in *. destruct i as [|i]; [reflexivity|].
    destruct (Ha 0%nat ltac:(lia)) as [b Hb]. discriminate.
Qed.
End P.

Lemma keeps_amid : forall (S : Type) (HS : Scalar S) pc (l : loader) (cols : list (column S)) lk maxlen smp ej sch h p rounds q,
  config_ok cols lk -> fresh_sampler smp -> fresh_ejector ej -> schema_ok (pc_terminal pc) sch -> layout cols lk (pc_terminal pc) sch ->
  (1 <= ld_length l)%nat -> (1 <= ld_count l)%nat -> ld_group l <> ld_size_key l ->
  batches_ok (h ++ doings l rounds) -> agents_ok pc cols lk sch (ld_length l) (h ++ doings l rounds) ->
  (forall os rs dr a, In (PAdd os rs dr) (h ++ doings l rounds) -> In a (dkeys os) -> a < 2 ^ 63) ->
  prun pc (px_new (t_create cols lk maxlen smp ej)) h = (p, Ok tt) -> prun pc p (doings l rounds) = (q, Ok tt) ->
  (t_size (px_table p) < Z.of_nat (ld_count l * ld_length l) -> iterate_amid pc l p rounds = [Err OtherError]) /\
  (Z.of_nat (ld_count l * ld_length l) <= t_size (px_table p) ->
   forall i, (i < List.length rounds)%nat -> (forall j, (j < i)%nat -> exists b, nth_error (iterate_amid pc l p rounds) j = Some (Ok b)) ->
   nth_error (iterate_amid pc l p rounds) i = Some (Err Diverges) \/
   exists b rows, nth_error (iterate_amid pc l p rounds) i = Some (Ok b) /\ carries l rows b /\ batch_sized cols rows (ld_count l) (ld_length l) /\
     forall j, (j < ld_count l)%nat -> exists a ms k, In ms (episodes [] (stream a (h ++ before_draw l rounds i))) /\ is_window cols sch rows (ld_length l) j ms k).
Proof.
  intros S HS pc l cols lk maxlen smp ej sch h p rounds q CO Fs Fe SO LA L1 N1 Ng BO AO Hid E Eq. unfold iterate_amid, is_ready. rewrite Nat2Z.inj_mul. split.
  - intros Hl. destruct (Z.leb_spec (Z.of_nat (ld_count l) * Z.of_nat (ld_length l)) (t_size (px_table p))); [lia|reflexivity].
  - intros Hl. destruct (Z.leb_spec (Z.of_nat (ld_count l) * Z.of_nat (ld_length l)) (t_size (px_table p))) as [Hr|]; [|lia].
    eapply loop_amid; eauto. eapply ready_stocked with (L := ld_length l) (h := h); eauto.
    + apply Forall_app in BO as [BO _]. exact BO.
    + eapply agents_app; eauto.
    + assert (1 <= Z.of_nat (ld_count l)) by lia. assert (1 <= Z.of_nat (ld_length l)) by lia. nia.
Qed.
