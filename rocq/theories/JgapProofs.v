(** * JgapProofs: a JointMemoryLoader whose memories are used by other threads (proofs for C159) *)
From Coq Require Import Lia.
From Verif Require Import Py PyLemmas MemModel MemSpec MemProofs MemRun ProxyModel ProxySpec ProxyProofs ProxyE2E LoaderModel LoaderProofs ExpMem AmidProofs AlgoMore
  GapModel GapSpec GapProofs JgapModel JgapSpec.
Set Implicit Arguments. Unset Strict Implicit.
Open Scope list_scope.
Open Scope Z_scope.

Section P.
Context {S : Type} {HS : Scalar S}.
Notation act := (list (pop S) * list draw)%type.
Notation memory := (memory S).

Definition now (m : memory) : source S := mkSource (m_pc m) (m_loader m) (fst (proxy_of m (m_done m))).
Definition after (m : memory) (a : act) : memory :=
  mkMem (m_pc m) (m_loader m) (m_cols m) (m_lenkey m) (m_maxlen m) (m_sampler m) (m_ejector m) (m_schema m) (m_done m ++ fst a ++ [drawing (m_loader m) (snd a)]).

Lemma fits_after m a c : fits m (a :: c) -> fits (after m a) c.
Proof.
  unfold fits. cbn [m_pc m_loader m_cols m_lenkey m_maxlen m_sampler m_ejector m_schema m_done after].
  assert (E : m_done m ++ doings (m_loader m) (a :: c) = (m_done m ++ fst a ++ [drawing (m_loader m) (snd a)]) ++ doings (m_loader m) c).
  { unfold doings. cbn [flat_map]. rewrite <- !app_assoc. reflexivity. }
  rewrite E. intros H. exact H.
Qed.

(** One turn of one loader. *)
Lemma turn m a c : fits m (a :: c) ->
  let p := fst (prun (m_pc m) (so_px (now m)) (fst a)) in let h := m_done m ++ fst a in
  match loader_next (m_loader m) GNew (px_table p) (snd a) with
  | (_, t, Err e) => holds_enough m h /\ e = Diverges \/ ~ holds_enough m h /\ e = OtherError
  | (_, t, Ok data) => holds_enough m h /\ mkSource (m_pc m) (m_loader m) (mkPx (px_store p) (px_done p) t) = now (after m a) /\
      dget data (ld_size_key (m_loader m)) = Some (ENum (wanted m)) /\ exists d, dget data (ld_group (m_loader m)) = Some (EData d) /\
      forall b, dget b (ld_group (m_loader m)) = Some (EData d) -> shows_rollouts m h b
  end.
Proof.
  intros (CO & Fs & Fe & SO & LA & L1 & N1 & Ng & BO & AO & Hid & Ok0) p h.
  assert (Ed : m_done m ++ doings (m_loader m) (a :: c) = h ++ drawing (m_loader m) (snd a) :: doings (m_loader m) c).
  { unfold doings, h. cbn [flat_map]. rewrite <- !app_assoc. reflexivity. }
  rewrite Ed in BO, AO, Hid, Ok0.
  assert (E1 : proxy_of m h = (p, Ok tt)).
  { unfold proxy_of in *. set (P0 := px_new _) in *. destruct (prun (m_pc m) P0 (h ++ drawing (m_loader m) (snd a) :: doings (m_loader m) c)) as [q r] eqn:Eq. cbn [snd] in Ok0. subst r.
    destruct (prun_ok Eq) as [p1 E1]. rewrite E1. f_equal. unfold h in E1. destruct (prun_ok E1) as [p0 E0]. rewrite (prun_join _ E0) in E1. unfold p, now, proxy_of. cbn [so_px]. fold P0. rewrite E0. cbn [fst]. rewrite E1. reflexivity. }
  pose proof BO as BO1. apply Forall_app in BO1 as [BO1 _]. pose proof (agents_app AO) as AO1.
  assert (Hid1 : forall os rs dr a, In (PAdd os rs dr) h -> In a (dkeys os) -> a < 2 ^ 63) by (intros os rs d a0 I; apply (Hid os rs d a0); apply in_or_app; auto).
  unfold holds_enough. rewrite E1. cbn [fst]. unfold loader_next, is_ready, wanted. rewrite Nat2Z.inj_mul.
  destruct (Z.leb_spec (Z.of_nat (ld_count (m_loader m)) * Z.of_nat (ld_length (m_loader m))) (t_size (px_table p))) as [Hr|Hr].
  2:{ right. split; [lia|reflexivity]. }
  unfold proxy_of in E1. assert (Sk : stocked (px_table p)).
  { eapply ready_stocked with (L := ld_length (m_loader m)) (h := h); eauto. assert (1 <= Z.of_nat (ld_count (m_loader m))) by lia. assert (1 <= Z.of_nat (ld_length (m_loader m))) by lia. nia. }
  destruct (sample_hist (ld_count (m_loader m)) (snd a) CO Fs Fe SO LA L1 BO1 AO1 E1 Sk Hid1) as [Q1 Q2].
  destruct (t_sample (px_table p) (ld_count (m_loader m)) (ld_length (m_loader m)) (snd a)) as [t' [rows|e]] eqn:Es; cbn [fst snd] in *.
  - destruct (load_carries Ng Es) as (b & El & (data & C1 & C2 & C3)). rewrite El. split; auto. split; [|split; [exact C2|]].
    + unfold now, after, proxy_of. cbn [m_pc m_loader m_cols m_lenkey m_maxlen m_sampler m_ejector m_schema m_done]. f_equal. rewrite app_assoc. fold h.
      rewrite (prun_join [drawing (m_loader m) (snd a)] E1). cbn [prun drawing pstep step fst]. rewrite Es. reflexivity.
    + exists data. split; auto. intros b0 Hb0. exists data, rows. split; auto. split; auto.
      eapply end_to_end_windows; [exact CO|exact Fs|exact Fe|exact SO|exact LA|exact BO1|exact AO1|exact L1|exact E1|]. rewrite Es. reflexivity.
  - unfold load_one. rewrite Es. left. auto.
Qed.

(** One batch. *)
Definition total (ms : list memory) : Z := zsum (map wanted ms).
Definition groups (ms : list memory) : list string := map (fun m => ld_group (m_loader m)) ms.
Lemma turns sk : forall (ms : list memory) (acts : list act) (cs : nat -> list act) n out,
  (forall k m, nth_error ms k = Some m -> fits m (nth k acts ([], []) :: cs k)) ->
  NoDup (groups ms) -> ~ In sk (groups ms) -> dget out sk = Some (ENum n) ->
  match joint_turns sk (map now ms) acts out with
  | (_, Err e) => e = Diverges \/ e = OtherError /\ exists k m, nth_error ms k = Some m /\ ~ holds_enough m (m_done m ++ fst (nth k acts ([], [])))
  | (ls, Ok b) => exists ms', ls = map now ms' /\ List.length ms' = List.length ms /\
      (forall k m, nth_error ms k = Some m -> nth_error ms' k = Some (after m (nth k acts ([], [])))) /\
      dget b sk = Some (ENum (n + total ms)) /\ (forall g, ~ In g (groups ms) -> g <> sk -> dget b g = dget out g) /\
      forall k m, nth_error ms k = Some m -> holds_enough m (m_done m ++ fst (nth k acts ([], []))) /\ shows_rollouts m (m_done m ++ fst (nth k acts ([], []))) b
  end.
Proof.
  induction ms as [|m ms IH]; intros acts cs n out F Nd Ns Ho; cbn [map joint_turns].
  - exists []. split; auto. split; auto. split; [intros k m H; destruct k; discriminate|]. split; [unfold total; cbn; rewrite Z.add_0_r; auto|]. split; auto. intros k m H; destruct k; discriminate.
  - change (so_pc (now m)) with (m_pc m). change (so_loader (now m)) with (m_loader m).
    assert (Eh : hd ([], []) acts = nth 0 acts ([], [])) by (destruct acts; reflexivity). rewrite Eh.
    pose proof (turn (F 0%nat m eq_refl)) as T. cbv zeta in T. set (a := nth 0 acts ([], [])) in *.
    destruct (loader_next (m_loader m) GNew _ (snd a)) as [[g t] [data|e]].
    2:{ destruct T as [[T1 T2]|[T1 T2]]; [left; exact T2|right]. split; auto. exists 0%nat, m. auto. }
    destruct T as (T1 & T2 & T3 & d & T4 & T5). rewrite T4, T3. rewrite T2.
    inversion Nd as [|? ? Nd1 Nd2]; subst. fold (groups ms) in Nd1, Nd2.
    assert (Nsg : sk <> ld_group (m_loader m)) by (intros Q; apply Ns; left; auto).
    unfold add_num. rewrite dget_dset_neq by auto. rewrite Ho.
    set (out' := dset (dset out (ld_group (m_loader m)) (EData d)) sk (ENum (n + wanted m))).
    specialize (IH (tl acts) (fun k => cs (Datatypes.S k)) (n + wanted m) out').
    assert (En : forall k, nth k (tl acts) ([], []) = nth (Datatypes.S k) acts ([], [])) by (intros k; destruct acts; cbn; auto; destruct k; reflexivity).
    assert (IH' := IH (fun k m0 H => eq_rect_r (fun x => fits m0 (x :: cs (Datatypes.S k))) (F (Datatypes.S k) m0 H) (En k)) Nd2 (fun Q => Ns (or_intror Q)) (dget_dset_eq _ _ _)). clear IH.
    destruct (joint_turns sk (map now ms) (tl acts) out') as [ls [b|e]].
    + destruct IH' as (ms' & I1 & I2 & I3 & I4 & I5 & I6). exists (after m a :: ms'). split; [cbn [map]; congruence|]. split; [cbn; auto|].
      split; [intros [|k] m0 H; [injection H as <-; reflexivity|cbn [nth_error] in *; rewrite <- En; auto]|].
      split; [rewrite I4; unfold total; cbn [map zsum]; f_equal; f_equal; unfold zsum; cbn; lia|].
      assert (Eb : dget b (ld_group (m_loader m)) = Some (EData d)).
      { rewrite I5; auto. unfold out'. rewrite dget_dset_neq by auto. apply dget_dset_eq. }
      split.
      * intros g0 Hg Hs. rewrite I5; auto; [|intros Q; apply Hg; right; exact Q]. unfold out'. rewrite dget_dset_neq by auto. apply dget_dset_neq. intros Q. apply Hg. left. auto.
      * intros [|k] m0 H; [injection H as <-; split; [exact T1|apply T5; exact Eb]|]. cbn [nth_error] in H. rewrite <- En. apply I6. exact H.
    + destruct IH' as [I1|(I1 & k & m0 & I2 & I3)]; [left; auto|right]. split; auto. exists (Datatypes.S k), m0. rewrite <- En. auto.
Qed.

Lemma rounds_ok sk : forall (rounds : list (list act)) (ms : list memory), ~ In sk (groups ms) -> NoDup (groups ms) ->
  (forall k m, nth_error ms k = Some m -> fits m (for_memory k rounds)) ->
  forall i, (i < List.length rounds)%nat -> (forall j, (j < i)%nat -> exists b, nth_error (joint_rounds sk (map now ms) rounds) j = Some (Ok b)) ->
  nth_error (joint_rounds sk (map now ms) rounds) i = Some (Err Diverges) \/
  nth_error (joint_rounds sk (map now ms) rounds) i = Some (Err OtherError) /\ (exists k m, nth_error ms k = Some m /\ ~ holds_enough m (history k m rounds i)) \/
  exists b, nth_error (joint_rounds sk (map now ms) rounds) i = Some (Ok b) /\ dget b sk = Some (ENum (total ms)) /\
    forall k m, nth_error ms k = Some m -> holds_enough m (history k m rounds i) /\ shows_rollouts m (history k m rounds i) b.
Proof.
  induction rounds as [|acts rounds IH]; intros ms Ns Nd F i Hi Ha; [cbn in Hi; lia|].
  assert (E0 : forall k m, history k m (acts :: rounds) 0 = m_done m ++ fst (nth k acts ([], []))) by reflexivity.
  cbn [joint_rounds] in *.
  pose proof (@turns sk ms acts (fun k => for_memory k rounds) 0 [(sk, ENum 0)] F Nd Ns) as T.
  assert (D0 : dget [(sk, ENum (S := S) 0)] sk = Some (ENum 0)) by (cbn [dget]; destruct (keqb_spec sk sk) as [_|Q]; [reflexivity|congruence]). specialize (T D0).
  destruct (joint_turns sk (map now ms) acts [(sk, ENum 0)]) as [ls [b|e]].
  - destruct T as (ms' & -> & Ln & T1 & T2 & _ & T3). destruct i as [|i].
    + right. right. exists b. split; auto.
    + cbn [nth_error].
      assert (Inv : forall k m', nth_error ms' k = Some m' -> exists m, nth_error ms k = Some m /\ m' = after m (nth k acts ([], []))).
      { intros k m' H. destruct (nth_error ms k) as [m|] eqn:Em; [|exfalso; apply nth_error_None in Em; assert (Q : nth_error ms' k <> None) by congruence; apply nth_error_Some in Q; lia].
        exists m. split; auto. rewrite (T1 k m Em) in H. congruence. }
      assert (Same : forall (A : Type) (f : memory -> A), (forall m a, f (after m a) = f m) -> map f ms' = map f ms).
      { intros A f Hf. apply nth_error_ext_eq. intros k. rewrite !nth_error_map. destruct (nth_error ms k) as [m|] eqn:Em; [rewrite (T1 k m Em); cbn [option_map]; rewrite Hf; reflexivity|].
        destruct (nth_error ms' k) as [m'|] eqn:Em'; [|reflexivity]. destruct (Inv _ _ Em') as (m & Q & _). congruence. }
      assert (Eg : groups ms' = groups ms) by (apply Same; reflexivity). assert (Et : total ms' = total ms) by (unfold total; f_equal; apply Same; reflexivity).
      assert (Hh : forall k m, history k (after m (nth k acts ([], []))) rounds i = history k m (acts :: rounds) (Datatypes.S i)).
      { intros k m. unfold history, before_draw, for_memory, doings. cbn [after m_done m_loader map firstn nth_error flat_map]. rewrite <- !app_assoc. reflexivity. }
      assert (Hn : forall k m h, holds_enough (after m (nth k acts ([], []))) h = holds_enough m h) by reflexivity.
      destruct (IH ms') with (i := i) as [Q|[[Q1 (k & m' & Q2 & Q3)]|(b' & Q1 & Q2 & Q3)]].
      * rewrite Eg. exact Ns.
      * rewrite Eg. exact Nd.
      * intros k m' H. destruct (Inv k m' H) as (m & Em & ->). apply fits_after. exact (F k m Em).
      * cbn in Hi. lia.
      * intros j Hj. exact (Ha (Datatypes.S j) ltac:(lia)).
      * left. exact Q.
      * right. left. split; auto. destruct (Inv k m' Q2) as (m & Em & ->). exists k, m. split; auto. rewrite Hh in Q3. exact Q3.
      * right. right. exists b'. split; auto. rewrite <- Et. split; auto. intros k m Em. destruct (Q3 k _ (T1 k m Em)) as [R1 R2]. rewrite Hh in R1, R2. split; [exact R1|exact R2].
  - destruct i as [|i]; [|destruct (Ha 0%nat ltac:(lia)) as [b Hb]; discriminate]. destruct T as [->|(-> & k & m & T1 & T2)]; [left; reflexivity|right; left]. split; [reflexivity|]. exists k, m. auto.
Qed.
End P.

Lemma joint_amid_ok : forall (S : Type) (HS : Scalar S) (sk : string) (ms : list (memory S)) ls rounds,
  ls = map (fun m => mkSource (m_pc m) (m_loader m) (fst (proxy_of m (m_done m)))) ms ->
  NoDup (map (fun m => ld_group (m_loader m)) ms) -> ~ In sk (map (fun m => ld_group (m_loader m)) ms) ->
  (forall k m, nth_error ms k = Some m -> fits m (for_memory k rounds)) ->
  (forall m, In m ms -> holds_enough m (m_done m)) ->
  forall i, (i < List.length rounds)%nat -> (forall j, (j < i)%nat -> exists b, nth_error (joint_amid sk ls rounds) j = Some (Ok b)) ->
  nth_error (joint_amid sk ls rounds) i = Some (Err Diverges) \/
  nth_error (joint_amid sk ls rounds) i = Some (Err OtherError) /\ (exists k m, nth_error ms k = Some m /\ ~ holds_enough m (history k m rounds i)) \/
  exists b, nth_error (joint_amid sk ls rounds) i = Some (Ok b) /\ dget b sk = Some (ENum (zsum (map wanted ms))) /\
    forall k m, nth_error ms k = Some m -> holds_enough m (history k m rounds i) /\ shows_rollouts m (history k m rounds i) b.
Proof.
  intros S HS sk ms ls rounds -> Nd Ns F He. unfold joint_amid.
  assert (R : forallb (fun s => is_ready (so_loader s) (px_table (so_px s))) (map (fun m => mkSource (m_pc m) (m_loader m) (fst (proxy_of m (m_done m)))) ms) = true).
  { apply forallb_forall. intros s I. apply in_map_iff in I as (m & <- & I). specialize (He m I). unfold holds_enough, wanted in He. rewrite Nat2Z.inj_mul in He. cbn [so_loader so_px]. unfold is_ready. apply Z.leb_le. exact He. }
  rewrite R. exact (rounds_ok Ns Nd F).
Qed.

(** ** The refutation *)
From Verif Require Import ProxyExamples.
Open Scope string_scope.
Open Scope list_scope.
Open Scope Z_scope.
Definition jg_h : list (pop Z) :=
  [ PAdd [(0, ob INITIAL 0); (1, ob INITIAL 10)] [(0, ac 50); (1, ac 60)] [];
    PAdd [(0, ob RUNNING 1); (1, ob RUNNING 11)] [(0, ac 51); (1, ac 61)] [];
    PAdd [(1, ob RUNNING 12)] [(1, ac 62)] [];
    PAdd [(1, ob INTERRUPTED 13)] [] [] ].
Definition jg_add : pop Z := PAdd [(0, ob TERMINAL 2)] [] [].
Definition jg_mem (room : Z) (g : string) : memory Z :=
  mkMem px_pc (mkLoader 3 1 "batch_size" g) px_cols "actions" room (SWeighted (w_init false)) (EFifo fifo_init) px_sch jg_h.
Definition jg_three (a : Z) : list draw := [(a, 0); (a, 2 ^ 52); (a, 2 ^ 53 - 1)].
Definition jg_rounds : list (list (list (pop Z) * list draw)) :=
  [ [([], jg_three 1); ([], jg_three 1)]; [([jg_add], jg_three 1); ([jg_add], [(0, 0); (0, 2 ^ 53 - 1); (1, 0)])] ].
Definition jg_all (d1 d2 : list draw) : list (pop Z) :=
  jg_h ++ PUse (OSample 3 1 d1) :: jg_add :: [PUse (OSample 3 1 d2)].

Lemma jg_streams a d1 d2 : stream a (jg_all d1 d2) =
  if a =? 0 then [(ob INITIAL 0, Some (ac 50)); (ob RUNNING 1, Some (ac 51)); (ob TERMINAL 2, None)]
  else if a =? 1 then [(ob INITIAL 10, Some (ac 60)); (ob RUNNING 11, Some (ac 61)); (ob RUNNING 12, Some (ac 62)); (ob INTERRUPTED 13, None)] else [].
Proof.
  destruct (Z.eqb_spec a 0); [subst; reflexivity|]. destruct (Z.eqb_spec a 1); [subst; reflexivity|].
  unfold stream, jg_all, jg_h, jg_add. cbn [app flat_map dget keqb EqK_Z].
  repeat match goal with |- context[?x =? ?y] => destruct (Z.eqb_spec x y); [congruence|] end.
  reflexivity.
Qed.
Lemma jg_agents d1 d2 : agents_ok px_pc px_cols "actions" px_sch 1 (jg_all d1 d2).
Proof.
  destruct px_agents as [_ A]. split; [unfold jg_all, jg_h, jg_add; repeat constructor; simpl; try lia; discriminate|].
  intros a. cbv zeta. rewrite jg_streams. specialize (A a). cbv zeta in A. rewrite px_streams in A.
  destruct (a =? 0); [|destruct (a =? 1)].
  - destruct A as [A1 A2]. split; [exact A1|]. intros ms I. destruct (A2 ms I) as (B1 & B2 & B3 & B4). split; auto. split; auto. split; auto. lia.
  - destruct A as [A1 A2]. split; [exact A1|]. intros ms I. destruct (A2 ms I) as (B1 & B2 & B3 & B4). split; auto. split; auto. split; auto. lia.
  - split; [vm_compute; lia|]. intros ms I. vm_compute in I. destruct I.
Qed.
Lemma jg_fits room g k : (k < 2)%nat -> g <> "batch_size" ->
  snd (proxy_of (jg_mem room g) (jg_h ++ doings (mkLoader 3 1 "batch_size" g) (for_memory k jg_rounds))) = Ok tt -> fits (jg_mem room g) (for_memory k jg_rounds).
Proof.
  intros Hk Hg E.
  assert (Ea : exists d1 d2, jg_h ++ doings (mkLoader 3 1 "batch_size" g) (for_memory k jg_rounds) = jg_all d1 d2).
  { destruct k as [|[|k]]; [| |lia]; eexists; eexists; reflexivity. }
  unfold fits. cbv zeta. cbn [jg_mem m_pc m_loader m_cols m_lenkey m_maxlen m_sampler m_ejector m_schema m_done].
  split; [exact px_config|]. split; [constructor|]. split; [constructor|]. split; [exact px_schema|]. split; [exact px_layout|].
  split; [cbn; lia|]. split; [cbn; lia|]. split; [exact Hg|].
  destruct Ea as (d1 & d2 & Ea). fold (jg_mem room g) in E |- *. rewrite Ea in E |- *.
  split; [unfold batches_ok, jg_all, jg_h, jg_add; repeat constructor; simpl; intuition discriminate|].
  split; [apply jg_agents|]. split; [|exact E].
  intros os rs dr a J. cbn in J. repeat (destruct J as [Q|J]; [try discriminate; injection Q as <- <- <-; cbn; intros J'; repeat (destruct J' as [<-|J']; [reflexivity|]); destruct J'|]). destruct J.
Qed.
Lemma joint_stops : exists (ms : list (memory Z)) rounds b,
  NoDup (map (fun m => ld_group (m_loader m)) ms) /\ ~ In "batch_size" (map (fun m => ld_group (m_loader m)) ms) /\
  (forall k m, nth_error ms k = Some m -> fits m (for_memory k rounds)) /\ (forall m, In m ms -> holds_enough m (m_done m)) /\
  (forall acts a o, In acts rounds -> In a acts -> In o (fst a) -> exists os rs dr, o = PAdd os rs dr) /\
  joint_amid "batch_size" (map (fun m => mkSource (m_pc m) (m_loader m) (fst (proxy_of m (m_done m)))) ms) rounds = [Ok b; Err OtherError].
Proof.
  exists [jg_mem 10 "demos"; jg_mem 4 "default"]. exists jg_rounds. eexists.
  split; [repeat constructor; simpl; intuition discriminate|]. split; [simpl; intuition discriminate|].
  split; [intros [|[|[|k]]] m E; try discriminate; injection E as <-; (apply jg_fits; [lia|discriminate|vm_compute; reflexivity])|].
  split; [intros m [<-|[<-|[]]]; vm_compute; discriminate|].
  split; [|vm_compute; reflexivity].
  intros acts a o I1 I2 I3. destruct I1 as [<-|[<-|[]]]; destruct I2 as [<-|[<-|[]]]; cbn in I3; try destruct I3 as [<-|[]]; try tauto; do 3 eexists; reflexivity.
Qed.
