(** * SjntProofs: a JointMemoryLoader whose loaders share one memory (proofs for C162) *)
From Coq Require Import Lia.
From Verif Require Import Py PyLemmas MemModel MemSpec MemProofs MemRun ProxyModel ProxySpec ProxyProofs ProxyE2E LoaderModel LoaderProofs ExpMem AmidProofs
  GapModel GapSpec GapProofs JgapModel JgapSpec JgapProofs RoomSpec RoomProofs SjntModel SjntSpec.
Set Implicit Arguments. Unset Strict Implicit.
Open Scope list_scope.
Open Scope Z_scope.

Section P.
Context {S : Type} {HS : Scalar S}.
Notation act := (list (pop S) * list draw)%type.
Variable m : memory S.
Notation px h := (fst (proxy_of m h)).
Notation gs ls := (map ld_group ls).

Lemma fits_prefix l h (a : act) tail : fits (seen_by m l (h ++ (fst a ++ [drawing l (snd a)]) ++ tail)) [] -> fits (seen_by m l h) [a].
Proof.
  unfold fits. cbn [seen_by m_pc m_loader m_cols m_lenkey m_maxlen m_sampler m_ejector m_schema m_done]. unfold doings. cbn [flat_map]. rewrite !app_nil_r.
  intros (CO & Fs & Fe & SO & LA & L1 & N1 & Ng & BO & AO & Hid & Ok0). rewrite app_assoc in BO, AO, Hid, Ok0.
  split; auto. split; auto. split; auto. split; auto. split; auto. split; auto. split; auto. split; auto.
  split; [apply Forall_app in BO; tauto|]. split; [exact (agents_app AO)|]. split; [intros os rs dr b I; apply (Hid os rs dr b), in_or_app; auto|].
  unfold proxy_of in *. cbn [seen_by m_pc m_cols m_lenkey m_maxlen m_sampler m_ejector] in *.
  destruct (prun _ _ ((h ++ _) ++ tail)) as [q r] eqn:Eq. cbn [snd] in Ok0. subst r. destruct (prun_ok Eq) as [p E]. rewrite E. reflexivity.
Qed.

(** One batch. *)
Lemma shared_turn sk : forall ls (acts : list act) h tail n out,
  (forall l, In l ls -> fits (seen_by m l (h ++ told ls acts ++ tail)) []) ->
  NoDup (gs ls) -> ~ In sk (gs ls) -> dget out sk = Some (ENum n) ->
  let at_k k := h ++ told (firstn k ls) acts ++ fst (nth k acts ([], [])) in
  match shared_turns (m_pc m) sk ls (px h) acts out with
  | (_, Err e) => e = Diverges \/ e = OtherError /\ exists k l, nth_error ls k = Some l /\ ~ enough_for m l (at_k k)
  | (p, Ok b) => p = px (h ++ told ls acts) /\ dget b sk = Some (ENum (n + zsum (map (fun l => Z.of_nat (ld_count l * ld_length l)) ls))) /\
      (forall g, ~ In g (gs ls) -> g <> sk -> dget b g = dget out g) /\
      forall k l, nth_error ls k = Some l -> enough_for m l (at_k k) /\ shows_for m l (at_k k) b
  end.
Proof.
  induction ls as [|l ls IH]; intros acts h tail n out F Nd Ns Ho; cbn zeta; cbn [shared_turns told].
  - rewrite app_nil_r. split; auto. split; [cbn; rewrite Z.add_0_r; auto|]. split; auto. intros k l H; destruct k; discriminate.
  - set (a := hd ([], []) acts) in *. assert (Ea : nth 0 acts ([], []) = a) by (destruct acts; reflexivity).
    assert (Fl : fits (seen_by m l h) [a]).
    { apply (@fits_prefix l h a (told ls (tl acts) ++ tail)). pose proof (F l (or_introl eq_refl)) as Q. cbn [told] in Q. fold a in Q. rewrite <- app_assoc in Q. exact Q. }
    pose proof (turn Fl) as T. cbv zeta in T. change (m_pc (seen_by m l h)) with (m_pc m) in T. change (m_loader (seen_by m l h)) with l in T. change (m_done (seen_by m l h)) with h in T.
    change (so_px (now (seen_by m l h))) with (px h) in T. change (holds_enough (seen_by m l h) (h ++ fst a)) with (enough_for m l (h ++ fst a)) in T.
    change (shows_rollouts (seen_by m l h) (h ++ fst a)) with (shows_for m l (h ++ fst a)) in T.
    change (wanted (seen_by m l h)) with (Z.of_nat (ld_count l * ld_length l)) in T.
    destruct (loader_next l GNew _ (snd a)) as [[g t] [data|e]].
    2:{ destruct T as [[T1 T2]|[T1 T2]]; [left; exact T2|right]. split; auto. exists 0%nat, l. split; auto. cbn [firstn told app]. rewrite Ea. exact T1. }
    destruct T as (T1 & T2 & T3 & d & T4 & T5). rewrite T4, T3.
    apply (f_equal (@so_px S)) in T2. cbn [so_px] in T2. rewrite T2. change (so_px (now (after (seen_by m l h) a))) with (px (h ++ fst a ++ [drawing l (snd a)])).
    cbn [map] in Nd, Ns. inversion Nd as [|? ? Nd1 Nd2]; subst.
    assert (Nsg : sk <> ld_group l) by (intros Q; apply Ns; left; auto).
    unfold add_num. rewrite dget_dset_neq by auto. rewrite Ho.
    set (w := Z.of_nat (ld_count l * ld_length l)) in *. set (out' := dset (dset out (ld_group l) (EData d)) sk (ENum (n + w))).
    specialize (IH (tl acts) (h ++ fst a ++ [drawing l (snd a)]) tail (n + w) out').
    assert (F' : forall l0, In l0 ls -> fits (seen_by m l0 ((h ++ fst a ++ [drawing l (snd a)]) ++ told ls (tl acts) ++ tail)) []).
    { intros l0 I. pose proof (F l0 (or_intror I)) as Q. cbn [told] in Q. fold a in Q. rewrite <- !app_assoc in Q. rewrite <- !app_assoc. exact Q. }
    specialize (IH F' Nd2 (fun Q => Ns (or_intror Q)) (dget_dset_eq _ _ _)). cbv zeta in IH.
    assert (Ek : forall k, (h ++ fst a ++ [drawing l (snd a)]) ++ told (firstn k ls) (tl acts) ++ fst (nth k (tl acts) ([], [])) =
      h ++ told (firstn (Datatypes.S k) (l :: ls)) acts ++ fst (nth (Datatypes.S k) acts ([], []))).
    { intros k. cbn [firstn told]. fold a. rewrite <- !app_assoc. do 4 f_equal. destruct acts; cbn [tl]; [destruct k|]; reflexivity. }
    destruct (shared_turns (m_pc m) sk ls _ (tl acts) out') as [p [b|e]].
    + destruct IH as (I1 & I2 & I3 & I4). split; [rewrite I1; rewrite <- !app_assoc; reflexivity|].
      split; [rewrite I2; cbn [map]; unfold zsum; cbn [fold_right]; fold w; f_equal; f_equal; lia|].
      assert (Eb : dget b (ld_group l) = Some (EData d)).
      { rewrite I3; auto. unfold out'. rewrite dget_dset_neq by auto. apply dget_dset_eq. }
      split.
      * intros g0 Hg Hs. rewrite I3; auto; [|intros Q; apply Hg; right; exact Q]. unfold out'. rewrite dget_dset_neq by auto. apply dget_dset_neq. intros Q. apply Hg. left. auto.
      * intros [|k] l0 H; [injection H as <-; cbn [firstn told app]; rewrite Ea; split; [exact T1|apply T5; exact Eb]|]. cbn [nth_error] in H. rewrite <- Ek. apply I4. exact H.
    + destruct IH as [I1|(I1 & k & l0 & I2 & I3)]; [left; auto|right]. split; auto. exists (Datatypes.S k), l0. rewrite <- Ek. auto.
Qed.

Lemma shared_loop sk ls : ~ In sk (gs ls) -> NoDup (gs ls) -> forall (rounds : list (list act)) h,
  (forall l, In l ls -> fits (seen_by m l (h ++ all_told ls rounds)) []) ->
  let at_ik i k := h ++ all_told ls (firstn i rounds) ++ told (firstn k ls) (nth i rounds []) ++ fst (nth k (nth i rounds []) ([], [])) in
  forall i, (i < List.length rounds)%nat -> (forall j, (j < i)%nat -> exists b, nth_error (shared_rounds (m_pc m) sk ls (px h) rounds) j = Some (Ok b)) ->
  nth_error (shared_rounds (m_pc m) sk ls (px h) rounds) i = Some (Err Diverges) \/
  nth_error (shared_rounds (m_pc m) sk ls (px h) rounds) i = Some (Err OtherError) /\ (exists k l, nth_error ls k = Some l /\ ~ enough_for m l (at_ik i k)) \/
  exists b, nth_error (shared_rounds (m_pc m) sk ls (px h) rounds) i = Some (Ok b) /\ dget b sk = Some (ENum (zsum (map (fun l => Z.of_nat (ld_count l * ld_length l)) ls))) /\
    forall k l, nth_error ls k = Some l -> enough_for m l (at_ik i k) /\ shows_for m l (at_ik i k) b.
Proof.
  intros Ns Nd. induction rounds as [|acts rounds IH]; intros h F at_ik i Hi Ha; [cbn in Hi; lia|].
  cbn [shared_rounds] in *. assert (D0 : dget [(sk, ENum (S := S) 0)] sk = Some (ENum 0)) by (cbn [dget]; destruct (keqb_spec sk sk) as [_|Q]; [reflexivity|congruence]).
  pose proof (@shared_turn sk ls acts h (all_told ls rounds) 0 [(sk, ENum 0)] F Nd Ns D0) as T. cbv zeta in T.
  destruct (shared_turns (m_pc m) sk ls (px h) acts [(sk, ENum 0)]) as [p [b|e]].
  - destruct T as (-> & T1 & _ & T2). destruct i as [|i].
    + right. right. exists b. split; auto.
    + cbn [nth_error]. assert (Ek : forall k, (h ++ told ls acts) ++ all_told ls (firstn i rounds) ++ told (firstn k ls) (nth i rounds []) ++ fst (nth k (nth i rounds []) ([], [])) = at_ik (Datatypes.S i) k).
      { intros k. unfold at_ik, all_told. cbn [firstn flat_map nth]. rewrite <- !app_assoc. reflexivity. }
      destruct (IH (h ++ told ls acts)) with (i := i) as [Q|[[Q1 (k & l & Q2 & Q3)]|(b' & Q1 & Q2 & Q3)]].
      * intros l I. rewrite <- app_assoc. exact (F l I).
      * cbn in Hi. lia.
      * intros j Hj. exact (Ha (Datatypes.S j) ltac:(lia)).
      * left. exact Q.
      * right. left. split; auto. exists k, l. split; auto. rewrite <- Ek. exact Q3.
      * right. right. exists b'. split; auto. split; auto. intros k l E. rewrite <- Ek. exact (Q3 k l E).
  - destruct i as [|i]; [|destruct (Ha 0%nat ltac:(lia)) as [b Hb]; discriminate]. destruct T as [->|(-> & k & l & T1 & T2)]; [left; reflexivity|right; left]. split; [reflexivity|]. exists k, l. auto.
Qed.
End P.

Lemma shared_ok : forall (S : Type) (HS : Scalar S) (sk : string) (m : memory S) ls rounds,
  NoDup (map ld_group ls) -> ~ In sk (map ld_group ls) ->
  (forall l, In l ls -> fits (seen_by m l (m_done m ++ all_told ls rounds)) []) ->
  let yielded := shared_amid (m_pc m) sk ls (fst (proxy_of m (m_done m))) rounds in
  ((exists l, In l ls /\ ~ enough_for m l (m_done m)) -> yielded = [Err OtherError]) /\
  ((forall l, In l ls -> enough_for m l (m_done m)) ->
   forall i, (i < List.length rounds)%nat -> (forall j, (j < i)%nat -> exists b, nth_error yielded j = Some (Ok b)) ->
   nth_error yielded i = Some (Err Diverges) \/
   nth_error yielded i = Some (Err OtherError) /\ (exists k l, nth_error ls k = Some l /\ ~ enough_for m l (at_turn m ls rounds i k)) \/
   exists b, nth_error yielded i = Some (Ok b) /\ dget b sk = Some (ENum (zsum (map (fun l => Z.of_nat (ld_count l * ld_length l)) ls))) /\
     forall k l, nth_error ls k = Some l -> enough_for m l (at_turn m ls rounds i k) /\ shows_for m l (at_turn m ls rounds i k) b).
Proof.
  intros S HS sk m ls rounds Nd Ns F yielded. unfold yielded, shared_amid.
  assert (R : forall l, is_ready l (px_table (fst (proxy_of m (m_done m)))) = true <-> enough_for m l (m_done m)).
  { intros l. unfold is_ready. rewrite Z.leb_le. unfold enough_for, holds_enough, wanted. rewrite Nat2Z.inj_mul. reflexivity. }
  split.
  - intros (l & I & Nl). destruct (forallb _ ls) eqn:Ef; [|reflexivity]. rewrite forallb_forall in Ef. destruct Nl. apply R, Ef, I.
  - intros He. assert (Ef : forallb (fun l => is_ready l (px_table (fst (proxy_of m (m_done m))))) ls = true) by (apply forallb_forall; intros l I; apply R, He, I).
    rewrite Ef. exact (@shared_loop S HS m sk ls Ns Nd rounds (m_done m) F).
Qed.

(** ** With room for a batch and an episode *)
Section R.
Context {S : Type} {HS : Scalar S}.
Lemma stays_shared (m : memory S) l longest h' tail : fits (seen_by m l (m_done m ++ h' ++ tail)) [] ->
  (forall a ms, In ms (episodes [] (stream a (m_done m ++ h' ++ tail))) -> zlen ms - 1 <= longest) -> Z.of_nat (ld_count l * ld_length l) + longest - 1 <= m_maxlen m ->
  enough_for m l (m_done m) -> enough_for m l (m_done m ++ h').
Proof.
  intros (CO & Fs & Fe & SO & LA & L1 & N1 & Ng & BO & AO & Hid & Ok0) R1 R2 He. unfold enough_for, holds_enough, wanted, proxy_of in *.
  cbn [seen_by m_pc m_loader m_cols m_lenkey m_maxlen m_sampler m_ejector m_schema m_done] in *. change (doings l []) with (@nil (pop S)) in *. rewrite app_nil_r, app_assoc in BO, AO, Ok0. rewrite app_assoc in R1. set (P0 := px_new _) in *.
  destruct (prun (m_pc m) P0 ((m_done m ++ h') ++ tail)) as [q r] eqn:Eq. cbn [snd] in Ok0. subst r.
  destruct (prun_ok Eq) as [p' E']. destruct (prun_ok E') as [p E]. rewrite E in He. rewrite E'. cbn [fst] in *. rewrite (prun_join h' E) in E'.
  apply Forall_app in BO as [BO _]. apply agents_app in AO. pose proof BO as BO'. apply Forall_app in BO' as [B1 B2]. pose proof AO as [A1 _].
  assert (Nc : forall o, In (PUse o) (m_done m ++ h') -> o <> OClear) by (intros o Io; rewrite Forall_forall in A1; apply (A1 _ Io)).
  assert (Nc1 : forall o, In (PUse o) (m_done m) -> o <> OClear) by (intros o Io; apply Nc, in_or_app; auto).
  destruct (history_ops B1 E Nc1) as (ops & Et & No & F & SR).
  assert (Ek : t_lenkey (px_table p) = m_lenkey m).
  { destruct (sampling_of CO Fs Fe SO LA (agents_app AO) L1 No F) as [(_ & _ & _ & Co & _) _]. destruct (run_create (m_maxlen m) CO Fs Fe Co) as (B & _ & _ & _ & F2 & _). rewrite Et. exact F2. }
  destruct (@builder S HS (m_pc m) (m_lenkey m) h' B2 p p' (fun a => running [] (stream a (m_done m))) Ek SR E') as (more & A2 & A3 & A4 & _).
  assert (No2 : Forall no_clear more).
  { apply Forall_forall. intros o Io. destruct (is_add o) eqn:Ea; [destruct o; discriminate|].
    assert (In o (uses h')) as Iu by (rewrite <- A3; apply filter_In; rewrite Ea; auto).
    unfold uses in Iu. apply in_flat_map in Iu as (x & Ix & Ox). destruct x as [|o']; [destruct Ox|]. destruct Ox as [->|[]]. apply Nc. apply in_or_app. auto. }
  assert (F2 : forall a, Forall2 (records (pc_terminal (m_pc m)) (m_lenkey m)) (added_by a (additions (ops ++ more))) (filter (kept (m_pc m) (m_lenkey m)) (episodes [] (stream a (m_done m ++ h'))))).
  { intros a. rewrite stream_join, episodes_more, filter_app, additions_app. unfold added_by. rewrite filter_app, map_app. apply Forall2_app; [exact (F a)|exact (A4 a)]. }
  destruct (sampling_of CO Fs Fe SO LA AO L1 (proj2 (Forall_app _ _ _) (conj No No2)) F2) as [(_ & _ & _ & Co & _) Hx].
  rewrite A2. rewrite Et in *. replace (run (run (t_create (m_cols m) (m_lenkey m) (m_maxlen m) (m_sampler m) (m_ejector m)) ops) more) with (run (t_create (m_cols m) (m_lenkey m) (m_maxlen m) (m_sampler m) (m_ejector m)) (ops ++ more)) by (unfold run; apply fold_left_app).
  apply (@never_low _ _ _ _ _ _ _ ops more longest (Z.of_nat (ld_count l * ld_length l)) CO Fs Fe Co); auto.
  unfold none_longer. rewrite adds_additions. apply Forall_map. apply Forall_forall. intros [[a s] dr] I. cbn [fst snd].
  destruct (Hx a s dr I) as (_ & _ & ms & Im & ->). apply (R1 a). rewrite stream_join, episodes_more. apply in_or_app. left. exact Im.
Qed.

Lemma told_prefix ls : forall k (acts : list (list (pop S) * list draw)), (k < List.length ls)%nat -> exists tail, told ls acts = (told (firstn k ls) acts ++ fst (nth k acts ([], []))) ++ tail.
Proof.
  induction ls as [|l ls IH]; intros k acts Hk; [cbn in Hk; lia|]. destruct k as [|k]; cbn [firstn told].
  - eexists. rewrite <- app_assoc. cbn [app]. destruct acts; reflexivity.
  - destruct (IH k (tl acts)) as [tail E]; [cbn in Hk; lia|]. exists tail. rewrite E, <- !app_assoc. do 3 f_equal. f_equal. destruct acts; cbn [tl]; [destruct k|]; reflexivity.
Qed.
Lemma turn_prefix ls (rounds : list (list (list (pop S) * list draw))) i k : (i < List.length rounds)%nat -> (k < List.length ls)%nat ->
  exists tail, all_told ls rounds = (all_told ls (firstn i rounds) ++ told (firstn k ls) (nth i rounds []) ++ fst (nth k (nth i rounds []) ([], []))) ++ tail.
Proof.
  intros Hi Hk. destruct (nth_error rounds i) as [acts|] eqn:En; [|apply nth_error_None in En; lia]. rewrite (nth_error_nth _ _ [] En).
  destruct (nth_error_split _ _ En) as (l1 & l2 & -> & <-). rewrite firstn_app, firstn_all, Nat.sub_diag. cbn [firstn]. rewrite app_nil_r. unfold all_told. rewrite flat_map_app. cbn [flat_map].
  destruct (told_prefix acts Hk) as [tail E]. rewrite E. eexists. rewrite <- !app_assoc. reflexivity.
Qed.
End R.
Lemma shared_roomy : forall (S : Type) (HS : Scalar S) (sk : string) (m : memory S) ls rounds longest,
  NoDup (map ld_group ls) -> ~ In sk (map ld_group ls) ->
  (forall l, In l ls -> fits (seen_by m l (m_done m ++ all_told ls rounds)) []) ->
  (forall a ms, In ms (episodes [] (stream a (m_done m ++ all_told ls rounds))) -> zlen ms - 1 <= longest) ->
  (forall l, In l ls -> Z.of_nat (ld_count l * ld_length l) + longest - 1 <= m_maxlen m) ->
  let yielded := shared_amid (m_pc m) sk ls (fst (proxy_of m (m_done m))) rounds in
  (forall l, In l ls -> enough_for m l (m_done m)) ->
  forall i, (i < List.length rounds)%nat -> (forall j, (j < i)%nat -> exists b, nth_error yielded j = Some (Ok b)) ->
  nth_error yielded i = Some (Err Diverges) \/
  exists b, nth_error yielded i = Some (Ok b) /\ dget b sk = Some (ENum (zsum (map (fun l => Z.of_nat (ld_count l * ld_length l)) ls))) /\
    forall k l, nth_error ls k = Some l -> shows_for m l (at_turn m ls rounds i k) b.
Proof.
  intros S HS sk m ls rounds longest Nd Ns F Le Rm yielded He i Hi Ha. destruct (shared_ok Nd Ns F) as [_ T].
  destruct (T He i Hi Ha) as [Q|[(_ & k & l & Q1 & Q2)|(b & Q1 & Q2 & Q3)]].
  - left. exact Q.
  - exfalso. apply Q2. assert (Hk : (k < List.length ls)%nat) by (apply nth_error_Some; congruence). pose proof (nth_error_In _ _ Q1) as I.
    destruct (turn_prefix Hi Hk) as [tail Et]. specialize (F l I). rewrite Et in F, Le. exact (stays_shared F Le (Rm l I) (He l I)).
  - right. exists b. split; auto. split; auto. intros k l E. exact (proj2 (Q3 k l E)).
Qed.
