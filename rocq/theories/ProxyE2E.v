(** * ProxyE2E: every sampled transition was experienced by an agent (C29). *)
From Verif Require Import Py PyLemmas MemModel MemSpec MemProofs MemRun MemSample
  ProxyModel ProxySpec ProxyProofs ProxyAlign.
Open Scope string_scope.
Open Scope list_scope.
Open Scope Z_scope.
Set Implicit Arguments.

Section E2E.
Context {S : Type} `{Scalar S}.
Notation moment := (@moment S).

Lemma adds_additions (ops : list (op S)) :
  adds ops = map (fun x => (wrap_id (fst (fst x)), snd (fst x))) (additions ops).
Proof. induction ops as [|o r IH]; simpl; auto. destruct o; simpl; rewrite ?IH; auto. Qed.

Lemma added_In a s d (l : list (Z * sequence S * list draw)) : In (a, s, d) l -> In s (added_by a l).
Proof.
  intros I. unfold added_by. apply in_map_iff. exists (a, s, d). split; auto.
  apply filter_In. split; auto. cbn [fst]. apply Z.eqb_refl.
Qed.

Lemma Forall2_In_l {A B} (R : A -> B -> Prop) l l' x : Forall2 R l l' -> In x l -> exists y, In y l' /\ R x y.
Proof. induction 1; simpl; [tauto|]. intros [->|I]; eauto. destruct (IHForall2 I) as (y' & ? & ?); eauto. Qed.
Lemma Forall2_len {A B} (R : A -> B -> Prop) l l' : Forall2 R l l' -> List.length l = List.length l'.
Proof. induction 1; simpl; auto. Qed.

Lemma once_NoDup (l : list (Z * sequence S * list draw)) :
  (forall a, (List.length (added_by a l) <= 1)%nat) -> NoDup (map (fun x => fst (fst x)) l).
Proof.
  induction l as [|[[a s] d] r IH]; intros Ha; cbn [map fst]; constructor.
  - intros I. apply in_map_iff in I as ([[a' s'] d'] & E & I). cbn [fst] in E. subst a'.
    specialize (Ha a). apply added_In in I. unfold added_by in Ha, I. cbn [filter fst] in Ha.
    rewrite Z.eqb_refl in Ha. cbn [map List.length] in Ha.
    destruct (map (fun x : Z * sequence S * list draw => snd (fst x)) (filter (fun x => fst (fst x) =? a) r));
      [destruct I|cbn in Ha; lia].
  - apply IH. intros b. specialize (Ha b). unfold added_by in *. cbn [filter fst] in Ha.
    destruct (a =? b); cbn [map List.length] in Ha; lia.
Qed.

Lemma NoDup_map_inj {A B} (f : A -> B) l : NoDup l -> (forall x y, In x l -> In y l -> f x = f y -> x = y) -> NoDup (map f l).
Proof.
  induction 1 as [|x r N _ IH]; simpl; intros Hi; constructor.
  - intros I. apply in_map_iff in I as (y & E & I). apply Hi in E; auto. subst. auto.
  - apply IH. intros; apply Hi; auto.
Qed.

Lemma episodes_nonempty a (h : list (pop S)) cur ms : In ms (episodes cur (stream a h)) -> stream a h <> [].
Proof. intros I E. rewrite E in I. destruct I. Qed.
Lemma stream_agent a (h : list (pop S)) : stream a h <> [] ->
  exists os rs dr, In (PAdd os rs dr) h /\ In a (dkeys os).
Proof.
  induction h as [|o h IH]; intros N; [destruct N; auto|]. unfold stream in N. cbn [flat_map] in N.
  destruct o as [os rs dr|o].
  - destruct (dget os a) eqn:E.
    + exists os, rs, dr. split; [left; auto|]. eapply dget_Some_key; eauto.
    + destruct (IH N) as (os' & rs' & dr' & I & J). exists os', rs', dr'. split; [right|]; auto.
  - destruct (IH N) as (os' & rs' & dr' & I & J). exists os', rs', dr'. split; [right|]; auto.
Qed.

(** Like [sample_master], and the windows are of added sequences. *)
Lemma sample_master2 cols lk maxlen s e ops count L draws out :
  sampling_ok cols lk s e ops L ->
  let t := run (t_create cols lk maxlen s e) ops in
  snd (t_sample t count L draws) = Ok out ->
  exists ws, List.length ws = count /\
    Forall (fun w => In (fst w) (adds ops) /\ episode_ok cols lk (w_seq w) /\ 0 <= w_start w /\
                     w_start w + Z.of_nat L <= seq_len lk (w_seq w)) ws /\
    (forall c, In c cols ->
       dget out (c_name c) = Some (concat (map (win_rows cols L c) ws)) /\
       Forall (fun w => List.length (win_rows cols L c w) = local_len c L) ws).
Proof.
  intros (C & Fs & Fe & Co & HL & Hep) t Eo.
  destruct (run_create maxlen C Fs Fe Co) as (B & I & Sb & F1 & F2 & F3 & F4).
  fold t in I, F1, F2, F3, F4.
  assert (Hb : Forall (fun e => episode_ok (t_cols t) (t_lenkey t) (snd e) /\
                   Z.of_nat L <= seq_len (t_lenkey t) (snd e) <= 2 ^ 53) B).
  { rewrite F1, F2. eapply sublist_Forall; eauto. }
  destruct (t_sample_windows count draws I HL Hb Eo) as (ws & W1 & W2 & _ & W3).
  rewrite F1 in W3. rewrite F2 in W2.
  exists ws. split; auto. split.
  - apply Forall_forall. intros w Iw. rewrite Forall_forall in W2. destruct (W2 w Iw) as (Wi & W0 & Wl).
    split; [eapply sublist_In; eauto|].
    split; auto. rewrite Forall_forall in Hb. apply Hb in Wi. rewrite F1, F2 in Wi. tauto.
  - intros c Ic. subst out. split.
    + apply (dget_map_cols (fun c => concat (map (win_rows cols L c) ws))); auto. apply (co_names C).
    + apply Forall_forall. intros w Iw.
      destruct (@read_slice_window _ _ t B c L w) as [_ E]; auto; rewrite ?F1, ?F2; auto.
      * rewrite Forall_forall in W2. auto.
      * rewrite Forall_forall in W2. destruct (W2 w Iw) as (Wi & _).
        rewrite Forall_forall in Hb. apply Hb in Wi. rewrite F1, F2 in Wi. tauto.
      * rewrite F1 in E. auto.
Qed.

(** ** An aligned episode fits the memory *)
Section One.
Context (cols : list (column S)) (lk : string) (ut : bool) (sch : schema).
Context (CO : config_ok cols lk) (SO : schema_ok ut sch) (LA : layout cols lk ut sch).

Lemma proper_len (ms : list moment) : proper ms -> 1 <= zlen ms - 1.
Proof. intros (a & mid & b & -> & _). unfold zlen. cbn [List.length]. rewrite app_length. cbn [List.length]. lia. Qed.
Lemma removelast_len (ms : list moment) : proper ms -> zlen (removelast ms) = zlen ms - 1.
Proof. intros (a & mid & b & -> & _). rewrite removelast_proper. unfold zlen. cbn [List.length]. rewrite app_length. cbn [List.length]. lia. Qed.
Lemma tl_len (ms : list moment) : proper ms -> zlen (tl ms) = zlen ms - 1.
Proof. intros (a & mid & b & -> & _). unfold zlen. cbn [List.length tl]. lia. Qed.

Lemma al_len_obs (s : sequence S) ms k : aligned ut sch s ms -> In k (sc_obs sch) -> seq_len k s = zlen ms.
Proof. intros (A & _) I. eapply column_is_length; eauto. Qed.
Lemma al_len_act (s : sequence S) ms k : aligned ut sch s ms -> proper ms ->
  In k (sc_resp sch ++ ["rewards"]) -> seq_len k s = zlen ms - 1.
Proof.
  intros (_ & A & B & _) P I. apply in_app_or in I as [I|[<-|[]]].
  - rewrite (column_is_length (A k I)). apply removelast_len; auto.
  - rewrite (column_is_length B). apply tl_len; auto.
Qed.
Lemma al_lenkey (s : sequence S) ms : aligned ut sch s ms -> proper ms -> seq_len lk s = zlen ms - 1.
Proof. intros A P. apply al_len_act; auto. apply LA. Qed.

Lemma al_episode_ok (s : sequence S) ms : aligned ut sch s ms -> proper ms -> episode_ok cols lk s.
Proof.
  intros A P. apply Forall_forall. intros c Ic. pose proof (proper_len P) as Hn.
  pose proof (al_lenkey A P) as El. destruct LA as (L1 & L2 & L3). specialize (L3 c Ic).
  unfold col_ok. destruct (c_kind c) as [| |tg m] eqn:K.
  - rewrite El. rewrite app_assoc in L3. rewrite <- app_assoc in L3. apply in_app_or in L3 as [I|I].
    + rewrite (al_len_obs _ A I). lia.
    + rewrite (al_len_act _ A P I). lia.
  - assert (I : In (c_name c) (names ut sch)).
    { apply L1. apply in_map. apply storage_In. split; auto. unfold is_virtual. rewrite K. auto. }
    unfold names in I. rewrite app_assoc in I.
    rewrite <- app_assoc in I. rewrite !in_app_iff in I. destruct I as [I|[I|[I|I]]].
    + rewrite (al_len_obs _ A I). lia.
    + rewrite (al_len_act _ A P). lia. apply in_or_app; auto.
    + rewrite (al_len_act _ A P). lia. apply in_or_app; auto.
    + destruct ut eqn:Hu; [|destruct I]. destruct I as [I|[]]. rewrite <- I.
      destruct A as (_ & _ & _ & A & _). destruct (A eq_refl) as (m & _ & _ & Em).
      unfold seq_len. rewrite Em. unfold zlen. cbn. lia.
  - destruct m; try (destruct L3; fail).
    + rewrite El, (al_len_obs _ A L3). lia.
    + rewrite El, (al_len_obs _ A L3). lia.
    + rewrite El. apply al_len_act; auto.
    + rewrite El. apply al_len_act; auto.
Qed.

Lemma al_seq_ok (s : sequence S) ms : NoDup (dkeys s) -> aligned ut sch s ms ->
  Forall (sized cols) ms -> seq_ok cols s.
Proof.
  intros N A Z. destruct LA as (L1 & _ & _). destruct A as (A1 & A2 & A3 & A4 & A5).
  assert (Hkey : forall k, In k (dkeys s) <-> dget s k <> None).
  { intros k. split.
    - intros I E. apply dget_None in E. auto.
    - intros E. destruct (dget s k) eqn:E'; [|congruence]. eapply dget_Some_key; eauto. }
  split; auto. split.
  - intros n. rewrite Hkey, L1. split; [apply A5|]. intros I. unfold names in I. rewrite !in_app_iff in I. destruct I as [I|[I|[I|I]]].
    + destruct (A1 n I) as (rows & -> & _). discriminate.
    + destruct (A2 n I) as (rows & -> & _). discriminate.
    + destruct I as [<-|[]]. destruct A3 as (rows & -> & _). discriminate.
    + destruct ut; [|destruct I]. destruct I as [<-|[]]. destruct (A4 eq_refl) as (m & _ & _ & ->). discriminate.
  - intros c frames Ic E.
    assert (G : forall l f, column_is s (c_name c) l f ->
              (forall m, In m l -> forall v, f m = Some v -> List.length v = c_rowsize c) ->
              Forall (fun f => List.length f = c_rowsize c) frames).
    { intros l f (rows & E' & M) Hs. rewrite E' in E. inversion E; subst rows. clear E E'.
      apply Forall_forall. intros v Iv.
      assert (I : In (Some v) (map f l)) by (rewrite <- M; apply in_map; auto).
      apply in_map_iff in I as (m & Em & Im). eapply Hs; eauto. }
    assert (In (c_name c) (names ut sch)) as I. { apply A5. congruence. }
    rewrite Forall_forall in Z.
    unfold names in I. rewrite !in_app_iff in I. destruct I as [I|[I|[I|I]]].
    + eapply G; [apply A1; auto|]. intros m Im v Ev. destruct (Z m Im c Ic) as (Zc & _). auto.
    + eapply G; [apply A2; auto|]. intros m Im v Ev. 
      assert (Im' : In m ms).
      { clear - Im. revert Im. induction ms as [|x r IH]; [auto|]. destruct r; [intros []|].
        intros [->|I]; [left; auto|right; apply IH; auto]. }
      destruct (Z m Im' c Ic) as (_ & Zc & _). auto.
    + destruct I as [I|[]]. rewrite <- I in *. eapply G; [apply A3|]. intros m Im v Ev.
      assert (Im' : In m ms) by (destruct ms; [destruct Im|right; auto]).
      destruct (Z m Im' c Ic) as (_ & _ & Zc & _). auto.
    + destruct ut eqn:Hu; [|destruct I]. destruct I as [I|[]].
      destruct (A4 eq_refl) as (m & Im & _ & Em). rewrite <- I, Em in E. inversion E; subst.
      constructor; auto. cbn. symmetry. destruct (Z m Im c Ic) as (_ & _ & _ & Zc). auto.
Qed.
End One.

Lemma nth_removelast (ms : list moment) i : (Datatypes.S i < List.length ms)%nat ->
  nth_error (removelast ms) i = nth_error ms i.
Proof.
  revert i. induction ms as [|x r IH]; intros i Hi; [cbn in Hi; lia|].
  destruct r as [|y r]; [cbn in Hi; lia|]. cbn [removelast]. destruct i; auto. cbn [nth_error]. apply IH.
  cbn in *. lia.
Qed.
Lemma nth_tl (ms : list moment) i : nth_error (tl ms) i = nth_error ms (Datatypes.S i).
Proof. destruct ms; auto. destruct i; auto. Qed.

Lemma proper_final (ms : list moment) i m : proper ms -> nth_error ms i = Some m ->
  is_final (o_state (fst m)) = Nat.eqb (Datatypes.S i) (List.length ms).
Proof.
  intros (a & mid & b & -> & P1 & P2 & P3) E. cbn [List.length]. rewrite app_length. cbn [List.length].
  destruct i as [|i]; cbn [nth_error] in E.
  - inversion E; subst. rewrite P1. symmetry. apply Nat.eqb_neq. lia.
  - destruct (Nat.ltb_spec i (List.length mid)) as [Hl|Hl].
    + rewrite nth_error_app1 in E by auto. apply nth_error_In in E. rewrite Forall_forall in P2.
      rewrite (P2 _ E). symmetry. apply Nat.eqb_neq. lia.
    + rewrite nth_error_app2 in E by auto. destruct (i - List.length mid)%nat as [|j] eqn:Ej.
      * inversion E; subst. rewrite P3. symmetry. apply Nat.eqb_eq. lia.
      * destruct j; discriminate.
Qed.

Lemma row_at_cast (c : column S) (s : sequence S) ms f i : column_is s (c_name c) ms f -> 0 <= i ->
  row_at (column_data c s) i = cast_by c (match nth_error ms (Z.to_nat i) with Some m => f m | None => None end).
Proof.
  intros Hc Hi. unfold row_at, column_data. destruct (Z.ltb_spec i 0); [lia|].
  destruct Hc as (rows & E & M). rewrite E. unfold array, row. rewrite nth_error_map.
  assert (Hn : nth_error rows (Z.to_nat i) = match nth_error ms (Z.to_nat i) with Some m => f m | None => None end).
  { apply (@column_is_nth _ s (c_name c) ms f); auto. exists rows. auto. }
  unfold cast_by. exact (f_equal (option_map (map (c_cast c))) Hn).
Qed.

Lemma end_to_end_windows pc cols lk maxlen smp ej sch (h : list (pop S)) p count L draws out :
  config_ok cols lk -> fresh_sampler smp -> fresh_ejector ej ->
  schema_ok (pc_terminal pc) sch -> layout cols lk (pc_terminal pc) sch ->
  batches_ok h -> agents_ok pc cols lk sch L h -> (1 <= L)%nat ->
  prun pc (px_new (t_create cols lk maxlen smp ej)) h = (p, Ok tt) ->
  snd (t_sample (px_table p) count L draws) = Ok out ->
  batch_sized cols out count L /\
  forall j, (j < count)%nat ->
  exists a ms i, In ms (episodes [] (stream a h)) /\ is_window cols sch out L j ms i.
Proof.
  intros CO Fs Fe SO LA BO [AG1 AG2] HL E Eo.
  destruct (builder_new _ _ BO E) as (ops & Et & Eu & F). cbn [t_lenkey t_create] in F.
  set (ut := pc_terminal pc) in *.
  assert (Hx : forall a s dr, In (a, s, dr) (additions ops) ->
     0 <= a /\ exists ms, In ms (episodes [] (stream a h)) /\ NoDup (dkeys s) /\ aligned ut sch s ms /\ proper ms /\
        Forall (sized cols) ms /\ Z.of_nat L <= zlen ms - 1 <= 2 ^ 53).
  { intros a s dr I. apply added_In in I. destruct (F a) as [Fa _].
    destruct (Forall2_In_l _ Fa I) as (ms & Im & R). destruct (AG2 a) as [_ Ha]. cbv zeta in Ha.
    destruct (Ha ms Im) as (P & Cf & Sz & Ln). apply filter_In in Im as [Im _]. split.
    - destruct (stream_agent _ _ (episodes_nonempty _ _ _ _ Im)) as (os & rs & dr' & I1 & I2).
      rewrite Forall_forall in AG1. apply AG1 in I1. rewrite Forall_forall in I1. auto.
    - exists ms. split; auto. split; [apply R|]. split; auto.
      eapply proper_aligned; eauto. unfold names. destruct LA as (_ & L2 & _).
      apply in_or_app. right. rewrite app_assoc. apply in_or_app. auto. }
  assert (SP : sampling_ok cols lk smp ej ops L).
  { split; auto. split; auto. split; auto. split; [|split; auto].
    - split; [|split].
      + apply Forall_forall. intros o Io. destruct (is_add o) eqn:Ea; [destruct o; discriminate|].
        assert (In o (uses h)) as Iu. { rewrite <- Eu. apply filter_In. rewrite Ea. auto. }
        unfold uses in Iu. apply in_flat_map in Iu as (x & Ix & Ox). rewrite Forall_forall in AG1.
        apply AG1 in Ix. destruct x as [|o']; [destruct Ox|]. destruct Ox as [->|[]]. auto.
      + rewrite adds_additions. apply Forall_map. apply Forall_forall. intros [[a s] dr] I. cbn [fst snd].
        destruct (Hx a s dr I) as (_ & ms & _ & N & A & _ & Sz & _). eapply al_seq_ok; eauto.
      + rewrite adds_additions, map_map. cbn [fst].
        rewrite <- (map_map (fun x : Z * sequence S * list draw => fst (fst x)) wrap_id).
        apply NoDup_map_inj.
        * apply once_NoDup. intros a. destruct (F a) as [Fa _]. rewrite (Forall2_len Fa). apply AG2.
        * intros x y Ix Iy Exy. apply in_map_iff in Ix as ([[a s] dr] & <- & Ix).
          apply in_map_iff in Iy as ([[a' s'] dr'] & <- & Iy). apply Hx in Ix as [Hx1 _]. apply Hx in Iy as [Hy1 _].
          cbn [fst] in *. unfold wrap_id in Exy.
          destruct (Z.ltb_spec a 0); [lia|]. destruct (Z.ltb_spec a' 0); lia.
    - rewrite adds_additions. apply Forall_map. apply Forall_forall. intros [[a s] dr] I. cbn [fst snd].
      destruct (Hx a s dr I) as (_ & ms & _ & N & A & P & Sz & Ln). split.
      + eapply al_episode_ok; eauto.
      + rewrite (al_lenkey LA A P). auto. }
  rewrite Et in Eo. destruct (sample_master2 maxlen count draws SP Eo) as (ws & W1 & W2 & W3).
  split.
  { intros c Ic. destruct (W3 c Ic) as [Wo Wlen]. eexists. split; [exact Wo|].
    assert (Cl : forall n (l : list (window S)), Forall (fun w => List.length (win_rows cols L c w) = n) l ->
       List.length (concat (map (win_rows cols L c) l)) = (List.length l * n)%nat).
    { clear. induction l as [|w l IH]; intros Hf; auto. inversion Hf; subst. cbn [map concat List.length].
      rewrite app_length, IH by auto. cbn [Nat.mul]. reflexivity. }
    specialize (Cl (local_len c L) ws Wlen). etransitivity; [exact (eq_trans Cl (f_equal (fun n => (n * local_len c L)%nat) W1))|]. unfold local_len.
    destruct (c_kind c) as [| |tg []]; lia. }
  intros j Hj.
  destruct (nth_error ws j) as [w|] eqn:Ew; [|apply nth_error_None in Ew; lia].
  assert (Iw : In w ws) by (eapply nth_error_In; eauto).
  rewrite Forall_forall in W2. destruct (W2 w Iw) as (Wi & Wep & W0 & Wl).
  rewrite adds_additions in Wi. apply in_map_iff in Wi as ([[a s] dr] & Ewi & Wi). cbn [fst snd] in Ewi.
  assert (Es : w_seq w = s) by (unfold w_seq; rewrite <- Ewi; auto). rewrite Es in *.
  destruct (Hx a s dr Wi) as (_ & ms & Im & N & A & P & Sz & Ln).
  pose proof (al_lenkey LA A P) as El. pose proof (proper_len P) as Hn.
  exists a, ms, (Z.to_nat (w_start w)). split; auto.
  destruct A as (A1 & A2 & A3 & A4 & A5). pose proof (conj A1 (conj A2 (conj A3 (conj A4 A5)))) as A.
  assert (Some_of : forall key l f x mm, column_is s key l f -> nth_error l x = Some mm -> f mm <> None).
  { intros key l f x mm (rows & _ & M) Ex. assert (In (f mm) (map f l)) as I.
    { apply in_map. eapply nth_error_In; eauto. }
    rewrite <- M in I. apply in_map_iff in I as (v & <- & _). discriminate. }
  split; [unfold zlen in *; lia|]. split; [|split].
  2:{ intros c d m Ic Id K Em. destruct (W3 c Ic) as [Wo Wlen].
    destruct LA as (_ & _ & L3). specialize (L3 c Ic). rewrite K in L3.
    split; [exact (Some_of _ _ _ _ _ (A1 _ L3) Em)|].
    assert (Ell : local_len c L = 1%nat) by (unfold local_len; rewrite K; auto).
    unfold batch_row. rewrite Wo. rewrite Ell in Wlen.
    pose proof (@batch_rows S (win_rows cols L c) 1 ws j 0 w Wlen ltac:(lia) Ew) as Er.
    replace (j * 1 + 0)%nat with j in Er by lia. rewrite Er.
    unfold win_rows. rewrite K, (find_col_In _ d (co_names CO) Id), Es.
    pose proof (al_len_obs _ A L3) as Eo1.
    change (w_start w + Z.of_nat L + 1) with (w_start w + Z.of_nat L + Z.of_nat 1).
    rewrite row_at_slice; [|lia|rewrite column_data_seq_len; lia|auto].
    rewrite (@row_at_cast d s ms (fun m => saw m (c_name d)) _ (A1 _ L3)) by lia.
    replace (Z.to_nat (w_start w + Z.of_nat L + Z.of_nat 0)) with (Z.to_nat (w_start w) + L)%nat by lia.
    rewrite Em. auto. }
  2:{ intros c Ic K Ec Nt. destruct (W3 c Ic) as [Wo Wlen].
    assert (Hut : ut = true).
    { destruct LA as (L1 & _ & _). assert (I : In (c_name c) (names ut sch)).
      { apply L1. apply in_map. apply storage_In. split; auto. unfold is_virtual. rewrite K. auto. }
      rewrite Ec in I. destruct ut eqn:Hu; auto. exfalso.
      unfold names in I. rewrite !in_app_iff in I. apply Nt. apply in_or_app.
      destruct I as [I|[I|[[I|[]]|[]]]]; auto. discriminate. }
    destruct (A4 Hut) as (m & Im' & Fm & Em). exists m. split; auto. split; auto.
    assert (Ell : local_len c L = 1%nat) by (unfold local_len; rewrite K; auto).
    unfold batch_row. rewrite Wo. rewrite Ell in Wlen.
    pose proof (@batch_rows S (win_rows cols L c) 1 ws j 0 w Wlen ltac:(lia) Ew) as Er.
    replace (j * 1 + 0)%nat with j in Er by lia. rewrite Er.
    unfold win_rows. rewrite K, Es. unfold column_data. rewrite Ec, Em. reflexivity. }
  intros k m m' Hk Em Em'.
  set (i := w_start w + Z.of_nat k). assert (Hi : 0 <= i < zlen ms - 1) by (unfold i; lia).
  replace (Z.to_nat (w_start w) + k)%nat with (Z.to_nat i) in Em, Em' by (unfold i; lia).
  rewrite Nat.add_1_r in Em'.
  intros c Ic. destruct (W3 c Ic) as [Wo Wlen].
  assert (Row : local_len c L = L -> batch_row out (c_name c) (j * L + k) = nth_error (win_rows cols L c w) k).
  { intros Ell. unfold batch_row. rewrite Wo. rewrite Ell in Wlen. apply batch_rows; auto. }
  assert (Lb : is_base c -> local_len c L = L) by (unfold local_len; intros ->; auto).
  assert (Rb : is_base c -> w_start w + Z.of_nat L <= seq_len (c_name c) s ->
               nth_error (win_rows cols L c w) k = row_at (column_data c s) i).
  { intros Bc Hc. unfold win_rows. rewrite Bc. rewrite Es. rewrite row_at_slice; auto.
    rewrite column_data_seq_len. auto. }
  assert (Erl : nth_error (removelast ms) (Z.to_nat i) = Some m).
  { rewrite nth_removelast; auto. unfold zlen in Hi. lia. }
  assert (Etl : nth_error (tl ms) (Z.to_nat i) = Some m') by (rewrite nth_tl; auto).
  assert (Hfin : is_final (o_state (fst m')) = (i =? zlen ms - 2)).
  { rewrite (proper_final _ P Em'). unfold zlen in *. destruct (Z.eqb_spec i (Z.of_nat (List.length ms) - 2)).
    - apply Nat.eqb_eq. lia.
    - apply Nat.eqb_neq. lia. }
  split; [|split; [|split; [|split; [|split]]]].
  - intros Bc I. split; [exact (Some_of _ _ _ _ _ (A1 _ I) Em)|].
    rewrite (Row (Lb Bc)), (Rb Bc) by (rewrite (al_len_obs _ A I); lia).
    rewrite (@row_at_cast c s ms (fun m => saw m (c_name c)) i (A1 _ I)) by lia. rewrite Em. auto.
  - intros Bc I. split; [exact (Some_of _ _ _ _ _ (A2 _ I) Erl)|].
    rewrite (Row (Lb Bc)), (Rb Bc).
    2:{ rewrite (al_len_act (c_name c) A P); [lia|]. apply in_or_app; auto. }
    rewrite (@row_at_cast c s _ (fun m => answered m (c_name c)) i (A2 _ I)) by lia. rewrite Erl. auto.
  - intros Bc I. split; [exact (Some_of _ _ _ _ _ A3 Etl)|].
    rewrite (Row (Lb Bc)), (Rb Bc).
    2:{ rewrite (al_len_act (c_name c) A P); [lia|]. rewrite I. apply in_or_app; simpl; auto. }
    rewrite <- I in A3. rewrite (@row_at_cast c s _ received i A3) by lia. rewrite Etl. auto.
  - intros d Id K. destruct LA as (_ & _ & L3). specialize (L3 c Ic). rewrite K in L3.
    split; [exact (Some_of _ _ _ _ _ (A1 _ L3) Em')|].
    rewrite Row by (unfold local_len; rewrite K; auto).
    unfold win_rows. rewrite K, (find_col_In _ d (co_names CO) Id), Es.
    pose proof (al_len_obs _ A L3) as Eo1.
    replace (w_start w + Z.of_nat L + 1) with (w_start w + 1 + Z.of_nat L) by lia.
    rewrite row_at_slice; [|lia|rewrite column_data_seq_len; lia|auto].
    rewrite (@row_at_cast d s ms (fun m => saw m (c_name d)) _ (A1 _ L3)) by lia.
    replace (Z.to_nat (w_start w + 1 + Z.of_nat k)) with (Datatypes.S (Z.to_nat i)) by (unfold i; lia).
    rewrite Em'. auto.
  - intros tg K. destruct LA as (_ & _ & L3). specialize (L3 c Ic). rewrite K in L3.
    rewrite Row by (unfold local_len; rewrite K; auto).
    destruct (co_targets CO c tg _ Ic K) as (d & Id & En & Bd). rewrite <- En in L3.
    unfold win_rows. rewrite K, <- En, (find_col_In _ d (co_names CO) Id), Es, column_data_seq_len.
    rewrite (al_len_act _ A P L3). unfold synth_dones. rewrite nth_error_map, nth_arange by lia.
    cbn [option_map]. rewrite Hfin. fold i. 
    replace (i =? zlen ms - 1 - 1) with (i =? zlen ms - 2) by (f_equal; lia). auto.
  - intros tg K. destruct LA as (_ & _ & L3). specialize (L3 c Ic). rewrite K in L3.
    rewrite Row by (unfold local_len; rewrite K; auto).
    destruct (co_targets CO c tg _ Ic K) as (d & Id & En & Bd). rewrite <- En in L3.
    unfold win_rows. rewrite K, <- En, (find_col_In _ d (co_names CO) Id), Es, column_data_seq_len.
    rewrite (al_len_act _ A P L3). unfold synth_masks. rewrite nth_error_map, nth_arange by lia.
    cbn [option_map]. rewrite Hfin. fold i.
    replace (i =? zlen ms - 1 - 1) with (i =? zlen ms - 2) by (f_equal; lia). auto.
Qed.
Lemma end_to_end pc cols lk maxlen smp ej sch (h : list (pop S)) p count L draws out :
  config_ok cols lk -> fresh_sampler smp -> fresh_ejector ej ->
  schema_ok (pc_terminal pc) sch -> layout cols lk (pc_terminal pc) sch ->
  batches_ok h -> agents_ok pc cols lk sch L h -> (1 <= L)%nat ->
  prun pc (px_new (t_create cols lk maxlen smp ej)) h = (p, Ok tt) ->
  snd (t_sample (px_table p) count L draws) = Ok out ->
  forall r, (r < count * L)%nat ->
  exists a ms i m m', In ms (episodes [] (stream a h)) /\
    nth_error ms i = Some m /\ nth_error ms (Datatypes.S i) = Some m' /\
    is_transition cols sch out r m m'.
Proof.
  intros CO Fs Fe SO LA BO AG HL E Eo r Hr.
  destruct (end_to_end_windows maxlen count draws CO Fs Fe SO LA BO AG HL E Eo) as [_ W].
  assert (Hj : (r / L < count)%nat). { apply Nat.div_lt_upper_bound; lia. }
  assert (Hk : (r mod L < L)%nat). { apply Nat.mod_upper_bound. lia. }
  assert (Er : r = (r / L * L + r mod L)%nat). { rewrite (Nat.div_mod r L) at 1 by lia. lia. }
  destruct (W (r / L)%nat Hj) as (a & ms & i & Im & Hl & Ht & _).
  destruct (nth_error ms (i + r mod L)) as [m|] eqn:Em.
  2:{ apply nth_error_None in Em. lia. }
  destruct (nth_error ms (i + r mod L + 1)) as [m'|] eqn:Em'.
  2:{ apply nth_error_None in Em'. lia. }
  exists a, ms, (i + r mod L)%nat, m, m'. split; auto. split; auto. split; [rewrite <- Nat.add_1_r; auto|].
  rewrite Er. apply Ht; auto.
Qed.
End E2E.
