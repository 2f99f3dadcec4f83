(** * Sampling: success, reachability, order, short episodes. *)
From Verif Require Import Py PyLemmas MemModel MemSpec MemProofs MemRun MemSample.
Open Scope Z_scope.
Set Implicit Arguments.

Section S2.
Context {S : Type} `{Scalar S}.
Implicit Types (t : table S) (B : buffer S).

(** ** The only way sampling a non-empty table fails is with random outcomes that
    the generators cannot produce. *)

Lemma can_draw_In w D id : w_ids w = dkeys D -> w_prios w = dvals D ->
  can_draw w id = true -> In id (dkeys D).
Proof.
  unfold can_draw. intros -> ->. rewrite existsb_exists. intros ([k v] & I & E).
  apply andb_true_iff in E as [E _]. simpl in E. apply Z.eqb_eq in E as <-.
  apply in_combine_l in I. auto.
Qed.

Lemma can_draw_intro w D id len : w_ids w = dkeys D -> w_prios w = dvals D ->
  dget D id = Some len -> 0 < len -> can_draw w id = true.
Proof.
  unfold can_draw. intros -> -> G Hl. rewrite existsb_exists. exists (id, len). split.
  - apply dget_In in G. unfold dkeys, dvals. clear -G.
    induction D as [|[k v] r IH]; simpl in *; auto. destruct G as [E|G]; auto.
  - simpl. rewrite Z.eqb_refl. apply Z.ltb_lt. auto.
Qed.

Lemma zsum_pos (l : list Z) : l <> [] -> Forall (fun x => 0 < x) l -> 0 < zsum l.
Proof.
  intros N F. destruct l as [|x r]; [congruence|]. inversion F; subst.
  assert (0 <= zsum r) by (apply zsum_nonneg; eapply Forall_impl; [|eauto]; simpl; lia).
  unfold zsum in *. simpl. lia.
Qed.

Lemma w_sample_loop_total draws : forall w D L, w_inv w D ->
  Forall (fun d => In (fst d) (dkeys D)) draws ->
  exists w' pts, w_sample_loop w L draws = (w', Ok pts) /\
    map (fun p : point => fst (fst p)) pts = map fst draws.
Proof.
  induction draws as [|[id k] ds IH]; intros w D L I F; simpl; eauto.
  inversion F as [|? ? F1 F2]; subst. simpl in F1.
  set (bumped := if w_cov w then _ else _).
  assert (Hb : exists w1, bumped = Some w1 /\ w_inv w1 D).
  { unfold bumped. destruct I as (I1 & I2 & I3). destruct (w_cov w) eqn:C.
    - rewrite <- (I2 eq_refl) in F1. apply dget_key in F1 as [v G]. rewrite G.
      eexists. split; [reflexivity|]. unfold w_inv; simpl. split; auto. split; auto.
      intros _. erewrite dkeys_dset_in by eauto. auto.
    - eexists. split; [reflexivity|]. unfold w_inv. auto. rewrite C. auto. }
  destruct Hb as (w1 & -> & Iw1). destruct (dget_key _ _ F1) as [len G].
  assert (El : w_lens w1 = D) by (destruct Iw1; auto). rewrite El, G.
  destruct (IH w1 D L Iw1 F2) as (w2 & ps & E & Em). rewrite E.
  eexists _, _. split; [reflexivity|]. simpl. congruence.
Qed.

Lemma w_refresh_ok w D : w_inv w D -> forallb fits_int64 (dkeys D) = true ->
  exists w1, w_refresh w = (w1, Ok tt) /\ w_inv w1 D /\ w_ids w1 = dkeys D /\ w_prios w1 = dvals D.
Proof.
  intros I F. pose proof (@w_inv_refresh w D I) as [I1 I2].
  assert (E : snd (w_refresh w) = Ok tt).
  { unfold w_refresh, w_rebalance. destruct I as (I0 & _). rewrite I0, F. destruct (w_dirty w); auto. }
  destruct (w_refresh w) as [w1 r]; simpl in *. subst r. exists w1.
  destruct (I2 eq_refl F). auto.
Qed.

Lemma choice_ok_intro w D : w_ids w = dkeys D -> w_prios w = dvals D -> D <> [] ->
  (forall id len, In (id, len) D -> 0 < len) -> choice_ok w = true.
Proof.
  intros E1 E2 N P. unfold choice_ok. rewrite E1, E2. unfold dkeys, dvals. rewrite !map_length, Nat.eqb_refl.
  simpl. apply Z.ltb_lt. apply zsum_pos.
  - destruct D; [congruence|discriminate].
  - apply Forall_forall. intros x Ix. apply in_map_iff in Ix as ([k v] & <- & I). eapply P; eauto.
Qed.

Lemma w_sample_total w D count L draws e : w_inv w D -> forallb fits_int64 (dkeys D) = true ->
  D <> [] -> (forall id len, In (id, len) D -> 0 < len) ->
  snd (w_sample w count L draws) = Err e -> e = Diverges.
Proof.
  intros I F N P. unfold w_sample.
  destruct (@w_refresh_ok _ _ I F) as (w1 & -> & I1 & E1 & E2).
  destruct (Nat.eqb count 0); [discriminate|].
  rewrite (@choice_ok_intro _ _ E1 E2 N P). simpl.
  destruct (draws_ok w1 count draws) eqn:Ed; [|simpl; congruence].
  apply andb_true_iff in Ed as [_ Ed].
  destruct (w_sample_loop_total L I1 (draws := draws)) as (w2 & ps & E & _).
  - apply Forall_forall. intros d Id. rewrite forallb_forall in Ed. specialize (Ed d Id).
    rewrite !andb_true_iff in Ed. eapply can_draw_In; eauto; tauto.
  - rewrite E. discriminate.
Qed.

Lemma randint0_err hi d e : 0 <= hi -> randint0 hi d = Err e -> e = Diverges.
Proof.
  unfold randint0. intros Hh. destruct (Z.ltb_spec hi 0); [lia|].
  destruct (_ && _); congruence.
Qed.

Lemma fifo_index_ok (D : dict Z Z) i : D <> [] ->
  exists id len, pyindex (dkeys D) (i mod zlen (dkeys D)) = Ok id /\ dget D id = Some len /\
    zlen (dkeys D) =? 0 = false.
Proof.
  intros N. assert (Hn : 0 < zlen (dkeys D)).
  { unfold zlen, dkeys. rewrite map_length. destruct D; [congruence|simpl; lia]. }
  destruct (@pyindex_nth _ (dkeys D) (i mod zlen (dkeys D))) as (id & Ei & En).
  { apply Z.mod_pos_bound; auto. }
  apply nth_error_In in En. apply dget_key in En as [len G].
  exists id, len. split; auto. split; auto. apply Z.eqb_neq. lia.
Qed.

Lemma fifo_pe_total f D L e : f_inv f D -> D <> [] -> (forall id len, dget D id = Some len -> L <= len) ->
  forall count i draws, fifo_sample_per_episode f L i count draws = Err e -> e = Diverges.
Proof.
  intros (F1 & F2 & F3) N P. induction count as [|n IH]; intros i draws; simpl; [discriminate|].
  rewrite F1, F2. destruct (fifo_index_ok i N) as (id & len & E1 & E2 & E3). rewrite E3, E1. simpl. rewrite E2.
  destruct draws as [|[x d] ds]; [congruence|].
  destruct (randint0 (len - L) d) as [off|e'] eqn:R; simpl.
  - destruct (fifo_sample_per_episode f L (i + 1) n ds) eqn:E; simpl; [discriminate|].
    intros E'; inversion E'; subst. eauto.
  - intros E'; inversion E'; subst. eapply randint0_err; [|eauto]. apply P in E2. lia.
Qed.

Lemma fifo_seq_total f D L ro e : f_inv f D -> D <> [] -> (forall id len, dget D id = Some len -> L <= len) ->
  forall count ep cur draws, fifo_sample_seq f ro L ep cur count draws = Err e -> e = Diverges.
Proof.
  intros (F1 & F2 & F3) N P. induction count as [|n IH]; intros ep cur draws; simpl; [discriminate|].
  rewrite F1, F2. destruct (fifo_index_ok ep N) as (id & len & E1 & E2 & E3). rewrite E3, E1. simpl. rewrite E2.
  destruct (if ro then _ else _) as [off|e'] eqn:R; simpl.
  - destruct (if len <? cur + L + L then _ else _) as [ep2 cur2].
    destruct (fifo_sample_seq f ro L ep2 cur2 n (tl draws)) eqn:E; simpl; [discriminate|].
    intros E'; inversion E'; subst. eauto.
  - intros E'; inversion E'; subst. destruct ro; [|discriminate].
    destruct draws as [|[x d] ds]; [congruence|].
    eapply randint0_err; [|eauto]. apply P in E2. lia.
Qed.

Lemma s_sample_total s D count L draws e : s_inv s D -> forallb fits_int64 (dkeys D) = true ->
  D <> [] -> NoDup (dkeys D) -> 1 <= L -> lens_ok D L ->
  snd (s_sample s count L draws) = Err e -> e = Diverges.
Proof.
  intros I F N ND HL Hl. destruct s as [f b1 b2|w]; simpl in *.
  - unfold fifo_sample. assert (P : forall id len, dget D id = Some len -> L <= len).
    { intros id len G. apply Hl in G. lia. }
    destruct b1; [eapply fifo_pe_total|eapply fifo_seq_total]; eauto.
  - apply (@w_sample_total w D count L draws e I); auto. intros id len I1.
    apply In_dget in I1; auto. apply Hl in I1. lia.
Qed.

Lemma sample_total cols lk maxlen s e ops count L draws er b :
  sampling_ok cols lk s e ops L ->
  Forall (fun x => fst x < 2 ^ 63) (adds ops) ->
  Forall (fun x => - 2 ^ 63 <= fst x) (adds ops) ->
  let t := run (t_create cols lk maxlen s e) ops in
  holds t b -> b <> [] ->
  snd (t_sample t count L draws) = Err er -> er = Diverges.
Proof.
  intros (C & Fs & Fe & Co & HL & Hep) Hid Hid' t Hb Nb.
  destruct (run_create maxlen C Fs Fe Co) as (B & I & Sb & F1 & F2 & F3 & F4).
  fold t in I, F1, F2, F3, F4.
  assert (Nb' : B <> []).
  { intros ->. destruct (co_lenkey C) as (c & Ic & En & Bc).
    assert (Is : In c (storage_cols (t_cols t))).
    { apply storage_In. rewrite F1. split; auto. unfold is_virtual. rewrite Bc. auto. }
    pose proof (Hb c Is) as E1. pose proof (inv_holds I c Is) as E2. rewrite E1 in E2.
    inversion E2 as [E3]. destruct b; [congruence|discriminate]. }
  assert (Hb2 : Forall (fun e => episode_ok (t_cols t) (t_lenkey t) (snd e) /\
                   Z.of_nat L <= seq_len (t_lenkey t) (snd e) <= 2 ^ 53) B).
  { rewrite F1, F2. eapply sublist_Forall; eauto. }
  assert (Hl : lens_ok (lens_of (t_lenkey t) B) (Z.of_nat L)).
  { apply lens_ok_of. eapply Forall_impl; [|exact Hb2]. simpl; tauto. }
  assert (HLz : 1 <= Z.of_nat L) by lia.
  destruct (s_sample (t_sampler t) count (Z.of_nat L) draws) as [s' [pts|e']] eqn:Es.
  - destruct (@s_sample_points _ _ _ _ _ _ _ (inv_sampler I) HLz Hl Es) as [P1 P2].
    destruct (@points_windows S _ _ _ _ P2) as (ws & Ews & Hw). subst pts.
    rewrite map_length in P1.
    rewrite (@t_sample_of_points S H t B count L draws s' ws); auto; [discriminate|].
    eapply Forall_impl; [|exact Hb2]. simpl; tauto.
  - intros E. unfold t_sample in E. rewrite Es in E. simpl in E. injection E as E'. subst er.
    eapply (@s_sample_total (t_sampler t) (lens_of (t_lenkey t) B)); eauto.
    + apply (inv_sampler I).
    + rewrite dkeys_lens_of. apply forallb_forall. intros id Iid.
      apply in_map_iff in Iid as (x & <- & Ix).
      pose proof (sublist_Forall Sb Hid) as A1. pose proof (sublist_Forall Sb Hid') as A2.
      rewrite Forall_forall in A1, A2. specialize (A1 x Ix). specialize (A2 x Ix). simpl in A1, A2.
      unfold fits_int64. apply andb_true_iff. split; [apply Z.leb_le|apply Z.ltb_lt]; auto.
    + destruct B; [congruence|discriminate].
    + rewrite dkeys_lens_of. apply (inv_nodup I).
    + rewrite Es. auto.
Qed.

(** ** Operations never change the kind of the sampler. *)

Definition s_kind (s : sampler) : (bool * bool) + bool :=
  match s with SFifo _ b1 b2 => inl (b1, b2) | SWeighted w => inr (w_cov w) end.

Lemma kind_track s id len : s_kind (fst (s_track s id len)) = s_kind s.
Proof. destruct s; auto. Qed.

Lemma w_forget_cov w id : w_cov (fst (w_forget w id)) = w_cov w.
Proof.
  unfold w_forget. destruct (dmem (w_lens w) id); auto.
  destruct (w_cov w) eqn:C; simpl; auto. destruct (dmem (w_counts w) id); simpl; auto.
Qed.

Lemma kind_forget s id : s_kind (fst (s_forget s id)) = s_kind s.
Proof. destruct s; simpl; auto. rewrite w_forget_cov. auto. Qed.

Lemma w_sample_loop_cov draws : forall w L, w_cov (fst (w_sample_loop w L draws)) = w_cov w.
Proof.
  induction draws as [|[id k] ds IH]; intros w L; simpl; auto.
  destruct (w_cov w) eqn:C.
  - destruct (dget (w_counts w) id); [|auto]. simpl. destruct (dget (w_lens w) id); [|auto].
    match goal with |- context [w_sample_loop ?w1 L ds] => specialize (IH w1 L);
      destruct (w_sample_loop w1 L ds) as [w2 [ps|e]] end; simpl in *; auto.
  - destruct (dget (w_lens w) id); [|auto]. specialize (IH w L).
    destruct (w_sample_loop w L ds) as [w2 [ps|e]]; simpl in *; congruence.
Qed.

Lemma kind_sample s count L draws : s_kind (fst (s_sample s count L draws)) = s_kind s.
Proof.
  destruct s as [f b1 b2|w]; simpl; auto. f_equal. unfold w_sample.
  pose proof (w_refresh_frame w) as (_ & _ & E). destruct (w_refresh w) as [w1 [u|e]]; simpl in *; auto.
  destruct (Nat.eqb count 0); auto. destruct (negb (choice_ok w1)); auto.
  destruct (draws_ok w1 count draws); auto. rewrite w_sample_loop_cov. auto.
Qed.

Lemma kind_eject_one t id : s_kind (t_sampler (fst (eject_one t id))) = s_kind (t_sampler t).
Proof.
  unfold eject_one. destruct (del_all (t_data t) id) as [d [u|e]]; simpl; auto.
  destruct (dget (t_lengths t) id); simpl; auto.
  pose proof (kind_forget (t_sampler t) id) as E.
  destruct (s_forget (t_sampler t) id) as [s [u'|e]]; simpl in *; auto.
  destruct (e_forget (t_ejector t) id); auto.
Qed.

Lemma kind_eject_all ids : forall t, s_kind (t_sampler (fst (eject_all t ids))) = s_kind (t_sampler t).
Proof.
  induction ids as [|id r IH]; intros t; simpl; auto.
  pose proof (kind_eject_one t id) as E. destruct (eject_one t id) as [t1 [u|e]]; simpl in *; auto.
  rewrite IH. auto.
Qed.

Lemma kind_add t id sq draws : s_kind (t_sampler (fst (add_sequence t id sq draws))) = s_kind (t_sampler t).
Proof.
  unfold add_sequence. destruct (dget sq (t_lenkey t)) as [fr|]; auto.
  set (r := if t_maxlen t <? t_size t + zlen fr then _ else _).
  assert (E : s_kind (t_sampler (fst r)) = s_kind (t_sampler t)).
  { unfold r. destruct (t_maxlen t <? t_size t + zlen fr); auto. unfold eject_count.
    simpl. destruct (e_sample (t_ejector t) (t_size t + zlen fr - t_maxlen t) draws) as [ej [ids|e]]; simpl; auto.
    rewrite kind_eject_all. auto. }
  destruct r as [t1 [u|e]]; simpl in *; auto.
  destruct (write_columns (t_cols t1) (t_data t1) (wrap_id id) sq) as [d [u'|e]]; simpl; auto.
  pose proof (kind_track (t_sampler t1) (wrap_id id) (zlen fr)) as E2.
  destruct (s_track (t_sampler t1) (wrap_id id) (zlen fr)) as [s [u2|e]]; simpl in *; try congruence.
  destruct (e_track (t_ejector t1) (wrap_id id) (zlen fr)); simpl; congruence.
Qed.

Lemma kind_gather cols : forall t count n pts,
  t_sampler (fst (gather_cols t count n pts cols)) = t_sampler t.
Proof.
  induction cols as [|c r IH]; intros t count n pts; simpl; auto.
  destruct (gather_points _ _ _ _ _ _); auto.
  match goal with |- context [gather_cols ?t1 count n pts r] => specialize (IH t1 count n pts);
    destruct (gather_cols t1 count n pts r) as [t2 [res|e]] end; simpl in *; auto.
Qed.

Lemma kind_step t o : s_kind (t_sampler (step t o)) = s_kind (t_sampler t).
Proof.
  destruct o; simpl; auto.
  - apply kind_add.
  - unfold t_sample. pose proof (kind_sample (t_sampler t) count (Z.of_nat n) draws) as E.
    destruct (s_sample (t_sampler t) count (Z.of_nat n) draws) as [s [pts|e]]; simpl in *; auto.
    rewrite kind_gather. auto.
  - unfold t_resize. destruct (n <? t_maxlen t); auto.
Qed.

Lemma kind_run ops : forall t, s_kind (t_sampler (run t ops)) = s_kind (t_sampler t).
Proof.
  induction ops as [|o r IH]; intros t; auto.
  change (run t (o :: r)) with (run (step t o) r). rewrite IH. apply kind_step.
Qed.

Lemma run_create_kind cols lk maxlen s e ops :
  config_ok cols lk -> fresh_sampler s -> fresh_ejector e -> client_ok cols ops ->
  exists B, Inv (run (t_create cols lk maxlen s e) ops) B /\ sublist B (adds ops) /\
    t_cols (run (t_create cols lk maxlen s e) ops) = cols /\
    t_lenkey (run (t_create cols lk maxlen s e) ops) = lk /\
    s_kind (t_sampler (run (t_create cols lk maxlen s e) ops)) = s_kind s.
Proof.
  intros C Fs Fe Co. destruct (run_create maxlen C Fs Fe Co) as (B & I & Sb & F1 & F2 & _).
  exists B. split; auto. split; auto. split; auto. split; auto. rewrite kind_run. auto.
Qed.

(** ** Reachability: any choice of windows can be the outcome. *)

Lemma w_sample_reach w D count L pts : w_inv w D -> forallb fits_int64 (dkeys D) = true ->
  1 <= L -> List.length pts = count -> Forall (pt_ok D L) pts ->
  (forall id len, In (id, len) D -> 0 < len <= 2 ^ 52) ->
  exists draws w', w_sample w count L draws = (w', Ok pts).
Proof.
  intros I F HL Hc Hp Hlen. unfold w_sample.
  destruct (@w_refresh_ok _ _ I F) as (w1 & -> & I1 & E1 & E2).
  destruct (Nat.eqb_spec count 0) as [->|Nz].
  { exists [], w1. destruct pts; [auto|discriminate]. }
  assert (Hd : exists draws, List.length draws = count /\
     forallb (fun d => can_draw w1 (fst d) && (0 <=? snd d) && (snd d <? 2 ^ 53)) draws = true /\
     forall w2, w_inv w2 D -> exists w', w_sample_loop w2 L draws = (w', Ok pts)).
  { clear Nz. revert count Hc. induction Hp as [|[[id a] b] ps Hp Hps IH]; intros count Hc.
    - exists []. split; auto. split; auto. intros w2 _. simpl. eauto.
    - destruct count as [|n]; [discriminate|]. simpl in Hc. injection Hc as Hc.
      destruct (IH n Hc) as (ds & D1 & D2 & D3).
      destruct Hp as (len & G & Hb & H0 & H1). subst b. pose proof (Hlen id len (dget_In _ _ G)) as H2.
      destruct (@int_rand_reach (len - (L - 1)) a ltac:(lia) ltac:(lia)) as (k & K1 & K2).
      exists ((id, k) :: ds). split; [simpl; lia|]. split.
      + cbn [forallb fst snd]. apply andb_true_iff. split; [|exact D2]. rewrite (@can_draw_intro _ _ id len E1 E2 G ltac:(lia)).
        destruct (Z.leb_spec 0 k), (Z.ltb_spec k (2 ^ 53)); simpl; auto; lia.
      + intros w2 I2. simpl.
        set (bumped := if w_cov w2 then _ else _).
        assert (Hb : exists w3, bumped = Some w3 /\ w_inv w3 D).
        { unfold bumped. destruct I2 as (J1 & J2 & J3). destruct (w_cov w2) eqn:C.
          - pose proof (dget_Some_key _ _ G) as Kk. rewrite <- (J2 eq_refl) in Kk.
            apply dget_key in Kk as [v Gv]. rewrite Gv.
            eexists. split; [reflexivity|]. unfold w_inv; simpl. split; auto. split; auto.
            intros _. erewrite dkeys_dset_in by eauto. auto.
          - eexists. split; [reflexivity|]. unfold w_inv. rewrite C. auto. }
        destruct Hb as (w3 & -> & I3). assert (El : w_lens w3 = D) by (destruct I3; auto).
        rewrite El, G, K2. destruct (D3 w3 I3) as (w' & ->). eauto. }
  destruct Hd as (draws & D1 & D2 & D3).
  assert (Hch : choice_ok w1 = true).
  { apply (@choice_ok_intro _ _ E1 E2).
    - intros ->. destruct pts as [|[[id a] b] ps]; [simpl in Hc; congruence|].
      inversion Hp as [|? ? P1 P2]; subst. destruct P1 as (len & G & _). discriminate.
    - intros id len Il. apply Hlen in Il. lia. }
  exists draws. rewrite Hch. cbn [negb].
  assert (Hdo : draws_ok w1 count draws = true).
  { apply andb_true_iff. split; [apply Nat.eqb_eq; exact D1|exact D2]. }
  rewrite Hdo. destruct (D3 w1 I1) as (w2 & E3). exists w2. exact E3.
Qed.

Lemma sample_reach cols lk maxlen cov e ops L :
  sampling_ok cols lk (SWeighted (w_init cov)) e ops L ->
  Forall (fun x => - 2 ^ 63 <= fst x < 2 ^ 63 /\ seq_len lk (snd x) <= 2 ^ 52) (adds ops) ->
  let t := run (t_create cols lk maxlen (SWeighted (w_init cov)) e) ops in
  exists b, holds t b /\ sublist b (adds ops) /\
  forall ws, Forall (window_in lk b (Z.of_nat L)) ws ->
  exists draws out, snd (t_sample t (List.length ws) L draws) = Ok out /\
    forall c, In c cols -> is_base c -> rows_of_windows out L c ws.
Proof.
  intros (C & Fs & Fe & Co & HL & Hep) Hid t.
  destruct (run_create_kind maxlen C Fs Fe Co) as (B & I & Sb & F1 & F2 & Fk).
  fold t in I, F1, F2, Fk.
  destruct (t_sampler t) as [|w] eqn:Fw; [discriminate|].
  exists B. split; [apply (inv_holds I)|]. split; auto. intros ws Hw.
  pose proof (sublist_Forall Sb Hid) as HidB. pose proof (sublist_Forall Sb Hep) as HepB.
  assert (HLz : 1 <= Z.of_nat L) by lia.
  pose proof (inv_sampler I) as Iw. rewrite Fw, F2 in Iw. simpl in Iw.
  destruct (@w_sample_reach w (lens_of lk B) (List.length ws) (Z.of_nat L) (map (w_point L) ws)) as (draws & w' & E); auto.
  - rewrite dkeys_lens_of. apply forallb_forall. intros id Iid.
    apply in_map_iff in Iid as (x & <- & Ix). rewrite Forall_forall in HidB. apply HidB in Ix.
    unfold fits_int64. apply andb_true_iff. split; [apply Z.leb_le|apply Z.ltb_lt]; tauto.
  - apply map_length.
  - apply Forall_forall. intros p Ip. apply in_map_iff in Ip as (x & <- & Ix).
    rewrite Forall_forall in Hw. destruct (Hw x Ix) as (Wi & W0 & W1).
    unfold w_point, pt_ok. exists (seq_len lk (w_seq x)). split; auto.
    apply In_dget; [rewrite dkeys_lens_of; apply (inv_nodup I)|].
    unfold lens_of. apply in_map_iff. exists (fst x). auto.
  - intros id len Il. unfold lens_of in Il. apply in_map_iff in Il as (x & Ex & Ix).
    inversion Ex as [[Eid El]]. rewrite Forall_forall in HidB, HepB.
    destruct (HidB x Ix), (HepB x Ix). lia.
  - exists draws. eexists. split.
    + apply (@t_sample_of_points S H t B (List.length ws) L draws (SWeighted w') ws); auto.
      * rewrite F1, F2. eapply Forall_impl; [|exact HepB]. simpl; tauto.
      * rewrite Fw. simpl. rewrite E. auto.
      * rewrite F2. auto.
    + intros c Ic Bc. rewrite F1.
      assert (Hw2 : Forall (fun w0 => episode_ok cols lk (w_seq w0) /\ 0 <= w_start w0 /\
                     w_start w0 + Z.of_nat L <= seq_len lk (w_seq w0)) ws).
      { apply Forall_forall. intros x Ix. rewrite Forall_forall in Hw. destruct (Hw x Ix) as (Wi & W0 & W1).
        split; auto. rewrite Forall_forall in HepB. apply HepB in Wi. tauto. }
      eapply windows_rows; eauto.
      * apply (dget_map_cols (fun c => concat (map (win_rows cols L c) ws))); auto. apply (co_names C).
      * apply Forall_forall. intros x Ix.
        destruct (@read_slice_window S H t B c L x) as [_ E2]; auto; rewrite ?F1, ?F2; auto.
        -- rewrite Forall_forall in Hw. auto.
        -- rewrite Forall_forall in Hw2. apply Hw2; auto.
        -- rewrite F1 in E2. auto.
Qed.
End S2.
