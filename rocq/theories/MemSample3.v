(** * Sampling: FIFO order, too short episodes, the N-step mapper. *)
From Verif Require Import Py PyLemmas MemModel MemSpec MemProofs MemRun MemSample MemSample2.
Open Scope Z_scope.

Lemma nth_error_unique_fst {A B} (l : list (A * B)) k x y : NoDup (map fst l) ->
  nth_error (map fst l) k = Some (fst x) -> In x l -> nth_error l k = Some y -> y = x.
Proof.
  revert k. induction l as [|z r IH]; intros k ND E I N; [destruct k; discriminate|].
  simpl in ND. inversion ND as [|? ? N1 N2]; subst. destruct k as [|k]; simpl in *.
  - inversion N; inversion E; subst. destruct I as [->|I]; auto.
    exfalso. apply N1. match goal with H : fst y = fst x |- _ => rewrite H end.
    apply in_map_iff. exists x. auto.
  - destruct I as [->|I]; [|eapply IH; eauto].
    exfalso. apply N1. apply nth_error_In in E. auto.
Qed.

Lemma w_sample_loop_total_len draws : forall w L w' pts,
  w_sample_loop w L draws = (w', Ok pts) -> List.length pts = List.length draws.
Proof.
  induction draws as [|[id k] ds IH]; intros w L w' pts E; simpl in E; [inversion E; auto|].
  destruct (if w_cov w then _ else _) as [w1|]; [|discriminate].
  destruct (dget (w_lens w1) id) as [len|]; [|discriminate].
  destruct (w_sample_loop w1 L ds) as [w2 [ps|e]] eqn:E2; inversion E; subst. simpl. f_equal. eauto.
Qed.

Lemma fifo_seq_len f ro L : forall count ep cur draws pts,
  fifo_sample_seq f ro L ep cur count draws = Ok pts -> List.length pts = count.
Proof.
  induction count as [|n IH]; intros ep cur draws pts E; simpl in E; [inversion E; auto|].
  destruct (zlen (f_ids f) =? 0); [discriminate|].
  destruct (pyindex _ _); [|discriminate]. simpl in E. destruct (dget _ _); [|discriminate].
  destruct (if ro then _ else _); [|discriminate]. simpl in E.
  destruct (if _ <? _ then _ else _) as [e2 c2].
  destruct (fifo_sample_seq f ro L e2 c2 n (tl draws)) eqn:E2; [|discriminate].
  simpl in E. inversion E; subst. simpl. f_equal. eauto.
Qed.

Section S3.
Context {S : Type} `{Scalar S}.
Implicit Types (t : table S) (B : buffer S).

(** ** C18 *)
Lemma tiles_len lk L (e : Z * sequence S) : List.length (tiles lk L e) = Z.to_nat (seq_len lk (snd e) / L).
Proof. unfold tiles. rewrite map_length, seq_length. auto. Qed.

Lemma tiles_nth lk L (e : Z * sequence S) (j : nat) : Z.of_nat j < seq_len lk (snd e) / L ->
  nth_error (tiles lk L e) j = Some (e, Z.of_nat j * L).
Proof.
  intros Hj. unfold tiles. rewrite nth_error_map.
  rewrite (nth_error_nth' _ 0%nat) by (rewrite seq_length; lia).
  simpl. rewrite seq_nth by lia. auto.
Qed.

Lemma tiling_app lk L B B' : tiling lk L (B ++ B') = tiling lk L B ++ tiling lk L B'.
Proof. unfold tiling. apply flat_map_app. Qed.

Lemma split_nth B k (e : Z * sequence S) : nth_error B k = Some e ->
  B = firstn k B ++ e :: skipn (Datatypes.S k) B /\
  firstn (Datatypes.S k) B = firstn k B ++ [e].
Proof.
  revert k. induction B as [|x r IH]; intros [|k] E; try discriminate; simpl in E.
  - inversion E; subst. auto.
  - destruct (IH k E) as [E1 E2]. split.
    + cbn [firstn skipn app]. f_equal. auto.
    + cbn [firstn app]. f_equal. rewrite <- E2. auto.
Qed.

Lemma mod_succ ep n : 0 < n -> (ep + 1) mod n = if ep mod n + 1 =? n then 0 else ep mod n + 1.
Proof.
  intros Hn. pose proof (Z.mod_pos_bound ep n Hn). rewrite <- Z.add_mod_idemp_l by lia.
  destruct (Z.eqb_spec (ep mod n + 1) n) as [->|]; [apply Z.mod_same; lia|apply Z.mod_small; lia].
Qed.

Lemma nat_mod_shift a b P : (P > 0)%nat -> (a = b \/ a = b + P)%nat -> (a mod P = b mod P)%nat.
Proof.
  intros HP [->| ->]; auto. replace (b + P)%nat with (b + 1 * P)%nat by lia. apply Nat.mod_add. lia.
Qed.

Lemma fifo_seq_tiles f lk B L ro : f_inv f (lens_of lk B) -> NoDup (map fst B) -> 1 <= L ->
  Forall (fun e => L <= seq_len lk (snd e)) B ->
  forall count (ep : Z) (e j : nat) (x : Z * sequence S) draws pts,
  ep mod zlen B = Z.of_nat e -> nth_error B e = Some x ->
  Z.of_nat j < seq_len lk (snd x) / L ->
  fifo_sample_seq f ro L ep (Z.of_nat j * L) count draws = Ok pts ->
  forall i p, nth_error pts i = Some p ->
  exists w : window S,
    nth_error (tiling lk L B)
      ((List.length (tiling lk L (firstn e B)) + j + i) mod List.length (tiling lk L B)) = Some w /\
    fst (fst p) = fst (fst w) /\ (ro = false -> snd (fst p) = w_start w).
Proof.
  intros (F1 & F2 & F3) ND HL Hlen. induction count as [|n IH]; intros ep e j x draws pts Eep Ex Hj E i p Hp.
  { simpl in E. inversion E; subst. destruct i; discriminate. }
  assert (Ekz : zlen (dkeys (lens_of lk B)) = zlen B).
  { unfold zlen. rewrite dkeys_lens_of, map_length. auto. }
  assert (He : (e < List.length B)%nat) by (apply nth_error_Some; congruence).
  assert (Hn : 0 < zlen B) by (unfold zlen; lia).
  simpl in E. rewrite F1, F2, Ekz in E.
  destruct (Z.eqb_spec (zlen B) 0) as [|Nz]; [lia|].
  destruct (@pyindex_nth _ (dkeys (lens_of lk B)) (ep mod zlen B)) as (id & Ei & En).
  { rewrite Ekz. apply Z.mod_pos_bound; auto. }
  rewrite Ei in E. simpl in E.
  rewrite Eep, Nat2Z.id, dkeys_lens_of, nth_error_map, Ex in En. simpl in En. inversion En as [Eid].
  assert (G : dget (lens_of lk B) id = Some (seq_len lk (snd x))).
  { apply In_dget; [rewrite dkeys_lens_of; auto|]. unfold lens_of. apply in_map_iff. exists x.
    split; [congruence|]. eapply nth_error_In; eauto. }
  rewrite G in E.
  set (len := seq_len lk (snd x)) in *.
  destruct (if ro then _ else _) as [off|] eqn:R; [|discriminate]. simpl in E.
  destruct (if len <? Z.of_nat j * L + L + L then (ep + 1, 0) else (ep, Z.of_nat j * L + L)) as [ep2 cur2] eqn:Ee.
  destruct (fifo_sample_seq f ro L ep2 cur2 n (tl draws)) as [ps|] eqn:E2; [|discriminate].
  simpl in E. inversion E; subst pts.
  destruct (split_nth _ _ _ Ex) as [Sp1 Sp2].
  set (off_e := List.length (tiling lk L (firstn e B))) in *.
  set (P := List.length (tiling lk L B)) in *.
  assert (HP : (P = off_e + Z.to_nat (len / L) + List.length (tiling lk L (skipn (Datatypes.S e) B)))%nat).
  { unfold P. rewrite Sp1 at 1. rewrite tiling_app, app_length. unfold tiling at 2. cbn [flat_map].
    rewrite app_length, tiles_len. unfold off_e. fold (tiling lk L (skipn (Datatypes.S e) B)). fold len. lia. }
  destruct i as [|i]; simpl in Hp.
  - inversion Hp; subst p. exists (x, Z.of_nat j * L). split; [|split].
    + rewrite Nat.add_0_r, Nat.mod_small by lia.
      rewrite Sp1 at 1. rewrite tiling_app, nth_error_app2 by (fold off_e; lia).
      fold off_e. replace (off_e + j - off_e)%nat with j by lia.
      unfold tiling. cbn [flat_map]. rewrite nth_error_app1 by (rewrite tiles_len; fold len; lia).
      apply tiles_nth. auto.
    + simpl. congruence.
    + intros ->. inversion R. auto.
  - assert (Hq : 1 <= len / L).
    { rewrite Forall_forall in Hlen. specialize (Hlen x (nth_error_In _ _ Ex)).
      apply Z.div_le_lower_bound; fold len in Hlen; lia. }
    destruct (Z.ltb_spec len (Z.of_nat j * L + L + L)) as [Hc|Hc]; inversion Ee; subst ep2 cur2.
    + (* next episode *)
      assert (Ej : len / L = Z.of_nat j + 1).
      { assert (len / L < Z.of_nat j + 2) by (apply Z.div_lt_upper_bound; lia). lia. }
      pose proof (mod_succ ep (zlen B) Hn) as Em. rewrite Eep in Em.
      destruct (Z.eqb_spec (Z.of_nat e + 1) (zlen B)) as [El|El].
      * (* wrap around *)
        destruct B as [|y B'] eqn:EB; [simpl in He; lia|]. rewrite <- EB in *.
        destruct (IH (ep + 1) 0%nat 0%nat y (tl draws) ps) with (i := i) (p := p) as (w & W1 & W2); auto.
        { rewrite EB; auto. }
        { rewrite Forall_forall in Hlen. specialize (Hlen y). rewrite EB in Hlen. simpl in Hlen.
          simpl. assert (1 <= seq_len lk (snd y) / L) by (apply Z.div_le_lower_bound; [lia|]; specialize (Hlen (or_introl eq_refl)); lia). lia. }
        exists w. split; auto. rewrite <- W1. f_equal. simpl firstn.
        unfold tiling at 1. simpl (List.length (flat_map _ [])).
        apply nat_mod_shift; [lia|]. right.
        assert (List.length (tiling lk L (skipn (Datatypes.S e) B)) = 0%nat).
        { rewrite skipn_all2 by (unfold zlen in El; lia). auto. }
        lia.
      * destruct (nth_error B (Datatypes.S e)) as [y|] eqn:Ey.
        2:{ apply nth_error_None in Ey. unfold zlen in El. lia. }
        destruct (IH (ep + 1) (Datatypes.S e) 0%nat y (tl draws) ps) with (i := i) (p := p) as (w & W1 & W2); auto.
        { lia. }
        { rewrite Forall_forall in Hlen. specialize (Hlen y (nth_error_In _ _ Ey)).
          simpl. assert (1 <= seq_len lk (snd y) / L) by (apply Z.div_le_lower_bound; lia). lia. }
        exists w. split; auto. rewrite <- W1. f_equal. f_equal.
        rewrite Sp2, tiling_app, app_length. fold off_e. unfold tiling at 1. cbn [flat_map].
        rewrite app_nil_r, tiles_len. fold len. lia.
    + (* same episode *)
      destruct (IH ep e (Datatypes.S j) x (tl draws) ps) with (i := i) (p := p) as (w & W1 & W2); auto.
      { fold len. assert (Z.of_nat j + 2 <= len / L) by (apply Z.div_le_lower_bound; lia). lia. }
      { replace (Z.of_nat (Datatypes.S j) * L) with (Z.of_nat j * L + L) by lia. auto. }
      exists w. split; auto. rewrite <- W1. f_equal. f_equal. fold off_e. lia.
Qed.

Lemma sample_fifo_order cols lk maxlen pe ro e ops count L draws out :
  sampling_ok cols lk (SFifo fifo_init pe ro) e ops L ->
  let t := run (t_create cols lk maxlen (SFifo fifo_init pe ro) e) ops in
  snd (t_sample t count L draws) = Ok out ->
  exists b ws, holds t b /\ sublist b (adds ops) /\ List.length ws = count /\
    (forall c, In c cols -> is_base c -> rows_of_windows out L c ws) /\
    forall i w, nth_error ws i = Some w ->
      window_in lk b (Z.of_nat L) w /\
      (pe = true -> nth_error b (i mod List.length b) = Some (fst w)) /\
      (pe = false ->
         let pass := tiling lk (Z.of_nat L) b in
         exists w', nth_error pass (i mod List.length pass) = Some w' /\ fst w = fst w' /\
                    (ro = false -> w = w')).
Proof.
  intros (C & Fs & Fe & Co & HL & Hep) t Eo.
  destruct (run_create_kind maxlen C Fs Fe Co) as (B & I & Sb & F1 & F2 & Fk).
  fold t in I, F1, F2, Fk.
  destruct (t_sampler t) as [f b1 b2|] eqn:Fw; [|discriminate]. inversion Fk; subst b1 b2. clear Fk.
  pose proof (sublist_Forall Sb Hep) as HepB.
  destruct (@t_sample_windows S H t B count L draws out I HL) as (ws & W1 & W2 & (s' & W3) & W4).
  { rewrite F1, F2. auto. }
  { auto. }
  rewrite F2 in W2. rewrite F1 in W4. rewrite Fw in W3. simpl in W3. injection W3 as Es W3.
  pose proof (inv_sampler I) as Is. rewrite Fw, F2 in Is. simpl in Is.
  assert (Hw2 : Forall (fun w0 => episode_ok cols lk (w_seq w0) /\ 0 <= w_start w0 /\
                     w_start w0 + Z.of_nat L <= seq_len lk (w_seq w0)) ws).
  { apply Forall_forall. intros x Ix. rewrite Forall_forall in W2. destruct (W2 x Ix) as (Wi & W0 & W1').
    split; auto. rewrite Forall_forall in HepB. apply HepB in Wi. tauto. }
  exists B, ws. split; [apply (inv_holds I)|]. split; auto. split; auto. split.
  - intros c Ic Bc. subst out. eapply windows_rows; eauto.
    + apply (dget_map_cols (fun c => concat (map (win_rows cols L c) ws))); auto. apply (co_names C).
    + apply Forall_forall. intros x Ix.
      destruct (@read_slice_window S H t B c L x) as [_ E2]; auto; rewrite ?F1, ?F2; auto.
      * rewrite Forall_forall in W2. auto.
      * rewrite Forall_forall in Hw2. apply Hw2; auto.
      * rewrite F1 in E2. auto.
  - intros i w Hi. assert (Iw : In w ws) by (eapply nth_error_In; eauto).
    assert (Ww : window_in lk B (Z.of_nat L) w) by (rewrite Forall_forall in W2; auto).
    split; auto. unfold fifo_sample in W3.
    pose proof (inv_nodup I) as ND. destruct Ww as (Wi & Ww).
    assert (Hp : nth_error (map (w_point L) ws) i = Some (w_point L w)) by (rewrite nth_error_map, Hi; auto).
    assert (NB : B <> []) by (intros ->; destruct Wi).
    split; intros ->.
    + destruct (@fifo_per_episode_points _ _ _ Is count _ draws _ W3 ltac:(lia)) as (_ & _ & A).
      apply A in Hp. rewrite dkeys_lens_of in Hp.
      unfold zlen in Hp. rewrite map_length in Hp. rewrite Z.add_0_l, <- Nat2Z.inj_mod, Nat2Z.id in Hp.
      destruct (nth_error B (i mod List.length B)) as [y|] eqn:Ey.
      * f_equal. eapply nth_error_unique_fst; eauto.
      * rewrite nth_error_map, Ey in Hp. discriminate.
    + destruct B as [|x B'] eqn:EB; [congruence|]. rewrite <- EB in *.
      destruct (fifo_seq_tiles f lk B (Z.of_nat L) ro Is ND ltac:(lia)) with
        (count := count) (ep := 0) (e := 0%nat) (j := 0%nat) (x := x) (draws := draws)
        (pts := map (w_point L) ws) (i := i) (p := w_point L w) as (w' & A1 & A2 & A3); auto.
      * eapply Forall_impl; [|exact HepB]. simpl. lia.
      * rewrite EB. auto.
      * simpl. assert (1 <= seq_len lk (snd x) / Z.of_nat L); [|lia].
        apply Z.div_le_lower_bound; [lia|]. rewrite Forall_forall in HepB.
        specialize (HepB x). rewrite EB in HepB. specialize (HepB (or_introl eq_refl)). lia.
      * simpl firstn in A1. unfold tiling at 1 in A1. simpl in A1.
        exists w'. split; auto.
        assert (Ef : fst w = fst w').
        { assert (In (fst w') B).
          { apply nth_error_In in A1. unfold tiling in A1. apply in_flat_map in A1 as (y & Iy & A1).
            unfold tiles in A1. apply in_map_iff in A1 as (k & <- & _). auto. }
          apply In_nth_error in H0 as [k Ek].
          symmetry. apply (nth_error_unique_fst B k (fst w) (fst w')); auto.
          rewrite nth_error_map, Ek. simpl. f_equal. simpl in A2. auto. }
        split; auto. intros Er. specialize (A3 Er). unfold w_point in A3. simpl in A3.
        destruct w, w'; simpl in *. unfold w_start in A3. simpl in A3. congruence.
Qed.

(** ** C10 *)

Lemma np_assign_len (buf : array S) idx n rows buf' : (idx + n <= List.length buf)%nat ->
  np_assign buf idx n rows = Ok buf' ->
  List.length buf' = List.length buf /\ (List.length rows = n \/ List.length rows = 1%nat).
Proof.
  intros Hb. unfold np_assign. replace (Nat.min n (List.length buf - idx)) with n by lia.
  destruct (Nat.eqb_spec (List.length rows) n) as [E|E].
  - intros E'; inversion E'; subst. rewrite !app_length, firstn_length, skipn_length. split; auto. lia.
  - destruct rows as [|r [|r2 rs]]; try discriminate. intros E'; inversion E'; subst.
    rewrite !app_length, firstn_length, skipn_length, repeat_length. simpl. split; auto. lia.
Qed.

Lemma gather_points_Ok t c n : forall pts idx buf out,
  (idx + List.length pts * n <= List.length buf)%nat ->
  gather_points t c n idx buf pts = Ok out ->
  Forall (fun p : point => let '(id, a, b) := p in exists rows, read_slice t c id a b = Ok rows /\
     (List.length rows = n \/ List.length rows = 1%nat)) pts.
Proof.
  induction pts as [|[[id a] b] r IH]; intros idx buf out Hb E; [constructor|].
  simpl in E, Hb. destruct (read_slice t c id a b) as [rows|e] eqn:Er; simpl in E.
  - destruct (np_assign buf idx n rows) as [buf'|e] eqn:Ea; [|destruct e; discriminate].
    apply np_assign_len in Ea as [E1 E2]; [|lia].
    constructor; [eauto|]. eapply IH; [|exact E]. rewrite E1. lia.
  - destruct e; discriminate.
Qed.

Lemma gather_cols_Ok count n pts : List.length pts = count -> forall cols t out,
  snd (gather_cols t count n pts cols) = Ok out ->
  forall c, In c cols -> Forall (fun p : point => let '(id, a, b) := p in
     exists rows, read_slice t c id a b = Ok rows /\
     (List.length rows = local_len c n \/ List.length rows = 1%nat)) pts.
Proof.
  intros Hc. induction cols as [|c r IH]; intros t out E c' Ic; [destruct Ic|]. simpl in E.
  destruct (gather_points t c (local_len c n) 0 (firstn (count * local_len c n) (temp_for t c (count * local_len c n))) pts) as [o|e] eqn:Eg; [|discriminate].
  destruct Ic as [<-|Ic].
  - eapply gather_points_Ok in Eg; auto. rewrite firstn_length_le by apply temp_for_len. lia.
  - match goal with E : context [gather_cols ?t1 count n pts r] |- _ =>
      destruct (gather_cols t1 count n pts r) as [t2 [res|e]] eqn:E2; [|discriminate];
      assert (E3 : snd (gather_cols t1 count n pts r) = Ok res) by (rewrite E2; auto);
      specialize (IH t1 res E3 c' Ic) end.
    eapply Forall_impl; [|exact IH]. intros [[id a] b] (rows & R1 & R2).
    exists rows. split; auto.
Qed.

Lemma short_read t B L x : Inv t B -> In x B ->
  forall count pts out, List.length pts = count ->
  snd (gather_cols t count L pts (t_cols t)) = Ok out ->
  forall a, In (fst x, a, a + Z.of_nat L) pts ->
  let len := seq_len (t_lenkey t) (snd x) in
  a = 0 -> 2 <= len < Z.of_nat L -> False.
Proof.
  intros I Ix count pts out Hc E a Ip len -> Hl.
  destruct (co_lenkey (inv_cfg I)) as (c & Ic & En & Bc).
  pose proof (gather_cols_Ok count L pts Hc _ _ _ E c Ic) as F.
  rewrite Forall_forall in F. specialize (F _ Ip). simpl in F. destruct F as (rows & R1 & R2).
  unfold read_slice in R1. unfold is_base in Bc. rewrite Bc in R1.
  assert (Is : In c (storage_cols (t_cols t))) by (apply storage_In; unfold is_virtual; rewrite Bc; auto).
  destruct (Inv_store c I Is x Ix) as (st & E1 & E2). rewrite E1, E2 in R1. inversion R1; subst rows.
  unfold local_len in R2. rewrite Bc in R2.
  pose proof (column_data_seq_len c (snd x)) as El. rewrite En in El. fold len in El.
  assert (List.length (pyslice (column_data c (snd x)) 0 (Z.of_nat L)) = Z.to_nat len).
  { unfold pyslice. rewrite firstn_length, skipn_length. unfold zlen in El.
    unfold row in *. set (m := List.length (column_data c (snd x))) in *. unfold slice_idx.
    destruct (Z.ltb_spec 0 0), (Z.ltb_spec (Z.of_nat L) 0); try lia. }
  lia.
Qed.

Lemma w_sample_loop_In draws : forall w D L w' pts id k, w_inv w D ->
  w_sample_loop w L draws = (w', Ok pts) -> In (id, k) draws ->
  exists len, dget D id = Some len /\
    In (id, int_rand_mul k (len - (L - 1)), int_rand_mul k (len - (L - 1)) + L) pts.
Proof.
  induction draws as [|[id0 k0] ds IH]; intros w D L w' pts id k I E Id; [destruct Id|]. simpl in E.
  set (bumped := if w_cov w then _ else _) in E.
  assert (Hb : forall w1, bumped = Some w1 -> w_inv w1 D).
  { unfold bumped. intros w1. destruct (w_cov w) eqn:C; [|congruence].
    destruct (dget (w_counts w) id0) eqn:G; [|discriminate].
    intros E1; inversion E1; subst. destruct I as (I1 & I2 & I3). unfold w_inv; simpl.
    split; auto. split; auto. intros _. erewrite dkeys_dset_in by eauto. auto. }
  destruct bumped as [w1|]; [|discriminate]. specialize (Hb w1 eq_refl).
  assert (El : w_lens w1 = D) by (destruct Hb; auto). rewrite El in E.
  destruct (dget D id0) as [len|] eqn:G; [|discriminate].
  destruct (w_sample_loop w1 L ds) as [w2 [ps|e]] eqn:E2; inversion E; subst.
  destruct Id as [Eq|Id].
  - inversion Eq; subst. exists len. simpl. auto.
  - destruct (IH w1 _ L _ _ id k Hb E2 Id) as (len' & G' & I'). exists len'. simpl. auto.
Qed.

Lemma int_rand_zero k n : 0 <= k < 2 ^ 53 -> -1 <= n <= 0 -> int_rand_mul k n = 0.
Proof.
  intros Hk Hn. assert (n = 0 \/ n = -1) as [-> | ->] by lia; [reflexivity|].
  unfold int_rand_mul. change (fl53 (Z.abs (-1))) with 1. rewrite Z.mul_1_r.
  unfold fl53. destruct (Z.ltb_spec k (2 ^ 53)); [|lia]. rewrite Z.div_small by lia. reflexivity.
Qed.

Lemma short_weighted cols lk maxlen cov e ops count L draws :
  config_ok cols lk -> fresh_ejector e -> client_ok cols ops -> (1 <= count)%nat ->
  let t := run (t_create cols lk maxlen (SWeighted (w_init cov)) e) ops in
  exists b, holds t b /\ sublist b (adds ops) /\
  forall x k, In x b -> In (fst x, k) draws ->
    2 <= seq_len lk (snd x) < Z.of_nat L -> Z.of_nat L <= seq_len lk (snd x) + 2 ->
    forall out, snd (t_sample t count L draws) <> Ok out.
Proof.
  intros C Fe Co Hc t.
  destruct (run_create_kind maxlen C (fresh_SWeighted cov) Fe Co) as (B & I & Sb & F1 & F2 & Fk).
  fold t in I, F1, F2, Fk. exists B. split; [apply (inv_holds I)|]. split; auto.
  intros x k Ix Id Hl Hl2 out Eo.
  destruct (t_sampler t) as [|w] eqn:Fw; [discriminate|].
  unfold t_sample in Eo. rewrite Fw in Eo. simpl in Eo.
  pose proof (inv_sampler I) as Iw. rewrite Fw, F2 in Iw. simpl in Iw.
  destruct (w_sample w count (Z.of_nat L) draws) as [w' [pts|er]] eqn:Es; simpl in Eo; [|discriminate].
  pose proof (s_inv_sample (t_sampler t) (lens_of (t_lenkey t) B) count (Z.of_nat L) draws (inv_sampler I)) as Is'.
  rewrite Fw in Is'. simpl in Is'. rewrite Es in Is'. simpl in Is'.
  unfold w_sample in Es. pose proof (w_inv_refresh Iw) as [I1 _].
  destruct (w_refresh w) as [w1 [u|er]]; [|discriminate]. simpl in I1.
  destruct (Nat.eqb_spec count 0); [lia|]. destruct (negb (choice_ok w1)); [discriminate|].
  destruct (draws_ok w1 count draws) eqn:Ed; [|discriminate].
  apply andb_true_iff in Ed as [Ed1 Ed2]. apply Nat.eqb_eq in Ed1.
  apply forallb_draws in Ed2. rewrite Forall_forall in Ed2. pose proof (Ed2 _ Id) as Hk. simpl in Hk.
  destruct (w_sample_loop_In _ _ _ _ _ _ _ _ I1 Es Id) as (len & G & Ip).
  assert (len = seq_len lk (snd x)).
  { rewrite (@In_dget _ _ _ (lens_of lk B) (fst x) (seq_len lk (snd x))) in G.
    - congruence.
    - rewrite dkeys_lens_of. apply (inv_nodup I).
    - unfold lens_of. apply in_map_iff. exists x. auto. }
  subst len.
  rewrite int_rand_zero in Ip by (auto; lia).
  assert (I2 : Inv (with_sampler t (SWeighted w')) B) by (apply Inv_with_sampler; auto).
  eapply (short_read (with_sampler t (SWeighted w')) B L x I2 Ix count pts out); eauto.
  - rewrite (w_sample_loop_total_len _ _ _ _ _ Es). exact Ed1.
  - simpl. rewrite F2. auto.
Qed.

Lemma short_fifo cols lk maxlen pe ro e ops count L draws :
  config_ok cols lk -> fresh_ejector e -> client_ok cols ops -> (1 <= count)%nat -> (1 <= L)%nat ->
  let t := run (t_create cols lk maxlen (SFifo fifo_init pe ro) e) ops in
  exists b, holds t b /\ sublist b (adds ops) /\
  (pe = true -> (List.length b <= count)%nat ->
     forall x, In x b -> seq_len lk (snd x) < Z.of_nat L ->
     forall out, snd (t_sample t count L draws) <> Ok out) /\
  (forall x, nth_error b 0 = Some x -> 2 <= seq_len lk (snd x) < Z.of_nat L ->
     forall out, snd (t_sample t count L draws) <> Ok out).
Proof.
  intros C Fe Co Hc HL t.
  destruct (run_create_kind maxlen C (fresh_SFifo pe ro) Fe Co) as (B & I & Sb & F1 & F2 & Fk).
  fold t in I, F1, F2, Fk. exists B. split; [apply (inv_holds I)|]. split; auto.
  destruct (t_sampler t) as [f b1 b2|] eqn:Fw; [|discriminate]. inversion Fk; subst b1 b2. clear Fk.
  pose proof (inv_sampler I) as Is. rewrite Fw, F2 in Is. simpl in Is.
  pose proof (inv_nodup I) as ND.
  assert (Gx : forall x, In x B -> dget (lens_of lk B) (fst x) = Some (seq_len lk (snd x))).
  { intros x Ix. apply In_dget; [rewrite dkeys_lens_of; auto|].
    unfold lens_of. apply in_map_iff. exists x. auto. }
  split.
  - intros -> Hlb x Ix Hl out Eo. unfold t_sample in Eo. rewrite Fw in Eo. simpl in Eo. unfold fifo_sample in Eo.
    destruct (fifo_sample_per_episode f (Z.of_nat L) 0 count draws) as [pts|er] eqn:Es; [|discriminate].
    destruct (@fifo_per_episode_points _ _ _ Is count _ draws _ Es ltac:(lia)) as (A1 & A2 & A3).
    destruct (In_nth_error _ _ Ix) as [k Ek].
    assert (Hk : (k < List.length B)%nat) by (apply nth_error_Some; congruence).
    destruct (nth_error pts k) as [p|] eqn:Ep; [|apply nth_error_None in Ep; lia].
    pose proof (A3 _ _ Ep) as Hid. rewrite dkeys_lens_of in Hid.
    rewrite Z.add_0_l, Z.mod_small in Hid by (unfold zlen; rewrite map_length; lia).
    rewrite Nat2Z.id, nth_error_map, Ek in Hid. simpl in Hid. inversion Hid as [Eid].
    rewrite Forall_forall in A2. specialize (A2 p (nth_error_In _ _ Ep)).
    destruct p as [[id a] b]. simpl in Eid. subst id.
    destruct A2 as (len & G & -> & H1 & H2). rewrite (Gx x Ix) in G. inversion G. lia.
  - intros x Ex Hl out Eo. assert (Ix : In x B) by (eapply nth_error_In; eauto).
    assert (EB : exists B', B = x :: B') by (destruct B; inversion Ex; eauto).
    destruct EB as [B' EB].
    unfold t_sample in Eo. rewrite Fw in Eo. simpl in Eo.
    destruct (fifo_sample f pe ro count (Z.of_nat L) draws) as [pts|er] eqn:Es; [|discriminate].
    destruct count as [|n]; [lia|].
    assert (Hz : zlen (dkeys (lens_of lk B)) =? 0 = false).
    { rewrite dkeys_lens_of. unfold zlen. rewrite map_length, EB. apply Z.eqb_neq. simpl. lia. }
    assert (Hi : pyindex (dkeys (lens_of lk B)) (0 mod zlen (dkeys (lens_of lk B))) = Ok (fst x)).
    { rewrite Z.mod_0_l by (apply Z.eqb_neq in Hz; auto). rewrite dkeys_lens_of, EB. reflexivity. }
    destruct Is as (J1 & J2 & J3). unfold fifo_sample in Es.
    assert (Hr : forall d o, randint0 (seq_len lk (snd x) - Z.of_nat L) d <> Ok o).
    { intros d o Er. apply randint0_ok in Er. lia. }
    destruct pe.
    + simpl in Es. rewrite J1, J2, Hz, Hi in Es. simpl in Es. rewrite (Gx x Ix) in Es.
      destruct draws as [|[y d] ds]; [discriminate|].
      destruct (randint0 (seq_len lk (snd x) - Z.of_nat L) d) eqn:Er; [|discriminate].
      eapply Hr; eauto.
    + simpl in Es. rewrite J1, J2, Hz, Hi in Es. simpl in Es. rewrite (Gx x Ix) in Es.
      destruct ro.
      * destruct draws as [|[y d] ds]; [discriminate|].
        destruct (randint0 (seq_len lk (snd x) - Z.of_nat L) d) eqn:Er; [|discriminate].
        eapply Hr; eauto.
      * simpl in Es.
        destruct (Z.ltb_spec (seq_len lk (snd x)) (Z.of_nat L + Z.of_nat L)); [|lia].
        destruct (fifo_sample_seq f false (Z.of_nat L) 1 0 n (tl draws)) as [ps|er] eqn:E2; [|discriminate].
        simpl in Es. inversion Es; subst pts.
        assert (I2 : Inv (with_sampler t (SFifo f false false)) B).
        { apply Inv_with_sampler; auto. rewrite F2. simpl. unfold f_inv. auto. }
        eapply (short_read _ B L x I2 Ix (Datatypes.S n) _ out); eauto.
        -- simpl. f_equal. eapply fifo_seq_len; eauto.
        -- left. reflexivity.
        -- simpl. rewrite F2. auto.
Qed.

(** ** C14 *)
Lemma nextn_exact (arr : array S) (n a b : Z) : 0 <= n -> 0 <= a <= b ->
  match read_mapped (MNextN n) arr a b with
  | Err e => e = IndexError /\ zlen arr < b + n \/ e = IndexError /\ a = b
  | Ok rows => zlen rows = b - a /\
      forall k, 0 <= k < b - a -> row_at rows k = row_at arr (a + n + k) /\ row_at rows k <> None
  end.
Proof.
  intros Hn Ha. unfold read_mapped.
  destruct (Z.leb_spec (zlen arr) (a + n)), (Z.ltb_spec (zlen arr) (b + n)); simpl; auto.
  - right. split; auto. lia.
  - assert (El : zlen (pyslice arr (a + n) (b + n)) = b - a).
    { unfold zlen. rewrite pyslice_inside_length; lia. }
    split; auto. intros k Hk. split.
    + unfold row_at. destruct (Z.ltb_spec k 0), (Z.ltb_spec (a + n + k) 0); try lia.
      rewrite nth_error_pyslice by lia. f_equal. lia.
    + apply row_at_some. lia.
Qed.
(** ** C09 *)
Lemma windows_inside cols lk maxlen s e ops count L draws out :
  sampling_ok cols lk s e ops L ->
  let t := run (t_create cols lk maxlen s e) ops in
  snd (t_sample t count L draws) = Ok out ->
  exists s' ws b, s_sample (t_sampler t) count (Z.of_nat L) draws =
      (s', Ok (map (fun w : window S => ((fst (fst w), w_start w), w_start w + Z.of_nat L)) ws)) /\
    holds t b /\ Forall (window_in lk b (Z.of_nat L)) ws.
Proof.
  intros (C & Fs & Fe & Co & HL & Hep) t Eo.
  destruct (run_create maxlen C Fs Fe Co) as (B & I & Sb & F1 & F2 & F3 & F4).
  fold t in I, F1, F2, F3, F4.
  assert (Hb : Forall (fun e => episode_ok (t_cols t) (t_lenkey t) (snd e) /\
                   Z.of_nat L <= seq_len (t_lenkey t) (snd e) <= 2 ^ 53) B).
  { rewrite F1, F2. eapply sublist_Forall; eauto. }
  destruct (t_sample_windows count draws I HL Hb Eo) as (ws & W1 & W2 & (s' & Es) & W3).
  rewrite F2 in W2. exists s', ws, B. split; [exact Es|]. split; [apply (inv_holds I)|auto].
Qed.
End S3.
