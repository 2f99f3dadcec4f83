(** * Proofs about the weighted strategies (C16, C17). *)
From Verif Require Import Py PyLemmas MemModel MemSpec MemProofs MemRun MemSample MemSample2
  AdaptorModel StratModel StratSpec.
From Coq Require Import QArith Reals Lra.
Open Scope Z_scope.
Set Implicit Arguments.

(** ** The offset int(random() * n) is uniform up to rounding. *)

Definition ir k n := int_rand_mul k n.

Lemma ir_eq k n : 0 <= k -> 1 <= n <= 2 ^ 52 -> int_rand_mul k n = fl53 (k * n) / 2 ^ 53.
Proof.
  intros Hk Hn. unfold int_rand_mul.
  assert (2 ^ 52 < 2 ^ 53) by reflexivity.
  rewrite Z.abs_eq, (@fl53_small n) by lia. rewrite Z.sgn_pos by lia. apply Z.mul_1_l.
Qed.

(** Representable lower bounds survive rounding. *)
Lemma fl53_ge_mul k n j : 0 <= k < 2 ^ 53 -> 1 <= n <= 2 ^ 52 -> 0 <= j ->
  j * 2 ^ 53 <= k * n -> j * 2 ^ 53 <= fl53 (k * n).
Proof.
  intros Hk Hn Hj Hle. set (M := 2 ^ 53) in *.
  assert (Hp : 0 <= k * n) by nia.
  destruct (Z.eq_dec j 0) as [->|Nj]. { simpl. apply fl53_nonneg; auto. }
  assert (PM : 0 < M) by reflexivity.
  assert (Hp1 : 2 ^ 53 <= k * n) by (fold M; nia).
  destruct (log2_bounds Hp1) as [_ L2].
  assert (L3 : Z.log2 (k * n) < 105).
  { apply Z.log2_lt_pow2; [nia|]. change (2 ^ 105) with (2 ^ 52 * M).
    assert (0 < 2 ^ 52) by reflexivity. nia. }
  set (s := Z.log2 (k * n) - 52) in *.
  assert (Es : M = 2 ^ (53 - s) * 2 ^ s).
  { rewrite <- Z.pow_add_r by lia. unfold M. f_equal. lia. }
  rewrite Es, Z.mul_assoc. apply fl53_ge; auto. fold s.
  rewrite <- Z.mul_assoc, <- Es. lia.
Qed.

Lemma threshold n j : 1 <= n <= 2 ^ 52 -> 0 <= j <= n ->
  exists K, 0 <= K <= 2 ^ 53 /\ Z.abs (n * K - j * 2 ^ 53) < n /\
    forall k, 0 <= k < 2 ^ 53 -> (j <= int_rand_mul k n <-> K <= k).
Proof.
  intros Hn Hj. set (M := 2 ^ 53). assert (PM : 0 < M) by reflexivity.
  set (c := (j * M + n - 1) / n).
  assert (C : n * c <= j * M + n - 1 /\ j * M <= n * c).
  { unfold c. pose proof (Z.div_mod (j * M + n - 1) n ltac:(lia)).
    pose proof (Z.mod_pos_bound (j * M + n - 1) n ltac:(lia)). lia. }
  clearbody c. assert (Hc : 0 <= c <= M) by nia.
  assert (Up : forall k, 0 <= k < M -> c <= k -> j <= int_rand_mul k n).
  { intros k Hk Hck. rewrite ir_eq by lia. apply Z.div_le_lower_bound; [lia|].
    rewrite Z.mul_comm. apply fl53_ge_mul; auto; try lia. fold M. nia. }
  assert (Dn : forall k, 0 <= k < M -> k * n + n <= j * M -> int_rand_mul k n < j).
  { intros k Hk Hck. rewrite ir_eq by lia. apply Z.div_lt_upper_bound; [lia|]. fold M.
    assert (Hp : 0 <= k * n) by nia. pose proof (fl53_err Hp) as E. fold M in E.
    assert (M * (fl53 (k * n) - k * n) <= k * n) by nia.
    assert (k * n < M * n) by nia.
    assert (fl53 (k * n) - k * n < n) by nia. nia. }
  destruct (Z_lt_le_dec (c - 1) 0) as [H0|H0].
  { exists c. split; auto. split; [lia|]. intros k Hk. split; intros; [lia|auto]. }
  destruct (Z_lt_le_dec (int_rand_mul (c - 1) n) j) as [H1|H1].
  - exists c. split; auto. split; [lia|]. intros k Hk. split; auto. intros Hjk.
    destruct (Z_lt_le_dec k c); auto. destruct (Z.eq_dec k (c - 1)) as [->|]; [lia|].
    assert (int_rand_mul k n < j) by (apply Dn; nia). lia.
  - exists (c - 1). split; [lia|].
    split.
    + destruct (Z_le_gt_dec ((c - 1) * n + n) (j * M)) as [Hd|Hd]; [|nia].
      assert (int_rand_mul (c - 1) n < j) by (apply Dn; [lia|auto]). lia.
    + intros k Hk. split; intros Hjk.
      * destruct (Z_lt_le_dec k (c - 1)); auto. assert (int_rand_mul k n < j) by (apply Dn; nia). lia.
      * destruct (Z.eq_dec k (c - 1)) as [->|]; auto. apply Up; lia.
Qed.

(** Among the 2^53 equally likely values of random(), those that give offset [j]
    are an interval of 2^53 / n values, give or take fewer than two. *)
Lemma offset_uniform n j : 1 <= n <= 2 ^ 52 -> 0 <= j < n ->
  exists lo hi, 0 <= lo <= hi /\ hi <= 2 ^ 53 /\ Z.abs (n * (hi - lo) - 2 ^ 53) < 2 * n /\
    forall k, 0 <= k < 2 ^ 53 -> (int_rand_mul k n = j <-> lo <= k < hi).
Proof.
  intros Hn Hj.
  destruct (@threshold n j Hn ltac:(lia)) as (lo & L1 & L2 & L3).
  destruct (@threshold n (j + 1) Hn ltac:(lia)) as (hi & H1 & H2 & H3).
  assert (Hle : lo <= hi).
  { destruct (Z_lt_le_dec hi lo); auto. exfalso.
    assert (0 <= hi < 2 ^ 53) by lia. specialize (L3 hi H). specialize (H3 hi H). lia. }
  exists lo, hi. split; [lia|]. split; [lia|]. split; [nia|].
  intros k Hk. specialize (L3 k Hk). specialize (H3 k Hk). lia.
Qed.

Section Tab.
Context {S : Type} `{Scalar S}.

Lemma fits_ids (b : buffer S) : Forall (fun x => 0 <= fst x < 2 ^ 63) b ->
  forallb fits_int64 (map fst b) = true.
Proof.
  intros F. apply forallb_forall. intros z Iz. apply in_map_iff in Iz as (e & <- & Ie).
  rewrite Forall_forall in F. specialize (F e Ie). unfold fits_int64.
  apply andb_true_iff. split; [apply Z.leb_le|apply Z.ltb_lt]; lia.
Qed.

Lemma kind_weighted s cov : s_kind s = inr cov -> exists w, s = SWeighted w /\ w_cov w = cov.
Proof. destruct s; simpl; [discriminate|]. intros E. inversion E. eauto. Qed.

Lemma combine_map {A B C} (f : A -> B) (g : A -> C) l : combine (map f l) (map g l) = map (fun x => (f x, g x)) l.
Proof. induction l; simpl; f_equal; auto. Qed.

Lemma uniform_table cols lk maxlen e ops :
  config_ok cols lk -> fresh_ejector e -> client_ok cols ops ->
  Forall (fun x => 0 <= fst x < 2 ^ 63) (adds ops) ->
  let t := run (t_create cols lk maxlen (SWeighted (w_init false)) e) ops in
  exists b, holds t b /\ sublist b (adds ops) /\
    uniform_dist (weighted_of (t_sampler t)) =
      map (fun x => (fst x, (inject_Z (seq_len lk (snd x)) / inject_Z (total_len lk b))%Q)) b.
Proof.
  intros C Fe Co Fi t.
  destruct (run_create_kind maxlen C (fresh_SWeighted false) Fe Co) as (B & I & Sb & F1 & F2 & K).
  fold t in I, F1, F2, K. exists B. split; [apply (inv_holds I)|]. split; auto.
  destruct (kind_weighted _ K) as (w & Ew & Cw).
  pose proof (inv_sampler I) as Is. rewrite Ew in *. simpl in Is |- *. rewrite F2 in Is.
  assert (Ff : forallb fits_int64 (dkeys (lens_of lk B)) = true).
  { rewrite dkeys_lens_of. apply fits_ids. eapply sublist_Forall; eauto. }
  destruct (w_refresh_ok Is Ff) as (w1 & E & _ & E1 & E2).
  unfold uniform_dist. rewrite E. cbn [fst]. rewrite E1, E2.
  rewrite dvals_lens_of, dkeys_lens_of. unfold dvals, lens_of. rewrite !map_map, combine_map. auto.
Qed.

Lemma total_len_ge lk (B : buffer S) e : In e B -> seq_len lk (snd e) <= total_len lk B.
Proof.
  intros I. apply in_split in I as (l1 & l2 & ->). rewrite total_len_app, total_len_cons.
  pose proof (total_len_nonneg lk l1). pose proof (total_len_nonneg lk l2). lia.
Qed.

(** The windows of one sequence. *)
Lemma window_uniform cols lk maxlen cov e ops (L : nat) :
  sampling_ok cols lk (SWeighted (w_init cov)) e ops L ->
  Forall (fun x => 0 <= fst x < 2 ^ 63 /\ seq_len lk (snd x) <= 2 ^ 52) (adds ops) ->
  let t := run (t_create cols lk maxlen (SWeighted (w_init cov)) e) ops in
  forall b x j, holds t b -> In x b -> 0 <= j -> j + Z.of_nat L <= seq_len lk (snd x) ->
  let n := seq_len lk (snd x) - Z.of_nat L + 1 in
  exists lo hi, 0 <= lo <= hi /\ hi <= 2 ^ 53 /\ Z.abs (n * (hi - lo) - 2 ^ 53) < 2 * n /\
    forall k, 0 <= k < 2 ^ 53 ->
      (snd (s_sample (t_sampler t) 1 (Z.of_nat L) [(fst x, k)]) = Ok [(fst x, j, j + Z.of_nat L)]
       <-> lo <= k < hi).
Proof.
  intros So Fi t b x j Hb Ix Hj Hjl n. destruct So as (C & Fs & Fe & Co & HL & Hep).
  destruct (run_create_kind maxlen C (fresh_SWeighted cov) Fe Co) as (B & I & Sb & F1 & F2 & K).
  fold t in I, F1, F2, K.
  assert (HB : exists y, In y B /\ fst y = fst x /\ seq_len lk (snd y) = seq_len lk (snd x)).
  { pose proof (inv_holds I) as HI. destruct (co_lenkey C) as (c & Ic & En & Bc).
    assert (Is : In c (storage_cols (t_cols t))).
    { rewrite F1. apply storage_In. split; auto. unfold is_base in Bc. unfold is_virtual. rewrite Bc. auto. }
    pose proof (Hb c Is) as G1. pose proof (HI c Is) as G2. rewrite G1 in G2. inversion G2 as [G].
    assert (Ig : In (fst x, column_data c (snd x)) (map (fun e => (fst e, column_data c (snd e))) B)).
    { rewrite <- G. apply (in_map (fun e => (fst e, column_data c (snd e)))). auto. }
    apply in_map_iff in Ig as (y & Ey & Iy). exists y. inversion Ey as [[Ey1 Ey2]]. split; auto. split; auto.
    rewrite <- En, <- !column_data_seq_len. congruence. }
  destruct HB as (y & Iy & Ey & El).
  destruct (kind_weighted _ K) as (w & Ew & Cw).
  pose proof (inv_sampler I) as Is. rewrite Ew in *. simpl in Is |- *. rewrite F2 in Is.
  assert (FB : Forall (fun x => 0 <= fst x < 2 ^ 63 /\ seq_len lk (snd x) <= 2 ^ 52) B)
    by (eapply sublist_Forall; eauto).
  assert (Ff : forallb fits_int64 (dkeys (lens_of lk B)) = true).
  { rewrite dkeys_lens_of. apply fits_ids. eapply Forall_impl; [|exact FB]. simpl. tauto. }
  assert (EB : Forall (fun x => Z.of_nat L <= seq_len lk (snd x)) B).
  { eapply sublist_Forall; [exact Sb|]. eapply Forall_impl; [|exact Hep]. simpl. intros ?; tauto. }
  destruct (w_refresh_ok Is Ff) as (w1 & E & I1 & E1 & E2).
  assert (G : dget (lens_of lk B) (fst x) = Some (seq_len lk (snd x))).
  { rewrite <- Ey, <- El. apply dget_lens_of; auto. apply (inv_nodup I). }
  assert (Hlen : 0 < seq_len lk (snd x) <= 2 ^ 52).
  { rewrite Forall_forall in FB. specialize (FB y Iy). lia. }
  assert (Cd : can_draw w1 (fst x) = true) by (eapply can_draw_intro; eauto; lia).
  assert (Ck : choice_ok w1 = true).
  { eapply choice_ok_intro; eauto.
    - intros E0. rewrite E0 in G. discriminate.
    - intros id len Id. unfold lens_of in Id. apply in_map_iff in Id as (z & Ez & Iz). injection Ez as Ez1 Ez2. subst len.
      rewrite Forall_forall in EB. specialize (EB z Iz). lia. }
  destruct (@offset_uniform n j ltac:(lia) ltac:(lia)) as (lo & hi & O1 & O2 & O3 & O4).
  exists lo, hi. split; auto. split; auto. split; auto. intros k Hk.
  assert (Es : snd (w_sample w 1 (Z.of_nat L) [(fst x, k)]) =
               Ok [(fst x, int_rand_mul k n, int_rand_mul k n + Z.of_nat L)]).
  { unfold w_sample. rewrite E, Ck. cbn [Nat.eqb negb].
    assert (Do : draws_ok w1 1 [(fst x, k)] = true).
    { unfold draws_ok. cbn [List.length Nat.eqb forallb fst snd andb]. rewrite Cd.
      rewrite (proj2 (Z.leb_le 0 k)), (proj2 (Z.ltb_lt k (2 ^ 53))) by lia. auto. }
    rewrite Do. cbn [w_sample_loop].
    destruct I1 as (J1 & J2 & _).
    replace (seq_len lk (snd x) - (Z.of_nat L - 1)) with n in * by lia.
    assert (En : seq_len lk (snd x) - (Z.of_nat L - 1) = n) by (unfold n; lia).
    destruct (w_cov w1) eqn:Cw1.
    - assert (Ik : In (fst x) (dkeys (w_counts w1))).
      { rewrite (J2 eq_refl), dkeys_lens_of. rewrite <- Ey. apply in_map; auto. }
      apply dget_key in Ik as [v Gv]. rewrite Gv. cbn [w_lens]. rewrite J1, G. cbn [snd]. rewrite En. auto.
    - rewrite J1, G. cbn [snd]. rewrite En. auto. }
  rewrite Es. rewrite <- (O4 k Hk). split; [|intros ->; auto].
  intros Eq. inversion Eq. auto.
Qed.

(** With L = 1: the probability of each stored transition is 1 / size, up to 2^-52. *)
Lemma transition_arith (n T lo hi : Z) : 1 <= n <= T -> Z.abs (n * (hi - lo) - 2 ^ 53) < 2 * n ->
  (Qabs.Qabs (inject_Z n / inject_Z T * (inject_Z (hi - lo) / inject_Z (2 ^ 53)) - 1 / inject_Z T)
    <= inject_Z 2 / inject_Z (2 ^ 53))%Q.
Proof.
  intros Hn Ha. set (M := 2 ^ 53) in *. assert (PM : 0 < M) by reflexivity. clearbody M.
  assert (NT : ~ (inject_Z T == 0)%Q) by (unfold Qeq, inject_Z; simpl; lia).
  assert (NM : ~ (inject_Z M == 0)%Q) by (unfold Qeq, inject_Z; simpl; lia).
  assert (E : (inject_Z n / inject_Z T * (inject_Z (hi - lo) / inject_Z M) - 1 / inject_Z T ==
               inject_Z (n * (hi - lo) - M) / (inject_Z T * inject_Z M))%Q).
  { unfold Z.sub at 2. rewrite inject_Z_plus, inject_Z_opp, inject_Z_mult. field. split; auto. }
  rewrite E. apply Qabs.Qabs_Qle_condition.
  assert (PTM : (0 < inject_Z T * inject_Z M)%Q).
  { rewrite <- inject_Z_mult. unfold Qlt, inject_Z; simpl. nia. }
  assert (E2 : (inject_Z 2 / inject_Z M == inject_Z (2 * T) / (inject_Z T * inject_Z M))%Q).
  { rewrite inject_Z_mult. field. split; auto. }
  rewrite E2. split.
  - apply Qle_shift_div_l; auto.
    setoid_replace (- (inject_Z (2 * T) / (inject_Z T * inject_Z M)) * (inject_Z T * inject_Z M))%Q
      with (inject_Z (- (2 * T))).
    + rewrite <- Zle_Qle. lia.
    + rewrite inject_Z_opp. field. split; auto.
  - apply Qle_shift_div_r; auto.
    setoid_replace (inject_Z (2 * T) / (inject_Z T * inject_Z M) * (inject_Z T * inject_Z M))%Q
      with (inject_Z (2 * T)).
    + rewrite <- Zle_Qle. lia.
    + field. split; auto.
Qed.

Lemma transition_uniform cols lk maxlen e ops :
  sampling_ok cols lk (SWeighted (w_init false)) e ops 1 ->
  Forall (fun x => 0 <= fst x < 2 ^ 63 /\ seq_len lk (snd x) <= 2 ^ 52) (adds ops) ->
  let t := run (t_create cols lk maxlen (SWeighted (w_init false)) e) ops in
  exists b, holds t b /\ sublist b (adds ops) /\
  forall x j, In x b -> 0 <= j < seq_len lk (snd x) ->
  exists p lo hi, In (fst x, p) (uniform_dist (weighted_of (t_sampler t))) /\
    0 <= lo <= hi /\ hi <= 2 ^ 53 /\
    (forall k, 0 <= k < 2 ^ 53 ->
      (snd (s_sample (t_sampler t) 1 1 [(fst x, k)]) = Ok [(fst x, j, j + 1)] <-> lo <= k < hi)) /\
    (Qabs.Qabs (p * (inject_Z (hi - lo) / inject_Z (2 ^ 53)) - 1 / inject_Z (total_len lk b))
       <= inject_Z 2 / inject_Z (2 ^ 53))%Q.
Proof.
  intros So Fi t. pose proof So as (C & Fs & Fe & Co & HL & Hep).
  assert (Fi' : Forall (fun x => 0 <= fst x < 2 ^ 63) (adds ops))
    by (eapply Forall_impl; [|exact Fi]; simpl; tauto).
  destruct (@uniform_table cols lk maxlen e ops C Fe Co Fi') as (b & Hb & Sb & Ed). fold t in Hb, Ed.
  exists b. split; auto. split; auto. intros x j Ix Hj.
  destruct (@window_uniform cols lk maxlen false e ops 1 So Fi b x j Hb Ix) as (lo & hi & O1 & O2 & O3 & O4); try lia.
  replace (seq_len lk (snd x) - Z.of_nat 1 + 1) with (seq_len lk (snd x)) in O3 by lia.
  eexists _, lo, hi. split; [|split; [auto|split; [auto|split; [exact O4|]]]].
  - rewrite Ed. apply (in_map (fun x => (fst x, (inject_Z (seq_len lk (snd x)) / inject_Z (total_len lk b))%Q))). auto.
  - apply transition_arith; auto. pose proof (@total_len_ge lk b x Ix). lia.
Qed.

(** ** Coverage: the recorded counts are the visits. *)

Definition counts_are (v : Z -> Z) (s : sampler) : Prop :=
  match s with
  | SWeighted w => NoDup (dkeys (w_counts w)) /\
                   forall id c, dget (w_counts w) id = Some c -> c = v id
  | _ => True
  end.

Lemma counts_forget v s id : counts_are v s -> counts_are v (fst (s_forget s id)).
Proof.
  destruct s as [f b1 b2|w]; simpl; auto. intros [N G]. unfold w_forget.
  destruct (dmem (w_lens w) id); simpl; auto. destruct (w_cov w); simpl; auto.
  destruct (dmem (w_counts w) id); simpl; auto. split.
  - apply NoDup_ddel; auto.
  - intros i c Gi. apply G. destruct (Z.eq_dec i id) as [->|Ne].
    + rewrite dget_ddel_eq in Gi by auto. discriminate.
    + rewrite dget_ddel_neq in Gi; auto.
Qed.

Lemma counts_track v s id len : counts_are v s -> v id = 0 -> counts_are v (fst (s_track s id len)).
Proof.
  destruct s as [f b1 b2|w]; simpl; auto. intros [N G] V. unfold w_track.
  destruct (w_cov w); simpl; auto. split; [apply NoDup_dset; auto|].
  intros i c Gi. rewrite dget_dset in Gi. destruct (keqb i id) eqn:E; auto.
  apply keqb_eq in E as ->. inversion Gi as [E]. unfold dget_default in *.
  destruct (dget (w_counts w) id) eqn:G0; auto.
Qed.

(** A property of the sampler kept by forget and track is kept by add. *)
Lemma add_keeps (P : sampler -> Prop) (t : table S) id sq draws :
  (forall s i, P s -> P (fst (s_forget s i))) ->
  (forall s len, P s -> P (fst (s_track s (wrap_id id) len))) ->
  P (t_sampler t) -> P (t_sampler (fst (add_sequence t id sq draws))).
Proof.
  intros Pf Pt P0.
  assert (P1 : forall (t : table S) i, P (t_sampler t) -> P (t_sampler (fst (eject_one t i)))).
  { intros t0 i Q. unfold eject_one. destruct (del_all (t_data t0) i) as [d [u|e]]; simpl; auto.
    destruct (dget (t_lengths t0) i); simpl; auto.
    pose proof (Pf (t_sampler t0) i Q) as E.
    destruct (s_forget (t_sampler t0) i) as [s [u'|e]]; simpl in *; auto.
    destruct (e_forget (t_ejector t0) i); auto. }
  assert (P2 : forall ids (t : table S), P (t_sampler t) -> P (t_sampler (fst (eject_all t ids)))).
  { induction ids as [|i r IH]; intros t0 Q; simpl; auto.
    pose proof (P1 t0 i Q) as E. destruct (eject_one t0 i) as [t1 [u|e]]; simpl in *; auto. }
  unfold add_sequence. destruct (dget sq (t_lenkey t)) as [fr|]; auto.
  set (r := if t_maxlen t <? t_size t + zlen fr then _ else _).
  assert (E : P (t_sampler (fst r))).
  { unfold r. destruct (t_maxlen t <? t_size t + zlen fr); auto. unfold eject_count.
    simpl. destruct (e_sample (t_ejector t) (t_size t + zlen fr - t_maxlen t) draws) as [ej [ids|e]]; simpl; auto. }
  destruct r as [t1 [u|e]]; simpl in *; auto.
  destruct (write_columns (t_cols t1) (t_data t1) (wrap_id id) sq) as [d [u'|e]]; simpl; auto.
  pose proof (Pt (t_sampler t1) (zlen fr) E) as E2.
  destruct (s_track (t_sampler t1) (wrap_id id) (zlen fr)) as [s [u2|e]]; simpl in *; auto.
  destruct (e_track (t_ejector t1) (wrap_id id) (zlen fr)); simpl; auto.
Qed.

Lemma counts_loop draws : forall v w w' tc pts, w_cov w = true ->
  w_sample_loop w tc draws = (w', Ok pts) -> counts_are v (SWeighted w) ->
  counts_are (fun id => v id + drawn id draws) (SWeighted w').
Proof.
  induction draws as [|[id k] ds IH]; intros v w w' tc pts C E K; simpl in E.
  - inversion E; subst. destruct K as [N G]. split; auto. intros i c Gi. unfold drawn, zlen; simpl.
    rewrite Z.add_0_r. auto.
  - rewrite C in E. destruct (dget (w_counts w) id) as [c0|] eqn:Gc; [|discriminate].
    set (w1 := mkW _ _ _ _ _ _ _ _) in E. cbn [w_lens w1] in E.
    destruct (dget (w_lens w) id) as [len|]; [|discriminate].
    destruct (w_sample_loop w1 tc ds) as [w2 [ps|e]] eqn:E2; [|discriminate].
    inversion E; subst w2. clear E. destruct K as [N G].
    assert (K1 : counts_are (fun i => v i + (if id =? i then 1 else 0)) (SWeighted w1)).
    { unfold w1; simpl. split; [apply NoDup_dset; auto|].
      intros i c Gi. rewrite dget_dset in Gi. destruct (keqb i id) eqn:Ei.
      - apply keqb_eq in Ei as ->. inversion Gi; subst. rewrite Z.eqb_refl. rewrite (G _ _ Gc). auto.
      - apply keqb_false in Ei. destruct (Z.eqb_spec id i); [congruence|].
        rewrite Z.add_0_r. auto. }
    destruct (IH _ w1 w' tc ps eq_refl E2 K1) as [N2 G2]. split; auto.
    intros i c Gi. rewrite (G2 i c Gi). unfold drawn. simpl. unfold zlen.
    destruct (id =? i); simpl List.length; lia.
Qed.

Definition sample_contrib (t : table S) (o : op S) (id : Z) : Z :=
  match o with
  | OSample count L draws =>
      match snd (s_sample (t_sampler t) count (Z.of_nat L) draws) with
      | Ok _ => if Nat.eqb count 0 then 0 else drawn id draws
      | Err _ => 0
      end
  | _ => 0
  end.

Lemma visits_cons (t : table S) o r id :
  visits t (o :: r) id = sample_contrib t o id + visits (step t o) r id.
Proof. destruct o; reflexivity. Qed.

Lemma drawn_nonneg id draws : 0 <= drawn id draws.
Proof. unfold drawn. apply zlen_nonneg. Qed.

Lemma contrib_nonneg t o id : 0 <= sample_contrib t o id.
Proof.
  destruct o; simpl; try lia. destruct (snd _); try lia. destruct (Nat.eqb count 0); try lia.
  apply drawn_nonneg.
Qed.

Lemma visits_nonneg ops : forall (t : table S) id, 0 <= visits t ops id.
Proof.
  induction ops as [|o r IH]; intros t id; [simpl; lia|]. rewrite visits_cons.
  pose proof (contrib_nonneg t o id). specialize (IH (step t o) id). lia.
Qed.

Lemma s_kind_cov s w : s_kind s = inr true -> s = SWeighted w -> w_cov w = true.
Proof. intros K ->. simpl in K. congruence. Qed.

Lemma step_counts t B o v : Inv t B -> Forall (fun x => fits_int64 (fst x) = true) B -> s_kind (t_sampler t) = inr true ->
  counts_are v (t_sampler t) -> op_ok (t_cols t) B o ->
  (forall id, In id (map fst (adds [o])) -> v id = 0) ->
  counts_are (fun id => v id + sample_contrib t o id) (t_sampler (step t o)) /\
  (forall id, ~ In id (map fst B) -> sample_contrib t o id = 0).
Proof.
  intros I Ff K Cv Ho Hv.
  assert (Same : counts_are v (t_sampler t) -> counts_are (fun id => v id + 0) (t_sampler t)).
  { destruct (t_sampler t); simpl; auto. intros [N G]. split; auto. intros i c Gi. rewrite Z.add_0_r; auto. }
  destruct o as [id s dr|count L dr|n| | |]; cbn [sample_contrib].
  - split; [|auto]. cbn [step]. simpl in Hv.
    assert (Cv0 : counts_are (fun id => v id + 0) (t_sampler t)) by auto.
    apply (@add_keeps (counts_are (fun id => v id + 0))); auto.
    + intros; apply counts_forget; auto.
    + intros; apply counts_track; auto. rewrite Hv; auto.
  - cbn [step]. destruct (kind_weighted _ K) as (w & Ew & Cw).
    pose proof (inv_sampler I) as Is. rewrite Ew in *. simpl in Is.
    unfold t_sample. rewrite Ew. simpl. unfold w_sample.
    assert (Cr : counts_are v (SWeighted (fst (w_refresh w)))).
    { unfold w_refresh, w_rebalance. destruct (w_dirty w); auto.
      destruct (forallb _ _); auto. }
    assert (Cr0 : counts_are (fun id => v id + 0) (SWeighted (fst (w_refresh w)))).
    { destruct Cr as [N G]. split; auto. intros i c Gi. rewrite Z.add_0_r; auto. }
    assert (Cc : w_cov (fst (w_refresh w)) = true).
    { unfold w_refresh, w_rebalance. destruct (w_dirty w); auto. destruct (forallb _ _); auto. }
    pose proof (@w_inv_refresh w _ Is) as [I1 I2].
    destruct (w_refresh w) as [w1 [u|e]] eqn:Er; simpl in *.
    2:{ split; auto. }
    destruct (Nat.eqb count 0) eqn:Ec; simpl.
    { rewrite kind_gather. split; auto. }
    destruct (choice_ok w1) eqn:Eco; simpl; [|split; auto].
    destruct (draws_ok w1 count dr) eqn:Ed; simpl; [|split; auto].
    assert (Ffb : forallb fits_int64 (dkeys (lens_of (t_lenkey t) B)) = true).
    { rewrite dkeys_lens_of. apply forallb_forall. intros z Iz. apply in_map_iff in Iz as (x & <- & Ix).
      rewrite Forall_forall in Ff. auto. }
    destruct (I2 ltac:(destruct u; reflexivity) Ffb) as [J1 J2].
    destruct (w_sample_loop w1 (Z.of_nat L) dr) as [w2 [pts|e]] eqn:El; simpl.
    + rewrite kind_gather. simpl. split.
      { exact (@counts_loop dr v w1 w2 _ pts Cc El Cr). }
      intros id Nid.
      unfold drawn. apply andb_true_iff in Ed as [_ Ed].
      assert (En : filter (fun d : draw => fst d =? id) dr = []).
      { rewrite forallb_forall in Ed. clear - Ed J1 J2 Nid. induction dr as [|d r IH]; simpl; auto.
        destruct (Z.eqb_spec (fst d) id) as [<-|].
        - exfalso. apply Nid. specialize (Ed d (or_introl eq_refl)). rewrite !andb_true_iff in Ed.
          rewrite <- (dkeys_lens_of (t_lenkey t)). eapply can_draw_In; eauto. tauto.
        - apply IH. intros x Ix. apply Ed. right; auto. }
      exact (f_equal (@zlen draw) En).
    + exfalso. apply andb_true_iff in Ed as [_ Ed].
      destruct (w_sample_loop_total (Z.of_nat L) I1 (draws := dr)) as (w3 & ps & E3 & _); [|congruence].
      apply Forall_forall. intros d Id. rewrite forallb_forall in Ed. specialize (Ed d Id).
      rewrite !andb_true_iff in Ed. eapply can_draw_In; eauto. tauto.
  - split; [|auto]. cbn [step]. unfold t_resize. destruct (n <? t_maxlen t); auto.
  - split; auto.
  - split; auto.
  - destruct Ho.
Qed.

Lemma run_counts ops : forall t B v, Inv t B -> s_kind (t_sampler t) = inr true ->
  Forall (fun x => fits_int64 (fst x) = true) (B ++ adds ops) ->
  Forall no_clear ops -> Forall (fun e => seq_ok (t_cols t) (snd e)) (adds ops) ->
  NoDup (map fst (B ++ adds ops)) ->
  counts_are v (t_sampler t) -> (forall id, In id (map fst (adds ops)) -> v id = 0) ->
  counts_are (fun id => v id + visits t ops id) (t_sampler (run t ops)).
Proof.
  induction ops as [|o r IH]; intros t B v I K Ff Nc So ND Cv Hv.
  - simpl. destruct (t_sampler t); simpl in *; auto. destruct Cv as [N G]. split; auto.
    intros i c Gi. rewrite Z.add_0_r; auto.
  - inversion Nc as [|? ? Nc1 Nc2]; subst.
    assert (Ea : adds (o :: r) = adds [o] ++ adds r) by (apply (adds_app [o] r)).
    rewrite Ea in *. apply Forall_app in So as [So1 So2].
    assert (Ho : op_ok (t_cols t) B o).
    { destruct o; simpl; auto.
      split; [inversion So1; auto|]. simpl in ND. rewrite map_app in ND.
      intros In1. apply NoDup_remove_2 in ND. apply ND. apply in_or_app; auto. }
    pose proof Ff as Ff0. apply Forall_app in Ff0 as [FfB Ff2]. apply Forall_app in Ff2 as [Ff1 Ff2].
    destruct (@step_counts t B o v I FfB K Cv Ho) as [C1 C2].
    { intros id Iid. apply Hv. rewrite map_app. apply in_or_app; auto. }
    destruct (@step_inv _ _ t B o I Ho) as (B1 & I1 & S1 & F1 & F2 & F3 & F4).
    change (run t (o :: r)) with (run (step t o) r).
    assert (E : counts_are (fun id => (v id + sample_contrib t o id) + visits (step t o) r id)
                  (t_sampler (run (step t o) r))).
    { apply IH with (B := B1); auto.
      - rewrite kind_step; auto.
      - apply Forall_app. split; auto. eapply sublist_Forall; [exact S1|]. apply Forall_app; auto.
      - rewrite F1; auto.
      - eapply sublist_NoDup; [|exact ND]. apply sublist_map. rewrite app_assoc.
        apply sublist_app; [auto|apply sublist_refl].
      - intros id Iid. rewrite Hv by (rewrite map_app; apply in_or_app; auto).
        rewrite C2; auto. intros Ib. rewrite !map_app in ND.
        apply in_split in Ib as (l1 & l2 & El). rewrite El in ND.
        rewrite <- app_assoc in ND. simpl in ND. apply NoDup_remove_2 in ND. apply ND.
        rewrite !in_app_iff. auto. }
    destruct (t_sampler (run (step t o) r)); auto. destruct E as [N G]. split; auto.
    intros i c Gi. rewrite (G i c Gi). rewrite visits_cons. lia.
Qed.

Lemma add_dirty (t : table S) id sq dr cov : s_kind (t_sampler t) = inr cov ->
  snd (add_sequence t id sq dr) = Ok tt ->
  w_dirty (weighted_of (t_sampler (fst (add_sequence t id sq dr)))) = true.
Proof.
  intros K. pose proof (kind_add t id sq dr) as Ka. rewrite K in Ka. revert Ka.
  unfold add_sequence. destruct (dget sq (t_lenkey t)) as [fr|]; [|discriminate].
  set (r := if t_maxlen t <? t_size t + zlen fr then _ else _).
  destruct r as [t1 [u|e]]; [|discriminate].
  destruct (write_columns (t_cols t1) (t_data t1) (wrap_id id) sq) as [d [u'|e]]; [|discriminate].
  cbn [t_sampler with_lengths with_data].
  destruct (t_sampler t1) as [f b1 b2|w]; simpl.
  - destruct (fifo_track f (wrap_id id) (zlen fr)) as [f' [u2|e]]; simpl; [|discriminate].
    destruct (e_track _ _ _); simpl; discriminate.
  - destruct (e_track (t_ejector t1) (wrap_id id) (zlen fr)) as [ej x]; simpl. auto.
Qed.

Lemma map2_map' {A B C W} (f : A -> B -> C) (g : W -> A) (h : W -> B) (ws : list W) :
  map2 f (map g ws) (map h ws) = map (fun w => f (g w) (h w)) ws.
Proof. induction ws; simpl; f_equal; auto. Qed.

Lemma NoDup_map_inj {A B} (f : A -> B) l x y : NoDup (map f l) -> In x l -> In y l -> f x = f y -> x = y.
Proof.
  induction l as [|a r IH]; simpl; [tauto|]. intros N; inversion N; subst.
  intros [->|Ix] [->|Iy] E; auto; exfalso; apply H2; [rewrite E|rewrite <- E]; apply in_map; auto.
Qed.

Lemma rsum_div (l : list R) (T : R) : rsum (map (fun x => (x / T)%R) l) = (rsum l / T)%R.
Proof. induction l as [|x r IH]; simpl; [unfold Rdiv; rewrite Rmult_0_l; auto|]. rewrite IH. unfold Rdiv. ring. Qed.

Lemma rsum_pos (l : list R) : l <> [] -> Forall (fun x => 0 < x)%R l -> (0 < rsum l)%R.
Proof.
  intros N F. destruct l as [|x r]; [congruence|]. clear N. revert x F.
  induction r as [|y r IH]; intros x F; inversion F; subst; simpl; [lra|].
  specialize (IH y H3). simpl in IH. lra.
Qed.

Lemma coverage_fresh cols lk maxlen alpha e ops id sq dr :
  (0 < alpha)%R ->
  config_ok cols lk -> fresh_ejector e -> client_ok cols (ops ++ [OAdd id sq dr]) ->
  Forall (fun x => 0 <= fst x < 2 ^ 63 /\ 1 <= seq_len lk (snd x)) (adds (ops ++ [OAdd id sq dr])) ->
  let t0 := t_create cols lk maxlen (SWeighted (w_init true)) e in
  snd (add_sequence (run t0 ops) id sq dr) = Ok tt ->
  let h := ops ++ [OAdd id sq dr] in
  let t := run t0 h in
  exists b, holds t b /\ sublist b (adds h) /\
    let dist := coverage_dist alpha (weighted_of (t_sampler t)) in
    map fst dist = map fst b /\
    Forall (fun p => 0 < snd p)%R dist /\ rsum (map snd dist) = 1%R /\
    forall x1 x2 p1 p2, In x1 b -> In x2 b -> In (fst x1, p1) dist -> In (fst x2, p2) dist ->
      seq_len lk (snd x1) = seq_len lk (snd x2) ->
      visits t0 h (fst x1) < visits t0 h (fst x2) -> (p2 < p1)%R.
Proof.
  intros Ha C Fe Co Fi t0 Eadd h t.
  destruct (run_create_kind maxlen C (fresh_SWeighted true) Fe Co) as (B & I & Sb & F1 & F2 & K).
  fold h in I, F1, F2, K, Sb. fold t0 in I, F1, F2, K. fold t in I, F1, F2, K.
  exists B. split; [apply (inv_holds I)|]. split; auto.
  assert (Dirty : w_dirty (weighted_of (t_sampler t)) = true).
  { unfold t, h. unfold run. rewrite fold_left_app. cbn [fold_left step].
    apply add_dirty with (cov := true); [|exact Eadd].
    change (s_kind (t_sampler (run t0 ops)) = inr true). rewrite kind_run. auto. }
  assert (FB : Forall (fun x => 0 <= fst x < 2 ^ 63 /\ 1 <= seq_len lk (snd x)) B)
    by (eapply sublist_Forall; eauto).
  assert (Cnt : counts_are (fun i => 0 + visits t0 h i) (t_sampler t)).
  { destruct Co as (Co1 & Co2 & Co3).
    apply run_counts with (B := []); auto.
    - apply (Inv_create maxlen C (fresh_SWeighted true) Fe).
    - simpl. eapply Forall_impl; [|exact Fi]. intros x [Hx _]. unfold fits_int64.
      apply andb_true_iff. split; [apply Z.leb_le|apply Z.ltb_lt]; lia.
    - simpl. split; [constructor|discriminate]. }
  destruct (kind_weighted _ K) as (w & Ew & Cw).
  pose proof (inv_sampler I) as Is. rewrite Ew in *. simpl in Is, Dirty, Cnt |- *. rewrite F2 in Is.
  destruct Is as (J1 & J2 & _). destruct Cnt as [Nc Gc].
  assert (Ff : forallb fits_int64 (dkeys (lens_of lk B)) = true).
  { rewrite dkeys_lens_of. apply fits_ids. eapply Forall_impl; [|exact FB]. simpl; tauto. }
  assert (HB : B <> []).
  { pose proof (inv_holds I) as HI. intros ->. 
    (* the new sequence is stored *)
    unfold t, h, run in Ew. rewrite fold_left_app in Ew. cbn [fold_left step] in Ew.
    change (fold_left step ops t0) with (run t0 ops) in Ew.
    assert (Nk : dmem (w_lens w) (wrap_id id) = true).
    { revert Eadd Ew. unfold add_sequence. destruct (dget sq (t_lenkey (run t0 ops))) as [fr|]; [|discriminate].
      set (r := if t_maxlen (run t0 ops) <? t_size (run t0 ops) + zlen fr then _ else _).
      destruct r as [t1 [u|er]]; [|discriminate].
      destruct (write_columns (t_cols t1) (t_data t1) (wrap_id id) sq) as [d [u'|er]]; [|discriminate].
      cbn [t_sampler with_lengths with_data].
      destruct (t_sampler t1) as [f b1 b2|w0]; simpl.
      - destruct (fifo_track f (wrap_id id) (zlen fr)) as [f' [u2|er]]; simpl; [|discriminate].
        destruct (e_track _ _ _); simpl; discriminate.
      - destruct (e_track (t_ejector t1) (wrap_id id) (zlen fr)) as [ej x]; simpl.
        intros _ E0. inversion E0; subst w. simpl. unfold dmem. rewrite dget_dset_eq. auto. }
    rewrite J1 in Nk. discriminate. }
  set (cnt := fun x : Z * sequence S => visits t0 h (fst x)).
  assert (Ec : forall x, In x B -> dget_default (w_counts w) (fst x) 0 = cnt x).
  { intros x Ix. assert (Ik : In (fst x) (dkeys (w_counts w))).
    { rewrite (J2 Cw), dkeys_lens_of. apply in_map; auto. }
    apply dget_key in Ik as [c Gx]. unfold dget_default. rewrite Gx. rewrite (Gc _ _ Gx). auto. }
  set (T := total_len lk B).
  set (W := fun x : Z * sequence S =>
    (IZR (seq_len lk (snd x)) / IZR T * (1 / Rpower (IZR (cnt x + 1)) alpha))%R).
  assert (Ed : coverage_dist alpha w = map (fun x => (fst x, (W x / rsum (map W B))%R)) B).
  { unfold coverage_dist, w_refresh. rewrite Dirty. unfold w_rebalance. rewrite J1, Ff, Cw.
    unfold coverage_weights. cbn [fst w_ids w_prios w_pcounts].
    rewrite dvals_lens_of, dkeys_lens_of. unfold dvals, lens_of. rewrite !map_map.
    cbn [w_cov w_init]. fold T.
    match goal with |- context [map2 ?f ?l ?m] => set (ws := map2 f l m) end.
    assert (EW : ws = map W B).
    { unfold ws. rewrite map2_map'. apply map_ext_in. intros x Ix. unfold W. rewrite (Ec x Ix). auto. }
    clearbody ws. subst ws. rewrite map_map, combine_map. auto. }
  assert (TP : (0 < IZR T)%R).
  { apply IZR_lt. assert (Hx : exists x, In x B) by (destruct B as [|x r]; [congruence|exists x; left; auto]).
    destruct Hx as [x Ix].
    pose proof (@total_len_ge lk B x Ix). rewrite Forall_forall in FB. specialize (FB x Ix). unfold T. lia. }
  assert (WP : Forall (fun x => 0 < W x)%R B).
  { apply Forall_forall. intros x Ix. unfold W. rewrite Forall_forall in FB. specialize (FB x Ix).
    apply Rmult_lt_0_compat; apply Rdiv_lt_0_compat; auto; try lra.
    - apply IZR_lt. lia.
    - apply exp_pos. }
  assert (SP : (0 < rsum (map W B))%R).
  { apply rsum_pos; [destruct B; [congruence|discriminate]|].
    apply Forall_map. auto. }
  rewrite Ed. split; [rewrite map_map; auto|]. split.
  { apply Forall_map. eapply Forall_impl; [|exact WP]. intros x Wx. simpl. apply Rdiv_lt_0_compat; auto. }
  split.
  { rewrite map_map. simpl. rewrite <- (map_map W (fun y => (y / rsum (map W B))%R)).
    rewrite rsum_div. field. lra. }
  intros x1 x2 p1 p2 I1 I2 D1 D2 El Hv.
  apply in_map_iff in D1 as (y1 & E1 & Iy1). apply in_map_iff in D2 as (y2 & E2 & Iy2).
  assert (y1 = x1).
  { apply (f_equal fst) in E1; simpl in E1; apply (@NoDup_map_inj _ _ fst B); auto; apply (inv_nodup I). }
  assert (y2 = x2).
  { apply (f_equal fst) in E2; simpl in E2; apply (@NoDup_map_inj _ _ fst B); auto; apply (inv_nodup I). }
  subst y1 y2. inversion E1; inversion E2; subst p1 p2.
  apply Rmult_lt_compat_r; [apply Rinv_0_lt_compat; auto|].
  unfold W. rewrite El. rewrite Forall_forall in FB. pose proof (FB x2 I2).
  apply Rmult_lt_compat_l.
  { apply Rdiv_lt_0_compat; auto. apply IZR_lt. lia. }
  unfold Rdiv. rewrite !Rmult_1_l. apply Rinv_lt_contravar.
  { apply Rmult_lt_0_compat; apply exp_pos. }
  pose proof (@visits_nonneg h t0 (fst x1)).
  apply Rlt_Rpower_l; auto. unfold cnt. split; apply IZR_lt; lia.
Qed.

(** Between additions and ejections the distribution does not move. *)
Lemma coverage_frozen alpha (t : table S) count L draws :
  coverage_dist alpha (weighted_of (t_sampler (fst (t_sample t count L draws)))) =
  coverage_dist alpha (weighted_of (t_sampler t)).
Proof.
  unfold t_sample. destruct (t_sampler t) as [f b1 b2|w] eqn:Es; cbn [s_sample].
  { destruct (fifo_sample f b1 b2 count (Z.of_nat L) draws); cbn [fst]; rewrite ?kind_gather; auto. }
  assert (E : coverage_dist alpha (fst (w_sample w count (Z.of_nat L) draws)) = coverage_dist alpha w).
  { assert (Loop : forall draws w1 tc, w_dirty w1 = false ->
      let w2 := fst (w_sample_loop w1 tc draws) in
      w_dirty w2 = false /\ w_ids w2 = w_ids w1 /\ w_prios w2 = w_prios w1 /\ w_pcounts w2 = w_pcounts w1).
    { clear. induction draws as [|[i k] ds IH]; intros w1 tc D; simpl; auto.
      destruct (w_cov w1) eqn:Cv.
      - destruct (dget (w_counts w1) i); [|simpl; auto]. simpl.
        destruct (dget (w_lens w1) i); [|simpl; auto].
        match goal with |- context [w_sample_loop ?x tc ds] => specialize (IH x tc D);
          destruct (w_sample_loop x tc ds) as [w3 [ps|er]] end; simpl in *; auto.
      - destruct (dget (w_lens w1) i); [|simpl; auto].
        specialize (IH w1 tc D). destruct (w_sample_loop w1 tc ds) as [w3 [ps|er]]; simpl in *; auto. }
    assert (Same : forall w1 w2, w_dirty w2 = false -> w_ids w2 = w_ids w1 ->
       w_prios w2 = w_prios w1 -> w_pcounts w2 = w_pcounts w1 -> fst (w_refresh w) = w1 ->
       coverage_dist alpha w2 = coverage_dist alpha w).
    { intros w1 w2 D A1 A2 A3 A4. unfold coverage_dist. rewrite A4.
      unfold w_refresh. rewrite D. cbn [fst]. unfold coverage_weights. rewrite A1, A2, A3. auto. }
    assert (D1 : w_dirty (fst (w_refresh w)) = false).
    { unfold w_refresh, w_rebalance. destruct (w_dirty w) eqn:D; auto. destruct (forallb _ _); auto. }
    unfold w_sample. destruct (w_refresh w) as [w1 [u|er]] eqn:Er; cbn [fst] in D1.
    - destruct (Nat.eqb count 0). { apply (Same w1); auto. }
      destruct (negb (choice_ok w1)). { apply (Same w1); auto. }
      destruct (draws_ok w1 count draws); [|apply (Same w1); auto].
      destruct (Loop draws w1 (Z.of_nat L) D1) as (A0 & A1 & A2 & A3).
      apply (Same w1); auto.
    - apply (Same w1); auto. }
  destruct (w_sample w count (Z.of_nat L) draws) as [w2 [pts|er]]; cbn [fst snd] in *; rewrite ?kind_gather; auto.
Qed.
End Tab.
