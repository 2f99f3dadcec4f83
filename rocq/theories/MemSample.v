(** * MemSample: sampling (C08 - C14, C18). *)
From Verif Require Import Py PyLemmas MemModel MemSpec MemProofs MemRun.
Open Scope Z_scope.
Set Implicit Arguments.
Local Ltac Zify.zify_post_hook ::= Z.div_mod_to_equations.

(** ** The rounded product random() * n *)

Lemma log2_bounds p : 2 ^ 53 <= p ->
  2 ^ 52 * 2 ^ (Z.log2 p - 52) <= p /\ 1 <= Z.log2 p - 52.
Proof.
  intros Hp. assert (0 < p) by (assert (0 < 2 ^ 53) by reflexivity; lia).
  pose proof (Z.log2_spec p H) as [L1 _].
  assert (53 <= Z.log2 p). { apply Z.log2_le_pow2; auto. }
  split; [|lia]. rewrite <- Z.pow_add_r by lia. replace (52 + (Z.log2 p - 52)) with (Z.log2 p) by lia. auto.
Qed.

Lemma fl53_err p : 0 <= p -> 2 ^ 53 * Z.abs (fl53 p - p) <= p.
Proof.
  intros Hp. unfold fl53. destruct (Z.ltb_spec p (2 ^ 53)) as [Hlt|Hge].
  - rewrite Z.sub_diag. simpl. lia.
  - destruct (log2_bounds Hge) as [L1 L2]. set (s := Z.log2 p - 52) in *.
    assert (E : 2 ^ s = 2 * 2 ^ (s - 1)).
    { rewrite <- Z.pow_succ_r by lia. f_equal. lia. }
    assert (P : 0 < 2 ^ (s - 1)) by (apply Z.pow_pos_nonneg; lia).
    set (h := 2 ^ (s - 1)) in *. rewrite E in *. clearbody h. clear E.
    assert (D := Z.div_mod p (2 * h) ltac:(lia)).
    assert (M := Z.mod_pos_bound p (2 * h) ltac:(lia)).
    set (q := p / (2 * h)) in *. set (r := p mod (2 * h)) in *. clearbody q r.
    change (2 ^ 53) with (2 * 2 ^ 52). change (2 ^ 52) with 4503599627370496 in *.
    assert (B : Z.abs ((if r <? h then q else if h <? r then q + 1
                        else if Z.even q then q else q + 1) * (2 * h) - p) <= h).
    { destruct (Z.ltb_spec r h); [|destruct (Z.ltb_spec h r); [|destruct (Z.even q)]];
        try replace (q * (2 * h) - p) with (- r) by lia;
        try replace ((q + 1) * (2 * h) - p) with (2 * h - r) by lia; lia. }
    lia.
Qed.

Lemma fl53_nonneg p : 0 <= p -> 0 <= fl53 p.
Proof. intros Hp. pose proof (fl53_err Hp). change (2 ^ 53) with 9007199254740992 in *. lia. Qed.

Lemma fl53_small p : 0 <= p <= 2 ^ 53 -> fl53 p = p.
Proof.
  intros Hp. unfold fl53. destruct (Z.ltb_spec p (2 ^ 53)); auto.
  assert (p = 2 ^ 53) as -> by lia. reflexivity.
Qed.

Lemma int_rand_bounds k n : 0 <= k < 2 ^ 53 -> 1 <= n <= 2 ^ 53 ->
  0 <= int_rand_mul k n < n.
Proof.
  intros Hk Hn. unfold int_rand_mul. rewrite Z.abs_eq, (@fl53_small n) by lia.
  rewrite Z.sgn_pos by lia. rewrite Z.mul_1_l.
  assert (Hp : 0 <= k * n) by nia.
  pose proof (fl53_err Hp). pose proof (fl53_nonneg Hp).
  change (2 ^ 53) with 9007199254740992 in *.
  split; [apply Z.div_pos; lia|]. apply Z.div_lt_upper_bound; [lia|].
  assert (k * n <= 9007199254740991 * n) by nia. lia.
Qed.

Lemma fl53_ge p m : 2 ^ 53 <= p -> m * 2 ^ (Z.log2 p - 52) <= p ->
  m * 2 ^ (Z.log2 p - 52) <= fl53 p.
Proof.
  intros Hp Hm. unfold fl53. destruct (Z.ltb_spec p (2 ^ 53)); [lia|].
  destruct (log2_bounds Hp) as [_ L2]. set (s := Z.log2 p - 52) in *.
  assert (P : 0 < 2 ^ s) by (apply Z.pow_pos_nonneg; lia).
  assert (Hq : m <= p / 2 ^ s) by (apply Z.div_le_lower_bound; lia).
  apply Z.mul_le_mono_nonneg_r; [lia|].
  destruct (_ <? _); [lia|]. destruct (_ <? _); [lia|]. destruct (Z.even _); lia.
Qed.

Lemma int_rand_reach n j : 1 <= n <= 2 ^ 52 -> 0 <= j < n ->
  exists k, 0 <= k < 2 ^ 53 /\ int_rand_mul k n = j.
Proof.
  intros Hn Hj.
  set (M := 2 ^ 53). assert (EM : M = 2 * 2 ^ 52) by reflexivity.
  assert (PM : 0 < 2 ^ 52) by reflexivity.
  exists ((j * M + n - 1) / n).
  set (k := (j * M + n - 1) / n).
  assert (K : n * k <= j * M + n - 1 /\ j * M <= n * k).
  { unfold k. pose proof (Z.div_mod (j * M + n - 1) n ltac:(lia)).
    pose proof (Z.mod_pos_bound (j * M + n - 1) n ltac:(lia)). lia. }
  clearbody k.
  assert (Hk : 0 <= k < M) by nia.
  split; auto.
  unfold int_rand_mul. rewrite Z.abs_eq, (@fl53_small n) by (fold M; lia).
  rewrite Z.sgn_pos by lia. rewrite Z.mul_1_l. fold M.
  assert (Hp : 0 <= k * n) by nia.
  pose proof (fl53_err Hp) as E. fold M in E.
  assert (Up : fl53 (k * n) < (j + 1) * M).
  { assert (M * (fl53 (k * n) - k * n) <= k * n) by nia. nia. }
  assert (Lo : j * M <= fl53 (k * n)).
  { destruct (Z.eq_dec j 0) as [->|Nj].
    { simpl. apply fl53_nonneg; auto. }
    assert (Hp1 : 2 ^ 53 <= k * n) by (fold M; nia).
    destruct (log2_bounds Hp1) as [_ L2].
    assert (L3 : Z.log2 (k * n) < 105).
    { apply Z.log2_lt_pow2; [nia|]. change (2 ^ 105) with (2 ^ 52 * M). nia. }
    set (s := Z.log2 (k * n) - 52) in *.
    assert (Es : M = 2 ^ (53 - s) * 2 ^ s).
    { rewrite <- Z.pow_add_r by lia. unfold M. f_equal. lia. }
    rewrite Es, Z.mul_assoc. apply fl53_ge; auto. fold s.
    rewrite <- Z.mul_assoc, <- Es. lia. }
  symmetry. apply Z.div_unique with (r := fl53 (k * n) - j * M); lia.
Qed.

(** ** Sample points *)

Definition pt_ok (D : dict Z Z) (L : Z) (p : point) : Prop :=
  let '(id, a, b) := p in
  exists len, dget D id = Some len /\ b = a + L /\ 0 <= a /\ b <= len.

Definition lens_ok (D : dict Z Z) (L : Z) : Prop :=
  forall id len, dget D id = Some len -> L <= len <= 2 ^ 53.

Lemma w_sample_loop_points draws : forall w D L w' pts, w_inv w D -> 1 <= L -> lens_ok D L ->
  Forall (fun d => 0 <= snd d < 2 ^ 53) draws ->
  w_sample_loop w L draws = (w', Ok pts) ->
  List.length pts = List.length draws /\ Forall (pt_ok D L) pts.
Proof.
  induction draws as [|[id k] ds IH]; intros w D L w' pts I HL Hlen Hk E; simpl in E.
  - inversion E; subst. auto.
  - inversion Hk as [|? ? K1 K2]; subst. simpl in K1.
    set (bumped := if w_cov w then _ else _) in E.
    assert (Hb : forall w1, bumped = Some w1 -> w_inv w1 D).
    { unfold bumped. intros w1. destruct (w_cov w) eqn:C; [|congruence].
      destruct (dget (w_counts w) id) eqn:G; [|discriminate].
      intros E1; inversion E1; subst. destruct I as (I1 & I2 & I3). unfold w_inv; simpl.
      split; auto. split; auto. intros _. erewrite dkeys_dset_in by eauto. auto. }
    destruct bumped as [w1|]; [|discriminate]. specialize (Hb w1 eq_refl).
    assert (El : w_lens w1 = D) by (destruct Hb; auto). rewrite El in E.
    destruct (dget D id) as [len|] eqn:G; [|discriminate].
    destruct (w_sample_loop w1 L ds) as [w2 [ps|e]] eqn:E2; inversion E; subst.
    destruct (IH w1 (w_lens w1) L w' ps Hb HL Hlen K2 E2) as [I1 I2].
    simpl. split; [lia|]. constructor; auto. simpl.
    exists len. pose proof (Hlen id len G).
    pose proof (@int_rand_bounds k (len - (L - 1)) K1 ltac:(lia)).
    split; auto. lia.
Qed.

Lemma forallb_draws w draws : forallb (fun d => can_draw w (fst d) && (0 <=? snd d) && (snd d <? 2 ^ 53)) draws = true ->
  Forall (fun d => 0 <= snd d < 2 ^ 53) draws.
Proof.
  intros Hf. apply Forall_forall. intros d I. rewrite forallb_forall in Hf. specialize (Hf d I).
  rewrite !andb_true_iff in Hf. destruct Hf as [[_ F1] F2].
  apply Z.leb_le in F1. apply Z.ltb_lt in F2. auto.
Qed.

Lemma w_sample_points w D count L draws w' pts : w_inv w D -> 1 <= L -> lens_ok D L ->
  w_sample w count L draws = (w', Ok pts) ->
  List.length pts = count /\ Forall (pt_ok D L) pts.
Proof.
  intros I HL Hlen. unfold w_sample. pose proof (@w_inv_refresh w D I) as [I1 _].
  destruct (w_refresh w) as [w1 [u|e]]; [|discriminate]. simpl in I1.
  destruct (Nat.eqb_spec count 0) as [->|Nz]; [intros E; inversion E; subst; auto|].
  destruct (negb (choice_ok w1)); [discriminate|].
  destruct (draws_ok w1 count draws) eqn:Ed; [|discriminate].
  intros E. apply andb_true_iff in Ed as [Ed1 Ed2]. apply Nat.eqb_eq in Ed1.
  apply forallb_draws in Ed2.
  eapply w_sample_loop_points in E as [A1 A2]; eauto. split; auto. rewrite A1. exact Ed1.
Qed.

Lemma randint0_ok hi d x : randint0 hi d = Ok x -> 0 <= x <= hi.
Proof.
  unfold randint0. destruct (Z.ltb_spec hi 0); [discriminate|].
  destruct (Z.leb_spec 0 d), (Z.leb_spec d hi); simpl; intros E; inversion E; subst; lia.
Qed.

Lemma pyindex_in {A} (l : list A) i x : pyindex l i = Ok x -> In x l.
Proof.
  unfold pyindex. destruct (_ && _); [|discriminate].
  destruct (nth_error l _) eqn:E; intros E1; inversion E1; subst. eapply nth_error_In; eauto.
Qed.

Lemma pyindex_nth {A} (l : list A) i : 0 <= i < zlen l ->
  exists x, pyindex l i = Ok x /\ nth_error l (Z.to_nat i) = Some x.
Proof.
  unfold pyindex, zlen. intros Hi. destruct (Z.ltb_spec i 0); [lia|].
  destruct (Z.leb_spec 0 i), (Z.ltb_spec i (Z.of_nat (List.length l))); try lia. simpl.
  destruct (nth_error l (Z.to_nat i)) as [x|] eqn:E; [eauto|].
  apply nth_error_None in E. lia.
Qed.

Lemma fifo_per_episode_points f D L : f_inv f D -> forall count i draws pts,
  fifo_sample_per_episode f L i count draws = Ok pts -> 0 <= i ->
  List.length pts = count /\ Forall (pt_ok D L) pts /\
  (forall j p, nth_error pts j = Some p ->
     nth_error (dkeys D) (Z.to_nat ((i + Z.of_nat j) mod zlen (dkeys D))) = Some (fst (fst p))).
Proof.
  intros (F1 & F2 & F3). induction count as [|c IH]; intros i draws pts E Hi; simpl in E.
  - inversion E; subst. split; auto. split; auto. intros [|j] p; discriminate.
  - rewrite F1, F2 in E. destruct (Z.eqb_spec (zlen (dkeys D)) 0) as [|Nz]; [discriminate|].
    assert (Hn : 0 < zlen (dkeys D)) by (pose proof (zlen_nonneg (dkeys D)); lia).
    destruct (@pyindex_nth _ (dkeys D) (i mod zlen (dkeys D))) as (id & Ei & En).
    { apply Z.mod_pos_bound; auto. }
    rewrite Ei in E. simpl in E.
    destruct (dget D id) as [len|] eqn:G; [|discriminate].
    destruct draws as [|[x d] ds]; [discriminate|].
    destruct (randint0 (len - L) d) as [off|] eqn:R; [|discriminate]. simpl in E.
    destruct (fifo_sample_per_episode f L (i + 1) c ds) as [ps|] eqn:E2; [|discriminate].
    simpl in E. inversion E; subst. apply randint0_ok in R.
    destruct (IH (i + 1) ds ps E2 ltac:(lia)) as (I1 & I2 & I3). split; [simpl; lia|]. split.
    + constructor; auto. simpl. exists len. split; auto. lia.
    + intros [|j] p Ep; simpl in Ep.
      * inversion Ep; subst. simpl. rewrite Z.add_0_r. auto.
      * apply I3 in Ep. rewrite <- Ep. do 3 f_equal. lia.
Qed.

Lemma fifo_seq_points f D L ro : f_inv f D -> 1 <= L -> lens_ok D L ->
  forall count ep cur draws pts, 0 <= ep -> 0 <= cur ->
  (forall id len, nth_error (dkeys D) (Z.to_nat (ep mod zlen (dkeys D))) = Some id ->
     dget D id = Some len -> cur + L <= len) ->
  fifo_sample_seq f ro L ep cur count draws = Ok pts ->
  List.length pts = count /\ Forall (pt_ok D L) pts.
Proof.
  intros (F1 & F2 & F3) HL Hlen. induction count as [|c IH]; intros ep cur draws pts Hep Hcur Hin E; simpl in E.
  - inversion E; subst. auto.
  - rewrite F1, F2 in E. destruct (Z.eqb_spec (zlen (dkeys D)) 0) as [|Nz]; [discriminate|].
    assert (Hn : 0 < zlen (dkeys D)) by (pose proof (zlen_nonneg (dkeys D)); lia).
    destruct (@pyindex_nth _ (dkeys D) (ep mod zlen (dkeys D))) as (id & Ei & En).
    { apply Z.mod_pos_bound; auto. }
    rewrite Ei in E. simpl in E.
    destruct (dget D id) as [len|] eqn:G; [|discriminate].
    pose proof (Hin id len En G) as Hb.
    destruct (if ro then _ else _) as [off|] eqn:R; [|discriminate]. simpl in E.
    assert (Hoff : 0 <= off /\ off + L <= len).
    { destruct ro; [|inversion R; subst; lia]. destruct draws as [|[x d] ds]; [discriminate|].
      apply randint0_ok in R. lia. }
    destruct (if len <? cur + L + L then (ep + 1, 0) else (ep, cur + L)) as [ep2 cur2] eqn:Ee.
    destruct (fifo_sample_seq f ro L ep2 cur2 c (tl draws)) as [ps|] eqn:E2; [|discriminate].
    simpl in E. inversion E; subst.
    destruct (IH ep2 cur2 (tl draws) ps) as [I1 I2]; auto.
    + destruct (len <? cur + L + L); inversion Ee; subst; lia.
    + destruct (len <? cur + L + L); inversion Ee; subst; lia.
    + destruct (Z.ltb_spec len (cur + L + L)); inversion Ee; subst; intros id' len' N' G'.
      * apply Hlen in G'. lia.
      * rewrite En in N'. inversion N'; subst. rewrite G in G'. inversion G'; subst. lia.
    + split; [simpl; lia|]. constructor; auto. simpl. exists len. auto.
Qed.

Lemma s_sample_points s D count L draws s' pts : s_inv s D -> 1 <= L -> lens_ok D L ->
  s_sample s count L draws = (s', Ok pts) ->
  List.length pts = count /\ Forall (pt_ok D L) pts.
Proof.
  destruct s as [f b1 b2|w]; simpl; intros I HL Hlen E.
  - inversion E as [[E1 E2]]. clear E E1. unfold fifo_sample in E2. destruct b1.
    + destruct (@fifo_per_episode_points f D L I count 0 draws pts E2 ltac:(lia)) as (A1 & A2 & _). auto.
    + eapply fifo_seq_points in E2; eauto; try lia.
      intros id len _ G. apply Hlen in G. lia.
  - destruct (w_sample w count L draws) as [w' r] eqn:Ew. simpl in E. inversion E; subst.
    eapply w_sample_points; eauto.
Qed.

(** ** Gathering *)

Lemma nth_error_concat_uniform {A} n : forall (ls : list (list A)) i k,
  Forall (fun l => List.length l = n) ls -> (k < n)%nat ->
  nth_error (concat ls) (i * n + k) =
  match nth_error ls i with Some l => nth_error l k | None => None end.
Proof.
  induction ls as [|l r IH]; intros i k F Hk; simpl.
  - destruct i; simpl; [destruct k|destruct (n + i * n + k)%nat]; auto.
  - inversion F as [|? ? Hl Hr]; subst. destruct i as [|i]; simpl.
    + rewrite nth_error_app1; auto.
    + rewrite nth_error_app2 by lia.
      replace (List.length l + i * List.length l + k - List.length l)%nat
        with (i * List.length l + k)%nat by lia.
      apply IH; auto.
Qed.

Section Gather.
Context {S : Type} `{Scalar S}.
Implicit Types (t : table S) (B b : buffer S) (c : column S).

Lemma np_assign_exact (buf : array S) idx n rows :
  (idx + n <= List.length buf)%nat -> List.length rows = n ->
  np_assign buf idx n rows = Ok (firstn idx buf ++ rows ++ skipn (idx + n) buf).
Proof.
  intros Hb Hr. unfold np_assign.
  replace (Nat.min n (List.length buf - idx)) with n by lia.
  rewrite Hr, Nat.eqb_refl. auto.
Qed.

Lemma gather_points_ok t c n (rows : point -> array S) : forall pts idx buf,
  (idx + List.length pts * n = List.length buf)%nat ->
  (forall p, In p pts -> let '(id, a, b) := p in read_slice t c id a b = Ok (rows p) /\
                         List.length (rows p) = n) ->
  gather_points t c n idx buf pts = Ok (firstn idx buf ++ concat (map rows pts)).
Proof.
  induction pts as [|[[id a] b] r IH]; intros idx buf Hb Hp; simpl in *.
  - rewrite app_nil_r. rewrite firstn_all2 by lia. auto.
  - destruct (Hp (id, a, b)) as [E El]; auto. rewrite E. simpl.
    rewrite np_assign_exact by (auto; lia).
    rewrite IH; auto.
    + f_equal. rewrite firstn_app. rewrite firstn_length_le by lia.
      replace (idx + n - idx)%nat with n by lia.
      rewrite firstn_all2 by (rewrite firstn_length_le; lia).
      rewrite firstn_app, El, Nat.sub_diag. simpl. rewrite <- El at 1. rewrite firstn_all.
      rewrite app_nil_r, <- app_assoc. auto.
    + rewrite !app_length, firstn_length_le, skipn_length by lia. lia.
    + intros p I. apply Hp. auto.
Qed.

Lemma temp_for_len t c total : (total <= List.length (temp_for t c total))%nat.
Proof.
  unfold temp_for. destruct (dget (t_temp t) (c_name c)) as [b|]; [|rewrite repeat_length; lia].
  destruct (Nat.ltb_spec (List.length b) total); [rewrite repeat_length|]; lia.
Qed.

Lemma read_slice_temp t d : read_slice (with_temp t d) = read_slice t.
Proof. reflexivity. Qed.

Lemma gather_cols_ok count n pts (rows : column S -> point -> array S) : forall cols t,
  List.length pts = count ->
  (forall c p, In c cols -> In p pts -> let '(id, a, b) := p in
     read_slice t c id a b = Ok (rows c p) /\ List.length (rows c p) = local_len c n) ->
  snd (gather_cols t count n pts cols) =
  Ok (map (fun c => (c_name c, concat (map (rows c) pts))) cols).
Proof.
  induction cols as [|c r IH]; intros t Hc Hr; simpl; auto.
  rewrite (@gather_points_ok t c (local_len c n) (rows c)).
  - simpl. match goal with |- context [gather_cols ?t1 count n pts r] =>
      specialize (IH t1 Hc); destruct (gather_cols t1 count n pts r) as [t2 x] eqn:E end.
    simpl in IH. rewrite IH; auto.
    intros c' p I1 I2. specialize (Hr c' p (or_intror I1) I2). destruct p as [[id a] b]. auto.
  - simpl. rewrite firstn_length_le by apply temp_for_len. rewrite Hc. auto.
  - intros p Ip. apply Hr; simpl; auto.
Qed.
End Gather.

(** ** From sample points to windows *)
Section Windows.
Context {S : Type} `{Scalar S}.
Implicit Types (t : table S) (B b : buffer S) (c : column S).

Definition win_rows (cols : list (column S)) (L : nat) (c : column S) (w : window S) : array S :=
  let a := w_start w in
  let b := a + Z.of_nat L in
  match c_kind c with
  | KBase => pyslice (column_data c (w_seq w)) a b
  | KTag => firstn 1 (column_data c (w_seq w))
  | KVirt tg m =>
      match find_col cols tg with
      | None => []
      | Some d =>
          let arr := column_data d (w_seq w) in
          match m with
          | MNext => pyslice arr (a + 1) (b + 1)
          | MNextLast => pyslice arr b (b + 1)
          | MNextN n => pyslice arr (a + n) (b + n)
          | MDones => synth_dones (zlen arr) a b
          | MMask => synth_masks (zlen arr) a b
          end
      end
  end.

Lemma synth_len (f : Z -> row (S:=S)) (a b : Z) : a <= b ->
  List.length (map f (arange a b)) = Z.to_nat (b - a).
Proof. intros. unfold arange. rewrite !map_length, seq_length. auto. Qed.

Lemma Inv_store t B c : Inv t B -> In c (storage_cols (t_cols t)) -> forall e, In e B ->
  exists store, dget (t_data t) (c_name c) = Some store /\
                dget store (fst e) = Some (column_data c (snd e)).
Proof.
  intros I Ic e Ie. eexists. split; [apply (inv_holds I c Ic)|].
  apply In_dget.
  - unfold dkeys. rewrite map_map. apply (inv_nodup I).
  - apply in_map_iff. exists e; auto.
Qed.

Lemma read_slice_window t B c L w : (0 < L)%nat -> Inv t B -> In c (t_cols t) ->
  window_in (t_lenkey t) B (Z.of_nat L) w -> episode_ok (t_cols t) (t_lenkey t) (w_seq w) ->
  read_slice t c (fst (fst w)) (w_start w) (w_start w + Z.of_nat L) = Ok (win_rows (t_cols t) L c w) /\
  List.length (win_rows (t_cols t) L c w) = local_len c L.
Proof.
  intros HL I Ic (Wi & W0 & W1) Eo.
  pose proof (proj1 (Forall_forall _ _) Eo c Ic) as Co. unfold col_ok in Co.
  unfold read_slice, win_rows, local_len.
  set (a := w_start w) in *. set (s := w_seq w) in *.
  destruct (c_kind c) as [| |tg m] eqn:K.
  - assert (Is : In c (storage_cols (t_cols t))) by (apply storage_In; unfold is_virtual; rewrite K; auto).
    destruct (Inv_store c I Is (fst w) Wi) as (st & E1 & E2). rewrite E1, E2. split; auto.
    pose proof (column_data_seq_len c s) as El. rewrite pyslice_inside_length; lia.
  - assert (Is : In c (storage_cols (t_cols t))) by (apply storage_In; unfold is_virtual; rewrite K; auto).
    destruct (Inv_store c I Is (fst w) Wi) as (st & E1 & E2). rewrite E1, E2.
    pose proof (column_data_seq_len c s) as El. unfold s, w_seq in *.
    destruct (column_data c (snd (fst w))) as [|r rs]; [unfold zlen in El; simpl in El; lia|].
    split; auto.
  - destruct (co_targets (inv_cfg I) c tg m Ic K) as (d & Id & En & Bd).
    assert (Is : In d (storage_cols (t_cols t)))
      by (apply storage_In; unfold is_virtual; rewrite Bd; auto).
    destruct (Inv_store d I Is (fst w) Wi) as (st & E1 & E2). rewrite En in E1. rewrite E1, E2.
    rewrite <- En. rewrite (find_col_In _ d (co_names (inv_cfg I)) Id).
    fold (w_seq w). fold s.
    pose proof (column_data_seq_len d s) as El. rewrite En in El.
    destruct m; simpl.
    + split; auto. rewrite pyslice_inside_length; lia.
    + split; auto. rewrite pyslice_inside_length; lia.
    + destruct (Z.leb_spec (zlen (column_data d s)) (a + n)), (Z.ltb_spec (zlen (column_data d s)) (a + Z.of_nat L + n));
        simpl; try lia.
      split; auto. rewrite pyslice_inside_length; lia.
    + split; auto. unfold synth_dones. rewrite synth_len; lia.
    + split; auto. unfold synth_masks. rewrite synth_len; lia.
Qed.

Lemma dget_map_cols {V} (f : column S -> V) cols c : NoDup (map (@c_name S) cols) -> In c cols ->
  dget (map (fun c => (c_name c, f c)) cols) (c_name c) = Some (f c).
Proof.
  intros ND I. apply In_dget.
  - unfold dkeys. rewrite map_map. auto.
  - apply in_map_iff. exists c; auto.
Qed.

Lemma points_windows lk B L pts : Forall (pt_ok (lens_of lk B) L) pts ->
  exists ws, pts = map (fun w => (fst (fst w), w_start w, w_start w + L)) ws /\
             Forall (window_in lk B L) ws.
Proof.
  induction 1 as [|[[id a] b] r Hp Hr IH].
  - exists []. auto.
  - destruct IH as (ws & -> & Hw). destruct Hp as (len & G & -> & H0 & H1).
    apply dget_In in G. unfold lens_of in G. apply in_map_iff in G as (e & E & Ie).
    inversion E; subst. exists ((e, a) :: ws). split; auto. constructor; auto.
    unfold window_in, w_start, w_seq. simpl. auto.
Qed.

Definition w_point (L : nat) (w : window S) : point :=
  (fst (fst w), w_start w, w_start w + Z.of_nat L).

Lemma t_sample_of_points t B count L draws s' ws : Inv t B -> (1 <= L)%nat ->
  Forall (fun e => episode_ok (t_cols t) (t_lenkey t) (snd e)) B ->
  s_sample (t_sampler t) count (Z.of_nat L) draws = (s', Ok (map (w_point L) ws)) ->
  List.length ws = count -> Forall (window_in (t_lenkey t) B (Z.of_nat L)) ws ->
  snd (t_sample t count L draws) =
  Ok (map (fun c => (c_name c, concat (map (win_rows (t_cols t) L c) ws))) (t_cols t)).
Proof.
  intros I HL Hb Es P1 Hw. unfold t_sample.
  pose proof (s_inv_sample (t_sampler t) (lens_of (t_lenkey t) B) count (Z.of_nat L) draws (inv_sampler I)) as Is'.
  rewrite Es in *. simpl in Is'.
  set (t1 := with_sampler t s') in *.
  assert (I1 : Inv t1 B) by (apply Inv_with_sampler; auto).
  assert (Ep : forall w, In w ws -> episode_ok (t_cols t) (t_lenkey t) (w_seq w)).
  { intros w Iw. rewrite Forall_forall in Hw. destruct (Hw w Iw) as (Wi & _).
    rewrite Forall_forall in Hb. apply Hb in Wi. auto. }
  (* the rows as a function of the point *)
  assert (G : forall c p, In c (t_cols t) -> In p (map (w_point L) ws) -> exists rows, let '(id, a, b) := p in
            read_slice t1 c id a b = Ok rows /\ List.length rows = local_len c L).
  { intros c p Ic Ip. apply in_map_iff in Ip as (w & <- & Iw). unfold w_point.
    exists (win_rows (t_cols t) L c w).
    apply (@read_slice_window t1 B c L w); auto; try (simpl; auto).
    rewrite Forall_forall in Hw. apply Hw; auto. }
  set (rows := fun c (p : point) => let '(id, a, b) := p in
               match read_slice t1 c id a b with Ok r => r | Err _ => [] end).
  rewrite (@gather_cols_ok S H count L (map (w_point L) ws) rows).
  - f_equal. apply map_ext_in. intros c Ic. f_equal.
    f_equal. rewrite map_map. apply map_ext_in. intros w Iw. unfold rows, w_point.
    destruct (@read_slice_window t1 B c L w) as [E _]; auto.
    + rewrite Forall_forall in Hw. apply Hw; auto.
    + rewrite E. auto.
  - rewrite map_length; auto.
  - intros c p Ic Ip. destruct (G c p Ic Ip) as [r Er]. destruct p as [[id a] b].
    unfold rows. destruct Er as [E1 E2]. rewrite E1. auto.
Qed.

Lemma lens_ok_of (lk : string) B (L : Z) :
  Forall (fun e => L <= seq_len lk (snd e) <= 2 ^ 53) B -> lens_ok (lens_of lk B) L.
Proof.
  intros Hb id len G. apply dget_In in G. unfold lens_of in G. apply in_map_iff in G as (e & E & Ie).
  inversion E; subst. rewrite Forall_forall in Hb. apply Hb in Ie. tauto.
Qed.

Lemma t_sample_windows t B count L draws out : Inv t B -> (1 <= L)%nat ->
  Forall (fun e => episode_ok (t_cols t) (t_lenkey t) (snd e) /\
                   Z.of_nat L <= seq_len (t_lenkey t) (snd e) <= 2 ^ 53) B ->
  snd (t_sample t count L draws) = Ok out ->
  exists ws, List.length ws = count /\ Forall (window_in (t_lenkey t) B (Z.of_nat L)) ws /\
    (exists s', s_sample (t_sampler t) count (Z.of_nat L) draws = (s', Ok (map (w_point L) ws))) /\
    out = map (fun c => (c_name c, concat (map (win_rows (t_cols t) L c) ws))) (t_cols t).
Proof.
  intros I HL Hb Eo. pose proof Eo as Eo'. unfold t_sample in Eo.
  destruct (s_sample (t_sampler t) count (Z.of_nat L) draws) as [s' [pts|e]] eqn:Es; [|discriminate].
  assert (Hl : lens_ok (lens_of (t_lenkey t) B) (Z.of_nat L)).
  { apply lens_ok_of. eapply Forall_impl; [|exact Hb]. simpl; tauto. }
  assert (HLz : 1 <= Z.of_nat L) by lia.
  destruct (@s_sample_points _ _ _ _ _ _ _ (inv_sampler I) HLz Hl Es) as [P1 P2].
  destruct (@points_windows _ _ _ _ P2) as (ws & Ews & Hw). subst pts.
  rewrite map_length in P1.
  exists ws. split; auto. split; auto. split; [exists s'; auto|].
  rewrite (@t_sample_of_points t B count L draws s' ws) in Eo'; auto.
  - inversion Eo'; auto.
  - eapply Forall_impl; [|exact Hb]. simpl; tauto.
Qed.

(** Rows of a batch. *)
Lemma batch_rows (f : window S -> array S) n ws i k w :
  Forall (fun w => List.length (f w) = n) ws -> (k < n)%nat -> nth_error ws i = Some w ->
  nth_error (concat (map f ws)) (i * n + k) = nth_error (f w) k.
Proof.
  intros F Hk Hi. rewrite nth_error_concat_uniform; auto.
  - rewrite nth_error_map, Hi. auto.
  - apply Forall_forall. intros l Il. apply in_map_iff in Il as (w' & <- & Iw).
    rewrite Forall_forall in F. auto.
Qed.

Lemma concat_len_uniform {A} n (ls : list (list A)) :
  Forall (fun l => List.length l = n) ls -> List.length (concat ls) = (List.length ls * n)%nat.
Proof. induction 1; simpl; auto. rewrite app_length. lia. Qed.

Lemma row_at_slice (arr : array S) a n k : 0 <= a -> a + Z.of_nat n <= zlen arr -> (k < n)%nat ->
  nth_error (pyslice arr a (a + Z.of_nat n)) k = row_at arr (a + Z.of_nat k).
Proof.
  intros Ha Hn Hk. rewrite nth_error_pyslice by lia.
  unfold row_at. destruct (Z.ltb_spec (a + Z.of_nat k) 0); [lia|]. f_equal. lia.
Qed.

Lemma row_at_some (arr : array S) k : 0 <= k < zlen arr -> row_at arr k <> None.
Proof.
  unfold row_at, zlen. intros. destruct (Z.ltb_spec k 0); [lia|].
  intros E. apply nth_error_None in E. lia.
Qed.

(** Everything a sampled batch contains, per column. *)
Lemma sample_master cols lk maxlen s e ops count L draws out :
  sampling_ok cols lk s e ops L ->
  let t := run (t_create cols lk maxlen s e) ops in
  snd (t_sample t count L draws) = Ok out ->
  exists ws, batch_of t lk count L ws /\
    Forall (fun w => episode_ok cols lk (w_seq w) /\ 0 <= w_start w /\
                     w_start w + Z.of_nat L <= seq_len lk (w_seq w)) ws /\
    (forall c, In c cols ->
       dget out (c_name c) = Some (concat (map (win_rows cols L c) ws)) /\
       Forall (fun w => List.length (win_rows cols L c w) = local_len c L) ws).
Proof.
  intros (C & Fs & Fe & Co & HL & Hep) t Eo.
  destruct (run_create maxlen C Fs Fe Co) as (B & I & Sb & F1 & F2 & F3 & F4).
  fold t in I, F1, F2, F3, F4.
  assert (Hb : Forall (fun e => episode_ok (t_cols t) (t_lenkey t) (snd e) /\
                   Z.of_nat L <= seq_len (t_lenkey t) (snd e) <= 2 ^ 53) B).
  { rewrite F1, F2. eapply sublist_Forall; eauto. }
  destruct (t_sample_windows count draws I HL Hb Eo) as (ws & W1 & W2 & _ & W3).
  rewrite F1 in W3. rewrite F2 in W2.
  exists ws. split; [split; auto; exists B; split; [apply (inv_holds I)|auto]|]. split.
  - apply Forall_forall. intros w Iw. rewrite Forall_forall in W2. destruct (W2 w Iw) as (Wi & W0 & Wl).
    split; auto. rewrite Forall_forall in Hb. apply Hb in Wi. rewrite F1, F2 in Wi. tauto.
  - intros c Ic. subst out. split.
    + apply (dget_map_cols (fun c => concat (map (win_rows cols L c) ws))); auto. apply (co_names C).
    + apply Forall_forall. intros w Iw.
      destruct (@read_slice_window t B c L w) as [_ E]; auto; rewrite ?F1, ?F2; auto.
      * rewrite Forall_forall in W2. auto.
      * rewrite Forall_forall in W2. destruct (W2 w Iw) as (Wi & _).
        rewrite Forall_forall in Hb. apply Hb in Wi. rewrite F1, F2 in Wi. tauto.
      * rewrite F1 in E. auto.
Qed.

Ltac use_master M ws Bt Hw Hc :=
  destruct M as (ws & Bt & Hw & Hc).

(** ** C08 *)
Lemma windows_rows cols lk c L ws (out : dict string (array S)) :
  In c cols -> is_base c -> dget out (c_name c) = Some (concat (map (win_rows cols L c) ws)) ->
  Forall (fun w => List.length (win_rows cols L c w) = local_len c L) ws ->
  Forall (fun w => episode_ok cols lk (w_seq w) /\ 0 <= w_start w /\
                     w_start w + Z.of_nat L <= seq_len lk (w_seq w)) ws ->
  rows_of_windows out L c ws.
Proof.
  intros Ic Bc E F Hw.
  eexists. split; [exact E|].
  assert (Ell : local_len c L = L) by (unfold local_len; rewrite Bc; auto). rewrite Ell in F.
  split.
  - rewrite (@concat_len_uniform _ L).
    + rewrite map_length. auto.
    + apply Forall_forall. intros l Il. apply in_map_iff in Il as (w & <- & Iw).
      rewrite Forall_forall in F. auto.
  - intros i k w Hi Hk. rewrite (@batch_rows (win_rows cols L c) L ws i k w) by auto.
    assert (Iw : In w ws) by (eapply nth_error_In; eauto).
    rewrite Forall_forall in Hw. destruct (Hw w Iw) as (Ep & W0 & W1).
    pose proof (proj1 (Forall_forall _ _) Ep c Ic) as Co. unfold col_ok in Co.
    unfold is_base in Bc. rewrite Bc in Co.
    pose proof (column_data_seq_len c (w_seq w)) as El.
    unfold win_rows. rewrite Bc. rewrite row_at_slice by lia. split; auto.
    apply row_at_some. lia.
Qed.

Lemma sample_aligned cols lk maxlen s e ops count L draws out :
  sampling_ok cols lk s e ops L ->
  let t := run (t_create cols lk maxlen s e) ops in
  snd (t_sample t count L draws) = Ok out ->
  exists ws, batch_of t lk count L ws /\
    forall c, In c cols -> is_base c -> rows_of_windows out L c ws.
Proof.
  intros So t Eo. destruct (sample_master maxlen count draws So Eo) as (ws & Bt & Hw & Hc).
  exists ws. split; auto. intros c Ic Bc. destruct (Hc c Ic) as [E F].
  eapply windows_rows; eauto.
Qed.

(** ** C11 *)
Lemma sample_next cols lk maxlen s e ops count L draws out c d :
  sampling_ok cols lk s e ops L ->
  let t := run (t_create cols lk maxlen s e) ops in
  snd (t_sample t count L draws) = Ok out ->
  In d cols -> is_base d -> In c cols -> c_kind c = KVirt (c_name d) MNext ->
  exists ws rows nexts, batch_of t lk count L ws /\
    dget out (c_name d) = Some rows /\ dget out (c_name c) = Some nexts /\
    List.length rows = (count * L)%nat /\ List.length nexts = (count * L)%nat /\
    forall i k w, nth_error ws i = Some w -> (k < L)%nat ->
      let step := w_start w + Z.of_nat k in
      nth_error rows (i * L + k) = row_at (column_data d (w_seq w)) step /\
      nth_error nexts (i * L + k) = row_at (column_data d (w_seq w)) (step + 1) /\
      nth_error nexts (i * L + k) <> None.
Proof.
  intros So t Eo Id Bd Ic Kc. destruct (sample_master maxlen count draws So Eo) as (ws & Bt & Hw & Hc).
  destruct So as (C & _).
  destruct (Hc c Ic) as [E F]. destruct (Hc d Id) as [Ed Fd].
  exists ws. eexists. eexists. split; auto. split; [exact Ed|]. split; [exact E|].
  assert (Ell : local_len c L = L) by (unfold local_len; rewrite Kc; auto). rewrite Ell in F.
  assert (Elld : local_len d L = L) by (unfold local_len; rewrite Bd; auto). rewrite Elld in Fd.
  assert (Hlen : forall c', Forall (fun w => List.length (win_rows cols L c' w) = L) ws ->
            List.length (concat (map (win_rows cols L c') ws)) = (count * L)%nat).
  { intros c' F'. rewrite (@concat_len_uniform _ L).
    + rewrite map_length. destruct Bt as [<- _]. auto.
    + apply Forall_forall. intros l Il. apply in_map_iff in Il as (w & <- & Iw).
      rewrite Forall_forall in F'. auto. }
  split; [apply Hlen; auto|]. split; [apply Hlen; auto|].
  intros i k w Hi Hk step.
  rewrite (@batch_rows (win_rows cols L c) L ws i k w) by auto.
  rewrite (@batch_rows (win_rows cols L d) L ws i k w) by auto.
  assert (Iw : In w ws) by (eapply nth_error_In; eauto).
  rewrite Forall_forall in Hw. destruct (Hw w Iw) as (Ep & W0 & W1).
  pose proof (proj1 (Forall_forall _ _) Ep c Ic) as Co. unfold col_ok in Co. rewrite Kc in Co.
  pose proof (column_data_seq_len d (w_seq w)) as El.
  unfold win_rows. unfold is_base in Bd. rewrite Bd, Kc.
  rewrite (find_col_In _ d (co_names C) Id).
  replace (w_start w + Z.of_nat L + 1) with (w_start w + 1 + Z.of_nat L) by lia.
  rewrite !row_at_slice by lia. unfold step.
  replace (w_start w + 1 + Z.of_nat k) with (w_start w + Z.of_nat k + 1) by lia.
  split; auto. split; auto. apply row_at_some. lia.
Qed.

(** ** C12 *)
Lemma nth_arange (a b : Z) (k : nat) : a <= b -> (Z.of_nat k < b - a)%Z -> nth_error (arange a b) k = Some (a + Z.of_nat k).
Proof.
  intros Hab Hk. unfold arange. rewrite nth_error_map.
  rewrite (@nth_error_nth' _ _ _ 0%nat) by (rewrite seq_length; lia).
  simpl. rewrite seq_nth by lia. auto.
Qed.

Lemma sample_dones cols lk maxlen s e ops count L draws out c tg (mask : bool) :
  sampling_ok cols lk s e ops L ->
  let t := run (t_create cols lk maxlen s e) ops in
  snd (t_sample t count L draws) = Ok out ->
  In c cols -> c_kind c = KVirt tg (if mask then MMask else MDones) ->
  exists ws flags, batch_of t lk count L ws /\ dget out (c_name c) = Some flags /\
    List.length flags = (count * L)%nat /\
    forall i k w, nth_error ws i = Some w -> (k < L)%nat ->
      let last := w_start w + Z.of_nat k =? seq_len lk (w_seq w) - 1 in
      nth_error flags (i * L + k) =
        Some [if mask then (if last then s_zero else s_one) else (if last then s_one else s_zero)] /\
      (last = true -> k = (L - 1)%nat).
Proof.
  intros So t Eo Ic Kc. destruct (sample_master maxlen count draws So Eo) as (ws & Bt & Hw & Hc).
  destruct So as (C & _).
  destruct (Hc c Ic) as [E F].
  exists ws. eexists. split; auto. split; [exact E|].
  assert (Ell : local_len c L = L) by (unfold local_len; rewrite Kc; destruct mask; auto). rewrite Ell in F.
  split.
  { rewrite (@concat_len_uniform _ L).
    + rewrite map_length. destruct Bt as [<- _]. auto.
    + apply Forall_forall. intros l Il. apply in_map_iff in Il as (w & <- & Iw).
      rewrite Forall_forall in F. auto. }
  intros i k w Hi Hk last.
  rewrite (@batch_rows (win_rows cols L c) L ws i k w) by auto.
  assert (Iw : In w ws) by (eapply nth_error_In; eauto).
  rewrite Forall_forall in Hw. destruct (Hw w Iw) as (Ep & W0 & W1).
  pose proof (proj1 (Forall_forall _ _) Ep c Ic) as Co. unfold col_ok in Co. rewrite Kc in Co.
  destruct (co_targets C c tg _ Ic Kc) as (d & Id & En & Bd).
  pose proof (column_data_seq_len d (w_seq w)) as El. rewrite En in El.
  unfold win_rows. rewrite Kc, <- En, (find_col_In _ d (co_names C) Id).
  split.
  - destruct mask; unfold synth_masks, synth_dones; rewrite nth_error_map, nth_arange by lia;
      simpl; unfold last; rewrite El, Co; auto.
  - unfold last. intros E1. apply Z.eqb_eq in E1. lia.
Qed.

(** ** C13 *)
Lemma sample_next_last cols lk maxlen s e ops count L draws out c d :
  sampling_ok cols lk s e ops L ->
  let t := run (t_create cols lk maxlen s e) ops in
  snd (t_sample t count L draws) = Ok out ->
  In d cols -> is_base d -> In c cols -> c_kind c = KVirt (c_name d) MNextLast ->
  exists ws lasts, batch_of t lk count L ws /\ dget out (c_name c) = Some lasts /\
    List.length lasts = count /\
    forall i w, nth_error ws i = Some w ->
      nth_error lasts i = row_at (column_data d (w_seq w)) (w_start w + Z.of_nat L) /\
      nth_error lasts i <> None.
Proof.
  intros So t Eo Id Bd Ic Kc. destruct (sample_master maxlen count draws So Eo) as (ws & Bt & Hw & Hc).
  destruct So as (C & _).
  destruct (Hc c Ic) as [E F].
  exists ws. eexists. split; auto. split; [exact E|].
  assert (Ell : local_len c L = 1%nat) by (unfold local_len; rewrite Kc; auto). rewrite Ell in F.
  split.
  { rewrite (@concat_len_uniform _ 1).
    + rewrite map_length. destruct Bt as [<- _]. lia.
    + apply Forall_forall. intros l Il. apply in_map_iff in Il as (w & <- & Iw).
      rewrite Forall_forall in F. auto. }
  intros i w Hi.
  pose proof (@batch_rows (win_rows cols L c) 1 ws i 0 w F ltac:(lia) Hi) as Er.
  replace (i * 1 + 0)%nat with i in Er by lia. rewrite Er.
  assert (Iw : In w ws) by (eapply nth_error_In; eauto).
  rewrite Forall_forall in Hw. destruct (Hw w Iw) as (Ep & W0 & W1).
  pose proof (proj1 (Forall_forall _ _) Ep c Ic) as Co. unfold col_ok in Co. rewrite Kc in Co.
  pose proof (column_data_seq_len d (w_seq w)) as El.
  unfold win_rows. rewrite Kc. rewrite (find_col_In _ d (co_names C) Id).
  change (w_start w + Z.of_nat L + 1) with (w_start w + Z.of_nat L + Z.of_nat 1).
  rewrite row_at_slice by lia.
  replace (w_start w + Z.of_nat L + Z.of_nat 0) with (w_start w + Z.of_nat L) by lia.
  split; auto. apply row_at_some. lia.
Qed.

(** Tag columns: one row per window, the first row of the sequence. *)
Lemma sample_tag cols lk maxlen s e ops count L draws out c :
  sampling_ok cols lk s e ops L ->
  let t := run (t_create cols lk maxlen s e) ops in
  snd (t_sample t count L draws) = Ok out ->
  In c cols -> c_kind c = KTag ->
  exists ws tags, batch_of t lk count L ws /\ dget out (c_name c) = Some tags /\
    List.length tags = count /\
    forall i w, nth_error ws i = Some w ->
      nth_error tags i = row_at (column_data c (w_seq w)) 0 /\ nth_error tags i <> None.
Proof.
  intros So t Eo Ic Kc. destruct (sample_master maxlen count draws So Eo) as (ws & Bt & Hw & Hc).
  destruct (Hc c Ic) as [E F].
  exists ws. eexists. split; auto. split; [exact E|].
  assert (Ell : local_len c L = 1%nat) by (unfold local_len; rewrite Kc; auto). rewrite Ell in F.
  split.
  { rewrite (@concat_len_uniform _ 1).
    + rewrite map_length. destruct Bt as [<- _]. lia.
    + apply Forall_forall. intros l Il. apply in_map_iff in Il as (w & <- & Iw).
      rewrite Forall_forall in F. auto. }
  intros i w Hi.
  pose proof (@batch_rows (win_rows cols L c) 1 ws i 0 w F ltac:(lia) Hi) as Er.
  replace (i * 1 + 0)%nat with i in Er by lia. rewrite Er.
  assert (Iw : In w ws) by (eapply nth_error_In; eauto).
  rewrite Forall_forall in Hw. destruct (Hw w Iw) as (Ep & W0 & W1).
  pose proof (proj1 (Forall_forall _ _) Ep c Ic) as Co. unfold col_ok in Co. rewrite Kc in Co.
  pose proof (column_data_seq_len c (w_seq w)) as El.
  unfold win_rows. rewrite Kc. unfold row_at. simpl.
  destruct (column_data c (w_seq w)) as [|r rs]; [unfold zlen in El; simpl in El; lia|].
  simpl. split; congruence.
Qed.
End Windows.
