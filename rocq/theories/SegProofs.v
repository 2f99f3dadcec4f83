(** * SegProofs: C39 - C42. *)
From Verif Require Import Py PyLemmas SegModel SegSpec.
Open Scope Z_scope.
Set Implicit Arguments.

Section Seg.
Context {A : Type} (d : A).

Definition gv (vs : list A) (n : Z) : A := nth (Z.to_nat n) vs d.

Lemma pyindex_gv vs n : 0 <= n < zlen vs -> pyindex vs n = Ok (gv vs n).
Proof.
  intros Hn. unfold pyindex, zlen in *. destruct (Z.ltb_spec n 0); [lia|].
  destruct (Z.leb_spec 0 n); [|lia]. destruct (Z.ltb_spec n (Z.of_nat (List.length vs))); [|lia]. cbn [andb].
  unfold gv. rewrite (nth_error_nth' vs d) by lia. auto.
Qed.

Lemma pyset_spec (vs : list A) i x : 0 <= i < zlen vs ->
  exists vs', pyset vs i x = Ok vs' /\ zlen vs' = zlen vs /\
    forall n, 0 <= n -> gv vs' n = if n =? i then x else gv vs n.
Proof.
  intros Hi. unfold pyset. destruct (Z.ltb_spec i 0); [lia|].
  destruct (Z.leb_spec 0 i); [|lia]. destruct (Z.ltb_spec i (zlen vs)); [|lia]. cbn [andb].
  eexists. split; [reflexivity|]. unfold zlen in *.
  assert (Lf : List.length (firstn (Z.to_nat i) vs) = Z.to_nat i) by (apply firstn_length_le; lia).
  split.
  - rewrite app_length. cbn [List.length]. rewrite Lf, skipn_length. lia.
  - intros n Hn. unfold gv. destruct (Z.eqb_spec n i) as [->|Ne].
    + rewrite app_nth2; rewrite Lf; [|lia]. rewrite Nat.sub_diag. auto.
    + destruct (Z.lt_ge_cases n i).
      * rewrite app_nth1 by lia. rewrite <- (firstn_skipn (Z.to_nat i) vs) at 2. rewrite app_nth1 by lia. auto.
      * rewrite app_nth2 by lia. rewrite Lf.
        replace (Z.to_nat n - Z.to_nat i)%nat with (S (Z.to_nat n - S (Z.to_nat i))) by lia. cbn [nth].
        rewrite <- (firstn_skipn (S (Z.to_nat i)) vs) at 2.
        rewrite app_nth2; rewrite firstn_length_le by lia; [auto|lia].
Qed.

Lemma pyset_error (vs : list A) i x : zlen vs <= i \/ i < - zlen vs -> pyset vs i x = Err IndexError.
Proof.
  intros Hi. unfold pyset. destruct (Z.ltb_spec i 0).
  - destruct (Z.leb_spec 0 (i + zlen vs)); [unfold zlen in *; lia|]. auto.
  - destruct (Z.leb_spec 0 i); [|lia]. destruct (Z.ltb_spec i (zlen vs)); [unfold zlen in *; lia|]. auto.
Qed.

Context (op : A -> A -> A).

(** Node [n] is the combination of its children. *)
Definition node_ok (vs : list A) (n : Z) : Prop := gv vs n = op (gv vs (2 * n)) (gv vs (2 * n + 1)).

Fixpoint ancb (p : positive) (n : Z) : bool :=
  (n =? Z.pos p) || match p with xH => false | xO q | xI q => ancb q n end.

Lemma ancb_le p n : ancb p n = true -> 0 < n <= Z.pos p.
Proof.
  revert n. induction p as [q IH|q IH|]; intros n E; cbn [ancb] in E; apply orb_true_iff in E as [E|E];
    try (apply Z.eqb_eq in E; lia); try discriminate; apply IH in E; lia.
Qed.

Lemma seg_up_spec cap p : forall vs, zlen vs = 2 * cap -> Z.pos p < cap ->
  (forall n, 1 <= n < cap -> ancb p n = false -> node_ok vs n) ->
  exists vs', seg_up op vs p = Ok vs' /\ zlen vs' = zlen vs /\
    (forall n, 1 <= n < cap -> node_ok vs' n) /\
    (forall n, 0 <= n -> ancb p n = false -> gv vs' n = gv vs n).
Proof.
  assert (Step : forall p vs, zlen vs = 2 * cap -> Z.pos p < cap ->
     (forall n, 1 <= n < cap -> ancb p n = false -> node_ok vs n) ->
     exists vs1, pyset vs (Z.pos p) (op (gv vs (2 * Z.pos p)) (gv vs (2 * Z.pos p + 1))) = Ok vs1 /\
       zlen vs1 = zlen vs /\
       (forall n, 0 <= n -> n <> Z.pos p -> gv vs1 n = gv vs n) /\
       (forall n, 1 <= n < cap -> (n = Z.pos p \/ ancb p n = false) -> node_ok vs1 n)).
  { clear p. intros p vs L Hp Hn.
    destruct (@pyset_spec vs (Z.pos p) (op (gv vs (2 * Z.pos p)) (gv vs (2 * Z.pos p + 1)))) as (vs1 & E & L1 & G); [lia|].
    exists vs1. split; auto. split; auto. split.
    - intros n H0 Ne. rewrite G by auto. destruct (Z.eqb_spec n (Z.pos p)); congruence.
    - intros n Hr [->|Ha].
      + unfold node_ok. rewrite !G by lia. rewrite Z.eqb_refl.
        destruct (Z.eqb_spec (2 * Z.pos p) (Z.pos p)); [lia|]. destruct (Z.eqb_spec (2 * Z.pos p + 1) (Z.pos p)); [lia|]. auto.
      + assert (N1 : n <> Z.pos p) by (intros ->; destruct p; cbn [ancb] in Ha; rewrite Z.eqb_refl in Ha; discriminate).
        assert (N2 : 2 * n <> Z.pos p /\ 2 * n + 1 <> Z.pos p).
        { destruct p as [q|q|]; cbn [ancb] in Ha; apply orb_false_iff in Ha as [_ Ha];
          assert (n <> Z.pos q) || lia; try lia;
          (assert (n <> Z.pos q) by (intros ->; destruct q; cbn [ancb] in Ha; rewrite Z.eqb_refl in Ha; discriminate)); lia. }
        unfold node_ok. rewrite !G by lia.
        destruct (Z.eqb_spec n (Z.pos p)); [congruence|]. destruct (Z.eqb_spec (2 * n) (Z.pos p)); [lia|].
        destruct (Z.eqb_spec (2 * n + 1) (Z.pos p)); [lia|]. apply Hn; auto. }
  induction p as [q IH|q IH|]; intros vs L Hp Hn.
  1, 2: destruct (Step _ _ L Hp Hn) as (vs1 & E & L1 & G & N1);
    cbn [seg_up]; rewrite !pyindex_gv by lia; cbn [rbind]; rewrite E; cbn [rbind];
    destruct (IH vs1) as (vs' & E' & L' & N' & G'); [lia|lia| |
      exists vs'; split; [exact E'|]; split; [lia|]; split; [exact N'|];
      intros n H0 Ha; cbn [ancb] in Ha; apply orb_false_iff in Ha as [Ha1 Ha2]; apply Z.eqb_neq in Ha1;
      rewrite G' by auto; apply G; auto];
    intros n Hr Ha; apply N1; auto; cbn [ancb]; rewrite Ha;
    match goal with |- n = ?x \/ _ => destruct (Z.eqb_spec n x); auto end.
  destruct (Step _ _ L Hp Hn) as (vs1 & E & L1 & G & N1).
  cbn [seg_up]. rewrite !pyindex_gv by lia. cbn [rbind]. rewrite E. cbn [rbind].
  exists vs1. split; auto. split; auto. split.
  - intros n Hr. apply N1; auto. cbn [ancb]. destruct (Z.eqb_spec n 1); auto.
  - intros n H0 Ha. cbn [ancb] in Ha. apply orb_false_iff in Ha as [Ha1 _]. apply Z.eqb_neq in Ha1. apply G; auto.
Qed.

(** The invariant: sizes, operation, inner nodes. *)
Record good (cap : Z) (t : seg A) : Prop := mkGood
  { g_cap : sg_cap t = cap; g_op : sg_op t = op; g_len : zlen (sg_val t) = 2 * cap;
    g_nodes : forall n, 1 <= n < cap -> node_ok (sg_val t) n }.

Lemma seg_set_spec cap t i v : 0 < cap -> good cap t -> 0 <= i < cap ->
  exists t', seg_set t i v = (t', Ok tt) /\ good cap t' /\
    forall j, 0 <= j < cap -> gv (sg_val t') (cap + j) = if i =? j then v else gv (sg_val t) (cap + j).
Proof.
  intros Hc [Gc Go Gl Gn] Hi. unfold seg_set. rewrite Gc.
  destruct (@pyset_spec (sg_val t) (i + cap) v) as (vs & E & L & G); [lia|]. rewrite E.
  assert (Leaf : forall j, 0 <= j < cap -> gv vs (cap + j) = if i =? j then v else gv (sg_val t) (cap + j)).
  { intros j Hj. rewrite G by lia. destruct (Z.eqb_spec (cap + j) (i + cap)), (Z.eqb_spec i j); auto; lia. }
  destruct ((i + cap) / 2) as [|p|p] eqn:Ep.
  - exists (mkSeg cap vs (sg_op t)). split; auto. split; [|exact Leaf].
    assert (Hc1 : cap = 1) by (pose proof (Z_div_mod_eq_full (i + cap) 2); pose proof (Z.mod_pos_bound (i + cap) 2); lia).
    split; cbn; auto; [rewrite L; exact Gl|]. intros n Hn. lia.
  - destruct (@seg_up_spec cap p vs) as (vs' & E' & L' & N' & G').
    + lia.
    + pose proof (Z_div_mod_eq_full (i + cap) 2). pose proof (Z.mod_pos_bound (i + cap) 2). lia.
    + intros n Hn Ha. assert (Np : n <> Z.pos p) by (intros ->; destruct p; cbn [ancb] in Ha; rewrite Z.eqb_refl in Ha; discriminate).
      pose proof (Z_div_mod_eq_full (i + cap) 2). pose proof (Z.mod_pos_bound (i + cap) 2).
      unfold node_ok. rewrite !G by lia.
      destruct (Z.eqb_spec n (i + cap)); [lia|]. destruct (Z.eqb_spec (2 * n) (i + cap)); [lia|].
      destruct (Z.eqb_spec (2 * n + 1) (i + cap)); [lia|]. apply Gn; auto.
    + rewrite Go, E'. exists (mkSeg cap vs' op). split; auto. split.
      * split; cbn [sg_cap sg_op sg_val]; auto. rewrite L', L. exact Gl.
      * intros j Hj. cbn [sg_val]. rewrite G'; [apply Leaf; auto|lia|].
        destruct (ancb p (cap + j)) eqn:Ea; auto. apply ancb_le in Ea.
        pose proof (Z_div_mod_eq_full (i + cap) 2). pose proof (Z.mod_pos_bound (i + cap) 2). lia.
  - pose proof (Z.div_pos (i + cap) 2). lia.
Qed.

Lemma seg_sets_spec cap h : forall t, 0 < cap -> good cap t -> in_range cap h ->
  good cap (seg_sets t h) /\
  forall j, 0 <= j < cap -> gv (sg_val (seg_sets t h)) (cap + j) = last_value (gv (sg_val t) (cap + j)) h j.
Proof.
  induction h as [|[i v] r IH]; intros t Hc G R; [split; auto|].
  inversion R as [|? ? R1 R2]; subst. cbn [fst] in R1.
  destruct (seg_set_spec v Hc G R1) as (t' & E & G' & L).
  cbn [seg_sets fold_left fst snd]. rewrite E. cbn [fst]. fold (seg_sets t' r).
  destruct (IH t' Hc G' R2) as (G2 & L2). split; auto. intros j Hj. rewrite L2 by auto.
  unfold last_value at 2. cbn [fold_left fst snd]. rewrite L by auto. reflexivity.
Qed.

Lemma gv_repeat x n i : d = x -> gv (repeat x n) i = x.
Proof. intros E. rewrite <- E. unfold gv. apply nth_repeat. Qed.
End Seg.

(** Powers of two are exactly what the assertion accepts. *)
Lemma land_pred_pow2 c : 0 < c -> Z.land c (c - 1) = 0 <-> exists k, 0 <= k /\ c = 2 ^ k.
Proof.
  intros Hc. split.
  - intros E. exists (Z.log2 c). split; [apply Z.log2_nonneg|].
    destruct (Z.eq_dec c (2 ^ Z.log2 c)) as [|Ne]; auto. exfalso.
    pose proof (Z.log2_spec c Hc) as [L U].
    assert (B : Z.testbit (Z.land c (c - 1)) (Z.log2 c) = true).
    { rewrite Z.land_spec. rewrite Z.bit_log2 by lia. cbn [andb].
      replace (Z.log2 c) with (Z.log2 (c - 1)).
      - apply Z.bit_log2. assert (0 < 2 ^ Z.log2 c) by (apply Z.pow_pos_nonneg; [lia|apply Z.log2_nonneg]). lia.
      - apply Z.log2_unique; [apply Z.log2_nonneg|]. lia. }
    rewrite E, Z.bits_0 in B. discriminate.
  - intros (k & Hk & ->). replace (2 ^ k - 1) with (Z.ones k) by (rewrite Z.ones_equiv; lia).
    rewrite Z.land_ones by auto. apply Z.mod_same. apply Z.pow_nonzero; lia.
Qed.

Section Top.
Context {A : Type} (op : A -> A -> A) (e : A).

Lemma seg_new_iff cap : (exists t, seg_new cap op e = Ok t) <-> exists k, 0 <= k /\ cap = 2 ^ k.
Proof.
  unfold seg_new. split.
  - intros (t & E). destruct (Z.ltb_spec 0 cap); [|discriminate].
    destruct (Z.eqb_spec (Z.land cap (cap - 1)) 0) as [E0|]; [|discriminate]. apply land_pred_pow2; auto.
  - intros Hk. assert (Hc : 0 < cap) by (destruct Hk as (k & Hk & ->); apply Z.pow_pos_nonneg; lia).
    apply land_pred_pow2 in Hk; auto. destruct (Z.ltb_spec 0 cap); [|lia]. rewrite Hk. cbn. eauto.
Qed.

Lemma seg_new_eq cap t : seg_new cap op e = Ok t ->
  0 < cap /\ t = mkSeg cap (repeat e (Z.to_nat (2 * cap))) op.
Proof.
  intros E. unfold seg_new in E. destruct (Z.ltb_spec 0 cap); [|discriminate]. split; auto.
  destruct (_ && _) in E; [|discriminate]. injection E; auto.
Qed.

Lemma seg_new_good cap t : op e e = e -> seg_new cap op e = Ok t ->
  0 < cap /\ good e op cap t /\ forall n, gv e (sg_val t) n = e.
Proof.
  intros He E. apply seg_new_eq in E as [Hc ->]. split; auto. split; [|intros n; apply gv_repeat; auto].
  split; cbn [sg_cap sg_op sg_val]; auto.
  - unfold zlen. rewrite repeat_length. lia.
  - intros n Hn. unfold node_ok. rewrite !gv_repeat by auto. auto.
Qed.

(** Reading needs no property of the operation: another invariant. *)
Lemma seg_up_total cap p : forall vs, zlen vs = 2 * cap -> Z.pos p < cap ->
  exists vs', seg_up op vs p = Ok vs' /\ zlen vs' = zlen vs /\
    (forall n, cap <= n -> gv e vs' n = gv e vs n).
Proof.
  induction p as [q IH|q IH|]; intros vs L Hp; cbn [seg_up]; rewrite !(pyindex_gv e) by lia; cbn [rbind];
  match goal with |- context [pyset vs ?i ?x] => destruct (@pyset_spec _ e vs i x) as (vs1 & E & L1 & G); [lia|] end;
  rewrite E; cbn [rbind].
  1, 2: destruct (IH vs1) as (vs' & E' & L' & G'); [lia|lia|]; exists vs'; split; [exact E'|]; split; [lia|];
    intros n Hn; rewrite G' by auto; rewrite G by lia;
    match goal with |- (if n =? ?x then _ else _) = _ => destruct (Z.eqb_spec n x); [lia|auto] end.
  exists vs1. split; auto. split; auto. intros n Hn. rewrite G by lia. destruct (Z.eqb_spec n 1); [lia|auto].
Qed.

Record sized (cap : Z) (t : seg A) : Prop := mkSized
  { z_cap : sg_cap t = cap; z_op : sg_op t = op; z_len : zlen (sg_val t) = 2 * cap }.

Lemma seg_set_array cap t i v : 0 < cap -> sized cap t -> 0 <= i < cap ->
  exists t', seg_set t i v = (t', Ok tt) /\ sized cap t' /\
    forall j, 0 <= j < cap -> gv e (sg_val t') (cap + j) = if i =? j then v else gv e (sg_val t) (cap + j).
Proof.
  intros Hc [Gc Go Gl] Hi. unfold seg_set. rewrite Gc.
  destruct (@pyset_spec _ e (sg_val t) (i + cap) v) as (vs & E & L & G); [lia|]. rewrite E.
  assert (Leaf : forall j, 0 <= j < cap -> gv e vs (cap + j) = if i =? j then v else gv e (sg_val t) (cap + j)).
  { intros j Hj. rewrite G by lia. destruct (Z.eqb_spec (cap + j) (i + cap)), (Z.eqb_spec i j); auto; lia. }
  pose proof (Z_div_mod_eq_full (i + cap) 2). pose proof (Z.mod_pos_bound (i + cap) 2).
  destruct ((i + cap) / 2) as [|p|p] eqn:Ep.
  - exists (mkSeg cap vs (sg_op t)). split; auto. split; [|exact Leaf]. split; cbn; auto; rewrite L; exact Gl.
  - destruct (@seg_up_total cap p vs) as (vs' & E' & L' & G'); [lia|lia|].
    rewrite Go, E'. exists (mkSeg cap vs' op). split; auto. split.
    + split; cbn [sg_cap sg_op sg_val]; auto. rewrite L', L. exact Gl.
    + intros j Hj. cbn [sg_val]. rewrite G' by lia. apply Leaf; auto.
  - lia.
Qed.

Lemma seg_sets_array cap h : forall t, 0 < cap -> sized cap t -> in_range cap h ->
  sized cap (seg_sets t h) /\
  forall j, 0 <= j < cap -> gv e (sg_val (seg_sets t h)) (cap + j) = last_value (gv e (sg_val t) (cap + j)) h j.
Proof.
  induction h as [|[i v] r IH]; intros t Hc G R; [split; auto|].
  inversion R as [|? ? R1 R2]; subst. cbn [fst] in R1.
  destruct (seg_set_array v Hc G R1) as (t' & E & G' & L).
  cbn [seg_sets fold_left fst snd]. rewrite E. cbn [fst]. fold (seg_sets t' r).
  destruct (IH t' Hc G' R2) as (G2 & L2). split; auto. intros j Hj. rewrite L2 by auto.
  unfold last_value at 2. cbn [fold_left fst snd]. rewrite L by auto. reflexivity.
Qed.

(** ** C39 *)
Lemma seg_array cap t h : seg_new cap op e = Ok t -> in_range cap h ->
  forall i, seg_get (seg_sets t h) i =
    if (0 <=? i) && (i <? cap) then Ok (last_value e h i) else Err AssertionError.
Proof.
  intros E R i.
  assert (S0 : 0 < cap /\ sized cap t /\ forall n, gv e (sg_val t) n = e).
  { apply seg_new_eq in E as [Hc ->]. split; auto. split; [|intros n; apply gv_repeat; auto].
    split; cbn [sg_cap sg_op sg_val]; auto. unfold zlen. rewrite repeat_length. lia. }
  destruct S0 as (Hc & S0 & G0). destruct (seg_sets_array Hc S0 R) as ([C1 C2 C3] & L).
  unfold seg_get. rewrite C1. destruct (Z.leb_spec 0 i); auto. destruct (Z.ltb_spec i cap); auto. cbn [andb].
  rewrite (pyindex_gv e) by lia. rewrite L, G0 by lia. auto.
Qed.

Lemma seg_set_ok cap t h i v : seg_new cap op e = Ok t -> in_range cap h -> 0 <= i < cap ->
  snd (seg_set (seg_sets t h) i v) = Ok tt.
Proof.
  intros E R Hi.
  assert (S0 : 0 < cap /\ sized cap t).
  { apply seg_new_eq in E as [Hc ->]. split; auto.
    split; cbn [sg_cap sg_op sg_val]; auto. unfold zlen. rewrite repeat_length. lia. }
  destruct S0 as (Hc & S0). destruct (seg_sets_array Hc S0 R) as (S1 & _).
  destruct (seg_set_array v Hc S1 Hi) as (t' & E' & _). rewrite E'. auto.
Qed.

(** ** C40 *)
Hypothesis Hassoc : associative op.

Lemma fold1_app x l y l' : fold1 op x (l ++ y :: l') = op (fold1 op x l) (fold1 op y l').
Proof.
  revert x. induction l as [|z r IH]; intros x; cbn [app fold1]; auto. rewrite IH. apply Hassoc.
Qed.

Lemma fold_range_split (f : Z -> A) a n m :
  fold_range op f a (n + S m) = op (fold_range op f a n) (fold_range op f (a + 1 + Z.of_nat n) m).
Proof.
  unfold fold_range. rewrite seq_app, map_app. cbn [seq map]. rewrite fold1_app. f_equal. cbn [Nat.add].
  f_equal. rewrite <- seq_shift. rewrite <- (Nat.add_0_r n) at 1.
  assert (Es : forall b k, seq (S (b + k)) m = map (fun i => (S (b + i)))%nat (seq k m)).
  { clear. intros b. induction m as [|m IH]; intros k; cbn; auto. f_equal.
    replace (S (S (b + k))) with (S (b + S k)) by lia. apply IH. }
  rewrite seq_shift. rewrite Es, map_map. apply map_ext. intros i. f_equal. lia.
Qed.

(** A node at height [h] is the fold of the leaves below it. *)
Lemma node_fold cap t (f : Z -> A) : good e op cap t ->
  (forall j, 0 <= j < cap -> gv e (sg_val t) (cap + j) = f j) ->
  0 < cap -> forall h n, cap <= n * 2 ^ Z.of_nat h -> (n + 1) * 2 ^ Z.of_nat h <= 2 * cap ->
  gv e (sg_val t) n = fold_range op f (n * 2 ^ Z.of_nat h - cap) (Z.to_nat (2 ^ Z.of_nat h) - 1).
Proof.
  intros G Lf Hc. induction h as [|h IH]; intros n Hn Hn2.
  - change (2 ^ Z.of_nat 0) with 1 in *. change (Z.to_nat 1 - 1)%nat with 0%nat. unfold fold_range. cbn [seq map fold1].
    rewrite <- Lf by lia. f_equal. lia.
  - rewrite Nat2Z.inj_succ, Z.pow_succ_r in * by lia.
    assert (P : 0 < 2 ^ Z.of_nat h) by (apply Z.pow_pos_nonneg; lia).
    assert (Hb : 1 <= n < cap) by nia.
    rewrite (g_nodes G Hb). rewrite (IH (2 * n)), (IH (2 * n + 1)).
    + set (q := 2 ^ Z.of_nat h) in *.
      replace (Z.to_nat (2 * q) - 1)%nat with ((Z.to_nat q - 1) + S (Z.to_nat q - 1))%nat by lia.
      rewrite fold_range_split. f_equal; f_equal; lia.
    + nia.
    + nia.
    + nia.
    + nia.
Qed.

Lemma reduce_helper_spec cap t (f : Z -> A) : good e op cap t -> 0 < cap ->
  (forall j, 0 <= j < cap -> gv e (sg_val t) (cap + j) = f j) ->
  forall h limit n start stop, (h < limit)%nat ->
  cap <= n * 2 ^ Z.of_nat h -> (n + 1) * 2 ^ Z.of_nat h <= 2 * cap ->
  let ns := n * 2 ^ Z.of_nat h - cap in
  let ne := ns + 2 ^ Z.of_nat h - 1 in
  ns <= start -> start <= stop -> stop <= ne ->
  reduce_helper limit t start stop n ns ne = Ok (fold_range op f start (Z.to_nat (stop - start))).
Proof.
  intros G Hc Lf. induction h as [|h IH]; intros limit n start stop Hl Hn Hn2 ns ne H1 H2 H3.
  - destruct limit as [|r]; [lia|]. cbn [reduce_helper].
    change (2 ^ Z.of_nat 0) with 1 in *.
    destruct (Z.eqb_spec start ns); [|lia]. destruct (Z.eqb_spec stop ne); [|lia]. cbn [andb].
    rewrite (pyindex_gv e) by (rewrite (g_len G); lia). f_equal.
    replace (Z.to_nat (stop - start)) with 0%nat by lia. unfold fold_range. cbn [seq map fold1].
    rewrite <- Lf by lia. f_equal. lia.
  - destruct limit as [|r]; [lia|]. cbn [reduce_helper].
    destruct (Z.eqb_spec start ns) as [E1|E1]; destruct (Z.eqb_spec stop ne) as [E2|E2]; cbn [andb].
    { assert (P : 0 < 2 ^ Z.of_nat (S h)) by (apply Z.pow_pos_nonneg; lia).
      rewrite (pyindex_gv e) by (rewrite (g_len G); nia). f_equal.
      rewrite (@node_fold cap t f G Lf Hc (S h) n) by auto. f_equal; [fold ns; lia|]. unfold ns, ne in *. lia. }
    all: assert (P : 0 < 2 ^ Z.of_nat h) by (apply Z.pow_pos_nonneg; lia);
      subst ne; subst ns; rewrite Nat2Z.inj_succ, Z.pow_succ_r in * by lia;
      set (q := 2 ^ Z.of_nat h) in *;
      replace ((n * (2 * q) - cap + (n * (2 * q) - cap + 2 * q - 1)) / 2) with (n * (2 * q) - cap + q - 1)
        by (replace (n * (2 * q) - cap + (n * (2 * q) - cap + 2 * q - 1)) with (1 + (n * (2 * q) - cap + q - 1) * 2) by lia;
            rewrite Z.div_add by lia; change (1 / 2) with 0; lia);
      assert (IL : forall r' s' e', (h < r')%nat -> n * (2 * q) - cap <= s' -> s' <= e' -> e' <= n * (2 * q) - cap + q - 1 ->
        reduce_helper r' t s' e' (2 * n) (n * (2 * q) - cap) (n * (2 * q) - cap + q - 1) =
        Ok (fold_range op f s' (Z.to_nat (e' - s'))))
        by (intros r' s' e' Hr Ha Hb Hd; specialize (IH r' (2 * n) s' e' Hr); cbv zeta in IH;
            replace (2 * n * q) with (n * (2 * q)) in IH by lia; apply IH; try lia; nia);
      assert (IR : forall r' s' e', (h < r')%nat -> n * (2 * q) - cap + q <= s' -> s' <= e' -> e' <= n * (2 * q) - cap + 2 * q - 1 ->
        reduce_helper r' t s' e' (2 * n + 1) (n * (2 * q) - cap + q - 1 + 1) (n * (2 * q) - cap + 2 * q - 1) =
        Ok (fold_range op f s' (Z.to_nat (e' - s'))))
        by (intros r' s' e' Hr Ha Hb Hd; specialize (IH r' (2 * n + 1) s' e' Hr); cbv zeta in IH;
            replace ((2 * n + 1) * q - cap) with (n * (2 * q) - cap + q - 1 + 1) in IH by lia;
            replace (n * (2 * q) - cap + q - 1 + 1 + q - 1) with (n * (2 * q) - cap + 2 * q - 1) in IH by lia;
            apply IH; try lia; nia);
      destruct (Z.leb_spec stop (n * (2 * q) - cap + q - 1)); [apply IL; lia|];
      destruct (Z.leb_spec (n * (2 * q) - cap + q - 1 + 1) start); [apply IR; lia|];
      rewrite IL by lia; rewrite IR by lia; cbn [rbind]; rewrite (g_op G); f_equal;
      replace (Z.to_nat (stop - start)) with
        (Z.to_nat (n * (2 * q) - cap + q - 1 - start) + S (Z.to_nat (stop - (n * (2 * q) - cap + q - 1 + 1))))%nat by lia;
      rewrite fold_range_split; f_equal; f_equal; lia.
Qed.

Lemma seg_reduce_spec cap t h start stop limit : op e e = e -> seg_new cap op e = Ok t -> in_range cap h ->
  let last := match stop with None => cap | Some x => if x <? 0 then x + cap else x end in
  0 <= start < last -> last <= cap -> Z.log2 cap < Z.of_nat limit ->
  seg_reduce limit (seg_sets t h) start stop =
  Ok (fold_range op (last_value e h) start (Z.to_nat (last - start) - 1)).
Proof.
  intros He E R last H1 H2 Hl.
  destruct (@seg_new_good cap t He E) as (Hc & G & G0).
  destruct (proj1 (seg_new_iff cap) (ex_intro _ t E)) as (k & Hk & Ek).
  destruct (@seg_sets_spec A e op cap h t Hc G R) as (G1 & L1).
  unfold seg_reduce. rewrite (g_cap G1).
  assert (El : (let stop := match stop with None => cap | Some x => x end in
                if stop <? 0 then stop + cap else stop) = last).
  { cbv zeta. unfold last. destruct stop; auto. destruct (Z.ltb_spec cap 0); lia. }
  cbv zeta in El. cbv zeta. rewrite El.
  assert (Lk : Z.log2 cap = k) by (rewrite Ek; apply Z.log2_pow2; auto).
  pose proof (@reduce_helper_spec cap (seg_sets t h) (last_value e h) G1 Hc) as RH.
  specialize (RH ltac:(intros j Hj; rewrite L1, G0 by auto; auto) (Z.to_nat k) limit 1 start (last - 1)).
  rewrite Z2Nat.id in RH by lia. rewrite <- Ek in RH. cbv zeta in RH.
  replace (1 * cap - cap) with 0 in RH by lia. replace (0 + cap - 1) with (cap - 1) in RH by lia.
  rewrite RH by lia. f_equal. f_equal. lia.
Qed.
End Top.

(** Empty ranges: the helper never stops, whatever the recursion limit. *)
Lemma reduce_empty {A} (t : seg A) limit : forall start stop node ns ne,
  stop < start -> ns <= ne \/ (ns = ne + 1 /\ ne < stop) ->
  reduce_helper limit t start stop node ns ne = Err RecursionError.
Proof.
  induction limit as [|r IH]; intros start stop node ns ne H1 H2; auto. cbn [reduce_helper].
  destruct (Z.eqb_spec start ns); destruct (Z.eqb_spec stop ne); cbn [andb]; try lia;
  pose proof (Z_div_mod_eq_full (ns + ne) 2); pose proof (Z.mod_pos_bound (ns + ne) 2);
  (destruct (Z.leb_spec stop ((ns + ne) / 2)); [apply IH; lia|];
   destruct (Z.leb_spec ((ns + ne) / 2 + 1) start); [apply IH; lia|lia]).
Qed.

(** ** C41 *)
Lemma prefix_sum_succ f i : 0 <= i -> prefix_sum f (i + 1) = prefix_sum f i + f i.
Proof.
  intros Hi. unfold prefix_sum. replace (Z.to_nat (i + 1)) with (Z.to_nat i + 1)%nat by lia.
  rewrite seq_app, map_app, zsum_app. cbn [Nat.add seq map]. unfold zsum at 2. cbn [fold_right].
  replace (Z.of_nat (Z.to_nat i)) with i by lia. lia.
Qed.

Lemma prefix_sum_mono f cap i j : (forall k, 0 <= k < cap -> 0 <= f k) -> 0 <= i <= j -> j <= cap ->
  prefix_sum f i <= prefix_sum f j.
Proof.
  intros Hf Hij Hj. replace j with (i + Z.of_nat (Z.to_nat (j - i))) in * by lia.
  induction (Z.to_nat (j - i)) as [|n IH]; [rewrite Z.add_0_r; lia|].
  rewrite Nat2Z.inj_succ in *. replace (i + Z.succ (Z.of_nat n)) with (i + Z.of_nat n + 1) in * by lia.
  rewrite prefix_sum_succ by lia. specialize (Hf (i + Z.of_nat n)). lia.
Qed.

Lemma node_sum cap t f : good 0 Z.add cap t ->
  (forall j, 0 <= j < cap -> gv 0 (sg_val t) (cap + j) = f j) -> 0 < cap ->
  forall h n, cap <= n * 2 ^ Z.of_nat h -> (n + 1) * 2 ^ Z.of_nat h <= 2 * cap ->
  gv 0 (sg_val t) n = prefix_sum f ((n + 1) * 2 ^ Z.of_nat h - cap) - prefix_sum f (n * 2 ^ Z.of_nat h - cap).
Proof.
  intros G Lf Hc. induction h as [|h IH]; intros n Hn Hn2.
  - change (2 ^ Z.of_nat 0) with 1 in *. replace ((n + 1) * 1 - cap) with (n * 1 - cap + 1) by lia.
    rewrite prefix_sum_succ by lia. rewrite <- Lf by lia. replace (cap + (n * 1 - cap)) with n by lia. lia.
  - rewrite Nat2Z.inj_succ, Z.pow_succ_r in * by lia.
    assert (P : 0 < 2 ^ Z.of_nat h) by (apply Z.pow_pos_nonneg; lia).
    assert (Hb : 1 <= n < cap) by nia.
    rewrite (g_nodes G Hb). rewrite (IH (2 * n)), (IH (2 * n + 1)) by nia.
    replace ((2 * n + 1 + 1) * 2 ^ Z.of_nat h) with ((n + 1) * (2 * 2 ^ Z.of_nat h)) by lia.
    replace (2 * n * 2 ^ Z.of_nat h) with (n * (2 * 2 ^ Z.of_nat h)) by lia. lia.
Qed.

Lemma find_loop_spec cap t f p : good 0 Z.add cap t ->
  (forall j, 0 <= j < cap -> gv 0 (sg_val t) (cap + j) = f j) -> 0 < cap ->
  forall h fuel n, (h < fuel)%nat -> cap <= n * 2 ^ Z.of_nat h -> (n + 1) * 2 ^ Z.of_nat h <= 2 * cap ->
  let lo := n * 2 ^ Z.of_nat h - cap in let hi := (n + 1) * 2 ^ Z.of_nat h - cap in
  prefix_sum f lo <= p -> (hi = cap \/ p < prefix_sum f hi) ->
  exists i, find_loop fuel t n (p - prefix_sum f lo) = Ok i /\ lo <= i < hi /\
    prefix_sum f i <= p /\ (i = cap - 1 \/ p < prefix_sum f (i + 1)).
Proof.
  intros G Lf Hc. induction h as [|h IH]; intros fuel n Hfu Hn Hn2 lo hi H1 H2;
    (destruct fuel as [|r]; [lia|]); cbn [find_loop]; rewrite (g_cap G).
  - change (2 ^ Z.of_nat 0) with 1 in *. destruct (Z.ltb_spec n cap); [lia|].
    exists (n - cap). split; auto. split; [lia|]. replace (n - cap) with lo by lia. split; auto.
    replace (lo + 1) with hi by lia. destruct H2; [left; lia|auto].
  - assert (P : 0 < 2 ^ Z.of_nat h) by (apply Z.pow_pos_nonneg; lia).
    subst hi; subst lo. rewrite Nat2Z.inj_succ, Z.pow_succ_r in * by lia.
    set (q := 2 ^ Z.of_nat h) in *.
    assert (Hb : 1 <= n < cap) by nia. destruct (Z.ltb_spec n cap); [|lia].
    rewrite (pyindex_gv 0) by (rewrite (g_len G); lia). cbn [rbind].
    rewrite (@node_sum cap t f G Lf Hc h (2 * n)) by (fold q; nia). fold q.
    replace (2 * n * q) with (n * (2 * q)) by lia.
    replace ((2 * n + 1) * q - cap) with (n * (2 * q) - cap + q) by lia.
    set (lo := n * (2 * q) - cap) in *.
    destruct (Z.ltb_spec (p - prefix_sum f lo) (prefix_sum f (lo + q) - prefix_sum f lo)).
    + destruct (IH r (2 * n)) as (i & Ei & Hi & A1 & A2).
      * lia.
      * lia.
      * nia.
      * replace (2 * n * q - cap) with lo by lia. auto.
      * right. replace ((2 * n + 1) * q - cap) with (lo + q) by lia. lia.
      * replace (2 * n * q - cap) with lo in * by lia. exists i. split; auto. split; [nia|]. auto.
    + destruct (IH r (2 * n + 1)) as (i & Ei & Hi & A1 & A2).
      * lia.
      * nia.
      * nia.
      * replace ((2 * n + 1) * q - cap) with (lo + q) by lia. lia.
      * replace ((2 * n + 1 + 1) * q - cap) with ((n + 1) * (2 * q) - cap) by lia. auto.
      * replace ((2 * n + 1) * q - cap) with (lo + q) in * by lia. exists i.
        replace (p - prefix_sum f lo - (prefix_sum f (lo + q) - prefix_sum f lo)) with (p - prefix_sum f (lo + q)) by lia.
        split; auto. split; [nia|]. auto.
Qed.

Lemma fold_range_sum f a n : 0 <= a ->
  fold_range Z.add f a n = prefix_sum f (a + Z.of_nat n + 1) - prefix_sum f a.
Proof.
  intros Ha. induction n as [|n IH].
  - unfold fold_range. cbn [seq map fold1]. rewrite Z.add_0_r, prefix_sum_succ by auto. lia.
  - replace (S n) with (n + 1)%nat by lia. rewrite (@fold_range_split Z Z.add); [|intros x y z; lia].
    rewrite IH. unfold fold_range. cbn [seq map fold1].
    replace (a + Z.of_nat (n + 1) + 1) with (a + Z.of_nat n + 1 + 1) by lia. rewrite (@prefix_sum_succ f (a + Z.of_nat n + 1)) by lia.
    replace (a + 1 + Z.of_nat n) with (a + Z.of_nat n + 1) by lia. lia.
Qed.

Lemma find_prefixsum_spec cap t h limit tol p : sum_new cap = Ok t -> in_range cap h ->
  Z.log2 cap < Z.of_nat limit ->
  let f := last_value 0 h in
  (0 <= p <= prefix_sum f cap + tol ->
   exists i, find_prefixsum_idx limit tol (seg_sets t h) p = Ok i /\ 0 <= i < cap /\
     prefix_sum f i <= p /\ (i = cap - 1 \/ p < prefix_sum f (i + 1))) /\
  (~ 0 <= p <= prefix_sum f cap + tol ->
   find_prefixsum_idx limit tol (seg_sets t h) p = Err AssertionError).
Proof.
  intros E R Hl f.
  assert (E00 : 0 + 0 = 0) by lia.
  destruct (@seg_new_good Z Z.add 0 cap t E00 E) as (Hc & G & G0).
  destruct (proj1 (@seg_new_iff Z Z.add 0 cap) (ex_intro _ t E)) as (k & Hk & Ek).
  destruct (@seg_sets_spec Z 0 Z.add cap h t Hc G R) as (G1 & L1).
  assert (Ht : seg_reduce limit (seg_sets t h) 0 None = Ok (prefix_sum f cap)).
  { rewrite (@seg_reduce_spec Z Z.add 0 ltac:(intros x y z; lia) cap t h 0 None limit E00 E R) by lia.
    f_equal. rewrite fold_range_sum by lia. change (last_value 0 h) with f.
    replace (0 + Z.of_nat (Z.to_nat (cap - 0) - 1) + 1) with cap by lia. change (prefix_sum f 0) with 0. lia. }
  unfold find_prefixsum_idx. rewrite Ht. cbn [rbind]. split.
  - intros [P1 P2]. destruct (Z.leb_spec 0 p); [|lia]. destruct (Z.leb_spec p (prefix_sum f cap + tol)); [|lia]. cbn [andb].
    rewrite (g_cap G1).
    pose proof (@find_loop_spec cap (seg_sets t h) f p G1) as FL.
    specialize (FL ltac:(intros j Hj; rewrite L1, G0 by auto; auto) Hc (Z.to_nat k) (Z.to_nat cap + 1)%nat 1).
    rewrite Z2Nat.id in FL by lia. rewrite <- Ek in FL. cbv zeta in FL.
    replace (1 * cap - cap) with 0 in FL by lia. replace ((1 + 1) * cap - cap) with cap in FL by lia.
    change (prefix_sum f 0) with 0 in FL. rewrite Z.sub_0_r in FL. apply FL; try lia.
    assert (k < cap) by (rewrite Ek; apply Z.pow_gt_lin_r; lia). lia.
  - intros Np. destruct (Z.leb_spec 0 p); auto. destruct (Z.leb_spec p (prefix_sum f cap + tol)); auto. lia.
Qed.

Lemma find_highest cap t h limit tol p : sum_new cap = Ok t -> in_range cap h ->
  Z.log2 cap < Z.of_nat limit ->
  let f := last_value 0 h in (forall k, 0 <= k < cap -> 0 <= f k) ->
  0 <= p <= prefix_sum f cap + tol ->
  exists i, find_prefixsum_idx limit tol (seg_sets t h) p = Ok i /\ 0 <= i < cap /\
    prefix_sum f i <= p /\ forall j, i < j < cap -> p < prefix_sum f j.
Proof.
  intros E R Hl f Hf Hp. destruct (@find_prefixsum_spec cap t h limit tol p E R Hl) as [FS _].
  destruct (FS Hp) as (i & Ei & Hi & A1 & A2). exists i. split; auto. split; auto. split; auto.
  intros j Hj. destruct A2 as [->|A2]; [lia|]. pose proof (@prefix_sum_mono f cap (i + 1) j Hf). fold f in A2. lia.
Qed.

Lemma find_interval cap t h limit tol p i : sum_new cap = Ok t -> in_range cap h ->
  Z.log2 cap < Z.of_nat limit -> 0 <= tol ->
  let f := last_value 0 h in (forall k, 0 <= k < cap -> 0 <= f k) ->
  0 <= p < prefix_sum f cap ->
  (find_prefixsum_idx limit tol (seg_sets t h) p = Ok i <->
   0 <= i < cap /\ prefix_sum f i <= p < prefix_sum f i + f i).
Proof.
  intros E R Hl Ht f Hf Hp. destruct (@find_prefixsum_spec cap t h limit tol p E R Hl) as [FS _].
  fold f in FS. destruct (FS ltac:(lia)) as (i0 & Ei & Hi & A1 & A2).
  assert (B : p < prefix_sum f i0 + f i0).
  { rewrite <- prefix_sum_succ by lia. destruct A2 as [->|A2]; auto. replace (cap - 1 + 1) with cap by lia. lia. }
  rewrite Ei. split.
  - intros X; injection X as <-. split; auto.
  - intros (Hi' & B1 & B2). f_equal. rewrite <- prefix_sum_succ in B, B2 by lia.
    destruct (Z.lt_trichotomy i0 i) as [L|[L|L]]; auto; exfalso.
    + pose proof (@prefix_sum_mono f cap (i0 + 1) i Hf). lia.
    + pose proof (@prefix_sum_mono f cap (i + 1) i0 Hf). lia.
Qed.

(** ** C42 *)
Lemma set_outside {A} (op : A -> A -> A) e cap t h i v : seg_new cap op e = Ok t -> in_range cap h ->
  cap <= i \/ i < - 3 * cap -> seg_set (seg_sets t h) i v = (seg_sets t h, Err IndexError).
Proof.
  intros E R Hi. apply seg_new_eq in E as [Hc ->].
  set (t := mkSeg cap (repeat e (Z.to_nat (2 * cap))) op).
  assert (S0 : sized op cap t) by (split; cbn [t sg_cap sg_op sg_val]; auto; unfold zlen; rewrite repeat_length; lia).
  destruct (@seg_sets_array A op e cap h t Hc S0 R) as ([C1 C2 C3] & _).
  unfold seg_set. rewrite C1. rewrite pyset_error; auto. lia.
Qed.

Lemma set_negative {A} (op : A -> A -> A) e cap t h i v : seg_new cap op e = Ok t -> in_range cap h ->
  - 3 * cap <= i < 0 -> snd (seg_set (seg_sets t h) i v) = Ok tt.
Proof.
  intros E R Hi. apply seg_new_eq in E as [Hc ->].
  set (t := mkSeg cap (repeat e (Z.to_nat (2 * cap))) op).
  assert (S0 : sized op cap t) by (split; cbn [t sg_cap sg_op sg_val]; auto; unfold zlen; rewrite repeat_length; lia).
  destruct (@seg_sets_array A op e cap h t Hc S0 R) as ([C1 C2 C3] & _).
  unfold seg_set. rewrite C1.
  assert (Ep : exists vs, pyset (sg_val (seg_sets t h)) (i + cap) v = Ok vs /\ zlen vs = 2 * cap).
  { unfold pyset. rewrite C3.
    assert (Hj : exists j, (if i + cap <? 0 then i + cap + 2 * cap else i + cap) = j /\ 0 <= j < 2 * cap).
    { eexists. split; [reflexivity|]. destruct (Z.ltb_spec (i + cap) 0); lia. }
    destruct Hj as (j & -> & Hj). destruct (Z.leb_spec 0 j); [|lia]. destruct (Z.ltb_spec j (2 * cap)); [|lia]. cbn [andb].
    eexists. split; [reflexivity|]. unfold zlen in *. rewrite app_length. cbn [List.length].
    rewrite firstn_length_le, skipn_length by lia. lia. }
  destruct Ep as (vs & -> & L). destruct ((i + cap) / 2) as [|p|p] eqn:Ed; auto.
  pose proof (Z_div_mod_eq_full (i + cap) 2). pose proof (Z.mod_pos_bound (i + cap) 2).
  destruct (@seg_up_total A op e cap p vs) as (vs' & E' & _); [lia|lia|].
  rewrite C2, E'. auto.
Qed.

Lemma reduce_empty_range {A : Type} (op : A -> A -> A) (e : A) (cap : Z) (t : seg A) (h : list (Z * A))
    (start : Z) (stop : Z) (limit : nat) :
  seg_new cap op e = Ok t -> in_range cap h -> 0 <= stop <= start ->
  seg_reduce limit (seg_sets t h) start (Some stop) = Err RecursionError.
Proof.
  intros E R Hs. unfold seg_reduce.
  assert (Ec : sg_cap (seg_sets t h) = cap /\ 0 < cap).
  { apply seg_new_eq in E as [Hc ->]. split; [|exact Hc]. unfold seg_sets.
    assert (G : forall (l : list (Z * A)) (u : seg A), sg_cap u = cap -> sg_cap (fold_left (fun t iv => fst (seg_set t (fst iv) (snd iv))) l u) = cap).
    { induction l as [|[i v] r IH]; intros u Eu; [exact Eu|]. cbn [fold_left]. apply IH.
      unfold seg_set. rewrite Eu. destruct (pyset _ _ _); [|exact Eu].
      destruct ((_ + cap) / 2); [exact eq_refl| |exact eq_refl]. destruct (seg_up _ _ _); exact eq_refl. }
    apply G. reflexivity. }
  destruct Ec as [-> Hc]. destruct (Z.ltb_spec stop 0); [lia|]. apply reduce_empty; lia.
Qed.
