(** * NumTarget: Q-targets of sampled batches (C63) *)
From Coq Require Import Reals Lra.
From Verif Require Import Py PyLemmas MemModel MemSpec MemProofs MemRun MemSample MemSample4 NumModel NumSpec NumProofs NumMatrix.
Set Implicit Arguments.
Unset Strict Implicit.
Open Scope list_scope.
Open Scope R_scope.

Lemma skipn_twice {A} b : forall a (l : list A), skipn a (skipn b l) = skipn (b + a) l.
Proof. induction b as [|b IH]; intros a l; [reflexivity|]. destruct l; [rewrite skipn_nil; destruct a; reflexivity|]. simpl. apply IH. Qed.
Lemma chunks_nth {A} size : forall n (data : list A) i, (i < n)%nat -> nth_error (chunks n size data) i = Some (firstn size (skipn (i * size) data)).
Proof.
  induction n as [|n IH]; intros data i H; [lia|]. destruct i as [|i]; [reflexivity|]. cbn [chunks nth_error].
  rewrite IH by lia. cbn [Nat.mul]. rewrite skipn_twice. reflexivity.
Qed.
Lemma chunks_length {A} size n (data : list A) : List.length (chunks n size data) = n.
Proof. revert data. induction n; intros; simpl; auto. Qed.
Lemma split_rest {A} (data : list A) L : (forall n, List.length data <> (n * L)%nat) -> exists e, split_rollouts data L = Err e.
Proof.
  intros H. unfold split_rollouts. cbv zeta. destruct (Nat.eqb L 0); eauto.
  destruct (Nat.eqb_spec (Nat.mul (Nat.div (List.length data) L) L) (List.length data)) as [E|E]; eauto.
  exfalso. apply (H (Nat.div (List.length data) L)). auto.
Qed.
Lemma split_ok {A} (data : list A) n L : (1 <= L)%nat -> List.length data = (n * L)%nat -> split_rollouts data L = Ok (chunks n L data).
Proof.
  intros HL E. unfold split_rollouts. cbv zeta. rewrite E, Nat.div_mul by lia.
  destruct (Nat.eqb_spec L 0); [lia|]. rewrite Nat.eqb_refl. reflexivity.
Qed.
Lemma zip_mult_nth a : forall b i x y, nth_error a i = Some x -> nth_error b i = Some y -> nth_error (zip_mult a b) i = Some (x * y).
Proof. induction a as [|u a IH]; intros [|v b] [|i] x y; simpl; try discriminate; auto. congruence. Qed.
Lemma zip_mult_length a : forall b, List.length a = List.length b -> List.length (zip_mult a b) = List.length a.
Proof. induction a as [|u a IH]; intros [|v b] H; simpl in *; try discriminate; auto. Qed.
Lemma multiply_ok a b : List.length a = List.length b -> exists m, multiply a b = Ok m /\ List.length m = List.length a
  /\ forall i x y, nth_error a i = Some x -> nth_error b i = Some y -> nth_error m i = Some (x * y).
Proof.
  intros H. assert (G : exists m, (if Nat.eqb (List.length a) (List.length b) then Ok (zip_mult a b) else Err RuntimeError) = Ok m /\ List.length m = List.length a
  /\ forall i x y, nth_error a i = Some x -> nth_error b i = Some y -> nth_error m i = Some (x * y)).
  { rewrite H, Nat.eqb_refl, <- H. exists (zip_mult a b). split; auto. split; [apply zip_mult_length; auto|]. apply zip_mult_nth. }
  destruct a as [|x [|x2 a]]; destruct b as [|y [|y2 b]]; try discriminate H; try exact G.
Qed.

Section T.
Context {S : Type} {HS : Scalar S}.
Variable num : S -> R.
Hypothesis num0 : num s_zero = 0.
Hypothesis num1 : num s_one = 1.

Lemma nth_rows (rows : array S) i o : nth_error rows i = o -> nth i rows [] = row_or_empty o.
Proof. intros <-. revert i. induction rows; intros [|i]; simpl; auto. Qed.
Lemma row_by_row_nth value (obs : list (list (row (S:=S)))) i o : nth_error obs i = Some o ->
  nth_error (row_by_row value obs) i = Some (value i o).
Proof.
  intros H. unfold row_by_row. rewrite nth_error_map.
  assert (G : forall (l : list (list (row (S:=S)))) s j, nth_error l j = Some o -> nth_error (combine (seq s (List.length l)) l) j = Some ((s + j)%nat, o)).
  { clear. induction l as [|a l IH]; intros s [|j] H; simpl in *; try discriminate.
    - injection H as ->. do 2 f_equal. lia.
    - rewrite (IH (Datatypes.S s) j H). do 2 f_equal. lia. }
  rewrite (G obs 0%nat i H). reflexivity.
Qed.
Lemma row_by_row_length value (obs : list (list (row (S:=S)))) : List.length (row_by_row value obs) = List.length obs.
Proof. unfold row_by_row. rewrite map_length, combine_length, seq_length. lia. Qed.

Lemma target_ok cols lk maxlen s e ops count L draws out gamma scale masking reward nexts mask value :
  sampling_ok cols lk s e ops L ->
  let t := run (t_create cols lk maxlen s e) ops in
  snd (t_sample t count L draws) = Ok out ->
  In reward cols -> is_base reward ->
  Forall (fun p => In (fst p) cols /\ (c_kind (fst p) = KVirt (c_name (snd p)) MNextLast \/ c_kind (fst p) = KVirt (c_name (snd p)) MNext /\ L = 1%nat)
                   /\ In (snd p) cols /\ is_base (snd p)) nexts ->
  In mask cols -> (exists tg, c_kind mask = KVirt tg MMask) ->
  exists ws qt, batch_of t lk count L ws
    /\ q_target gamma scale L masking (row_by_row value) (observations out (map (fun p => c_name (fst p)) nexts) count)
         (numbers num out (c_name reward)) (numbers num out (c_name mask)) = Ok qt
    /\ List.length qt = (count * L)%nat
    /\ forall i w t, nth_error ws i = Some w -> (t < L)%nat ->
         nth_error qt (i * L + t) = Some (target_of num gamma scale L masking lk reward (map snd nexts) value i w t).
Proof.
  intros So t Eo Ir Br Nx Im (tg & Km). pose proof So as (C & _ & _ & _ & HL & _).
  destruct (@sample_whole S HS cols lk maxlen s e ops count L draws out So Eo) as (ws & Bt & F).
  pose proof Bt as [Lw _]. rewrite Forall_forall in F.
  pose proof (F reward Ir) as Fr. unfold column_of_batch in Fr. rewrite Br in Fr. destruct Fr as (rrows & Er & Lr & Hr).
  pose proof (F mask Im) as Fm. unfold column_of_batch in Fm. rewrite Km in Fm.
  destruct Fm as (dm & mrows & _ & _ & _ & Em & Lm & Hm).
  assert (En : numbers num out (c_name reward) = map (number num) rrows) by (unfold numbers, dget_default; rewrite Er; auto).
  assert (Emn : numbers num out (c_name mask) = map (number num) mrows) by (unfold numbers, dget_default; rewrite Em; auto).
  rewrite En, Emn. rewrite Lw in Lr, Lm.
  set (obs := observations out (map (fun p => c_name (fst p)) nexts) count).
  assert (Ob : forall i w, nth_error ws i = Some w -> nth_error obs i =
     Some (map (fun c => row_or_empty (row_at (column_data c (w_seq w)) (w_start w + Z.of_nat L)%Z)) (map snd nexts))).
  { intros i w Hi. assert (Hc : (i < count)%nat) by (rewrite <- Lw; apply nth_error_Some; congruence).
    unfold obs, observations. rewrite nth_error_map. rewrite nth_error_nth' with (d := 0%nat) by (rewrite seq_length; auto).
    rewrite seq_nth by auto. cbn [option_map Nat.add]. f_equal. rewrite !map_map. apply map_ext_in. intros [c d] Icd.
    rewrite Forall_forall in Nx. destruct (Nx _ Icd) as (Ic & K & Id & Bd). cbn [fst snd] in *.
    pose proof (F c Ic) as Fc. unfold column_of_batch in Fc.
    assert (Ed : forall d', In d' cols -> c_name d' = c_name d -> d' = d).
    { intros d' Id' E. pose proof (co_names C) as ND. clear -ND Id Id' E. induction cols as [|a r IH]; [destruct Id|].
      simpl in ND. inversion ND; subst. destruct Id as [->|Id], Id' as [->|Id']; auto.
      - exfalso. apply H1. rewrite <- E. apply in_map. auto.
      - exfalso. apply H1. rewrite E. apply in_map. auto. }
    destruct K as [K|[K EL]]; rewrite K in Fc.
    - destruct Fc as (d' & rows & Id' & Ed' & _ & Eg & _ & Hn). rewrite (Ed d' Id' Ed') in Hn.
      unfold dget_default. rewrite Eg. apply nth_rows. apply Hn. auto.
    - destruct Fc as (d' & rows & Id' & Ed' & _ & Eg & _ & Hn). rewrite (Ed d' Id' Ed') in Hn.
      unfold dget_default. rewrite Eg. apply nth_rows. destruct (Hn i 0%nat w Hi ltac:(lia)) as [H1 _].
      subst L. replace (i * 1 + 0)%nat with i in H1 by lia. rewrite H1. f_equal. lia. }
  assert (Lo : List.length obs = count) by (unfold obs, observations; rewrite map_length, seq_length; auto).
  set (val := row_by_row value obs).
  assert (Lv : List.length val = count) by (unfold val; rewrite row_by_row_length; auto).
  unfold q_target. cbv zeta. fold val.
  rewrite (@split_ok _ (map (number num) mrows) count L HL) by (rewrite map_length; lia). cbn [rbind].
  rewrite (@split_ok _ (map (Rmult scale) (map (number num) rrows)) count L HL) by (rewrite !map_length; lia). cbn [rbind].
  set (lm := map (fun row => last row 0) (chunks count L (map (number num) mrows))).
  assert (Llm : List.length lm = count) by (unfold lm; rewrite map_length, chunks_length; auto).
  assert (Hlm : forall i w, nth_error ws i = Some w ->
     nth_error lm i = Some (if (w_start w + Z.of_nat L =? seq_len lk (w_seq w))%Z then 0 else 1)).
  { intros i w Hi. assert (Hc : (i < count)%nat) by (rewrite <- Lw; apply nth_error_Some; congruence).
    unfold lm. rewrite nth_error_map, chunks_nth by auto. cbn [option_map]. f_equal.
    specialize (Hm i (L - 1)%nat w Hi ltac:(lia)). cbv zeta in Hm.
    replace (w_start w + Z.of_nat (L - 1) =? seq_len lk (w_seq w) - 1)%Z with (w_start w + Z.of_nat L =? seq_len lk (w_seq w))%Z in Hm.
    2:{ destruct (Z.eqb_spec (w_start w + Z.of_nat L) (seq_len lk (w_seq w))), (Z.eqb_spec (w_start w + Z.of_nat (L - 1)) (seq_len lk (w_seq w) - 1)); auto; lia. }
    assert (Ln : forall (l : list R), l <> [] -> last l 0 = nth (List.length l - 1) l 0).
    { clear. induction l as [|a l IH]; intros H; [congruence|]. destruct l as [|b l]; [reflexivity|].
      change (last (a :: b :: l) 0) with (last (b :: l) 0). rewrite IH by discriminate. simpl. rewrite Nat.sub_0_r. destruct (List.length l); reflexivity. }
    assert (Lf : List.length (firstn L (skipn (i * L) (map (number num) mrows))) = L).
    { rewrite firstn_length, skipn_length, map_length, Lm. assert ((i + 1) * L <= count * L)%nat by (apply Nat.mul_le_mono_r; lia). lia. }
    rewrite Ln by (intros X; rewrite X in Lf; simpl in Lf; lia). rewrite Lf.
    assert (Nf : forall (l : list R) k n, (k < n)%nat -> nth k (firstn n l) 0 = nth k l 0).
    { clear. induction l as [|a l IH]; intros [|k] [|n] H; simpl; try lia; auto. apply IH. lia. }
    rewrite Nf by lia.
    assert (Ns : forall (l : list R) k n, nth k (skipn n l) 0 = nth (n + k) l 0).
    { clear. induction l as [|a l IH]; intros k [|n]; simpl; auto. destruct k; auto. }
    rewrite Ns. apply nth_error_nth. rewrite nth_error_map, Hm. cbn [option_map]. f_equal. unfold number. cbn [hd].
    destruct (Z.eqb (w_start w + Z.of_nat L) (seq_len lk (w_seq w))); auto. }
  assert (Vx : exists val', (if masking then multiply val lm else Ok val) = Ok val' /\ List.length val' = count
     /\ forall i w, nth_error ws i = Some w -> nth_error val' i = Some
          (if andb masking (w_start w + Z.of_nat L =? seq_len lk (w_seq w))%Z then 0
           else value i (map (fun c => row_or_empty (row_at (column_data c (w_seq w)) (w_start w + Z.of_nat L)%Z)) (map snd nexts)))).
  { destruct masking.
    - destruct (@multiply_ok val lm) as (m & E & El & Hmm); [lia|]. exists m. split; auto. split; [lia|].
      intros i w Hi. rewrite (Hmm i _ _ (row_by_row_nth value (Ob i w Hi)) (Hlm i w Hi)). cbn [andb]. f_equal.
      destruct (Z.eqb _ _); ring.
    - exists val. split; auto. split; auto. intros i w Hi. cbn [andb]. apply row_by_row_nth. auto. }
  destruct Vx as (val' & -> & Lv' & Hv'). cbn [rbind].
  set (rs := chunks count L (map (Rmult scale) (map (number num) rrows))).
  assert (Hrs : forall i w, nth_error ws i = Some w -> nth_error rs i =
     Some (map (fun k => scale * number num (row_or_empty (row_at (column_data reward (w_seq w)) (w_start w + Z.of_nat k)%Z))) (seq 0 L))).
  { intros i w Hi. assert (Hc : (i < count)%nat) by (rewrite <- Lw; apply nth_error_Some; congruence).
    unfold rs. rewrite chunks_nth by auto. f_equal.
    assert (Hb : ((i + 1) * L <= count * L)%nat) by (apply Nat.mul_le_mono_r; lia).
    apply (nth_ext _ _ 0 0).
    - rewrite firstn_length, skipn_length, !map_length, seq_length, Lr. lia.
    - intros k Hk. rewrite firstn_length, skipn_length, !map_length, Lr in Hk.
      assert (Hk' : (k < L)%nat) by lia.
      assert (Nf : forall (l : list R) k n, (k < n)%nat -> nth k (firstn n l) 0 = nth k l 0).
      { clear. induction l as [|a l IH]; intros [|k] [|n] H; simpl; try lia; auto. apply IH. lia. }
      assert (Ns : forall (l : list R) k n, nth k (skipn n l) 0 = nth (n + k) l 0).
      { clear. induction l as [|a l IH]; intros k [|n]; simpl; auto. destruct k; auto. }
      rewrite Nf, Ns by auto. destruct (Hr i k w Hi Hk') as [H1 _].
      rewrite map_map. rewrite nth_indep with (d' := (fun x => scale * number num x) []) by (rewrite map_length, Lr; lia).
      rewrite (map_nth (fun x => scale * number num x)). rewrite (nth_rows H1).
      rewrite nth_indep with (d' := (fun k => scale * number num (row_or_empty (row_at (column_data reward (w_seq w)) (w_start w + Z.of_nat k)%Z))) 0%nat) by (rewrite map_length, seq_length; auto).
      rewrite (map_nth (fun k => scale * number num (row_or_empty (row_at (column_data reward (w_seq w)) (w_start w + Z.of_nat k)%Z)))).
      rewrite seq_nth by auto. reflexivity. }
  assert (Lrs : List.length rs = count) by apply chunks_length.
  assert (Frs : Forall (fun r => List.length r = L) rs).
  { apply Forall_forall. intros r I. apply In_nth_error in I. destruct I as [i Hi].
    assert (Hc : (i < List.length rs)%nat) by (apply nth_error_Some; congruence). rewrite Lrs, <- Lw in Hc.
    apply nth_error_Some in Hc. destruct (nth_error ws i) as [w|] eqn:Ew; [|congruence].
    rewrite (Hrs i w Ew) in Hi. injection Hi as <-. rewrite map_length, seq_length. auto. }
  destruct (@discount_ok gamma L rs val' HL Frs) as (qt & Eq & Lq & Hq); [lia|].
  exists ws, qt. split; auto. rewrite Eq. cbn [rbind].
  rewrite !map_length, Lr. rewrite Lrs in Lq. rewrite Lq, Nat.eqb_refl. split; auto. split; auto.
  intros i w k Hi Hk. rewrite (Hq i k _ _ (Hrs i w Hi) (Hv' i w Hi) Hk). reflexivity.
Qed.
End T.
