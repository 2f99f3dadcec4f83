(** * AmpProofs: lemmas about AmpModel *)
From Coq Require Import Reals Lra Lia.
From Verif Require Import Py PyLemmas NumModel NumProofs NumMatrix NumTarget AmpModel AmpSpec.
Open Scope list_scope.
Open Scope R_scope.
Set Implicit Arguments.
Unset Strict Implicit.

(** ** Reshaping *)
Lemma concat_len {A} d (m : list (list A)) : Forall (fun row => List.length row = d) m ->
  List.length (concat m) = (List.length m * d)%nat.
Proof. induction 1; cbn; [auto|]. rewrite app_length, IHForall. lia. Qed.
Lemma chunks_concat {A} d (m : list (list A)) : Forall (fun row => List.length row = d) m ->
  chunks (List.length m) d (concat m) = m.
Proof.
  induction 1 as [|row m E F IH]; cbn; [auto|].
  rewrite firstn_app, skipn_app, E, Nat.sub_diag, firstn_O, app_nil_r. cbn.
  rewrite firstn_all2 by lia. rewrite skipn_all2 by lia. cbn. rewrite IH. auto.
Qed.
Lemma concat_concat {A} (g : list (list (list A))) : concat (concat g) = concat (map (@concat A) g).
Proof. induction g; cbn; [auto|]. rewrite concat_app, IHg. auto. Qed.
Lemma concat_chunks {A} n L (l : list A) : List.length l = (n * L)%nat -> concat (chunks n L l) = l.
Proof.
  revert l. induction n as [|n IH]; intros l E; cbn.
  - destruct l; [auto|discriminate].
  - rewrite IH; [apply firstn_skipn|]. rewrite skipn_length. lia.
Qed.
Lemma chunks_sized {A} n L (l : list A) : List.length l = (n * L)%nat -> Forall (fun g => List.length g = L) (chunks n L l).
Proof.
  revert l. induction n as [|n IH]; intros l E; cbn; constructor.
  - rewrite firstn_length. lia.
  - apply IH. rewrite skipn_length. lia.
Qed.
Lemma Forall_firstn {A} (P : A -> Prop) n l : Forall P l -> Forall P (firstn n l).
Proof. intros F. revert n. induction F; intros [|n]; cbn; auto. Qed.
Lemma Forall_skipn {A} (P : A -> Prop) n l : Forall P l -> Forall P (skipn n l).
Proof. intros F. revert n. induction F; intros [|n]; cbn; auto. Qed.
Lemma chunks_forall {A} (P : A -> Prop) n L (l : list A) : Forall P l -> Forall (Forall P) (chunks n L l).
Proof.
  revert l. induction n as [|n IH]; intros l F; cbn; constructor.
  - apply Forall_firstn; auto.
  - apply IH, Forall_skipn; auto.
Qed.

Lemma reshape3_rows n L d (obs : matrix) : (1 <= n)%nat -> (1 <= L)%nat -> List.length obs = (n * L)%nat -> rows_of d obs ->
  reshape3 n L (concat obs) = Ok (chunks n L obs).
Proof.
  intros N LL E W. unfold reshape3. rewrite (concat_len W), E.
  destruct (Nat.eqb_spec (n * L) 0); [nia|].
  rewrite (Nat.mul_comm (n * L) d), Nat.mod_mul by lia. cbn [Nat.eqb].
  rewrite Nat.div_mul by lia. f_equal.
  rewrite <- (concat_chunks E) at 1. rewrite concat_concat.
  pose proof (chunks_sized E) as SZ. pose proof (chunks_forall n L W) as FF.
  assert (GG : Forall (fun l => List.length l = (L * d)%nat) (map (@concat R) (chunks n L obs))).
  { apply Forall_forall. intros l I. apply in_map_iff in I as (g & <- & I).
    rewrite Forall_forall in SZ, FF. rewrite (concat_len (FF _ I)), (SZ _ I). auto. }
  pose proof (chunks_concat GG) as CC. rewrite map_length, chunks_length in CC. rewrite CC, map_map.
  rewrite <- (map_id (chunks n L obs)) at 2. apply map_ext_in. intros g I.
  rewrite Forall_forall in SZ, FF. pose proof (chunks_concat (FF _ I)) as H. rewrite (SZ _ I) in H. exact H.
Qed.
Lemma reshape2_rows d (m : matrix) : (1 <= List.length m)%nat -> rows_of d m ->
  reshape2 (List.length m) (concat m) = Ok m.
Proof.
  intros N W. unfold reshape2. rewrite (concat_len W).
  destruct (Nat.eqb_spec (List.length m) 0); [lia|].
  rewrite (Nat.mul_comm (List.length m) d), Nat.mod_mul by lia. cbn [Nat.eqb].
  rewrite Nat.div_mul by lia. rewrite (chunks_concat W). auto.
Qed.

Fixpoint add_final (g : list matrix) (final : matrix) : list matrix :=
  match g, final with m :: g', x :: f' => (m ++ [x]) :: add_final g' f' | _, _ => [] end.
Lemma cat_next_ok d g : forall final, List.length g = List.length final ->
  Forall (rows_of d) g -> rows_of d final -> cat_next g final = Ok (add_final g final).
Proof.
  induction g as [|m g IH]; intros [|x f] E F W; try discriminate; cbn; [auto|].
  inversion F as [|? ? Fm Fg]; inversion W as [|? ? Wx Wf]; subst.
  assert (HB : forallb (fun row => Nat.eqb (List.length row) (List.length x)) m = true).
  { apply forallb_forall. intros r I. apply Nat.eqb_eq. unfold rows_of in Fm. rewrite Forall_forall in Fm. auto. }
  rewrite HB, IH by (auto; lia). auto.
Qed.
Lemma nth_concat_uniform {A} L (g : list (list A)) i (d : A) : (1 <= L)%nat -> Forall (fun m => List.length m = L) g ->
  nth i (concat g) d = nth (i mod L) (nth (i / L) g []) d.
Proof.
  intros LL F. revert i. induction F as [|m g E F IH]; intros i; cbn.
  - destruct (i / L)%nat, (i mod L)%nat, i; auto.
  - destruct (Nat.lt_ge_cases i L).
    + rewrite Nat.div_small, Nat.mod_small by lia. apply app_nth1. lia.
    + rewrite app_nth2 by lia. rewrite IH, E.
      replace (i / L)%nat with (S ((i - L) / L)).
      * replace (i mod L)%nat with ((i - L) mod L)%nat; auto.
        rewrite <- (Nat.mod_add (i - L) 1 L) by lia. f_equal. lia.
      * replace i with ((i - L) + 1 * L)%nat at 2 by lia. rewrite Nat.div_add by lia. lia.
Qed.
Lemma add_final_length g : forall final, List.length g = List.length final -> List.length (add_final g final) = List.length g.
Proof. induction g; intros [|x f] E; cbn; try discriminate; auto. Qed.
Lemma add_final_nth g : forall final i, List.length g = List.length final -> (i < List.length g)%nat ->
  nth i (map (@tl (list R)) (add_final g final)) [] = tl (nth i g [] ++ [nth i final []]).
Proof.
  induction g as [|m g IH]; intros [|x f] [|i] E H; cbn in *; try discriminate; try lia; auto.
  apply IH; lia.
Qed.
Lemma add_final_sized L g : forall final, List.length g = List.length final -> Forall (fun m => List.length m = L) g ->
  Forall (fun m : matrix => List.length m = L) (map (@tl (list R)) (add_final g final)).
Proof.
  induction g as [|m g IH]; intros [|x f] E F; cbn in *; try discriminate; constructor.
  - inversion F. destruct m; cbn in *; [lia|]. rewrite app_length. cbn. lia.
  - inversion F. apply IH; auto.
Qed.
Lemma add_final_width d g : forall final, List.length g = List.length final -> Forall (rows_of d) g -> rows_of d final ->
  Forall (rows_of d) (map (@tl (list R)) (add_final g final)).
Proof.
  induction g as [|m g IH]; intros [|x f] E F W; cbn in *; try discriminate; constructor.
  - inversion F as [|? ? Fm Fg]; inversion W; subst. destruct m as [|a m]; cbn; [constructor|].
    inversion Fm; subst. apply Forall_app; split; auto.
  - inversion F; inversion W; subst. apply IH; auto.
Qed.
Lemma Forall_concat_rows d (g : list matrix) : Forall (rows_of d) g -> rows_of d (concat g).
Proof. induction 1; cbn; [constructor|]. apply Forall_app. auto. Qed.

Lemma map_nth_seq {A} (l : list A) d : map (fun i => nth i l d) (seq 0 (List.length l)) = l.
Proof.
  induction l as [|x l IH]; cbn; [auto|]. rewrite <- seq_shift, map_map. f_equal. apply IH.
Qed.
(** The rows the code puts after the observations are the following ones. *)
Lemma following_rows n L d (obs final : matrix) : (1 <= n)%nat -> (1 <= L)%nat ->
  List.length obs = (n * L)%nat -> rows_of d obs -> List.length final = n -> rows_of d final ->
  exists c, cat_next (chunks n L obs) final = Ok c /\
    reshape2 (List.length obs) (concat (concat (map (@tl (list R)) c))) = Ok (map (following L obs final) (seq 0 (n * L))).
Proof.
  intros N LL E W EF WF.
  pose proof (chunks_sized E) as SZ. pose proof (chunks_forall n L W) as FF.
  assert (EL : List.length (chunks n L obs) = List.length final) by (rewrite chunks_length; auto).
  exists (add_final (chunks n L obs) final). split.
  - apply cat_next_ok with (d := d); auto.
  - set (t := map (@tl (list R)) (add_final (chunks n L obs) final)).
    assert (TL : List.length t = n) by (unfold t; rewrite map_length; etransitivity; [apply add_final_length; exact EL|]; etransitivity; [exact EL|exact EF]).
    assert (TS : Forall (fun m : matrix => List.length m = L) t) by (apply add_final_sized; auto).
    assert (TW : Forall (rows_of d) t) by (apply add_final_width; auto).
    assert (CL : List.length (concat t) = (n * L)%nat) by (rewrite (concat_len TS), TL; auto).
    rewrite E, <- CL. rewrite (@reshape2_rows d); [|nia|apply Forall_concat_rows; auto].
    f_equal. rewrite CL.
    rewrite <- (map_nth_seq (concat t) []) at 1. rewrite CL. apply map_ext_in. intros i I. apply in_seq in I.
    rewrite (nth_concat_uniform _ _ LL TS).
    assert (QD : (i / L < n)%nat) by (apply Nat.div_lt_upper_bound; lia).
    unfold t. rewrite add_final_nth; [|exact EL|].
    2:{ eapply Nat.lt_le_trans; [exact QD|]. apply Nat.eq_le_incl. symmetry. etransitivity; [exact EL|exact EF]. }
    unfold following. unfold matrix in *.
    assert (CI : nth (i / L) (chunks n L obs) [] = firstn L (skipn (i / L * L) obs)).
    { apply nth_error_nth. apply chunks_nth. auto. }
    assert (GS : List.length (nth (i / L) (chunks n L obs) []) = L).
    { rewrite Forall_forall in SZ. apply SZ. apply nth_In. rewrite chunks_length. auto. }
    pose proof (Nat.mod_upper_bound i L ltac:(lia)) as MU.
    pose proof (Nat.div_mod i L ltac:(lia)) as DM.
    replace (nth (i mod L) (tl (nth (i / L) (chunks n L obs) [] ++ [nth (i / L) final []])) [])
      with (nth (S (i mod L)) (nth (i / L) (chunks n L obs) [] ++ [nth (i / L) final []]) [])
      by (destruct (nth (i / L) (chunks n L obs) [] ++ [nth (i / L) final []]) as [|? ?]; cbn; [destruct (i mod L)%nat; auto|auto]).
    destruct (Nat.eqb_spec ((i + 1) mod L) 0) as [Z0|NZ].
    + assert (SL : S (i mod L) = L).
      { destruct (Nat.eq_dec (S (i mod L)) L) as [|NE]; auto. exfalso.
        assert ((i + 1) mod L = S (i mod L))%nat; [|lia].
        rewrite DM at 1. replace (L * (i / L) + i mod L + 1)%nat with (S (i mod L) + (i / L) * L)%nat by lia.
        rewrite Nat.mod_add by lia. apply Nat.mod_small. lia. }
      rewrite app_nth2 by lia. rewrite GS, SL, Nat.sub_diag. auto.
    + assert (SL : (S (i mod L) < L)%nat).
      { destruct (Nat.eq_dec (S (i mod L)) L) as [EQ|]; [|lia]. exfalso. apply NZ.
        rewrite DM. replace (L * (i / L) + i mod L + 1)%nat with ((i / L + 1) * L)%nat by lia.
        apply Nat.mod_mul. lia. }
      rewrite app_nth1 by lia. rewrite CI.
      assert (K : forall (l : matrix) m k, (k < m)%nat -> nth k (firstn m l) [] = nth k l []).
      { clear. intros l. induction l; intros [|m] [|k] H; cbn; auto; try lia. apply IHl. lia. }
      assert (K2 : forall (l : matrix) s k, nth k (skipn s l) [] = nth (s + k) l []).
      { clear. intros l. induction l; intros [|m] k; cbn; auto. destruct k; auto. }
      rewrite K, K2 by lia. f_equal. lia.
Qed.

Lemma cat_rows_map (f g : nat -> list R) l : cat_rows (map f l) (map g l) = Ok (map (fun i => f i ++ g i) l).
Proof. induction l; cbn; [auto|]. rewrite IHl. auto. Qed.
Lemma zip_rows_col f (a b : list nat) (p q : nat -> R) : a = b ->
  zip_rows f (map (fun i => [p i]) a) (map (fun i => [q i]) b) = map (fun i => [f (p i) (q i)]) a.
Proof. intros <-. induction a; cbn; [auto|]. rewrite IHa. auto. Qed.
Lemma same_shape_col (p q : nat -> R) l : same_shape (map (fun i => [p i]) l) (map (fun i => [q i]) l) = true.
Proof.
  unfold same_shape. destruct (list_eq_dec _ _ _) as [|N]; auto. exfalso. apply N.
  rewrite !map_map. auto.
Qed.

(** C88 *)
Lemma amp_total D S disc sm w L n d key group (observation next_observation : dict string matrix) (obs final : matrix) rewards :
  scores D disc -> each_row S sm -> (1 <= L)%nat -> (1 <= n)%nat ->
  dget observation key = Some obs -> dget next_observation key = Some final ->
  List.length obs = (n * L)%nat -> rows_of d obs -> List.length final = n -> rows_of d final ->
  List.length rewards = (n * L)%nat ->
  amp_begin_batch disc sm w L key group observation next_observation (T2 (col rewards)) =
    Ok [(group, [("rewards"%string,
      map (fun i => [nth i rewards 0 + w * style_bonus (D (S (nth i obs []) ++ S (following L obs final i)))])
          (seq 0 (n * L)))])].
Proof.
  intros HD HS LL N G1 G2 E W EF WF ER. unfold amp_begin_batch, lookup. rewrite G1. cbn [rbind].
  destruct (Nat.eqb_spec L 0); [lia|].
  replace (List.length obs / L)%nat with n by (rewrite E, Nat.div_mul; lia).
  rewrite (@reshape3_rows n L d) by auto. cbn [rbind]. rewrite G2. cbn [rbind].
  destruct (following_rows N LL E W EF WF) as (c & EC & ER2). rewrite EC. cbn [rbind]. rewrite ER2. cbn [rbind].
  rewrite !HS. rewrite <- (map_nth_seq obs []) at 1. rewrite E, !map_map, cat_rows_map. cbn [rbind].
  rewrite !HD, !map_map. cbn [map].
  assert (CR : col rewards = map (fun i => [nth i rewards 0]) (seq 0 (n * L))).
  { unfold col. rewrite <- (map_nth_seq rewards 0) at 1. rewrite ER, map_map. auto. }
  rewrite CR, same_shape_col, zip_rows_col by auto.
  do 5 f_equal. apply map_ext. intros i. unfold style, style_bonus. do 2 f_equal. field.
Qed.
Lemma style_top p : style_bonus p <= 1 /\ (style_bonus p = 1 <-> p = 1).
Proof. 
  unfold style_bonus. pose proof (Rle_0_sqr (p - 1)) as Q. unfold Rsqr in Q. split; [lra|].
  split; intros H; [|subst; lra]. assert (H0 : (p - 1) * (p - 1) = 0) by lra.
  apply Rmult_integral in H0. destruct H0; lra.
Qed.
Lemma style_low b : exists p, style_bonus p < b.
Proof.
  exists (Rabs b + 5). unfold style_bonus. pose proof (Rabs_pos b). pose proof (Rle_abs b).
  pose proof (Rle_abs (- b)). rewrite Rabs_Ropp in H1. nra.
Qed.

Lemma reshape3_width a b flat g : reshape3 a b flat = Ok g ->
  (1 <= a * b)%nat /\ List.length g = a /\ exists k, (k * (a * b) = List.length flat)%nat /\
  Forall (fun m => List.length m = b /\ rows_of k m) g.
Proof.
  unfold reshape3. destruct (Nat.eqb_spec (a * b) 0); [discriminate|].
  destruct (Nat.eqb_spec (List.length flat mod (a * b)) 0) as [Z0|]; [|discriminate].
  intros [= <-]. split; [lia|]. split; [rewrite map_length, chunks_length; auto|].
  exists (List.length flat / (a * b))%nat.
  pose proof (Nat.div_mod (List.length flat) (a * b) ltac:(lia)) as DM.
  set (k := (List.length flat / (a * b))%nat) in *.
  split; [lia|].
  assert (E : List.length flat = (a * (b * k))%nat) by lia.
  pose proof (chunks_sized E) as SZ. apply Forall_forall. intros m I. apply in_map_iff in I as (l & <- & I).
  rewrite Forall_forall in SZ. specialize (SZ _ I). split; [apply chunks_length|].
  apply chunks_sized. auto.
Qed.
(** A batch that is not made of whole rollouts is refused. *)
Lemma amp_misfit disc sm w L d key group (observation next_observation : dict string matrix) (obs final : matrix) rewards :
  (1 <= d)%nat ->
  dget observation key = Some obs -> dget next_observation key = Some final ->
  rows_of d obs -> rows_of d final -> (forall n, List.length obs <> (n * L)%nat) ->
  exists e, amp_begin_batch disc sm w L key group observation next_observation rewards = Err e.
Proof.
  intros D1 G1 G2 W WF NM. unfold amp_begin_batch, lookup. rewrite G1. cbn [rbind].
  destruct (Nat.eqb_spec L 0); [eauto|].
  destruct (reshape3 _ _ _) as [g|e] eqn:R3; cbn [rbind]; [|eauto].
  rewrite G2. cbn [rbind].
  apply reshape3_width in R3 as (AB & GL & k & KE & FF).
  rewrite (concat_len W) in KE.
  assert (KD : k <> d).
  { intros ->. apply (NM (List.length obs / L)%nat). nia. }
  assert (C : exists e, cat_next g final = Err e).
  { destruct g as [|m g]; [cbn in GL; nia|]. destruct final as [|x f]; [cbn; eauto|].
    inversion FF as [|? ? (ML & MW) _]; inversion WF as [|? ? WX _]; subst.
    destruct m as [|r m]; [cbn in *; congruence|]. inversion MW as [|? ? RW _]; subst.
    cbn. destruct (Nat.eqb_spec (List.length r) (List.length x)); [lia|]. cbn. eauto. }
  destruct C as (e & ->). cbn. eauto.
Qed.
(** So are rewards that are not one column with an entry for each observation. *)
Lemma amp_rewards_checked D disc sm w L n d key group (observation next_observation : dict string matrix) (obs final : matrix) rewards :
  scores D disc -> (exists S, each_row S sm) -> (1 <= L)%nat -> (1 <= n)%nat ->
  dget observation key = Some obs -> dget next_observation key = Some final ->
  List.length obs = (n * L)%nat -> rows_of d obs -> List.length final = n -> rows_of d final ->
  (forall v, rewards = T2 (col v) -> List.length v <> (n * L)%nat) ->
  amp_begin_batch disc sm w L key group observation next_observation rewards = Err AssertionError.
Proof.
  intros HD (S & HS) LL N G1 G2 E W EF WF NR. unfold amp_begin_batch, lookup. rewrite G1. cbn [rbind].
  destruct (Nat.eqb_spec L 0); [lia|].
  replace (List.length obs / L)%nat with n by (rewrite E, Nat.div_mul; lia).
  rewrite (@reshape3_rows n L d) by auto. cbn [rbind]. rewrite G2. cbn [rbind].
  destruct (following_rows N LL E W EF WF) as (c & EC & ER2). rewrite EC. cbn [rbind]. rewrite ER2. cbn [rbind].
  rewrite !HS. rewrite <- (map_nth_seq obs []) at 1. rewrite E, !map_map, cat_rows_map. cbn [rbind].
  rewrite !HD, !map_map. cbn [map].
  destruct rewards as [v|m]; auto. unfold same_shape. destruct (list_eq_dec _ _ _) as [EQ|]; auto.
  exfalso. rewrite map_map in EQ. cbn in EQ.
  apply (NR (concat m)).
  - f_equal. clear - EQ. revert EQ. generalize (seq 0 (n * L)). induction m as [|r m IH]; intros l EQ; [auto|].
    destruct l as [|x l]; [discriminate|]. cbn in EQ. injection EQ as RL EQ.
    destruct r as [|y [|]]; try discriminate. cbn. f_equal. eapply IH; eauto.
  - apply (f_equal (@List.length nat)) in EQ as EL. rewrite !map_length, seq_length in EL.
    assert (F : Forall (fun r : list R => List.length r = 1%nat) m).
    { apply Forall_forall. intros r I. apply (in_map (@List.length R)) in I. rewrite <- EQ in I.
      apply in_map_iff in I as (? & <- & _). auto. }
    rewrite (concat_len F). lia.
Qed.
