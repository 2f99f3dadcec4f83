(** * StyleProofs: from agents to adversarial rewards and losses (C142) *)
From Coq Require Import Reals Lra Lia.
From Verif Require Import Py PyLemmas MemModel MemSpec ProxyModel ProxySpec ProxyE2E NumModel NumSpec NumTarget E2ESpec E2EProofs
  CriticSpec CriticProofs AmpModel AmpSpec AmpProofs AmpMore ActorSpec StyleSpec.
Set Implicit Arguments.
Unset Strict Implicit.
Open Scope list_scope.
Open Scope R_scope.

Lemma nth_map_seq {A} (f : nat -> A) n i d : (i < n)%nat -> nth i (map f (seq 0 n)) d = f i.
Proof.
  intros H. rewrite nth_indep with (d' := f 0%nat) by (rewrite map_length, seq_length; auto).
  rewrite map_nth, seq_nth by auto. reflexivity.
Qed.
Lemma cat_rows_len a : forall b m, cat_rows a b = Ok m -> List.length a = List.length b.
Proof.
  induction a as [|x a IH]; intros [|y b] m E; cbn in E; try discriminate; auto.
  destruct (cat_rows a b) eqn:E'; [|discriminate]. cbn. f_equal. eapply IH; eauto.
Qed.
Lemma cat_next_len g : forall f r, cat_next g f = Ok r -> List.length g = List.length f.
Proof.
  induction g as [|x a IH]; intros [|y b] m E; cbn [cat_next] in E; try discriminate; auto.
  destruct (forallb _ x); [|discriminate]. destruct (cat_next a b) eqn:E'; [|discriminate]. cbn. f_equal. eapply IH; eauto.
Qed.
Lemma reshape3_len a b flat g : reshape3 a b flat = Ok g -> List.length g = a.
Proof.
  unfold reshape3. destruct (Nat.eqb (a * b) 0); [discriminate|]. destruct (Nat.eqb _ 0); [|discriminate].
  intros E. injection E as <-. rewrite map_length. generalize (b * (List.length flat / (a * b)))%nat as sz. clear. revert flat.
  induction a as [|a IH]; intros flat sz; cbn; auto.
Qed.

Section T.
Context {S : Type} {HS : Scalar S}.
Variable num : S -> R.

Lemma viewed_len obs d (h : list (pop S)) a ms k m : sees obs d h -> In ms (episodes [] (stream a h)) -> nth_error ms k = Some m ->
  saw m (c_name obs) <> None -> List.length (viewed num obs ms k) = d.
Proof.
  intros Hs I E N. unfold viewed, of_moment. rewrite E. destruct (saw m (c_name obs)) as [v|] eqn:Ev; [|congruence].
  cbn. rewrite !map_length. eapply Hs; eauto. eapply nth_error_In; eauto.
Qed.
Lemma gained_one reward (h : list (pop S)) a ms k m : single_rewards h -> In ms (episodes [] (stream a h)) -> nth_error ms (k + 1) = Some m ->
  received m <> None -> gained num reward ms k = [reward_for num reward ms k].
Proof.
  intros Hs I E N. unfold gained, reward_for, of_moment. rewrite E. destruct (received m) as [v|] eqn:Ev; [|congruence].
  pose proof (Hs a ms m v I (nth_error_In _ _ E) Ev) as H1. destruct v as [|x [|]]; try discriminate. reflexivity.
Qed.

Lemma batch_views pc cols lk maxlen smp ej sch (h : list (pop S)) p count L draws out obs d :
  config_ok cols lk -> fresh_sampler smp -> fresh_ejector ej ->
  schema_ok (pc_terminal pc) sch -> layout cols lk (pc_terminal pc) sch ->
  batches_ok h -> agents_ok pc cols lk sch L h -> (1 <= L)%nat ->
  prun pc (px_new (t_create cols lk maxlen smp ej)) h = (p, Ok tt) ->
  snd (t_sample (px_table p) count L draws) = Ok out ->
  In obs cols -> is_base obs -> In (c_name obs) (sc_obs sch) -> sees obs d h ->
  batch_sized cols out count L /\
  exists from, origin h count L from
    /\ (forall k, (k < count * L)%nat ->
         option_map (map num) (batch_row out (c_name obs) k) = Some (viewed num obs (fst (from (k / L)%nat)) (snd (from (k / L)%nat) + k mod L))
         /\ List.length (viewed num obs (fst (from (k / L)%nat)) (snd (from (k / L)%nat) + k mod L)) = d)
    /\ (forall next j, In next cols -> c_kind next = KVirt (c_name obs) MNextLast -> (j < count)%nat ->
         option_map (map num) (batch_row out (c_name next) j) = Some (viewed num obs (fst (from j)) (snd (from j) + L))
         /\ List.length (viewed num obs (fst (from j)) (snd (from j) + L)) = d)
    /\ (forall next k, In next cols -> c_kind next = KVirt (c_name obs) MNext -> (k < count * L)%nat ->
         option_map (map num) (batch_row out (c_name next) k) = Some (viewed num obs (fst (from (k / L)%nat)) (snd (from (k / L)%nat) + k mod L + 1))
         /\ List.length (viewed num obs (fst (from (k / L)%nat)) (snd (from (k / L)%nat) + k mod L + 1)) = d)
    /\ (forall reward k, In reward cols -> is_base reward -> c_name reward = "rewards"%string -> single_rewards h -> (k < count * L)%nat ->
         option_map (map num) (batch_row out (c_name reward) k) = Some [reward_for num reward (fst (from (k / L)%nat)) (snd (from (k / L)%nat) + k mod L)]).
Proof.
  intros CO Fs Fe SO LA BO AG HL E Eo Io Bo No Se.
  destruct (end_to_end_windows maxlen count draws CO Fs Fe SO LA BO AG HL E Eo) as [Sz W].
  destruct (@finite_choice (list (@moment S) * nat) ([], O) (fun j x => exists a, In (fst x) (episodes [] (stream a h)) /\
      is_window cols sch out L j (fst x) (snd x)) count) as (from & Hf).
  { intros j Hj. destruct (W j Hj) as (a & ms & i & I & WW). exists (ms, i), a. auto. }
  split; [exact Sz|]. exists from.
  assert (SOME : forall (col : MemModel.column S) (x : option (list S)), x <> None -> option_map (map num) (cast_by col x) = Some (map num (row_or_empty (cast_by col x)))).
  { intros col [v|] N; [reflexivity|congruence]. }
  assert (MO : forall k, (k < count * L)%nat -> exists a m m', In (fst (from (k / L)%nat)) (episodes [] (stream a h)) /\
      nth_error (fst (from (k / L)%nat)) (snd (from (k / L)%nat) + k mod L) = Some m /\
      nth_error (fst (from (k / L)%nat)) (snd (from (k / L)%nat) + k mod L + 1) = Some m' /\ is_transition cols sch out k m m').
  { intros k Hk.
    assert (K1 : (k / L < count)%nat) by (apply Nat.div_lt_upper_bound; lia).
    assert (K2 : (k mod L < L)%nat) by (apply Nat.mod_upper_bound; lia).
    assert (K3 : (k / L * L + k mod L = k)%nat) by (rewrite (Nat.mul_comm (k / L)); symmetry; apply Nat.div_mod; lia).
    destruct (Hf _ K1) as (a & I & (Wl & Wt & _)).
    set (ms := fst (from (k / L)%nat)) in *. set (i := snd (from (k / L)%nat)) in *.
    destruct (nth_error ms (i + k mod L)) as [m|] eqn:E1; [|apply nth_error_None in E1; lia].
    destruct (nth_error ms (i + k mod L + 1)) as [m'|] eqn:E2; [|apply nth_error_None in E2; lia].
    exists a, m, m'. split; auto. split; auto. split; auto. specialize (Wt _ m m' K2 E1 E2). rewrite K3 in Wt. exact Wt. }
  split; [|split; [|split; [|split]]].
  - intros j Hj. destruct (Hf j Hj) as (a & I & (Wl & _)). exists a. auto.
  - intros k Hk. destruct (MO k Hk) as (a & m & m' & Ia & E1 & E2 & T). destruct (T obs Io) as (T1 & _). destruct (T1 Bo No) as (N & ->).
    split; [|eapply viewed_len; eauto]. unfold viewed, of_moment. rewrite E1. apply SOME. exact N.
  - intros next j In' Kn Hj. destruct (Hf j Hj) as (a & Ia & (Wl & _ & Wn & _)).
    assert (X : exists m, nth_error (fst (from j)) (snd (from j) + L) = Some m).
    { destruct (nth_error (fst (from j)) (snd (from j) + L)) as [m|] eqn:E1; [eauto|apply nth_error_None in E1; lia]. }
    destruct X as (m & E1). destruct (Wn next obs m In' Io Kn E1) as (N & ->).
    split; [|eapply viewed_len; eauto]. unfold viewed, of_moment. rewrite E1. apply SOME. exact N.
  - intros next k Ix Kx Hk. destruct (MO k Hk) as (a & m & m' & Ia & E1 & E2 & T). destruct (T next Ix) as (_ & _ & _ & T1 & _). destruct (T1 obs Io Kx) as (N & ->).
    split; [|eapply viewed_len; eauto]. unfold viewed, of_moment. rewrite E2. apply SOME. exact N.
  - intros reward k Ir Br Nr Sr Hk. destruct (MO k Hk) as (a & m & m' & Ia & E1 & E2 & T). destruct (T reward Ir) as (_ & _ & T1 & _). destruct (T1 Br Nr) as (N & ->).
    rewrite <- (@gained_one reward h a _ _ m' Sr Ia E2 N). unfold gained, of_moment. rewrite E2. apply SOME. exact N.
Qed.

Lemma shown_rows cols (out : dict string (array S)) count L col f n : batch_sized cols out count L -> In col cols ->
  n = match c_kind col with KTag | KVirt _ MNextLast => count | _ => (count * L)%nat end ->
  (forall k, (k < n)%nat -> option_map (map num) (batch_row out (c_name col) k) = Some (f k)) ->
  shown num out (c_name col) = map f (seq 0 n).
Proof.
  intros Sz Ic -> F. destruct (Sz col Ic) as (rows & Ec & Lr). unfold shown. rewrite Ec. apply list_as_seq.
  - etransitivity; [apply map_length|]. exact Lr.
  - intros k Hk. rewrite nth_error_map, <- (F k Hk). unfold batch_row. rewrite Ec. reflexivity.
Qed.

Lemma style_reward_ok pc cols lk maxlen smp ej sch (h : list (pop S)) p count L draws out obs next reward d
    D state disc sm w key group (observation next_observation : dict string matrix) :
  config_ok cols lk -> fresh_sampler smp -> fresh_ejector ej ->
  schema_ok (pc_terminal pc) sch -> layout cols lk (pc_terminal pc) sch ->
  batches_ok h -> agents_ok pc cols lk sch L h -> (1 <= L)%nat -> (1 <= count)%nat ->
  prun pc (px_new (t_create cols lk maxlen smp ej)) h = (p, Ok tt) ->
  snd (t_sample (px_table p) count L draws) = Ok out ->
  In obs cols -> is_base obs -> In (c_name obs) (sc_obs sch) -> sees obs d h ->
  In next cols -> (c_kind next = KVirt (c_name obs) MNextLast \/ c_kind next = KVirt (c_name obs) MNext /\ L = 1%nat) ->
  In reward cols -> is_base reward -> c_name reward = "rewards"%string -> single_rewards h ->
  scores D disc -> each_row state sm ->
  dget observation key = Some (shown num out (c_name obs)) -> dget next_observation key = Some (shown num out (c_name next)) ->
  exists from, origin h count L from /\
    amp_begin_batch disc sm w L key group observation next_observation (T2 (shown num out (c_name reward))) =
    Ok [(group, [("rewards"%string, map (fun k => let (ms, i) := from (k / L)%nat in let t := (i + k mod L)%nat in
          [reward_for num reward ms t + w * style_bonus (D (move num obs state ms t))]) (seq 0 (count * L)))])].
Proof.
  intros CO Fs Fe SO LA BO AG HL HC E Eo Io Bo No Se Ix Kx Ir Br Nr Sr Sc Er Eob Enx.
  destruct (@batch_views pc cols lk maxlen smp ej sch h p count L draws out obs d CO Fs Fe SO LA BO AG HL E Eo Io Bo No Se)
    as (Sz & from & Or & V1 & V2 & V3 & V4).
  exists from. split; auto.
  set (F := fun k => viewed num obs (fst (from (k / L)%nat)) (snd (from (k / L)%nat) + k mod L)).
  set (G := fun j => viewed num obs (fst (from j)) (snd (from j) + L)).
  set (W := fun k => reward_for num reward (fst (from (k / L)%nat)) (snd (from (k / L)%nat) + k mod L)).
  assert (Es1 : shown num out (c_name obs) = map F (seq 0 (count * L))).
  { eapply shown_rows; eauto; [unfold is_base in Bo; rewrite Bo; reflexivity|]. intros k Hk. apply V1; auto. }
  assert (Es2 : shown num out (c_name next) = map G (seq 0 count) /\ forall j, (j < count)%nat -> List.length (G j) = d).
  { destruct Kx as [Kx|[Kx L1]].
    - split; [|intros j Hj; apply (V2 next j); auto]. eapply shown_rows; eauto; [rewrite Kx; reflexivity|]. intros k Hk. apply V2; auto.
    - assert (V3' : forall k, (k < count)%nat -> option_map (map num) (batch_row out (c_name next) k) = Some (G k) /\ List.length (G k) = d).
      { intros k Hk. unfold G. specialize (V3 next k Ix Kx ltac:(lia)).
        clear -V3 L1. subst L. rewrite Nat.div_1_r, Nat.mod_1_r, Nat.add_0_r in V3. exact V3. }
      split; [|intros j Hj; apply V3'; auto]. eapply shown_rows; eauto; [rewrite Kx; lia|]. intros k Hk. apply V3'. auto. }
  destruct Es2 as [Es2 Lg].
  assert (Es3 : shown num out (c_name reward) = col (map W (seq 0 (count * L)))).
  { unfold col. rewrite map_map. eapply shown_rows; eauto. unfold is_base in Br. rewrite Br. reflexivity. }
  rewrite Es3, Es1 in *. rewrite Es2 in *.
  rewrite (@amp_total D state disc sm w L count d key group observation next_observation (map F (seq 0 (count * L))) (map G (seq 0 count)) (map W (seq 0 (count * L))));
    auto; try (rewrite map_length, seq_length; reflexivity).
  - f_equal. f_equal. f_equal. f_equal. f_equal. apply map_ext_in. intros k Ik. apply in_seq in Ik.
    assert (Hk : (k < count * L)%nat) by lia.
    rewrite !nth_map_seq by auto. unfold W at 1, F at 1. destruct (from (k / L)%nat) as [ms i] eqn:Ef. cbn [fst snd].
    f_equal. f_equal. f_equal. f_equal. f_equal. unfold move. f_equal. f_equal.
    assert (K1 : (k / L < count)%nat) by (apply Nat.div_lt_upper_bound; lia).
    assert (K2 : (k mod L < L)%nat) by (apply Nat.mod_upper_bound; lia).
    assert (K3 : (L * (k / L) + k mod L = k)%nat) by (symmetry; apply Nat.div_mod; lia).
    unfold following. destruct (Nat.eqb_spec ((k + 1) mod L) 0) as [Z0|Z0].
    + rewrite nth_map_seq by auto. unfold G. rewrite Ef. cbn [fst snd]. f_equal.
      assert (k mod L + 1 = L)%nat; [|lia].
      apply Nat.mod_divides in Z0 as (c & Hc); [|lia].
      assert (c = k / L + 1)%nat by nia. nia.
    + assert (K4 : (k mod L + 1 < L)%nat).
      { destruct (Nat.lt_ge_cases (k mod L + 1) L); auto. exfalso. apply Z0.
        assert (k + 1 = (k / L + 1) * L)%nat as -> by nia. apply Nat.mod_mul. lia. }
      assert (E1 : ((k + 1) / L = k / L)%nat) by (symmetry; apply (Nat.div_unique _ _ _ (k mod L + 1)); lia).
      assert (E2 : ((k + 1) mod L = k mod L + 1)%nat) by (symmetry; apply (Nat.mod_unique _ _ (k / L) _); lia).
      rewrite nth_map_seq by nia. unfold F. rewrite E1, E2, Ef. cbn [fst snd]. f_equal. lia.
  - apply Forall_forall. intros r I. apply in_map_iff in I as (k & <- & Ik). apply in_seq in Ik. apply V1. lia.
  - apply Forall_forall. intros r I. apply in_map_iff in I as (k & <- & Ik). apply in_seq in Ik. apply Lg. lia.
Qed.

(** One-step batches. *)
Lemma moves_rows pc cols lk maxlen smp ej sch (h : list (pop S)) p count draws out obs next d state sm key (b : dbatch) :
  config_ok cols lk -> fresh_sampler smp -> fresh_ejector ej ->
  schema_ok (pc_terminal pc) sch -> layout cols lk (pc_terminal pc) sch ->
  batches_ok h -> agents_ok pc cols lk sch 1 h ->
  prun pc (px_new (t_create cols lk maxlen smp ej)) h = (p, Ok tt) ->
  snd (t_sample (px_table p) count 1 draws) = Ok out ->
  In obs cols -> is_base obs -> In (c_name obs) (sc_obs sch) -> sees obs d h ->
  In next cols -> (c_kind next = KVirt (c_name obs) MNextLast \/ c_kind next = KVirt (c_name obs) MNext) ->
  each_row state sm ->
  dget (db_obs b) key = Some (shown num out (c_name obs)) -> dget (db_next b) key = Some (shown num out (c_name next)) ->
  exists from, origin h count 1 from /\
    List.length (shown num out (c_name obs)) = count /\ List.length (shown num out (c_name next)) = count /\
    pairs_of state (shown num out (c_name obs)) (shown num out (c_name next)) =
      map (fun j => move num obs state (fst (from j)) (snd (from j))) (seq 0 count).
Proof.
  intros CO Fs Fe SO LA BO AG E Eo Io Bo No Se Ix Kx Er Eob Enx.
  destruct (@batch_views pc cols lk maxlen smp ej sch h p count 1 draws out obs d CO Fs Fe SO LA BO AG (le_n 1) E Eo Io Bo No Se)
    as (Sz & from & Or & V1 & V2 & V3 & V4).
  exists from. split; auto.
  set (F := fun k => viewed num obs (fst (from k)) (snd (from k))).
  set (G := fun j => viewed num obs (fst (from j)) (snd (from j) + 1)).
  assert (Es1 : shown num out (c_name obs) = map F (seq 0 count)).
  { eapply shown_rows; eauto; [unfold is_base in Bo; rewrite Bo; lia|]. intros k Hk. destruct (V1 k ltac:(lia)) as [X _].
    rewrite Nat.div_1_r, Nat.mod_1_r, Nat.add_0_r in X. exact X. }
  assert (Es2 : shown num out (c_name next) = map G (seq 0 count)).
  { destruct Kx as [Kx|Kx]; (eapply shown_rows; eauto; [rewrite Kx; lia|]); intros k Hk.
    - apply V2; auto.
    - destruct (V3 next k Ix Kx ltac:(lia)) as [X _]. rewrite Nat.div_1_r, Nat.mod_1_r, Nat.add_0_r in X. exact X. }
  rewrite Es1, Es2, !map_length, seq_length. split; auto. split; auto.
  unfold pairs_of. rewrite combine_maps, map_map. reflexivity.
Qed.

Lemma style_loss_ok pc1 cols1 lk1 maxlen1 smp1 ej1 sch1 (h1 : list (pop S)) p1 count1 draws1 out1 obs1 next1 d1
    pc2 cols2 lk2 maxlen2 smp2 ej2 sch2 (h2 : list (pop S)) p2 count2 draws2 out2 obs2 next2 d2
    D G disc grad state1 sm1 state2 sm2 weight key o1 n1 o2 n2 :
  config_ok cols1 lk1 -> fresh_sampler smp1 -> fresh_ejector ej1 ->
  schema_ok (pc_terminal pc1) sch1 -> layout cols1 lk1 (pc_terminal pc1) sch1 ->
  batches_ok h1 -> agents_ok pc1 cols1 lk1 sch1 1 h1 ->
  prun pc1 (px_new (t_create cols1 lk1 maxlen1 smp1 ej1)) h1 = (p1, Ok tt) ->
  snd (t_sample (px_table p1) count1 1 draws1) = Ok out1 ->
  In obs1 cols1 -> is_base obs1 -> In (c_name obs1) (sc_obs sch1) -> sees obs1 d1 h1 ->
  In next1 cols1 -> (c_kind next1 = KVirt (c_name obs1) MNextLast \/ c_kind next1 = KVirt (c_name obs1) MNext) ->
  config_ok cols2 lk2 -> fresh_sampler smp2 -> fresh_ejector ej2 ->
  schema_ok (pc_terminal pc2) sch2 -> layout cols2 lk2 (pc_terminal pc2) sch2 ->
  batches_ok h2 -> agents_ok pc2 cols2 lk2 sch2 1 h2 ->
  prun pc2 (px_new (t_create cols2 lk2 maxlen2 smp2 ej2)) h2 = (p2, Ok tt) ->
  snd (t_sample (px_table p2) count2 1 draws2) = Ok out2 ->
  In obs2 cols2 -> is_base obs2 -> In (c_name obs2) (sc_obs sch2) -> sees obs2 d2 h2 ->
  In next2 cols2 -> (c_kind next2 = KVirt (c_name obs2) MNextLast \/ c_kind next2 = KVirt (c_name obs2) MNext) ->
  scores D disc -> each_row G grad -> each_row state1 sm1 -> each_row state2 sm2 ->
  dget o1 key = Some (shown num out1 (c_name obs1)) -> dget n1 key = Some (shown num out1 (c_name next1)) ->
  dget o2 key = Some (shown num out2 (c_name obs2)) -> dget n2 key = Some (shown num out2 (c_name next2)) ->
  exists from1 from2, origin h1 count1 1 from1 /\ origin h2 count2 1 from2 /\
    discriminator_loss disc grad sm1 sm2 weight key (mkDBatch count1 o1 n1) (mkDBatch count2 o2 n2) =
    Ok (least_squares D G weight
          (map (fun j => move num obs1 state1 (fst (from1 j)) (snd (from1 j))) (seq 0 count1))
          (map (fun j => move num obs2 state2 (fst (from2 j)) (snd (from2 j))) (seq 0 count2))).
Proof.
  intros A1 A2 A3 A4 A5 A6 A7 A8 A9 A10 A11 A12 A13 A14 A15 B1 B2 B3 B4 B5 B6 B7 B8 B9 B10 B11 B12 B13 B14 B15 Sc Eg Em1 Em2 Eo1 En1 Eo2 En2.
  destruct (@moves_rows pc1 cols1 lk1 maxlen1 smp1 ej1 sch1 h1 p1 count1 draws1 out1 obs1 next1 d1 state1 sm1 key (mkDBatch count1 o1 n1)
    A1 A2 A3 A4 A5 A6 A7 A8 A9 A10 A11 A12 A13 A14 A15 Em1 Eo1 En1) as (f1 & Or1 & L1 & L1' & P1).
  destruct (@moves_rows pc2 cols2 lk2 maxlen2 smp2 ej2 sch2 h2 p2 count2 draws2 out2 obs2 next2 d2 state2 sm2 key (mkDBatch count2 o2 n2)
    B1 B2 B3 B4 B5 B6 B7 B8 B9 B10 B11 B12 B13 B14 B15 Em2 Eo2 En2) as (f2 & Or2 & L2 & L2' & P2).
  exists f1, f2. split; auto. split; auto.
  rewrite (@disc_loss D G disc grad state1 sm1 state2 sm2 weight key (mkDBatch count1 o1 n1) (mkDBatch count2 o2 n2) _ _ _ _ Sc Eg Em1 Em2 Eo1 En1
    (eq_trans L1 (eq_sym L1')) Eo2 En2 (eq_trans L2 (eq_sym L2'))).
  cbn [db_size]. rewrite L1, L2, !Nat.eqb_refl. cbn [andb]. rewrite <- P1, <- P2. reflexivity.
Qed.

(** With rollouts of several steps, one of the two parts fails. *)
Lemma rollouts_fail pc cols lk maxlen smp ej sch (h : list (pop S)) p count L draws out obs next
    disc grad sm1 state2 sm2 weight key w group (o n : dict string matrix) rewards size bi :
  config_ok cols lk -> fresh_sampler smp -> fresh_ejector ej ->
  schema_ok (pc_terminal pc) sch -> layout cols lk (pc_terminal pc) sch ->
  batches_ok h -> agents_ok pc cols lk sch L h -> (2 <= L)%nat -> (1 <= count)%nat ->
  prun pc (px_new (t_create cols lk maxlen smp ej)) h = (p, Ok tt) ->
  snd (t_sample (px_table p) count L draws) = Ok out ->
  In obs cols -> is_base obs -> In next cols ->
  each_row state2 sm2 ->
  dget o key = Some (shown num out (c_name obs)) -> dget n key = Some (shown num out (c_name next)) ->
  (c_kind next = KVirt (c_name obs) MNextLast -> exists e, discriminator_loss disc grad sm1 sm2 weight key bi (mkDBatch size o n) = Err e)
  /\ (c_kind next = KVirt (c_name obs) MNext -> exists e, amp_begin_batch disc sm2 w L key group o n rewards = Err e).
Proof.
  intros CO Fs Fe SO LA BO AG HL HC E Eo Io Bo Ix Er Eob Enx.
  destruct (end_to_end_windows maxlen count draws CO Fs Fe SO LA BO AG ltac:(lia) E Eo) as [Sz _].
  assert (Lo : List.length (shown num out (c_name obs)) = (count * L)%nat).
  { destruct (Sz obs Io) as (rows & Ec & Lr). unfold shown. rewrite Ec, map_length. etransitivity; [exact Lr|].
    unfold is_base in Bo. rewrite Bo. reflexivity. }
  assert (Ln : List.length (shown num out (c_name next)) = match c_kind next with KTag | KVirt _ MNextLast => count | _ => (count * L)%nat end).
  { destruct (Sz next Ix) as (rows & Ec & Lr). unfold shown. rewrite Ec, map_length. exact Lr. }
  split; intros K; rewrite K in Ln.
  - unfold discriminator_loss. destruct (pair_input sm1 key bi) as [pi|e]; [|cbn; eauto]. cbn [rbind].
    unfold pair_input, lookup. cbn [db_obs db_next]. rewrite Eob, Enx. cbn [rbind].
    destruct (cat_rows _ _) as [m|e] eqn:Ec; [|cbn; eauto]. exfalso. apply cat_rows_len in Ec.
    rewrite !Er, !map_length in Ec. nia.
  - unfold amp_begin_batch, lookup. rewrite Eob. cbn [rbind]. rewrite Lo.
    destruct (Nat.eqb_spec L 0); [lia|]. rewrite Nat.div_mul by lia.
    destruct (reshape3 count L _) as [g|e] eqn:Eg; [|cbn; eauto]. cbn [rbind]. rewrite Enx. cbn [rbind].
    destruct (cat_next g _) as [r|e] eqn:Ec; [|cbn; eauto]. exfalso. apply cat_next_len in Ec. apply reshape3_len in Eg. nia.
Qed.
End T.
