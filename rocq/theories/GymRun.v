(** * GymRun: whole runs of the collector *)
From Coq Require Import Reals Lia Lra Permutation.
From Verif Require Import Py PyLemmas MemModel MemSpec ProxyModel ProxySpec AgentSpec NumModel NumProofs GymModel GymSpec GymProofs GymMore.
Set Implicit Arguments. Unset Strict Implicit.
Open Scope string_scope.
Open Scope list_scope.
Open Scope Z_scope.

Section P.
Context {S E : Type}.
Variable num : S -> R.
Variable env : genv S E.
Variable agent : nat -> dict Z (obs S) -> res (dict Z (resp S)).
Variables dobs dact : nat.
Hypothesis HS : shows env dobs.
Hypothesis HA : answers_all dobs dact agent.
Notation play := (play env any_end).
Notation inv := (inv num env agent dobs dact).

Definition left_over (next : Z) (sums : list R) (id : Z) : R := if next <=? id then nth (Z.to_nat (id - next)) sums 0%R else 0%R.

Lemma nth_fresh : forall n a j x, nth_error (fresh a n) j = Some x -> x = a + Z.of_nat j.
Proof. induction n as [|n IH]; intros a [|j] x H; try discriminate; cbn [fresh nth_error] in H. - injection H as <-. lia. - apply IH in H. lia. Qed.

Lemma inv_reset n (g : gym (E := E)) : (1 <= n)%nat -> List.length (gy_envs g) = n -> List.length (gy_sums g) = n -> 0 <= gy_next g ->
  inv n (left_over (gy_next g) (gy_sums g)) (fst (dict_reset env g)) (snd (dict_reset env g)) [].
Proof.
  intros Hn L1 L2 N0. unfold dict_reset. rewrite L1. cbn [fst snd].
  set (ids := fresh (gy_next g) n). set (evs := map (g_reset env) (gy_envs g)).
  assert (Lids : List.length ids = n) by apply fresh_len. assert (Levs : List.length evs = n) by (unfold evs; rewrite map_length; auto).
  assert (Nids : NoDup ids) by apply fresh_nodup.
  assert (Kc : map fst (combine ids (map snd evs)) = ids) by (apply map_fst_combine; rewrite map_length; lia).
  set (os := fold_left _ _ _).
  assert (Kos : forall x, dget os x <> None -> In x ids).
  { intros x Hx. destruct (in_dec Z.eq_dec x ids) as [|Ni]; auto. exfalso. apply Hx. unfold os. rewrite (fold_dset_frame (@initial_obs S)); [reflexivity|]. rewrite Kc. auto. }
  constructor; cbn [gy_envs gy_ids gy_sums gy_next]; auto.
  - rewrite map_length; auto.
  - intros x Hx. apply fresh_in in Hx. lia.
  - apply (fold_dset_nodup (@initial_obs S)). constructor.
  - intros x Hx. apply Kos, fresh_in in Hx. lia.
  - intros j id e s H1 H2 H3. pose proof (nth_lt Lids H1) as Lj. rewrite nth_error_map in H2. destruct (nth_error evs j) as [[e' o]|] eqn:He; [|discriminate]. cbn in H2. injection H2 as ->.
    assert (Go : dget os id = Some (initial_obs o)). { apply (@fold_dset_at _ _ (@initial_obs S)); [rewrite Kc; auto|]. eapply nth_error_In. apply nth_combine_l; [exact H1|]. rewrite nth_error_map, He. reflexivity. }
    exists (initial_obs o). split; auto. split; auto. unfold evs in He. rewrite nth_error_map in He. destruct (nth_error (gy_envs g) j) as [e0|] eqn:He0; [|discriminate]. cbn in He. injection He as He. split.
    + eapply play_reset. exact He.
    + apply nth_fresh in H1. subst id. unfold left_over. destruct (Z.leb_spec (gy_next g) (gy_next g + Z.of_nat j)); [|lia].
      replace (gy_next g + Z.of_nat j - gy_next g) with (Z.of_nat j) by lia. rewrite Nat2Z.id. rewrite (nth_error_nth _ _ _ H3). unfold total. cbn. lra.
  - intros id ob G Ni. exfalso. apply Ni. apply Kos. congruence.
  - intros id Hid. unfold left_over. destruct (Z.leb_spec (gy_next g) id); auto. apply nth_overflow. lia.
Qed.

Definition logs_ok (off : Z -> R) (h : list (pop S)) (outs : list (pop S * option R)) (now : dict Z (obs S)) : Prop :=
  forall k o lg, nth_error outs k = Some (o, lg) ->
    lg = mean_of (map (fun a => off a + total num (so_far (h ++ firstn (Datatypes.S k) (map fst outs)) (seen_after outs now k) a))%R (ended (seen_after outs now k))).

Lemma multi draws n off : (1 <= n)%nat -> forall count c h, inv n off (co_gym c) (co_obs c) h ->
  exists c' outs, collect_multiple num env agent draws count c = Ok (c', outs) /\ List.length outs = count /\
    inv n off (co_gym c') (co_obs c') (h ++ map fst outs) /\ logs_ok off h outs (co_obs c') /\
    match outs with (PAdd os _ _, _) :: _ => os = co_obs c | [] => co_obs c' = co_obs c | _ => False end.
Proof.
  intros Hn. induction count as [|count IH]; intros c h I.
  - exists c, []. cbn. rewrite app_nil_r. split; auto. split; auto. split; auto. split; auto. intros [|k] o lg H; discriminate.
  - destruct (inv_step HS HA (co_asked c) (draws (co_asked c)) Hn I) as (rs & g' & os' & lg & A1 & A2 & A3 & A4).
    set (c1 := mkCo g' os' (1 + co_asked c)). destruct (IH c1 (h ++ [PAdd (co_obs c) rs (draws (co_asked c))]) A3) as (c' & outs & B1 & B2 & B3 & B4 & B5).
    exists c', ((PAdd (co_obs c) rs (draws (co_asked c)), lg) :: outs).
    split. { cbn [collect_multiple]. unfold collect_data. rewrite A1. cbn [rbind]. rewrite A2. cbn [rbind fst snd]. fold c1. rewrite B1. reflexivity. }
    split; [cbn; lia|]. split; [rewrite <- app_assoc in B3; exact B3|]. split; [|reflexivity].
    intros [|k] o lg0 Hk; cbn [nth_error] in Hk.
    + injection Hk as <- <-. cbn [map fst firstn].
      assert (Hs : seen_after ((PAdd (co_obs c) rs (draws (co_asked c)), lg) :: outs) (co_obs c') 0 = os').
      { unfold seen_after. cbn [nth_error]. destruct outs as [|[[os1 rs1 dr1|] lg1] outs]; cbn [nth_error]; [exact B5|exact B5|destruct B5]. }
      rewrite Hs. exact A4.
    + rewrite (B4 k o lg0 Hk). cbn [map fst]. change (firstn (Datatypes.S (Datatypes.S k)) (PAdd (co_obs c) rs (draws (co_asked c)) :: map fst outs))
        with (PAdd (co_obs c) rs (draws (co_asked c)) :: firstn (Datatypes.S k) (map fst outs)).
      change (seen_after ((PAdd (co_obs c) rs (draws (co_asked c)), lg) :: outs) (co_obs c') (Datatypes.S k)) with (seen_after outs (co_obs c') k).
      rewrite <- app_assoc. reflexivity.
Qed.

Lemma inv_cur n off g os h : inv n off g os h -> forall a, In a (gy_ids g) -> exists ob e s, dget os a = Some ob /\ is_final (o_state ob) = false /\ play (stream a h ++ [(ob, None)]) e /\
  (exists j, nth_error (gy_ids g) j = Some a /\ nth_error (gy_envs g) j = Some e /\ nth_error (gy_sums g) j = Some s) /\ s = (off a + total num (stream a h ++ [(ob, None)]))%R.
Proof.
  intros I a Ia. apply In_nth_error in Ia as [j Hj]. pose proof (nth_lt (i_ids I) Hj) as Lj.
  destruct (nth_ex (i_envs I) Lj) as [e He]. destruct (nth_ex (i_sums I) Lj) as [s Hs].
  destruct (i_cur I Hj He Hs) as (ob & A1 & A2 & A3 & A4). exists ob, e, s. repeat split; auto. exists j. auto.
Qed.

Lemma play_shorter s ob e : play (s ++ [(ob, None)]) e -> s = [] \/ open_play env any_end s.
Proof.
  intros P. inversion P as [e0 e1 o R E1 E2|before ob' e1 action e2 a P' F St E1 E2].
  - left. destruct s as [|x s]; auto. destruct s; discriminate.
  - right. assert (Es : s = before ++ [(ob', Some (mkResp [("actions", action)] []))]).
    { apply (f_equal (@rev _)) in E1. rewrite rev_app_distr in E1. rewrite (rev_app_distr s) in E1. cbn in E1. injection E1 as _ E1.
      apply (f_equal (@rev _)) in E1. rewrite rev_involutive in E1. cbn [rev] in E1. rewrite rev_involutive in E1. auto. }
    exists before, ob', action, e1. auto.
Qed.

Lemma stream_cases n off g os h : inv n off g os h -> forall a, stream a h = [] \/ whole_play env any_end (stream a h) \/ open_play env any_end (stream a h).
Proof.
  intros I a. destruct (dget os a) as [ob|] eqn:G.
  - destruct (in_dec Z.eq_dec a (gy_ids g)) as [Ii|Ni].
    + destruct (inv_cur I Ii) as (ob' & e & s & _ & _ & P & _). apply play_shorter in P. tauto.
    + destruct (i_rest I G Ni) as (_ & e & P). apply play_shorter in P. tauto.
  - destruct (i_past I G); auto.
Qed.

(** ** A whole run *)
Definition run_ok (n : nat) (off : Z -> R) (c : collector (E := E)) (outs : list (pop S * option R)) : Prop :=
  inv n off (co_gym c) (co_obs c) (map fst outs) /\ logs_ok off [] outs (co_obs c).

Notation tried := (tried env num).
Lemma begin_ok envs : envs <> [] -> exists c g' rs os1,
  begin_training num env agent (gym_new envs) = Ok c /\ inv (List.length envs) (left_over (gy_next g') (gy_sums g')) (co_gym c) (co_obs c) [] /\
  co_gym c = fst (dict_reset env g') /\ inv (List.length envs) (fun _ => 0%R) g' os1 [PAdd (snd (dict_reset env (gym_new envs))) rs []] /\
  Forall (fun a => gy_next g' <= a < gy_next g' + Z.of_nat (List.length envs)) (dkeys (co_obs c)).
Proof.
  intros Hne. assert (Hn : (1 <= List.length envs)%nat) by (destruct envs; cbn; [congruence|lia]).
  assert (I0 : inv (List.length envs) (fun _ => 0%R) (fst (dict_reset env (gym_new envs))) (snd (dict_reset env (gym_new envs))) []).
  { assert (I := @inv_reset (List.length envs) (gym_new envs) Hn eq_refl (repeat_length _ _) ltac:(cbn; lia)).
    destruct I as [I1 I2 I3 I4 I5 I6 I7 I8 I9 I10 I11 I12 I13]. constructor; auto. intros j id e s H1 H2 H3. destruct (I8 j id e s H1 H2 H3) as (ob & A1 & A2 & A3 & A4).
    exists ob. repeat split; auto. rewrite A4. f_equal. unfold left_over. destruct (_ <=? id); auto. cbn [gym_new gy_sums]. apply nth_repeat. }
  destruct (inv_step HS HA 0 [] Hn I0) as (rs & g' & os1 & lg & A1 & A2 & A3 & _).
  assert (L1 := i_envs A3). assert (L2 := i_sums A3). assert (N0 : 0 <= gy_next g').
  { destruct (gy_ids g') as [|x r] eqn:Ei. { assert (Q := i_ids A3). rewrite Ei in Q. cbn in Q. lia. } assert (Q := i_rng A3 (x := x)). rewrite Ei in Q. specialize (Q (or_introl eq_refl)). lia. }
  pose proof (inv_reset Hn L1 L2 N0) as I2. destruct (dict_reset env g') as [g3 obs3] eqn:Er. cbn [fst snd] in *. exists (mkCo g3 obs3 1), g', rs, os1. split.
  - unfold begin_training. destruct (dict_reset env (gym_new envs)) as [g1 o1]. cbn [fst snd] in *. rewrite A1. cbn [rbind]. rewrite A2. cbn [rbind fst snd]. rewrite Er. reflexivity.
  - split; [exact I2|]. split; [rewrite Er; reflexivity|]. split; [exact A3|]. cbn [co_obs]. apply Forall_forall. intros a Ha.
    apply dget_key in Ha as [ob G]. destruct (in_dec Z.eq_dec a (gy_ids g3)) as [Ii|Ni].
    + unfold dict_reset in Er. injection Er as <- _. cbn [gy_ids] in Ii. apply fresh_in in Ii. rewrite L1 in Ii. exact Ii.
    + destruct (i_rest I2 G Ni) as [F _]. exfalso. revert F. unfold dict_reset in Er. injection Er as <- <-. cbn [gy_ids] in Ni. clear -G Ni L1. intros F.
      rewrite (fold_dset_frame (@initial_obs S)) in G; [discriminate|]. rewrite map_fst_combine; auto. rewrite fresh_len, !map_length. auto.
Qed.

Lemma whole_run draws envs count : envs <> [] -> exists c outs off,
  collect_run num env agent draws (gym_new envs) count = Ok (c, outs) /\ List.length outs = count /\
  run_ok (List.length envs) off c outs /\
  (forall a, tried (off a)) /\
  (forall a os rs dr lg, nth_error outs 0 = Some (PAdd os rs dr, lg) -> ~ In a (dkeys os) -> off a = 0%R).
Proof.
  intros Hne. assert (Hn : (1 <= List.length envs)%nat) by (destruct envs; cbn; [congruence|lia]).
  destruct (begin_ok Hne) as (c0 & g' & rs & os1 & B1 & B2 & B3 & B4 & B5).
  destruct (multi draws Hn count B2) as (c & outs & M1 & M2 & M3 & M4 & M5).
  exists c, outs, (left_over (gy_next g') (gy_sums g')). split. { unfold collect_run. rewrite B1. cbn [rbind]. exact M1. }
  split; auto. split; [split; auto|]. split.
  - intros a. unfold tried, left_over. destruct (Z.leb_spec (gy_next g') a); auto. set (j := Z.to_nat (a - gy_next g')). destruct (Nat.ltb_spec j (List.length (gy_sums g'))) as [Lj|Gj]; [|left; apply nth_overflow; auto].
    destruct (nth_ex (eq_refl (List.length (gy_sums g'))) Lj) as [s Hs]. rewrite (nth_error_nth _ _ _ Hs). rewrite (i_sums B4) in Lj. destruct (nth_ex (i_ids B4) Lj) as [id Hid]. destruct (nth_ex (i_envs B4) Lj) as [e He].
    destruct (i_cur B4 Hid He Hs) as (ob & A1 & A2 & A3 & A4). rewrite A4. clear A4. rewrite Rplus_0_l.
    set (os0 := snd (dict_reset env (gym_new envs))) in *.
    inversion A3 as [e0 e1 o R E1 E2|before ob' e1 action e2 an P' F St E1 E2].
    + left. cbn [stream flat_map]. rewrite <- E1. unfold total. cbn. lra.
    + right. cbn [stream flat_map] in E1. rewrite app_nil_r in E1.
      destruct (dget os0 id) as [ob0|] eqn:G0.
      * cbn [app] in E1. destruct before as [|x before]; [|destruct before as [|y before]; [|destruct before; discriminate]].
        -- cbn [app] in *. injection E1 as E1 E3 E4. inversion P' as [e0 e3 o R E5 E6|b2 ob2 e3 act2 e4 a2 P2 F2 St2 E5 E6].
           ++ exists e0, e1, o, action, e, an. repeat split; auto. { unfold any_end in E4. subst ob. cbn [o_state] in A2. unfold any_end in A2. destruct (an_term an || an_trunc an); auto; discriminate. }
              cbn [stream flat_map]. rewrite G0, <- E4, <- E1, <- E5. unfold total. cbn. lra.
           ++ exfalso. apply (f_equal (@List.length _)) in E5. rewrite app_length in E5. cbn in E5. lia.
        -- discriminate.
      * cbn [app] in E1. destruct before as [|x before]; [discriminate|destruct before; discriminate].
  - intros a os rs0 dr lg H0 Ni. destruct outs as [|[o lg'] outs]; [discriminate|]. cbn in H0. injection H0 as -> ->. subst os. unfold left_over. destruct (Z.leb_spec (gy_next g') a); auto.
    destruct (Z.ltb_spec a (gy_next g' + Z.of_nat (List.length envs))) as [Lt|Ge].
    + exfalso. apply Ni. assert (Ii : In a (gy_ids (co_gym c0))). { rewrite B3. cbn [dict_reset fst gy_ids]. apply fresh_in. rewrite (i_envs B4). lia. }
      destruct (inv_cur B2 Ii) as (ob & e & s & G & _). eapply dget_Some_key. exact G.
    + apply nth_overflow. rewrite (i_sums B4). lia.
Qed.
End P.
