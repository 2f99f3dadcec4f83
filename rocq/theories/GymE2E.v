(** * GymE2E: what is sampled happened in an environment; the collectors' counters and threads; HitTheMiddle *)
From Coq Require Import Reals Lia Lra Permutation.
From Verif Require Import Py PyLemmas MemModel MemSpec ProxyModel ProxySpec ProxyE2E AgentModel AgentSpec AgentProofs NumModel NumProofs GymModel GymSpec GymProofs GymMore GymRun.
Set Implicit Arguments. Unset Strict Implicit.
Open Scope string_scope.
Open Scope list_scope.
Open Scope Z_scope.

Section P.
Context {S E : Type} {HSc : Scalar S}.
Variable num : S -> R.
Variable env : genv S E.
Variable agent : nat -> dict Z (obs S) -> res (dict Z (resp S)).
Variables dobs dact : nat.
Hypothesis HS : shows env dobs.
Hypothesis HA : answers_all dobs dact agent.
Notation play := (play env any_end).
Notation inv := (inv num env agent dobs dact).

Definition step_of (m m' : moment (S := S)) : Prop := exists e o action e' a, reached env e o /\ g_step env e action = (e', a) /\
  o_data (fst m) = [("obs", o)] /\ snd m = Some (mkResp [("actions", action)] []) /\ fst m' = mkObs [("reward", [an_reward a])] (any_end (an_term a) (an_trunc a)) [("obs", an_obs a)].

Record shape (ms : list (moment (S := S))) (e : E) : Prop := {
  sh_last : exists init ob, ms = init ++ [(ob, None)] /\ Forall (fun m => is_final (o_state (fst m)) = false /\ exists a, snd m = Some (mkResp [("actions", a)] [])) init /\
     (is_final (o_state ob) = false -> exists o, o_data ob = [("obs", o)] /\ reached env e o);
  sh_first : match ms with [] => False | m0 :: r => o_state (fst m0) = INITIAL /\
     Forall (fun m => (o_state (fst m) = RUNNING \/ is_final (o_state (fst m)) = true) /\ exists r, o_rewards (fst m) = [("reward", [r])]) r end;
  sh_steps : forall i m m', nth_error ms i = Some m -> nth_error ms (Datatypes.S i) = Some m' -> step_of m m' }.

Lemma play_has_shape : forall ms e, play ms e -> shape ms e.
Proof.
  induction 1 as [e0 e o R|before ob e action e' a P IH F St].
  - constructor.
    + exists [], (mkObs [] INITIAL [("obs", o)]). split; auto. split; auto. intros _. exists o. split; auto. eapply reached_reset; eauto.
    + cbn. auto.
    + intros [|[|i]] m m' H1 H2; discriminate.
  - destruct IH as [L Fi St']. destruct L as (init & ob' & E1 & L1 & L2). apply app_inj_tail in E1 as [<- E1]. injection E1 as <-.
    destruct (L2 F) as (o & Eo & Ro). set (m2 := mkObs [("reward", [an_reward a])] (any_end (an_term a) (an_trunc a)) [("obs", an_obs a)]).
    constructor.
    + exists (before ++ [(ob, Some (mkResp [("actions", action)] []))]), m2. rewrite <- app_assoc. split; auto. split.
      * apply Forall_app. split; auto. constructor; [|constructor]. split; auto. exists action. reflexivity.
      * intros F2. exists (an_obs a). split; auto. eapply reached_step; eauto. cbn in F2. unfold any_end in F2. destruct (an_term a || an_trunc a); auto; discriminate.
    + assert (Q : (o_state m2 = RUNNING \/ is_final (o_state m2) = true) /\ exists r, o_rewards m2 = [("reward", [r])]).
      { split; [|eexists; reflexivity]. cbn. unfold any_end. destruct (an_term a || an_trunc a); auto. }
      destruct before as [|m0 before]; cbn [app] in *.
      * destruct Fi as [Fi _]. split; [exact Fi|]. constructor; [exact Q|constructor].
      * destruct Fi as [Fi1 Fi2]. split; auto. apply Forall_app in Fi2 as [A1 A2]. inversion A2; subst. apply Forall_app. split; auto.
    + intros i m m' H1 H2. assert (Li : (Datatypes.S i < List.length before + 2)%nat).
      { assert (Q : (Datatypes.S i < List.length (before ++ [(ob, Some (mkResp [("actions", action)] [])); (m2, None)]))%nat) by (apply nth_error_Some; intros C; assert (C' : Some m' = None) by (rewrite <- H2; exact C); discriminate). rewrite app_length in Q. cbn in Q. exact Q. }
      destruct (Nat.eq_dec i (List.length before)) as [-> |Ne].
      * rewrite nth_error_app2 in H1 by lia. rewrite Nat.sub_diag in H1. cbn in H1. injection H1 as <-. rewrite nth_error_app2 in H2 by lia.
        replace (Datatypes.S (List.length before) - List.length before)%nat with 1%nat in H2 by lia. cbn in H2. injection H2 as <-. exists e, o, action, e', a. auto.
      * assert (Li' : (i < List.length before)%nat) by lia. rewrite nth_error_app1 in H1 by lia.
        destruct (Nat.eq_dec (Datatypes.S i) (List.length before)) as [Eq|Ne'].
        -- rewrite nth_error_app2 in H2 by lia. rewrite Eq, Nat.sub_diag in H2. cbn in H2. injection H2 as <-.
           destruct (St' i m (ob, None)) as (e3 & o3 & a3 & e4 & an & Q1 & Q2 & Q3 & Q4 & Q5); [rewrite nth_error_app1; auto|rewrite nth_error_app2 by lia; rewrite Eq, Nat.sub_diag; reflexivity|].
           exists e3, o3, a3, e4, an. auto.
        -- rewrite nth_error_app1 in H2 by lia. apply (St' i m m'); rewrite nth_error_app1; auto; lia.
Qed.

Lemma episodes_open (cur st : list (moment (S := S))) : Forall (fun m => is_final (o_state (fst m)) = false) st -> episodes cur st = [].
Proof. intros F. revert cur. induction F as [|m st H _ IH]; intros cur; auto. cbn [episodes]. rewrite H. auto. Qed.
Lemma episodes_whole (init : list (moment (S := S))) m : Forall (fun m => is_final (o_state (fst m)) = false) init -> is_final (o_state (fst m)) = true -> forall cur, cur ++ init <> [] ->
  episodes cur (init ++ [m]) = [cur ++ init ++ [m]].
Proof.
  intros F Hm. induction F as [|x init H _ IH]; intros cur Ne.
  - cbn [app episodes]. rewrite Hm. rewrite app_nil_r in Ne. destruct cur; [congruence|]. reflexivity.
  - cbn [app episodes]. rewrite H. rewrite IH. + rewrite <- app_assoc. reflexivity. + rewrite <- app_assoc. cbn. intros C. apply app_eq_nil in C as [_ C]. discriminate.
Qed.

Lemma open_no_episode ms : open_play env any_end ms -> episodes [] ms = [].
Proof.
  intros (before & ob & action & e & -> & P & F). apply play_has_shape in P. destruct (sh_last P) as (init & ob' & E1 & L1 & _). apply app_inj_tail in E1 as [<- E1].
  apply episodes_open. apply Forall_app. split; [|constructor; auto]. eapply Forall_impl; [|exact L1]. intros m [H _]. exact H.
Qed.
Lemma whole_episode ms : whole_play env any_end ms -> episodes [] ms = [ms].
Proof.
  intros (before & ob & e & -> & P & F). apply play_has_shape in P. destruct (sh_last P) as (init & ob' & E1 & L1 & _). apply app_inj_tail in E1 as [<- E1].
  apply episodes_whole; auto. - eapply Forall_impl; [|exact L1]. intros m [H _]. exact H.
  - cbn [app]. intros ->. destruct (sh_first P) as [C _]. cbn in C. rewrite C in F. discriminate.
Qed.
Lemma whole_proper ms : whole_play env any_end ms -> proper ms.
Proof.
  intros (before & ob & e & -> & P & F). apply play_has_shape in P. destruct (sh_last P) as (init & ob' & E1 & L1 & _). apply app_inj_tail in E1 as [<- E1].
  pose proof (sh_first P) as Q. destruct before as [|m0 mid]; cbn [app] in Q.
  - destruct Q as [C _]. cbn in C. rewrite C in F. discriminate.
  - destruct Q as [Q1 Q2]. exists m0, mid, (ob, None). split; auto. split; auto. split; [|exact F]. apply Forall_app in Q2 as [Q2 _]. inversion L1 as [|? ? _ L2]; subst.
    rewrite Forall_forall in *. intros m Im. destruct (Q2 m Im) as [[C|C] _]; auto. destruct (L2 m Im) as [D _]. congruence.
Qed.

Lemma stream_adds a (h : list (pop S)) : stream a (adds_of h) = stream a h.
Proof. unfold stream, adds_of in *. induction h as [|[os rs dr|o] h IH]; auto. cbn [filter flat_map]. f_equal. exact IH. Qed.
Lemma stream_len a : forall (h : list (pop S)), (List.length (stream a h) <= List.length (adds_of h))%nat.
Proof.
  unfold stream, adds_of in *. induction h as [|[os rs dr|o] h IH]; [cbn; lia| |exact IH]. cbn [flat_map filter List.length]. rewrite app_length.
  assert (Q : (List.length (match dget os a with Some ob => [(ob, dget rs a)] | None => [] end) <= 1)%nat) by (destruct (dget os a); cbn; lia). exact (Nat.add_le_mono _ _ _ _ Q IH).
Qed.

(** An answer in an agent's stream was given by the agent. *)
Lemma stream_answer n h a m r : Forall (call_ok agent dobs dact n) (adds_of h) -> In m (stream a h) -> snd m = Some r ->
  (exists act, r = mkResp [("actions", act)] [] /\ List.length act = dact) /\ exists i os rs, agent i os = Ok rs /\ dget os a = Some (fst m) /\ dget rs a = Some r.
Proof.
  intros C I Hm. rewrite <- stream_adds in I. unfold stream in I. apply in_flat_map in I as ([os rs dr|o] & Io & Im); [|destruct Im].
  rewrite Forall_forall in C. specialize (C _ Io). destruct C as (_ & _ & _ & _ & C5 & _ & i & C7).
  destruct (dget os a) as [ob|] eqn:G; [|destruct Im]. destruct Im as [<-|[]]. cbn [snd fst] in *. split.
  - apply dget_In in Hm. rewrite Forall_forall in C5. destruct (C5 _ Hm) as (act & Ea & La). cbn in Ea. eauto.
  - exists i, os, rs. auto.
Qed.

Definition gym_sch : schema := mkSchema ["obs"] ["actions"].

Lemma is_final_not_initial st : is_final st = true -> is_initial st = false.
Proof. destruct st; auto; discriminate. Qed.

Lemma answered_column pc (before : list (moment (S := S))) :
  Forall (fun m => is_final (o_state (fst m)) = false /\ exists a, snd m = Some (mkResp [("actions", a)] [])) before ->
  zlen (ProxySpec.column_of pc "actions" before) = zlen before.
Proof.
  induction 1 as [|m before [H1 (a & H2)] L IH]; auto. unfold ProxySpec.column_of in *. cbn [flat_map].
  assert (Em : contribution pc "actions" m = Some a). { unfold contribution. rewrite H1, H2. reflexivity. }
  rewrite Em. cbn [app]. unfold zlen in *. cbn [List.length]. lia.
Qed.
Lemma last_column pc (m : moment (S := S)) o : is_final (o_state (fst m)) = true -> o_data (fst m) = [("obs", o)] -> ProxySpec.column_of pc "actions" [m] = [].
Proof.
  intros F Eo. unfold ProxySpec.column_of. cbn [flat_map]. unfold contribution. rewrite F, Eo. destruct pc; reflexivity.
Qed.
Lemma actions_column pc ms : whole_play env any_end ms -> zlen (ProxySpec.column_of pc "actions" ms) = zlen ms - 1.
Proof.
  intros (before & ob & e & -> & P & F). pose proof (play_shape HS P) as Sh. apply play_has_shape in P. destruct (sh_last P) as (init & ob' & E1 & L1 & _). apply app_inj_tail in E1 as [<- E1].
  apply Forall_app in Sh as [Sh1 Sh2]. inversion Sh2 as [|? ? (o & Eo & _) _]; subst. cbn [fst] in Eo.
  assert (Ec : ProxySpec.column_of pc "actions" (before ++ [(ob, None)]) = ProxySpec.column_of pc "actions" before ++ ProxySpec.column_of pc "actions" [(ob, None)]) by apply flat_map_app.
  transitivity (zlen (ProxySpec.column_of pc "actions" before ++ [])).
  - f_equal. etransitivity; [exact Ec|]. f_equal. exact (@last_column pc (ob, None) o F Eo).
  - rewrite app_nil_r, (answered_column pc L1). unfold zlen. rewrite app_length. cbn [List.length]. unfold moment. lia.
Qed.

Lemma run_agents_gen n off g os hc h pc cols L k : inv n off g os hc -> adds_of h = hc -> other_uses h ->
  (forall a, whole_play env any_end (stream a h) -> zlen (stream a h) - 1 <= 2 ^ 53) -> pc_min pc = Some k -> Z.of_nat L <= k ->
  gym_sizes dobs dact cols ->
  batches_ok h /\ agents_ok pc cols "actions" gym_sch L h.
Proof.
  intros I Eh Ou Lh Pm Lk Cs. assert (C := i_calls I). rewrite <- Eh in C. split; [|split].
  - apply Forall_forall. intros o Io. destruct o as [os' rs dr|o].
    + assert (Ia : In (PAdd os' rs dr) (adds_of h)) by (apply filter_In; auto). rewrite Forall_forall in C. destruct (C _ Ia) as (A1 & _ & _ & A4 & A5 & _). split; auto. split.
      * eapply Forall_impl; [|exact A4]. intros x (o & -> & _). repeat constructor; auto.
      * eapply Forall_impl; [|exact A5]. intros x (o & -> & _). split; repeat constructor; auto.
    + unfold other_uses in Ou. rewrite Forall_forall in Ou. specialize (Ou _ Io). destruct o; auto.
  - apply Forall_forall. intros o Io. destruct o as [os' rs dr|o].
    + assert (Ia : In (PAdd os' rs dr) (adds_of h)) by (apply filter_In; auto). rewrite Forall_forall in C. destruct (C _ Ia) as (_ & _ & A3 & _). exact A3.
    + unfold other_uses in Ou. rewrite Forall_forall in Ou. specialize (Ou _ Io). destruct o; congruence || contradiction.
  - intros a stored. pose proof (stream_cases I a) as SC. rewrite <- Eh, stream_adds in SC.
    assert (Hst : stored = [] \/ whole_play env any_end (stream a h) /\ (forall ms, In ms stored -> ms = stream a h /\ kept pc "actions" ms = true) /\ (List.length stored <= 1)%nat).
    { unfold stored. destruct SC as [SC|[SC|SC]]; [rewrite SC; left; reflexivity| |rewrite (open_no_episode SC); left; reflexivity]. right. split; auto. rewrite (whole_episode SC). cbn [filter]. destruct (kept pc "actions" (stream a h)) eqn:K; cbn; split; try lia; intros ms []; subst; auto; contradiction. }
    destruct Hst as [-> | (W & Hms & Ll)]; [split; [cbn; lia|intros ms []]|]. split; auto. intros ms Im. destruct (Hms ms Im) as [-> K]. clear Hms Im.
    split; [apply whole_proper; auto|]. pose proof W as W0. destruct W as (before & ob & e & Es & P & F). pose proof (play_shape HS P) as Sh. pose proof (play_has_shape P) as P2.
    assert (Ans : forall m r, In m (stream a h) -> snd m = Some r -> exists act, r = mkResp [("actions", act)] [] /\ List.length act = dact).
    { intros m r Im Hr. destruct (@stream_answer n h a m r C Im Hr) as [Q _]. exact Q. }
    assert (First : forall m, In m (stream a h) -> is_initial (o_state (fst m)) = true \/ exists r, o_rewards (fst m) = [("reward", [r])]).
    { intros m Im. pose proof (sh_first P2) as Q. destruct (stream a h) as [|m0 r0]; [destruct Im|]. destruct Q as [Q1 Q2]. destruct Im as [<-|Im]; [rewrite Q1; auto|]. right. rewrite Forall_forall in Q2. apply (Q2 m Im). }
    assert (Notfin : forall m, In m (stream a h) -> is_final (o_state (fst m)) = false -> exists act, snd m = Some (mkResp [("actions", act)] [])).
    { intros m Im Fm. destruct (sh_last P2) as (init & ob' & E1 & L1 & _). rewrite E1 in Im. apply in_app_or in Im as [Im|[<-|[]]].
      - rewrite Forall_forall in L1. apply L1; auto.
      - exfalso. rewrite E1 in Es. apply app_inj_tail in Es as [_ Es]. injection Es as ->. cbn in Fm. congruence. }
    split; [|split; [|split]].
    + apply Forall_forall. intros m Im. rewrite Forall_forall in Sh. destruct (Sh m Im) as (o & Eo & _). split; [|split].
      * intros k0. unfold saw. rewrite Eo. cbn [gym_sch sc_obs]. cbn [dget]. destruct (keqb_spec k0 "obs") as [-> |Ne]; split; intros Q; try discriminate; auto; [left; auto|congruence|destruct Q as [Q|[]]; congruence].
      * intros Fm k0. destruct (Notfin m Im Fm) as [act Ha]. unfold answered. rewrite Ha. cbn [r_scalar r_list gym_sch sc_resp dget]. destruct (keqb_spec k0 "actions") as [-> |Ne]; cbn [orelse]; split; intros Q; try discriminate; auto; [left; auto|congruence|destruct Q as [Q|[]]; congruence].
      * intros Fi. destruct (First m Im) as [C0|[r Hr]]; [congruence|]. unfold received. rewrite Hr. discriminate.
    + apply Forall_forall. intros m Im c Ic. destruct (Cs c Ic) as (C1 & C2 & C3). rewrite Forall_forall in Sh. destruct (Sh m Im) as (o & Eo & Lo). split; [|split; [|split]].
      * intros v Hv. unfold saw in Hv. rewrite Eo in Hv. cbn [dget] in Hv. destruct (keqb_spec (c_name c) "obs") as [Ec|Ne]; [|discriminate]. injection Hv as <-. rewrite C1; auto.
      * intros v Hv. unfold answered in Hv. destruct (snd m) as [r|] eqn:Er; [|discriminate]. destruct (Ans m r Im Er) as (act & -> & La). cbn [r_scalar r_list dget] in Hv. destruct (keqb_spec (c_name c) "actions") as [Ec|Ne]; cbn [orelse] in Hv; [|discriminate]. injection Hv as <-. rewrite C2; auto.
      * intros v Ec Hv. destruct (First m Im) as [C0|[r Hr]].
        -- (* the first observation has no reward *)
           exfalso. pose proof (sh_steps P2) as St0. unfold received in Hv. clear -Hv C0 Im P2 P First. 
           assert (R0 : o_rewards (fst m) = []). { clear Hv First P2. revert m C0 Im. induction P as [e0 e o R|b ob e action e' an P IH Fo St]; intros m C0 Im.
             - destruct Im as [<-|[]]. reflexivity.
             - apply in_app_or in Im as [Im|[<-|[<-|[]]]]; [apply IH; auto; apply in_or_app; auto| |].
               + apply (IH (ob, None)); auto. apply in_or_app. right. left. reflexivity.
               + cbn in C0. unfold any_end in C0. destruct (an_term an || an_trunc an); discriminate. }
           rewrite R0 in Hv. discriminate.
        -- unfold received in Hv. rewrite Hr in Hv. cbn in Hv. injection Hv as <-. rewrite C3; auto.
      * intros Ec. apply C3. auto.
    + unfold kept in K. rewrite Pm in K. rewrite (actions_column (pc_terminal pc) W0) in K. apply Z.leb_le in K. lia.
    + apply Lh. exact W0.
Qed.
Lemma run_agents n off g os hc h pc cols L k : inv n off g os hc -> adds_of h = hc -> other_uses h ->
  Z.of_nat (List.length hc) <= 2 ^ 53 -> pc_min pc = Some k -> Z.of_nat L <= k ->
  gym_sizes dobs dact cols ->
  batches_ok h /\ agents_ok pc cols "actions" gym_sch L h.
Proof.
  intros I Eh Ou Lh. eapply run_agents_gen; eauto. intros a _. pose proof (stream_len a h) as Q. rewrite Eh in Q. unfold zlen. lia.
Qed.

Lemma gym_transitions draws envs count c outs pc cols maxlen smp ej (h : list (pop S)) p n L dr out k :
  envs <> [] -> collect_run num env agent draws (gym_new envs) count = Ok (c, outs) ->
  adds_of h = map fst outs -> other_uses h -> Z.of_nat count <= 2 ^ 53 -> pc_min pc = Some k -> Z.of_nat L <= k -> (1 <= L)%nat ->
  config_ok cols "actions" -> fresh_sampler smp -> fresh_ejector ej -> layout cols "actions" (pc_terminal pc) (mkSchema ["obs"] ["actions"]) ->
  gym_sizes dobs dact cols ->
  prun pc (px_new (t_create cols "actions" maxlen smp ej)) h = (p, Ok tt) ->
  snd (t_sample (px_table p) n L dr) = Ok out ->
  forall r, (r < n * L)%nat ->
  exists e o action e' a, reached env e o /\ g_step env e action = (e', a) /\
    (exists i os rs id ob, agent i os = Ok rs /\ dget os id = Some ob /\ o_data ob = [("obs", o)] /\ dget rs id = Some (mkResp [("actions", action)] [])) /\
    gym_row cols out r o action a.
Proof.
  intros Hne ER Eh Ou Lc Pm Lk L1 CO Fs Fe LA Sz EP EO r Hr.
  destruct (whole_run num HS HA draws count Hne) as (c' & outs' & off & E1 & Ln & (I & _) & _). rewrite ER in E1. injection E1 as <- <-.
  assert (Lh : Z.of_nat (List.length (map fst outs)) <= 2 ^ 53) by (rewrite map_length; lia).
  destruct (run_agents I Eh Ou Lh Pm Lk Sz) as [BO AO].
  assert (SO : schema_ok (pc_terminal pc) gym_sch).
  { unfold schema_ok, names. cbn. destruct (pc_terminal pc); repeat constructor; cbn; intuition discriminate. }
  destruct (@end_to_end _ _ pc cols "actions" maxlen smp ej gym_sch h p n L dr out CO Fs Fe SO LA BO AO L1 EP EO r Hr) as (a & ms & i & m & m' & Im & H1 & H2 & T).
  pose proof (stream_cases I a) as SC. rewrite <- Eh, stream_adds in SC.
  assert (W : whole_play env any_end (stream a h) /\ ms = stream a h).
  { destruct SC as [SC|[SC|SC]].
    - rewrite SC in Im. destruct Im.
    - split; auto. rewrite (whole_episode SC) in Im. destruct Im as [<-|[]]. reflexivity.
    - rewrite (open_no_episode SC) in Im. destruct Im. }
  destruct W as [W ->]. destruct W as (before & ob & e1 & Es & P & F). apply play_has_shape in P.
  destruct (sh_steps P H1 H2) as (e & o & action & e' & an & Q1 & Q2 & Q3 & Q4 & Q5).
  exists e, o, action, e', an. split; auto. split; auto. split.
  - assert (Cs := i_calls I). rewrite <- Eh in Cs. destruct (stream_answer Cs (nth_error_In _ _ H1) Q4) as [_ (i0 & os & rs & A1 & A2 & A3)].
    exists i0, os, rs, a, (fst m). auto.
  - intros c0 Ic. destruct (T c0 Ic) as (T1 & T2 & T3 & T4 & T5 & T6).
    assert (S1 : saw m "obs" = Some o) by (unfold saw; rewrite Q3; reflexivity).
    assert (S2 : answered m "actions" = Some action) by (unfold answered; rewrite Q4; reflexivity).
    assert (S3 : received m' = Some [an_reward an]) by (unfold received; rewrite Q5; reflexivity).
    assert (S4 : saw m' "obs" = Some (an_obs an)) by (unfold saw; rewrite Q5; reflexivity).
    assert (S5 : is_final (o_state (fst m')) = an_term an || an_trunc an) by (rewrite Q5; cbn; unfold any_end; destruct (an_term an || an_trunc an); reflexivity).
    split; [|split; [|split; [|split; [|split]]]].
    + intros B N. rewrite N in T1. destruct (T1 B (or_introl eq_refl)) as [_ ->]. rewrite S1. reflexivity.
    + intros B N. rewrite N in T2. destruct (T2 B (or_introl eq_refl)) as [_ ->]. rewrite S2. reflexivity.
    + intros B N. destruct (T3 B N) as [_ T3']. rewrite N in T3'. rewrite T3', S3. reflexivity.
    + intros d Id Kd. destruct (T4 d Id Kd) as [_ ->]. destruct LA as (_ & _ & LA). specialize (LA c0 Ic). rewrite Kd in LA. destruct LA as [LA|[]]. rewrite <- LA, S4. reflexivity.
    + intros tg Kd. rewrite (T5 tg Kd), S5. reflexivity.
    + intros tg Kd. rewrite (T6 tg Kd), S5. reflexivity.
Qed.
End P.
