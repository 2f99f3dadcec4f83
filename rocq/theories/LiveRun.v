(** * LiveRun: what an experiment trains on *)
From Coq Require Import Reals Lia.
From Verif Require Import Py PyLemmas MemModel MemSpec ProxyModel ProxySpec ProxyE2E LoaderModel TrainModel TrainSpec
  GymModel GymSpec GymProofs GymMore GymRun GymE2E LiveModel LiveSpec.
Set Implicit Arguments. Unset Strict Implicit.
Open Scope string_scope.
Open Scope list_scope.
Open Scope Z_scope.

Section Env.
Context {S E : Type} {HSc : Scalar S}.
Variable env : genv S E.
Notation play := (play env any_end).
Notation moment := (@moment S).
Notation path := (path env).

Lemma path_app e o l e1 o1 l' e2 o2 : path e o l e1 o1 -> path e1 o1 l' e2 o2 -> path e o (l ++ l') e2 o2.
Proof. induction 1 as [|e o action e' a l e'' o'' St _ IH]; intros H; auto. cbn [app]. econstructor; eauto. Qed.
Lemma path_split l1 : forall e o l2 e2 o2, path e o (l1 ++ l2) e2 o2 -> exists e1 o1, path e o l1 e1 o1 /\ path e1 o1 l2 e2 o2.
Proof.
  induction l1 as [|x l1 IH]; intros e o l2 e2 o2 H; [exists e, o; split; [constructor|auto]|]. cbn [app] in H.
  inversion H as [|? ? action e' a ? ? ? St Re]; subst. destruct (IH _ _ _ _ _ Re) as (e1 & o1 & A & B). exists e1, o1. split; auto. econstructor; eauto.
Qed.

(** The moments of an episode and the steps of the environment. *)
Record walked (ms : list moment) (tr : list (estep S)) (o : list S) : Prop := {
  wk_len : List.length ms = Datatypes.S (List.length tr);
  wk_last : exists init ob, ms = init ++ [(ob, None)] /\ o_data ob = [("obs", o)];
  wk_next : forall k x, nth_error tr k = Some x -> exists m m', nth_error ms k = Some m /\ nth_error ms (Datatypes.S k) = Some m' /\
    is_final (o_state (fst m)) = false /\ o_data (fst m) = [("obs", es_saw x)] /\ snd m = Some (mkResp [("actions", es_did x)] []) /\
    fst m' = mkObs [("reward", [an_reward (es_got x)])] (any_end (an_term (es_got x)) (an_trunc (es_got x))) [("obs", an_obs (es_got x))] }.

Lemma play_walk ms e : play ms e -> exists e0 e1 o1 tr o, g_reset env e0 = (e1, o1) /\ path e1 o1 tr e o /\ walked ms tr o.
Proof.
  induction 1 as [e0 e o R|before ob e action e' a P IH F St].
  - exists e0, e, o, [], o. split; auto. split; [constructor|]. constructor; [reflexivity|exists [], (mkObs [] INITIAL [("obs", o)]); auto|]. intros [|k] x Hx; discriminate.
  - destruct IH as (e0 & e1 & o1 & tr & o & R & Ss & [T1 (init & ob' & T0 & T0') T2]). apply app_inj_tail in T0 as [<- T0]. injection T0 as <-.
    exists e0, e1, o1, (tr ++ [mkStep o action a]), (an_obs a). split; auto.
    split; [eapply path_app; eauto; econstructor; eauto; constructor|]. rewrite app_length in T1. cbn [List.length] in T1.
    assert (Lb : List.length before = List.length tr) by lia.
    set (m2 := (mkObs [("reward", [an_reward a])] (any_end (an_term a) (an_trunc a)) [("obs", an_obs a)], @None (resp S))).
    set (m1 := (ob, Some (mkResp [("actions", action)] []))).
    constructor; [rewrite !app_length; cbn [List.length]; lia| |].
    { exists (before ++ [m1]), (fst m2). rewrite <- app_assoc. auto. }
    intros k x Hx.
    destruct (Nat.ltb_spec k (List.length tr)) as [Lk|Lk].
    + rewrite nth_error_app1 in Hx by auto. destruct (T2 k x Hx) as (m & m' & H1 & H2 & H3 & H4 & H5 & H6).
      rewrite nth_error_app1 in H1 by lia. exists m.
      destruct (Nat.ltb_spec (Datatypes.S k) (List.length before)) as [Lk'|Lk'].
      * rewrite nth_error_app1 in H2 by auto. exists m'. rewrite !nth_error_app1 by lia. auto 7.
      * rewrite nth_error_app2 in H2 by auto. assert (Ek : (Datatypes.S k - List.length before = 0)%nat) by lia. rewrite Ek in H2. cbn in H2. injection H2 as <-.
        exists m1. rewrite nth_error_app1 by lia. rewrite (@nth_error_app2 _ before _ (Datatypes.S k)) by lia. rewrite Ek. auto 7.
    + rewrite nth_error_app2 in Hx by auto. destruct (k - List.length tr)%nat as [|q] eqn:Ek; [|destruct q; discriminate]. cbn in Hx. injection Hx as <-.
      exists m1, m2. rewrite !nth_error_app2 by lia.
      replace (k - List.length before)%nat with 0%nat by lia. replace (Datatypes.S k - List.length before)%nat with 1%nat by lia. auto 7.
Qed.

Lemma walk_not_over ms tr o k : walked ms tr o -> (Datatypes.S k < List.length tr)%nat -> forall x, nth_error tr k = Some x -> ends x = false.
Proof.
  intros [T1 _ T2] Hk x Hx. destruct (T2 k x Hx) as (m & m' & H1 & H2 & H3 & _ & _ & H4).
  destruct (nth_error tr (Datatypes.S k)) as [y|] eqn:Ey; [|apply nth_error_None in Ey; lia].
  destruct (T2 _ _ Ey) as (n & n' & N1 & _ & N3 & _). rewrite H2 in N1. injection N1 as <-. rewrite H4 in N3. cbn in N3. unfold any_end in N3.
  unfold ends. destruct (an_term (es_got x) || an_trunc (es_got x)); auto; discriminate.
Qed.

Lemma nth_skip {A} (l : list A) i k : nth_error (skipn i l) k = nth_error l (i + k).
Proof. revert l. induction i as [|i IH]; intros l; auto. destruct l; [destruct k; reflexivity|]. apply IH. Qed.
Lemma nth_first {A} (l : list A) n k : (k < n)%nat -> nth_error (firstn n l) k = nth_error l k.
Proof. revert n k. induction l as [|a l IH]; intros [|n] [|k] H; simpl; auto; try lia. apply IH. lia. Qed.
Lemma nth_rl {A} (l : list A) k x : nth_error (removelast l) k = Some x -> (Datatypes.S k < List.length l)%nat /\ nth_error l k = Some x.
Proof.
  revert k. induction l as [|y l IH]; intros k H; [destruct k; discriminate|]. destruct l as [|z l]; [destruct k; discriminate|].
  cbn [removelast] in H. destruct k as [|k]; [cbn in *; split; [lia|auto]|]. cbn [nth_error] in H. apply IH in H as [H1 H2]. cbn in *. split; [lia|auto].
Qed.

Lemma walk_slice ms e i L : play ms e -> (i + L < List.length ms)%nat -> (1 <= L)%nat -> exists l, List.length l = L /\ in_an_episode env l /\
  forall k x, nth_error l k = Some x -> exists m m', nth_error ms (i + k) = Some m /\ nth_error ms (i + k + 1) = Some m' /\
    o_data (fst m) = [("obs", es_saw x)] /\ snd m = Some (mkResp [("actions", es_did x)] []) /\
    fst m' = mkObs [("reward", [an_reward (es_got x)])] (any_end (an_term (es_got x)) (an_trunc (es_got x))) [("obs", an_obs (es_got x))].
Proof.
  intros P Hl HL. destruct (play_walk P) as (e0 & e1 & o1 & tr & o & R & Ss & T). pose proof T as [T1 _ T2].
  exists (firstn L (skipn i tr)). assert (Ll : List.length (firstn L (skipn i tr)) = L) by (rewrite firstn_length, skipn_length; lia).
  split; auto. split.
  - rewrite <- (firstn_skipn i tr) in Ss. destruct (path_split Ss) as (e2 & o2 & S1 & S2).
    rewrite <- (firstn_skipn L (skipn i tr)) in S2. destruct (path_split S2) as (e3 & o3 & S3 & _).
    exists e0, e1, o1, (firstn i tr), e2, o2, e3, o3. split; auto. split; auto. split; auto.
    apply Forall_forall. intros x I. apply in_app_or in I as [I|I]; apply In_nth_error in I as [k Hk].
    + assert (Hki : (k < i)%nat). { assert (k < List.length (firstn i tr))%nat by (apply nth_error_Some; congruence). rewrite firstn_length in *. lia. }
      rewrite nth_first in Hk by auto. eapply walk_not_over; eauto. lia.
    + apply nth_rl in Hk as [Hki Hk]. rewrite Ll in Hki. rewrite nth_first, nth_skip in Hk by lia. eapply walk_not_over; [exact T| |exact Hk]. lia.
  - intros k x Hk. assert (HkL : (k < L)%nat) by (rewrite <- Ll; apply nth_error_Some; congruence).
    rewrite nth_first, nth_skip in Hk by auto. destruct (T2 _ _ Hk) as (m & m' & H1 & H2 & H3 & H4 & H5 & H6). exists m, m'. rewrite Nat.add_1_r. auto.
Qed.

Variable num : S -> R.
(** [inv] looks at the agent only to say that it gave the answers. *)
Lemma inv_other (a1 a2 : nat -> dict Z (obs S) -> res (dict Z (resp S))) dobs dact n off g os h :
  (forall i os rs, a1 i os = Ok rs -> exists j, a2 j os = Ok rs) -> inv num env a1 dobs dact n off g os h -> inv num env a2 dobs dact n off g os h.
Proof.
  intros M [I1 I2 I3 I4 I5 I6 I7 I8 I9 I10 I11 I12 I13]. constructor; auto. eapply Forall_impl; [|exact I13]. intros [os' rs dr|o]; cbn; auto.
  intros (A1 & A2 & A3 & A4 & A5 & A6 & i & A7). destruct (M _ _ _ A7) as [j Hj]. repeat split; auto. eauto.
Qed.

Section Rollouts.
Context {V : Type}.
Variable agent : V -> nat -> dict Z (obs S) -> res (dict Z (resp S)).
Variables dobs dact : nat.
Hypothesis HS : shows env dobs.

(** The calls of memory.add and the notes. *)
Definition noted (o : pop S) (x : note S V) : Prop :=
  match o, x with PAdd os rs _, NAdd v os' rs' => os = os' /\ rs = rs' /\ exists i, agent v i os = Ok rs | _, _ => False end.

Lemma rollout_ok (agent' : nat -> dict Z (obs S) -> res (dict Z (resp S))) nenv off g os hc h nts pc cols maxlen smp ej p n L dr out k :
  inv num env agent' dobs dact nenv off g os hc -> adds_of h = hc -> other_uses h ->
  Forall (fun o => exists x, In x nts /\ noted o x) hc ->
  Z.of_nat (List.length hc) <= 2 ^ 53 -> pc_min pc = Some k -> Z.of_nat L <= k -> (1 <= L)%nat ->
  config_ok cols "actions" -> fresh_sampler smp -> fresh_ejector ej -> layout cols "actions" (pc_terminal pc) (mkSchema ["obs"] ["actions"]) ->
  gym_sizes dobs dact cols ->
  prun pc (px_new (t_create cols "actions" maxlen smp ej)) h = (p, Ok tt) ->
  snd (t_sample (px_table p) n L dr) = Ok out ->
  batch_sized cols out n L /\ forall j, (j < n)%nat -> rollout_happened env agent cols L nts out j.
Proof.
  intros I Eh Ou Nt Lc Pm Lk L1 CO Fs Fe LA Sz EP EO.
  destruct (run_agents HS I Eh Ou Lc Pm Lk Sz) as [BO AO].
  assert (SO : schema_ok (pc_terminal pc) (mkSchema ["obs"] ["actions"])).
  { unfold schema_ok, names. cbn. destruct (pc_terminal pc); repeat constructor; cbn; intuition discriminate. }
  destruct (@end_to_end_windows _ _ pc cols "actions" maxlen smp ej (mkSchema ["obs"] ["actions"]) h p n L dr out CO Fs Fe SO LA BO AO L1 EP EO) as [Bs Wn].
  split; [exact Bs|]. intros j Hj. destruct (Wn j Hj) as (a & ms & i & Im & Hl & Ht & Hn & _).
  pose proof (stream_cases I a) as SC. rewrite <- Eh, stream_adds in SC.
  assert (W : whole_play env any_end (stream a h) /\ ms = stream a h).
  { destruct SC as [SC|[SC|SC]].
    - rewrite SC in Im. destruct Im.
    - split; auto. rewrite (whole_episode 0 SC) in Im. destruct Im as [<-|[]]. reflexivity.
    - rewrite (open_no_episode 0 SC) in Im. destruct Im. }
  destruct W as [W E0]. destruct W as (before & ob & e1 & Es & P & F). rewrite <- E0 in P.
  destruct (walk_slice P Hl L1) as (l & Ll & Pl & Hk). exists l. split; auto. split; auto. split; [|split].
  - apply Forall_forall. intros x Ix. apply In_nth_error in Ix as [t Hx]. destruct (Hk t x Hx) as (m & m' & H1 & H2 & H3 & H4 & H5).
    assert (Is : In m (stream a (adds_of h))). { rewrite stream_adds, <- E0. eapply nth_error_In. exact H1. }
    unfold stream in Is. apply in_flat_map in Is as ([os' rs dr'|o] & Io & Is); [|destruct Is].
    destruct (dget os' a) as [ob'|] eqn:G; [|destruct Is]. destruct Is as [<-|[]]. cbn [fst snd] in *.
    rewrite Eh in Io. rewrite Forall_forall in Nt. destruct (Nt _ Io) as ([v os2 rs2|rows] & In2 & N); [|destruct N]. destruct N as (<- & <- & i0 & N).
    exists v, os', rs, i0, a, ob'. auto 7.
  - intros t x Hx. destruct (Hk t x Hx) as (m & m' & H1 & H2 & Q3 & Q4 & Q5).
    assert (Htl : (t < L)%nat) by (rewrite <- Ll; apply nth_error_Some; congruence).
    pose proof (Ht t m m' Htl H1 H2) as T. intros c0 Ic. destruct (T c0 Ic) as (T1 & T2 & T3 & T4 & T5 & T6).
    set (an := es_got x) in *.
    assert (S1 : saw m "obs" = Some (es_saw x)) by (unfold saw; rewrite Q3; reflexivity).
    assert (S2 : answered m "actions" = Some (es_did x)) by (unfold answered; rewrite Q4; reflexivity).
    assert (S3 : received m' = Some [an_reward an]) by (unfold received; rewrite Q5; reflexivity).
    assert (S4 : saw m' "obs" = Some (an_obs an)) by (unfold saw; rewrite Q5; reflexivity).
    assert (S5 : is_final (o_state (fst m')) = an_term an || an_trunc an) by (rewrite Q5; cbn; unfold any_end; destruct (an_term an || an_trunc an); reflexivity).
    split; [|split; [|split; [|split; [|split]]]].
    + intros B N. rewrite N in T1. destruct (T1 B (or_introl eq_refl)) as [_ ->]. rewrite S1. reflexivity.
    + intros B N. rewrite N in T2. destruct (T2 B (or_introl eq_refl)) as [_ ->]. rewrite S2. reflexivity.
    + intros B N. destruct (T3 B N) as [_ T3']. rewrite N in T3'. rewrite T3', S3. reflexivity.
    + intros d Id Kd. destruct (T4 d Id Kd) as [_ ->]. destruct LA as (_ & _ & LA). specialize (LA c0 Ic). rewrite Kd in LA. destruct LA as [LA|[]]. rewrite <- LA, S4. reflexivity.
    + intros tg Kd. rewrite (T5 tg Kd), S5. reflexivity.
    + intros tg Kd. rewrite (T6 tg Kd), S5. reflexivity.
  - intros c d x Ic Id Kd Hx. destruct (Hk (L - 1)%nat x Hx) as (m & m' & H1 & H2 & Q3 & Q4 & Q5).
    replace (i + (L - 1) + 1)%nat with (i + L)%nat in H2 by lia. destruct (Hn c d m' Ic Id Kd H2) as [_ ->].
    destruct LA as (_ & _ & LA). specialize (LA c Ic). rewrite Kd in LA. destruct LA as [LA|[]]. rewrite <- LA. unfold saw. rewrite Q5. reflexivity.
Qed.
End Rollouts.
End Env.
