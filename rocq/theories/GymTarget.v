(** * GymTarget: the targets of data a collector gathered (C133) *)
From Coq Require Import Reals Lia Lra.
From Verif Require Import Py PyLemmas MemModel MemSpec ProxyModel ProxySpec ProxyE2E AgentModel AgentSpec AgentProofs NumModel NumSpec NumProofs
  GymModel GymSpec GymProofs GymMore GymRun GymE2E E2ESpec E2EProofs GymTSpec.
Set Implicit Arguments. Unset Strict Implicit.
Open Scope string_scope.
Open Scope list_scope.
Open Scope Z_scope.

Section P.
Context {S E : Type} {HSc : Scalar S}.
Variable env : genv S E.
Notation play := (play env any_end).
Notation moment := (@moment S).

Lemma steps_app e l e1 l' e2 : steps env e l e1 -> steps env e1 l' e2 -> steps env e (l ++ l') e2.
Proof. induction 1 as [|e action e' a l e'' St _ IH]; intros H; auto. cbn [app]. econstructor; eauto. Qed.
Lemma steps_split l1 : forall e l2 e2, steps env e (l1 ++ l2) e2 -> exists e1, steps env e l1 e1 /\ steps env e1 l2 e2.
Proof.
  induction l1 as [|x l1 IH]; intros e l2 e2 H; [exists e; split; [constructor|auto]|]. cbn [app] in H.
  inversion H as [|? action e' a ? ? St Re]; subst. destruct (IH _ _ _ Re) as (e1 & A & B). exists e1. split; auto. econstructor; eauto.
Qed.

(** The moments of an episode and the steps of the environment. *)
Record traced (ms : list moment) (tr : list (list S * answer S)) : Prop := {
  tr_len : List.length ms = Datatypes.S (List.length tr);
  tr_next : forall k x, nth_error tr k = Some x -> exists m m', nth_error ms k = Some m /\ nth_error ms (Datatypes.S k) = Some m' /\
    is_final (o_state (fst m)) = false /\
    fst m' = mkObs [("reward", [an_reward (snd x)])] (any_end (an_term (snd x)) (an_trunc (snd x))) [("obs", an_obs (snd x))] }.

Lemma play_trace ms e : play ms e -> exists e0 e1 o tr, g_reset env e0 = (e1, o) /\ steps env e1 tr e /\ traced ms tr.
Proof.
  induction 1 as [e0 e o R|before ob e action e' a P IH F St].
  - exists e0, e, o, []. split; auto. split; [constructor|]. constructor; [reflexivity|]. intros [|k] x Hx; discriminate.
  - destruct IH as (e0 & e1 & o & tr & R & Ss & [T1 T2]). exists e0, e1, o, (tr ++ [(action, a)]). split; auto.
    split; [eapply steps_app; eauto; econstructor; eauto; constructor|]. rewrite app_length in T1. cbn [List.length] in T1.
    assert (Lb : List.length before = List.length tr) by lia.
    set (m2 := (mkObs [("reward", [an_reward a])] (any_end (an_term a) (an_trunc a)) [("obs", an_obs a)], @None (resp S))).
    constructor; [rewrite !app_length; cbn [List.length]; lia|]. intros k x Hx.
    destruct (Nat.ltb_spec k (List.length tr)) as [Lk|Lk].
    + rewrite nth_error_app1 in Hx by auto. destruct (T2 k x Hx) as (m & m' & H1 & H2 & H3 & H4).
      rewrite nth_error_app1 in H1 by lia. exists m.
      destruct (Nat.ltb_spec (Datatypes.S k) (List.length before)) as [Lk'|Lk'].
      * rewrite nth_error_app1 in H2 by auto. exists m'. rewrite !nth_error_app1 by lia. auto.
      * rewrite nth_error_app2 in H2 by auto. assert (Ek : (Datatypes.S k - List.length before = 0)%nat) by lia. rewrite Ek in H2. cbn in H2. injection H2 as <-.
        exists (ob, Some (mkResp [("actions", action)] [])). rewrite nth_error_app1 by lia. rewrite (@nth_error_app2 _ before _ (Datatypes.S k)) by lia. rewrite Ek. auto.
    + rewrite nth_error_app2 in Hx by auto. destruct (k - List.length tr)%nat as [|q] eqn:Ek; [|destruct q; discriminate]. cbn in Hx. injection Hx as <-.
      exists (ob, Some (mkResp [("actions", action)] [])), m2. rewrite !nth_error_app2 by lia.
      replace (k - List.length before)%nat with 0%nat by lia. replace (Datatypes.S k - List.length before)%nat with 1%nat by lia. auto.
Qed.

Lemma not_over ms tr k : traced ms tr -> (Datatypes.S k < List.length tr)%nat -> forall x, nth_error tr k = Some x -> over x = false.
Proof.
  intros [T1 T2] Hk x Hx. destruct (T2 k x Hx) as (m & m' & H1 & H2 & H3 & H4).
  destruct (nth_error tr (Datatypes.S k)) as [y|] eqn:Ey; [|apply nth_error_None in Ey; lia].
  destruct (T2 _ _ Ey) as (n & n' & N1 & _ & N3 & _). rewrite H2 in N1. injection N1 as <-. rewrite H4 in N3. cbn in N3. unfold any_end in N3.
  unfold over. destruct (an_term (snd x) || an_trunc (snd x)); auto; discriminate.
Qed.

Lemma nth_error_skipn {A} (l : list A) i k : nth_error (skipn i l) k = nth_error l (i + k).
Proof. revert l. induction i as [|i IH]; intros l; auto. destruct l; [destruct k; reflexivity|]. apply IH. Qed.
Lemma nth_error_firstn_lt {A} (l : list A) n k : (k < n)%nat -> nth_error (firstn n l) k = nth_error l k.
Proof. revert n k. induction l as [|a l IH]; intros [|n] [|k] H; simpl; auto; try lia. apply IH. lia. Qed.
Lemma nth_error_removelast {A} (l : list A) k : (Datatypes.S k < List.length l)%nat -> nth_error (removelast l) k = nth_error l k.
Proof.
  revert k. induction l as [|x r IH]; intros k Hk; [cbn in Hk; lia|]. destruct r as [|y r]; [cbn in Hk; lia|].
  cbn [removelast]. destruct k; auto. cbn [nth_error]. apply IH. cbn in *. lia.
Qed.
Lemma removelast_short {A} (l : list A) : List.length (removelast l) = (List.length l - 1)%nat.
Proof. induction l as [|x r IH]; auto. destruct r as [|y r]; auto. cbn [removelast List.length] in *. lia. Qed.

Variable num : S -> R.
(** The slice of [L] steps from step [i]. *)
Lemma slice ms e i L : play ms e -> (i + L < List.length ms)%nat -> (1 <= L)%nat -> exists l, List.length l = L /\ part_of_episode env l /\
  (forall k x, nth_error l k = Some x -> of_moment ms (i + k + 1) received = Some [an_reward (snd x)] /\
     of_moment ms (i + k + 1) (fun m => saw m "obs") = Some (an_obs (snd x)) /\ ended_at ms (i + k + 1) = over x).
Proof.
  intros P Hl HL. destruct (play_trace P) as (e0 & e1 & o & tr & R & Ss & T). pose proof T as [T1 T2].
  exists (firstn L (skipn i tr)). assert (Ll : List.length (firstn L (skipn i tr)) = L) by (rewrite firstn_length, skipn_length; lia).
  split; auto. split.
  - rewrite <- (firstn_skipn i tr) in Ss. destruct (steps_split Ss) as (e2 & S1 & S2).
    rewrite <- (firstn_skipn L (skipn i tr)) in S2. destruct (steps_split S2) as (e3 & S3 & _).
    exists e0, e1, o, (firstn i tr), e2, e3. split; auto. split; auto. split; auto. split.
    + apply Forall_forall. intros x I. apply In_nth_error in I as [k Hk].
      assert (Hki : (k < i)%nat). { assert (k < List.length (firstn i tr))%nat by (apply nth_error_Some; congruence). rewrite firstn_length in *. lia. }
      rewrite nth_error_firstn_lt in Hk by auto. eapply not_over; eauto. lia.
    + apply Forall_forall. intros x I. apply In_nth_error in I as [k Hk].
      assert (Hki : (k < L - 1)%nat). { assert (k < List.length (removelast (firstn L (skipn i tr))))%nat by (apply nth_error_Some; congruence). rewrite removelast_short in *. lia. }
      rewrite nth_error_removelast in Hk by lia. rewrite nth_error_firstn_lt, nth_error_skipn in Hk by lia.
      eapply not_over; [exact T| |exact Hk]. lia.
  - intros k x Hk. assert (HkL : (k < L)%nat) by (rewrite <- Ll; apply nth_error_Some; congruence).
    rewrite nth_error_firstn_lt, nth_error_skipn in Hk by auto. destruct (T2 _ _ Hk) as (m & m' & H1 & H2 & H3 & H4).
    unfold of_moment, ended_at. rewrite Nat.add_1_r, H2. unfold received, saw. rewrite H4. cbn [o_rewards o_data o_state].
    split; auto. split; auto. unfold any_end, over. destruct (an_term (snd x) || an_trunc (snd x)); reflexivity.
Qed.

Hypothesis num0 : num s_zero = 0%R.
Hypothesis num1 : num s_one = 1%R.
Variable agent : nat -> dict Z (obs S) -> res (dict Z (resp S)).
Variables dobs dact : nat.
Hypothesis HS : shows env dobs.
Hypothesis HA : answers_all dobs dact agent.

Lemma gym_targets draws envs count c outs pc cols maxlen smp ej (h : list (pop S)) p n L dr out k gamma scale masking reward nexts mask value :
  envs <> [] -> collect_run num env agent draws (gym_new envs) count = Ok (c, outs) ->
  adds_of h = map fst outs -> other_uses h -> Z.of_nat count <= 2 ^ 53 -> pc_min pc = Some k -> Z.of_nat L <= k -> (1 <= L)%nat ->
  config_ok cols "actions" -> fresh_sampler smp -> fresh_ejector ej -> layout cols "actions" (pc_terminal pc) (mkSchema ["obs"] ["actions"]) ->
  gym_sizes dobs dact cols ->
  prun pc (px_new (t_create cols "actions" maxlen smp ej)) h = (p, Ok tt) ->
  snd (t_sample (px_table p) n L dr) = Ok out ->
  In reward cols -> is_base reward -> c_name reward = "rewards" ->
  Forall (fun q => In (fst q) cols /\ (c_kind (fst q) = KVirt (c_name (snd q)) MNextLast \/ c_kind (fst q) = KVirt (c_name (snd q)) MNext /\ L = 1%nat)
                   /\ In (snd q) cols) nexts ->
  In mask cols -> (exists tg, c_kind mask = KVirt tg MMask) ->
  exists qt,
    q_target gamma scale L masking (NumSpec.row_by_row value) (observations out (map (fun q => c_name (fst q)) nexts) n)
         (numbers num out (c_name reward)) (numbers num out (c_name mask)) = Ok qt
    /\ List.length qt = (n * L)%nat
    /\ forall j, (j < n)%nat -> exists l, List.length l = L /\ part_of_episode env l
       /\ forall t, (t < L)%nat -> nth_error qt (j * L + t) = Some (return_of num gamma scale masking reward (map snd nexts) (value j) l t).
Proof.
  intros Hne ER Eh Ou Lc Pm Lk L1 CO Fs Fe LA Sz EP EO Ir Br Nr Nx Imk Km.
  destruct (whole_run num HS HA draws count Hne) as (c' & outs' & off & E1 & Ln & (I & _) & _). rewrite ER in E1. injection E1 as <- <-.
  assert (Lh : Z.of_nat (List.length (map fst outs)) <= 2 ^ 53) by (rewrite map_length; lia).
  destruct (run_agents HS I Eh Ou Lh Pm Lk Sz) as [BO AO].
  assert (SO : schema_ok (pc_terminal pc) (mkSchema ["obs"] ["actions"])).
  { unfold schema_ok, names. cbn. destruct (pc_terminal pc); repeat constructor; cbn; intuition discriminate. }
  destruct (@agent_targets S HSc num num0 num1 pc cols "actions" maxlen smp ej _ h p n L dr out gamma scale masking reward nexts mask value
     CO Fs Fe SO LA BO AO L1 EP EO Ir Br Nr Nx Imk Km) as (qt & Eq & Lq & Hq).
  exists qt. split; auto. split; auto. intros j Hj. destruct (Hq j Hj) as (a & ms & i & Im & Hl & Ht).
  pose proof (stream_cases I a) as SC. rewrite <- Eh, stream_adds in SC.
  assert (W : whole_play env any_end (stream a h) /\ ms = stream a h).
  { destruct SC as [SC|[SC|SC]].
    - rewrite SC in Im. destruct Im.
    - split; auto. rewrite (whole_episode 0 SC) in Im. destruct Im as [<-|[]]. reflexivity.
    - rewrite (open_no_episode 0 SC) in Im. destruct Im. }
  destruct W as [W E0]. destruct W as (before & ob & e1 & Es & P & F). rewrite <- E0 in P.
  destruct (@slice ms e1 i L P Hl L1) as (l & Ll & Pl & Hk). exists l. split; auto. split; auto.
  intros t Hlt. rewrite (Ht t Hlt). f_equal. unfold experienced_target, return_of. f_equal.
  - rewrite <- Ll. apply (nth_ext _ _ 0%R 0%R); rewrite !map_length, seq_length; auto. intros q Hlq.
    destruct (nth_error l q) as [x|] eqn:Ex; [|apply nth_error_None in Ex; lia].
    rewrite nth_indep with (d' := (fun k => scale * reward_for num reward ms (i + k))%R 0%nat) by (rewrite map_length, seq_length; auto).
    rewrite (map_nth (fun k => scale * reward_for num reward ms (i + k))%R). rewrite seq_nth by auto.
    symmetry. apply nth_error_nth. rewrite nth_error_map, Ex. cbn [option_map]. f_equal. f_equal. unfold reward_for. cbn [Nat.add].
    destruct (Hk q x Ex) as (-> & _ & _). reflexivity.
  - destruct (nth_error l (L - 1)) as [x|] eqn:Ex; [|apply nth_error_None in Ex; lia].
    assert (Er : exists r, rev l = x :: r).
    { destruct (rev l) as [|y r] eqn:Er; [apply (f_equal (@List.length _)) in Er; rewrite rev_length in Er; cbn in Er; lia|].
      assert (El : l = rev r ++ [y]) by (rewrite <- (rev_involutive l), Er; reflexivity). rewrite El in Ex, Ll. rewrite app_length in Ll. cbn in Ll.
      rewrite nth_error_app2 in Ex by lia. replace (L - 1 - List.length (rev r))%nat with 0%nat in Ex by lia. cbn in Ex. injection Ex as ->. eauto. }
    destruct Er as [r ->]. destruct (Hk _ x Ex) as (_ & So & En). replace (i + (L - 1) + 1)%nat with (i + L)%nat in So, En by lia. rewrite En.
    destruct (masking && over x); auto. f_equal. unfold seen_at. apply map_ext_in. intros d Id. apply in_map_iff in Id as ([c0 d'] & <- & Icd). cbn [snd].
    rewrite Forall_forall in Nx. destruct (Nx _ Icd) as (Ic & K & Idd). cbn [fst snd] in *.
    assert (En' : c_name d' = "obs").
    { destruct LA as (_ & _ & L3). specialize (L3 c0 Ic). destruct K as [K|[K _]]; rewrite K in L3; destruct L3 as [L3|[]]; auto. }
    rewrite En', So. reflexivity.
Qed.
End P.
