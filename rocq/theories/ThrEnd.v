(** * ThrEnd: a threaded experiment runs to its end (C150) *)
From Coq Require Import Reals Lia Permutation.
From Verif Require Import Py PyLemmas MemModel MemSpec ProxyModel ProxySpec ProxyProofs ProxyE2E CollProofs LoaderModel TrainModel TrainSpec TrainProofs TrainMain TrainMore
  GymModel GymSpec GymProofs GymMore GymRun GymE2E LiveModel LiveSpec LiveRun LiveMain ExpSpec ExpMem ExpGym ExpMain ThrModel ThrMain.
Set Implicit Arguments. Unset Strict Implicit.
Open Scope string_scope.
Open Scope list_scope.
Open Scope Z_scope.

Section Q.
Context {S E : Type} {HSc : Scalar S} {O V : Type}.
Variable num : S -> R.
Variable env : genv S E.
Variable agent : V -> nat -> dict Z (obs S) -> res (dict Z (resp S)).
Variable others : behaviour O V.
Variable eject_draws : nat -> list (list draw).
Variable sample_draws : nat -> list draw.
Variable obj : dict string (cell S) -> O.
Variable pc : pconf.
Variable ld : loader.
Variable tc : tconf.
Variable sched : nat -> nat.
Variables (id : nat) (n : Z).
Variable cbs : list callback.
Variables (envs : list E) (cols : list (column S)) (maxlen : Z) (smp : sampler).
Variables (dobs dact : nat) (kmin : Z).
Notation L := (ld_length ld).
Notation act := (thr_act num env agent (with_terminator id others) eject_draws pc tc sched).
Notation next := (thr_next num env agent eject_draws sample_draws obj pc ld sched (fun _ => Ok false)).
Notation lab := (lab S E V).
Notation tlab := (tlab S E V).
Notation T0 := (t_create cols "actions" maxlen smp (EFifo fifo_init)).
Notation strong := (strong num env agent pc envs cols maxlen smp (EFifo fifo_init) dobs dact).
Notation weak := (weak env agent ld cols).
Notation stock := (fun b : lab => stocked (px_table (lb_px b))).
Hypothesis HE : envs <> [].
Hypothesis HS : shows env dobs.
Hypothesis HA : forall v, answers_all dobs dact (agent v).
Hypothesis Pm : pc_min pc = Some kmin.
Hypothesis Lk : Z.of_nat L <= kmin.
Hypothesis L1 : (1 <= L)%nat.
Hypothesis CO : config_ok cols "actions".
Hypothesis Fs : fresh_sampler smp.
Hypothesis LA : layout cols "actions" (pc_terminal pc) (mkSchema ["obs"] ["actions"]).
Hypothesis Sz : gym_sizes dobs dact cols.
Hypothesis HM : at_most env maxlen.
Hypothesis HM2 : maxlen <= 2 ^ 53.
Hypothesis Ng : ld_group ld <> ld_size_key ld.

Notation okw := (okw num env agent pc ld envs cols maxlen smp dobs dact).
Hypothesis Cnt : (1 <= ld_count ld)%nat.
Variable t : callback.
Hypothesis Ht : terminator id n = Ok t.
Hypothesis It : In t cbs.
Hypothesis Nd : NoDup (map cb_id cbs).
Hypothesis Isc : In (tc_id tc) (map cb_id cbs).
Hypothesis Nid : id <> tc_id tc.
Hypothesis Tot : TrainSpec.total others cbs anytime.
Hypothesis Lv1 : leaves others cbs anytime "bp_step".
Hypothesis Lv3 : leaves others cbs anytime "bp_samples".
Hypothesis Gr1 : ld_group ld <> "bp_samples".
Notation world := (world O tlab).
Notation tact_ok := (@tact_ok S E HSc O V num env agent (with_terminator id others) eject_draws sample_draws pc ld tc sched envs cols maxlen smp dobs dact kmin HE HS HA Pm Lk L1 CO Fs LA Sz HM HM2).
Notation go_ok := (@go_ok S E HSc V num env agent eject_draws sample_draws pc ld sched envs cols maxlen smp dobs dact kmin HE HS HA Pm Lk L1 CO Fs LA Sz HM HM2).

Record good (begun : bool) (k : Z) (st : tstate O) (w : tlab) : Prop := {
  g_ok : okw w;
  g_step : dget st "bp_step" = Some (VNum k);
  g_samples : numeric st "bp_samples";
  g_begun : if begun then lb_coll (tl_lab w) <> None else lb_coll (tl_lab w) = None;
  g_gen : lb_gen (tl_lab w) = GRunning -> stock (tl_lab w) }.

Lemma tact_total c ph x st (w : tlab) begun k : In c cbs -> good begun k st w ->
  (ph = PEndCycle -> cb_id c <> id) -> (ph = PBeginTraining -> cb_id c = tc_id tc -> begun = false) ->
  exists w' u, act c ph x st w = (w', Ok u) /\ good (begun || (Nat.eqb (cb_id c) (tc_id tc) && match ph with PBeginTraining => true | _ => false end)) k (dupdate st u) w' /\
    lb_gen (tl_lab w') = lb_gen (tl_lab w).
Proof.
  intros Ic [G1 G2 G3 G4 G5] Hc Hb. destruct (act c ph x st w) as [w' r] eqn:Ea.
  destruct (@tact_ok c ph x st w w' r G1) as (W1 & _ & Gg & Gs & Gc & R1 & R2); auto.
  { intros Q1 Q2. rewrite (Hb Q1 Q2) in G4. exact G4. }
  assert (Ru : exists u, r = Ok u /\ ~ In "bp_step" (dkeys u) /\ ~ In "bp_samples" (dkeys u)).
  { destruct (Nat.eq_dec (cb_id c) (tc_id tc)) as [Ei|Ni]; [destruct (R1 Ei) as [-> _]; exists []; cbn; auto|]. destruct (R2 Ni) as (v & ->).
    unfold with_terminator. destruct (Nat.eqb_spec (cb_id c) id) as [Ej|Nj].
    - exists []. split; [destruct ph; auto; exfalso; apply (Hc eq_refl Ej)|cbn; auto].
    - destruct (Tot (c := c) (ph := ph) x st v Ic Logic.I) as [u Hu]. exists u. split; auto. split; [apply (Lv1 Ic Logic.I Hu)|apply (Lv3 Ic Logic.I Hu)]. }
  destruct Ru as (u & -> & U1 & U2). exists w', u. split; auto. split; auto. constructor; auto.
  - rewrite dget_dupdate_other; auto.
  - destruct G3 as [z Gz]. exists z. rewrite dget_dupdate_other; auto.
  - destruct (Nat.eqb_spec (cb_id c) (tc_id tc)) as [Ei|Ni].
    + destruct (R1 Ei) as [_ R1']. destruct ph; cbn [andb]; rewrite ?orb_false_r; [ |rewrite orb_true_r; auto| | | | | | ]; (destruct begun; [intros Q; apply G4; apply Gc; auto; right; discriminate|apply Gc; auto; right; discriminate]).
    + cbn [andb]. rewrite orb_false_r. destruct begun; [intros Q; apply G4; apply Gc; auto|apply Gc; auto].
  - rewrite Gg. auto.
Qed.

(** What a phase adds to the trace. *)
Definition adds_calls (s s' : world) (l : list (phase * callback)) : Prop :=
  exists ext, wd_trace s' = wd_trace s ++ ext /\ calls ext = l /\ batches ext = [].
Lemma adds_none (s : world) : adds_calls s s [].
Proof. exists []. rewrite app_nil_r. auto. Qed.
Lemma adds_trans (s1 s2 s3 : world) l1 l2 : adds_calls s1 s2 l1 -> adds_calls s2 s3 l2 -> adds_calls s1 s3 (l1 ++ l2).
Proof.
  intros (e1 & T1 & C1 & B1) (e2 & T2 & C2 & B2). exists (e1 ++ e2). rewrite T2, T1, app_assoc, calls_app, batches_app, C1, C2, B1, B2. auto.
Qed.

Lemma phase_total ph x k : forall cs (s : world) begun, incl cs cbs -> NoDup (map cb_id cs) ->
  (ph = PEndCycle -> ~ In id (map cb_id cs)) -> good begun k (wd_state s) (wd_world s) ->
  (ph = PBeginTraining -> begun = true -> ~ In (tc_id tc) (map cb_id cs)) ->
  exists s', run_phase act ph x cs s = (s', Ok tt) /\
    good (begun || (existsb (Nat.eqb (tc_id tc)) (map cb_id cs) && match ph with PBeginTraining => true | _ => false end)) k (wd_state s') (wd_world s') /\
    lb_gen (tl_lab (wd_world s')) = lb_gen (tl_lab (wd_world s)) /\ adds_calls s s' (map (pair ph) cs).
Proof.
  induction cs as [|c cs IH]; intros s begun Hi Nc Hc G Hb; cbn [run_phase map existsb].
  - exists s. cbn [andb]. rewrite orb_false_r. split; auto. split; auto. split; auto. apply adds_none.
  - cbn [map] in *. inversion Nc as [|? ? N1 N2]; subst.
    destruct (@tact_total c ph x (wd_state s) (wd_world s) begun k) as (b' & u & Ea & G' & Gg); auto.
    + apply Hi. left. reflexivity.
    + intros Q1 Q2. apply (Hc Q1). left. exact Q2.
    + intros Q1 Q2. destruct begun; auto. exfalso. apply (Hb Q1 eq_refl). left. exact Q2.
    + rewrite Ea. edestruct (IH (mkWorld (dupdate (wd_state s) u) b' (wd_trace s ++ [TCall ph c x (wd_state s) (Ok u)]))) as (s' & E1 & H1 & H2 & H3); [| | |exact G'| |].
      * intros y Iy. apply Hi. right. exact Iy.
      * exact N2.
      * intros Q1 Q2. apply (Hc Q1). right. exact Q2.
      * intros Q1 Q2 Q3. destruct begun; [apply (Hb Q1 eq_refl); right; exact Q3|]. cbn [orb] in Q2. apply andb_prop in Q2 as [Q2 _]. apply Nat.eqb_eq in Q2. apply N1. rewrite Q2. exact Q3.
      * exists s'. split; auto. split; [|split; [etransitivity; [exact H2|exact Gg]|]].
        -- rewrite (Nat.eqb_sym (tc_id tc)). rewrite andb_orb_distrib_l, orb_assoc. exact H1.
        -- change ((ph, c) :: map (pair ph) cs) with ([(ph, c)] ++ map (pair ph) cs).
           eapply adds_trans; [|exact H3]. exists [TCall ph c x (wd_state s) (Ok u)]. auto.
Qed.
Lemma phase_same ph x begun k cs (s : world) : ph <> PBeginTraining -> incl cs cbs -> NoDup (map cb_id cs) ->
  (ph = PEndCycle -> ~ In id (map cb_id cs)) -> good begun k (wd_state s) (wd_world s) ->
  exists s', run_phase act ph x cs s = (s', Ok tt) /\ good begun k (wd_state s') (wd_world s') /\
    lb_gen (tl_lab (wd_world s')) = lb_gen (tl_lab (wd_world s)) /\ adds_calls s s' (map (pair ph) cs).
Proof.
  intros Np Hi Nc Hc G. destruct (@phase_total ph x k cs s begun Hi Nc Hc G) as (s' & E1 & H1 & H2 & H3); [congruence|]. exists s'. split; auto. split; auto.
  destruct ph; try congruence; rewrite andb_false_r, orb_false_r in H1; exact H1.
Qed.

(** The last cycle ends with the terminator. *)
Lemma shutdown k : forall cs (s : world) begun, incl cs cbs -> In id (map cb_id cs) -> good begun k (wd_state s) (wd_world s) ->
  exists s' l, run_phase act PEndCycle None cs s = (s', Err Shutdown) /\ adds_calls s s' (map (pair PEndCycle) l).
Proof.
  induction cs as [|c cs IH]; intros s begun Hi Hc G; [destruct Hc|]. cbn [run_phase map] in *. destruct (Nat.eq_dec (cb_id c) id) as [Ei|Ni].
  - assert (Ea : exists b', act c PEndCycle None (wd_state s) (wd_world s) = (b', Err Shutdown)).
    { unfold thr_act. destruct (Nat.eqb_spec (cb_id c) (tc_id tc)); [congruence|]. unfold with_terminator. rewrite (proj2 (Nat.eqb_eq _ _) Ei). eauto. }
    destruct Ea as [b' Ea]. rewrite Ea. do 2 eexists. split; [reflexivity|]. eexists. split; [reflexivity|]. split; [|reflexivity]. instantiate (1 := [c]). reflexivity.
  - destruct (@tact_total c PEndCycle None (wd_state s) (wd_world s) begun k) as (b' & u & Ea & G' & Gg); auto; try discriminate; [apply Hi; left; reflexivity|].
    rewrite Ea. destruct Hc as [Q|Hc]; [congruence|].
    edestruct (IH (mkWorld (dupdate (wd_state s) u) b' (wd_trace s ++ [TCall PEndCycle c None (wd_state s) (Ok u)]))) as (s' & l & E1 & H3); [intros y Iy; apply Hi; right; exact Iy|exact Hc|exact G'|].
    exists s', (c :: l). split; auto. change (map (pair PEndCycle) (c :: l)) with ([(PEndCycle, c)] ++ map (pair PEndCycle) l).
    eapply adds_trans; [|exact H3]. exists [TCall PEndCycle c None (wd_state s) (Ok u)]. auto.
Qed.

Lemma num_upd (st bt : tstate O) key : batch_fine ld bt -> key <> ld_group ld -> numeric st key -> numeric (dupdate st bt) key.
Proof.
  intros (N & (m & Hm) & K) Nk [z Hz]. unfold numeric. rewrite dget_dupdate by auto. destruct (dget bt key) as [v|] eqn:Ev; [|eauto].
  destruct (K key) as [Q|Q]; [eapply dget_Some_key; eauto|congruence|]. subst key. rewrite Hm in Ev. injection Ev as <-. eauto.
Qed.
Lemma merge_total k bt st j w : batch_fine ld bt -> good true j st w -> exists st', merge_batch (ld_size_key ld) k bt st = Ok st' /\ good true k st' w.
Proof.
  intros B [G1 G3 G4 G5 G6]. unfold merge_batch. set (st1 := dset (dupdate st bt) "bp_step" (VNum k)).
  assert (N1 : numeric st1 "bp_samples") by (apply num_dset, num_upd; auto). destruct N1 as [x Hx]. rewrite Hx.
  assert (N2 : numeric st1 (ld_size_key ld)). { apply num_dset. destruct B as (N & (m & Hm) & K). exists m. rewrite dget_dupdate by auto. rewrite Hm. reflexivity. }
  destruct N2 as [y Hy]. rewrite Hy. eexists. split; [reflexivity|]. constructor; auto.
  - rewrite dget_dset_neq by discriminate. apply dget_dset_eq.
  - exists (x + y). apply dget_dset_eq.
Qed.

Notation cs := (sort_cbs cbs).
Lemma cs_incl : incl cs cbs.
Proof. intros y Iy. eapply Permutation_in; [apply Permutation_sym, sort_perm|exact Iy]. Qed.
Lemma cs_ids : NoDup (map cb_id cs).
Proof. apply NoDup_sort. exact Nd. Qed.

(** What happens adds [m] batches and [w] backward passes. *)
Definition done_steps (s s' : world) (m w : nat) : Prop :=
  List.length (batches (wd_trace s')) = (List.length (batches (wd_trace s)) + m)%nat /\
  forall c, In c cbs -> count PBackward (cb_id c) (calls (wd_trace s')) = (count PBackward (cb_id c) (calls (wd_trace s)) + w)%nat.
Lemma done_trans s1 s2 s3 a b a' b' : done_steps s1 s2 a a' -> done_steps s2 s3 b b' -> done_steps s1 s3 (a + b) (a' + b').
Proof. intros [A1 A2] [B1 B2]. split; [lia|]. intros c Ic. rewrite (B2 c Ic), (A2 c Ic). lia. Qed.
Lemma done_other (s s' : world) l ph : adds_calls s s' (map (pair ph) l) -> ph <> PBackward -> done_steps s s' 0 0.
Proof.
  intros (ext & T & C & B) Np. split; [rewrite T, batches_app, B, app_nil_r; lia|]. intros c _. rewrite T, calls_app, count_app, C.
  change (map (pair ph) l) with (all_of ph l). rewrite count_all_of_other; auto.
Qed.
Lemma done_backward (s s' : world) : adds_calls s s' (map (pair PBackward) cs) -> done_steps s s' 0 1.
Proof.
  intros (ext & T & C & B). split; [rewrite T, batches_app, B, app_nil_r; lia|]. intros c Ic. rewrite T, calls_app, count_app, C.
  change (map (pair PBackward) cs) with (all_of PBackward cs). rewrite count_all_of, filter_id_one; auto; [apply cs_ids|].
  eapply Permutation_in; [apply sort_perm|exact Ic].
Qed.

Lemma n_pos : 0 < n /\ t = mkCb id 0 (Some n).
Proof. unfold terminator in Ht. destruct (Z.ltb_spec 0 n); [|discriminate]. injection Ht as <-. auto. Qed.
Lemma only_t c : In c cbs -> cb_id c = id -> c = t.
Proof.
  destruct n_pos as [_ Et]. intros Ic Ec. clear -Nd Ic It Ec Et. assert (Ei : cb_id c = cb_id t) by (rewrite Et; exact Ec). clear Ec Et.
  induction cbs as [|x l IH]; [destruct Ic|]. cbn in Nd. inversion Nd as [|? ? N1 N2]; subst. destruct Ic as [->|Ic], It as [->|It']; auto.
  - exfalso. apply N1. rewrite Ei. apply in_map. exact It'.
  - exfalso. apply N1. rewrite <- Ei. apply in_map. exact Ic.
Qed.

Lemma ids_filter f g : NoDup (map cb_id (filter f (filter g cs))).
Proof.
  assert (Q : forall h (l : list callback), NoDup (map cb_id l) -> NoDup (map cb_id (filter h l))).
  { clear. intros h. induction l as [|c l IH]; cbn; auto. intros N. inversion N as [|? ? N1 N2]; subst. destruct (h c); auto. cbn. constructor; auto.
    intros I. apply N1. apply in_map_iff in I as (y & Ey & Iy). apply filter_In in Iy as [Iy _]. rewrite <- Ey. apply in_map. exact Iy. }
  apply Q, Q, cs_ids.
Qed.

Lemma step_total k j bt (s : world) : 1 <= k <= n -> batch_fine ld bt -> good true j (wd_state s) (wd_world s) ->
  exists s' r, one_step act (ld_size_key ld) cs k (mkItem (Ok bt) (Ok false)) s = (s', r) /\ done_steps s s' 1 1 /\
    (if k =? n then r = Err Shutdown else r = Ok tt /\ good true k (wd_state s') (wd_world s') /\ lb_gen (tl_lab (wd_world s')) = lb_gen (tl_lab (wd_world s))).
Proof.
  intros Hk B G. destruct n_pos as [Pn Et]. unfold one_step. cbn [it_batch it_stop]. destruct (merge_total k B G) as (st & Em & G1). rewrite Em.
  set (s1 := mkWorld st (wd_world s) (wd_trace s ++ [TBatch k bt])).
  destruct (@phase_same PBeginCycle None true k (begin_cycle_cbs k cs) s1 ltac:(discriminate)) as (s2 & E2 & G2 & N2 & A2); [|apply ids_filter|discriminate|exact G1|].
  { intros y Iy. apply cs_incl. unfold begin_cycle_cbs in Iy. apply filter_In in Iy as [Iy _]. apply filter_In in Iy as [Iy _]. exact Iy. }
  rewrite E2. cbn [andthen].
  destruct (@phase_same PBeginBatch None true k cs s2 ltac:(discriminate) cs_incl cs_ids ltac:(discriminate) G2) as (s3 & E3 & G3 & N3 & A3). rewrite E3. cbn [andthen].
  destruct (@phase_same PBackward None true k cs s3 ltac:(discriminate) cs_incl cs_ids ltac:(discriminate) G3) as (s4 & E4 & G4 & N4 & A4). rewrite E4. cbn [andthen].
  destruct (@phase_same PEndBatch None true k cs s4 ltac:(discriminate) cs_incl cs_ids ltac:(discriminate) G4) as (s5 & E5 & G5 & N5 & A5). rewrite E5. cbn [andthen].
  assert (D0 : done_steps s s5 1 1).
  { change (done_steps s s5 (1 + (0 + (0 + (0 + 0)))) (0 + (0 + (0 + (1 + 0))))). apply done_trans with s1.
    - split; [cbn [s1 wd_trace]; rewrite batches_app, app_length; reflexivity|]. intros c _. cbn [s1 wd_trace]. rewrite calls_app, count_app. reflexivity.
    - apply done_trans with s2; [eapply done_other; [exact A2|discriminate]|]. apply done_trans with s3; [eapply done_other; [exact A3|discriminate]|].
      apply done_trans with s4; [apply done_backward; exact A4|eapply done_other; [exact A5|discriminate]]. }
  assert (Ic : incl (end_cycle_cbs k cs) cbs).
  { intros y Iy. apply cs_incl. unfold end_cycle_cbs in Iy. apply filter_In in Iy as [Iy _]. apply filter_In in Iy as [Iy _]. exact Iy. }
  destruct (Z.eqb_spec k n) as [En|Nn].
  - assert (Ii : In id (map cb_id (end_cycle_cbs k cs))).
    { apply in_map_iff. exists t. split; [rewrite Et; reflexivity|]. unfold end_cycle_cbs. apply filter_In. split; [apply filter_In; split|].
      - eapply Permutation_in; [apply sort_perm|exact It].
      - rewrite Et. unfold is_cyclic. cbn [cb_cycle]. apply Z.ltb_lt. exact Pn.
      - unfold cycle_mod. rewrite Et. cbn [cb_cycle]. rewrite En, Z_mod_same_full. reflexivity. }
    destruct (@shutdown k (end_cycle_cbs k cs) s5 true Ic Ii G5) as (s6 & l & E6 & A6). exists s6, (Err Shutdown). split; [exact E6|]. split; [|reflexivity].
    change (done_steps s s6 (1 + 0) (1 + 0)). apply done_trans with s5; [exact D0|]. eapply done_other; [exact A6|discriminate].
  - destruct (@phase_same PEndCycle None true k (end_cycle_cbs k cs) s5 ltac:(discriminate) Ic) as (s6 & E6 & G6 & N6 & A6); [apply ids_filter| |exact G5|].
    { intros _ Ii. apply in_map_iff in Ii as (c & Ec & Iy). pose proof (only_t (Ic c Iy) Ec) as Q. subst c. unfold end_cycle_cbs in Iy. apply filter_In in Iy as [_ Iy].
      unfold cycle_mod in Iy. rewrite Et in Iy. cbn [cb_cycle] in Iy. apply Z.eqb_eq in Iy. rewrite Z.mod_small in Iy; lia. }
    exists s6, (Ok tt). split; [exact E6|]. split; [|split; [reflexivity|split; [exact G6|]]].
    + change (done_steps s s6 (1 + 0) (1 + 0)). apply done_trans with s5; [exact D0|]. eapply done_other; [exact A6|discriminate].
    + rewrite N6, N5, N4, N3, N2. reflexivity.
Qed.

Lemma huge_grows (a b : lab) : grows a b -> huge (lb_notes a) -> huge (lb_notes b).
Proof. intros [ext ->] (v & os & rs & x & I & Q). exists v, os, rs, x. split; auto. apply in_or_app. auto. Qed.
Lemma phase_grows ph x : ph <> PBeginTraining -> forall cs (s s' : world) r, okw (wd_world s) -> run_phase act ph x cs s = (s', r) ->
  grows (tl_lab (wd_world s)) (tl_lab (wd_world s')).
Proof.
  intros Np. induction cs as [|c cs IH]; intros s s' r W Hr; cbn [run_phase] in Hr; [injection Hr as <- _; apply grows_refl|].
  destruct (act c ph x (wd_state s) (wd_world s)) as [w1 r1] eqn:Ea. destruct (@tact_ok c ph x (wd_state s) (wd_world s) w1 r1 W ltac:(congruence) Ea) as (W1 & G1 & _).
  destruct r1 as [u|e]; [|injection Hr as <- _; exact G1]. eapply grows_trans; [exact G1|]. eapply (IH (mkWorld (dupdate (wd_state s) u) w1 (wd_trace s ++ [TCall ph c x (wd_state s) (Ok u)])) s' r W1 Hr).
Qed.

Lemma tnext_total (w : tlab) : okw w -> (lb_gen (tl_lab w) = GRunning -> stock (tl_lab w)) -> lb_gen (tl_lab w) <> GDone ->
  (exists w' bt, next w = (w', Some (mkItem (Ok bt) (Ok false))) /\ batch_fine ld bt /\ okw w' /\ (lb_coll (tl_lab w) = None <-> lb_coll (tl_lab w') = None) /\
     lb_gen (tl_lab w') = GRunning /\ stock (tl_lab w')) \/
  (exists w' e, next w = (w', Some (mkItem (Err e) (Ok false))) /\ okw w' /\ (e = OtherError /\ lb_gen (tl_lab w) = GNew \/ e = Diverges \/ huge (lb_notes (tl_lab w')))) \/
   exists w', next w = (w', None) /\ huge (lb_notes (tl_lab w')).
Proof.
  intros W Gs Gd. destruct (go_ok W) as ((K1 & K2 & K3) & Gr & Gg & Gk & Gt & Gc). unfold thr_next. set (w1 := thr_go _ _ _ _ _ _ w) in *.
  assert (Okn : forall b' it, lab_next sample_draws obj ld (fun _ => Ok false) (tl_lab w1) = (b', it) -> okw (mkTl b' (tl_run w1) (tl_turn w1))).
  { intros b' it En.
    destruct (LiveMain.next_ok (O := O) (obj := obj) (s := mkWorld [] (tl_lab w1) []) eject_draws HE HS Pm Lk L1 CO Fs fresh_EFifo LA Sz Ng K1 (conj K2 (fun k b0 (I : In _ []) => match I with end)) En) as (S1 & [W1 _] & _).
    split; [exact S1|split; [exact W1|]]. cbn [tl_lab tl_run]. intros Hr.
    assert (Ec : lb_coll b' = lb_coll (tl_lab w1)).
    { clear -En. unfold lab_next in En. destruct (loader_next _ _ _ _) as [[g t] [d|e]]; [injection En as <- _; reflexivity|]. destruct e; injection En as <- _; reflexivity. }
    rewrite Ec. auto. }
  destruct (next_total eject_draws sample_draws obj id HE HS Pm Lk L1 CO Fs LA Sz HM HM2 Ng Cnt K1 K2) as [(b' & bt & En & B & S1 & W1 & C1 & N1 & Q1)|[(b' & e & En & Q)|(b' & En & Q)]].
  { intros Eg. apply Gk, Gs. congruence. }
  { congruence. }
  - left. rewrite En. do 2 eexists. split; [reflexivity|]. split; auto. split; [eapply Okn; eauto|]. cbn [tl_lab]. rewrite C1. auto.
  - right. left. rewrite En. do 2 eexists. split; [reflexivity|]. split; [eapply Okn; eauto|]. destruct Q as [(-> & Q1 & _)|[->|Q]]; auto. left. split; auto. congruence.
  - right. right. rewrite En. eexists. split; [reflexivity|]. exact Q.
Qed.

Lemma loop_total : forall m fuel k j (s : world), Z.of_nat m = n - k -> (m < fuel)%nat -> 1 <= k -> good true j (wd_state s) (wd_world s) -> lb_gen (tl_lab (wd_world s)) <> GDone ->
  exists s' r e, live_loop act next (ld_size_key ld) cs fuel k s = (s', r, e) /\
    (r = Err Shutdown /\ done_steps s s' (Datatypes.S m) (Datatypes.S m) \/
     r = Err OtherError /\ lb_gen (tl_lab (wd_world s)) = GNew /\ wd_trace s' = wd_trace s \/
     r = Err Diverges \/ huge (lb_notes (tl_lab (wd_world s'))) /\ (r <> Ok tt -> okw (wd_world s'))).
Proof.
  induction m as [|m IH]; intros fuel k j s Hm Hf Hk G Ngd; (destruct fuel as [|fuel]; [lia|]); cbn [live_loop].
  all: destruct (tnext_total (g_ok G) (g_gen G) Ngd) as [(b' & bt & En & B & S1 & C1 & N1 & K1)|[(b' & e & En & W1 & Q)|(b' & En & Q)]]; rewrite En.
  2,5: cbn [one_step it_batch]; do 3 eexists; (split; [reflexivity|]); cbn [wd_trace wd_world]; destruct Q as [(-> & Q1)|[->|Q]]; auto 7.
  2,4: do 3 eexists; (split; [reflexivity|]); right; right; right; split; [exact Q|congruence].
  all: assert (G' : good true j (wd_state s) b') by (destruct G as [G1 G2 G3 G4 G5]; constructor; auto; intros Q; apply G4, C1, Q).
  all: destruct (@step_total k j bt (mkWorld (wd_state s) b' (wd_trace s)) ltac:(lia) B G') as (s1 & r & E1 & D1 & Q); rewrite E1.
  - assert (En' : k = n) by lia. rewrite (proj2 (Z.eqb_eq k n) En') in Q. subst r. do 3 eexists. split; [reflexivity|]. left. auto.
  - destruct (Z.eqb_spec k n) as [C|_]; [lia|]. destruct Q as (-> & G1 & N2). cbn [wd_world] in N2.
    destruct (IH fuel (k + 1) k s1 ltac:(lia) ltac:(lia) ltac:(lia) G1 ltac:(rewrite N2, N1; discriminate)) as (s2 & r2 & e2 & E2 & Q2). rewrite E2. exists s2, r2, e2. split; auto.
    destruct Q2 as [[-> D2]|[(-> & C & _)|[->|Q2]]]; auto.
    + left. split; auto. change (done_steps s s2 (1 + Datatypes.S m) (1 + Datatypes.S m)). eapply done_trans; [|exact D2]. exact D1.
    + rewrite N2, N1 in C. discriminate.
Qed.

Lemma closing x : forall cs (s : world), incl cs cbs -> exists s', run_phase act PEndTraining x cs s = (s', Ok tt) /\ adds_calls s s' (map (pair PEndTraining) cs) /\
  (tl_run (wd_world s) = false \/ In (tc_id tc) (map cb_id cs) -> tl_run (wd_world s') = false).
Proof.
  induction cs as [|c cs IH]; intros s Hi; cbn [run_phase map].
  - exists s. split; auto. split; [apply adds_none|intros [Q|[]]; exact Q].
  - assert (Ea : exists w' u, act c PEndTraining x (wd_state s) (wd_world s) = (w', Ok u) /\ (tl_run (wd_world s) = false \/ cb_id c = tc_id tc -> tl_run w' = false)).
    { assert (Tr : tl_run (wd_world s) = false -> tl_run (thr_go num env agent eject_draws pc sched (wd_world s)) = false) by (intros Q; unfold thr_go; rewrite Q; reflexivity).
      unfold thr_act. set (w1 := thr_go _ _ _ _ _ _ _) in *. destruct (Nat.eqb_spec (cb_id c) (tc_id tc)); [do 2 eexists; split; [reflexivity|auto]|].
      unfold with_terminator. destruct (Nat.eqb_spec (cb_id c) id); [do 2 eexists; split; [reflexivity|intros [Q|Q]; [auto|congruence]]|].
      destruct (Tot (c := c) (ph := PEndTraining) x (wd_state s) (lb_v (tl_lab w1)) (Hi c (or_introl eq_refl)) Logic.I) as [u Hu].
      destruct (others _ _ _ _ _) as [v r]. cbn in Hu. subst r. do 2 eexists. split; [reflexivity|intros [Q|Q]; [auto|congruence]]. }
    destruct Ea as (b' & u & Ea & Rb). rewrite Ea.
    destruct (IH (mkWorld (dupdate (wd_state s) u) b' (wd_trace s ++ [TCall PEndTraining c x (wd_state s) (Ok u)]))) as (s' & E1 & H3 & H4).
    { intros y Iy. apply Hi. right. exact Iy. }
    exists s'. split; auto. split; [|intros Q; apply H4; cbn [wd_world]; destruct Q as [Q|[Q|Q]]; auto].
    change ((PEndTraining, c) :: map (pair PEndTraining) cs) with ([(PEndTraining, c)] ++ map (pair PEndTraining) cs).
    eapply adds_trans; [|exact H3]. exists [TCall PEndTraining c x (wd_state s) (Ok u)]. auto.
Qed.

Lemma thr_main fuel st0 v s out : n <= Z.of_nat fuel ->
  live_train act next (ld_size_key ld) cbs fuel st0 (thr_new envs T0 v) = (s, out) ->
  (out = Returned /\ Z.of_nat (List.length (batches (wd_trace s))) = n /\ (forall c, In c cbs -> Z.of_nat (count PBackward (cb_id c) (calls (wd_trace s))) = n) /\ tl_run (wd_world s) = false) \/
  (out = Raised OtherError /\ batches (wd_trace s) = [] /\ tl_run (wd_world s) = false) \/
  out = Raised Diverges \/ huge (lb_notes (tl_lab (wd_world s))).
Proof.
  intros Hf Hl. destruct n_pos as [Pn Et]. unfold live_train in Hl. set (s0 := mkWorld _ (thr_new envs T0 v) []) in Hl.
  assert (G0 : good false 1 (wd_state s0) (wd_world s0)).
  { constructor.
    - split; [|split; [|discriminate]]; [exists []; cbn; split; auto; split; [constructor|]; split; [constructor|]; split; auto|]. intros before rows after Eq. destruct before; discriminate.
    - cbn [s0 wd_state]. apply dget_dset_eq.
    - exists 0. cbn [s0 wd_state]. rewrite dget_dset_neq by discriminate. apply dget_dset_eq.
    - reflexivity.
    - discriminate. }
  destruct (@phase_same PRestore None false 1 cs s0 ltac:(discriminate) cs_incl cs_ids ltac:(discriminate) G0) as (s1 & E1 & G1 & N1 & A1).
  rewrite E1 in Hl. cbn [andthen] in Hl.
  destruct (@phase_total PBeginTraining None 1 cs s1 false cs_incl cs_ids ltac:(discriminate) G1 ltac:(discriminate)) as (s2 & E2 & G2 & N2 & A2).
  assert (Ex : existsb (Nat.eqb (tc_id tc)) (map cb_id cs) = true).
  { apply existsb_exists. exists (tc_id tc). split; [|apply Nat.eqb_refl]. eapply Permutation_in; [apply Permutation_map, sort_perm|exact Isc]. }
  rewrite Ex in G2. cbn [andb orb] in G2. rewrite E2, (g_step G2) in Hl.
  assert (T2 : batches (wd_trace s2) = [] /\ forall c, count PBackward (cb_id c) (calls (wd_trace s2)) = 0%nat).
  { pose proof (adds_trans A1 A2) as (ext & T & C & B). cbn [s0 wd_trace app] in T. rewrite T. split; auto. intros c. rewrite C, count_app.
    change (map (pair PRestore) cs) with (all_of PRestore cs). change (map (pair PBeginTraining) cs) with (all_of PBeginTraining cs).
    rewrite !count_all_of_other by discriminate. reflexivity. }
  destruct (@loop_total (Z.to_nat (n - 1)) fuel 1 1 s2 ltac:(lia) ltac:(lia) ltac:(lia) G2) as (s3 & r & e & E3 & Q).
  { rewrite N2, N1. cbn. discriminate. }
  rewrite E3 in Hl. unfold finish in Hl.
  assert (Fin : forall x, r = Err x -> exists s4, s = s4 /\ out = match x with Shutdown => Returned | _ => Raised x end /\ run_phase act PEndTraining (Some x) cs s3 = (s4, Ok tt) /\ adds_calls s3 s4 (map (pair PEndTraining) cs) /\ tl_run (wd_world s4) = false).
  { intros x ->. destruct (@closing (Some x) cs s3 cs_incl) as (s4 & E4 & A4 & R4). rewrite E4 in Hl. injection Hl as <- <-. exists s4. split; auto. split; auto. split; auto. split; auto. apply R4. right.
    eapply Permutation_in; [apply Permutation_map, sort_perm|exact Isc]. }
  destruct T2 as [B2 C2]. destruct Q as [[Er D]|[(Er & _ & T3)|[Er|[Hh Hw]]]].
  - left. destruct (Fin _ Er) as (s4 & -> & -> & _ & A4 & R4). split; auto. destruct (done_other A4 ltac:(discriminate)) as [F1 F2]. destruct D as [D1 D2]. split; [|split; auto].
    + rewrite F1, D1, B2. cbn [List.length]. lia.
    + intros c Ic. rewrite (F2 c Ic), (D2 c Ic), C2. lia.
  - right. left. destruct (Fin _ Er) as (s4 & -> & -> & _ & (ext & T & C & B) & R4). split; auto. split; auto. rewrite T, batches_app, T3, B, B2; reflexivity.
  - right. right. left. destruct (Fin _ Er) as (s4 & -> & -> & _). reflexivity.
  - right. right. right. destruct r as [[]|x]; [injection Hl as <- _; exact Hh|]. destruct (Fin _ eq_refl) as (s4 & -> & _ & R4 & _). eapply huge_grows; [|exact Hh].
    refine (@phase_grows PEndTraining (Some x) _ cs s3 s4 (Ok tt) _ R4); [discriminate|apply Hw; discriminate].
Qed.
End Q.

Lemma threaded_ends : forall (S E : Type) (HSc : Scalar S) (O V : Type) (num : S -> R) (env : genv S E)
    (agent : V -> nat -> dict Z (obs S) -> res (dict Z (resp S))) (others : behaviour O V)
    eject_draws sample_draws (obj : dict string (cell S) -> O) pc ld tc sched envs cols maxlen smp dobs dact kmin id n cbs t fuel st0 v s out,
  envs <> [] -> shows env dobs -> (forall v, answers_all dobs dact (agent v)) ->
  pc_min pc = Some kmin -> Z.of_nat (ld_length ld) <= kmin -> (1 <= ld_length ld)%nat -> (1 <= ld_count ld)%nat ->
  config_ok cols "actions" -> fresh_sampler smp -> layout cols "actions" (pc_terminal pc) (mkSchema ["obs"] ["actions"]) ->
  gym_sizes dobs dact cols -> at_most env maxlen -> maxlen <= 2 ^ 53 ->
  ld_group ld <> ld_size_key ld -> ld_group ld <> "bp_samples" ->
  terminator id n = Ok t -> In t cbs -> NoDup (map cb_id cbs) -> In (tc_id tc) (map cb_id cbs) -> id <> tc_id tc ->
  TrainSpec.total others cbs anytime -> leaves others cbs anytime "bp_step" -> leaves others cbs anytime "bp_samples" ->
  n <= Z.of_nat fuel ->
  live_train (thr_act num env agent (with_terminator id others) eject_draws pc tc sched)
    (thr_next num env agent eject_draws sample_draws obj pc ld sched (fun _ => Ok false))
    (ld_size_key ld) cbs fuel st0 (thr_new envs (t_create cols "actions" maxlen smp (EFifo fifo_init)) v) = (s, out) ->
  out <> Raised Diverges -> (forall v os rs a, In (NAdd v os rs) (lb_notes (tl_lab (wd_world s))) -> In a (dkeys os) -> a < 2 ^ 63) ->
  (out = Returned /\ Z.of_nat (List.length (batches (wd_trace s))) = n /\
     (forall c, In c cbs -> Z.of_nat (count PBackward (cb_id c) (calls (wd_trace s))) = n) /\ tl_run (wd_world s) = false)
  \/ (out = Raised OtherError /\ batches (wd_trace s) = [] /\ tl_run (wd_world s) = false).
Proof.
  intros. match goal with H : live_train _ _ _ _ _ _ _ = _ |- _ => rename H into Hl end.
  destruct (@thr_main S E HSc O V num env agent others eject_draws sample_draws obj pc ld tc sched id n cbs envs cols maxlen smp dobs dact kmin) with (t := t) (fuel := fuel) (st0 := st0) (v := v) (s := s) (out := out)
    as [Q|[Q|[Q|(v' & os & rs & a & I1 & I2 & I3)]]]; auto; [contradiction|].
  exfalso. match goal with H : forall v os rs a, In _ _ -> _ |- _ => specialize (H v' os rs a I1 I2) end. lia.
Qed.
