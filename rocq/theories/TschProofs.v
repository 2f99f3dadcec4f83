(** * TschProofs: what a training with a collecting thread adds and draws (proofs for C157) *)
From Coq Require Import Reals Lia Permutation.
From Verif Require Import Py PyLemmas MemModel MemSpec ProxyModel ProxySpec ProxyProofs ProxyE2E CollProofs LoaderModel TrainModel TrainSpec TrainProofs TrainMain TrainMore
  GymModel GymSpec GymProofs GymMore GymRun GymE2E LiveModel LiveSpec LiveRun LiveMain ExpSpec ExpMem ExpGym ExpMain ThrModel ThrMain TschSpec.
Set Implicit Arguments. Unset Strict Implicit.
Open Scope string_scope.
Open Scope list_scope.
Open Scope Z_scope.

Section P.
Context {S E : Type} {HSc : Scalar S} {O V : Type}.
Variable num : S -> R.
Variable env : genv S E.
Variable agent : V -> nat -> dict Z (obs S) -> res (dict Z (resp S)).
Variable hooks : behaviour O V.
Variable eject_draws : nat -> list (list draw).
Variable sample_draws : nat -> list draw.
Variable obj : dict string (cell S) -> O.
Variable pc : pconf.
Variable ld : loader.
Variable tc : tconf.
Variable sched : nat -> nat.
Variable stop : nat -> res bool.
Notation act := (thr_act num env agent hooks eject_draws pc tc sched).
Notation next := (thr_next num env agent eject_draws sample_draws obj pc ld sched stop).
Notation lab := (lab S E V).
Notation tlab := (tlab S E V).
Notation world := (world O tlab).

Lemma marks_app (a b : list (note S V)) : marks (a ++ b) = marks a ++ marks b.
Proof. apply map_app. Qed.
Lemma collect_marks (b b' : lab) r : lab_collect num env agent eject_draws pc b = (b', r) ->
  lb_v b' = lb_v b /\ marks (lb_notes b') = marks (lb_notes b) ++ match r with Ok _ => [Added (lb_v b)] | Err _ => [] end.
Proof.
  unfold lab_collect. destruct (lb_coll b) as [c|]; [|intros H; injection H as <- <-; rewrite app_nil_r; auto].
  destruct (collect_data num env (agent (lb_v b)) eject_draws c) as [[c' [o q]]|e] eqn:D; [|intros H; injection H as <- <-; rewrite app_nil_r; auto].
  assert (exists os rs d, o = PAdd os rs d) as (os & rs & d & ->).
  { unfold collect_data in D. destruct (agent _ _ _) as [a|e]; [|discriminate]. cbn [rbind] in D. destruct (dict_step _ _ _ _) as [g|e]; [|discriminate]. cbn [rbind] in D. injection D as _ <- _. eauto. }
  destruct (pstep pc (lb_px b) (PAdd os rs d)) as [p [v|e]]; intros H; injection H as <- <-; cbn [lb_v lb_notes]; split; auto.
  - apply marks_app.
  - rewrite app_nil_r. reflexivity.
Qed.
Lemma thr_marks : forall n (b b' : lab) r, thr_collects num env agent eject_draws pc n b = (b', r) ->
  lb_v b' = lb_v b /\ exists k, marks (lb_notes b') = marks (lb_notes b) ++ repeat (Added (lb_v b)) k /\ (if r then k = n else (k < n)%nat).
Proof.
  induction n as [|n IH]; intros b b' r H; cbn [thr_collects] in H.
  - injection H as <- <-. split; auto. exists 0%nat. cbn [repeat]. rewrite app_nil_r. auto.
  - destruct (lab_collect num env agent eject_draws pc b) as [b1 [u|e]] eqn:E1; apply collect_marks in E1 as [V1 M1].
    + apply IH in H as (V2 & k & M2 & Q). split; [congruence|]. exists (Datatypes.S k). rewrite M2, M1, V1, <- app_assoc. split; [reflexivity|]. destruct r; lia.
    + injection H as <- <-. split; auto. exists 0%nat. split; [exact M1|lia].
Qed.
Lemma multiple_marks : forall n (b b' : lab) r, lab_collect_multiple num env agent eject_draws pc n b = (b', r) ->
  lb_v b' = lb_v b /\ exists k, marks (lb_notes b') = marks (lb_notes b) ++ repeat (Added (lb_v b)) k /\ (k <= n)%nat /\ match r with Ok _ => k = n | Err _ => True end.
Proof.
  induction n as [|n IH]; intros b b' r H; cbn [lab_collect_multiple] in H.
  - injection H as <- <-. split; auto. exists 0%nat. cbn [repeat]. rewrite app_nil_r. auto.
  - destruct (lab_collect num env agent eject_draws pc b) as [b1 [u|e]] eqn:E1; apply collect_marks in E1 as [V1 M1].
    + apply IH in H as (V2 & k & M2 & Q1 & Q2). split; [congruence|]. exists (Datatypes.S k). rewrite M2, M1, V1, <- app_assoc. split; [reflexivity|]. split; [lia|]. destruct r; lia.
    + injection H as <- <-. split; auto. exists 0%nat. split; [exact M1|]. split; [lia|exact I].
Qed.
Lemma begin_marks sc (b b' : lab) r : lab_begin_training (O := O) num env agent eject_draws pc sc b = (b', r) ->
  lb_v b' = lb_v b /\ exists k, marks (lb_notes b') = marks (lb_notes b) ++ repeat (Added (lb_v b)) k /\ (k <= sc_warmup sc)%nat /\ match r with Ok _ => k = sc_warmup sc | Err _ => True end.
Proof.
  unfold lab_begin_training. destruct (begin_training _ _ _ _) as [c|e].
  2:{ intros H. injection H as <- <-. split; auto. exists 0%nat. cbn [repeat]. rewrite app_nil_r. split; auto. split; [lia|exact I]. }
  destruct (lab_collect_multiple _ _ _ _ _ _ _) as [b1 [v|e]] eqn:E1; intros H; injection H as <- <-; apply multiple_marks in E1 as (V1 & k & M1 & Q1 & Q2); cbn [lb_v lb_notes] in *; split; auto; exists k; auto.
Qed.
Lemma next_marks (b b' : lab) it : lab_next sample_draws obj ld stop b = (b', it) ->
  lb_v b' = lb_v b /\ lb_coll b' = lb_coll b /\ exists ms, marks (lb_notes b') = marks (lb_notes b) ++ ms /\ (ms = [] \/ ms = [Drawn]) /\ (forall i d, it = Some i -> it_batch i = Ok d -> ms = [Drawn]).
Proof.
  unfold lab_next. destruct (loader_next ld (lb_gen b) (px_table (lb_px b)) (sample_draws (lb_asked b))) as [[g t] r] eqn:Ln.
  assert (Dr : forall d, r = Ok d -> exists t' rows, t_sample (px_table (lb_px b)) (ld_count ld) (ld_length ld) (sample_draws (lb_asked b)) = (t', Ok rows)).
  { intros d ->. unfold loader_next, load_one in Ln.
    destruct (lb_gen b); [destruct (is_ready _ _); [|discriminate]| |discriminate];
    (destruct (t_sample (px_table (lb_px b)) (ld_count ld) (ld_length ld) (sample_draws (lb_asked b))) as [t' [rows|e]]; [eauto|discriminate]). }
  intros H. destruct r as [d|e].
  - destruct (Dr d eq_refl) as (t' & rows & Et). rewrite Et in H. injection H as <- <-. cbn [lb_v lb_notes lb_coll]. split; auto. split; auto. exists [Drawn].
    rewrite marks_app. auto.
  - assert (Nt : match t_sample (px_table (lb_px b)) (ld_count ld) (ld_length ld) (sample_draws (lb_asked b)) with (_, Ok _) => lb_notes b | _ => lb_notes b end = lb_notes b) by (destruct (t_sample _ _ _ _) as [? [?|?]]; reflexivity).
    assert (Q : lb_v b' = lb_v b /\ lb_coll b' = lb_coll b /\ marks (lb_notes b') = marks (lb_notes b) /\ (it = None \/ exists y, it = Some (mkItem (Err e) y))).
    { destruct (t_sample _ _ _ _) as [? [?|?]]; destruct e; injection H as <- <-; cbn [lb_v lb_notes lb_coll]; splits; auto; eauto. }
    destruct Q as (Q1 & Q2 & Q3 & Q4). split; auto. split; auto. exists []. rewrite app_nil_r. split; auto. split; auto. intros i d -> Hd. destruct Q4 as [Q4|[y Q4]]; [discriminate|]. injection Q4 as ->. discriminate.
Qed.

(** What is known of the world: with collections that may fail, nothing; without, what makes them succeed. *)
Variable fails : Prop.
Variable good : tlab -> Prop.
Hypothesis Gcollects : forall w, good w -> tl_run w = true -> fails \/ snd (thr_collects num env agent eject_draws pc (sched (tl_turn w)) (tl_lab w)) = true.
Hypothesis Gbegin : forall w, good w -> lb_coll (tl_lab w) = None -> fails \/
  exists u, snd (lab_begin_training (O := O) num env agent eject_draws pc (mkSc (tc_id tc) (tc_warmup tc) 1) (tl_lab (thr_go num env agent eject_draws pc sched w))) = Ok u.
Hypothesis Gact : forall c ph x st w w' r, good w -> fails \/ (ph = PBeginTraining -> cb_id c = tc_id tc -> lb_coll (tl_lab w) = None) -> act c ph x st w = (w', r) ->
  good w' /\ (fails \/ (cb_id c <> tc_id tc \/ ph <> PBeginTraining -> (lb_coll (tl_lab w) = None <-> lb_coll (tl_lab w') = None))).
Hypothesis Gnext : forall w w' it, good w -> next w = (w', it) -> good w'.
Variable v0 : V.
Notation told over s := (so_far hooks tc sched fails v0 (wd_trace s) over (tl_turn (wd_world s)) (lb_v (tl_lab (wd_world s))) (tl_run (wd_world s)) (marks (lb_notes (tl_lab (wd_world s))))).

Lemma go_marks (w : tlab) : good w -> let w' := thr_go num env agent eject_draws pc sched w in
  tl_turn w' = (1 + tl_turn w)%nat /\ lb_v (tl_lab w') = lb_v (tl_lab w) /\
  exists ms, meanwhile sched fails (tl_turn w) (lb_v (tl_lab w)) (tl_run w) ms (tl_run w') /\ marks (lb_notes (tl_lab w')) = marks (lb_notes (tl_lab w)) ++ ms.
Proof.
  intros G w'. unfold w', thr_go. pose proof (Gcollects G) as Gc. destruct (tl_run w) eqn:Er.
  - specialize (Gc eq_refl). destruct (thr_collects _ _ _ _ _ _ _) as [b r] eqn:Ec. apply thr_marks in Ec as (V1 & k & M & Q). cbn [tl_turn tl_lab tl_run snd] in *.
    split; auto. split; auto. exists (repeat (Added (lb_v (tl_lab w))) k). split; auto. destruct r.
    + subst k. constructor.
    + destruct Gc as [Gc|Gc]; [|discriminate]. constructor; auto.
  - cbn [tl_turn tl_lab tl_run]. split; auto. split; auto. exists []. rewrite app_nil_r. split; auto. constructor.
Qed.

Lemma act_marks c ph x st (w w' : tlab) r : good w -> fails \/ (ph = PBeginTraining -> cb_id c = tc_id tc -> lb_coll (tl_lab w) = None) ->
  act c ph x st w = (w', r) ->
  tl_turn w' = (1 + tl_turn w)%nat /\ exists ms1 run1 ms2,
    meanwhile sched fails (tl_turn w) (lb_v (tl_lab w)) (tl_run w) ms1 run1 /\
    hook hooks tc fails c ph x st (lb_v (tl_lab w)) run1 r ms2 (lb_v (tl_lab w')) (tl_run w') /\
    marks (lb_notes (tl_lab w')) = marks (lb_notes (tl_lab w)) ++ ms1 ++ ms2.
Proof.
  intros G Hb Ha. destruct (go_marks G) as (T1 & V1 & ms1 & Mw & M1). unfold thr_act in Ha. pose proof (Gbegin G) as Gb. set (w1 := thr_go _ _ _ _ _ _ w) in *.
  destruct (Nat.eqb_spec (cb_id c) (tc_id tc)) as [Ei|Ni].
  - assert (Idle : ph <> PBeginTraining -> ph <> PEndTraining -> (w1, Ok []) = (w', r) -> tl_turn w' = (1 + tl_turn w)%nat /\ exists ms1 run1 ms2,
      meanwhile sched fails (tl_turn w) (lb_v (tl_lab w)) (tl_run w) ms1 run1 /\ hook hooks tc fails c ph x st (lb_v (tl_lab w)) run1 r ms2 (lb_v (tl_lab w')) (tl_run w') /\
      marks (lb_notes (tl_lab w')) = marks (lb_notes (tl_lab w)) ++ ms1 ++ ms2).
    { intros N1 N2 Q. injection Q as <- <-. split; auto. exists ms1, (tl_run w1), []. rewrite app_nil_r, V1. splits; auto. apply h_idle; auto. }
    destruct ph; try (apply Idle; [discriminate|discriminate|exact Ha]).
    + destruct (lab_begin_training _ _ _ _ _ _ _) as [b rb] eqn:Eb. apply begin_marks in Eb as (V2 & k & M2 & Q1 & Q2). cbn [sc_warmup snd] in *. destruct rb as [u|e].
      * injection Ha as <- <-. cbn [tl_turn tl_lab tl_run]. split; auto. exists ms1, (tl_run w1), (repeat (Added (lb_v (tl_lab w))) k). subst k. rewrite V2, V1. split; auto. split; [apply h_begin; auto|].
        rewrite M2, M1, V1, app_assoc. reflexivity.
      * injection Ha as <- <-. cbn [tl_turn tl_lab tl_run]. split; auto. exists ms1, (tl_run w1), (repeat (Added (lb_v (tl_lab w))) k). rewrite V2, V1. split; auto.
        split; [|rewrite M2, M1, V1, app_assoc; reflexivity]. apply h_begin_fails; auto. destruct Hb as [Hb|Hb]; auto. destruct (Gb (Hb eq_refl Ei)) as [F|[u F]]; auto. discriminate.
    + injection Ha as <- <-. cbn [tl_turn tl_lab tl_run]. split; auto. exists ms1, (tl_run w1), []. rewrite app_nil_r, V1. splits; auto. apply h_end; auto.
  - destruct (hooks c ph x st (lb_v (tl_lab w1))) as [v r1] eqn:Eo. injection Ha as <- <-. cbn [tl_turn tl_lab tl_run lb_v lb_notes]. split; auto.
    exists ms1, (tl_run w1), []. rewrite app_nil_r. splits; auto. apply h_other; auto. rewrite <- V1. exact Eo.
Qed.

Lemma phase_told over ph x : forall cs (s s' : world) r, fails \/ NoDup (map cb_id cs) \/ ph <> PBeginTraining ->
  fails \/ (ph = PBeginTraining -> In (tc_id tc) (map cb_id cs) -> lb_coll (tl_lab (wd_world s)) = None) ->
  good (wd_world s) -> told over s -> run_phase act ph x cs s = (s', r) ->
  good (wd_world s') /\ told over s' /\ (fails \/ (ph = PRestore -> lb_coll (tl_lab (wd_world s)) = None -> lb_coll (tl_lab (wd_world s')) = None)).
Proof.
  induction cs as [|c cs IH]; intros s s' r Nd Hn G T Hr; cbn [run_phase] in Hr.
  - injection Hr as <- <-. split; auto.
  - destruct (act c ph x (wd_state s) (wd_world s)) as [w1 r1] eqn:Ea.
    assert (Hc : fails \/ (ph = PBeginTraining -> cb_id c = tc_id tc -> lb_coll (tl_lab (wd_world s)) = None)).
    { destruct Hn as [Hn|Hn]; auto. right. intros Q1 Q2. apply Hn; auto. left. auto. }
    destruct (act_marks G Hc Ea) as (T1 & ms1 & run1 & ms2 & Mw & Hk & M). destruct (Gact G Hc Ea) as [G1 C1].
    assert (Told1 : forall st', told over (mkWorld st' w1 (wd_trace s ++ [TCall ph c x (wd_state s) r1]))).
    { intros st'. cbn [wd_trace wd_world]. rewrite T1, M. eapply s_hook; eauto. }
    destruct r1 as [u|e].
    + destruct (IH (mkWorld (dupdate (wd_state s) u) w1 (wd_trace s ++ [TCall ph c x (wd_state s) (Ok u)])) s' r) as (F1 & F2 & F3); auto.
      * destruct Nd as [Nd|[Nd|Nd]]; auto. right. left. inversion Nd; auto.
      * cbn [wd_world]. destruct Nd as [Nd|[Nd|Nd]]; auto; [|right; intros; congruence]. destruct Hn as [Hn|Hn]; auto. destruct C1 as [C1|C1]; auto. right. intros Ep Is.
        inversion Nd as [|? ? N1 N2]; subst. apply C1.
        -- left. intros Q. apply N1. rewrite Q. exact Is.
        -- apply Hn; auto. right. exact Is.
      * split; auto. split; auto. cbn [wd_world] in *. destruct F3 as [F3|F3]; auto. destruct C1 as [C1|C1]; auto. right. intros Ep Q. apply F3; auto. apply C1; auto. right. rewrite Ep. discriminate.
    + injection Hr as <- <-. split; [exact G1|]. split; [apply Told1|]. cbn [wd_world]. destruct C1 as [C1|C1]; auto. right. intros Ep Q. apply C1; auto. right. rewrite Ep. discriminate.
Qed.
Lemma phase_told' over ph x cs (s s' : world) r : ph <> PBeginTraining -> good (wd_world s) -> told over s -> run_phase act ph x cs s = (s', r) ->
  good (wd_world s') /\ told over s'.
Proof.
  intros N G T R. destruct (@phase_told over ph x cs s s' r) as (H1 & H2 & _); auto. right. intros; congruence.
Qed.

Variable size_key : string.
Lemma loop_told cs : forall fuel k (s s' : world) r e, good (wd_world s) -> told false s -> live_loop act next size_key cs fuel k s = (s', r, e) ->
  good (wd_world s') /\ exists over, told over s'.
Proof.
  induction fuel as [|fuel IH]; intros k s s' r e G T Hl; cbn [live_loop] in Hl; [injection Hl as <- _ _; eauto|].
  destruct (next (wd_world s)) as [w' it] eqn:En. pose proof (Gnext G En) as G1. unfold thr_next in En. destruct (go_marks G) as (T1 & V1 & ms1 & Mw & M1). set (w1 := thr_go _ _ _ _ _ _ (wd_world s)) in *.
  destruct (lab_next sample_draws obj ld stop (tl_lab w1)) as [b' i0] eqn:Eb. apply next_marks in Eb as (V2 & _ & ms2 & M2 & Q1 & Q2). injection En as <- <-.
  assert (No : told true (mkWorld (wd_state s) (mkTl b' (tl_run w1) (tl_turn w1)) (wd_trace s))).
  { cbn [wd_trace wd_world tl_turn tl_lab tl_run]. rewrite T1, M2, M1, V2, V1, <- app_assoc. apply s_no_batch with (running := tl_run (wd_world s)); auto. }
  destruct i0 as [i|]; [|injection Hl as <- _ _; eauto].
  unfold one_step in Hl. destruct (it_batch i) as [bt|x] eqn:Ei; [|injection Hl as <- _ _; eauto].
  destruct (merge_batch size_key k bt _) as [st|x]; [|injection Hl as <- _ _; eauto].
  cbn [wd_trace wd_world wd_state] in Hl. set (s1 := mkWorld st (mkTl b' (tl_run w1) (tl_turn w1)) (wd_trace s ++ [TBatch k bt])) in *.
  assert (Ts : told false s1).
  { unfold s1. cbn [wd_trace wd_world tl_turn tl_lab tl_run]. rewrite T1, M2, M1, V2, V1, (Q2 i bt eq_refl Ei), <- app_assoc. apply s_batch with (running := tl_run (wd_world s)); auto. }
  assert (Gs : good (wd_world s1)) by exact G1. clearbody s1.
  destruct (it_stop i) as [[|]|x]; [injection Hl as <- _ _; eauto| |injection Hl as <- _ _; eauto].
  repeat match type of Hl with context [run_phase act ?ph None ?c s1] =>
    let s2 := fresh "s" in let r2 := fresh "r" in let R := fresh "R" in destruct (run_phase act ph None c s1) as [s2 r2] eqn:R;
    apply (@phase_told' false ph None c s1 s2 r2) in R as [? ?]; [|discriminate|assumption|assumption];
    destruct r2 as [?|?]; cbn [andthen] in Hl; [clear dependent s1; rename s2 into s1|injection Hl as <- _ _; eauto] end.
  eapply IH; [| |exact Hl]; assumption.
Qed.
Lemma train_told cbs fuel st0 w (s : world) out : fails \/ NoDup (map cb_id cbs) -> fails \/ lb_coll (tl_lab w) = None -> good w -> tl_run w = false -> tl_turn w = 0%nat -> lb_v (tl_lab w) = v0 -> lb_notes (tl_lab w) = [] ->
  live_train act next size_key cbs fuel st0 w = (s, out) -> exists over, told over s.
Proof.
  intros Nd Cn G W1 W2 W3 W4 Hl. unfold live_train in Hl. set (cs := sort_cbs cbs) in *.
  assert (Ncs : fails \/ NoDup (map cb_id cs)). { destruct Nd as [Nd|Nd]; auto. right. destruct (sort_in_order cbs) as [P _]. eapply Permutation_NoDup; [apply Permutation_map; exact P|exact Nd]. }
  set (s0 := mkWorld _ w []) in Hl. assert (T0 : told false s0) by (cbn [s0 wd_trace wd_world]; rewrite W1, W2, W3, W4; constructor).
  assert (Fin : forall p ends over, good (wd_world (fst p)) -> told over (fst p) -> finish act cs p ends = (s, out) -> exists over, told over s).
  { intros [s1 r1] ends over Gp F Hf. unfold finish in Hf. cbn [fst] in F, Gp. destruct r1 as [u|e]; [injection Hf as <- _; eauto|].
    destruct (run_phase act PEndTraining (Some e) cs s1) as [s2 r2] eqn:E2. destruct (@phase_told' over PEndTraining (Some e) cs s1 s2 r2) as [_ F2]; auto; [discriminate|]. destruct r2; injection Hf as <- _; eauto. }
  destruct (run_phase act PRestore None cs s0) as [s1 r1] eqn:E1. destruct (@phase_told false PRestore None cs s0 s1 r1) as (G1 & F1 & C1); auto; [right; right; discriminate|right; intros; discriminate|].
  destruct r1 as [u1|e1]; cbn [andthen] in Hl; [|destruct e1; injection Hl as <- _; eauto].
  destruct (run_phase act PBeginTraining None cs s1) as [s2 r2] eqn:E2.
  destruct (@phase_told false PBeginTraining None cs s1 s2 r2) as (G2 & F2 & _); auto.
  { destruct Ncs; auto. }
  { destruct Cn as [Cn|Cn]; auto. destruct C1 as [C1|C1]; auto. }
  destruct r2 as [u2|e2]; [|destruct e2; injection Hl as <- _; eauto].
  destruct (dget (wd_state s2) "bp_step") as [[k|o]|]; [|eapply Fin; [| |exact Hl]; [exact G2|exact F2]|eapply Fin; [| |exact Hl]; [exact G2|exact F2]].
  destruct (live_loop act next size_key cs fuel k s2) as [[s3 r3] ends] eqn:E3. apply loop_told in E3 as [G3 [over F3]]; auto. eapply Fin; [| |exact Hl]; [exact G3|exact F3].
Qed.
End P.

(** Any training, any failure. *)
Lemma told_anyhow : forall (S E : Type) (HSc : Scalar S) (O V : Type) (num : S -> R) (env : genv S E)
    (agent : V -> nat -> dict Z (obs S) -> res (dict Z (resp S))) (others : behaviour O V)
    eject_draws sample_draws (obj : dict string (cell S) -> O) pc ld tc sched stop envs t size_key cbs fuel st0 v s out,
  live_train (thr_act num env agent others eject_draws pc tc sched) (thr_next num env agent eject_draws sample_draws obj pc ld sched stop) size_key cbs fuel st0
    (thr_new envs t v) = (s, out) ->
  exists over n v' running, so_far others tc sched True v (wd_trace s) over n v' running (marks (lb_notes (tl_lab (wd_world s)))).
Proof.
  intros S E HSc O V num env agent others ed sd obj pc ld tc sched stop envs t sk cbs fuel st0 v s out H.
  edestruct (@train_told S E HSc O V num env agent others ed sd obj pc ld tc sched stop True (fun _ => True)) as [over T]; [..|exact H|]; auto.
  - eauto.
Qed.

(** A training whose collections succeed. *)
Lemma told_exactly : forall (S E : Type) (HSc : Scalar S) (O V : Type) (num : S -> R) (env : genv S E)
    (agent : V -> nat -> dict Z (obs S) -> res (dict Z (resp S))) (others : behaviour O V)
    eject_draws sample_draws (obj : dict string (cell S) -> O) pc ld tc sched stop envs cols maxlen smp dobs dact kmin size_key cbs fuel st0 v s out,
  envs <> [] -> shows env dobs -> (forall v, answers_all dobs dact (agent v)) ->
  pc_min pc = Some kmin -> Z.of_nat (ld_length ld) <= kmin -> (1 <= ld_length ld)%nat ->
  config_ok cols "actions" -> fresh_sampler smp -> layout cols "actions" (pc_terminal pc) (mkSchema ["obs"] ["actions"]) ->
  gym_sizes dobs dact cols -> at_most env maxlen -> maxlen <= 2 ^ 53 -> ld_group ld <> ld_size_key ld -> NoDup (map cb_id cbs) ->
  live_train (thr_act num env agent others eject_draws pc tc sched) (thr_next num env agent eject_draws sample_draws obj pc ld sched stop) size_key cbs fuel st0
    (thr_new envs (t_create cols "actions" maxlen smp (EFifo fifo_init)) v) = (s, out) ->
  exists over n v' running, so_far others tc sched False v (wd_trace s) over n v' running (marks (lb_notes (tl_lab (wd_world s)))).
Proof.
  intros S E HSc O V num env agent others ed sd obj pc ld tc sched stop envs cols maxlen smp dobs dact kmin sk cbs fuel st0 v s out
    H1 H2 H3 H4 H5 H6 H7 H8 H9 H10 H11 H12 H13 H14 Hl.
  edestruct (@train_told S E HSc O V num env agent others ed sd obj pc ld tc sched stop False
    (okw num env agent pc ld envs cols maxlen smp dobs dact)) as [over T]; [..|exact Hl|].
  - intros w (St & W & Hr) R. right. destruct (collects_ok ed sd H1 H2 H3 H4 H5 H6 H7 H8 H9 H10 H11 H12 (sched (tl_turn w)) St W (Hr R)) as (b & E1 & _). rewrite E1. reflexivity.
  - intros w K C. right. destruct (go_ok ed sd sched H1 H2 H3 H4 H5 H6 H7 H8 H9 H10 H11 H12 K) as ((K1 & K2 & _) & _ & _ & _ & _ & Gc). apply Gc in C.
    destruct (@begin_total _ _ _ O _ _ _ _ ed sd _ ld (mkSc (tc_id tc) (tc_warmup tc) 1) _ _ _ _ _ _ _ 0%nat H1 H2 H3 H4 H5 H6 H7 H8 H9 H10 H11 H12 _ K1 K2 C) as (b' & E1 & _). rewrite E1. eexists. reflexivity.
  - intros c ph x st w w' r K [[]|Hb] Ha. destruct (tact_ok sd H1 H2 H3 H4 H5 H6 H7 H8 H9 H10 H11 H12 K Hb Ha) as (K1 & _ & _ & _ & Q & _). auto.
  - intros w w' it K Hx.
    destruct (tnext_ok (obj := obj) (s := mkWorld [] w []) H1 H2 H3 H4 H5 H6 H7 H8 H9 H10 H11 H12 H13 (conj K (fun k b (I : In (TBatch k b) []) => match I with end)) Hx) as [[F _] _]. exact F.
  - auto.
  - right. reflexivity.
  - exact (proj1 (fine_new (O := O) num env agent obj pc ld envs cols maxlen smp dobs dact [] v)).
  - reflexivity.
  - reflexivity.
  - reflexivity.
  - reflexivity.
  - eauto.
Qed.

(** For the example of what is told. *)
Lemma told_begin (ms : list (mark (V := Z))) over n v running (st : tstate Z) sched :
  so_far (fun _ _ _ _ v => (v + 1, Ok [])) (mkTc 1 2) sched False 7 [TCall PBeginTraining (mkCb 1 0 None) None st (Ok [])] over n v running ms ->
  over = false -> ms = [Added 7; Added 7] /\ running = true /\ v = 7.
Proof.
  intros T Ho. inversion T as [|tr o m u q ms0 q1 ms1 ph c x s0 r ms2 u' q' T0 M H Et|tr m u q ms0 q' ms1 k b T0 M Et|]; subst; [| |discriminate].
  - apply (app_inj_tail _ []) in Et as [-> Et]. injection Et as -> -> -> -> ->.
    assert (F : forall tr o m u q l, so_far (O := Z) (fun _ _ _ _ v => (v + 1, Ok [])) (mkTc 1 2) sched False 7 tr o m u q l -> tr = [] -> o = false -> u = 7 /\ q = false /\ l = []).
    { clear. intros tr o m u q l T. destruct T; auto; intros Q1 Q2; try discriminate; destruct tr; discriminate. }
    destruct (F _ _ _ _ _ _ T0 eq_refl eq_refl) as (-> & -> & ->). inversion M; subst. inversion H; subst; try (cbn in *; congruence); try contradiction. auto.
  - apply (app_inj_tail _ []) in Et as [_ Et]. discriminate.
Qed.
