(** * ThrMain: every batch of a threaded experiment happened before it was drawn; the experiment runs to its end (C150) *)
From Coq Require Import Reals Lia Permutation.
From Verif Require Import Py PyLemmas MemModel MemSpec ProxyModel ProxySpec ProxyProofs ProxyE2E CollProofs LoaderModel TrainModel TrainSpec TrainProofs TrainMain TrainMore
  GymModel GymSpec GymProofs GymMore GymRun GymE2E LiveModel LiveSpec LiveRun LiveMain ExpSpec ExpMem ExpGym ExpMain ThrModel.
Set Implicit Arguments. Unset Strict Implicit.
Open Scope string_scope.
Open Scope list_scope.
Open Scope Z_scope.

Section P.
Context {S E : Type} {HSc : Scalar S} {O V : Type}.
Variable num : S -> R.
Variable env : genv S E.
Variable agent : V -> nat -> dict Z (obs S) -> res (dict Z (resp S)).
Variable hooks : behaviour O V.
Variable eject_draws : nat -> list (list draw).
Variable sample_draws : nat -> list draw.
Variable obj : dict string (cell S) -> O.
Variable pc : pconf.
Variable ld : loader.
Variable tc : tconf.
Variable sched : nat -> nat.
Variable stop : nat -> res bool.
Variables (envs : list E) (cols : list (column S)) (maxlen : Z) (smp : sampler).
Variables (dobs dact : nat) (kmin : Z).
Notation L := (ld_length ld).
Notation act := (thr_act num env agent hooks eject_draws pc tc sched).
Notation next := (thr_next num env agent eject_draws sample_draws obj pc ld sched stop).
Notation lab := (lab S E V).
Notation tlab := (tlab S E V).
Notation T0 := (t_create cols "actions" maxlen smp (EFifo fifo_init)).
Notation strong := (strong num env agent pc envs cols maxlen smp (EFifo fifo_init) dobs dact).
Notation weak := (weak env agent ld cols).
Notation stock := (fun b : lab => stocked (px_table (lb_px b))).
Hypothesis HE : envs <> [].
Hypothesis HS : shows env dobs.
Hypothesis HA : forall v, answers_all dobs dact (agent v).
Hypothesis Pm : pc_min pc = Some kmin.
Hypothesis Lk : Z.of_nat L <= kmin.
Hypothesis L1 : (1 <= L)%nat.
Hypothesis CO : config_ok cols "actions".
Hypothesis Fs : fresh_sampler smp.
Hypothesis LA : layout cols "actions" (pc_terminal pc) (mkSchema ["obs"] ["actions"]).
Hypothesis Sz : gym_sizes dobs dact cols.
Hypothesis HM : at_most env maxlen.
Hypothesis HM2 : maxlen <= 2 ^ 53.
Hypothesis Ng : ld_group ld <> ld_size_key ld.

Definition okw (w : tlab) : Prop := strong (tl_lab w) /\ weak (lb_notes (tl_lab w)) /\ (tl_run w = true -> lb_coll (tl_lab w) <> None).
Lemma grows_trans (a b c : lab) : grows a b -> grows b c -> grows a c.
Proof. intros [x Hx] [y Hy]. exists (x ++ y). rewrite Hy, Hx, app_assoc. reflexivity. Qed.

Lemma collects_ok : forall n (b : lab), strong b -> weak (lb_notes b) -> lb_coll b <> None ->
  exists b', thr_collects num env agent eject_draws pc n b = (b', true) /\ strong b' /\ weak (lb_notes b') /\ lb_coll b' <> None /\
    lb_gen b' = lb_gen b /\ (stock b -> stock b') /\ grows b b'.
Proof.
  induction n as [|n IH]; intros b St W Hc; cbn [thr_collects]; [exists b; splits; auto; apply grows_refl|].
  destruct (collect_total eject_draws sample_draws 0%nat HE HS HA Pm Lk L1 CO Fs LA Sz HM HM2 St W Hc) as (b1 & E1 & S1 & W1 & C1 & G1 & K1). rewrite E1.
  destruct (LiveMain.collect_ok sample_draws (fun _ => Ok false) HE HS HA L1 St W E1) as (_ & Gr & _).
  destruct (IH b1 S1 W1 C1) as (b2 & E2 & S2 & W2 & C2 & G2 & K2 & Gr2). exists b2. splits; auto; [congruence|]. eapply grows_trans; eauto.
Qed.

Lemma go_ok (w : tlab) : okw w -> let w' := thr_go num env agent eject_draws pc sched w in
  okw w' /\ grows (tl_lab w) (tl_lab w') /\ lb_gen (tl_lab w') = lb_gen (tl_lab w) /\ (stock (tl_lab w) -> stock (tl_lab w')) /\ tl_run w' = tl_run w /\
  (lb_coll (tl_lab w) = None <-> lb_coll (tl_lab w') = None).
Proof.
  intros (St & W & Hr) w'. unfold w', thr_go. destruct (tl_run w) eqn:Er.
  - destruct (collects_ok (sched (tl_turn w)) St W (Hr eq_refl)) as (b & E1 & S1 & W1 & C1 & G1 & K1 & Gr). rewrite E1. cbn [tl_lab tl_run].
    split; [split; auto|]. split; auto. split; auto. split; auto. split; auto. specialize (Hr eq_refl). split; intros; congruence.
  - cbn [tl_lab tl_run]. split; [split; auto; split; auto; discriminate|]. split; [apply grows_refl|]. splits; auto; split; auto.
Qed.

Lemma tact_ok c ph x st (w w' : tlab) r : okw w -> (ph = PBeginTraining -> cb_id c = tc_id tc -> lb_coll (tl_lab w) = None) ->
  act c ph x st w = (w', r) ->
  okw w' /\ grows (tl_lab w) (tl_lab w') /\ lb_gen (tl_lab w') = lb_gen (tl_lab w) /\ (stock (tl_lab w) -> stock (tl_lab w')) /\
  (cb_id c <> tc_id tc \/ ph <> PBeginTraining -> (lb_coll (tl_lab w) = None <-> lb_coll (tl_lab w') = None)) /\
  (cb_id c = tc_id tc -> r = Ok [] /\ (ph = PBeginTraining -> lb_coll (tl_lab w') <> None)) /\
  (cb_id c <> tc_id tc -> exists w1, r = snd (hooks c ph x st w1)).
Proof.
  intros Ok0 Hn Ha. destruct (go_ok Ok0) as (K & Gr & Gg & Gs & Gt & Gc). unfold thr_act in Ha. set (w1 := thr_go _ _ _ _ _ _ w) in *.
  destruct (Nat.eqb_spec (cb_id c) (tc_id tc)) as [Ei|Ni].
  - assert (Same : forall q, (w1, Ok q) = (w', r) -> q = [] -> ph <> PBeginTraining -> okw w' /\ grows (tl_lab w) (tl_lab w') /\ lb_gen (tl_lab w') = lb_gen (tl_lab w) /\ (stock (tl_lab w) -> stock (tl_lab w')) /\
      (cb_id c <> tc_id tc \/ ph <> PBeginTraining -> (lb_coll (tl_lab w) = None <-> lb_coll (tl_lab w') = None)) /\
      (cb_id c = tc_id tc -> r = Ok [] /\ (ph = PBeginTraining -> lb_coll (tl_lab w') <> None)) /\ (cb_id c <> tc_id tc -> exists w1, r = snd (hooks c ph x st w1))).
    { intros q Q -> Np. injection Q as <- <-. split; [exact K|]. split; [exact Gr|]. split; [exact Gg|]. split; [exact Gs|]. split; [intros _; exact Gc|]. split; [intros _; split; [auto|congruence]|congruence]. }
    destruct ph; try (eapply Same; [exact Ha|reflexivity|discriminate]).
    + assert (Cn : lb_coll (tl_lab w1) = None) by (apply Gc; auto). destruct K as (K1 & K2 & _).
      destruct (@begin_total _ _ _ O _ _ _ _ eject_draws sample_draws _ ld (mkSc (tc_id tc) (tc_warmup tc) 1) _ _ _ _ _ _ _ 0%nat HE HS HA Pm Lk L1 CO Fs LA Sz HM HM2 (tl_lab w1) K1 K2 Cn) as (b' & E1 & H1 & H2 & H3 & H4 & H5).
      rewrite E1 in Ha. injection Ha as <- <-. cbn [tl_lab tl_run].
      destruct (LiveMain.begin_training_ok (O := O) sample_draws (fun _ => Ok false) HE HS HA L1 K1 K2 Cn E1) as (_ & Gr2 & _).
      split; [split; auto|]. split; [eapply grows_trans; eauto|]. split; [congruence|]. split; [auto|]. split; [intros [Q|Q]; congruence|]. split; [auto|congruence].
    + injection Ha as <- <-. cbn [tl_lab tl_run]. destruct K as (K1 & K2 & _). split; [split; [exact K1|split; [exact K2|discriminate]]|]. split; [exact Gr|]. split; [exact Gg|]. split; [exact Gs|]. split; [intros _; exact Gc|]. split; [intros _; split; [auto|discriminate]|congruence].
  - destruct (hooks c ph x st (lb_v (tl_lab w1))) as [v r1] eqn:Eo. injection Ha as <- <-. cbn [tl_lab tl_run lb_notes lb_coll lb_gen lb_px] in *. destruct K as (K1 & K2 & K3).
    split; [split; [exact K1|split; auto]|]. split; [exact Gr|]. split; [exact Gg|]. split; [exact Gs|]. split; [intros _; exact Gc|]. split; [congruence|].
    intros _. exists (lb_v (tl_lab w1)). rewrite Eo. reflexivity.
Qed.

(** The batches in the trace are the ones noted. *)
Notation world := (world O tlab).
Definition noted_in (s : world) : Prop :=
  forall k b, In (TBatch k b) (wd_trace s) -> exists before rows after, lb_notes (tl_lab (wd_world s)) = before ++ NDrew rows :: after /\ batch_of obj ld rows b.
Definition fine (s : world) : Prop := okw (wd_world s) /\ noted_in s.
Lemma noted_grows (s : world) st w' tr : noted_in s -> grows (tl_lab (wd_world s)) (tl_lab w') -> (forall k b, In (TBatch k b) tr -> In (TBatch k b) (wd_trace s)) ->
  noted_in (mkWorld st w' tr).
Proof.
  intros B [ext G] It k b I. cbn [wd_world wd_trace] in *. destruct (B k b (It k b I)) as (before & rows & after & Eq & Q).
  exists before, rows, (after ++ ext). split; auto. rewrite G, Eq, <- app_assoc. reflexivity.
Qed.

Lemma phase_ok ph x : forall cs (s s' : world) r, NoDup (map cb_id cs) \/ ph <> PBeginTraining ->
  (ph = PBeginTraining -> In (tc_id tc) (map cb_id cs) -> lb_coll (tl_lab (wd_world s)) = None) ->
  fine s -> run_phase act ph x cs s = (s', r) ->
  fine s' /\ grows (tl_lab (wd_world s)) (tl_lab (wd_world s')) /\ (ph = PRestore -> lb_coll (tl_lab (wd_world s)) = None -> lb_coll (tl_lab (wd_world s')) = None).
Proof.
  induction cs as [|c cs IH]; intros s s' r Nd Hn [W B] Hr; cbn [run_phase] in Hr.
  - injection Hr as <- <-. split; [split; auto|]. split; [apply grows_refl|auto].
  - destruct (act c ph x (wd_state s) (wd_world s)) as [b1 r1] eqn:Ea.
    destruct (tact_ok W (fun E1 E2 => Hn E1 (or_introl E2)) Ea) as (W1 & G1 & _ & _ & C1 & _).
    assert (B1 : forall st0, noted_in (mkWorld st0 b1 (wd_trace s ++ [TCall ph c x (wd_state s) r1]))).
    { intros st0. eapply noted_grows; eauto. intros k b I. apply in_app_or in I as [I|[I|[]]]; [auto|discriminate]. }
    destruct r1 as [u|e].
    + destruct (IH (mkWorld (dupdate (wd_state s) u) b1 (wd_trace s ++ [TCall ph c x (wd_state s) (Ok u)])) s' r) as (F1 & F2 & F3); auto.
      * destruct Nd as [Nd|Nd]; auto. left. inversion Nd; auto.
      * intros Ep Is. cbn [wd_world]. destruct Nd as [Nd|Nd]; [|congruence]. inversion Nd as [|? ? N1 N2]; subst. apply C1.
        -- left. intros Q. apply N1. rewrite Q. exact Is.
        -- apply Hn; auto. right. exact Is.
      * split; [exact W1|apply B1].
      * split; auto. cbn [wd_world] in *. split; [eapply grows_trans; eauto|]. intros Ep Q. apply F3; auto. apply C1; auto. right. rewrite Ep. discriminate.
    + injection Hr as <- <-. split; [split; [exact W1|apply B1]|]. cbn [wd_world]. split; auto. intros Ep Q. apply C1; auto. right. rewrite Ep. discriminate.
Qed.

(** The loader's turn. *)
Lemma tnext_ok (s : world) w' it : fine s -> next (wd_world s) = (w', it) ->
  fine (mkWorld (wd_state s) w' (wd_trace s)) /\
  (forall i bt, it = Some i -> it_batch i = Ok bt -> exists before rows, lb_notes (tl_lab w') = before ++ [NDrew rows] /\ batch_of obj ld rows bt).
Proof.
  intros [W B] Hx. unfold thr_next in Hx. destruct (go_ok W) as ((K1 & K2 & K3) & Gr & _ & _ & Gt & _). set (w1 := thr_go _ _ _ _ _ _ (wd_world s)) in *.
  destruct (lab_next sample_draws obj ld stop (tl_lab w1)) as [b' i0] eqn:En. injection Hx as <- <-.
  assert (F : LiveMain.fine env agent obj ld cols (mkWorld (wd_state s) (tl_lab w1) (wd_trace s))).
  { split; [exact K2|]. intros k b I. cbn [wd_world wd_trace] in *. destruct (@noted_grows s (wd_state s) w1 (wd_trace s) B Gr (fun _ _ I => I) k b I) as (before & rows & after & Q). eauto. }
  destruct (LiveMain.next_ok (O := O) (obj := obj) (s := mkWorld (wd_state s) (tl_lab w1) (wd_trace s)) eject_draws HE HS Pm Lk L1 CO Fs fresh_EFifo LA Sz Ng K1 F En) as (S1 & [W1 B1] & Q).
  split; [|exact Q]. split; [split; [exact S1|split; [exact W1|]]|exact B1]. cbn [wd_world tl_lab tl_run]. intros Hr.
  assert (Ec : lb_coll b' = lb_coll (tl_lab w1)).
  { clear -En. unfold lab_next in En. destruct (loader_next _ _ _ _) as [[g t] [d|e]]; [injection En as <- _; reflexivity|]. destruct e; injection En as <- _; reflexivity. }
  rewrite Ec. auto.
Qed.

Lemma phases_ok (fs : list (phase * list callback)) : Forall (fun p => fst p <> PBeginTraining) fs ->
  forall (s s' : world) r, fine s ->
  fold_left (fun p q => andthen p (run_phase act (fst q) None (snd q))) fs (s, Ok tt) = (s', r) -> fine s' /\ grows (tl_lab (wd_world s)) (tl_lab (wd_world s')).
Proof.
  assert (Er : forall fs (s : world) e, fold_left (fun p q => andthen p (run_phase act (fst q) None (snd q))) fs (s, Err e) = (s, Err e)).
  { clear. induction fs as [|q fs IH]; intros; cbn; auto. }
  induction fs as [|[ph cs] fs IH]; intros Hf s s' r F Hr; cbn [fold_left] in Hr.
  - injection Hr as <- <-. split; auto. apply grows_refl.
  - inversion Hf as [|? ? H1 H2]; subst. cbn [fst snd andthen] in *. destruct (run_phase act ph None cs s) as [s1 r1] eqn:E1.
    destruct (@phase_ok ph None cs s s1 r1) as (F1 & G1 & _); auto; [intros; congruence|]. destruct r1 as [[]|e].
    + destruct (IH H2 s1 s' r F1 Hr) as [F2 G2]. split; auto. eapply grows_trans; eauto.
    + rewrite Er in Hr. injection Hr as <- <-. auto.
Qed.

Variable size_key : string.
Lemma step_ok cs k it (s s' : world) r : fine s ->
  (forall bt, it_batch it = Ok bt -> exists before rows, lb_notes (tl_lab (wd_world s)) = before ++ [NDrew rows] /\ batch_of obj ld rows bt) ->
  one_step act size_key cs k it s = (s', r) -> fine s' /\ grows (tl_lab (wd_world s)) (tl_lab (wd_world s')).
Proof.
  intros F Hb Hs. unfold one_step in Hs. destruct (it_batch it) as [bt|e]; [|injection Hs as <- <-; split; auto; apply grows_refl].
  destruct (merge_batch size_key k bt (wd_state s)) as [st|e]; [|injection Hs as <- <-; split; auto; apply grows_refl].
  destruct (Hb bt eq_refl) as (before & rows & En & Bo).
  assert (F1 : fine (mkWorld st (wd_world s) (wd_trace s ++ [TBatch k bt]))).
  { destruct F as [W B]. split; auto. intros k0 b0 I. cbn [wd_trace wd_world] in *. apply in_app_or in I as [I|[I|[]]]; [apply (B k0 b0 I)|].
    injection I as <- <-. exists before, rows, []. auto. }
  destruct (it_stop it) as [[|]|e]; try (injection Hs as <- <-; split; auto; apply grows_refl).
  apply (@phases_ok [(PBeginCycle, begin_cycle_cbs k cs); (PBeginBatch, cs); (PBackward, cs); (PEndBatch, cs); (PEndCycle, end_cycle_cbs k cs)])
    with (s := mkWorld st (wd_world s) (wd_trace s ++ [TBatch k bt])) (r := r); auto.
  - repeat (apply Forall_cons; [discriminate|]). apply Forall_nil.
  - rewrite <- Hs. cbn [fold_left fst snd andthen].
    repeat match goal with |- context [run_phase act ?ph None ?c ?s] => destruct (run_phase act ph None c s) as [? [[]|?]]; cbn [andthen]; auto end.
Qed.

Lemma loop_ok cs : forall fuel k (s s' : world) r e, fine s -> live_loop act next size_key cs fuel k s = (s', r, e) -> fine s'.
Proof.
  induction fuel as [|fuel IH]; intros k s s' r e F Hl; cbn [live_loop] in Hl; [injection Hl as <- _ _; auto|].
  destruct (next (wd_world s)) as [b' it] eqn:En. destruct (tnext_ok F En) as (F1 & B1). destruct it as [i|]; [|injection Hl as <- _ _; auto].
  destruct (one_step act size_key cs k i (mkWorld (wd_state s) b' (wd_trace s))) as [s1 r1] eqn:Eo.
  destruct (@step_ok cs k i (mkWorld (wd_state s) b' (wd_trace s)) s1 r1 F1 (fun bt => B1 i bt eq_refl) Eo) as [F2 _]. destruct r1 as [u|e1]; [|injection Hl as <- _ _; auto].
  eapply IH; [exact F2|exact Hl].
Qed.

Lemma fine_new st0 v : fine (mkWorld st0 (thr_new envs T0 v) []).
Proof.
  split; [split; [|split; [|discriminate]]|intros k b []].
  - exists []. cbn. split; auto. split; [constructor|]. split; [constructor|]. split; auto.
  - intros before rows after Eq. destruct before; discriminate.
Qed.

Lemma experiment cbs fuel st0 v s out : NoDup (map cb_id cbs) ->
  live_train act next size_key cbs fuel st0 (thr_new envs T0 v) = (s, out) -> fine s.
Proof.
  intros Nd Hl. unfold live_train in Hl. set (cs := sort_cbs cbs) in *.
  assert (Ncs : NoDup (map cb_id cs)). { destruct (sort_in_order cbs) as [P _]. eapply Permutation_NoDup; [apply Permutation_map; exact P|exact Nd]. }
  set (s0 := mkWorld _ (thr_new envs T0 v) []) in Hl. assert (F0 : fine s0) by apply fine_new.
  assert (Fin : forall p ends, fine (fst p) -> finish act cs p ends = (s, out) -> fine s).
  { intros [s1 r1] ends F Hf. unfold finish in Hf. cbn [fst] in F. destruct r1 as [u|e]; [injection Hf as <- _; auto|].
    destruct (run_phase act PEndTraining (Some e) cs s1) as [s2 r2] eqn:E2. destruct (@phase_ok PEndTraining (Some e) cs s1 s2 r2) as [F2 _]; auto; [discriminate|]. destruct r2; injection Hf as <- _; auto. }
  destruct (run_phase act PRestore None cs s0) as [s1 r1] eqn:E1. destruct (@phase_ok PRestore None cs s0 s1 r1) as (F1 & _ & C1); auto.
  destruct r1 as [u1|e1].
  2:{ cbn [andthen] in Hl. destruct e1; injection Hl as <- _; auto. }
  cbn [andthen] in Hl. destruct (run_phase act PBeginTraining None cs s1) as [s2 r2] eqn:E2.
  assert (Cn : lb_coll (tl_lab (wd_world s1)) = None) by (apply C1; reflexivity).
  destruct (@phase_ok PBeginTraining None cs s1 s2 r2 (or_introl Ncs) (fun _ _ => Cn) F1 E2) as [F2 _].
  destruct r2 as [u2|e2]; [|destruct e2; injection Hl as <- _; auto].
  destruct (dget (wd_state s2) "bp_step") as [[k|o]|]; [|eapply Fin; [|exact Hl]; exact F2|eapply Fin; [|exact Hl]; exact F2].
  destruct (live_loop act next size_key cs fuel k s2) as [[s3 r3] ends] eqn:E3. eapply Fin; [|exact Hl]. cbn [fst]. eapply loop_ok; eauto.
Qed.
End P.

Lemma threaded_happened : forall (S E : Type) (HSc : Scalar S) (O V : Type) (num : S -> R) (env : genv S E)
    (agent : V -> nat -> dict Z (obs S) -> res (dict Z (resp S))) (others : behaviour O V)
    eject_draws sample_draws (obj : dict string (cell S) -> O) pc ld tc sched stop envs cols maxlen smp dobs dact kmin size_key cbs fuel st0 v s out,
  envs <> [] -> shows env dobs -> (forall v, answers_all dobs dact (agent v)) ->
  pc_min pc = Some kmin -> Z.of_nat (ld_length ld) <= kmin -> (1 <= ld_length ld)%nat ->
  config_ok cols "actions" -> fresh_sampler smp -> layout cols "actions" (pc_terminal pc) (mkSchema ["obs"] ["actions"]) ->
  gym_sizes dobs dact cols -> at_most env maxlen -> maxlen <= 2 ^ 53 -> ld_group ld <> ld_size_key ld -> NoDup (map cb_id cbs) ->
  live_train (thr_act num env agent others eject_draws pc tc sched) (thr_next num env agent eject_draws sample_draws obj pc ld sched stop) size_key cbs fuel st0
    (thr_new envs (t_create cols "actions" maxlen smp (EFifo fifo_init)) v) = (s, out) ->
  Z.of_nat (List.length (lb_notes (tl_lab (wd_world s)))) <= 2 ^ 53 ->
  forall k b, In (TBatch k b) (wd_trace s) ->
  exists before rows after, lb_notes (tl_lab (wd_world s)) = before ++ NDrew rows :: after /\ batch_of obj ld rows b /\
    batch_sized cols rows (ld_count ld) (ld_length ld) /\ forall j, (j < ld_count ld)%nat -> rollout_happened env agent cols (ld_length ld) before rows j.
Proof.
  intros S E HSc O V num env agent others eject_draws sample_draws obj pc ld tc sched stop envs cols maxlen smp dobs dact kmin size_key cbs fuel st0 v s out
    H1 H2 H3 H4 H5 H6 H7 H8 H9 H10 H11 H12 H13 H14 Hl Hn k b I.
  destruct (experiment (tc := tc) (sched := sched) H1 H2 H3 H4 H5 H6 H7 H8 H9 H10 H11 H12 H13 H14 Hl) as [(St & W & _) B].
  destruct (B k b I) as (before & rows & after & Eq & Q). exists before, rows, after. split; auto. split; auto.
  apply (W before rows after Eq). rewrite Eq, app_length in Hn. lia.
Qed.
