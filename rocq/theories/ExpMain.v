(** * ExpMain: an experiment runs to its end (C149) *)
From Coq Require Import Reals Lia Permutation.
From Verif Require Import Py PyLemmas MemModel MemSpec ProxyModel ProxySpec ProxyProofs ProxyE2E CollProofs LoaderModel TrainModel TrainSpec TrainProofs TrainMain TrainMore
  GymModel GymSpec GymProofs GymMore GymRun GymE2E LiveModel LiveSpec LiveRun LiveMain ExpSpec ExpMem ExpGym.
Set Implicit Arguments. Unset Strict Implicit.
Open Scope string_scope.
Open Scope list_scope.
Open Scope Z_scope.

Ltac splits := repeat match goal with |- _ /\ _ => split end.
Section P.
Context {S E : Type} {HSc : Scalar S} {O V : Type}.
Variable num : S -> R.
Variable env : genv S E.
Variable agent : V -> nat -> dict Z (obs S) -> res (dict Z (resp S)).
Variable others : behaviour O V.
Variable eject_draws : nat -> list (list draw).
Variable sample_draws : nat -> list draw.
Variable obj : dict string (cell S) -> O.
Variable pc : pconf.
Variable ld : loader.
Variable sc : sconf.
Variables (envs : list E) (cols : list (column S)) (maxlen : Z) (smp : sampler).
Variables (dobs dact : nat) (kmin : Z) (id : nat) (n : Z).
Variable cbs : list callback.
Notation L := (ld_length ld).
Notation stop := (fun _ : nat => Ok false).
Notation act := (lab_act num env agent (with_terminator id others) eject_draws pc sc).
Notation next := (lab_next sample_draws obj ld stop).
Notation lab := (lab S E V).
Notation T0 := (t_create cols "actions" maxlen smp (EFifo fifo_init)).
Notation strong := (strong num env agent pc envs cols maxlen smp (EFifo fifo_init) dobs dact).
Notation weak := (weak env agent ld cols).
Notation stock := (fun b : lab => stocked (px_table (lb_px b))).
Notation nenv := (List.length envs).
Hypothesis HE : envs <> [].
Hypothesis HS : shows env dobs.
Hypothesis HA : forall v, answers_all dobs dact (agent v).
Hypothesis Pm : pc_min pc = Some kmin.
Hypothesis Lk : Z.of_nat L <= kmin.
Hypothesis L1 : (1 <= L)%nat.
Hypothesis CO : config_ok cols "actions".
Hypothesis Fs : fresh_sampler smp.
Hypothesis LA : layout cols "actions" (pc_terminal pc) (mkSchema ["obs"] ["actions"]).
Hypothesis Sz : gym_sizes dobs dact cols.
Hypothesis HM : at_most env maxlen.
Hypothesis HM2 : maxlen <= 2 ^ 53.

Lemma one_env : (1 <= nenv)%nat.
Proof. destruct envs; cbn; [congruence|lia]. Qed.
Lemma sch_ok : schema_ok (pc_terminal pc) gym_sch.
Proof. unfold schema_ok, names. cbn. destruct (pc_terminal pc); repeat constructor; cbn; intuition discriminate. Qed.

Lemma collect_total (b : lab) : strong b -> weak (lb_notes b) -> lb_coll b <> None ->
  exists b', lab_collect num env agent eject_draws pc b = (b', Ok tt) /\ strong b' /\ weak (lb_notes b') /\ lb_coll b' <> None /\
    lb_gen b' = lb_gen b /\ (stock b -> stock b').
Proof.
  intros St W Hc. pose proof St as (h & Hp & Ou & Nt & Ln & Co). unfold coll_ok in Co. destruct (lb_coll b) as [c|] eqn:Ec; [|congruence].
  destruct Co as (ag & off & Ha & I).
  set (a2 := fun i os => match i with 0%nat => agent (lb_v b) (co_asked c) os | Datatypes.S i => ag i os end).
  assert (Ha2 : answers_all dobs dact a2). { intros [|i] os N1 N2 N3; cbn [a2]; [apply (@HA (lb_v b)); auto|apply Ha; auto]. }
  assert (I2 : inv num env a2 dobs dact nenv off (co_gym c) (co_obs c) (adds_of h)).
  { eapply inv_other; [|exact I]. intros i os rs Hi. exists (Datatypes.S i). exact Hi. }
  destruct (inv_step HS Ha2 0 (eject_draws (co_asked c)) one_env I2) as (rs & g' & os' & lg & A1 & A2 & A3 & _). cbn [a2] in A1.
  set (o := PAdd (co_obs c) rs (eject_draws (co_asked c))) in *.
  assert (A4 : inv num env a2 dobs dact nenv off g' os' (adds_of (h ++ [o]))) by (rewrite adds_snoc; exact A3).
  assert (Ou2 : other_uses (h ++ [o])) by (apply Forall_app; split; [exact Ou|constructor; [exact Logic.I|constructor]]).
  destruct (exp_agents HS HM A4 Ou2 HM2 Pm Lk Sz) as [BO AO]. destruct (exp_agents HS HM I2 Ou HM2 Pm Lk Sz) as [BO1 AO1].
  assert (Nc : forall o, In (PUse o) h -> o <> OClear). { intros o' Io. pose proof (proj1 AO1) as A. rewrite Forall_forall in A. apply (A _ Io). }
  destruct (history_ops BO1 Hp Nc) as (ops & Et & No & F & SR).
  assert (Ck : call_ok a2 dobs dact nenv o). { pose proof (i_calls A3) as C. apply Forall_app in C as [_ C]. apply Forall_inv in C. exact C. }
  pose proof (gym_fits I2 Ck SR Hp) as Bf.
  destruct (add_accepts CO Fs sch_ok LA L1 BO AO Hp Bf (episodes_bound HM A4)) as (p' & Ep & Sp).
  assert (Q : exists b', lab_collect num env agent eject_draws pc b = (b', Ok tt) /\ lb_gen b' = lb_gen b /\ lb_coll b' <> None /\ (stock b -> stock b')).
  { unfold lab_collect. rewrite Ec. unfold collect_data. rewrite A1. cbn [rbind]. rewrite A2. cbn [rbind fst snd co_gym co_obs co_asked]. cbn [pstep]. unfold o in Ep. rewrite Ep.
    eexists. split; [reflexivity|]. cbn. split; auto. split; [discriminate|]. exact Sp. }
  destruct Q as (b' & Eb & Gb & Cb & Sb). destruct (LiveMain.collect_ok sample_draws stop HE HS HA L1 St W Eb) as (W1 & _ & S1 & _). destruct (S1 tt eq_refl) as [S1' _].
  exists b'. splits; auto.
Qed.

Lemma multiple_total : forall count (b : lab), strong b -> weak (lb_notes b) -> lb_coll b <> None ->
  exists b', lab_collect_multiple num env agent eject_draws pc count b = (b', Ok tt) /\ strong b' /\ weak (lb_notes b') /\ lb_coll b' <> None /\
    lb_gen b' = lb_gen b /\ (stock b -> stock b').
Proof.
  induction count as [|count IH]; intros b St W Hc; cbn [lab_collect_multiple]; [exists b; splits; auto|].
  destruct (collect_total St W Hc) as (b1 & E1 & S1 & W1 & C1 & G1 & K1). rewrite E1.
  destruct (IH b1 S1 W1 C1) as (b2 & E2 & S2 & W2 & C2 & G2 & K2). exists b2. splits; auto. congruence.
Qed.

Lemma begin_total (b : lab) : strong b -> weak (lb_notes b) -> lb_coll b = None ->
  exists b', lab_begin_training (O := O) num env agent eject_draws pc sc b = (b', Ok [("inf_step", VNum (Z.of_nat (sc_warmup sc)))]) /\ strong b' /\ weak (lb_notes b') /\ lb_coll b' <> None /\
    lb_gen b' = lb_gen b /\ (stock b -> stock b').
Proof.
  intros (h & Hp & Ou & Nt & Ln & Co) W Ec. unfold coll_ok in Co. rewrite Ec in Co. destruct Co as [Ah Eg].
  unfold lab_begin_training. rewrite Eg. destruct (begin_ok num HS (@HA (lb_v b)) HE) as (c & g' & rs & os1 & B1 & B2 & _). rewrite B1.
  set (b0 := mkLab (gym_new envs) (Some c) (lb_px b) (lb_gen b) (lb_asked b) (lb_v b) (lb_notes b)).
  assert (S1 : strong b0).
  { exists h. cbn [lb_px lb_notes]. split; auto. split; auto. split; auto. split; auto. unfold coll_ok. cbn [b0 lb_coll]. rewrite Ah. eauto. }
  destruct (@multiple_total (sc_warmup sc) b0 S1 W ltac:(discriminate)) as (b1 & E1 & H1 & H2 & H3 & H4 & H5).
  rewrite E1. exists b1. splits; auto.
Qed.

Hypothesis Per : sc_per sc <> 0.
Lemma batch_total st (b : lab) i k : strong b -> weak (lb_notes b) -> lb_coll b <> None -> dget st "inf_step" = Some (VNum i) -> dget st "bp_step" = Some (VNum k) ->
  exists b' i', lab_begin_batch (O := O) num env agent eject_draws pc sc st b = (b', Ok [("inf_step", VNum i')]) /\ strong b' /\ weak (lb_notes b') /\ lb_coll b' <> None /\
    lb_gen b' = lb_gen b /\ (stock b -> stock b').
Proof.
  intros St W Hc Hi Hk. unfold lab_begin_batch. rewrite Hi, Hk. destruct (Z.eqb_spec (sc_per sc) 0) as [C|_]; [congruence|].
  destruct (k mod sc_per sc =? 0).
  - destruct (collect_total St W Hc) as (b1 & E1 & S1 & W1 & C1 & G1 & K1). rewrite E1. exists b1. eexists. splits; auto.
  - exists b. eexists. splits; auto.
Qed.

Hypothesis Ng : ld_group ld <> ld_size_key ld.
Hypothesis Cnt : (1 <= ld_count ld)%nat.
(** An agent number that the index of a sampler cannot hold. *)
Definition huge (nts : list (note S V)) : Prop := exists v os rs a, In (NAdd v os rs) nts /\ In a (dkeys os) /\ 2 ^ 63 <= a.
Lemma huge_dec nts : huge nts \/ forall v os rs a, In (NAdd v os rs) nts -> In a (dkeys os) -> a < 2 ^ 63.
Proof.
  assert (D : forall l : list Z, (exists a, In a l /\ 2 ^ 63 <= a) \/ forall a, In a l -> a < 2 ^ 63).
  { induction l as [|a l [(x & I & Q)|IH]]; [right; intros a []| |]; [left; exists x; split; [right|]; auto|].
    destruct (Z.le_gt_cases (2 ^ 63) a); [left; exists a; split; [left|]; auto|]. right. intros x [<-|Ix]; [lia|auto]. }
  induction nts as [|x nts [H|H]]; [right; intros v os rs a []| |].
  - left. destruct H as (v & os & rs & a & H1 & H2). exists v, os, rs, a. split; [right|]; auto.
  - destruct x as [v os rs|rows].
    + destruct (D (dkeys os)) as [(a & Ia & Qa)|Q]; [left; exists v, os, rs, a; split; [left|]; auto|]. right. intros v' os' rs' a [Eq|I] Ia; [injection Eq as _ <- _; auto|eauto].
    + right. intros v' os' rs' a [Eq|I] Ia; [discriminate|eauto].
Qed.

Lemma strong_inv (b : lab) : strong b -> exists h, prun pc (px_new T0) h = (lb_px b, Ok tt) /\ batches_ok h /\ agents_ok pc cols "actions" gym_sch L h /\
  forall os rs dr, In (PAdd os rs dr) h -> exists v, In (NAdd v os rs) (lb_notes b).
Proof.
  intros (h & Hp & Ou & Nt & Ln & Co). exists h.
  assert (Q : exists agent' off g os, inv num env agent' dobs dact nenv off g os (adds_of h)).
  { unfold coll_ok in Co. destruct (lb_coll b) as [c|].
    - destruct Co as (ag & off & _ & I). eauto.
    - destruct Co as [-> _]. exists (agent (lb_v b)). do 3 eexists. exact (@inv_reset _ _ num env (agent (lb_v b)) dobs dact nenv (gym_new envs) one_env eq_refl (repeat_length _ _) ltac:(cbn; lia)). }
  destruct Q as (ag & off & g & os & I). destruct (exp_agents HS HM I Ou HM2 Pm Lk Sz) as [BO AO]. split; auto. split; auto. split; auto.
  intros os' rs dr Ih. assert (Ia : In (PAdd os' rs dr) (adds_of h)) by (apply filter_In; auto). rewrite Forall_forall in Nt. destruct (Nt _ Ia) as (x & Ix & Nx).
  destruct x as [v os2 rs2|rows]; [|destruct Nx]. destruct Nx as (-> & -> & _). eauto.
Qed.

Definition batch_fine (bt : tstate O) : Prop := NoDup (dkeys bt) /\ (exists m, dget bt (ld_size_key ld) = Some (VNum m)) /\ (forall k, In k (dkeys bt) -> k = ld_group ld \/ k = ld_size_key ld).
Lemma next_total (b : lab) : strong b -> weak (lb_notes b) -> (lb_gen b = GRunning -> stock b) -> lb_gen b <> GDone ->
  (exists b' bt, next b = (b', Some (mkItem (Ok bt) (Ok false))) /\ batch_fine bt /\ strong b' /\ weak (lb_notes b') /\ lb_coll b' = lb_coll b /\ lb_gen b' = GRunning /\ stock b') \/
  (exists b' e, next b = (b', Some (mkItem (Err e) (Ok false))) /\
     (e = OtherError /\ lb_gen b = GNew /\ t_size (px_table (lb_px b')) < Z.of_nat (ld_count ld) * Z.of_nat L \/ e = Diverges \/ huge (lb_notes b'))) \/
   exists b', next b = (b', None) /\ huge (lb_notes b').
Proof.
  intros St W Gs Gd. destruct (strong_inv St) as (h & Hp & BO & AO & Nt).
  set (t := px_table (lb_px b)). set (dr := sample_draws (lb_asked b)).
  assert (Load : stocked t -> forall g0, lb_gen b = g0 -> g0 <> GDone -> loader_next ld g0 t dr = (let '(t', r) := load_one ld t dr in match r with Ok d => (GRunning, t', Ok d) | Err e => (GDone, t', Err e) end) ->
    (exists b' bt, next b = (b', Some (mkItem (Ok bt) (Ok false))) /\ batch_fine bt /\ lb_coll b' = lb_coll b /\ lb_gen b' = GRunning /\ stock b') \/
    (exists b' e, next b = (b', Some (mkItem (Err e) (Ok false))) /\ (e = Diverges \/ huge (lb_notes b'))) \/ exists b', next b = (b', None) /\ huge (lb_notes b')).
  { intros Sk g0 Eg Ng0 El.
    assert (SH : huge (lb_notes b) \/ (forall e, snd (t_sample t (ld_count ld) L dr) = Err e -> e = Diverges) /\ stocked (fst (t_sample t (ld_count ld) L dr))).
    { destruct (huge_dec (lb_notes b)) as [Hh|Hh]; [auto|right]. eapply sample_hist; eauto using sch_ok, fresh_EFifo.
      intros os rs dr' a I1 I2. destruct (Nt _ _ _ I1) as [v Iv]. eapply Hh; eauto. }
    assert (SK : stocked (fst (t_sample t (ld_count ld) L dr))).
    { pose proof (@stocked_sample S HSc pc cols "actions" maxlen smp (EFifo fifo_init) gym_sch h (lb_px b) L (ld_count ld) dr CO Fs fresh_EFifo sch_ok LA L1 BO AO Hp Sk) as Q. exact Q. }
    unfold lab_next. rewrite Eg. fold t dr. rewrite El. unfold load_one.
    destruct (t_sample t (ld_count ld) L dr) as [t' [rows|e]] eqn:Es; cbn [fst snd] in *.
    - left. do 2 eexists. split; [reflexivity|]. cbn [lb_coll lb_gen lb_px px_table]. split; [|auto]. unfold batch_fine, as_state.
      assert (Ng' : ld_size_key ld <> ld_group ld) by (intros Q; apply Ng; auto).
      cbn [dset]. destruct (keqb_spec (ld_size_key ld) (ld_group ld)) as [Q|_]; [congruence|]. cbn [map fst snd dkeys]. split; [|split].
      + constructor; [intros [Q|[]]; congruence|]. constructor; [intros []|constructor].
      + eexists. cbn [dget]. destruct (keqb_spec (ld_size_key ld) (ld_group ld)) as [Q|_]; [congruence|]. destruct (keqb_spec (ld_size_key ld) (ld_size_key ld)) as [_|Q]; [reflexivity|congruence].
      + intros k [<-|[<-|[]]]; auto.
    - right. destruct SH as [SH|[SH _]].
      + destruct e; try (left; do 2 eexists; split; [reflexivity|]; right; exact SH). right. eexists. split; [reflexivity|exact SH].
      + left. rewrite (SH e eq_refl). do 2 eexists. split; [reflexivity|]. auto. }
  assert (Cl : forall b' it, next b = (b', it) -> strong b' /\ weak (lb_notes b')).
  { intros b' it En. destruct (LiveMain.next_ok (O := O) (obj := obj) (s := mkWorld [] b []) eject_draws HE HS Pm Lk L1 CO Fs fresh_EFifo LA Sz Ng St (conj W (fun k b0 (I : In _ []) => match I with end)) En) as (S1 & [W1 _] & _). auto. }
  assert (Fin : stocked t -> forall g0, lb_gen b = g0 -> g0 <> GDone -> loader_next ld g0 t dr = (let '(t', r) := load_one ld t dr in match r with Ok d => (GRunning, t', Ok d) | Err e => (GDone, t', Err e) end) ->
    (exists b' bt, next b = (b', Some (mkItem (Ok bt) (Ok false))) /\ batch_fine bt /\ strong b' /\ weak (lb_notes b') /\ lb_coll b' = lb_coll b /\ lb_gen b' = GRunning /\ stock b') \/
  (exists b' e, next b = (b', Some (mkItem (Err e) (Ok false))) /\
     (e = OtherError /\ lb_gen b = GNew /\ t_size (px_table (lb_px b')) < Z.of_nat (ld_count ld) * Z.of_nat L \/ e = Diverges \/ huge (lb_notes b'))) \/
   exists b', next b = (b', None) /\ huge (lb_notes b')).
  { intros Sk g0 Eg Ng0 El. destruct (Load Sk g0 Eg Ng0 El) as [(b' & bt & E1 & Q1 & Q2 & Q3 & Q4)|[(b' & e & E1 & Q)|(b' & E1 & Q)]].
    - left. exists b', bt. destruct (Cl _ _ E1). splits; auto; apply Q1.
    - right. left. exists b', e. auto.
    - right. right. eauto. }
  destruct (lb_gen b) eqn:Eg; [| |congruence].
  - destruct (is_ready ld t) eqn:Ir.
    + apply (Fin) with GNew; [| auto | discriminate |].
      * unfold is_ready in Ir. apply Z.leb_le in Ir. apply (@ready_stocked S HSc pc cols "actions" maxlen smp (EFifo fifo_init) gym_sch h (lb_px b) L); auto using sch_ok, fresh_EFifo. assert (Q1 : 1 <= Z.of_nat (ld_count ld)) by lia. assert (Q2 : 1 <= Z.of_nat L) by lia. clear -Ir Q1 Q2. unfold t in Ir. nia.
      * unfold loader_next. rewrite Ir. destruct (load_one ld t dr) as [t' [d|e]]; reflexivity.
    + right. left. unfold lab_next, loader_next. rewrite Eg. fold t dr. rewrite Ir. do 2 eexists. split; [destruct (t_sample t (ld_count ld) L dr) as [t' [rows|e]]; reflexivity|].
      left. split; auto. split; auto. cbn [lb_px px_table]. unfold is_ready in Ir. apply Z.leb_gt in Ir. exact Ir.
  - apply Fin with GRunning; [auto | auto | discriminate |]. unfold loader_next. destruct (load_one ld t dr) as [t' [d|e]]; reflexivity.
Qed.

Variable t : callback.
Hypothesis Ht : terminator id n = Ok t.
Hypothesis It : In t cbs.
Hypothesis Nd : NoDup (map cb_id cbs).
Hypothesis Isc : In (sc_id sc) (map cb_id cbs).
Hypothesis Nid : id <> sc_id sc.
Hypothesis Tot : TrainSpec.total others cbs anytime.
Hypothesis Lv1 : leaves others cbs anytime "bp_step".
Hypothesis Lv2 : leaves others cbs anytime "inf_step".
Hypothesis Lv3 : leaves others cbs anytime "bp_samples".
Hypothesis Gr1 : ld_group ld <> "bp_samples".
Hypothesis Gr2 : ld_group ld <> "inf_step".
Notation world := (world O lab).

Definition numeric (st : tstate O) (k : string) : Prop := exists z, dget st k = Some (VNum z).
Record good (begun : bool) (k : Z) (st : tstate O) (b : lab) : Prop := {
  g_strong : strong b;
  g_weak : weak (lb_notes b);
  g_step : dget st "bp_step" = Some (VNum k);
  g_samples : numeric st "bp_samples";
  g_begun : if begun then lb_coll b <> None /\ numeric st "inf_step" else lb_coll b = None;
  g_gen : lb_gen b = GRunning -> stock b }.

Lemma act_total c ph x st (b : lab) begun k : In c cbs -> good begun k st b ->
  (ph = PEndCycle -> cb_id c <> id) -> (ph = PBeginTraining -> cb_id c <> sc_id sc) -> (ph = PBeginBatch -> begun = true) ->
  exists b' u, act c ph x st b = (b', Ok u) /\ good begun k (dupdate st u) b' /\ lb_gen b' = lb_gen b.
Proof.
  intros Ic [G1 G2 G3 G4 G5 G6] Hc Hb Hbb. unfold lab_act. destruct (Nat.eqb_spec (cb_id c) (sc_id sc)) as [Ei|Ni].
  - assert (Same : exists b' u, (b, @Ok (tstate O) []) = (b', Ok u) /\ good begun k (dupdate st u) b' /\ lb_gen b' = lb_gen b).
    { exists b, []. split; auto. split; auto. constructor; auto. }
    destruct ph; auto; [exfalso; apply (Hb eq_refl Ei)|]. rewrite (Hbb eq_refl) in *. destruct G5 as [G5 [i Gi]].
    destruct (batch_total G1 G2 G5 Gi G3) as (b' & i' & E1 & H1 & H2 & H3 & H4 & H5). exists b'. eexists. split; [exact E1|]. split; auto.
    constructor; auto.
    + cbn [dupdate fold_left fst snd]. rewrite dget_dset_neq by discriminate. auto.
    + destruct G4 as [z Gz]. exists z. cbn [dupdate fold_left fst snd]. rewrite dget_dset_neq by discriminate. auto.
    + split; auto. exists i'. cbn [dupdate fold_left fst snd]. apply dget_dset_eq.
    + rewrite H4. auto.
  - assert (Q : exists v u, with_terminator id others c ph x st (lb_v b) = (v, Ok u) /\ ~ In "bp_step" (dkeys u) /\ ~ In "inf_step" (dkeys u) /\ ~ In "bp_samples" (dkeys u)).
    { unfold with_terminator. destruct (Nat.eqb_spec (cb_id c) id) as [Ej|Nj].
      - exists (lb_v b), []. split; [destruct ph; auto; exfalso; apply (Hc eq_refl Ej)|]. cbn. auto.
      - destruct (Tot (c := c) (ph := ph) x st (lb_v b) Ic I) as [u Hu]. destruct (others c ph x st (lb_v b)) as [v r] eqn:Eo. cbn in Hu. subst r.
        exists v, u. split; auto. assert (Sn : snd (others c ph x st (lb_v b)) = Ok u) by (rewrite Eo; reflexivity).
        split; [apply (Lv1 Ic I Sn)|]. split; [apply (Lv2 Ic I Sn)|apply (Lv3 Ic I Sn)]. }
    destruct Q as (v & u & Eo & U1 & U2 & U3). rewrite Eo.
    set (b' := mkLab _ _ _ _ _ _ _). exists b', u. split; auto. split; [|reflexivity].
    assert (Ea : act c ph x st b = (b', Ok u)). { unfold lab_act. destruct (Nat.eqb_spec (cb_id c) (sc_id sc)); [congruence|]. rewrite Eo. reflexivity. }
    destruct (act_ok sample_draws stop HE HS HA L1 G1 G2 (fun _ Q => False_ind _ (Ni Q)) Ea) as (W1 & _ & S1 & _).
    constructor; [apply (S1 u eq_refl)|exact W1|rewrite dget_dupdate_other; auto| | |exact G6].
    + destruct G4 as [z Gz]. exists z. rewrite dget_dupdate_other; auto.
    + destruct begun; auto. destruct G5 as [G5 [z Gz]]. split; auto. exists z. rewrite dget_dupdate_other; auto.
Qed.

(** What a phase adds to the trace. *)
Definition adds_calls (s s' : world) (l : list (phase * callback)) : Prop :=
  exists ext, wd_trace s' = wd_trace s ++ ext /\ calls ext = l /\ batches ext = [].
Lemma adds_none (s : world) : adds_calls s s [].
Proof. exists []. rewrite app_nil_r. auto. Qed.
Lemma adds_trans (s1 s2 s3 : world) l1 l2 : adds_calls s1 s2 l1 -> adds_calls s2 s3 l2 -> adds_calls s1 s3 (l1 ++ l2).
Proof.
  intros (e1 & T1 & C1 & B1) (e2 & T2 & C2 & B2). exists (e1 ++ e2). rewrite T2, T1, app_assoc, calls_app, batches_app, C1, C2, B1, B2. auto.
Qed.

Lemma phase_total ph x begun k : ph <> PBeginTraining -> (ph = PBeginBatch -> begun = true) -> forall cs (s : world), incl cs cbs ->
  (ph = PEndCycle -> ~ In id (map cb_id cs)) -> good begun k (wd_state s) (wd_world s) ->
  exists s', run_phase act ph x cs s = (s', Ok tt) /\ good begun k (wd_state s') (wd_world s') /\ lb_gen (wd_world s') = lb_gen (wd_world s) /\ adds_calls s s' (map (pair ph) cs).
Proof.
  intros Np Nb. induction cs as [|c cs IH]; intros s Hi Hc G; cbn [run_phase map].
  - exists s. split; auto. split; auto. split; auto. apply adds_none.
  - destruct (@act_total c ph x (wd_state s) (wd_world s) begun k) as (b' & u & Ea & G' & Gg); auto.
    + apply Hi. left. reflexivity.
    + intros Q1 Q2. apply (Hc Q1). left. exact Q2.
    + rewrite Ea. destruct (IH (mkWorld (dupdate (wd_state s) u) b' (wd_trace s ++ [TCall ph c x (wd_state s) (Ok u)]))) as (s' & E1 & H1 & H2 & H3); auto.
      * intros y Iy. apply Hi. right. exact Iy.
      * intros Q1 Q2. apply (Hc Q1). right. exact Q2.
      * exists s'. split; auto. split; auto. split; [etransitivity; [exact H2|exact Gg]|]. change ((ph, c) :: map (pair ph) cs) with ([(ph, c)] ++ map (pair ph) cs).
        eapply adds_trans; [|exact H3]. exists [TCall ph c x (wd_state s) (Ok u)]. auto.
Qed.

Lemma good_begin k st (b : lab) : good false k st b -> exists b' i, lab_begin_training (O := O) num env agent eject_draws pc sc b = (b', Ok [("inf_step", VNum i)]) /\
  good true k (dupdate st [("inf_step", VNum i)]) b' /\ lb_gen b' = lb_gen b.
Proof.
  intros [G1 G2 G3 G4 G5 G6]. destruct (begin_total G1 G2 G5) as (b' & E1 & H1 & H2 & H3 & H4 & H5). exists b'. eexists. split; [exact E1|]. split; auto.
  constructor; auto.
  + cbn [dupdate fold_left fst snd]. rewrite dget_dset_neq by discriminate. auto.
  + destruct G4 as [z Gz]. exists z. cbn [dupdate fold_left fst snd]. rewrite dget_dset_neq by discriminate. auto.
  + split; auto. eexists. cbn [dupdate fold_left fst snd]. apply dget_dset_eq.
  + rewrite H4. auto.
Qed.

Lemma opening_total k : forall cs (s : world) begun, incl cs cbs -> NoDup (map cb_id cs) -> good begun k (wd_state s) (wd_world s) ->
  (begun = true -> ~ In (sc_id sc) (map cb_id cs)) -> (begun = false -> In (sc_id sc) (map cb_id cs)) ->
  exists s', run_phase act PBeginTraining None cs s = (s', Ok tt) /\ good true k (wd_state s') (wd_world s') /\ lb_gen (wd_world s') = lb_gen (wd_world s) /\ adds_calls s s' (map (pair PBeginTraining) cs).
Proof.
  induction cs as [|c cs IH]; intros s begun Hi Nc G B1 B2; cbn [run_phase map].
  - destruct begun; [|destruct (B2 eq_refl)]. exists s. split; auto. split; auto. split; auto. apply adds_none.
  - cbn [map] in *. inversion Nc as [|? ? N1 N2]; subst.
    assert (Step : exists b' u begun', act c PBeginTraining None (wd_state s) (wd_world s) = (b', Ok u) /\ good begun' k (dupdate (wd_state s) u) b' /\ lb_gen b' = lb_gen (wd_world s) /\
       (begun' = true -> ~ In (sc_id sc) (map cb_id cs)) /\ (begun' = false -> In (sc_id sc) (map cb_id cs))).
    { destruct (Nat.eq_dec (cb_id c) (sc_id sc)) as [Ei|Ni].
      - destruct begun; [exfalso; apply (B1 eq_refl); left; exact Ei|]. destruct (good_begin G) as (b' & i & E1 & G' & Gg). exists b'. eexists. exists true.
        split; [unfold lab_act; rewrite (proj2 (Nat.eqb_eq _ _) Ei); exact E1|]. split; auto. split; auto. split; [|discriminate]. intros _ Q. apply N1. rewrite Ei. exact Q.
      - destruct (@act_total c PBeginTraining None (wd_state s) (wd_world s) begun k) as (b' & u & Ea & G' & Gg); auto; try discriminate; [apply Hi; left; reflexivity|].
        exists b', u, begun. split; auto. split; auto. split; auto. split; [intros Q1 Q2; apply (B1 Q1); right; exact Q2|]. intros Q1. destruct (B2 Q1) as [Q|Q]; [congruence|auto]. }
    destruct Step as (b' & u & begun' & Ea & G' & Gg & B1' & B2'). rewrite Ea.
    destruct (IH (mkWorld (dupdate (wd_state s) u) b' (wd_trace s ++ [TCall PBeginTraining c None (wd_state s) (Ok u)])) begun') as (s' & E1 & H1 & H2 & H3); auto.
    { intros y Iy. apply Hi. right. exact Iy. }
    exists s'. split; auto. split; auto. split; [etransitivity; [exact H2|exact Gg]|]. change ((PBeginTraining, c) :: map (pair PBeginTraining) cs) with ([(PBeginTraining, c)] ++ map (pair PBeginTraining) cs).
    eapply adds_trans; [|exact H3]. exists [TCall PBeginTraining c None (wd_state s) (Ok u)]. auto.
Qed.

(** The last cycle ends with the terminator. *)
Lemma shutdown k begun : forall cs (s : world), incl cs cbs -> In id (map cb_id cs) -> good begun k (wd_state s) (wd_world s) ->
  exists s' l, run_phase act PEndCycle None cs s = (s', Err Shutdown) /\ adds_calls s s' (map (pair PEndCycle) l).
Proof.
  induction cs as [|c cs IH]; intros s Hi Hc G; [destruct Hc|]. cbn [run_phase map] in *. destruct (Nat.eq_dec (cb_id c) id) as [Ei|Ni].
  - assert (Ea : exists b', act c PEndCycle None (wd_state s) (wd_world s) = (b', Err Shutdown)).
    { unfold lab_act. destruct (Nat.eqb_spec (cb_id c) (sc_id sc)); [congruence|]. unfold with_terminator. rewrite (proj2 (Nat.eqb_eq _ _) Ei). eauto. }
    destruct Ea as [b' Ea]. rewrite Ea. do 2 eexists. split; [reflexivity|]. eexists. split; [reflexivity|]. split; [|reflexivity]. instantiate (1 := [c]). reflexivity.
  - destruct (@act_total c PEndCycle None (wd_state s) (wd_world s) begun k) as (b' & u & Ea & G' & Gg); auto; try discriminate; [apply Hi; left; reflexivity|].
    rewrite Ea. destruct Hc as [Q|Hc]; [congruence|].
    destruct (IH (mkWorld (dupdate (wd_state s) u) b' (wd_trace s ++ [TCall PEndCycle c None (wd_state s) (Ok u)]))) as (s' & l & E1 & H3); auto.
    { intros y Iy. apply Hi. right. exact Iy. }
    exists s', (c :: l). split; auto. change (map (pair PEndCycle) (c :: l)) with ([(PEndCycle, c)] ++ map (pair PEndCycle) l).
    eapply adds_trans; [|exact H3]. exists [TCall PEndCycle c None (wd_state s) (Ok u)]. auto.
Qed.

Lemma closing x : forall cs (s : world), incl cs cbs -> exists s', run_phase act PEndTraining x cs s = (s', Ok tt) /\ adds_calls s s' (map (pair PEndTraining) cs) /\
  lb_px (wd_world s') = lb_px (wd_world s) /\ lb_notes (wd_world s') = lb_notes (wd_world s).
Proof.
  induction cs as [|c cs IH]; intros s Hi; cbn [run_phase map].
  - exists s. split; auto. split; auto. apply adds_none.
  - assert (Ea : exists b' u, act c PEndTraining x (wd_state s) (wd_world s) = (b', Ok u) /\ lb_px b' = lb_px (wd_world s) /\ lb_notes b' = lb_notes (wd_world s)).
    { unfold lab_act. destruct (Nat.eqb_spec (cb_id c) (sc_id sc)); [eauto|]. unfold with_terminator. destruct (Nat.eqb_spec (cb_id c) id).
      - do 2 eexists. split; [reflexivity|]. auto.
      - destruct (Tot (c := c) (ph := PEndTraining) x (wd_state s) (lb_v (wd_world s)) (Hi c (or_introl eq_refl)) I) as [u Hu].
        destruct (others _ _ _ _ _) as [v r]. cbn in Hu. subst r. do 2 eexists. split; [reflexivity|]. auto. }
    destruct Ea as (b' & u & Ea & P1 & P2). rewrite Ea.
    destruct (IH (mkWorld (dupdate (wd_state s) u) b' (wd_trace s ++ [TCall PEndTraining c x (wd_state s) (Ok u)]))) as (s' & E1 & H3 & H4 & H5).
    { intros y Iy. apply Hi. right. exact Iy. }
    cbn [wd_world] in *. exists s'. split; auto. split; [|split; congruence]. change ((PEndTraining, c) :: map (pair PEndTraining) cs) with ([(PEndTraining, c)] ++ map (pair PEndTraining) cs).
    eapply adds_trans; [|exact H3]. exists [TCall PEndTraining c x (wd_state s) (Ok u)]. auto.
Qed.

Lemma num_dset st k z key : numeric st key -> numeric (dset st k (VNum z)) key.
Proof. intros [y H]. destruct (string_dec key k) as [->|Ne]; [exists z; apply dget_dset_eq|exists y; rewrite dget_dset_neq; auto]. Qed.
Lemma num_upd st bt key : batch_fine bt -> key <> ld_group ld -> numeric st key -> numeric (dupdate st bt) key.
Proof.
  intros (N & (m & Hm) & K) Nk [z Hz]. unfold numeric. rewrite dget_dupdate by auto. destruct (dget bt key) as [v|] eqn:Ev; [|eauto].
  destruct (K key) as [Q|Q]; [eapply dget_Some_key; eauto|congruence|]. subst key. rewrite Hm in Ev. injection Ev as <-. eauto.
Qed.
Lemma merge_total k bt st j b : batch_fine bt -> good true j st b -> exists st', merge_batch (ld_size_key ld) k bt st = Ok st' /\ good true k st' b.
Proof.
  intros B [G1 G2 G3 G4 [G5 G5'] G6]. unfold merge_batch. set (st1 := dset (dupdate st bt) "bp_step" (VNum k)).
  assert (N1 : numeric st1 "bp_samples") by (apply num_dset, num_upd; auto). destruct N1 as [x Hx]. rewrite Hx.
  assert (N2 : numeric st1 (ld_size_key ld)). { apply num_dset. destruct B as (N & (m & Hm) & K). exists m. rewrite dget_dupdate by auto. rewrite Hm. reflexivity. }
  destruct N2 as [y Hy]. rewrite Hy. eexists. split; [reflexivity|]. constructor; auto.
  - rewrite dget_dset_neq by discriminate. apply dget_dset_eq.
  - exists (x + y). apply dget_dset_eq.
  - split; auto. apply num_dset, num_dset, num_upd; auto.
Qed.

Notation cs := (sort_cbs cbs).
Lemma cs_incl : incl cs cbs.
Proof. intros y Iy. eapply Permutation_in; [apply Permutation_sym, sort_perm|exact Iy]. Qed.
Lemma cs_ids : NoDup (map cb_id cs).
Proof. apply NoDup_sort. exact Nd. Qed.

(** What happens adds [m] batches and [w] backward passes. *)
Definition done_steps (s s' : world) (m w : nat) : Prop :=
  List.length (batches (wd_trace s')) = (List.length (batches (wd_trace s)) + m)%nat /\
  forall c, In c cbs -> count PBackward (cb_id c) (calls (wd_trace s')) = (count PBackward (cb_id c) (calls (wd_trace s)) + w)%nat.
Lemma done_trans s1 s2 s3 a b a' b' : done_steps s1 s2 a a' -> done_steps s2 s3 b b' -> done_steps s1 s3 (a + b) (a' + b').
Proof. intros [A1 A2] [B1 B2]. split; [lia|]. intros c Ic. rewrite (B2 c Ic), (A2 c Ic). lia. Qed.
Lemma done_other (s s' : world) l ph : adds_calls s s' (map (pair ph) l) -> ph <> PBackward -> done_steps s s' 0 0.
Proof.
  intros (ext & T & C & B) Np. split; [rewrite T, batches_app, B, app_nil_r; lia|]. intros c _. rewrite T, calls_app, count_app, C.
  change (map (pair ph) l) with (all_of ph l). rewrite count_all_of_other; auto.
Qed.
Lemma done_backward (s s' : world) : adds_calls s s' (map (pair PBackward) cs) -> done_steps s s' 0 1.
Proof.
  intros (ext & T & C & B). split; [rewrite T, batches_app, B, app_nil_r; lia|]. intros c Ic. rewrite T, calls_app, count_app, C.
  change (map (pair PBackward) cs) with (all_of PBackward cs). rewrite count_all_of, filter_id_one; auto; [apply cs_ids|].
  eapply Permutation_in; [apply sort_perm|exact Ic].
Qed.

Lemma n_pos : 0 < n /\ t = mkCb id 0 (Some n).
Proof. unfold terminator in Ht. destruct (Z.ltb_spec 0 n); [|discriminate]. injection Ht as <-. auto. Qed.
Lemma only_t c : In c cbs -> cb_id c = id -> c = t.
Proof.
  destruct n_pos as [_ Et]. intros Ic Ec. clear -Nd Ic It Ec Et. assert (Ei : cb_id c = cb_id t) by (rewrite Et; exact Ec). clear Ec Et.
  induction cbs as [|x l IH]; [destruct Ic|]. cbn in Nd. inversion Nd as [|? ? N1 N2]; subst. destruct Ic as [->|Ic], It as [->|It']; auto.
  - exfalso. apply N1. rewrite Ei. apply in_map. exact It'.
  - exfalso. apply N1. rewrite <- Ei. apply in_map. exact Ic.
Qed.

Lemma step_total k j bt (s : world) : 1 <= k <= n -> batch_fine bt -> good true j (wd_state s) (wd_world s) ->
  exists s' r, one_step act (ld_size_key ld) cs k (mkItem (Ok bt) (Ok false)) s = (s', r) /\ done_steps s s' 1 1 /\
    (if k =? n then r = Err Shutdown else r = Ok tt /\ good true k (wd_state s') (wd_world s') /\ lb_gen (wd_world s') = lb_gen (wd_world s)).
Proof.
  intros Hk B G. destruct n_pos as [Pn Et]. unfold one_step. cbn [it_batch it_stop]. destruct (merge_total k B G) as (st & Em & G1). rewrite Em.
  set (s1 := mkWorld st (wd_world s) (wd_trace s ++ [TBatch k bt])).
  destruct (@phase_total PBeginCycle None true k ltac:(discriminate) ltac:(auto) (begin_cycle_cbs k cs) s1) as (s2 & E2 & G2 & N2 & A2); auto; [|discriminate|].
  { intros y Iy. apply cs_incl. unfold begin_cycle_cbs in Iy. apply filter_In in Iy as [Iy _]. apply filter_In in Iy as [Iy _]. exact Iy. }
  rewrite E2. cbn [andthen].
  destruct (@phase_total PBeginBatch None true k ltac:(discriminate) ltac:(auto) cs s2 cs_incl ltac:(discriminate) G2) as (s3 & E3 & G3 & N3 & A3). rewrite E3. cbn [andthen].
  destruct (@phase_total PBackward None true k ltac:(discriminate) ltac:(auto) cs s3 cs_incl ltac:(discriminate) G3) as (s4 & E4 & G4 & N4 & A4). rewrite E4. cbn [andthen].
  destruct (@phase_total PEndBatch None true k ltac:(discriminate) ltac:(auto) cs s4 cs_incl ltac:(discriminate) G4) as (s5 & E5 & G5 & N5 & A5). rewrite E5. cbn [andthen].
  assert (D0 : done_steps s s5 1 1).
  { change (done_steps s s5 (1 + (0 + (0 + (0 + 0)))) (0 + (0 + (0 + (1 + 0))))). apply done_trans with s1.
    - split; [cbn [s1 wd_trace]; rewrite batches_app, app_length; reflexivity|]. intros c _. cbn [s1 wd_trace]. rewrite calls_app, count_app. reflexivity.
    - apply done_trans with s2; [eapply done_other; [exact A2|discriminate]|]. apply done_trans with s3; [eapply done_other; [exact A3|discriminate]|].
      apply done_trans with s4; [apply done_backward; exact A4|eapply done_other; [exact A5|discriminate]]. }
  assert (Ic : incl (end_cycle_cbs k cs) cbs).
  { intros y Iy. apply cs_incl. unfold end_cycle_cbs in Iy. apply filter_In in Iy as [Iy _]. apply filter_In in Iy as [Iy _]. exact Iy. }
  destruct (Z.eqb_spec k n) as [En|Nn].
  - assert (Ii : In id (map cb_id (end_cycle_cbs k cs))).
    { apply in_map_iff. exists t. split; [rewrite Et; reflexivity|]. unfold end_cycle_cbs. apply filter_In. split; [apply filter_In; split|].
      - eapply Permutation_in; [apply sort_perm|exact It].
      - rewrite Et. unfold is_cyclic. cbn [cb_cycle]. apply Z.ltb_lt. exact Pn.
      - unfold cycle_mod. rewrite Et. cbn [cb_cycle]. rewrite En, Z_mod_same_full. reflexivity. }
    destruct (shutdown Ic Ii G5) as (s6 & l & E6 & A6). exists s6, (Err Shutdown). split; [exact E6|]. split; [|reflexivity].
    change (done_steps s s6 (1 + 0) (1 + 0)). apply done_trans with s5; [exact D0|]. eapply done_other; [exact A6|discriminate].
  - destruct (@phase_total PEndCycle None true k ltac:(discriminate) ltac:(auto) (end_cycle_cbs k cs) s5 Ic) as (s6 & E6 & G6 & N6 & A6); auto.
    { intros _ Ii. apply in_map_iff in Ii as (c & Ec & Iy). pose proof (only_t (Ic c Iy) Ec) as Q. subst c. unfold end_cycle_cbs in Iy. apply filter_In in Iy as [_ Iy].
      unfold cycle_mod in Iy. rewrite Et in Iy. cbn [cb_cycle] in Iy. apply Z.eqb_eq in Iy. rewrite Z.mod_small in Iy; lia. }
    exists s6, (Ok tt). split; [exact E6|]. split; [|split; [reflexivity|split; [exact G6|]]].
    + change (done_steps s s6 (1 + 0) (1 + 0)). apply done_trans with s5; [exact D0|]. eapply done_other; [exact A6|discriminate].
    + rewrite N6, N5, N4, N3, N2. reflexivity.
Qed.

Lemma loop_total : forall m fuel k j (s : world), Z.of_nat m = n - k -> (m < fuel)%nat -> 1 <= k -> good true j (wd_state s) (wd_world s) -> lb_gen (wd_world s) <> GDone ->
  exists s' r e, live_loop act next (ld_size_key ld) cs fuel k s = (s', r, e) /\
    (r = Err Shutdown /\ done_steps s s' (Datatypes.S m) (Datatypes.S m) \/
     r = Err OtherError /\ lb_gen (wd_world s) = GNew /\ wd_trace s' = wd_trace s /\ t_size (px_table (lb_px (wd_world s'))) < Z.of_nat (ld_count ld) * Z.of_nat L \/
     r = Err Diverges \/ huge (lb_notes (wd_world s'))).
Proof.
  induction m as [|m IH]; intros fuel k j s Hm Hf Hk G Ngd; (destruct fuel as [|fuel]; [lia|]); cbn [live_loop].
  all: destruct (next_total (g_strong G) (g_weak G) (g_gen G) Ngd) as [(b' & bt & En & B & S1 & W1 & C1 & N1 & K1)|[(b' & e & En & Q)|(b' & En & Q)]]; rewrite En.
  2,5: cbn [one_step it_batch]; do 3 eexists; (split; [reflexivity|]); cbn [wd_trace wd_world]; destruct Q as [(-> & Q1 & Q2)|[->|Q]]; auto 6.
  2,4: do 3 eexists; (split; [reflexivity|]); auto.
  all: assert (G' : good true j (wd_state s) b') by (destruct G as [G1 G2 G3 G4 G5 G6]; constructor; auto; rewrite C1; auto).
  all: destruct (@step_total k j bt (mkWorld (wd_state s) b' (wd_trace s)) ltac:(lia) B G') as (s1 & r & E1 & D1 & Q); rewrite E1.
  - assert (En' : k = n) by lia. rewrite (proj2 (Z.eqb_eq k n) En') in Q. subst r. do 3 eexists. split; [reflexivity|]. left. auto.
  - destruct (Z.eqb_spec k n) as [C|_]; [lia|]. destruct Q as (-> & G1 & N2). cbn [wd_world] in N2.
    destruct (IH fuel (k + 1) k s1 ltac:(lia) ltac:(lia) ltac:(lia) G1 ltac:(rewrite N2, N1; discriminate)) as (s2 & r2 & e2 & E2 & Q2). rewrite E2. exists s2, r2, e2. split; auto.
    destruct Q2 as [[-> D2]|[(-> & C & _)|[->|Q2]]]; auto.
    + left. split; auto. change (done_steps s s2 (1 + Datatypes.S m) (1 + Datatypes.S m)). eapply done_trans; [|exact D2]. exact D1.
    + rewrite N2, N1 in C. discriminate.
Qed.

Lemma exp_main fuel st0 v s out : n <= Z.of_nat fuel ->
  live_train act next (ld_size_key ld) cbs fuel st0 (lab_new envs T0 v) = (s, out) ->
  (out = Returned /\ Z.of_nat (List.length (batches (wd_trace s))) = n /\ (forall c, In c cbs -> Z.of_nat (count PBackward (cb_id c) (calls (wd_trace s))) = n)) \/
  (out = Raised OtherError /\ batches (wd_trace s) = [] /\ t_size (px_table (lb_px (wd_world s))) < Z.of_nat (ld_count ld) * Z.of_nat L) \/
  out = Raised Diverges \/ huge (lb_notes (wd_world s)).
Proof.
  intros Hf Hl. destruct n_pos as [Pn Et]. unfold live_train in Hl. set (s0 := mkWorld _ (lab_new envs T0 v) []) in Hl.
  assert (G0 : good false 1 (wd_state s0) (wd_world s0)).
  { constructor.
    - exists []. cbn. split; auto. split; [constructor|]. split; [constructor|]. split; auto.
    - intros before rows after Eq. destruct before; discriminate.
    - cbn [s0 wd_state]. apply dget_dset_eq.
    - exists 0. cbn [s0 wd_state]. rewrite dget_dset_neq by discriminate. apply dget_dset_eq.
    - reflexivity.
    - discriminate. }
  destruct (@phase_total PRestore None false 1 ltac:(discriminate) ltac:(discriminate) cs s0 cs_incl ltac:(discriminate) G0) as (s1 & E1 & G1 & N1 & A1).
  rewrite E1 in Hl. cbn [andthen] in Hl.
  destruct (@opening_total 1 cs s1 false cs_incl cs_ids G1 ltac:(discriminate)) as (s2 & E2 & G2 & N2 & A2).
  { intros _. eapply Permutation_in; [apply Permutation_map, sort_perm|exact Isc]. }
  rewrite E2, (g_step G2) in Hl.
  assert (T2 : batches (wd_trace s2) = [] /\ forall c, count PBackward (cb_id c) (calls (wd_trace s2)) = 0%nat).
  { pose proof (adds_trans A1 A2) as (ext & T & C & B). cbn [s0 wd_trace app] in T. rewrite T. split; auto. intros c. rewrite C, count_app.
    change (map (pair PRestore) cs) with (all_of PRestore cs). change (map (pair PBeginTraining) cs) with (all_of PBeginTraining cs).
    rewrite !count_all_of_other by discriminate. reflexivity. }
  destruct (@loop_total (Z.to_nat (n - 1)) fuel 1 1 s2 ltac:(lia) ltac:(lia) ltac:(lia) G2) as (s3 & r & e & E3 & Q).
  { rewrite N2, N1. cbn. discriminate. }
  rewrite E3 in Hl. unfold finish in Hl.
  assert (Fin : forall x, r = Err x -> exists s4, s = s4 /\ out = match x with Shutdown => Returned | _ => Raised x end /\ adds_calls s3 s4 (map (pair PEndTraining) cs) /\
     lb_px (wd_world s4) = lb_px (wd_world s3) /\ lb_notes (wd_world s4) = lb_notes (wd_world s3)).
  { intros x ->. destruct (@closing (Some x) cs s3 cs_incl) as (s4 & E4 & A4 & P4 & N4). rewrite E4 in Hl. injection Hl as <- <-. eauto 6. }
  destruct T2 as [B2 C2]. destruct Q as [[Er D]|[(Er & _ & T3 & Z3)|[Er|Hh]]].
  - left. destruct (Fin _ Er) as (s4 & -> & -> & A4 & _). split; auto. destruct (done_other A4 ltac:(discriminate)) as [F1 F2]. destruct D as [D1 D2]. split.
    + rewrite F1, D1, B2. cbn [List.length]. lia.
    + intros c Ic. rewrite (F2 c Ic), (D2 c Ic), C2. lia.
  - right. left. destruct (Fin _ Er) as (s4 & -> & -> & (ext & T & C & B) & P4 & _). split; auto. split; [rewrite T, batches_app, T3, B, B2; reflexivity|]. rewrite P4. exact Z3.
  - right. right. left. destruct (Fin _ Er) as (s4 & -> & -> & _). reflexivity.
  - right. right. right. destruct r as [u|x]; [injection Hl as <- _; exact Hh|]. destruct (Fin _ eq_refl) as (s4 & -> & _ & _ & _ & N4). rewrite N4. exact Hh.
Qed.
End P.

Lemma experiment_ends : forall (S E : Type) (HSc : Scalar S) (O V : Type) (num : S -> R) (env : genv S E)
    (agent : V -> nat -> dict Z (obs S) -> res (dict Z (resp S))) (others : behaviour O V)
    eject_draws sample_draws (obj : dict string (cell S) -> O) pc ld sc envs cols maxlen smp dobs dact kmin id n cbs t fuel st0 v s out,
  envs <> [] -> shows env dobs -> (forall v, answers_all dobs dact (agent v)) ->
  pc_min pc = Some kmin -> Z.of_nat (ld_length ld) <= kmin -> (1 <= ld_length ld)%nat -> (1 <= ld_count ld)%nat ->
  config_ok cols "actions" -> fresh_sampler smp -> layout cols "actions" (pc_terminal pc) (mkSchema ["obs"] ["actions"]) ->
  gym_sizes dobs dact cols -> at_most env maxlen -> maxlen <= 2 ^ 53 ->
  ld_group ld <> ld_size_key ld -> ld_group ld <> "bp_samples" -> ld_group ld <> "inf_step" ->
  sc_per sc <> 0 -> terminator id n = Ok t -> In t cbs -> NoDup (map cb_id cbs) -> In (sc_id sc) (map cb_id cbs) -> id <> sc_id sc ->
  TrainSpec.total others cbs anytime -> leaves others cbs anytime "bp_step" -> leaves others cbs anytime "inf_step" -> leaves others cbs anytime "bp_samples" ->
  n <= Z.of_nat fuel ->
  live_train (lab_act num env agent (with_terminator id others) eject_draws pc sc) (lab_next sample_draws obj ld (fun _ => Ok false))
    (ld_size_key ld) cbs fuel st0 (lab_new envs (t_create cols "actions" maxlen smp (EFifo fifo_init)) v) = (s, out) ->
  out <> Raised Diverges -> (forall v os rs a, In (NAdd v os rs) (lb_notes (wd_world s)) -> In a (dkeys os) -> a < 2 ^ 63) ->
  (out = Returned /\ Z.of_nat (List.length (batches (wd_trace s))) = n /\
     forall c, In c cbs -> Z.of_nat (count PBackward (cb_id c) (calls (wd_trace s))) = n)
  \/ (out = Raised OtherError /\ batches (wd_trace s) = [] /\
     t_size (px_table (lb_px (wd_world s))) < Z.of_nat (ld_count ld) * Z.of_nat (ld_length ld)).
Proof.
  intros. match goal with H : live_train _ _ _ _ _ _ _ = _ |- _ => rename H into Hl end.
  destruct (@exp_main S E HSc O V num env agent others eject_draws sample_draws obj pc ld sc envs cols maxlen smp dobs dact kmin id n cbs) with (t := t) (fuel := fuel) (st0 := st0) (v := v) (s := s) (out := out)
    as [Q|[Q|[Q|(v' & os & rs & a & I1 & I2 & I3)]]]; auto; [contradiction|].
  exfalso. match goal with H : forall v os rs a, In _ _ -> _ |- _ => specialize (H v' os rs a I1 I2) end. lia.
Qed.
