(** * LiveMain: every batch of an experiment holds what happened before (C147) *)
From Coq Require Import Reals Lia Permutation.
From Verif Require Import Py PyLemmas MemModel MemSpec ProxyModel ProxySpec ProxyE2E CollProofs LoaderModel TrainModel TrainSpec TrainProofs
  GymModel GymSpec GymProofs GymMore GymRun GymE2E LiveModel LiveSpec LiveRun.
Set Implicit Arguments. Unset Strict Implicit.
Open Scope string_scope.
Open Scope list_scope.
Open Scope Z_scope.

Section P.
Context {S E : Type} {HSc : Scalar S} {O V : Type}.
Variable num : S -> R.
Variable env : genv S E.
Variable agent : V -> nat -> dict Z (obs S) -> res (dict Z (resp S)).
Variable others : behaviour O V.
Variable eject_draws : nat -> list (list draw).
Variable sample_draws : nat -> list draw.
Variable obj : dict string (cell S) -> O.
Variable pc : pconf.
Variable ld : loader.
Variable sc : sconf.
Variable stop : nat -> res bool.
Variables (envs : list E) (cols : list (column S)) (maxlen : Z) (smp : sampler) (ej : ejector).
Variables (dobs dact : nat) (kmin : Z).
Notation L := (ld_length ld).
Notation act := (lab_act num env agent others eject_draws pc sc).
Notation next := (lab_next sample_draws obj ld stop).
Notation lab := (lab S E V).
Notation T0 := (t_create cols "actions" maxlen smp ej).
Hypothesis HE : envs <> [].
Hypothesis HS : shows env dobs.
Hypothesis HA : forall v, answers_all dobs dact (agent v).
Hypothesis Pm : pc_min pc = Some kmin.
Hypothesis Lk : Z.of_nat L <= kmin.
Hypothesis L1 : (1 <= L)%nat.
Hypothesis CO : config_ok cols "actions".
Hypothesis Fs : fresh_sampler smp.
Hypothesis Fe : fresh_ejector ej.
Hypothesis LA : layout cols "actions" (pc_terminal pc) (mkSchema ["obs"] ["actions"]).
Hypothesis Sz : gym_sizes dobs dact cols.
Hypothesis Ng : ld_group ld <> ld_size_key ld.
Notation nenv := (List.length envs).

Definition coll_ok (b : lab) (h : list (pop S)) : Prop :=
  match lb_coll b with
  | None => adds_of h = [] /\ lb_gym b = gym_new envs
  | Some c => exists agent' off, answers_all dobs dact agent' /\ inv num env agent' dobs dact nenv off (co_gym c) (co_obs c) (adds_of h)
  end.
Definition strong (b : lab) : Prop :=
  exists h, prun pc (px_new T0) h = (lb_px b, Ok tt) /\ other_uses h /\
    Forall (fun o => exists x, In x (lb_notes b) /\ noted agent o x) (adds_of h) /\
    (List.length (adds_of h) <= List.length (lb_notes b))%nat /\ coll_ok b h.
Definition weak (nts : list (note S V)) : Prop :=
  forall before rows after, nts = before ++ NDrew rows :: after -> Z.of_nat (List.length before) <= 2 ^ 53 ->
    batch_sized cols rows (ld_count ld) L /\ forall j, (j < ld_count ld)%nat -> rollout_happened env agent cols L before rows j.
Definition grows (b b' : lab) : Prop := exists ext, lb_notes b' = lb_notes b ++ ext.

Lemma nenv1 : (1 <= nenv)%nat.
Proof. destruct envs; cbn; [congruence|lia]. Qed.

Lemma weak_add nts x : weak nts -> (forall rows, x <> NDrew rows) -> weak (nts ++ [x]).
Proof.
  intros W Nx before rows after Eq Hl. destruct (@exists_last _ (NDrew rows :: after)) as (l & y & El); [discriminate|].
  rewrite El, app_assoc in Eq. apply app_inj_tail in Eq as [Eq <-]. destruct l as [|z l].
  - cbn in El. injection El as El _. exfalso. eapply Nx. eauto.
  - injection El as <- El. subst nts. apply (W _ _ l); auto.
Qed.
Lemma weak_drew nts rows0 : weak nts -> (Z.of_nat (List.length nts) <= 2 ^ 53 -> batch_sized cols rows0 (ld_count ld) L /\ forall j, (j < ld_count ld)%nat -> rollout_happened env agent cols L nts rows0 j) ->
  weak (nts ++ [NDrew rows0]).
Proof.
  intros W Nx before rows after Eq Hl. destruct (@exists_last _ (NDrew rows :: after)) as (l & y & El); [discriminate|].
  rewrite El, app_assoc in Eq. apply app_inj_tail in Eq as [Eq <-]. destruct l as [|z l].
  - cbn in El. injection El as <- _. rewrite app_nil_r in Eq. subst. auto.
  - injection El as <- El. subst nts. apply (W _ _ l); auto.
Qed.

Lemma adds_snoc (h : list (pop S)) o : adds_of (h ++ [o]) = adds_of h ++ match o with PAdd _ _ _ => [o] | PUse _ => [] end.
Proof. unfold adds_of. rewrite filter_app. destruct o; reflexivity. Qed.

Lemma collect_ok b b' r : strong b -> weak (lb_notes b) -> lab_collect num env agent eject_draws pc b = (b', r) ->
  weak (lb_notes b') /\ grows b b' /\ (forall u, r = Ok u -> strong b' /\ (lb_coll b <> None -> lb_coll b' <> None)) /\ (r = Ok tt -> lb_coll b <> None).
Proof.
  intros St W Hc. unfold lab_collect in Hc. destruct (lb_coll b) as [c|] eqn:Ec.
  2:{ injection Hc as <- <-. split; auto. split; [exists []; rewrite app_nil_r; auto|]. split; [discriminate|discriminate]. }
  destruct St as (h & Hp & Ou & Nt & Ln & Co). unfold coll_ok in Co. rewrite Ec in Co. destruct Co as (ag & off & Ha & I).
  set (a2 := fun i os => match i with 0%nat => agent (lb_v b) (co_asked c) os | Datatypes.S i => ag i os end).
  assert (Ha2 : answers_all dobs dact a2). { intros [|i] os N1 N2 N3; cbn [a2]; [apply (@HA (lb_v b)); auto|apply Ha; auto]. }
  assert (I2 : inv num env a2 dobs dact nenv off (co_gym c) (co_obs c) (adds_of h)).
  { eapply inv_other; [|exact I]. intros i os rs Hi. exists (Datatypes.S i). exact Hi. }
  destruct (inv_step HS Ha2 0 (eject_draws (co_asked c)) nenv1 I2) as (rs & g' & os' & lg & A1 & A2 & A3 & _). cbn [a2] in A1.
  unfold collect_data in Hc. rewrite A1 in Hc. cbn [rbind] in Hc. rewrite A2 in Hc. cbn [rbind fst snd co_gym co_obs co_asked] in Hc.
  destruct (pstep pc (lb_px b) (PAdd (co_obs c) rs (eject_draws (co_asked c)))) as [p [u|e]] eqn:Ep; injection Hc as <- <-; cbn [lb_notes].
  - split; [apply weak_add; auto; discriminate|]. split; [eexists; reflexivity|]. split; [|congruence].
    intros _ _. split; [|discriminate]. exists (h ++ [PAdd (co_obs c) rs (eject_draws (co_asked c))]). cbn [lb_px lb_notes]. split; [|split; [|split; [|split]]].
    + rewrite (prun_snoc _ Hp), Ep. destruct u. reflexivity.
    + unfold other_uses in *. apply Forall_app. split; auto.
    + rewrite adds_snoc. apply Forall_app. split.
      * eapply Forall_impl; [|exact Nt]. intros o (x & Ix & Nx). exists x. split; auto. apply in_or_app; auto.
      * constructor; [|constructor]. eexists. split; [apply in_or_app; right; left; reflexivity|]. cbn. eauto.
    + rewrite adds_snoc, !app_length. cbn. lia.
    + unfold coll_ok. cbn [lb_coll co_gym co_obs]. exists a2, off. split; auto. rewrite adds_snoc. exact A3.
  - split; auto. split; [exists []; rewrite app_nil_r; auto|]. split; [discriminate|discriminate].
Qed.

Lemma multiple_ok : forall count b b' r, strong b -> weak (lb_notes b) -> lab_collect_multiple num env agent eject_draws pc count b = (b', r) ->
  weak (lb_notes b') /\ grows b b' /\ (forall u, r = Ok u -> strong b').
Proof.
  induction count as [|count IH]; intros b b' r St W Hc; cbn [lab_collect_multiple] in Hc.
  - injection Hc as <- <-. split; auto. split; [exists []; rewrite app_nil_r; auto|]. auto.
  - destruct (lab_collect num env agent eject_draws pc b) as [b1 r1] eqn:E1. destruct (collect_ok St W E1) as (W1 & (e1 & G1) & S1 & _).
    destruct r1 as [u|e].
    + destruct (S1 u eq_refl) as [S1' _]. destruct (IH _ _ _ S1' W1 Hc) as (W2 & (e2 & G2) & S2). split; auto. split; auto.
      exists (e1 ++ e2). rewrite G2, G1, app_assoc. reflexivity.
    + injection Hc as <- <-. split; auto. split; [exists e1; auto|discriminate].
Qed.

Lemma begin_training_ok b b' r : strong b -> weak (lb_notes b) -> lb_coll b = None -> lab_begin_training (O := O) num env agent eject_draws pc sc b = (b', r) ->
  weak (lb_notes b') /\ grows b b' /\ (forall u, r = Ok u -> strong b').
Proof.
  intros (h & Hp & Ou & Nt & Ln & Co) W Ec Hb. unfold coll_ok in Co. rewrite Ec in Co. destruct Co as [Ah Eg].
  unfold lab_begin_training in Hb. rewrite Eg in Hb. destruct (begin_ok num HS (@HA (lb_v b)) HE) as (c & g' & rs & os1 & B1 & B2 & _). rewrite B1 in Hb.
  assert (S1 : strong (mkLab (gym_new envs) (Some c) (lb_px b) (lb_gen b) (lb_asked b) (lb_v b) (lb_notes b))).
  { exists h. cbn [lb_px lb_notes]. split; auto. split; auto. split; auto. split; auto. unfold coll_ok. cbn [lb_coll]. rewrite Ah. eauto. }
  destruct (lab_collect_multiple _ _ _ _ _ _ _) as [b1 r1] eqn:E1. destruct (multiple_ok S1 W E1) as (W1 & G1 & S2).
  destruct r1 as [u|e]; injection Hb as <- <-; (split; [auto|split; [exact G1|]]); [eauto|discriminate].
Qed.

Lemma grows_refl (b : lab) : grows b b.
Proof. exists []. rewrite app_nil_r. reflexivity. Qed.

Lemma begin_batch_ok st b b' r : strong b -> weak (lb_notes b) -> lab_begin_batch (O := O) num env agent eject_draws pc sc st b = (b', r) ->
  weak (lb_notes b') /\ grows b b' /\ (forall u, r = Ok u -> strong b').
Proof.
  intros St W Hb. unfold lab_begin_batch in Hb.
  assert (D : forall e, (b, Err e) = (b', r) -> weak (lb_notes b') /\ grows b b' /\ (forall u, r = Ok u -> strong b')).
  { intros e Q. injection Q as <- <-. split; auto. split; [apply grows_refl|discriminate]. }
  destruct (dget st "inf_step") as [inf|]; [|eauto]. destruct (dget st "bp_step") as [[bp|o]|]; eauto.
  destruct (sc_per sc =? 0); eauto. 
  assert (Q : exists b1 r1, (if bp mod sc_per sc =? 0 then lab_collect num env agent eject_draws pc b else (b, Ok tt)) = (b1, r1) /\
    weak (lb_notes b1) /\ grows b b1 /\ (forall u, r1 = Ok u -> strong b1)).
  { destruct (bp mod sc_per sc =? 0).
    - destruct (lab_collect num env agent eject_draws pc b) as [b1 r1] eqn:E1. exists b1, r1. destruct (collect_ok St W E1) as (W1 & G1 & S1 & _).
      split; auto. split; auto. split; auto. intros u Hu. apply (S1 u Hu).
    - exists b, (Ok tt). split; auto. split; auto. split; [apply grows_refl|auto]. }
  destruct Q as (b1 & r1 & E1 & W1 & G1 & S1). rewrite E1 in Hb.
  destruct r1 as [u|e]; [|injection Hb as <- <-; split; auto; split; auto; discriminate].
  destruct inf; injection Hb as <- <-; split; auto; split; auto; [eauto|discriminate].
Qed.

Lemma act_ok c ph x st b b' r : strong b -> weak (lb_notes b) -> (ph = PBeginTraining -> cb_id c = sc_id sc -> lb_coll b = None) ->
  act c ph x st b = (b', r) ->
  weak (lb_notes b') /\ grows b b' /\ (forall u, r = Ok u -> strong b') /\ (cb_id c <> sc_id sc \/ ph = PRestore -> lb_coll b' = lb_coll b).
Proof.
  intros St W Hn Ha. unfold lab_act in Ha. destruct (Nat.eqb_spec (cb_id c) (sc_id sc)) as [Ei|Ni].
  - destruct ph; try (injection Ha as <- <-; split; auto; split; [apply grows_refl|]; split; auto).
    + destruct (begin_training_ok St W (Hn eq_refl Ei) Ha) as (A & B & C). split; auto. split; auto. split; auto. intros [Q|Q]; congruence.
    + destruct (begin_batch_ok St W Ha) as (A & B & C). split; auto. split; auto. split; auto. intros [Q|Q]; congruence.
  - destruct (others c ph x st (lb_v b)) as [v r1]. injection Ha as <- <-. cbn [lb_notes lb_coll]. split; auto. split; [exists []; rewrite app_nil_r; reflexivity|]. split; auto.
Qed.

(** The batches in the trace are the ones noted. *)
Notation world := (world O lab).
Definition batches_noted (s : world) : Prop :=
  forall k b, In (TBatch k b) (wd_trace s) -> exists before rows after, lb_notes (wd_world s) = before ++ NDrew rows :: after /\ batch_of obj ld rows b.
Definition fine (s : world) : Prop := weak (lb_notes (wd_world s)) /\ batches_noted s.

Lemma noted_grows (s : world) st b' tr : batches_noted s -> grows (wd_world s) b' -> (forall k b, In (TBatch k b) tr -> In (TBatch k b) (wd_trace s)) ->
  batches_noted (mkWorld st b' tr).
Proof.
  intros B [ext G] It k b I. cbn [wd_world wd_trace] in *. destruct (B k b (It k b I)) as (before & rows & after & Eq & Q).
  exists before, rows, (after ++ ext). split; auto. rewrite G, Eq, <- app_assoc. reflexivity.
Qed.

Lemma phase_ok ph x : forall cs (s s' : world) r, NoDup (map cb_id cs) \/ ph <> PBeginTraining ->
  (ph = PBeginTraining -> In (sc_id sc) (map cb_id cs) -> lb_coll (wd_world s) = None) ->
  strong (wd_world s) -> fine s -> run_phase act ph x cs s = (s', r) ->
  fine s' /\ (forall u, r = Ok u -> strong (wd_world s') /\ (ph = PRestore -> lb_coll (wd_world s') = lb_coll (wd_world s))).
Proof.
  induction cs as [|c cs IH]; intros s s' r Nd Hn St [W B] Hr; cbn [run_phase] in Hr.
  - injection Hr as <- <-. split; [split; auto|auto].
  - destruct (act c ph x (wd_state s) (wd_world s)) as [b1 r1] eqn:Ea.
    destruct (act_ok St W (fun E1 E2 => Hn E1 (or_introl E2)) Ea) as (W1 & G1 & S1 & C1).
    assert (B1 : forall st0, batches_noted (mkWorld st0 b1 (wd_trace s ++ [TCall ph c x (wd_state s) r1]))).
    { intros st0. eapply noted_grows; eauto. intros k b I. apply in_app_or in I as [I|[I|[]]]; [auto|discriminate]. }
    destruct r1 as [u|e].
    + destruct (IH (mkWorld (dupdate (wd_state s) u) b1 (wd_trace s ++ [TCall ph c x (wd_state s) (Ok u)])) s' r) as [F1 F2]; auto.
      * destruct Nd as [Nd|Nd]; auto. left. inversion Nd; auto.
      * intros Ep Is. cbn [wd_world]. destruct Nd as [Nd|Nd]; [|congruence]. inversion Nd as [|? ? N1 N2]; subst. rewrite C1.
        -- apply Hn; auto. right. exact Is.
        -- left. intros Q. apply N1. rewrite Q. exact Is.
      * apply (S1 u eq_refl).
      * split; [exact W1|apply B1].
      * split; auto. intros u0 Hu. destruct (F2 u0 Hu) as [Q1 Q2]. split; auto. intros Ep. rewrite (Q2 Ep). cbn [wd_world]. auto.
    + injection Hr as <- <-. split; [split; [exact W1|apply B1]|discriminate].
Qed.

Lemma end_ok x : forall cs (s s' : world) r, fine s -> run_phase act PEndTraining x cs s = (s', r) -> fine s'.
Proof.
  induction cs as [|c cs IH]; intros s s' r [W B] Hr; cbn [run_phase] in Hr; [injection Hr as <- <-; split; auto|].
  destruct (act c PEndTraining x (wd_state s) (wd_world s)) as [b1 r1] eqn:Ea.
  assert (En : lb_notes b1 = lb_notes (wd_world s)).
  { unfold lab_act in Ea. destruct (Nat.eqb _ _); [injection Ea as <- _; auto|]. destruct (others _ _ _ _ _). injection Ea as <- _. reflexivity. }
  assert (F1 : forall st0, fine (mkWorld st0 b1 (wd_trace s ++ [TCall PEndTraining c x (wd_state s) r1]))).
  { intros st0. split; [cbn; rewrite En; auto|]. apply noted_grows with s; auto; [exists []; rewrite app_nil_r; auto|].
    intros k b I. apply in_app_or in I as [I|[I|[]]]; [auto|discriminate]. }
  destruct r1 as [u|e]; [eapply IH; eauto|injection Hr as <- <-; auto].
Qed.

(** The loader's turn. *)
Lemma next_ok (s : world) b' it : strong (wd_world s) -> fine s -> next (wd_world s) = (b', it) ->
  strong b' /\ fine (mkWorld (wd_state s) b' (wd_trace s)) /\
  (forall i bt, it = Some i -> it_batch i = Ok bt -> exists before rows, lb_notes b' = before ++ [NDrew rows] /\ batch_of obj ld rows bt).
Proof.
  intros St F Hx. destruct F as [W B]. set (b := wd_world s) in *.
  assert (K : b = mkLab (lb_gym b) (lb_coll b) (lb_px b) (lb_gen b) (lb_asked b) (lb_v b) (lb_notes b)) by (destruct b; reflexivity).
  assert (Kp : mkPx (px_store (lb_px b)) (px_done (lb_px b)) (px_table (lb_px b)) = lb_px b) by (destruct (lb_px b); reflexivity).
  pose proof St as (h & Hp & Ou & Nt & Ln & Co).
  (* nothing drawn *)
  assert (Same : forall t g n, (t = px_table (lb_px b) \/ t = fst (t_sample (px_table (lb_px b)) (ld_count ld) L (sample_draws (lb_asked b)))) ->
     strong (mkLab (lb_gym b) (lb_coll b) (mkPx (px_store (lb_px b)) (px_done (lb_px b)) t) g n (lb_v b) (lb_notes b)) /\
     fine (mkWorld (wd_state s) (mkLab (lb_gym b) (lb_coll b) (mkPx (px_store (lb_px b)) (px_done (lb_px b)) t) g n (lb_v b) (lb_notes b)) (wd_trace s))).
  { intros t g n [-> | ->].
    - rewrite Kp. split; [exists h; auto|]. split; auto.
    - split; [|split; auto]. exists (h ++ [PUse (OSample (ld_count ld) L (sample_draws (lb_asked b)))]). cbn [lb_px lb_notes].
      split; [rewrite (prun_snoc _ Hp); reflexivity|]. split; [apply Forall_app; split; auto|]. rewrite adds_snoc, app_nil_r. split; auto. split; auto.
      unfold coll_ok in *. cbn [lb_coll]. rewrite adds_snoc, app_nil_r. auto. }
  unfold lab_next in Hx.
  assert (Drawn : forall t' rows, t_sample (px_table (lb_px b)) (ld_count ld) L (sample_draws (lb_asked b)) = (t', Ok rows) ->
     forall g n, let b2 := mkLab (lb_gym b) (lb_coll b) (mkPx (px_store (lb_px b)) (px_done (lb_px b)) t') g n (lb_v b) (lb_notes b ++ [NDrew rows]) in
     strong b2 /\ fine (mkWorld (wd_state s) b2 (wd_trace s))).
  { intros t' rows Es g n b2. split.
    - exists (h ++ [PUse (OSample (ld_count ld) L (sample_draws (lb_asked b)))]). unfold b2. cbn [lb_px lb_notes].
      split; [rewrite (prun_snoc _ Hp); cbn [pstep step]; rewrite Es; reflexivity|]. split; [apply Forall_app; split; auto|]. rewrite adds_snoc, app_nil_r. split; [|split].
      + eapply Forall_impl; [|exact Nt]. intros o (x & Ix & Nx). exists x. split; auto. apply in_or_app; auto.
      + rewrite app_length. lia.
      + unfold coll_ok in *. cbn [lb_coll]. rewrite adds_snoc, app_nil_r. auto.
    - split.
      + unfold b2. cbn [wd_world lb_notes]. apply weak_drew; auto. intros Hl.
        assert (Q : exists agent' off g os, inv num env agent' dobs dact nenv off g os (adds_of h)).
        { unfold coll_ok in Co. destruct (lb_coll b) as [c|].
          - destruct Co as (ag & off & _ & I). eauto.
          - destruct Co as [-> _]. exists (agent (lb_v b)). do 3 eexists. exact (@inv_reset _ _ num env (agent (lb_v b)) dobs dact nenv (gym_new envs) nenv1 eq_refl (repeat_length _ _) ltac:(cbn; lia)). }
        destruct Q as (ag & off & g0 & os & I).
        eapply (@rollout_ok _ _ _ env num V agent dobs dact HS ag nenv off g0 os _ h _ pc cols maxlen smp ej (lb_px b) (ld_count ld) L (sample_draws (lb_asked b)) rows kmin I eq_refl Ou Nt); auto; [lia|].
        rewrite Es. reflexivity.
      + apply noted_grows with s; auto. exists [NDrew rows]. reflexivity. }
  assert (Bt : forall t' rows, t_sample (px_table (lb_px b)) (ld_count ld) L (sample_draws (lb_asked b)) = (t', Ok rows) ->
     exists d, load_one ld (px_table (lb_px b)) (sample_draws (lb_asked b)) = (t', Ok d) /\ batch_of obj ld rows (as_state obj d)).
  { intros t' rows Es. unfold load_one. rewrite Es. eexists. split; [reflexivity|]. unfold batch_of. rewrite Nat2Z.inj_mul.
    set (data := dset (map _ rows) _ _). exists data.
    unfold as_state. rewrite !(dget_map_val (fun e => match e with EData r => VObj (obj r) | ENum n => VNum n | EGroups _ => VNum 0 end)).
    assert (Ng' : ld_size_key ld <> ld_group ld) by (intros Q; apply Ng; auto). rewrite (dget_dset_neq _ _ Ng'), !dget_dset_eq. split; [reflexivity|]. split; [reflexivity|]. split.
    - unfold data. apply dget_dset_eq.
    - intros c Hc. unfold data. rewrite dget_dset_neq by auto. rewrite (dget_map_val (@CRows S)). reflexivity. }
  destruct (t_sample (px_table (lb_px b)) (ld_count ld) L (sample_draws (lb_asked b))) as [t' [rows|e]] eqn:Es.
  - destruct (Bt t' rows eq_refl) as (d & Ed & Hd).
    assert (Main : forall g, next b = (mkLab (lb_gym b) (lb_coll b) (mkPx (px_store (lb_px b)) (px_done (lb_px b)) t') g (1 + lb_asked b) (lb_v b) (lb_notes b ++ [NDrew rows]),
         Some (mkItem (Ok (as_state obj d)) (stop (lb_asked b)))) ->
       next b = (b', it) -> strong b' /\ fine (mkWorld (wd_state s) b' (wd_trace s)) /\
       (forall i bt, it = Some i -> it_batch i = Ok bt -> exists before rows, lb_notes b' = before ++ [NDrew rows] /\ batch_of obj ld rows bt)).
    { intros g E1 E2. rewrite E1 in E2. injection E2 as <- <-. destruct (Drawn t' rows eq_refl g (1 + lb_asked b)%nat) as [D1 D2]. split; auto. split; auto.
      intros i bt Q1 Q2. injection Q1 as <-. cbn in Q2. injection Q2 as <-. exists (lb_notes b), rows. auto. }
    assert (Quiet : forall e g o, (mkLab (lb_gym b) (lb_coll b) (mkPx (px_store (lb_px b)) (px_done (lb_px b)) (px_table (lb_px b))) g (1 + lb_asked b) (lb_v b) (lb_notes b), o) = (b', it) ->
       (o = None \/ o = Some (mkItem (Err e) (stop (lb_asked b)))) -> strong b' /\ fine (mkWorld (wd_state s) b' (wd_trace s)) /\
       (forall i bt, it = Some i -> it_batch i = Ok bt -> exists before rows, lb_notes b' = before ++ [NDrew rows] /\ batch_of obj ld rows bt)).
    { intros e g o Q Ho. injection Q as <- <-. destruct (Same (px_table (lb_px b)) g (1 + lb_asked b)%nat (or_introl eq_refl)) as [D1 D2]. split; auto. split; auto.
      intros i bt Q1 Q2. destruct Ho as [-> | ->]; [discriminate|]. injection Q1 as <-. discriminate. }
    unfold loader_next in Hx. destruct (lb_gen b) eqn:Eg.
    + destruct (is_ready ld (px_table (lb_px b))) eqn:Ir.
      * apply (Main GRunning); [|unfold lab_next, loader_next; rewrite Es, Eg, Ir; exact Hx]. unfold lab_next, loader_next. rewrite Es, Eg, Ir, Ed. reflexivity.
      * eapply (Quiet OtherError); [exact Hx|auto].
    + apply (Main GRunning); [|unfold lab_next, loader_next; rewrite Es, Eg; exact Hx]. unfold lab_next, loader_next. rewrite Es, Eg, Ed. reflexivity.
    + eapply (Quiet StopIteration); [exact Hx|auto].
  - assert (Quiet : forall t g o, (mkLab (lb_gym b) (lb_coll b) (mkPx (px_store (lb_px b)) (px_done (lb_px b)) t) g (1 + lb_asked b) (lb_v b) (lb_notes b), o) = (b', it) ->
       (t = px_table (lb_px b) \/ t = t') ->
       (o = None \/ exists e, o = Some (mkItem (Err e) (stop (lb_asked b)))) -> strong b' /\ fine (mkWorld (wd_state s) b' (wd_trace s)) /\
       (forall i bt, it = Some i -> it_batch i = Ok bt -> exists before rows, lb_notes b' = before ++ [NDrew rows] /\ batch_of obj ld rows bt)).
    { intros t g o Q Ht Ho. injection Q as <- <-. destruct (Same t g (1 + lb_asked b)%nat Ht) as [D1 D2]. split; auto. split; auto.
      intros i bt Q1 Q2. destruct Ho as [-> | [e0 ->]]; [discriminate|]. injection Q1 as <-. discriminate. }
    unfold loader_next, load_one in Hx. rewrite Es in Hx.
    assert (Fin : forall t g e0, (match @Err (batch S) e0 with Err StopIteration => (mkLab (lb_gym b) (lb_coll b) (mkPx (px_store (lb_px b)) (px_done (lb_px b)) t) g (1 + lb_asked b) (lb_v b) (lb_notes b), None)
        | Err e1 => (mkLab (lb_gym b) (lb_coll b) (mkPx (px_store (lb_px b)) (px_done (lb_px b)) t) g (1 + lb_asked b) (lb_v b) (lb_notes b), Some (mkItem (Err e1) (stop (lb_asked b))))
        | Ok d => (mkLab (lb_gym b) (lb_coll b) (mkPx (px_store (lb_px b)) (px_done (lb_px b)) t) g (1 + lb_asked b) (lb_v b) (lb_notes b), Some (mkItem (Ok (as_state obj d)) (stop (lb_asked b)))) end) = (b', it) ->
        (t = px_table (lb_px b) \/ t = t') -> strong b' /\ fine (mkWorld (wd_state s) b' (wd_trace s)) /\
       (forall i bt, it = Some i -> it_batch i = Ok bt -> exists before rows, lb_notes b' = before ++ [NDrew rows] /\ batch_of obj ld rows bt)).
    { intros t g e0 Q Ht. destruct e0; (eapply Quiet; [exact Q|exact Ht|eauto]). }
    destruct (lb_gen b); [destruct (is_ready ld (px_table (lb_px b)))| |].
    + eapply (Fin t' GDone e); [exact Hx|auto].
    + eapply (Fin (px_table (lb_px b)) GDone OtherError); [exact Hx|auto].
    + eapply (Fin t' GDone e); [exact Hx|auto].
    + eapply (Fin (px_table (lb_px b)) GDone StopIteration); [exact Hx|auto].
Qed.

Lemma phases_ok (fs : list (phase * list callback)) : Forall (fun p => fst p <> PBeginTraining) fs ->
  forall (s s' : world) r, strong (wd_world s) -> fine s ->
  fold_left (fun p q => andthen p (run_phase act (fst q) None (snd q))) fs (s, Ok tt) = (s', r) -> fine s' /\ (forall u, r = Ok u -> strong (wd_world s')).
Proof.
  assert (Er : forall fs (s : world) e, fold_left (fun p q => andthen p (run_phase act (fst q) None (snd q))) fs (s, Err e) = (s, Err e)).
  { clear. induction fs as [|q fs IH]; intros; cbn; auto. }
  induction fs as [|[ph cs] fs IH]; intros Hf s s' r St F Hr; cbn [fold_left] in Hr.
  - injection Hr as <- <-. auto.
  - inversion Hf as [|? ? H1 H2]; subst. cbn [fst snd andthen] in *. destruct (run_phase act ph None cs s) as [s1 r1] eqn:E1.
    destruct (@phase_ok ph None cs s s1 r1) as [F1 S1]; auto; [intros; congruence|]. destruct r1 as [[]|e].
    + destruct (S1 tt eq_refl) as [S1' _]. apply (IH H2 s1 s' r S1' F1 Hr).
    + rewrite Er in Hr. injection Hr as <- <-. split; auto. discriminate.
Qed.

Variable size_key : string.
Lemma step_ok cs k it (s s' : world) r : strong (wd_world s) -> fine s ->
  (forall bt, it_batch it = Ok bt -> exists before rows, lb_notes (wd_world s) = before ++ [NDrew rows] /\ batch_of obj ld rows bt) ->
  one_step act size_key cs k it s = (s', r) -> fine s' /\ (forall u, r = Ok u -> strong (wd_world s')).
Proof.
  intros St F Hb Hs. unfold one_step in Hs. destruct (it_batch it) as [bt|e]; [|injection Hs as <- <-; split; auto; discriminate].
  destruct (merge_batch size_key k bt (wd_state s)) as [st|e]; [|injection Hs as <- <-; split; auto; discriminate].
  destruct (Hb bt eq_refl) as (before & rows & En & Bo).
  assert (F1 : fine (mkWorld st (wd_world s) (wd_trace s ++ [TBatch k bt]))).
  { destruct F as [W B]. split; auto. intros k0 b0 I. cbn [wd_trace wd_world] in *. apply in_app_or in I as [I|[I|[]]]; [apply (B k0 b0 I)|].
    injection I as <- <-. exists before, rows, []. auto. }
  destruct (it_stop it) as [[|]|e]; try (injection Hs as <- <-; split; auto; discriminate).
  apply (@phases_ok [(PBeginCycle, begin_cycle_cbs k cs); (PBeginBatch, cs); (PBackward, cs); (PEndBatch, cs); (PEndCycle, end_cycle_cbs k cs)])
    with (s := mkWorld st (wd_world s) (wd_trace s ++ [TBatch k bt])); auto.
  - repeat (apply Forall_cons; [discriminate|]). apply Forall_nil.
  - rewrite <- Hs. cbn [fold_left fst snd andthen].
    repeat match goal with |- context [run_phase act ?ph None ?c ?s] => destruct (run_phase act ph None c s) as [? [[]|?]]; cbn [andthen]; auto end.
Qed.

Lemma loop_ok cs : forall fuel k (s s' : world) r e, strong (wd_world s) -> fine s -> live_loop act next size_key cs fuel k s = (s', r, e) -> fine s'.
Proof.
  induction fuel as [|fuel IH]; intros k s s' r e St F Hl; cbn [live_loop] in Hl; [injection Hl as <- _ _; auto|].
  destruct (next (wd_world s)) as [b' it] eqn:En. destruct (next_ok St F En) as (S1 & F1 & B1). destruct it as [i|]; [|injection Hl as <- _ _; auto].
  destruct (one_step act size_key cs k i (mkWorld (wd_state s) b' (wd_trace s))) as [s1 r1] eqn:Eo.
  destruct (@step_ok cs k i (mkWorld (wd_state s) b' (wd_trace s)) s1 r1 S1 F1 (fun bt => B1 i bt eq_refl) Eo) as [F2 S2]. destruct r1 as [u|e1]; [|injection Hl as <- _ _; auto].
  eapply IH; [apply (S2 u eq_refl)|exact F2|exact Hl].
Qed.

Lemma experiment cbs fuel st0 v s out : NoDup (map cb_id cbs) ->
  live_train act next size_key cbs fuel st0 (lab_new envs T0 v) = (s, out) -> fine s.
Proof.
  intros Nd Hl. unfold live_train in Hl. set (cs := sort_cbs cbs) in *.
  assert (Ncs : NoDup (map cb_id cs)). { destruct (sort_in_order cbs) as [P _]. eapply Permutation_NoDup; [apply Permutation_map; exact P|exact Nd]. }
  set (s0 := mkWorld _ (lab_new envs T0 v) []) in Hl.
  assert (S0 : strong (wd_world s0)).
  { exists []. cbn. split; auto. split; [constructor|]. split; [constructor|]. split; auto. }
  assert (F0 : fine s0).
  { split; [|intros k b []]. intros before rows after Eq. destruct before; discriminate. }
  assert (Fin : forall p ends, fine (fst p) -> finish act cs p ends = (s, out) -> fine s).
  { intros [s1 r1] ends F Hf. unfold finish in Hf. cbn [fst] in F. destruct r1 as [u|e]; [injection Hf as <- _; auto|].
    destruct (run_phase act PEndTraining (Some e) cs s1) as [s2 r2] eqn:E2. pose proof (end_ok F E2). destruct r2; injection Hf as <- _; auto. }
  destruct (run_phase act PRestore None cs s0) as [s1 r1] eqn:E1. destruct (@phase_ok PRestore None cs s0 s1 r1) as [F1 S1]; auto.
  destruct r1 as [u1|e1].
  2:{ cbn [andthen] in Hl. destruct e1; injection Hl as <- _; auto. }
  cbn [andthen] in Hl. destruct (S1 u1 eq_refl) as [S1' C1]. destruct (run_phase act PBeginTraining None cs s1) as [s2 r2] eqn:E2.
  assert (Cn : lb_coll (wd_world s1) = None) by (rewrite (C1 eq_refl); reflexivity).
  destruct (@phase_ok PBeginTraining None cs s1 s2 r2 (or_introl Ncs) (fun _ _ => Cn) S1' F1 E2) as [F2 S2].
  destruct r2 as [u2|e2]; [|destruct e2; injection Hl as <- _; auto]. destruct (S2 u2 eq_refl) as [S2' _].
  destruct (dget (wd_state s2) "bp_step") as [[k|o]|]; [|eapply Fin; [|exact Hl]; exact F2|eapply Fin; [|exact Hl]; exact F2].
  destruct (live_loop act next size_key cs fuel k s2) as [[s3 r3] ends] eqn:E3. eapply Fin; [|exact Hl]. cbn [fst]. eapply loop_ok; eauto.
Qed.
End P.

Lemma batches_happened {S E : Type} {HSc : Scalar S} {O V : Type} (num : S -> R) (env : genv S E) (agent : V -> nat -> dict Z (obs S) -> res (dict Z (resp S)))
    (others : behaviour O V) eject_draws sample_draws (obj : dict string (cell S) -> O) pc ld sc stop envs cols maxlen smp ej dobs dact kmin size_key cbs fuel st0 v s out :
  envs <> [] -> shows env dobs -> (forall v, answers_all dobs dact (agent v)) ->
  pc_min pc = Some kmin -> Z.of_nat (ld_length ld) <= kmin -> (1 <= ld_length ld)%nat ->
  config_ok cols "actions" -> fresh_sampler smp -> fresh_ejector ej -> layout cols "actions" (pc_terminal pc) (mkSchema ["obs"] ["actions"]) ->
  gym_sizes dobs dact cols -> ld_group ld <> ld_size_key ld -> NoDup (map cb_id cbs) ->
  live_train (lab_act num env agent others eject_draws pc sc) (lab_next sample_draws obj ld stop) size_key cbs fuel st0
    (lab_new envs (t_create cols "actions" maxlen smp ej) v) = (s, out) ->
  Z.of_nat (List.length (lb_notes (wd_world s))) <= 2 ^ 53 ->
  forall k b, In (TBatch k b) (wd_trace s) ->
  exists before rows after, lb_notes (wd_world s) = before ++ NDrew rows :: after /\ batch_of obj ld rows b /\
    batch_sized cols rows (ld_count ld) (ld_length ld) /\ forall j, (j < ld_count ld)%nat -> rollout_happened env agent cols (ld_length ld) before rows j.
Proof.
  intros HE HS HA Pm Lk L1 CO Fs Fe LA Sz Ng Nd Hl Ln k b Ib.
  destruct (@experiment S E HSc O V num env agent others eject_draws sample_draws obj pc ld sc stop envs cols maxlen smp ej dobs dact kmin HE HS HA Pm Lk L1 CO Fs Fe LA Sz Ng size_key cbs fuel st0 v s out Nd Hl) as [W B].
  destruct (B k b Ib) as (before & rows & after & En & Bo). exists before, rows, after. split; auto. split; auto. apply (W _ _ _ En).
  rewrite En, app_length in Ln. lia.
Qed.
