(** * CntProofs: how often a training adds to the memory (proofs for C152) *)
From Coq Require Import Reals Lia Permutation.
From Verif Require Import Py PyLemmas MemModel ProxyModel LoaderModel TrainModel TrainSpec TrainProofs TrainMain GymModel LiveModel CntSpec.
Set Implicit Arguments. Unset Strict Implicit.
Open Scope string_scope.
Open Scope list_scope.
Open Scope Z_scope.

Section Count.
Context {S E : Type} {HSc : Scalar S} {O V : Type}.
Variables (num : S -> R) (env : genv S E) (agent : V -> nat -> dict Z (obs S) -> res (dict Z (resp S))) (others : behaviour O V).
Variables (eject_draws : nat -> list (list draw)) (sample_draws : nat -> list draw) (obj : dict string (cell S) -> O) (pc : pconf) (ld : loader) (sc : sconf).
Variable cbs : list callback.
Hypothesis Total : TrainSpec.total others cbs early.
Hypothesis Leaves : leaves others cbs early "bp_step".
Notation act := (lab_act num env agent others eject_draws pc sc).
Notation next := (lab_next sample_draws obj ld (fun _ => Ok false)).
Notation lab := (lab S E V).
Notation world := (world O lab).
Definition adds (b : lab) : Z := Z.of_nat (additions (lb_notes b)).

Lemma adds_snoc l v os rs : Z.of_nat (additions (S := S) (V := V) (l ++ [NAdd v os rs])) = Z.of_nat (additions l) + 1.
Proof. unfold additions. rewrite filter_app, app_length. cbn. lia. Qed.
Lemma drew_snoc l rows : additions (S := S) (V := V) (l ++ [NDrew rows]) = additions l.
Proof. unfold additions. rewrite filter_app, app_length. cbn. lia. Qed.

Lemma collect_one b b' u : lab_collect num env agent eject_draws pc b = (b', Ok u) -> adds b' = adds b + 1.
Proof.
  unfold lab_collect. destruct (lb_coll b) as [c|]; [|discriminate].
  destruct (collect_data num env (agent (lb_v b)) eject_draws c) as [[c' [o q]]|e] eqn:D; [|discriminate].
  assert (exists os rs d, o = PAdd os rs d) as (os & rs & d & ->).
  { unfold collect_data in D. destruct (agent _ _ _) as [a|e]; [|discriminate]. cbn [rbind] in D. destruct (dict_step _ _ _ _) as [g|e]; [|discriminate]. cbn [rbind] in D. injection D as _ <- _. eauto. }
  destruct (pstep pc (lb_px b) (PAdd os rs d)) as [p [v|e]]; intros H; [|discriminate]. injection H as <- _. unfold adds. cbn [lb_notes]. apply adds_snoc.
Qed.
Lemma collect_many n : forall b b' u, lab_collect_multiple num env agent eject_draws pc n b = (b', Ok u) -> adds b' = adds b + Z.of_nat n.
Proof.
  induction n as [|n IH]; cbn [lab_collect_multiple]; intros b b' u H; [injection H as <- _; lia|].
  destruct (lab_collect num env agent eject_draws pc b) as [b1 [v|e]] eqn:E1; [|discriminate]. apply collect_one in E1. apply IH in H. lia.
Qed.
Lemma begin_many b b' u : lab_begin_training (O := O) num env agent eject_draws pc sc b = (b', Ok u) -> adds b' = adds b + Z.of_nat (sc_warmup sc) /\ dkeys u = ["inf_step"].
Proof.
  unfold lab_begin_training. destruct (begin_training _ _ _ _) as [c|e]; [|discriminate].
  destruct (lab_collect_multiple _ _ _ _ _ _ _) as [b1 [v|e]] eqn:E1; [|discriminate]. intros H. injection H as <- <-. apply collect_many in E1. split; [exact E1|reflexivity].
Qed.
Definition due (k : Z) : Z := if k mod sc_per sc =? 0 then 1 else 0.
Lemma batch_one (st : tstate O) b b' u k : dget st "bp_step" = Some (VNum k) ->
  lab_begin_batch num env agent eject_draws pc sc st b = (b', Ok u) -> adds b' = adds b + due k /\ dkeys u = ["inf_step"].
Proof.
  intros Hk. unfold lab_begin_batch, due. rewrite Hk. destruct (dget st "inf_step") as [inf|]; [|discriminate].
  destruct (sc_per sc =? 0); [discriminate|]. destruct (k mod sc_per sc =? 0).
  - destruct (lab_collect _ _ _ _ _ b) as [b1 [v|e]] eqn:E1; [|discriminate]. apply collect_one in E1. destruct inf; [|discriminate]. intros H. injection H as <- <-. split; [exact E1|reflexivity].
  - destruct inf; [|discriminate]. intros H. injection H as <- <-. split; [lia|reflexivity].
Qed.

(** What one hook of the collector adds. *)
Definition by_hook (ph : phase) (k : Z) : Z := match ph with PBeginTraining => Z.of_nat (sc_warmup sc) | PBeginBatch => due k | _ => 0 end.
Lemma hook_ok c ph x (st : tstate O) b b' u k : In c cbs -> early ph -> dget st "bp_step" = Some (VNum k) -> act c ph x st b = (b', Ok u) ->
  adds b' = adds b + (if Nat.eqb (cb_id c) (sc_id sc) then by_hook ph k else 0) /\ ~ In "bp_step" (dkeys u).
Proof.
  intros Ic Ep Hk A. unfold lab_act in A. destruct (Nat.eqb (cb_id c) (sc_id sc)).
  - assert (Q : adds b' = adds b + by_hook ph k /\ (dkeys u = ["inf_step"] \/ dkeys u = [])).
    { destruct ph; cbn [by_hook]; try (injection A as <- <-; split; [lia|right; reflexivity]).
      - apply begin_many in A as [A1 A2]. auto.
      - eapply batch_one in A as [A1 A2]; eauto. }
    destruct Q as [Q1 Q2]. split; [exact Q1|]. destruct Q2 as [-> | ->]; [intros [Q|[]]; discriminate|intros []].
  - pose proof (@Leaves c ph x st (lb_v b)) as Lv. destruct (others c ph x st (lb_v b)) as [v r]. injection A as <- ->. split; [unfold adds; cbn [lb_notes]; lia|]. apply Lv; auto.
Qed.
Lemma hook_late c ph x (st : tstate O) b b' r : ph <> PBeginTraining -> ph <> PBeginBatch -> act c ph x st b = (b', r) -> adds b' = adds b.
Proof.
  intros P1 P2 A. unfold lab_act in A. destruct (Nat.eqb (cb_id c) (sc_id sc)).
  - destruct ph; try congruence; injection A as <- _; reflexivity.
  - destruct (others _ _ _ _ _) as [v q]. injection A as <- _. reflexivity.
Qed.

Definition from_collector (s : world) (e : exn) : Prop := exists ph c x st, cb_id c = sc_id sc /\ In (TCall ph c x st (Err e)) (wd_trace s).
Lemma batches_call (tr : list (entry O)) ph c x st r : batches (tr ++ [TCall ph c x st r]) = batches tr.
Proof. unfold batches. rewrite flat_map_app. cbn. apply app_nil_r. Qed.
(** A phase before the work: it succeeds, or the collector raised. *)
Fixpoint times (cs : list callback) : Z := match cs with [] => 0 | c :: r => (if Nat.eqb (cb_id c) (sc_id sc) then 1 else 0) + times r end.
Lemma phase_early ph x k : early ph -> forall cs (s s' : world) r, incl cs cbs -> dget (wd_state s) "bp_step" = Some (VNum k) -> run_phase act ph x cs s = (s', r) ->
  batches (wd_trace s') = batches (wd_trace s) /\
  match r with Ok _ => adds (wd_world s') = adds (wd_world s) + times cs * by_hook ph k /\ dget (wd_state s') "bp_step" = Some (VNum k)
             | Err e => from_collector s' e /\ (ph = PBeginTraining \/ ph = PBeginBatch) end.
Proof.
  intros Ep. induction cs as [|c cs IH]; intros s s' r Hi Hk H; cbn [run_phase] in H.
  - injection H as <- <-. split; auto. split; auto. cbn [times]. lia.
  - destruct (act c ph x (wd_state s) (wd_world s)) as [w [u|e]] eqn:A.
    + destruct (@hook_ok c ph x (wd_state s) (wd_world s) w u k (Hi c (or_introl eq_refl)) Ep Hk A) as [Q1 Q2].
      specialize (IH (mkWorld (dupdate (wd_state s) u) w (wd_trace s ++ [TCall ph c x (wd_state s) (Ok u)])) s' r). cbn [wd_state wd_world wd_trace] in IH.
      destruct IH as [B1 B2]; [intros y Iy; apply Hi; right; exact Iy|rewrite dget_dupdate_other; auto|exact H|].
      split; [rewrite B1; apply batches_call|]. destruct r as [v|e].
      * destruct B2 as [B2 B3]. split; auto. cbn [times]. rewrite B2, Q1. destruct (Nat.eqb (cb_id c) (sc_id sc)); lia.
      * exact B2.
    + injection H as <- <-. cbn [wd_trace]. split; [apply batches_call|].
      unfold lab_act in A. destruct (Nat.eqb_spec (cb_id c) (sc_id sc)) as [Ec|Ec].
      * split; [exists ph, c, x, (wd_state s); split; auto; cbn [wd_trace]; apply in_app_iff; right; left; reflexivity|].
        destruct ph; auto; discriminate.
      * exfalso. destruct (@Total c ph x (wd_state s) (lb_v (wd_world s)) (Hi c (or_introl eq_refl)) Ep) as [u Hu]. destruct (others _ _ _ _ _) as [v q]. injection A as _ ->. discriminate.
Qed.
Lemma phase_late ph x : ph <> PBeginTraining -> ph <> PBeginBatch -> forall cs (s s' : world) r, run_phase act ph x cs s = (s', r) ->
  batches (wd_trace s') = batches (wd_trace s) /\ adds (wd_world s') = adds (wd_world s) /\ incl (wd_trace s) (wd_trace s').
Proof.
  intros P1 P2. induction cs as [|c cs IH]; intros s s' r H; cbn [run_phase] in H; [injection H as <- <-; split; auto; split; auto; intros y; auto|].
  destruct (act c ph x (wd_state s) (wd_world s)) as [w [u|e]] eqn:A; pose proof (hook_late P1 P2 A) as Q.
  - apply IH in H as (B1 & B2 & B3). cbn [wd_trace wd_world] in *. rewrite batches_call in B1. split; auto. split; [congruence|]. intros y Iy. apply B3, in_app_iff. auto.
  - injection H as <- <-. cbn [wd_trace wd_world]. rewrite batches_call. split; auto. split; auto. intros y Iy. apply in_app_iff. auto.
Qed.

Notation cs := (sort_cbs cbs).
Hypothesis Nd : NoDup (map cb_id cbs).
Hypothesis Isc : In (sc_id sc) (map cb_id cbs).
Hypothesis Per : 0 < sc_per sc.
Lemma times_none l : ~ In (sc_id sc) (map cb_id l) -> times l = 0.
Proof. induction l as [|c l IH]; cbn [times map]; auto. intros H. destruct (Nat.eqb_spec (cb_id c) (sc_id sc)); [exfalso; apply H; left; auto|]. rewrite IH; [reflexivity|]. intros Q. apply H. right. exact Q. Qed.
Lemma times_one l : NoDup (map cb_id l) -> In (sc_id sc) (map cb_id l) -> times l = 1.
Proof.
  induction l as [|c l IH]; cbn [times map]; [intros _ []|]. intros N I. inversion N as [|? ? N1 N2]; subst. destruct (Nat.eqb_spec (cb_id c) (sc_id sc)) as [Q|Q].
  - rewrite times_none; [reflexivity|]. rewrite <- Q. exact N1.
  - rewrite IH; [reflexivity|exact N2|]. destruct I; [contradiction|auto].
Qed.
Lemma times_cs : times cs = 1.
Proof.
  pose proof (Permutation_map cb_id (sort_perm cbs)) as P. apply times_one.
  - eapply Permutation_NoDup; [exact P|exact Nd].
  - eapply Permutation_in; [exact P|exact Isc].
Qed.
Lemma cs_incl : incl cs cbs.
Proof. intros y Iy. eapply Permutation_in; [apply Permutation_sym, sort_perm|exact Iy]. Qed.
Lemma begin_incl k : incl (begin_cycle_cbs k cs) cbs.
Proof. intros y Iy. apply cs_incl. unfold begin_cycle_cbs in Iy. apply filter_In in Iy as [Iy _]. apply filter_In in Iy as [Iy _]. exact Iy. Qed.

Definition inv (k : Z) (s : world) : Prop :=
  Z.of_nat (List.length (batches (wd_trace s))) = k /\ adds (wd_world s) = Z.of_nat (sc_warmup sc) + k / sc_per sc.
Definition even (s : world) : Prop := inv (Z.of_nat (List.length (batches (wd_trace s)))) s.
Lemma div_step k : 0 <= k -> (k + 1) / sc_per sc = k / sc_per sc + due (k + 1).
Proof.
  intros Hk. unfold due. set (p := sc_per sc) in *. pose proof (Z.div_mod k p ltac:(lia)) as D3. pose proof (Z.mod_pos_bound k p Per) as D4.
  set (q := k / p) in *. set (r := k mod p) in *. destruct (Z.eq_dec (r + 1) p) as [Q|Q].
  - rewrite <- (Z.mod_unique_pos (k + 1) p (q + 1) 0) by nia. rewrite <- (Z.div_unique_pos (k + 1) p (q + 1) 0) by nia. cbn. lia.
  - rewrite <- (Z.mod_unique_pos (k + 1) p q (r + 1)) by nia. rewrite <- (Z.div_unique_pos (k + 1) p q (r + 1)) by nia. destruct (Z.eqb_spec (r + 1) 0); lia.
Qed.
Lemma step_inv sk k it (s s' : world) r : 1 <= k -> it_stop it = Ok false -> inv (k - 1) s -> one_step act sk cs k it s = (s', r) ->
  match r with Ok _ => inv k s' | Err e => even s' \/ from_collector s' e end.
Proof.
  intros Hk1 St [I1 I2]. unfold one_step. destruct (it_batch it) as [bt|e]; [|intros H; injection H as <- <-; left; split; auto; rewrite I1; auto].
  destruct (merge_batch sk k bt (wd_state s)) as [st|e] eqn:Em; [|intros H; injection H as <- <-; left; split; auto; rewrite I1; auto].
  rewrite St. set (s1 := mkWorld st (wd_world s) (wd_trace s ++ [TBatch k bt])).
  assert (B1 : Z.of_nat (List.length (batches (wd_trace s1))) = k).
  { unfold s1. cbn [wd_trace]. unfold batches. rewrite flat_map_app, app_length. cbn [flat_map List.length app]. unfold batches in I1. lia. }
  assert (K1 : dget (wd_state s1) "bp_step" = Some (VNum k)).
  { cbn [s1 wd_state]. unfold merge_batch in Em. destruct (dget _ "bp_samples") as [[a|a]|]; try discriminate; destruct (dget _ sk) as [[d|d]|]; try discriminate.
    injection Em as <-. rewrite dget_dset_neq by discriminate. apply dget_dset_eq. }
  destruct (run_phase act PBeginCycle None (begin_cycle_cbs k cs) s1) as [s2 r2] eqn:R2.
  destruct (@phase_early PBeginCycle None k (or_intror (or_intror (or_introl eq_refl))) _ _ _ _ (@begin_incl k) K1 R2) as [B2 Q2].
  destruct r2 as [u2|e2]; cbn [andthen]; [|exfalso; destruct Q2 as [_ [Q|Q]]; discriminate]. destruct Q2 as [Q2 K2]. cbn [by_hook] in Q2.
  destruct (run_phase act PBeginBatch None cs s2) as [s3 r3] eqn:R3.
  destruct (@phase_early PBeginBatch None k (or_intror (or_intror (or_intror eq_refl))) _ _ _ _ cs_incl K2 R3) as [B3 Q3].
  destruct r3 as [u3|e3]; cbn [andthen]; [|intros H; injection H as <- <-; right; exact (proj1 Q3)]. destruct Q3 as [Q3 K3]. cbn [by_hook] in Q3. rewrite times_cs in Q3.
  assert (I3 : inv k s3).
  { split; [congruence|]. rewrite Q3, Q2. cbn [s1 wd_world]. rewrite I2. replace k with (k - 1 + 1) at 3 by lia. replace (k / sc_per sc) with ((k - 1 + 1) / sc_per sc) by (f_equal; lia). rewrite div_step by lia. replace (k - 1 + 1) with k by lia. lia. }
  assert (Mv : forall ph l (a b : world) q, ph <> PBeginTraining -> ph <> PBeginBatch -> inv k a -> run_phase act ph None l a = (b, q) -> inv k b).
  { intros ph l a b q P1 P2 [J1 J2] R. destruct (phase_late P1 P2 R) as (C1 & C2 & _). split; congruence. }
  assert (Ev : forall a : world, inv k a -> even a) by (intros a J; pose proof J as [J1 _]; unfold even; rewrite J1; exact J).
  destruct (run_phase act PBackward None cs s3) as [s4 r4] eqn:R4. assert (I4 : inv k s4) by (eapply Mv; [| |exact I3|exact R4]; discriminate).
  destruct r4 as [u4|e4]; cbn [andthen]; [|intros H; injection H as <- <-; left; auto].
  destruct (run_phase act PEndBatch None cs s4) as [s5 r5] eqn:R5. assert (I5 : inv k s5) by (eapply Mv; [| |exact I4|exact R5]; discriminate).
  destruct r5 as [u5|e5]; cbn [andthen]; [|intros H; injection H as <- <-; left; auto].
  intros R6. assert (I6 : inv k s') by (eapply Mv; [| |exact I5|exact R6]; discriminate). destruct r; auto.
Qed.
Lemma next_adds b b' it : next b = (b', it) -> adds b' = adds b /\ match it with Some i => it_stop i = Ok false | None => True end.
Proof.
  unfold lab_next. destruct (loader_next _ _ _ _) as [[g t] r]. intros H.
  assert (Q : adds b' = adds b /\ (it = None \/ exists x, it = Some (mkItem x (Ok false)))).
  { assert (Nt : additions (match t_sample (px_table (lb_px b)) (ld_count ld) (ld_length ld) (sample_draws (lb_asked b)), r with (_, Ok rows), Ok _ => lb_notes b ++ [NDrew rows] | _, _ => lb_notes b end) = additions (lb_notes b)).
    { destruct (t_sample _ _ _ _) as [t1 [rows|e]]; [|reflexivity]. destruct r; [apply drew_snoc|reflexivity]. }
    destruct r as [d|e]; [injection H as <- <-; split; [unfold adds; cbn [lb_notes]; congruence|eauto]|].
    destruct e; injection H as <- <-; (split; [unfold adds; cbn [lb_notes]; congruence|eauto]). }
  destruct Q as [Q1 [-> | [x ->]]]; auto.
Qed.
Lemma loop_inv sk : forall fuel k (s s' : world) r e, 1 <= k -> inv (k - 1) s -> live_loop act next sk cs fuel k s = (s', r, e) ->
  match r with Ok _ => even s' | Err x => even s' \/ from_collector s' x end.
Proof.
  assert (Ev : forall k (a : world), inv k a -> even a) by (intros k a J; pose proof J as [J1 _]; unfold even; rewrite J1; exact J).
  induction fuel as [|f IH]; intros k s s' r e Hk I H; cbn [live_loop] in H; [injection H as <- <- _; eauto|].
  destruct (next (wd_world s)) as [w it] eqn:En. apply next_adds in En as [A1 A2].
  assert (I1 : inv (k - 1) (mkWorld (wd_state s) w (wd_trace s))) by (destruct I as [J1 J2]; split; cbn [wd_trace wd_world]; congruence).
  destruct it as [it|]; [|injection H as <- <- _; eauto].
  destruct (one_step act sk cs k it _) as [s1 r1] eqn:E1. pose proof (step_inv Hk A2 I1 E1) as Q.
  destruct r1 as [u|x]; [|injection H as <- <- _; exact Q]. eapply (IH (k + 1)); [lia|replace (k + 1 - 1) with k by lia; exact Q|exact H].
Qed.

Lemma counted size_key fuel st0 envs t v (s : world) out :
  live_train act next size_key cbs fuel st0 (lab_new envs t v) = (s, out) -> out = Returned \/ out = Running -> ~ from_collector s Shutdown ->
  Z.of_nat (additions (lb_notes (wd_world s))) = Z.of_nat (sc_warmup sc) + Z.of_nat (List.length (batches (wd_trace s))) / sc_per sc.
Proof.
  intros L Ho Nc. enough (even s) by (exact (proj2 H)). unfold live_train in L.
  set (s0 := mkWorld _ (lab_new envs t v) []) in L.
  assert (K0 : dget (wd_state s0) "bp_step" = Some (VNum 1)) by apply dget_dset_eq.
  destruct (run_phase act PRestore None cs s0) as [s1 r1] eqn:R1.
  destruct (@phase_early PRestore None 1 (or_introl eq_refl) _ _ _ _ cs_incl K0 R1) as [B1 Q1].
  destruct r1 as [u1|e1]; cbn [andthen] in L; [|exfalso; destruct Q1 as [_ [Q|Q]]; discriminate]. destruct Q1 as [Q1 K1]. cbn [by_hook] in Q1.
  destruct (run_phase act PBeginTraining None cs s1) as [s2 r2] eqn:R2.
  destruct (@phase_early PBeginTraining None 1 (or_intror (or_introl eq_refl)) _ _ _ _ cs_incl K1 R2) as [B2 Q2].
  destruct r2 as [u2|e2].
  2:{ exfalso. destruct e2; injection L as <- <-; try (destruct Ho; discriminate). apply Nc. exact (proj1 Q2). }
  destruct Q2 as [Q2 K2]. cbn [by_hook] in Q2. rewrite times_cs in Q2. rewrite K2 in L.
  assert (I2 : inv (1 - 1) s2).
  { split; [rewrite B2, B1; reflexivity|]. rewrite Q2, Q1. change (adds (wd_world s0)) with 0. change (1 - 1) with 0. rewrite Z.div_0_l by lia. lia. }
  destruct (live_loop act next size_key cs fuel 1 s2) as [[s3 r3] e3] eqn:Ll. pose proof (@loop_inv size_key fuel 1 s2 s3 r3 e3 ltac:(lia) I2 Ll) as Q.
  unfold finish in L. destruct r3 as [u3|x]; [injection L as <- _; exact Q|].
  destruct (run_phase act PEndTraining (Some x) cs s3) as [s4 r4] eqn:R4.
  destruct (@phase_late PEndTraining (Some x) ltac:(discriminate) ltac:(discriminate) _ _ _ _ R4) as (C1 & C2 & C3).
  destruct r4 as [u4|e4]; injection L as <- Lo; [|rewrite <- Lo in Ho; destruct Ho; discriminate].
  assert (x = Shutdown) as -> by (destruct x; auto; rewrite <- Lo in Ho; destruct Ho; discriminate).
  destruct Q as [Q|(ph & c & y & st & Ec & Ic)].
  - unfold even in *. destruct Q as [J1 J2]. split; [reflexivity|]. rewrite C1, C2. exact J2.
  - exfalso. apply Nc. exists ph, c, y, st. auto.
Qed.
End Count.
Lemma returned_counted : forall (S E : Type) (HSc : Scalar S) (O V : Type) (num : S -> R) (env : genv S E)
    (agent : V -> nat -> dict Z (obs S) -> res (dict Z (resp S))) (others : behaviour O V)
    eject_draws sample_draws (obj : dict string (cell S) -> O) pc ld sc size_key cbs fuel st0 envs t v s out,
  TrainSpec.total others cbs early -> leaves others cbs early "bp_step" ->
  NoDup (map cb_id cbs) -> In (sc_id sc) (map cb_id cbs) -> 0 < sc_per sc ->
  live_train (lab_act num env agent others eject_draws pc sc) (lab_next sample_draws obj ld (fun _ => Ok false))
    size_key cbs fuel st0 (lab_new envs t v) = (s, out) ->
  out = Returned \/ out = Running ->
  (forall ph c x st, cb_id c = sc_id sc -> ~ In (TCall ph c x st (Err Shutdown)) (wd_trace s)) ->
  Z.of_nat (additions (lb_notes (wd_world s))) = Z.of_nat (sc_warmup sc) + Z.of_nat (List.length (batches (wd_trace s))) / sc_per sc.
Proof.
  intros S E HSc O V num env agent others ed sd obj pc ld sc sk cbs fuel st0 envs t v s out T L N I P H Ho Nc.
  eapply counted; eauto. intros (ph & c & x & st & Ec & Ic). exact (Nc ph c x st Ec Ic).
Qed.
