(** * ThrOver: after its end_training the collecting thread is gone (proofs for C151) *)
From Coq Require Import Reals Lia.
From Verif Require Import Py MemModel ProxyModel LoaderModel TrainModel TrainSpec TrainProofs GymModel LiveModel ThrModel.
Open Scope string_scope.
Open Scope list_scope.
Open Scope Z_scope.

Section NoEnd.
Context {O W : Type} (act : behaviour O W) (next : W -> W * option (item O)).
Definition noend (s : world O W) : Prop := forall c, ~ In (PEndTraining, c) (calls (wd_trace s)).
Lemma noend_call s st w ph c x seen r : noend s -> ph <> PEndTraining -> noend (mkWorld st w (wd_trace s ++ [TCall ph c x seen r])).
Proof. intros N P d. cbn [wd_trace]. rewrite calls_app, in_app_iff. intros [Q|[Q|[]]]; [eapply N; eauto|]. injection Q as Q _. congruence. Qed.
Lemma noend_phase ph x : ph <> PEndTraining -> forall cs s s' r, noend s -> run_phase act ph x cs s = (s', r) -> noend s'.
Proof.
  intros P. induction cs as [|c cs IH]; intros s s' r N R; cbn [run_phase] in R; [injection R as <- <-; auto|].
  destruct (act c ph x (wd_state s) (wd_world s)) as [w [u|e]].
  - eapply IH; [|exact R]. apply noend_call; auto.
  - injection R as <- <-. apply noend_call; auto.
Qed.
Lemma noend_andthen p f : noend (fst p) -> (forall s, noend s -> noend (fst (f s))) -> noend (fst (andthen (O := O) (W := W) p f)).
Proof. destruct p as [s [u|e]]; cbn; auto. Qed.
Lemma noend_phase' ph x cs s : ph <> PEndTraining -> noend s -> noend (fst (run_phase act ph x cs s)).
Proof. intros P N. destruct (run_phase act ph x cs s) as [s' r] eqn:R. eapply noend_phase; eauto. Qed.
Lemma noend_step sk cs k it s : noend s -> noend (fst (one_step act sk cs k it s)).
Proof.
  intros N. unfold one_step. destruct (it_batch it) as [b|e]; [|exact N]. destruct (merge_batch sk k b (wd_state s)) as [st|e]; [|exact N].
  assert (N1 : noend (mkWorld st (wd_world s) (wd_trace s ++ [TBatch k b]))).
  { intros d. cbn [wd_trace]. rewrite calls_app, in_app_iff. intros [Q|[]]. eapply N; eauto. }
  destruct (it_stop it) as [[|]|e]; try exact N1.
  repeat (apply noend_andthen; [apply noend_phase'; [discriminate|assumption]|intros ? ?]). apply noend_phase'; [discriminate|assumption].
Qed.
Lemma noend_loop sk cs : forall fuel k s s' r e, noend s -> live_loop act next sk cs fuel k s = (s', r, e) -> noend s'.
Proof.
  induction fuel as [|f IH]; intros k s s' r e N L; cbn [live_loop] in L; [injection L as <- _ _; auto|].
  destruct (next (wd_world s)) as [w [it|]]; [|injection L as <- _ _; exact N].
  pose proof (@noend_step sk cs k it (mkWorld (wd_state s) w (wd_trace s)) N) as N1.
  destruct (one_step act sk cs k it _) as [s1 [u|e1]]; [eapply IH; eauto|]. injection L as <- _ _. exact N1.
Qed.
End NoEnd.

Section Over.
Context {S E : Type} {HSc : Scalar S} {O V : Type}.
Variables (num : S -> R) (env : genv S E) (agent : V -> nat -> dict Z (obs S) -> res (dict Z (resp S))) (others : behaviour O V).
Variables (eject_draws : nat -> list (list draw)) (pc : pconf) (tc : tconf) (sched : nat -> nat).
Notation act := (thr_act num env agent others eject_draws pc tc sched).

Lemma end_off x c st w w' r : act c PEndTraining x st w = (w', r) -> tl_run w = false \/ cb_id c = tc_id tc -> tl_run w' = false.
Proof.
  unfold thr_act. intros A Q.
  assert (Tr : tl_run w = false -> tl_run (thr_go num env agent eject_draws pc sched w) = false) by (intros R; unfold thr_go; rewrite R; reflexivity).
  set (w1 := thr_go _ _ _ _ _ _ _) in *. destruct (Nat.eqb_spec (cb_id c) (tc_id tc)).
  - injection A as <- _. reflexivity.
  - destruct (others _ _ _ _ _) as [v q]. injection A as <- _. destruct Q; [auto|contradiction].
Qed.
Lemma end_phase x : forall cs s s' r, run_phase act PEndTraining x cs s = (s', r) ->
  tl_run (wd_world s) = false \/ (forall c, cb_id c = tc_id tc -> ~ In (PEndTraining, c) (calls (wd_trace s))) ->
  tl_run (wd_world s') = false \/ (forall c, cb_id c = tc_id tc -> ~ In (PEndTraining, c) (calls (wd_trace s'))).
Proof.
  induction cs as [|c cs IH]; intros s s' r R Q; cbn [run_phase] in R; [injection R as <- <-; auto|].
  destruct (act c PEndTraining x (wd_state s) (wd_world s)) as [w q] eqn:A.
  assert (Q' : tl_run w = false \/ (forall d, cb_id d = tc_id tc -> ~ In (PEndTraining, d) (calls (wd_trace s ++ [TCall PEndTraining c x (wd_state s) q])))).
  { destruct Q as [Q|Q]; [left; eapply end_off; eauto|]. destruct (Nat.eq_dec (cb_id c) (tc_id tc)) as [Ec|Ec]; [left; eapply end_off; eauto|].
    right. intros d Ed. rewrite calls_app, in_app_iff. intros [G|[G|[]]]; [eapply Q; eauto|]. injection G as ->. contradiction. }
  destruct q as [u|e].
  - eapply IH; [exact R|]. exact Q'.
  - injection R as <- _. exact Q'.
Qed.
Lemma thread_over next sk cbs fuel st0 w s out c : live_train act next sk cbs fuel st0 w = (s, out) ->
  In (PEndTraining, c) (calls (wd_trace s)) -> cb_id c = tc_id tc -> tl_run (wd_world s) = false.
Proof.
  intros L I Ec. unfold live_train in L. set (cs := sort_cbs cbs) in *.
  assert (N : noend (fst (andthen (run_phase act PRestore None cs (mkWorld (dset (dset st0 "bp_samples" (VNum 0)) "bp_step" (VNum 1)) w [])) (run_phase act PBeginTraining None cs)))).
  { apply noend_andthen; [apply noend_phase'; [discriminate|intros d []]|intros; apply noend_phase'; [discriminate|assumption]]. }
  destruct (andthen _ _) as [s1 [u|e]]; cbn [fst] in N.
  2:{ destruct e; injection L as <- _; exfalso; eapply N; eauto. }
  assert (F : forall s2 r e, noend s2 -> finish act cs (s2, r) e = (s, out) -> tl_run (wd_world s) = false).
  { intros s2 r e N2 F. unfold finish in F. destruct r as [v|x]; [injection F as <- _; exfalso; eapply N2; eauto|].
    destruct (run_phase act PEndTraining (Some x) cs s2) as [s3 r3] eqn:R. assert (s = s3) as -> by (destruct r3; injection F as <- _; auto).
    destruct (@end_phase _ _ _ _ _ R) as [Q|Q]; [right; intros d _; apply N2|exact Q|]. exfalso. eapply Q; eauto. }
  destruct (dget (wd_state s1) "bp_step") as [[k|o]|]; [|eapply F; eauto|eapply F; eauto].
  destruct (live_loop act next sk cs fuel k s1) as [[s2 r] e] eqn:Ll. eapply F; [|exact L]. eapply noend_loop; eauto.
Qed.
End Over.
