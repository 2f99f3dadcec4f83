(** * TrainMain: the theorems about training runs *)
From Coq Require Import Permutation Sorted.
From Verif Require Import Py PyLemmas TrainModel TrainSpec TrainProofs TrainState.
Set Implicit Arguments.
Open Scope string_scope.
Open Scope list_scope.
Open Scope Z_scope.

Section P.
Context {O W : Type}.
Context (act : behaviour O W).
Notation world := (world O W).
Notation entry := (entry O).

Lemma dget_dupdate_other (d e : tstate O) k : ~ In k (dkeys e) -> dget (dupdate d e) k = dget d k.
Proof.
  unfold dupdate. revert d. induction e as [|[k' v] r IH]; simpl; intros d N; auto.
  rewrite IH by tauto. apply dget_dset_neq. tauto.
Qed.

Lemma run_phase_other cbs (phs : phase -> Prop) key ph x cs (s s' : world) r :
  leaves act cbs phs key -> incl cs cbs -> phs ph ->
  run_phase act ph x cs s = (s', r) -> dget (wd_state s') key = dget (wd_state s) key.
Proof.
  intros L I P. revert s. induction cs as [|c cs IH]; simpl; intros s H; [injection H as <- <-; auto|].
  destruct (act c ph x (wd_state s) (wd_world s)) as [w [u|e]] eqn:A.
  - apply IH in H; [|eapply incl_cons_inv; eauto]. rewrite H. simpl. apply dget_dupdate_other.
    eapply (L c ph x (wd_state s) (wd_world s)); auto; [apply I; left; auto|]. rewrite A; auto.
  - injection H as <- <-. auto.
Qed.

Lemma sort_incl cbs : incl (sort_cbs cbs) cbs.
Proof. intros c I. eapply Permutation_in; [apply Permutation_sym, sort_perm|auto]. Qed.
Lemma incl_sort cbs : incl cbs (sort_cbs cbs).
Proof. intros c I. eapply Permutation_in; [apply sort_perm|auto]. Qed.

Lemma opening_other cbs key (s s' : world) r :
  leaves act cbs before_training key ->
  andthen (run_phase act PRestore None (sort_cbs cbs) s)
          (run_phase act PBeginTraining None (sort_cbs cbs)) = (s', r) ->
  dget (wd_state s') key = dget (wd_state s) key.
Proof.
  intros L H. destruct (run_phase act PRestore None (sort_cbs cbs) s) as [s1 [u|e]] eqn:R; simpl in H.
  - transitivity (dget (wd_state s1) key).
    + eapply run_phase_other; [exact L|apply sort_incl| |exact H]. right; auto.
    + eapply run_phase_other; [exact L|apply sort_incl| |exact R]. left; auto.
  - injection H as <- <-. eapply run_phase_other; [exact L|apply sort_incl| |exact R]. left; auto.
Qed.

Lemma first_step_1 cbs st0 w (s1 : world) :
  leaves act cbs before_training "bp_step" ->
  andthen (run_phase act PRestore None (sort_cbs cbs)
         (mkWorld (dset (dset st0 "bp_samples" (VNum 0)) "bp_step" (VNum 1)) w []))
         (run_phase act PBeginTraining None (sort_cbs cbs)) = (s1, Ok tt) ->
  first_step s1 = Some 1.
Proof.
  intros L H. unfold first_step. rewrite (opening_other _ L H). simpl wd_state.
  rewrite dget_dset_eq. auto.
Qed.

Lemma finish_closes l (s2 : world) e ends s out :
  finish act l (s2, Err e) ends = (s, out) ->
  exists fin, wd_trace s = wd_trace s2 ++ fin /\ closes l e fin out.
Proof.
  intros H. apply finish_cases in H. simpl in H. destruct H as (r2 & R & Eo).
  destruct (run_phase_follows _ _ _ _ _ R) as (fin & T & F & _ & X).
  exists fin. split; auto. split; auto. destruct r2 as [u|e']; simpl in F.
  - left. destruct F; auto.
  - right. destruct F as [[rest C] [(tr0 & x & E & Q & Rx)|[_ []]]].
    exists tr0, x, e', rest. auto.
Qed.

(** C43 *)
Definition order_statement (size : string) (cbs : list callback) (d : data O) (why : item O -> exn -> Prop)
  (s : world) (out : outcome) : Prop :=
  exists l k0, in_order cbs l
   /\ (leaves act cbs before_training "bp_step" -> k0 = 1)
   /\ ((* stopped before training began *)
       (exists n e tr0 x, calls (wd_trace s) = firstn n (opening l)
           /\ wd_trace s = tr0 ++ [x] /\ quiet tr0 /\ raises x = Some e
           /\ out = match e with Shutdown => Returned | _ => Raised OtherError end)
       (* no callback and no item stopped it *)
       \/ (quiet (wd_trace s) /\ calls (wd_trace s) = opening l ++ steps_calls l k0 (List.length (da_items d))
           /\ out = if da_ends d then Returned else Running)
       (* stopped *)
       \/ (exists main fin n e, wd_trace s = main ++ fin
           /\ calls main = opening l ++ firstn n (steps_calls l k0 (List.length (da_items d)))
           /\ (stops why l k0 (da_items d) main e
               \/ (quiet main /\ n = 0%nat /\ miscounts e
                   /\ ~ leaves act cbs before_training "bp_step"))
           /\ closes l e fin out)).

Lemma train_order_main size cbs d st0 w s out :
  train act size cbs d st0 w = (s, out) ->
  order_statement size cbs d (fun it e => item_raises it e \/ miscounts e) s out.
Proof.
  intros H. destruct (train_order _ _ _ _ _ _ H)
    as [(e & (n & C) & (tr0 & x & T & Q & R) & Eo)|(s1 & es1 & T1 & C1 & Q1 & B1 & A & D)];
    fold (sort_cbs cbs) in *.
  - exists (sort_cbs cbs), 1. split; [apply sort_in_order|]. split; auto. left.
    exists n, e, tr0, x. auto.
  - destruct D as [(e & E & F & K)|(k & s2 & r2 & es2 & K & L & T2 & F2 & F)].
    + exists (sort_cbs cbs), 1. split; [apply sort_in_order|]. split; auto. right; right.
      apply finish_closes in F. destruct F as (fin & T & Cl).
      exists es1, fin, 0%nat, e. rewrite <- T1 at 1. split; auto. simpl.
      split; [rewrite app_nil_r; auto|]. split; auto. right. repeat split; auto.
      intros Lv. rewrite (first_step_1 _ _ Lv A) in K. discriminate.
    + exists (sort_cbs cbs), k. split; [apply sort_in_order|]. split.
      { intros Lv. rewrite (first_step_1 _ _ Lv A) in K. congruence. }
      right. destruct r2 as [u|e].
      * left. apply finish_cases in F. simpl in F. destruct F as [-> ->]. destruct F2 as [Q2 C2].
        rewrite T2. split; [apply quiet_app; auto|]. split; auto. rewrite calls_app. congruence.
      * right. apply finish_closes in F. destruct F as (fin & T & Cl).
        destruct F2 as [[rest R] D].
        exists (es1 ++ es2), fin, (List.length (calls es2)), e. rewrite T, T2. split; auto.
        split; [rewrite calls_app, C1; f_equal; eapply prefix_firstn; eauto|]. split; auto. left.
        destruct D as [(es0 & x & E & Q & Rx)|[Q (n & it & N & I & C)]].
        -- left. exists (es1 ++ es0), x. subst es2. rewrite app_assoc. split; auto. split; auto.
           apply quiet_app; auto.
        -- right. split; [apply quiet_app; auto|]. exists n, it. split; auto. split; auto.
           rewrite calls_app. congruence.
Qed.

(** Countable items: nothing else can stop the loop. *)
Definition samples_ok (s : world) : Prop := exists a, dget (wd_state s) "bp_samples" = Some (VNum a).
Definition anytime (ph : phase) : Prop := True.

Lemma run_phase_samples cbs ph x cs (s s' : world) r :
  leaves act cbs anytime "bp_samples" -> incl cs cbs ->
  run_phase act ph x cs s = (s', r) -> samples_ok s -> samples_ok s'.
Proof.
  intros L I H [a A]. exists a. rewrite <- A. eapply run_phase_other; eauto. exact Logic.I.
Qed.
Lemma phases_samples cbs ph cs g (s s' : world) r :
  leaves act cbs anytime "bp_samples" -> incl cs cbs ->
  (forall s s' r, g s = (s', r) -> samples_ok s -> samples_ok s') ->
  andthen (run_phase act ph None cs s) g = (s', r) -> samples_ok s -> samples_ok s'.
Proof.
  intros L I G H F. destruct (run_phase act ph None cs s) as [s1 [u|e]] eqn:R; simpl in H.
  - eapply G; [exact H|]. eapply run_phase_samples; eauto.
  - injection H as <- <-. eapply run_phase_samples; eauto.
Qed.
Lemma merge_countable size k b st a :
  dget st "bp_samples" = Some (VNum a) -> NoDup (dkeys b) ->
  (exists n, dget b size = Some (VNum n)) -> ~ In "bp_samples" (dkeys b) ->
  exists st' n, @merge_batch O size k b st = Ok st' /\ dget st' "bp_samples" = Some (VNum n).
Proof.
  intros A ND [n N] NI. unfold merge_batch.
  rewrite dget_dset_neq by discriminate. rewrite dget_dupdate_other by auto. rewrite A.
  assert (S : exists m, dget (dset (dupdate st b) "bp_step" (VNum k)) size = Some (VNum m)).
  { destruct (String.eqb_spec size "bp_step") as [->|N'].
    - rewrite dget_dset_eq. eauto.
    - rewrite dget_dset_neq by auto. rewrite dget_dupdate by auto. rewrite N. eauto. }
  destruct S as [m ->]. eexists. eexists. split; [reflexivity|]. apply dget_dset_eq.
Qed.

Definition strict_cause (it : item O) (es : list entry) (e : exn) : Prop :=
  calls es = [] /\ item_raises it e.
Lemma one_step_strict size cs k it (s s' : world) r :
  leaves act cs anytime "bp_samples" -> countable size it -> samples_ok s ->
  one_step act size cs k it s = (s', r) ->
  samples_ok s' /\
  exists es, wd_trace s' = wd_trace s ++ es /\ follows (step_calls cs k) (strict_cause it) es r.
Proof.
  intros L Cn [a A] H. pose proof H as H0. unfold one_step in H. destruct (it_batch it) as [b|e] eqn:B.
  2: { injection H as <- <-. split; [exists a; auto|]. exists []. rewrite app_nil_r. split; auto.
       simpl. split; eauto. right. repeat split; [constructor|]. left; auto. }
  destruct Cn as [n0 Cn]. destruct (Cn _ B) as (ND & Sz0 & NI).
  assert (Sz : exists n, dget b size = Some (VNum n)) by eauto.
  destruct (@merge_countable size k b (wd_state s) a A ND Sz NI) as (st & n & M & Sn).
  rewrite M in H. destruct (it_stop it) as [[|]|e] eqn:T.
  - injection H as <- <-. split; [exists n; auto|]. exists [TBatch k b]. split; auto.
    split; [exists (step_calls cs k); auto|]. right. split; [repeat constructor|].
    split; auto. right; right; auto.
  - destruct (one_step_follows _ _ _ _ _ _ H0) as (es & Tr & F & _). split.
    + revert H. rewrite begin_cbs_eq, end_cbs_eq. set (s1 := mkWorld _ _ _).
      assert (S1 : samples_ok s1) by (exists n; auto). intros H. revert H S1.
      apply (@phases_samples cs); [auto|apply incl_filter|intros *].
      apply (@phases_samples cs); [auto|apply incl_refl|intros *].
      apply (@phases_samples cs); [auto|apply incl_refl|intros *].
      apply (@phases_samples cs); [auto|apply incl_refl|intros *].
      apply (@run_phase_samples cs); [auto|apply incl_filter].
    + clear es Tr F.
      set (s1 := mkWorld st (wd_world s) (wd_trace s ++ [TBatch k b])) in *.
      assert (K : exists es, wd_trace s' = wd_trace s1 ++ es
                /\ follows (step_calls cs k) (@never O) es r /\ batches es = []).
      { revert H. unfold step_calls. rewrite begin_cbs_eq, end_cbs_eq.
        apply phases_follow. clear. intros s s' r. apply phases_follow. clear. intros s s' r.
        apply phases_follow. clear. intros s s' r. apply phases_follow. clear. intros s s' r.
        apply phase_follow. }
      destruct K as (es & Tr & F & Bs). exists (TBatch k b :: es). subst s1. simpl in Tr.
      rewrite Tr, <- app_assoc. split; auto.
      destruct r as [u|e]; simpl in *.
      * destruct F as [Q C]. split; auto. constructor; auto.
      * destruct F as [R D]. split; auto.
        destruct D as [(es0 & x & E & Q & Rx)|[_ []]].
        left. exists (TBatch k b :: es0), x. subst es. repeat split; auto. constructor; auto.
  - injection H as <- <-. split; [exists n; auto|]. exists [TBatch k b]. split; auto.
    split; [exists (step_calls cs k); auto|]. right. split; [repeat constructor|].
    split; auto. right; left; auto.
Qed.
Definition strict_loop_cause l k0 (items : list (item O)) (es : list entry) (e : exn) : Prop :=
  exists n it, nth_error items n = Some it /\ item_raises it e /\ calls es = steps_calls l k0 n.
Lemma loop_strict size cs k items (s s' : world) r :
  leaves act cs anytime "bp_samples" -> Forall (countable size) items -> samples_ok s ->
  loop act size cs k items s = (s', r) ->
  exists es, wd_trace s' = wd_trace s ++ es
    /\ follows (steps_calls cs k (List.length items)) (strict_loop_cause cs k items) es r.
Proof.
  intros L. revert k s. induction items as [|it items IH]; simpl; intros k s Cn S H.
  - injection H as <- <-. exists []. rewrite app_nil_r. repeat split; constructor.
  - inversion Cn; subst.
    destruct (one_step act size cs k it s) as [s1 r1] eqn:S1.
    destruct (one_step_strict _ L H2 S S1) as (Sa & es1 & T1 & F1).
    destruct r1 as [u|e]; simpl in H.
    + apply IH in H; auto. destruct H as (es2 & T2 & F2). destruct u.
      exists (es1 ++ es2). rewrite T2, T1, <- app_assoc. split; auto.
      rewrite steps_calls_S.
      apply (@follows_cause _ _ (fun es e => exists es', es = es1 ++ es'
                /\ strict_loop_cause cs (k + 1) items es' e));
        [|apply (@follows_app _ _ _ (strict_cause it)); auto].
      intros e (es' & E & n & it' & N & I & C). apply app_inv_head in E. subst es'.
      exists (Datatypes.S n), it'. repeat split; auto. rewrite calls_app, steps_calls_S, C.
      destruct F1 as [_ ->]. auto.
    + injection H as <- <-. exists es1. split; auto. rewrite steps_calls_S.
      eapply (@follows_weaken _ _ _ (strict_cause it)); [eauto| |exact F1].
      intros e' [C I]. exists 0%nat, it. repeat split; auto.
Qed.
Lemma leaves_incl (a b : list callback) phs key : incl a b -> leaves act b phs key -> leaves act a phs key.
Proof. intros I L c ph x st w u Ic. apply L. auto. Qed.
Lemma leaves_phs (a : list callback) (p q : phase -> Prop) key :
  (forall x, q x -> p x) -> leaves act a p key -> leaves act a q key.
Proof. intros I L c ph x st w u Ic Q. apply L; auto. Qed.

Lemma train_order_strict size cbs d st0 w s out :
  leaves act cbs anytime "bp_samples" -> Forall (countable size) (da_items d) ->
  train act size cbs d st0 w = (s, out) ->
  order_statement size cbs d item_raises s out.
Proof.
  intros Ls Cn H. destruct (train_order _ _ _ _ _ _ H)
    as [(e & (n & C) & (tr0 & x & T & Q & R) & Eo)|(s1 & es1 & T1 & C1 & Q1 & B1 & A & D)];
    fold (sort_cbs cbs) in *.
  - exists (sort_cbs cbs), 1. split; [apply sort_in_order|]. split; auto. left.
    exists n, e, tr0, x. auto.
  - destruct D as [(e & E & F & K)|(k & s2 & r2 & es2 & K & L & T2 & _ & F)].
    + exists (sort_cbs cbs), 1. split; [apply sort_in_order|]. split; auto. right; right.
      apply finish_closes in F. destruct F as (fin & T & Cl).
      exists es1, fin, 0%nat, e. rewrite <- T1 at 1. split; auto. simpl.
      split; [rewrite app_nil_r; auto|]. split; auto. right. repeat split; auto.
      intros Lv. rewrite (first_step_1 _ _ Lv A) in K. discriminate.
    + exists (sort_cbs cbs), k. split; [apply sort_in_order|]. split.
      { intros Lv. rewrite (first_step_1 _ _ Lv A) in K. congruence. }
      assert (Sa : samples_ok s1).
      { exists 0. assert (Lb : leaves act cbs before_training "bp_samples")
          by (eapply leaves_phs; [|exact Ls]; unfold anytime; auto).
        rewrite (opening_other _ Lb A). simpl wd_state. rewrite dget_dset_neq by discriminate.
        apply dget_dset_eq. }
      destruct (loop_strict _ (leaves_incl (@sort_incl cbs) Ls) Cn Sa L) as (es2' & T2' & F2).
      rewrite T1, T2 in T2'. apply app_inv_head in T2'. subst es2'.
      right. destruct r2 as [u|e].
      * left. apply finish_cases in F. simpl in F. destruct F as [-> ->]. destruct F2 as [Q2 C2].
        rewrite T2. split; [apply quiet_app; auto|]. split; auto. rewrite calls_app. congruence.
      * right. apply finish_closes in F. destruct F as (fin & T & Cl).
        destruct F2 as [[rest R] D].
        exists (es1 ++ es2), fin, (List.length (calls es2)), e. rewrite T, T2. split; auto.
        split; [rewrite calls_app, C1; f_equal; eapply prefix_firstn; eauto|]. split; auto. left.
        destruct D as [(es0 & x & E & Q & Rx)|[Q (n & it & N & I & C)]].
        -- left. exists (es1 ++ es0), x. subst es2. rewrite app_assoc. split; auto. split; auto.
           apply quiet_app; auto.
        -- right. split; [apply quiet_app; auto|]. exists n, it. split; auto. split; auto.
           rewrite calls_app. congruence.
Qed.
End P.
