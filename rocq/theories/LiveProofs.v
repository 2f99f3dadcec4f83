(** * LiveProofs: a training whose data loader looks at the world is one whose data is given *)
From Coq Require Import Lia Permutation.
From Verif Require Import Py PyLemmas TrainModel TrainSpec TrainProofs TrainMain TrainThms2 LiveModel LiveSpec.
Set Implicit Arguments. Unset Strict Implicit.
Open Scope string_scope.
Open Scope list_scope.
Open Scope Z_scope.

Section P.
Context {O W : Type}.
Variable act : behaviour O W.
Variable id : nat.
Variable keep : phase -> callback -> res (tstate O) -> bool.
Notation A := (with_terminator id act).
Notation B := (with_terminator id (replay keep)).
Notation results := (recorded id).
Variable cbs : list callback.
Notation kept tr := (forall ph c x st r, In (TCall ph c x st r) tr -> cb_id c <> id -> keep ph c r = true).

Lemma recorded_app (a b : list (entry O)) : results (a ++ b) = results a ++ results b.
Proof. unfold recorded. apply flat_map_app. Qed.

Lemma phase_grows ph x : forall cs (s s' : world O W) r, run_phase A ph x cs s = (s', r) -> exists ext, wd_trace s' = wd_trace s ++ ext.
Proof.
  induction cs as [|c cs IH]; intros s s' r H; cbn [run_phase] in H; [injection H as <- <-; exists []; rewrite app_nil_r; reflexivity|].
  destruct (A c ph x (wd_state s) (wd_world s)) as [w [u|e]].
  - apply IH in H as [ext H]. cbn [wd_trace] in H. rewrite <- app_assoc in H. eauto.
  - injection H as <- <-. cbn. eauto.
Qed.

Lemma phase_replay ph x : forall cs (s s' : world O W) r ext, run_phase A ph x cs s = (s', r) -> wd_trace s' = wd_trace s ++ ext -> kept ext ->
  forall rest tr, run_phase B ph x cs (mkWorld (wd_state s) (results ext ++ rest) tr) = (mkWorld (wd_state s') rest (tr ++ ext), r).
Proof.
  induction cs as [|c cs IH]; intros s s' r ext H Ht K rest tr; cbn [run_phase] in H.
  - injection H as <- <-. assert (E : ext = []). { apply (app_inv_head (wd_trace s)). rewrite app_nil_r. auto. } subst. cbn. rewrite app_nil_r. reflexivity.
  - destruct (A c ph x (wd_state s) (wd_world s)) as [w [u|e]] eqn:Ea.
    + destruct (phase_grows H) as [ext' Hg]. cbn [wd_trace] in Hg. rewrite <- app_assoc in Hg.
      assert (E : ext = TCall ph c x (wd_state s) (Ok u) :: ext'). { apply (app_inv_head (wd_trace s)). rewrite <- Ht. exact Hg. } subst ext.
      cbn [run_phase wd_state wd_world wd_trace].
      assert (Eb : B c ph x (wd_state s) (results (TCall ph c x (wd_state s) (Ok u) :: ext') ++ rest) = (results ext' ++ rest, Ok u)).
      { unfold with_terminator in *. unfold recorded. cbn [flat_map]. destruct (Nat.eqb_spec (cb_id c) id) as [Ei|Ni].
        - injection Ea as _ Ea. rewrite Ea. reflexivity.
        - cbn [app replay]. rewrite (K ph c x (wd_state s) (Ok u)); auto. left. reflexivity. }
      rewrite Eb. specialize (IH _ _ _ ext' H). cbn [wd_state wd_trace wd_world] in IH. rewrite IH.
      * rewrite <- app_assoc. reflexivity.
      * rewrite <- app_assoc. exact Hg.
      * intros ph0 c0 x0 st0 r0 I0. apply (K ph0 c0 x0 st0 r0). right. exact I0.
    + injection H as <- <-. cbn [wd_trace wd_state] in *.
      assert (E : ext = [TCall ph c x (wd_state s) (Err e)]). { apply (app_inv_head (wd_trace s)). auto. } subst ext.
      cbn [run_phase wd_state wd_world wd_trace].
      assert (Eb : B c ph x (wd_state s) (results [TCall ph c x (wd_state s) (Err e)] ++ rest) = (rest, Err e)).
      { unfold with_terminator in *. unfold recorded. cbn [flat_map]. destruct (Nat.eqb_spec (cb_id c) id) as [Ei|Ni].
        - injection Ea as _ Ea. rewrite Ea. reflexivity.
        - cbn [app replay]. rewrite (K ph c x (wd_state s) (Err e)); auto. left. reflexivity. }
      rewrite Eb. reflexivity.
Qed.

(** The hooks called are hooks of [cbs], and did what they do. *)
Definition authentic (tr : list (entry O)) : Prop :=
  forall ph c x st r, In (TCall ph c x st r) tr -> In c cbs /\ exists w, snd (A c ph x st w) = r.
Lemma authentic_app a b : authentic a -> authentic b -> authentic (a ++ b).
Proof. intros Ha Hb ph c x st r I. apply in_app_or in I as [I|I]; eauto. Qed.

Lemma phase_authentic ph x : forall cs (s s' : world O W) r ext, incl cs cbs -> run_phase A ph x cs s = (s', r) -> wd_trace s' = wd_trace s ++ ext -> authentic ext.
Proof.
  induction cs as [|c cs IH]; intros s s' r ext Hi H Ht; cbn [run_phase] in H.
  - injection H as <- <-. assert (E : ext = []). { apply (app_inv_head (wd_trace s)). rewrite app_nil_r. auto. } subst. intros ? ? ? ? ? [].
  - assert (Ic : In c cbs) by (apply Hi; left; reflexivity). assert (Hi' : incl cs cbs) by (intros y Iy; apply Hi; right; exact Iy).
    destruct (A c ph x (wd_state s) (wd_world s)) as [w [u|e]] eqn:Ea.
    + destruct (phase_grows H) as [ext' Hg]. cbn [wd_trace] in Hg. rewrite <- app_assoc in Hg.
      assert (E : ext = TCall ph c x (wd_state s) (Ok u) :: ext'). { apply (app_inv_head (wd_trace s)). rewrite <- Ht. exact Hg. } subst ext.
      assert (Q : authentic ext'). { eapply (IH _ _ _ ext' Hi' H). cbn [wd_trace]. rewrite <- app_assoc. exact Hg. }
      intros ph0 c0 x0 st0 r0 [I|I]; [injection I as <- <- <- <- <-; split; auto; exists (wd_world s); rewrite Ea; reflexivity|eauto].
    + injection H as <- <-. cbn [wd_trace wd_state] in *.
      assert (E : ext = [TCall ph c x (wd_state s) (Err e)]). { apply (app_inv_head (wd_trace s)). auto. } subst ext.
      intros ph0 c0 x0 st0 r0 [I|[]]. injection I as <- <- <- <- <-; split; auto; exists (wd_world s); rewrite Ea; reflexivity.
Qed.

(** A piece of a run, and the same piece replayed. *)
Definition replays (f : world O W -> world O W * res unit) (g : world O (list (res (tstate O))) -> world O (list (res (tstate O))) * res unit) : Prop :=
  forall s s' r, f s = (s', r) -> exists ext, wd_trace s' = wd_trace s ++ ext /\ authentic ext /\
    (kept ext -> forall rest tr, g (mkWorld (wd_state s) (results ext ++ rest) tr) = (mkWorld (wd_state s') rest (tr ++ ext), r)).

Lemma replays_phase ph x cs : incl cs cbs -> replays (run_phase A ph x cs) (run_phase B ph x cs).
Proof.
  intros Hi s s' r H. destruct (phase_grows H) as [ext Hg]. exists ext. split; auto. split; [eapply phase_authentic; eauto|].
  intros K rest tr. eapply phase_replay; eauto.
Qed.

Lemma kept_app (a b : list (entry O)) : kept (a ++ b) -> kept a /\ kept b.
Proof. intros K. split; intros ph c x st r I; apply (K ph c x st r); apply in_or_app; auto. Qed.

Lemma replays_then f g f' g' : replays f g -> replays f' g' -> replays (fun s => andthen (f s) f') (fun s => andthen (g s) g').
Proof.
  intros R1 R2 s s' r H. destruct (f s) as [s1 r1] eqn:E1. destruct (R1 _ _ _ E1) as (e1 & T1 & V1 & G1). cbn [andthen] in H. destruct r1 as [u|e].
  - destruct (R2 _ _ _ H) as (e2 & T2 & V2 & G2). exists (e1 ++ e2). split; [rewrite T2, T1, app_assoc; reflexivity|]. split; [apply authentic_app; auto|].
    intros K rest tr. apply kept_app in K as [K1 K2]. rewrite recorded_app, <- app_assoc. rewrite (G1 K1). cbn [andthen]. destruct u.
    rewrite (G2 K2). rewrite app_assoc. reflexivity.
  - injection H as <- <-. exists e1. split; auto. split; auto. intros K rest tr. rewrite (G1 K). reflexivity.
Qed.

Lemma replays_step size cs k it : incl cs cbs -> replays (one_step A size cs k it) (one_step B size cs k it).
Proof.
  intros Hi s s' r H. unfold one_step in H. destruct (it_batch it) as [batch|e] eqn:Eb.
  2:{ injection H as <- <-. exists []. rewrite app_nil_r. split; auto. split; [intros ? ? ? ? ? []|]. intros _ rest tr. unfold one_step. rewrite Eb. cbn. rewrite app_nil_r. reflexivity. }
  destruct (merge_batch size k batch (wd_state s)) as [st|e] eqn:Em.
  2:{ injection H as <- <-. exists []. rewrite app_nil_r. split; auto. split; [intros ? ? ? ? ? []|]. intros _ rest tr. unfold one_step. rewrite Eb. cbn. rewrite Em, app_nil_r. reflexivity. }
  destruct (it_stop it) as [[|]|e] eqn:Es.
  1,3: injection H as <- <-; exists [TBatch k batch]; split; [reflexivity|]; split; [intros ? ? ? ? ? [I|[]]; discriminate|]; intros _ rest tr; unfold one_step; rewrite Eb; cbn [wd_state]; rewrite Em, Es; reflexivity.
  set (f := fun s => andthen (run_phase A PBeginCycle None (begin_cycle_cbs k cs) s) (fun s2 =>
              andthen (run_phase A PBeginBatch None cs s2) (fun s3 => andthen (run_phase A PBackward None cs s3) (fun s4 =>
              andthen (run_phase A PEndBatch None cs s4) (fun s5 => run_phase A PEndCycle None (end_cycle_cbs k cs) s5))))) in H.
  set (g := fun s => andthen (run_phase B PBeginCycle None (begin_cycle_cbs k cs) s) (fun s2 =>
              andthen (run_phase B PBeginBatch None cs s2) (fun s3 => andthen (run_phase B PBackward None cs s3) (fun s4 =>
              andthen (run_phase B PEndBatch None cs s4) (fun s5 => run_phase B PEndCycle None (end_cycle_cbs k cs) s5))))).
  assert (R : replays f g).
  { assert (Hf : forall f, incl (filter f cs) cbs) by (intros f0 y Iy; apply filter_In in Iy as [Iy _]; auto).
    assert (Hf' : forall f0 f1, incl (filter f0 (filter f1 cs)) cbs) by (intros f0 f1 y Iy; apply filter_In in Iy as [Iy _]; exact (Hf f1 y Iy)).
    repeat (apply replays_then; [apply replays_phase; auto; unfold begin_cycle_cbs; auto|]). apply replays_phase. unfold end_cycle_cbs. auto. }
  destruct (R _ _ _ H) as (ext & T & Au & G). cbn [wd_trace] in T. rewrite <- app_assoc in T. exists (TBatch k batch :: ext). split; [exact T|]. split; [intros ? ? ? ? ? [I|I]; [discriminate|eauto]|].
  intros K rest tr. unfold one_step. rewrite Eb. cbn [wd_state wd_world wd_trace]. rewrite Em, Es. fold g.
  assert (K2 : kept ext) by (intros ph c x st0 r0 I0; apply (K ph c x st0 r0); right; exact I0).
  specialize (G K2 rest (tr ++ [TBatch k batch])). cbn [wd_state] in G. change (results (TBatch k batch :: ext)) with (results ext).
  etransitivity; [exact G|]. rewrite <- app_assoc. reflexivity.
Qed.

Variable next : W -> W * option (item O).

Lemma loop_replay size cs : incl cs cbs -> forall fuel k (s s' : world O W) r ends, live_loop A next size cs fuel k s = (s', r, ends) ->
  exists ext, wd_trace s' = wd_trace s ++ ext /\ authentic ext /\
    (kept ext -> forall rest tr, loop B size cs k (items_of A next size cs fuel k s) (mkWorld (wd_state s) (results ext ++ rest) tr) = (mkWorld (wd_state s') rest (tr ++ ext), r)).
Proof.
  intros Hi. induction fuel as [|fuel IH]; intros k s s' r ends H; cbn [live_loop items_of] in *.
  - injection H as <- <- <-. exists []. rewrite app_nil_r. split; auto. split; [intros ? ? ? ? ? []|]. intros _ rest tr. cbn. rewrite app_nil_r. reflexivity.
  - destruct (next (wd_world s)) as [w [it|]].
    + destruct (one_step A size cs k it (mkWorld (wd_state s) w (wd_trace s))) as [s1 [u|e]] eqn:E1.
      * destruct (replays_step Hi E1) as (e1 & T1 & V1 & G1). destruct (IH _ _ _ _ _ H) as (e2 & T2 & V2 & G2). cbn [wd_trace wd_state] in *.
        exists (e1 ++ e2). split; [rewrite T2, T1, app_assoc; reflexivity|]. split; [apply authentic_app; auto|]. intros K rest tr. apply kept_app in K as [K1 K2].
        cbn [loop]. rewrite recorded_app, <- app_assoc. rewrite (G1 K1). cbn [andthen]. destruct u. rewrite (G2 K2). rewrite app_assoc. reflexivity.
      * injection H as <- <- <-. destruct (replays_step Hi E1) as (e1 & T1 & V1 & G1). cbn [wd_trace wd_state] in *. exists e1. split; auto. split; auto.
        intros K rest tr. cbn [loop]. rewrite (G1 K). reflexivity.
    + injection H as <- <- <-. exists []. cbn. rewrite app_nil_r. split; auto. split; [intros ? ? ? ? ? []|]. intros _ rest tr. rewrite app_nil_r. reflexivity.
Qed.

Lemma finish_replay cs p q ends : incl cs cbs -> snd p = snd q -> wd_state (fst p) = wd_state (fst q) ->
  forall s' out, finish A cs p ends = (s', out) -> (forall e, snd p = Err e -> out <> Running) /\ exists ext, wd_trace s' = wd_trace (fst p) ++ ext /\ authentic ext /\
    (kept ext -> forall rest tr ends', (ends' = ends \/ exists e, snd p = Err e) -> wd_world (fst q) = results ext ++ rest -> wd_trace (fst q) = tr ->
       finish B cs q ends' = (mkWorld (wd_state s') rest (tr ++ ext), out)).
Proof.
  intros Hi. destruct p as [s r], q as [t r']. cbn [fst snd]. intros <- Es s' out H. unfold finish in *. destruct r as [u|e].
  - injection H as <- <-. split; [discriminate|]. exists []. rewrite app_nil_r. split; auto. split; [intros ? ? ? ? ? []|].
    intros _ rest tr ends' [-> | [? ?]] Hw Ht; [|discriminate]. cbn in Hw. rewrite app_nil_r. destruct t. cbn in *. subst. reflexivity.
  - destruct (run_phase A PEndTraining (Some e) cs s) as [s1 r1] eqn:E1. destruct (replays_phase Hi E1) as (ext & T & Au & G).
    assert (Q : s1 = s') by (destruct r1; injection H as <- _; reflexivity). subst s1. split.
    { intros _ _. destruct r1; injection H as <-; [destruct e|]; discriminate. }
    exists ext. split; auto. split; auto. intros K rest tr ends' _ Hw Ht.
    destruct t as [st w tt0]. cbn in Hw, Ht, Es. subst. rewrite (G K rest tr). destruct r1 as [u|e1]; injection H as <-; reflexivity.
Qed.

Lemma skip_results (a b : list (entry O)) : skipn (List.length (results a)) (results (a ++ b)) = results b ++ [].
Proof. rewrite recorded_app, skipn_app, Nat.sub_diag, skipn_all, app_nil_l, app_nil_r. reflexivity. Qed.

Lemma live_replay size fuel st0 w s out : live_train A next size cbs fuel st0 w = (s, out) -> authentic (wd_trace s) /\ (kept (wd_trace s) ->
  exists d, train B size cbs d st0 (results (wd_trace s)) = (mkWorld (wd_state s) [] (wd_trace s), out) /\
    (d = mkData [] false /\ out <> Running \/
     exists k s1 s2 r ends, live_loop A next size (sort_cbs cbs) fuel k s1 = (s2, r, ends) /\ d = mkData (items_of A next size (sort_cbs cbs) fuel k s1) ends /\
       forall e, r = Err e -> out <> Running)).
Proof.
  intros H. unfold live_train in H. set (cs := sort_cbs cbs) in *. set (s0 := mkWorld _ w []) in H.
  assert (Hi : incl cs cbs). { intros y Iy. destruct (sort_in_order cbs) as [P _]. eapply Permutation_in; [apply Permutation_sym; exact P|exact Iy]. }
  assert (R : replays (fun s => andthen (run_phase A PRestore None cs s) (run_phase A PBeginTraining None cs)) (fun s => andthen (run_phase B PRestore None cs s) (run_phase B PBeginTraining None cs))).
  { apply replays_then; apply replays_phase; auto. }
  destruct (andthen (run_phase A PRestore None cs s0) (run_phase A PBeginTraining None cs)) as [s1 r1] eqn:E1.
  destruct (R s0 s1 r1 E1) as (e1 & T1 & V1 & G1). cbn [s0 wd_trace app] in T1. cbn [s0 wd_state] in G1.
  assert (Early : forall e, dget (wd_state s1) "bp_step" = match e with TypeError => dget (wd_state s1) "bp_step" | _ => None end -> r1 = Ok tt ->
      (match dget (wd_state s1) "bp_step" with Some (VNum _) => False | Some (VObj _) => e = TypeError | None => e = KeyError end) ->
      finish A cs (s1, Err e) true = (s, out) -> authentic (wd_trace s) /\ (kept (wd_trace s) ->
      exists d, train B size cbs d st0 (results (wd_trace s)) = (mkWorld (wd_state s) [] (wd_trace s), out) /\ d = mkData [] false /\ out <> Running)).
  { intros e _ -> Ee Hf.
    destruct (@finish_replay cs (s1, Err e) (mkWorld (wd_state s1) (skipn (List.length (results e1)) (results (wd_trace s))) (wd_trace s1), Err e) true Hi eq_refl eq_refl _ _ Hf) as (Nr & e3 & T3 & V3 & G3).
    cbn [fst snd] in T3, G3, Nr. rewrite T1 in T3. rewrite T3. split; [apply authentic_app; auto|]. intros K. apply kept_app in K as [K1 K3].
    exists (mkData [] false). split; [|split; [reflexivity|apply (Nr e eq_refl)]].
    unfold train. fold cs. rewrite recorded_app. rewrite (G1 K1). cbn [wd_state].
    rewrite T3, T1 in G3. cbn [wd_world wd_trace] in G3. rewrite skip_results, app_nil_r in G3.
    destruct (dget (wd_state s1) "bp_step") as [[k|o]|]; [destruct Ee| |]; subst e; (apply (G3 K3 [] e1 false); [right; eauto|rewrite app_nil_r; reflexivity|reflexivity]). }
  destruct r1 as [[]|e].
  - destruct (dget (wd_state s1) "bp_step") as [[k|o]|] eqn:Eb.
    + destruct (live_loop A next size cs fuel k s1) as [[s2 r2] ends] eqn:E2. destruct (loop_replay Hi E2) as (e2 & T2 & V2 & G2).
      destruct (@finish_replay cs (s2, r2) (mkWorld (wd_state s2) (skipn (List.length (results (e1 ++ e2))) (results (wd_trace s))) (wd_trace s2), r2) ends Hi eq_refl eq_refl _ _ H) as (Nr & e3 & T3 & V3 & G3).
      cbn [fst snd] in T3, G3, Nr. rewrite T2, T1 in T3. rewrite T3. split; [apply authentic_app; auto; apply authentic_app; auto|].
      intros K. apply kept_app in K as [K12 K3]. apply kept_app in K12 as [K1 K2].
      exists (mkData (items_of A next size cs fuel k s1) ends). split; [|right; exists k, s1, s2, r2, ends; auto].
      unfold train. fold cs. rewrite !recorded_app, <- app_assoc. rewrite (G1 K1). cbn [wd_state]. rewrite Eb. cbn [da_items da_ends]. cbn [app].
      rewrite (G2 K2). rewrite T3, T2, T1 in G3. cbn [wd_world wd_trace] in G3. rewrite skip_results, app_nil_r in G3.
      specialize (G3 K3 [] (e1 ++ e2) ends (or_introl eq_refl)). rewrite app_nil_r in G3. exact (G3 eq_refl eq_refl).
    + destruct (Early TypeError eq_refl eq_refl eq_refl H) as [Au D]. split; auto. intros K. destruct (D K) as (d & D1 & D2). exists d. auto.
    + destruct (Early KeyError eq_refl eq_refl eq_refl H) as [Au D]. split; auto. intros K. destruct (D K) as (d & D1 & D2). exists d. auto.
  - assert (Es : s = s1) by (destruct e; injection H as <- _; reflexivity). subst s1. rewrite T1. split; auto. intros K. exists (mkData [] false). split.
    + unfold train. fold cs. specialize (G1 K [] []). rewrite app_nil_r in G1. cbn [app] in G1. rewrite G1. destruct e; injection H as <-; reflexivity.
    + left. split; auto. destruct e; injection H as <-; discriminate.
Qed.
End P.

(** ** A terminator, on data that is always there *)
Section Term.
Context {O W : Type}.
Definition keeps (ph : phase) (c : callback) (r : res (tstate O)) : bool :=
  match r with
  | Err _ => false
  | Ok u => negb (existsb (String.eqb "bp_samples") (dkeys u)) &&
            match ph with PRestore | PBeginTraining => negb (existsb (String.eqb "bp_step") (dkeys u)) | _ => true end
  end.
Lemma existsb_key key (l : list string) : existsb (String.eqb key) l = true <-> In key l.
Proof. rewrite existsb_exists. split; [intros (x & I & E); apply String.eqb_eq in E; subst; auto|intros I; exists key; split; auto; apply String.eqb_refl]. Qed.

Variable act : behaviour O W.
Variable next : W -> W * option (item O).
Variables (id : nat) (n : Z) (t : callback) (size : string) (cbs : list callback).
Hypothesis Te : terminator id n = Ok t.
Hypothesis It : In t cbs.
Hypothesis ND : NoDup (map cb_id cbs).
Hypothesis To : total act cbs anytime.
Hypothesis Le1 : leaves act cbs before_training "bp_step".
Hypothesis Le2 : leaves act cbs anytime "bp_samples".
Hypothesis Gi : gives next size.

Lemma replay_total : total (replay keeps) cbs anytime.
Proof. intros c ph x st w Ic _. unfold replay. destruct w as [|r rest]; cbn; [eauto|]. destruct (keeps ph c r) eqn:K; [|eauto]. destruct r; [eauto|discriminate]. Qed.
Lemma replay_samples : leaves (replay (O := O) keeps) cbs anytime "bp_samples".
Proof.
  intros c ph x st w u Ic _ H. unfold replay in H. destruct w as [|r rest]; cbn in H; [injection H as <-; auto|].
  destruct (keeps ph c r) eqn:K; [|injection H as <-; auto]. subst r. cbn [keeps] in K. apply andb_prop in K as [K _]. intros I. apply existsb_key in I. rewrite I in K. discriminate.
Qed.
Lemma replay_step : leaves (replay (O := O) keeps) cbs before_training "bp_step".
Proof.
  intros c ph x st w u Ic Hp H. unfold replay in H. destruct w as [|r rest]; cbn in H; [injection H as <-; auto|].
  destruct (keeps ph c r) eqn:K; [|injection H as <-; auto]. subst r. cbn [keeps] in K. apply andb_prop in K as [_ K]. intros I. apply existsb_key in I.
  destruct Hp as [-> | ->]; rewrite I in K; discriminate.
Qed.
Lemma act_kept ph c x st r : In c cbs -> cb_id c <> id -> (exists w, snd (with_terminator id act c ph x st w) = r) -> keeps ph c r = true.
Proof.
  intros Ic Ni [w Hw]. unfold with_terminator in Hw. destruct (Nat.eqb_spec (cb_id c) id); [contradiction|].
  destruct (@To c ph x st w Ic I) as [u Hu]. rewrite Hu in Hw. subst r. cbn [keeps].
  destruct (existsb (String.eqb "bp_samples") (dkeys u)) eqn:E1; [apply existsb_key in E1; exfalso; eapply Le2; eauto; exact I|]. cbn [negb andb].
  destruct ph; auto; (destruct (existsb (String.eqb "bp_step") (dkeys u)) eqn:E2; [apply existsb_key in E2; exfalso; eapply Le1; [exact Ic| |exact Hu|exact E2]; unfold before_training; auto|auto]).
Qed.

Lemma items_fine cs : forall fuel k s, Forall (countable size) (items_of (with_terminator id act) next size cs fuel k s) /\
  Forall runs_on (items_of (with_terminator id act) next size cs fuel k s).
Proof.
  induction fuel as [|fuel IH]; intros k s; cbn [items_of]; [split; constructor|].
  destruct (Gi (wd_world s)) as (w' & b & m & E & N1 & N2 & N3). rewrite E.
  destruct (one_step (with_terminator id act) size cs k _ _) as [s1 [u|e]]; [destruct (IH (k + 1) s1)|]; (split; constructor; auto);
    try (exists m; intros b' Hb; cbn in Hb; injection Hb as <-; auto); try (split; cbn; eauto).
Qed.
Lemma loop_uses cs : forall fuel k s s' r ends, live_loop (with_terminator id act) next size cs fuel k s = (s', r, ends) ->
  ends = false /\ (forall u, r = Ok u -> List.length (items_of (with_terminator id act) next size cs fuel k s) = fuel)
  /\ (List.length (items_of (with_terminator id act) next size cs fuel k s) <= fuel)%nat.
Proof.
  induction fuel as [|fuel IH]; intros k s s' r ends H; cbn [live_loop items_of] in *; [injection H as <- <- <-; auto|].
  destruct (Gi (wd_world s)) as (w' & b & m & E & _). rewrite E in H |- *.
  destruct (one_step (with_terminator id act) size cs k _ _) as [s1 [u|e]].
  - destruct (IH _ _ _ _ _ H) as (A & B & C). split; auto. cbn [List.length]. split; [intros u0 Hu; f_equal; eauto|lia].
  - injection H as <- <- <-. split; auto. split; [discriminate|cbn; lia].
Qed.

Lemma live_terminates fuel st0 w : exists s out, live_train (with_terminator id act) next size cbs fuel st0 w = (s, out) /\
  (n <= Z.of_nat fuel -> out = Returned /\ Z.of_nat (List.length (batches (wd_trace s))) = n
    /\ (forall c, In c cbs -> Z.of_nat (count PBackward (cb_id c) (calls (wd_trace s))) = n)) /\
  (Z.of_nat fuel < n -> out = Running).
Proof.
  destruct (live_train (with_terminator id act) next size cbs fuel st0 w) as [s out] eqn:H. exists s, out. split; auto.
  destruct (@live_replay O W act id keeps cbs next size fuel st0 w s out H) as [Au Rp].
  destruct Rp as (d & Et & Hd). { intros ph c x st r I Ni. destruct (Au _ _ _ _ _ I) as [Ic Hw]. eapply act_kept; eauto. }
  assert (Pn : 0 < n). { unfold terminator in Te. destruct (Z.ltb_spec 0 n); [auto|discriminate]. }
  assert (Cn : Forall (countable size) (da_items d) /\ Forall runs_on (da_items d) /\ da_ends d = false).
  { destruct Hd as [[-> _]|(k & s1 & s2 & r & ends & El & -> & _)]; cbn; [repeat split; constructor|].
    destruct (loop_uses El) as (-> & _). destruct (items_fine (sort_cbs cbs) fuel k s1). auto. }
  destruct Cn as (Cn & Ro & En).
  destruct (Z_lt_le_dec (Z.of_nat (List.length (da_items d))) n) as [Lt|Ge].
  - destruct (@keeps_running O _ (replay keeps) id n t size cbs d st0 (recorded id (wd_trace s)) Te It ND replay_total replay_step replay_samples Cn Ro En Lt) as [s' Es'].
    assert (Eo : out = Running). { pose proof (eq_trans (eq_sym Et) Es') as Q. injection Q as _ Q. exact Q. }
    split; auto. intros Hf. exfalso. destruct Hd as [[_ Nr]|(k & s1 & s2 & r & ends & El & -> & Nr)]; [auto|]. cbn [da_items] in Lt.
    destruct (loop_uses El) as (_ & U & _). destruct r as [u|e]; [rewrite (U u eq_refl) in Lt; lia|eapply Nr; eauto].
  - destruct (@terminates O _ (replay keeps) id n t size cbs d st0 (recorded id (wd_trace s)) Te It ND replay_total replay_step replay_samples Cn Ro Ge) as (s' & Es' & B1 & B2).
    pose proof (eq_trans (eq_sym Et) Es') as Q. injection Q as <- <-. cbn [wd_trace] in *. split; auto.
    intros Hf. exfalso. destruct Hd as [[-> _]|(k & s1 & s2 & r & ends & El & -> & _)]; cbn [da_items List.length] in Ge; [lia|].
    destruct (loop_uses El) as (_ & _ & U). lia.
Qed.
End Term.
