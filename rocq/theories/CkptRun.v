(** * CkptRun: checkpoints of one Checkpointer (C53), checkpoints in training *)
From Coq Require Import Permutation Sorted.
From Verif Require Import Py PyLemmas TrainModel TrainSpec TrainProofs TrainState TrainMain TrainMore TrainThms TrainThms2
  CkptModel CkptSpec CkptProofs.
Set Implicit Arguments.
Unset Strict Implicit.
Open Scope string_scope.
Open Scope list_scope.
Open Scope Z_scope.

Section Run.
Context {O X D E : Type}.
Variable path_obj : string -> O.
Variable state_dict : string -> X -> D.
Variable load_state_dict : string -> D -> bool -> bool -> bool -> X -> X.
Notation cworld := (cworld O X D E).
Notation end_cycle := (@ckpt_end_cycle O X D E path_obj state_dict).

Lemma save_all_facts names objs acc cbs :
  save_all state_dict names objs acc = Ok cbs ->
  (forall n, In n names -> exists o, dget objs n = Some o /\ dget cbs n = Some (state_dict n o))
  /\ (forall n, ~ In n names -> dget cbs n = dget acc n).
Proof.
  clear path_obj load_state_dict. revert acc. induction names as [|m r IH]; simpl; intros acc H.
  - injection H as <-. split; [tauto|auto].
  - destruct (dget objs m) as [o|] eqn:G; [|discriminate]. destruct (IH _ H) as [A B]. split.
    + intros n [->|I]; [|auto]. destruct (in_dec string_dec n r) as [J|J]; [auto|].
      exists o. split; auto. rewrite (B _ J). apply dget_dset_eq.
    + intros n N. rewrite B by tauto. apply dget_dset_neq. tauto.
Qed.
Lemma save_all_ok names objs acc :
  incl names (dkeys objs) -> exists cbs, save_all state_dict names objs acc = Ok cbs.
Proof.
  clear path_obj load_state_dict. revert acc. induction names as [|m r IH]; simpl; intros acc I; [eauto|].
  assert (M : In m (dkeys objs)) by (apply I; left; auto).
  apply dmem_In in M. unfold dmem in M. destruct (dget objs m); [|discriminate].
  apply IH. eapply incl_cons_inv; eauto.
Qed.

Notation holds := (@holds O X D state_dict).

Lemma end_cycle_cases folder names st (w w' : cworld) r :
  end_cycle folder names st w = (w', r) ->
  (exists e, r = Err e /\ w' = w)
  \/ (exists u f, r = Ok u /\ cw_files w' = dset (cw_files w) (ckpt_path folder (cw_index w)) f
       /\ cw_index w' = cw_index w + 1 /\ cw_dirs w' = cw_dirs w /\ cw_objs w' = cw_objs w
       /\ describes f (cw_index w) st /\ holds names (cw_objs w) f
       /\ NoDup (dkeys u) /\ (forall key, key <> "latest_checkpoint" -> key <> "checkpoint_index" -> ~ In key (dkeys u))).
Proof.
  clear load_state_dict. unfold ckpt_end_cycle. intros H.
  destruct (dget st "bp_step") as [a|] eqn:A; [|injection H as <- <-; eauto].
  destruct (dget st "bp_samples") as [b|] eqn:B; [|injection H as <- <-; eauto].
  destruct (save_all state_dict names (cw_objs w) []) as [cbs|e] eqn:S; [|injection H as <- <-; eauto].
  destruct (inb folder (cw_dirs w)); simpl in H; injection H as <- <-; [|eauto].
  right. eexists. eexists. repeat split; try reflexivity; simpl.
  - repeat constructor; simpl; intuition discriminate.
  - auto.
  - auto.
  - apply save_all_facts in S. apply S.
  - apply save_all_facts in S. destruct S as [_ S]. intros n N. rewrite (S _ N). auto.
  - repeat constructor; simpl; intuition discriminate.
  - intuition congruence.
Qed.

Lemma end_cycle_ready folder names st objs rest (w : cworld) :
  ready names (st, objs, rest) -> In folder (cw_dirs w) ->
  exists w' u, end_cycle folder names st (mkCW (cw_dirs w) (cw_files w) (cw_index w) objs rest) = (w', Ok u).
Proof.
  clear load_state_dict. intros (A & B & C) F. unfold ckpt_end_cycle.
  apply dmem_In in A. unfold dmem in A. destruct (dget st "bp_step"); [|discriminate].
  apply dmem_In in B. unfold dmem in B. destruct (dget st "bp_samples"); [|discriminate].
  simpl. destruct (save_all_ok [] C) as [cbs ->]. apply inb_In in F. rewrite F. simpl. eauto.
Qed.

(** C53: a sequence of checkpoints. *)
Lemma checkpoints_facts folder names ms (w w' : cworld) rs :
  In folder (cw_dirs w) -> Forall (ready names) ms ->
  checkpoints path_obj state_dict folder names ms w = (w', rs) ->
  Forall (fun r => exists u, r = Ok u) rs
  /\ cw_dirs w' = cw_dirs w
  /\ cw_index w' = cw_index w + Z.of_nat (List.length ms)
  /\ (forall j st objs rest, nth_error ms j = Some (st, objs, rest) ->
        exists f, dget (cw_files w') (ckpt_path folder (cw_index w + Z.of_nat j)) = Some f
             /\ describes f (cw_index w + Z.of_nat j) st /\ holds names objs f)
  /\ (forall p, (forall j, (j < List.length ms)%nat -> p <> ckpt_path folder (cw_index w + Z.of_nat j)) ->
        dget (cw_files w') p = dget (cw_files w) p).
Proof.
  clear load_state_dict. intros F R. revert w w' rs F. induction R as [|[[st objs] rest] ms Rm R IH]; intros w w' rs F H; simpl in H.
  - injection H as <- <-. repeat split; auto.
    + simpl. lia.
    + intros [|]; discriminate.
  - destruct (end_cycle_ready Rm F) as (w1 & u & E1). rewrite E1 in H.
    destruct (checkpoints path_obj state_dict folder names ms w1) as [w2 r2] eqn:C2. injection H as <- <-.
    destruct (end_cycle_cases E1) as [(e & N & _)|(u' & f & Eu & Fi & Ix & Di & Ob & De & Ho & _)]; [discriminate|].
    simpl in Fi, Ix, Di, Ob, De, Ho.
    assert (F1 : In folder (cw_dirs w1)) by (rewrite Di; auto).
    destruct (IH _ _ _ F1 C2) as (A1 & A2 & A3 & A4 & A5). repeat split.
    + constructor; eauto.
    + congruence.
    + rewrite A3, Ix. simpl List.length. lia.
    + intros [|j] st' objs' rest' N; simpl in N.
      * injection N as <- <- <-. exists f. rewrite Z.add_0_r. split; [|auto].
        rewrite A5.
        -- rewrite Fi. apply dget_dset_eq.
        -- intros j _ Q. apply ckpt_path_inj in Q. lia.
      * replace (cw_index w + Z.of_nat (S j)) with (cw_index w1 + Z.of_nat j) by lia. eauto.
    + intros p N. rewrite A5.
      * rewrite Fi. apply dget_dset_neq. specialize (N 0%nat). rewrite Z.add_0_r in N. intros Q.
        apply N; [simpl; lia|auto].
      * intros j J Q. apply (N (S j)); [simpl; lia|]. rewrite Q. f_equal. lia.
Qed.

(** Loading. *)
Lemma load_all_facts lo names saved objs :
  NoDup names -> (forall n, In n names -> exists d o, dget saved n = Some d /\ dget objs n = Some o) ->
  exists objs', load_all load_state_dict lo names saved objs = (objs', Ok tt)
  /\ (forall n d o, In n names -> dget saved n = Some d -> dget objs n = Some o ->
        dget objs' n = Some (load_state_dict n d (lo_weights lo) (lo_optimizers lo) (lo_hparams lo) o))
  /\ (forall n, ~ In n names -> dget objs' n = dget objs n).
Proof.
  clear path_obj state_dict. intros ND. revert objs. induction ND as [|m r NI ND IH]; simpl; intros objs H.
  - exists objs. repeat split; auto. tauto.
  - destruct (H m) as (d & o & Sd & So); [auto|]. rewrite Sd, So.
    destruct (IH (dset objs m (load_state_dict m d (lo_weights lo) (lo_optimizers lo) (lo_hparams lo) o)))
      as (objs' & L & A & B).
    { intros n I. destruct (H n) as (d' & o' & S1 & S2); [auto|]. exists d', o'. split; auto.
      rewrite dget_dset_neq; auto. intros ->. auto. }
    exists objs'. split; auto. split.
    + intros n d' o' [->|I] S1 S2.
      * rewrite B by auto. rewrite dget_dset_eq. congruence.
      * apply A; auto. rewrite dget_dset_neq; auto. intros ->. auto.
    + intros n N. rewrite B by tauto. apply dget_dset_neq. tauto.
Qed.

Lemma restore_own folder names lo objs0 objs f (w : cworld) :
  lo_folder lo = folder -> In folder (cw_dirs w) ->
  dget (cw_files w) (ckpt_path folder (lo_index lo)) = Some f ->
  holds names objs0 f -> NoDup (lo_names lo) -> incl (lo_names lo) names -> incl (lo_names lo) (dkeys objs) ->
  cw_objs w = objs ->
  exists w', load_restore load_state_dict lo w = (w', Ok (if lo_hparams lo then dupdate [] (cf_training f) else []))
  /\ cw_files w' = cw_files w
  /\ (forall n o0 o, In n (lo_names lo) -> dget objs0 n = Some o0 -> dget objs n = Some o ->
        dget (cw_objs w') n
        = Some (load_state_dict n (state_dict n o0) (lo_weights lo) (lo_optimizers lo) (lo_hparams lo) o))
  /\ (forall n, ~ In n (lo_names lo) -> dget (cw_objs w') n = dget objs n).
Proof.
  clear path_obj. intros <- Fo Ge [Ha _] ND In1 In2 <-. unfold load_restore.
  apply inb_In in Fo. rewrite Fo. simpl. fold (ckpt_path (lo_folder lo) (lo_index lo)). rewrite Ge.
  destruct (@load_all_facts lo (lo_names lo) (cf_callbacks f) (cw_objs w) ND) as (objs' & L & A & B).
  { intros n I. destruct (Ha n (In1 _ I)) as (o & _ & S1). specialize (In2 _ I).
    apply dmem_In in In2. unfold dmem in In2. destruct (dget (cw_objs w) n); [|discriminate]. eauto. }
  rewrite L. eexists. split; [reflexivity|]. simpl. repeat split; auto.
  intros n o0 o I S0 S1. destruct (Ha n (In1 _ I)) as (o1 & S2 & S3).
  rewrite S0 in S2. injection S2 as <-. eauto.
Qed.

(** ** In training *)
Variable (cid lid : nat) (folder : string) (names : list string) (lo : loader_cfg).
Variable act : behaviour O cworld.
Notation act' := (with_checkpoints path_obj state_dict load_state_dict cid folder names lid lo act).
Hypothesis keeps : keeps_files act [cid; lid].

Lemma load_keeps (w w' : cworld) r : load_restore load_state_dict lo w = (w', r) ->
  cw_files w' = cw_files w /\ cw_index w' = cw_index w /\ cw_dirs w' = cw_dirs w.
Proof.
  unfold load_restore. intros H. destruct (negb _); [injection H as <- <-; auto|].
  destruct (dget (cw_files w) _) as [f|]; [|injection H as <- <-; auto].
  destruct (load_all _ lo (lo_names lo) (cf_callbacks f) (cw_objs w)) as [objs [u|e]]; injection H as <- <-; auto.
Qed.

Definition numbered (start : Z) (files0 : dict string (ckpt_file O D)) (s : world O cworld) : Prop :=
  let ss := saves cid (wd_trace s) in
  let files := cw_files (wd_world s) in
  cw_index (wd_world s) = start + Z.of_nat (List.length ss)
  /\ (forall j seen, nth_error ss j = Some seen ->
        exists f, dget files (ckpt_path folder (start + Z.of_nat j)) = Some f
             /\ describes f (start + Z.of_nat j) seen
             /\ (forall n, In n names <-> dget (cf_callbacks f) n <> None))
  /\ (forall p, (forall j, (j < List.length ss)%nat -> p <> ckpt_path folder (start + Z.of_nat j)) ->
        dget files p = dget files0 p).

Lemma saves_app (a b : list (entry O)) : saves cid (a ++ b) = saves cid a ++ saves cid b.
Proof. unfold saves. apply flat_map_app. Qed.

Lemma numbered_same start files0 s st w tr :
  numbered start files0 s -> cw_files w = cw_files (wd_world s) -> cw_index w = cw_index (wd_world s) ->
  saves cid tr = [] -> numbered start files0 (mkWorld st w (wd_trace s ++ tr)).
Proof.
  unfold numbered. simpl. intros (A & B & C) F I S. rewrite saves_app, S, app_nil_r, F, I. auto.
Qed.

Lemma act_numbered start files0 ph c x s w r :
  act' c ph x (wd_state s) (wd_world s) = (w, r) -> numbered start files0 s ->
  numbered start files0
    (mkWorld (match r with Ok u => dupdate (wd_state s) u | Err _ => wd_state s end) w
       (wd_trace s ++ [TCall ph c x (wd_state s) r])).
Proof.
  unfold with_checkpoints. intros A N. destruct (Nat.eqb_spec (cb_id c) cid) as [Ec|Nc].
  - destruct (Nat.eqb (cb_id c) cid) eqn:Eb; [|apply Nat.eqb_neq in Eb; tauto].
    destruct ph; try (injection A as <- <-; apply numbered_same; auto; fail).
    destruct (end_cycle_cases A) as [(e & -> & ->)|(u & f & -> & Fi & Ix & _ & _ & De & Ho & _)].
    + apply numbered_same; auto.
    + destruct N as (N1 & N2 & N3). unfold numbered. simpl. rewrite saves_app. simpl. rewrite Eb.
      rewrite app_length. simpl. split; [lia|]. rewrite Fi. rewrite N1 in *.
      set (m := List.length (saves cid (wd_trace s))) in *. split.
      * intros j seen J. destruct (Nat.lt_ge_cases j m) as [L|L].
        -- rewrite nth_error_app1 in J by auto. destruct (N2 _ _ J) as (f0 & G & De' & K). exists f0.
           split; [|auto]. rewrite dget_dset_neq; auto. intros Q. apply ckpt_path_inj in Q. lia.
        -- rewrite nth_error_app2 in J by auto. fold m in J.
           destruct (j - m)%nat as [|[|]] eqn:Jm; simpl in J; try discriminate. injection J as <-.
           replace j with m by lia. exists f. rewrite dget_dset_eq. split; auto. split; auto.
           intros n. destruct Ho as [H1 H2]. split; intros I.
           ++ destruct (H1 _ I) as (o & _ & ->). discriminate.
           ++ destruct (in_dec string_dec n names); auto. destruct I. auto.
      * intros p Hp. rewrite dget_dset_neq.
        -- apply N3. intros j J. apply Hp. lia.
        -- intros Q. apply (Hp m); [lia|]. auto.
  - assert (Sv : forall y, saves cid [TCall ph c x (wd_state s) y] = []).
    { intros y. simpl. destruct ph; auto. destruct y; auto. apply Nat.eqb_neq in Nc. rewrite Nc. auto. }
    destruct (Nat.eqb_spec (cb_id c) lid) as [El|Nl].
    + destruct ph; try (injection A as <- <-; apply numbered_same; auto; fail).
      destruct (load_keeps A) as (F & I & _). apply numbered_same; auto.
    + assert (Ni : ~ In (cb_id c) [cid; lid]) by (simpl; intuition congruence).
      destruct (keeps ph x (wd_state s) (wd_world s) Ni) as (F & I & _). rewrite A in F, I. simpl in F, I.
      apply numbered_same; auto.
Qed.

Lemma train_numbered size cbs d st0 w s out :
  train act' size cbs d st0 w = (s, out) -> numbered (cw_index w) (cw_files w) s.
Proof.
  intros H. eapply train_inv with (P := numbered (cw_index w) (cw_files w)); [| |exact H|].
  - intros. apply act_numbered; auto.
  - intros sz k b st s' _ N. apply numbered_same; auto.
  - unfold numbered. simpl. split; [lia|split; [intros [|]; discriminate|auto]].
Qed.
End Run.
