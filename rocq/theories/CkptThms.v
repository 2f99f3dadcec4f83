(** * CkptThms: the theorems on checkpoints and resuming (C49, C53, C54) *)
From Coq Require Import Permutation Sorted.
From Verif Require Import Py PyLemmas TrainModel TrainSpec TrainProofs TrainState TrainMain TrainMore TrainThms TrainThms2
  CkptModel CkptSpec CkptProofs CkptRun CkptMain.
Set Implicit Arguments.
Unset Strict Implicit.
Open Scope string_scope.
Open Scope list_scope.
Open Scope Z_scope.

Section T.
Context {O X D E : Type}.
Variable path_obj : string -> O.
Variable state_dict : string -> X -> D.
Variable load_state_dict : string -> D -> bool -> bool -> bool -> X -> X.
Notation cworld := (cworld O X D E).
Variable (cid lid : nat) (folder : string) (names : list string) (lo : loader_cfg).
Variable act : behaviour O cworld.
Notation act' := (with_checkpoints path_obj state_dict load_state_dict cid folder names lid lo act).

Lemma load_Ok (w w' : cworld) u : load_restore load_state_dict lo w = (w', Ok u) ->
  exists f, dget (cw_files w) (ckpt_path (lo_folder lo) (lo_index lo)) = Some f
       /\ u = if lo_hparams lo then dupdate [] (cf_training f) else [].
Proof.
  unfold load_restore. fold (ckpt_path (lo_folder lo) (lo_index lo)). intros H.
  destruct (negb _); [discriminate|].
  destruct (dget (cw_files w) _) as [f|]; [|discriminate].
  destruct (load_all _ lo (lo_names lo) (cf_callbacks f) (cw_objs w)) as [objs [v|e]]; [|discriminate].
  injection H as <- <-. eauto.
Qed.
Lemma NoDup_dupdate_nil (u : tstate O) : NoDup (dkeys (dupdate [] u)).
Proof. apply NoDup_dupdate. constructor. Qed.

Lemma act_proper items : proper act items -> proper act' items.
Proof.
  intros [P I]. split; auto. intros c ph x st w u H. unfold with_checkpoints in H.
  destruct (Nat.eqb (cb_id c) cid).
  - destruct ph; simpl in H; try (injection H as <-; constructor).
    destruct (ckpt_end_cycle path_obj state_dict folder names st w) as [w' r] eqn:A. simpl in H. subst r.
    destruct (end_cycle_cases A) as [(e & N & _)|(u' & f & Eu & _ & _ & _ & _ & _ & _ & ND & _)]; [discriminate|].
    injection Eu as <-. auto.
  - destruct (Nat.eqb (cb_id c) lid); [|eauto].
    destruct ph; simpl in H; try (injection H as <-; constructor).
    destruct (load_restore load_state_dict lo w) as [w' r] eqn:A. simpl in H. subst r.
    destruct (load_Ok A) as (f & _ & ->). destruct (lo_hparams lo); [apply NoDup_dupdate_nil|constructor].
Qed.

Lemma act_leaves cbs (phs : phase -> Prop) key :
  key <> "latest_checkpoint" -> key <> "checkpoint_index" ->
  (phs PRestore -> ~ In lid (map cb_id cbs)) ->
  leaves act cbs phs key -> leaves act' cbs phs key.
Proof.
  intros N1 N2 NL L c ph x st w u Ic Ph H. unfold with_checkpoints in H.
  destruct (Nat.eqb (cb_id c) cid).
  - destruct ph; simpl in H; try (injection H as <-; simpl; tauto).
    destruct (ckpt_end_cycle path_obj state_dict folder names st w) as [w' r] eqn:A. simpl in H. subst r.
    destruct (end_cycle_cases A) as [(e & N & _)|(u' & f & Eu & _ & _ & _ & _ & _ & _ & _ & K)]; [discriminate|].
    injection Eu as <-. auto.
  - destruct (Nat.eqb_spec (cb_id c) lid) as [El|]; [|eauto].
    destruct ph; simpl in H; try (injection H as <-; simpl; tauto).
    destruct (NL Ph). rewrite <- El. apply in_map. auto.
Qed.

Hypothesis keeps : keeps_files act [cid; lid].

Lemma act_files c ph x st (w w' : cworld) r :
  ph <> PEndCycle -> act' c ph x st w = (w', r) -> cw_files w' = cw_files w.
Proof.
  intros N H. unfold with_checkpoints in H. destruct (Nat.eqb_spec (cb_id c) cid).
  - destruct ph; try (injection H as <- <-; auto; fail). tauto.
  - destruct (Nat.eqb_spec (cb_id c) lid).
    + destruct ph; try (injection H as <- <-; auto; fail). apply (load_keeps H).
    + assert (Ni : ~ In (cb_id c) [cid; lid]) by (simpl; intuition congruence).
      destruct (keeps ph x st w Ni) as (F & _). rewrite H in F. auto.
Qed.
Lemma act_loader c ph x st (w w' : cworld) u :
  cid <> lid -> cb_id c = lid -> act' c ph x st w = (w', Ok u) -> ph = PRestore ->
  load_restore load_state_dict lo w = (w', Ok u).
Proof.
  intros N El H ->. unfold with_checkpoints in H. destruct (Nat.eqb_spec (cb_id c) cid); [congruence|].
  destruct (Nat.eqb_spec (cb_id c) lid); [auto|congruence].
Qed.

(** The phase in which checkpoints are loaded. *)
Lemma restore_sets cs key f v (s s' : world O cworld) :
  cid <> lid -> key <> "latest_checkpoint" -> key <> "checkpoint_index" ->
  NoDup (map cb_id cs) -> In lid (map cb_id cs) -> lo_hparams lo = true ->
  leaves act cs anytime key ->
  dget (cw_files (wd_world s)) (ckpt_path (lo_folder lo) (lo_index lo)) = Some f ->
  NoDup (dkeys (cf_training f)) -> dget (cf_training f) key = Some v ->
  run_phase act' PRestore None cs s = (s', Ok tt) ->
  dget (wd_state s') key = Some v.
Proof.
  intros N N1 N2 ND I Hp L Fi NDf Fv. revert s Fi. induction cs as [|c cs IH]; intros s Fi H; [destruct I|].
  cbn [map] in ND, I. inversion ND as [|? ? NI ND']; subst.
  assert (L' : leaves act cs anytime key) by (eapply leaves_incl; [|exact L]; apply incl_tl, incl_refl).
  simpl in H. destruct (act' c PRestore None (wd_state s) (wd_world s)) as [w [u|e]] eqn:A; [|discriminate].
  destruct (Nat.eq_dec (cb_id c) lid) as [El|Nl].
  - pose proof (act_loader N El A eq_refl) as Lo. destruct (load_Ok Lo) as (f' & Gf & Eu).
    rewrite Fi in Gf. injection Gf as <-. rewrite Hp in Eu.
    assert (La : leaves act' cs anytime key).
    { apply act_leaves; auto. intros _. rewrite <- El. auto. }
    rewrite (run_phase_other _ _ _ La (incl_refl cs) Logic.I H).
    simpl. rewrite dget_dupdate by (subst u; apply NoDup_dupdate_nil). subst u.
    rewrite dget_dupdate by auto. rewrite Fv. auto.
  - eapply IH; [auto|destruct I; [tauto|auto]|auto| |exact H].
    assert (Pn : PRestore <> PEndCycle) by discriminate. simpl. rewrite (act_files Pn A). auto.
Qed.

Lemma opening_loads cbs key f v st0 (w : cworld) s1 :
  cid <> lid -> key <> "latest_checkpoint" -> key <> "checkpoint_index" ->
  NoDup (map cb_id cbs) -> In lid (map cb_id cbs) -> lo_hparams lo = true ->
  leaves act cbs anytime key ->
  dget (cw_files w) (ckpt_path (lo_folder lo) (lo_index lo)) = Some f ->
  NoDup (dkeys (cf_training f)) -> dget (cf_training f) key = Some v ->
  andthen (run_phase act' PRestore None (sort_cbs cbs) (mkWorld st0 w []))
          (run_phase act' PBeginTraining None (sort_cbs cbs)) = (s1, Ok tt) ->
  dget (wd_state s1) key = Some v.
Proof.
  intros N N1 N2 ND I Hp L Fi NDf Fv H.
  destruct (run_phase act' PRestore None (sort_cbs cbs) (mkWorld st0 w [])) as [s [u|e]] eqn:R; [|discriminate].
  simpl in H. destruct u.
  assert (PM : Permutation (map cb_id cbs) (map cb_id (sort_cbs cbs))) by (apply Permutation_map, sort_perm).
  assert (L' : leaves act (sort_cbs cbs) anytime key) by (eapply leaves_incl; [|exact L]; apply sort_incl).
  assert (La : leaves act' cbs (fun ph => ph = PBeginTraining) key).
  { apply act_leaves; auto; [discriminate|]. eapply leaves_phs; [|exact L]. unfold anytime; auto. }
  rewrite (run_phase_other _ _ _ La (@sort_incl cbs) eq_refl H).
  assert (ND' : NoDup (map cb_id (sort_cbs cbs))) by (eapply Permutation_NoDup; eauto).
  assert (I' : In lid (map cb_id (sort_cbs cbs))) by (eapply Permutation_in; eauto).
  exact (@restore_sets (sort_cbs cbs) key f v (mkWorld st0 w []) s N N1 N2 ND' I' Hp L' Fi NDf Fv R).
Qed.

(** C49 *)
Lemma resume_counters size cbs d sizes st0 (w : cworld) s out a ph c x seen r b f N M :
  train act' size cbs d st0 w = (s, out) ->
  cid <> lid -> NoDup (map cb_id cbs) -> In lid (map cb_id cbs) -> lo_hparams lo = true ->
  proper act (da_items d) -> Forall2 (sized size) (da_items d) sizes ->
  size <> "bp_step" -> size <> "bp_samples" ->
  leaves act cbs anytime "bp_step" -> leaves act cbs anytime "bp_samples" ->
  dget (cw_files w) (ckpt_path (lo_folder lo) (lo_index lo)) = Some f ->
  NoDup (dkeys (cf_training f)) ->
  dget (cf_training f) "bp_step" = Some (VNum N) -> dget (cf_training f) "bp_samples" = Some (VNum M) ->
  wd_trace s = a ++ TCall ph c x seen r :: b ->
  let k := List.length (batches a) in
  (0 < k)%nat ->
  dget seen "bp_step" = Some (VNum (N + Z.of_nat k - 1))
  /\ dget seen "bp_samples" = Some (VNum (M + zsum (firstn k sizes))).
Proof.
  intros H Nc ND I Hp P Sz N1 N2 L1 L2 Fi NDf F1 F2 Et k Pk.
  eapply counters_from with (N := N) (M := M); [exact H|apply act_proper; exact P|exact Sz| | | | | |exact Et|exact Pk]; auto.
  - intros s1 A. split.
    + eapply opening_loads with (key := "bp_step"); eauto; discriminate.
    + eapply opening_loads with (key := "bp_samples"); eauto; discriminate.
  - apply act_leaves; try discriminate.
    + intros B. destruct B. left; auto.
    + eapply leaves_phs; [|exact L1]. unfold anytime; auto.
  - apply act_leaves; try discriminate.
    + intros B. destruct B. left; auto.
    + eapply leaves_phs; [|exact L2]. unfold anytime; auto.
Qed.

(** C53: a run that does not resume. *)
Lemma ckpt_steps size cbs d sizes st0 (w : cworld) s out p j :
  train act' size cbs d st0 w = (s, out) ->
  NoDup (map cb_id cbs) -> ~ In lid (map cb_id cbs) ->
  (forall c, In c cbs -> cb_id c = cid -> cb_cycle c = Some p) ->
  proper act (da_items d) -> Forall2 (sized size) (da_items d) sizes ->
  size <> "bp_step" -> size <> "bp_samples" ->
  leaves act cbs anytime "bp_step" -> leaves act cbs anytime "bp_samples" ->
  (j < List.length (saves cid (wd_trace s)))%nat ->
  let N := (Z.of_nat j + 1) * p in
  exists f, dget (cw_files (wd_world s)) (ckpt_path folder (cw_index w + Z.of_nat j)) = Some f
    /\ NoDup (dkeys (cf_training f))
    /\ dget (cf_training f) "bp_step" = Some (VNum N)
    /\ dget (cf_training f) "bp_samples" = Some (VNum (zsum (firstn (Z.to_nat N) sizes)))
    /\ dget (cf_training f) "checkpoint_index" = Some (VNum (cw_index w + Z.of_nat j)).
Proof.
  intros H ND NL Cy P Sz N1 N2 L1 L2 J N.
  destruct (nth_error (saves cid (wd_trace s)) j) as [seen|] eqn:Nj; [|apply nth_error_None in Nj; lia].
  destruct (nth_saves Nj) as (a & c & x & u & b & Et & Ec & Lj).
  destruct (train_numbered keeps H) as (_ & Nb & _). destruct (Nb _ _ Nj) as (f & G & (NDf & D1 & D2 & D3) & _).
  assert (L1' : leaves act' cbs anytime "bp_step") by (apply act_leaves; auto; discriminate).
  assert (L2' : leaves act' cbs anytime "bp_samples") by (apply act_leaves; auto; discriminate).
  assert (Lb : leaves act' cbs before_training "bp_step").
  { eapply leaves_phs; [|exact L1']. unfold anytime; auto. }
  assert (Ic : In c cbs).
  { destruct (train_shape _ _ _ _ _ _ H) as (? & ? & ? & ? & _ & _ & _ & _ & _ & _ & _ & _ & _ & Gn).
    rewrite Et in Gn. apply Forall_app in Gn. destruct Gn as [_ Gn]. inversion Gn; subst. tauto. }
  specialize (Cy _ Ic Ec).
  pose proof (end_cycle_step H ND Lb Et Cy) as Ks. rewrite Ec, Lj in Ks. fold N in Ks.
  destruct (cycle_steps H Lb Et) as [_ Q]. destruct (Q eq_refl) as (p' & q & _ & Cp' & Pp & Pq & Kq).
  destruct (counters H (act_proper P) Sz N1 N2 L1' L2' Et) as [S1 S2].
  exists f. split; auto. split; auto. rewrite D1, D2, S1, S2. split.
  - do 2 f_equal. nia.
  - split; auto. do 4 f_equal. lia.
Qed.
(** C54 *)
Lemma later_indices size cbs d st0 (w : cworld) s out N :
  train act' size cbs d st0 w = (s, out) -> N < cw_index w ->
  (forall i, i <= N -> dget (cw_files (wd_world s)) (ckpt_path folder i) = dget (cw_files w) (ckpt_path folder i))
  /\ (forall j seen, nth_error (saves cid (wd_trace s)) j = Some seen ->
        exists i f, N < i /\ dget (cw_files (wd_world s)) (ckpt_path folder i) = Some f /\ describes f i seen).
Proof.
  intros H L. destruct (train_numbered keeps H) as (_ & A & B). split.
  - intros i I. apply B. intros j _ Q. apply ckpt_path_inj in Q. lia.
  - intros j seen Nj. destruct (A _ _ Nj) as (f & G & De & _). exists (cw_index w + Z.of_nat j), f.
    split; [lia|auto].
Qed.
Lemma overwrites size cbs d st0 (w : cworld) s out seen rest :
  train act' size cbs d st0 w = (s, out) -> saves cid (wd_trace s) = seen :: rest ->
  exists f, dget (cw_files (wd_world s)) (ckpt_path folder (cw_index w)) = Some f
       /\ describes f (cw_index w) seen.
Proof.
  intros H Sv. destruct (train_numbered keeps H) as (_ & A & _).
  destruct (A 0%nat seen) as (f & G & De & _); [rewrite Sv; auto|].
  rewrite Z.add_0_r in *. eauto.
Qed.
End T.

Section U.
Context {O X D E : Type}.
Variable path_obj : string -> O.
Variable state_dict : string -> X -> D.
Variable load_state_dict : string -> D -> bool -> bool -> bool -> X -> X.
Notation cworld := (cworld O X D E).

Lemma load_own folder names ms (w w' : cworld) rs j st objs rest lo objs' (rest' : E) :
  In folder (cw_dirs w) -> Forall (ready names) ms ->
  checkpoints path_obj state_dict folder names ms w = (w', rs) ->
  nth_error ms j = Some (st, objs, rest) ->
  lo_folder lo = folder -> lo_index lo = cw_index w + Z.of_nat j ->
  NoDup (lo_names lo) -> incl (lo_names lo) names -> incl (lo_names lo) (dkeys objs') ->
  exists (w2 : cworld) (f : ckpt_file O D),
    load_restore load_state_dict lo (mkCW (cw_dirs w') (cw_files w') (cw_index w') objs' rest')
    = (w2, Ok (if lo_hparams lo then dupdate [] (cf_training f) else []))
  /\ describes f (lo_index lo) st
  /\ (forall n o0 o, In n (lo_names lo) -> dget objs n = Some o0 -> dget objs' n = Some o ->
        dget (cw_objs w2) n
        = Some (load_state_dict n (state_dict n o0) (lo_weights lo) (lo_optimizers lo) (lo_hparams lo) o))
  /\ (forall n, ~ In n (lo_names lo) -> dget (cw_objs w2) n = dget objs' n).
Proof.
  intros Fo R H Nj Lf Li ND I1 I2.
  destruct (@checkpoints_facts O X D E path_obj state_dict folder names ms w w' rs Fo R H)
    as (_ & Di & _ & A & _).
  destruct (A _ _ _ _ Nj) as (f & G & De & Ho). rewrite <- Li in *.
  destruct (@restore_own O X D E state_dict load_state_dict folder names lo objs objs' f
             (mkCW (cw_dirs w') (cw_files w') (cw_index w') objs' rest') Lf) as (w2 & L & _ & B & C); auto.
  - simpl. rewrite Di. auto.
  - exists w2, f. auto.
Qed.

(** C49: a run, and one resumed from its checkpoint [start + j]. *)
Lemma two_runs cid lid folder names lo1 lo2 (act1 act2 : behaviour O cworld)
  size cbs1 d1 sizes1 st1 (w1 : cworld) s1 out1 p j
  cbs2 d2 sizes2 st2 (w2 : cworld) s2 out2 a ph c x seen r b :
  let act1' := with_checkpoints path_obj state_dict load_state_dict cid folder names lid lo1 act1 in
  let act2' := with_checkpoints path_obj state_dict load_state_dict cid folder names lid lo2 act2 in
  cid <> lid -> size <> "bp_step" -> size <> "bp_samples" ->
  keeps_files act1 [cid; lid] -> keeps_files act2 [cid; lid] ->
  (* the first run *)
  train act1' size cbs1 d1 st1 w1 = (s1, out1) ->
  NoDup (map cb_id cbs1) -> ~ In lid (map cb_id cbs1) ->
  (forall c, In c cbs1 -> cb_id c = cid -> cb_cycle c = Some p) ->
  proper act1 (da_items d1) -> Forall2 (sized size) (da_items d1) sizes1 ->
  leaves act1 cbs1 anytime "bp_step" -> leaves act1 cbs1 anytime "bp_samples" ->
  (j < List.length (saves cid (wd_trace s1)))%nat ->
  (* the resumed run *)
  train act2' size cbs2 d2 st2 w2 = (s2, out2) ->
  cw_files w2 = cw_files (wd_world s1) ->
  lo_folder lo2 = folder -> lo_index lo2 = cw_index w1 + Z.of_nat j -> lo_hparams lo2 = true ->
  NoDup (map cb_id cbs2) -> In lid (map cb_id cbs2) ->
  proper act2 (da_items d2) -> Forall2 (sized size) (da_items d2) sizes2 ->
  leaves act2 cbs2 anytime "bp_step" -> leaves act2 cbs2 anytime "bp_samples" ->
  wd_trace s2 = a ++ TCall ph c x seen r :: b ->
  let N := (Z.of_nat j + 1) * p in
  let k := List.length (batches a) in
  (0 < k)%nat ->
  dget seen "bp_step" = Some (VNum (N + Z.of_nat k - 1))
  /\ dget seen "bp_samples" = Some (VNum (zsum (firstn (Z.to_nat N) sizes1) + zsum (firstn k sizes2))).
Proof.
  intros act1' act2' Nc Z1 Z2 K1 K2 H1 ND1 NL Cy P1 S1 L1 L1' J H2 Fs Lf Li Hp ND2 I2 P2 S2 L2 L2' Et N k Pk.
  destruct (ckpt_steps K1 H1 ND1 NL Cy P1 S1 Z1 Z2 L1 L1' J) as (f & G & NDf & F1 & F2 & _).
  eapply resume_counters with (lo := lo2); eauto.
  rewrite Fs, Lf, Li. auto.
Qed.
End U.
