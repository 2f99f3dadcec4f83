(** * DynProofs: the loss of a dynamics model is the mean squared error of its predictions *)
From Coq Require Import Reals Lra Lia.
From Verif Require Import Py NumModel AlgoModel AlgoSpec AlgoProofs AlgoMore AmpModel PolModel EnsModel DynModel DynSpec.
Open Scope list_scope.
Open Scope R_scope.
Set Implicit Arguments.

Lemma numbers_some row : numbers (map Some row) = Some row.
Proof. induction row as [|x t IH]; simpl; auto. rewrite IH. reflexivity. Qed.
Lemma number_rows_finite rows : number_rows (finite rows) = Some rows.
Proof. induction rows as [|x t IH]; simpl; auto. rewrite numbers_some. fold (finite t). rewrite IH. reflexivity. Qed.

Lemma fin_some d mean : fin d mean -> exists mu, mean = map Some mu /\ List.length mu = d.
Proof.
  intros [L F]. revert d L. induction F as [|v t [x ->] F IH]; intros d L; simpl in L.
  - exists []. auto.
  - destruct (IH (List.length t)) as [mu [-> Lm]]; auto. exists (x :: mu). rewrite map_length in *. simpl. auto.
Qed.
Lemma low_some d std : low d std -> exists sd, std = map Some sd /\ List.length sd = d /\ Forall (fun u => 0 < u) sd.
Proof.
  intros [L F]. revert d L. induction F as [|v t [x [-> Hx]] F IH]; intros d L; simpl in L.
  - exists []. auto.
  - destruct (IH (List.length t)) as [mu [-> [Lm Fm]]]; auto. exists (x :: mu). rewrite map_length in *. simpl. split; auto. split; auto.
    constructor; auto. pose proof nm_eps_pos. lra.
Qed.

(** Normalized and denormalized rows, as numbers *)
Fixpoint scaled (mu sd row : list R) : list R :=
  match mu, sd, row with m :: ms, s :: ss, x :: t => (x - m) / s :: scaled ms ss t | _, _, _ => [] end.
Fixpoint unscaled (mu sd row : list R) : list R :=
  match mu, sd, row with m :: ms, s :: ss, x :: t => s * x + m :: unscaled ms ss t | _, _, _ => [] end.
Lemma unscaled_length mu : forall sd row, List.length sd = List.length mu -> List.length row = List.length mu ->
  List.length (unscaled mu sd row) = List.length mu.
Proof. induction mu as [|m ms IH]; intros [|s ss] [|x t] L1 L2; simpl in *; try lia. rewrite IH; lia. Qed.
Lemma scaled_length mu : forall sd row, List.length sd = List.length mu -> List.length row = List.length mu ->
  List.length (scaled mu sd row) = List.length mu.
Proof. induction mu as [|m ms IH]; intros [|s ss] [|x t] L1 L2; simpl in *; try lia. rewrite IH; lia. Qed.
Lemma scale_row mu sd row : List.length sd = List.length mu -> List.length row = List.length mu -> Forall (fun u => 0 < u) sd ->
  rbind (rowop vsub (map Some row) (map Some mu)) (fun d => rowop vdiv d (map Some sd)) = Ok (map Some (scaled mu sd row)).
Proof.
  intros L1 L2 F. unfold rowop. rewrite !map_length, L2, Nat.eqb_refl. cbn [rbind].
  rewrite map2_length by (rewrite !map_length; lia). rewrite !map_length, L2, L1, Nat.eqb_refl. f_equal.
  revert sd row L1 L2 F. induction mu as [|m ms IH]; intros [|s ss] [|x t] L1 L2 F; simpl in *; try lia; auto.
  inversion F; subst. rewrite IH by (auto; lia). destruct (Req_EM_T s 0) as [Q|Q]; [lra|]. reflexivity.
Qed.
Lemma unscale_row mu sd row : List.length sd = List.length mu -> List.length row = List.length mu ->
  rbind (rowop vmul (map Some sd) (map Some row)) (fun d => rowop vadd d (map Some mu)) = Ok (map Some (unscaled mu sd row)).
Proof.
  intros L1 L2. unfold rowop. rewrite !map_length, L2, L1, Nat.eqb_refl. cbn [rbind].
  rewrite map2_length by (rewrite !map_length; lia). rewrite !map_length, L1, Nat.eqb_refl. f_equal.
  revert sd row L1 L2. induction mu as [|m ms IH]; intros [|s ss] [|x t] L1 L2; simpl in *; try lia; auto.
  rewrite IH by lia. reflexivity.
Qed.
Lemma normalize_real s mu sd rows : nm_stats s = Some (map Some mu, map Some sd) -> List.length sd = List.length mu ->
  Forall (fun u => 0 < u) sd -> wide (List.length mu) rows ->
  normalize s (finite rows) = Ok (finite (map (scaled mu sd) rows)).
Proof.
  intros E L F W. unfold normalize. rewrite E. induction W as [|r t Hr W IH]; [reflexivity|].
  simpl. rewrite scale_row by auto. simpl. fold (finite t). rewrite IH. reflexivity.
Qed.
Lemma denormalize_real s mu sd rows : nm_stats s = Some (map Some mu, map Some sd) -> List.length sd = List.length mu ->
  wide (List.length mu) rows ->
  denormalize s (finite rows) = Ok (finite (map (unscaled mu sd) rows)).
Proof.
  intros E L W. unfold denormalize. rewrite E. induction W as [|r t Hr W IH]; [reflexivity|].
  simpl. rewrite unscale_row by auto. simpl. fold (finite t). rewrite IH. reflexivity.
Qed.

(** ** One row *)
Fixpoint moved (a d t : list R) : list R :=
  match a, d, t with x :: a', y :: d', z :: t' => x + (y - z) :: moved a' d' t' | _, _, _ => [] end.
Lemma moved_nth a : forall d t i x y z, nth_error a i = Some x -> nth_error d i = Some y -> nth_error t i = Some z ->
  nth_error (moved a d t) i = Some (x + (y - z)).
Proof. induction a as [|w a IH]; intros [|v d] [|u t] [|i] x y z Ea Ed Et; simpl in *; try discriminate; [congruence|eauto]. Qed.
Lemma moved_length a : forall d t, List.length d = List.length a -> List.length t = List.length a -> List.length (moved a d t) = List.length a.
Proof. induction a as [|w a IH]; intros [|v d] [|u t] L1 L2; simpl in *; try lia. rewrite IH; lia. Qed.
Lemma moved_app a : forall d t a2 d2 t2, List.length d = List.length a -> List.length t = List.length a ->
  moved (a ++ a2) (d ++ d2) (t ++ t2) = moved a d t ++ moved a2 d2 t2.
Proof. induction a as [|w a IH]; intros [|v d] [|u t] a2 d2 t2 L1 L2; simpl in *; try lia; auto. rewrite IH by lia. reflexivity. Qed.

(** The observation part *)
Lemma obs_row n dims o x d t : List.length o = n -> List.length x = n -> List.length d = n -> dims_exist n dims ->
  copy_dims dims x (map2 Rminus x o) = Ok t ->
  rbind (rowop vadd (map Some d) (map Some o)) (fun tmp => copy_dims dims (map Some d) tmp) = Ok (map Some (moved x d t)).
Proof.
  intros Lo Lx Ld D Et.
  destruct (@copy_dims_spec _ n dims x (map2 Rminus x o)) as (t' & Et' & Lt & Ht); auto. { rewrite map2_length; lia. }
  rewrite Et in Et'. injection Et' as <-.
  unfold rowop. rewrite !map_length, Ld, Lo, Nat.eqb_refl. cbn [rbind].
  destruct (@copy_dims_spec _ n dims (map Some d) (map2 vadd (map Some d) (map Some o))) as (out & Eo & Lout & Ho); auto.
  { rewrite map_length. auto. } { rewrite map2_length; rewrite !map_length; lia. }
  rewrite Eo. f_equal. apply nth_error_ext_eq. intros i. rewrite Ho, nth_error_map, map2_nth, !nth_error_map.
  destruct (Nat.lt_ge_cases i n) as [Hi|Hi].
  - destruct (nth_error x i) as [xi|] eqn:Ex; [|apply nth_error_None in Ex; lia].
    destruct (nth_error d i) as [di|] eqn:Ed; [|apply nth_error_None in Ed; lia].
    destruct (nth_error o i) as [oi|] eqn:Eoi; [|apply nth_error_None in Eoi; lia].
    destruct (nth_error t i) as [ti|] eqn:Eti; [|apply nth_error_None in Eti; lia].
    rewrite (moved_nth _ _ _ _ Ex Ed Eti). specialize (Ht i). rewrite map2_nth, Ex, Eoi, Eti in Ht.
    destruct (hits n dims i); injection Ht as ->; cbn [option_map vadd vlift]; do 2 f_equal; simpl; try (f_equal; lra); lra.
  - replace (nth_error d i) with (@None R) by (symmetry; apply nth_error_None; lia).
    replace (nth_error (moved x d t) i) with (@None R) by (symmetry; apply nth_error_None; rewrite moved_length; lia).
    destruct (hits n dims i); reflexivity.
Qed.

Lemma sample_moves m m' n o x r t d : List.length o = n -> List.length x = n -> List.length r = 1%nat ->
  dims_exist n (dm_no_delta m) -> target_row m o x r = Ok t -> List.length d = (if dm_learned_rewards m then n + 1 else n)%nat ->
  dm_no_delta m' = dm_no_delta m -> dm_learned_rewards m' = dm_learned_rewards m ->
  exists p q, sample_row m' (map Some o) (map Some d) = Ok (map Some p, map Some q)
    /\ List.length p = n /\ List.length q = (if dm_learned_rewards m then 1 else 0)%nat
    /\ List.length t = (if dm_learned_rewards m then n + 1 else n)%nat
    /\ p ++ q = moved (x ++ if dm_learned_rewards m then r else []) d t.
Proof.
  intros Lo Lx Lr D Et Ld E1 E2. unfold target_row, rrowop in Et. rewrite Lo, Lx, Nat.eqb_refl in Et. cbn [rbind] in Et.
  destruct (copy_dims (dm_no_delta m) x (map2 Rminus x o)) as [c|e] eqn:Ec; [|discriminate]. cbn [rbind] in Et.
  assert (Lc : List.length c = n).
  { destruct (@copy_dims_spec _ n (dm_no_delta m) x (map2 Rminus x o)) as (c' & Ec' & Lc & _); auto. { rewrite map2_length; lia. } congruence. }
  unfold sample_row. rewrite E1, E2. destruct (dm_learned_rewards m).
  - injection Et as <-.
    destruct (@exists_last _ d) as [d0 [dl ->]]. { intros ->. simpl in Ld. lia. }
    rewrite app_length in Ld. simpl in Ld. assert (L0 : List.length d0 = n) by lia.
    destruct r as [|r0 [|]]; simpl in Lr; try lia.
    assert (Kl : Nat.pred (List.length (map (@Some R) (d0 ++ [dl]))) = List.length (map (@Some R) d0)).
    { rewrite !map_length, app_length. simpl. lia. }
    unfold val in *. rewrite Kl, map_app, firstn_app, skipn_app, Nat.sub_diag, firstn_all, skipn_all. cbn [firstn skipn map app]. rewrite app_nil_r.
    pose proof (@obs_row n _ o x d0 c Lo Lx L0 D Ec) as K.
    destruct (rowop vadd (map Some d0) (map Some o)) as [tmp|e] eqn:Er; [|discriminate]. unfold val in *. try rewrite Er. cbn [rbind] in *. rewrite K. cbn [rbind].
    exists (moved x d0 c), [r0 + (dl - r0)]. split; [|split; [|split; [|split]]].
    + simpl. do 3 f_equal. f_equal. lra.
    + rewrite moved_length; lia.
    + reflexivity.
    + rewrite app_length. simpl. lia.
    + rewrite moved_app by lia. reflexivity.
  - injection Et as <-. pose proof (@obs_row n _ o x d c Lo Lx Ld D Ec) as K.
    destruct (rowop vadd (map Some d) (map Some o)) as [tmp|e] eqn:Er; [|discriminate]. unfold val in *. try rewrite Er. cbn [rbind] in *. rewrite K. cbn [rbind].
    exists (moved x d c), []. split; [reflexivity|]. split; [rewrite moved_length; lia|]. split; [reflexivity|]. split; [exact Lc|].
    rewrite !app_nil_r. reflexivity.
Qed.

Lemma errors_row mu : forall sd P t a, List.length sd = List.length mu -> List.length P = List.length mu ->
  List.length t = List.length mu -> List.length a = List.length mu -> Forall (fun u => 0 < u) sd ->
  squared_errors sd (moved a (unscaled mu sd P) t) a = zip_with (fun x y => (x - y) ^ 2) P (scaled mu sd t).
Proof.
  induction mu as [|m ms IH]; intros [|s ss] [|p ps] [|z t] [|w a] L1 L2 L3 L4 F; simpl in L1, L2, L3, L4; try lia; [reflexivity|].
  inversion F; subst. cbn [squared_errors moved unscaled scaled zip_with]. f_equal.
  - f_equal. field. lra.
  - apply IH; auto; lia.
Qed.

(** ** All rows *)
Lemma sample_moves_all m m' n mu sd : dims_exist n (dm_no_delta m) ->
  dm_no_delta m' = dm_no_delta m -> dm_learned_rewards m' = dm_learned_rewards m ->
  List.length mu = (if dm_learned_rewards m then n + 1 else n)%nat -> List.length sd = List.length mu -> Forall (fun u => 0 < u) sd ->
  forall obs next reward ts P, targets m obs next reward = Ok ts -> wide n obs -> wide n next -> wide 1 reward ->
  wide (List.length mu) P -> List.length P = List.length obs ->
  exists preds, try_map2 (sample_row m') (finite obs) (finite (map (unscaled mu sd) P)) = Ok (returns preds)
    /\ sizes (dm_learned_rewards m) (List.length obs) n preds
    /\ all_errors sd (joined preds) (happened (dm_learned_rewards m) next reward)
       = concat (zip_rows (fun x y => (x - y) ^ 2) P (map (scaled mu sd) ts)).
Proof.
  intros D E1 E2 Lmu Lsd F. induction obs as [|o obs IH]; intros [|x next] [|r reward] ts P Et Wo Wn Wr WP LP; simpl in Et, LP; try discriminate.
  - injection Et as <-. destruct P; [|discriminate]. exists []. split; [reflexivity|]. split; [split; auto|reflexivity].
  - destruct P as [|p P]; [discriminate|].
    destruct (target_row m o x r) as [t|e] eqn:Er; [|discriminate]. cbn [rbind] in Et.
    destruct (targets m obs next reward) as [ts'|e] eqn:Ets; [|discriminate]. cbn [rbind] in Et. injection Et as <-.
    inversion Wo; inversion Wn; inversion Wr; inversion WP; subst.
    destruct (@sample_moves m m' (List.length o) o x r t (unscaled mu sd p)) as (pr & q & Es & L1 & L2 & L3 & Ej); auto.
    { rewrite unscaled_length; lia. }
    destruct (IH next reward ts' P) as (preds & Ep & [Sp Fp] & Ee); auto.
    exists ((pr, q) :: preds). split; [|split].
    + simpl. rewrite Es. cbn [rbind]. fold (finite obs). fold (finite (map (unscaled mu sd) P)). rewrite Ep. reflexivity.
    + split; [simpl; lia|]. constructor; auto.
    + cbn [joined map fst snd happened all_errors zip_rows concat]. unfold joined in Ee. rewrite Ee. f_equal. rewrite Ej. apply errors_row; auto; try lia.
      rewrite app_length. destruct (dm_learned_rewards m); simpl in *; lia.
Qed.

Lemma same_shape_wide P Y d : same_shape P Y = true -> wide d Y -> wide d P /\ List.length P = List.length Y.
Proof.
  unfold same_shape. destruct (list_eq_dec _ _ _) as [E|]; [|discriminate]. intros _ W. split.
  - revert P E. induction W as [|y Y Hy W IH]; intros [|p P] E; simpl in E; try discriminate; constructor.
    + injection E as Ep _. lia.
    + apply IH. injection E. auto.
  - pose proof (f_equal (@List.length _) E) as L. rewrite !map_length in L. auto.
Qed.
Lemma scaled_wide mu sd ts : List.length sd = List.length mu -> wide (List.length mu) ts -> wide (List.length mu) (map (scaled mu sd) ts).
Proof. intros L W. induction W; simpl; constructor; auto. apply scaled_length; auto. Qed.

Lemma loss_is_error lr f dims n_obs n_action bs m b key network (observation next_observation : dict string matrix) m' loss :
  dims_exist n_obs dims -> processes n_obs f ->
  trained_on (dm_new lr f dims) bs m -> Forall (fits n_obs n_action) (bs ++ [b]) ->
  dget observation key = Some (t_obs b) -> dget next_observation key = Some (t_next b) ->
  model_loss key m network observation next_observation (t_action b) (t_reward b) = Ok (m', loss) ->
  trained_on (dm_new lr f dims) (bs ++ [b]) m' /\
  exists predicted mean units,
    AlgoModel.sample m' (det_sample network) (t_action b) (t_obs b) = Ok (returns predicted)
    /\ sizes lr (List.length (t_obs b)) n_obs predicted
    /\ nm_stats (dm_target m') = Some (mean, map Some units)
    /\ List.length units = (if lr then n_obs + 1 else n_obs)%nat /\ Forall (fun u => 0 < u) units
    /\ loss = Some (mean_of (all_errors units (joined predicted) (happened lr (t_next b) (t_reward b)))).
Proof.
  intros D Pf T F Eo En E. unfold model_loss, lookup in E. rewrite Eo, En in E. cbn [rbind] in E. unfold dynamic_loss in E.
  destruct (processes_width n_action Pf) as [d Hw]. apply Forall_app in F. destruct F as [F Fb]. apply Forall_inv in Fb.
  pose proof (trained_good D Hw T F) as G. assert (Fb' := Fb).
  destruct Fb as (L0 & L1 & L2 & L3 & W0 & W1 & W2 & W3). assert (G' := G). destruct G as (Elr & Ef & Ed & Gi & Gt).
  destruct (process_batch m (t_obs b) (t_next b) (t_action b) (t_reward b)) as [[m1 [xv yv]]|e] eqn:Epb; [|discriminate]. cbn [rbind] in E.
  assert (Tm : trained_on (dm_new lr f dims) (bs ++ [b]) m1) by (eapply trained_more; eauto).
  unfold process_batch in Epb.
  destruct (@targets_sample m n_obs (t_obs b) (t_next b) (t_reward b)) as [ts [Ets [Lts [Wts _]]]]; auto. { rewrite Ed. auto. }
  rewrite Ets in Epb. cbn [rbind] in Epb.
  destruct (@inputs_ok m (t_obs b) (t_action b)) as [xs [Exs [Lxs Vxs]]]; auto. rewrite Exs in Epb. cbn [rbind] in Epb.
  assert (Ax : ample d xs). { split; [lia|]. subst xs. eapply inputs_wide; eauto. rewrite Ef. eauto. }
  rewrite Elr in Wts. assert (At : ample (if lr then n_obs + 1 else n_obs)%nat ts) by (split; auto; lia).
  unfold normalize_update in Epb.
  destruct (update_good Gi Ax) as [ni [Eni [Gi' Ni]]]. rewrite Eni in Epb. cbn [rbind] in Epb.
  destruct (update_good Gt At) as [nt [Ent [Gt' Nt]]]. rewrite Ent in Epb.
  destruct (nm_stats ni) as [[imean istd]|] eqn:Si; [|congruence]. destruct Gi' as [_ Gi']. rewrite Si in Gi'.
  destruct (nm_stats nt) as [[tmean tstd]|] eqn:St; [|congruence]. destruct Gt' as [_ Gt']. rewrite St in Gt'.
  destruct Gi' as [Gi1 Gi2], Gt' as [Gt1 Gt2].
  destruct (fin_some Gi1) as (imu & -> & Limu), (low_some Gi2) as (isd & -> & Lisd & Fisd).
  destruct (fin_some Gt1) as (mu & -> & Lmu), (low_some Gt2) as (sd & -> & Lsd & Fsd).
  assert (Eix : normalize ni (finite xs) = Ok (finite (map (scaled imu isd) xs))).
  { apply normalize_real with (1 := Si); try lia; auto. rewrite Limu. apply Ax. }
  assert (Ety : normalize nt (finite ts) = Ok (finite (map (scaled mu sd) ts))).
  { apply normalize_real with (1 := St); try lia; auto. rewrite Lmu. apply At. }
  rewrite Eix in Epb. cbn [rbind] in Epb. rewrite Ety in Epb. cbn [rbind] in Epb. injection Epb as <- <- <-.
  rewrite !number_rows_finite in E. unfold det_loss in E.
  destruct (network (map (scaled imu isd) xs)) as [P|e] eqn:EP; [|discriminate]. cbn [rbind] in E. unfold mse in E.
  destruct (same_shape P (map (scaled mu sd) ts)) eqn:Es; [|discriminate]. cbn [rbind] in E. injection E as <- <-.
  split; [exact Tm|].
  destruct (@same_shape_wide P (map (scaled mu sd) ts) (List.length mu) Es) as [WP LP].
  { apply scaled_wide; [lia|]. rewrite Lmu. apply At. }
  rewrite map_length in LP.
  destruct (@sample_moves_all m (mkDyn (dm_learned_rewards m) (dm_process m) (dm_no_delta m) ni nt) n_obs mu sd) with
    (obs := t_obs b) (next := t_next b) (reward := t_reward b) (ts := ts) (P := P) as (preds & Ep & Sp & Ee); auto; try lia.
  { rewrite Ed. auto. } { rewrite Elr. auto. }
  exists preds, (map Some mu), sd. rewrite Elr in *.
  split; [|split; [exact Sp|split; [exact St|split; [lia|split; [exact Fsd|]]]]].
  - unfold AlgoModel.sample. cbn [dm_in dm_target].
    assert (Eg : forall m1, dm_process m1 = dm_process m -> get_model_input m1 (t_obs b) (t_action b) = Ok xs).
    { intros m1 E1. rewrite <- Exs. unfold get_model_input, model_input_row. rewrite E1. reflexivity. }
    rewrite Eg by reflexivity. cbn [rbind]. rewrite Eix. cbn [rbind].
    unfold det_sample. rewrite number_rows_finite, EP.
    rewrite (@denormalize_real nt mu sd P) by (auto; lia). cbn [rbind]. exact Ep.
  - rewrite Ee. reflexivity.
Qed.

(** ** What that says about a single number *)
Lemma squared_errors_nonneg units : forall p a, Forall (fun e => 0 <= e) (squared_errors units p a).
Proof. induction units as [|u us IH]; intros [|x p] [|y a]; simpl; auto. constructor; auto. apply pow2_ge_0. Qed.
Lemma all_errors_nonneg units p : forall a, Forall (fun e => 0 <= e) (all_errors units p a).
Proof. induction p as [|x p IH]; intros [|y a]; simpl; auto. apply Forall_app. split; auto. apply squared_errors_nonneg. Qed.
Lemma rsum_ge l : Forall (fun e => 0 <= e) l -> 0 <= rsum l /\ forall x, In x l -> x <= rsum l.
Proof.
  induction 1 as [|y l Hy F [IH1 IH2]].
  - split; [unfold rsum; simpl; lra|]. intros x [].
  - split; [unfold rsum in *; simpl; lra|]. intros x [-> |I]; [unfold rsum in *; simpl; lra|]. specialize (IH2 x I). unfold rsum in *. simpl. lra.
Qed.
Lemma squared_errors_length units : forall p a, List.length p = List.length units -> List.length a = List.length units ->
  List.length (squared_errors units p a) = List.length units.
Proof. induction units as [|u us IH]; intros [|x p] [|y a] L1 L2; simpl in *; try lia. rewrite IH; lia. Qed.
Lemma all_errors_length units p : forall a, wide (List.length units) p -> wide (List.length units) a -> List.length a = List.length p ->
  List.length (all_errors units p a) = (List.length p * List.length units)%nat.
Proof.
  induction p as [|x p IH]; intros [|y a] W1 W2 L; simpl in L; try lia; auto.
  inversion W1; inversion W2; subst. simpl. rewrite app_length, squared_errors_length, IH by (auto; lia). lia.
Qed.
Lemma squared_errors_In units : forall p a j u x y, nth_error units j = Some u -> nth_error p j = Some x -> nth_error a j = Some y ->
  In (((x - y) / u) ^ 2) (squared_errors units p a).
Proof.
  induction units as [|v us IH]; intros [|p0 p] [|a0 a] [|j] u x y E1 E2 E3; cbn [nth_error] in E1, E2, E3; try discriminate; cbn [squared_errors].
  - left. congruence.
  - right. eapply IH; eauto.
Qed.
Lemma all_errors_In units ps : forall rs i j p r u x y, nth_error ps i = Some p -> nth_error rs i = Some r ->
  nth_error units j = Some u -> nth_error p j = Some x -> nth_error r j = Some y ->
  In (((x - y) / u) ^ 2) (all_errors units ps rs).
Proof.
  induction ps as [|q ps IH]; intros [|s rs] [|i] j p r u x y E1 E2 E3 E4 E5; cbn [nth_error] in E1, E2; try discriminate; cbn [all_errors]; apply in_app_iff.
  - left. injection E1 as ->. injection E2 as ->. eapply squared_errors_In; eauto.
  - right. eapply IH; eauto.
Qed.

Lemma error_bound units ps rs i j p r u x y : wide (List.length units) ps -> wide (List.length units) rs -> List.length rs = List.length ps ->
  Forall (fun v => 0 < v) units ->
  nth_error ps i = Some p -> nth_error rs i = Some r -> nth_error units j = Some u -> nth_error p j = Some x -> nth_error r j = Some y ->
  Rabs (x - y) <= u * sqrt (mean_of (all_errors units ps rs) * INR (List.length ps * List.length units)).
Proof.
  intros W1 W2 L F E1 E2 E3 E4 E5.
  pose proof (all_errors_In _ _ _ _ _ E1 E2 E3 E4 E5) as I.
  pose proof (all_errors_length units W1 W2 L) as Ln. rewrite <- Ln.
  destruct (rsum_ge (all_errors_nonneg units ps rs)) as [_ G]. specialize (G _ I).
  assert (Hn : 0 < INR (List.length (all_errors units ps rs))).
  { apply lt_0_INR. destruct (all_errors units ps rs); [destruct I|simpl; lia]. }
  unfold mean_of. replace (rsum (all_errors units ps rs) / INR (List.length (all_errors units ps rs)) * INR (List.length (all_errors units ps rs)))
    with (rsum (all_errors units ps rs)) by (field; lra).
  assert (Hu : 0 < u). { rewrite Forall_forall in F. apply F. eapply nth_error_In; eauto. }
  apply Rmult_le_reg_l with (/ u); [apply Rinv_0_lt_compat; auto|]. rewrite <- Rmult_assoc, Rinv_l, Rmult_1_l by lra.
  assert (K : / u * Rabs (x - y) = Rabs ((x - y) / u)).
  { unfold Rdiv. rewrite Rabs_mult, (Rabs_pos_eq (/ u)); [ring|]. apply Rlt_le, Rinv_0_lt_compat. auto. }
  rewrite K, <- sqrt_Rsqr_abs. apply sqrt_le_1_alt. unfold Rsqr. simpl in G. lra.
Qed.

Lemma joined_wide (lr : bool) n n_obs (units : list R) preds : List.length units = (if lr then n_obs + 1 else n_obs)%nat -> sizes lr n n_obs preds ->
  wide (List.length units) (joined preds) /\ List.length (joined preds) = n.
Proof.
  intros L [Ln F]. unfold joined. rewrite map_length. split; auto. clear Ln. induction F as [|[p q] t [H1 H2] F IH]; cbn [map]; constructor; auto.
  cbn [fst snd] in *. rewrite app_length, H1, H2, L. destruct lr; lia.
Qed.
Lemma happened_wide (lr : bool) n_obs d : d = (if lr then n_obs + 1 else n_obs)%nat -> forall next reward, wide n_obs next -> wide 1 reward ->
  List.length reward = List.length next -> wide d (happened lr next reward) /\ List.length (happened lr next reward) = List.length next.
Proof.
  intros L. induction next as [|x next IH]; intros [|r reward] W1 W2 E; simpl in E; try lia; [split; [constructor|reflexivity]|].
  inversion W1; inversion W2; subst. destruct (IH reward) as [W E']; auto. cbn [happened List.length]. split; [|lia].
  constructor; auto. rewrite app_length. destruct lr; simpl; lia.
Qed.

Lemma mean_of_nonneg l : Forall (fun e => 0 <= e) l -> 0 <= mean_of l.
Proof.
  intros F. destruct (rsum_ge F) as [G _]. unfold mean_of. destruct l as [|x l]; [unfold rsum; simpl; lra|].
  apply Rmult_le_pos; auto. apply Rlt_le, Rinv_0_lt_compat. apply lt_0_INR. simpl. lia.
Qed.

Lemma loss_bounds lr f dims n_obs n_action bs m b key network (observation next_observation : dict string matrix) m' loss :
  dims_exist n_obs dims -> processes n_obs f ->
  trained_on (dm_new lr f dims) bs m -> Forall (fits n_obs n_action) (bs ++ [b]) ->
  dget observation key = Some (t_obs b) -> dget next_observation key = Some (t_next b) ->
  model_loss key m network observation next_observation (t_action b) (t_reward b) = Ok (m', loss) ->
  exists predicted mean units l,
    AlgoModel.sample m' (det_sample network) (t_action b) (t_obs b) = Ok (returns predicted)
    /\ nm_stats (dm_target m') = Some (mean, map Some units)
    /\ loss = Some l /\ 0 <= l
    /\ (l = 0 -> joined predicted = happened lr (t_next b) (t_reward b))
    /\ forall i j p r u x y,
         nth_error (joined predicted) i = Some p -> nth_error (happened lr (t_next b) (t_reward b)) i = Some r ->
         nth_error units j = Some u -> nth_error p j = Some x -> nth_error r j = Some y ->
         Rabs (x - y) <= u * sqrt (l * INR (List.length (t_obs b) * List.length units)).
Proof.
  intros D Pf T F Eo En E. pose proof (loss_is_error b key network observation next_observation D Pf T F Eo En E) as (_ & preds & mean & units & Es & Sz & St & Lu & Fu & ->).
  apply Forall_app in F. destruct F as [_ Fb]. apply Forall_inv in Fb. destruct Fb as (L0 & L1 & L2 & L3 & W0 & W1 & W2 & W3).
  destruct (joined_wide _ Lu Sz) as [Wj Lj].
  destruct (@happened_wide lr n_obs (List.length units) Lu (t_next b) (t_reward b)) as [Wh Lh]; auto; try lia.
  set (l := mean_of _). exists preds, mean, units, l. split; [exact Es|]. split; [exact St|]. split; [reflexivity|].
  assert (B : forall i j p r u x y,
         nth_error (joined preds) i = Some p -> nth_error (happened lr (t_next b) (t_reward b)) i = Some r ->
         nth_error units j = Some u -> nth_error p j = Some x -> nth_error r j = Some y ->
         Rabs (x - y) <= u * sqrt (l * INR (List.length (t_obs b) * List.length units))).
  { intros i j p r u x y E1 E2 E3 E4 E5. rewrite <- Lj. unfold l. eapply error_bound; eauto. lia. }
  split; [apply mean_of_nonneg, all_errors_nonneg|]. split; [|exact B].
  intros Z0. apply nth_error_ext_eq. intros i.
  destruct (Nat.lt_ge_cases i (List.length (joined preds))) as [Hi|Hi].
  2: { replace (nth_error (joined preds) i) with (@None (list R)) by (symmetry; apply nth_error_None; lia).
       symmetry. apply nth_error_None. lia. }
  destruct (nth_error (joined preds) i) as [p|] eqn:E1; [|apply nth_error_None in E1; lia].
  destruct (nth_error (happened lr (t_next b) (t_reward b)) i) as [r|] eqn:E2; [|apply nth_error_None in E2; lia].
  assert (Hp : List.length p = List.length units). { unfold wide in Wj. rewrite Forall_forall in Wj. apply Wj. eapply nth_error_In; eauto. }
  assert (Hr : List.length r = List.length units). { unfold wide in Wh. rewrite Forall_forall in Wh. apply Wh. eapply nth_error_In; eauto. }
  f_equal. apply nth_error_ext_eq. intros j.
  destruct (Nat.lt_ge_cases j (List.length units)) as [Hj|Hj].
  2: { replace (nth_error p j) with (@None R) by (symmetry; apply nth_error_None; lia).
       symmetry. apply nth_error_None. lia. }
  destruct (nth_error p j) as [x|] eqn:E4; [|apply nth_error_None in E4; lia].
  destruct (nth_error r j) as [y|] eqn:E5; [|apply nth_error_None in E5; lia].
  destruct (nth_error units j) as [u|] eqn:E3; [|apply nth_error_None in E3; lia].
  specialize (B _ _ _ _ _ _ _ E1 E2 E3 E4 E5). rewrite Z0, Rmult_0_l, sqrt_0, Rmult_0_r in B.
  f_equal. destruct (Req_dec (x - y) 0) as [Q|Q]; [lra|]. apply Rabs_pos_lt in Q. lra.
Qed.

(** ** The loss is computed for every batch, if the network answers every row *)
Lemma process_real lr f dims n_obs n_action bs m b :
  dims_exist n_obs dims -> processes n_obs f ->
  trained_on (dm_new lr f dims) bs m -> Forall (fits n_obs n_action) (bs ++ [b]) ->
  exists m' xs ys, process_batch m (t_obs b) (t_next b) (t_action b) (t_reward b) = Ok (m', (finite xs, finite ys))
    /\ List.length xs = List.length (t_obs b) /\ List.length ys = List.length (t_obs b)
    /\ wide (if lr then n_obs + 1 else n_obs)%nat ys.
Proof.
  intros D Pf T F. destruct (processes_width n_action Pf) as [d Hw]. apply Forall_app in F. destruct F as [F Fb]. apply Forall_inv in Fb.
  pose proof (trained_good D Hw T F) as (Elr & Ef & Ed & Gi & Gt).
  destruct Fb as (L0 & L1 & L2 & L3 & W0 & W1 & W2 & W3). unfold process_batch.
  destruct (@targets_sample m n_obs (t_obs b) (t_next b) (t_reward b)) as [ts [Ets [Lts [Wts _]]]]; auto. { rewrite Ed. auto. }
  rewrite Ets. cbn [rbind].
  destruct (@inputs_ok m (t_obs b) (t_action b)) as [xs [Exs [Lxs Vxs]]]; auto. rewrite Exs. cbn [rbind].
  assert (Ax : ample d xs). { split; [lia|]. subst xs. eapply inputs_wide; eauto. rewrite Ef. eauto. }
  rewrite Elr in Wts. assert (At : ample (if lr then n_obs + 1 else n_obs)%nat ts) by (split; auto; lia).
  unfold normalize_update.
  destruct (update_good Gi Ax) as [ni [Eni [Gi' Ni]]]. rewrite Eni. cbn [rbind].
  destruct (update_good Gt At) as [nt [Ent [Gt' Nt]]]. rewrite Ent.
  destruct (nm_stats ni) as [[imean istd]|] eqn:Si; [|congruence]. destruct Gi' as [_ Gi']. rewrite Si in Gi'.
  destruct (nm_stats nt) as [[tmean tstd]|] eqn:St; [|congruence]. destruct Gt' as [_ Gt']. rewrite St in Gt'.
  destruct Gi' as [Gi1 Gi2], Gt' as [Gt1 Gt2].
  destruct (fin_some Gi1) as (imu & -> & Limu), (low_some Gi2) as (isd & -> & Lisd & Fisd).
  destruct (fin_some Gt1) as (mu & -> & Lmu), (low_some Gt2) as (sd & -> & Lsd & Fsd).
  rewrite (@normalize_real ni imu isd xs) by (auto; try lia; rewrite Limu; apply Ax). cbn [rbind].
  rewrite (@normalize_real nt mu sd ts) by (auto; try lia; rewrite Lmu; apply At). cbn [rbind].
  do 3 eexists. split; [reflexivity|]. rewrite !map_length. split; [lia|]. split; [lia|]. rewrite <- Lmu. apply scaled_wide; [lia|]. rewrite Lmu. apply At.
Qed.

Lemma wide_same_shape d P Y : wide d P -> wide d Y -> List.length P = List.length Y -> same_shape P Y = true.
Proof.
  intros WP WY L. unfold same_shape. destruct (list_eq_dec _ _ _) as [|N]; auto. exfalso. apply N. clear N.
  revert Y WY L. induction WP as [|p P Hp WP IH]; intros [|y Y] WY L; simpl in L; try lia; auto.
  inversion WY; subst. simpl. f_equal; [lia|]. apply IH; auto.
Qed.

Lemma loss_computed lr f dims n_obs n_action bs m b key network (observation next_observation : dict string matrix) :
  dims_exist n_obs dims -> processes n_obs f ->
  trained_on (dm_new lr f dims) bs m -> Forall (fits n_obs n_action) (bs ++ [b]) ->
  dget observation key = Some (t_obs b) -> dget next_observation key = Some (t_next b) ->
  (forall x, List.length x = List.length (t_obs b) ->
     exists y, network x = Ok y /\ List.length y = List.length x /\ wide (if lr then n_obs + 1 else n_obs)%nat y) ->
  exists m' l, model_loss key m network observation next_observation (t_action b) (t_reward b) = Ok (m', Some l).
Proof.
  intros D Pf T F Eo En N. destruct (process_real _ D Pf T F) as (m' & xs & ys & Ep & Lx & Ly & Wy).
  unfold model_loss, lookup. rewrite Eo, En. cbn [rbind]. unfold dynamic_loss. rewrite Ep. cbn [rbind].
  rewrite !number_rows_finite. destruct (N xs Lx) as (y & Ey & L & W). unfold det_loss. rewrite Ey. cbn [rbind].
  unfold mse. rewrite (wide_same_shape W Wy) by lia. cbn [rbind]. eauto.
Qed.
