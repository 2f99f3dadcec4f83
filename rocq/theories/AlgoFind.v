(** * AlgoFind: bounds of the ensemble's log variance, and counterexamples *)
From Coq Require Import Reals Lra Lia.
From Verif Require Import Py NumModel NumProofs AlgoModel AlgoSpec AlgoProofs AlgoMore.
Open Scope list_scope.
Open Scope R_scope.
Set Implicit Arguments. Unset Strict Implicit.

Lemma softplus_pos x : 0 < softplus x.
Proof. unfold softplus. rewrite <- ln_1. apply ln_increasing; pose proof (exp_pos x); lra. Qed.
Lemma softplus_incr x y : x < y -> softplus x < softplus y.
Proof. intros H. unfold softplus. pose proof (exp_pos x). pose proof (exp_increasing x y H). apply ln_increasing; lra. Qed.
Lemma softplus_above x : softplus x < x + exp (- x).
Proof.
  unfold softplus. pose proof (exp_pos x). pose proof (exp_pos (- x)).
  assert (E : 1 + exp x = exp x * (1 + exp (- x))).
  { rewrite Rmult_plus_distr_l, <- exp_plus. replace (x + - x) with 0 by lra. rewrite exp_0. lra. }
  rewrite E, ln_mult, ln_exp by lra.
  assert (ln (1 + exp (- x)) < exp (- x)); [|lra].
  rewrite <- (ln_exp (exp (- x))) at 2. apply ln_increasing; [lra|]. apply exp_ineq1. lra.
Qed.

Lemma bound_low mn mx l : mn < bound_logvar mn mx l.
Proof. unfold bound_logvar. pose proof (softplus_pos (mx - softplus (mx - l) - mn)). lra. Qed.
Lemma bound_high mn mx l : bound_logvar mn mx l < mx + exp (- (mx - mn)).
Proof.
  unfold bound_logvar.
  assert (softplus (mx - softplus (mx - l) - mn) < softplus (mx - mn)).
  { apply softplus_incr. pose proof (softplus_pos (mx - l)). lra. }
  pose proof (softplus_above (mx - mn)). lra.
Qed.
Lemma bound_incr mn mx l l' : l < l' -> bound_logvar mn mx l < bound_logvar mn mx l'.
Proof.
  intros H. unfold bound_logvar. assert (softplus (mx - l') < softplus (mx - l)) by (apply softplus_incr; lra).
  apply Rplus_lt_compat_l, softplus_incr. lra.
Qed.

Lemma bound_exceeds mn mx : exists l, mx < bound_logvar mn mx l.
Proof.
  exists (mx + (mx - mn)). unfold bound_logvar.
  set (D := mx - mn). replace (mx - (mx + D)) with (- D) by lra.
  assert (K : D < softplus (mx - softplus (- D) - mn)); [|unfold D in *; lra].
  replace (mx - softplus (- D) - mn) with (D - softplus (- D)) by (unfold D; lra).
  unfold softplus at 1. rewrite <- (ln_exp D) at 1.
  apply ln_increasing; [apply exp_pos|].
  unfold Rminus. rewrite exp_plus, exp_Ropp. unfold softplus. pose proof (exp_pos (- D)) as P. pose proof (exp_pos D) as Q.
  rewrite exp_ln by lra.
  assert (E : exp D * exp (- D) = 1) by (rewrite <- exp_plus; replace (D + - D) with 0 by lra; apply exp_0).
  set (e := exp (- D)) in *. set (g := exp D) in *.
  assert (I : 0 < / (1 + e)) by (apply Rinv_0_lt_compat; lra).
  assert (J : (1 + e) * / (1 + e) = 1) by (apply Rinv_r; lra).
  (* g < 1 + g/(1+e): g (1+e) < 1+e+g, i.e. g e < 1 + e *)
  apply (Rmult_lt_reg_r (1 + e)); [lra|].
  replace ((1 + g * / (1 + e)) * (1 + e)) with (1 + e + g * ((1 + e) * / (1 + e))) by ring. rewrite J. lra.
Qed.

Lemma mean_bounds_strict l lo hi : l <> [] -> Forall (fun x => lo < x < hi) l -> lo < np_mean l < hi.
Proof.
  intros N F. unfold np_mean. assert (P : 0 < INR (List.length l)).
  { apply lt_0_INR. destruct l; [congruence|simpl; lia]. }
  assert (B : INR (List.length l) * lo < rsum l < INR (List.length l) * hi).
  { clear P. induction F as [|x t H F IH]; [congruence|]. cbn [rsum fold_right List.length]. fold (rsum t).
    rewrite S_INR. destruct t as [|y t].
    - simpl. lra.
    - destruct IH; [discriminate|]. lra. }
  set (n := INR (List.length l)) in *.
  split; apply (Rmult_lt_reg_r n); auto; unfold Rdiv; rewrite Rmult_assoc, Rinv_l by lra; lra.
Qed.

Lemma ensemble_bounds mn mx ls : ls <> [] ->
  mn < ensemble_logvar mn mx ls < mx + exp (- (mx - mn)).
Proof.
  intros N. unfold ensemble_logvar. apply mean_bounds_strict.
  - destruct ls; [congruence|discriminate].
  - apply Forall_forall. intros x Hx. apply in_map_iff in Hx. destruct Hx as [l [<- _]].
    split; [apply bound_low|apply bound_high].
Qed.

(** ** HL-Gauss with an error function that saturates, as in floating point *)
Lemma far_target erf min max bins sigma c : 0 < sigma -> min <= max -> (0 < bins)%nat ->
  (forall x, c <= x -> erf x = 1) ->
  exists target, transform_to_probs erf min max bins sigma target = repeat None bins.
Proof.
  intros Hs L B Hc. exists (min - Rmax c 0 * (sqrt 2 * sigma)). rewrite transform_eq. cbv zeta beta.
  assert (S2 : 0 < sqrt 2 * sigma) by (apply Rmult_lt_0_compat; auto; apply sqrt_lt_R0; lra).
  assert (T : forall i, erf ((tick min max bins i - (min - Rmax c 0 * (sqrt 2 * sigma))) / (sqrt 2 * sigma)) = 1).
  { intros i. apply Hc. unfold tick.
    assert (0 <= INR i * ((max - min) / INR bins)).
    { apply Rmult_le_pos; [apply pos_INR|]. unfold Rdiv. apply Rmult_le_pos; [lra|].
      left. apply Rinv_0_lt_compat, lt_0_INR. lia. }
    apply (Rmult_le_reg_r (sqrt 2 * sigma)); auto. unfold Rdiv. rewrite Rmult_assoc, Rinv_l by lra.
    pose proof (Rmax_l c 0). pose proof (Rmult_le_compat_r (sqrt 2 * sigma) c (Rmax c 0)). lra. }
  transitivity (map (fun _ : nat => None : val) (seq 0 bins)).
  - apply map_ext. intros i. rewrite !T. simpl. destruct (Req_EM_T (1 - 1) 0); [reflexivity|lra].
  - generalize 0%nat. clear. induction bins as [|n IH]; intros s; simpl; [reflexivity|]. f_equal. apply IH.
Qed.

(** ** A model that has been loaded has forgotten its normalizers *)
Definition zero_net (x : list (list val)) : list (list val) := map (fun _ => [Some 0]) x.
Definition tiny : transitions := mkTr [[0]; [0]] [[0]; [2]] [[]; []] [[0]; [0]].
Lemma load_differs : exists m x y,
  process_batch (dm_new false None []) (t_obs tiny) (t_next tiny) (t_action tiny) (t_reward tiny) = Ok (m, (x, y)) /\
  sample m zero_net [[]] [[0]] = Ok [([Some 1], [])] /\
  sample (fst (dm_load (dm_new false None []) zero_net)) (snd (dm_load (dm_new false None []) zero_net)) [[]] [[0]]
  = Ok [([Some 0], [])].
Proof.
  eexists. eexists. eexists. split; [cbn; reflexivity|]. split.
  - unfold sample. cbn.
    unfold at_least_eps, vltb. match goal with |- context[Rlt_dec ?a ?b] => destruct (Rlt_dec a b) end; cbn;
    match goal with |- Ok [([Some ?a], [])] = _ => replace a with 1 by field end; reflexivity.
  - cbn. match goal with |- Ok [([Some ?a], [])] = _ => replace a with 0 by ring end; reflexivity.
Qed.

Lemma clip_saturating : saturating (fun x => Rmax (-1) (Rmin 1 x)) /\ ~ strictly_increasing (fun x => Rmax (-1) (Rmin 1 x)).
Proof.
  split.
  - split; [|split]; intros; unfold Rmax, Rmin; repeat destruct (Rle_dec _ _); lra.
  - intros H. specialize (H 2 3 ltac:(lra)). revert H. unfold Rmax, Rmin; repeat destruct (Rle_dec _ _); lra.
Qed.

Lemma load_network (m fresh : dynamic) net :
  dm_learned_rewards fresh = dm_learned_rewards m -> dm_process fresh = dm_process m ->
  dm_no_delta fresh = dm_no_delta m -> dm_in fresh = dm_in m -> dm_target fresh = dm_target m ->
  forall action obs, sample (fst (dm_load fresh net)) (snd (dm_load fresh net)) action obs = sample m net action obs.
Proof.
  destruct m, fresh. simpl. intros -> -> -> -> ->.
  reflexivity.
Qed.
