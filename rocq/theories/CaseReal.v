(** * CaseReal: the log variance of an ensemble (C82), the state of an optimizer (C83) *)
From Coq Require Import Reals Lra Lia.
From Verif Require Import Py NumModel AlgoModel AlgoSpec AlgoProofs AlgoMore AlgoFind AgentModel LossModel LossProps.
Set Implicit Arguments.
Unset Strict Implicit.
Open Scope list_scope.
Open Scope R_scope.

Lemma rsum_grows f (a b : list R) (x y : R) : f x < f y -> rsum (map f (a ++ x :: b)) < rsum (map f (a ++ y :: b)).
Proof.
  intros H. unfold rsum. induction a as [|z a IH]; cbn [app map fold_right].
  - lra.
  - change (fold_right Rplus 0) with rsum in *. lra.
Qed.
Lemma ensemble_grows mn mx a b x y : x < y ->
  ensemble_logvar mn mx (a ++ x :: b) < ensemble_logvar mn mx (a ++ y :: b).
Proof.
  intros H. unfold ensemble_logvar, np_mean. rewrite !map_length.
  replace (List.length (a ++ y :: b)) with (List.length (a ++ x :: b)) by (rewrite !app_length; reflexivity).
  apply Rmult_lt_compat_r.
  - apply Rinv_0_lt_compat, lt_0_INR. rewrite app_length. cbn [List.length]. lia.
  - apply rsum_grows, bound_incr, H.
Qed.
Lemma ensemble_exceeds mn mx n : (1 <= n)%nat -> exists l, mx < ensemble_logvar mn mx (repeat l n).
Proof.
  intros N. destruct (bound_exceeds mn mx) as [l L]. exists l. unfold ensemble_logvar.
  apply (@mean_bounds_strict _ mx (bound_logvar mn mx l + 1)).
  - destruct n; [lia|discriminate].
  - apply Forall_forall. intros x I. apply in_map_iff in I as (z & <- & Z). apply repeat_spec in Z as ->. lra.
Qed.
Lemma combine_map_self (A B : Type) (f : A -> B) (l : list A) : combine l (map f l) = map (fun x => (x, f x)) l.
Proof. induction l; cbn; f_equal; auto. Qed.
Lemma opt_every (V : Type) (groups : list nat * list nat) (moments : nat -> V) i :
  In i (fst groups ++ snd groups) -> In (i, moments i) (opt_load groups (opt_state groups moments)).
Proof. intros I. unfold opt_load, opt_state. rewrite combine_map_self. apply in_map_iff. eauto. Qed.

Lemma alpha_step logps target x lr d : logps <> [] -> 0 < lr -> derivable_pt_lim (alpha_loss logps target) x d ->
  (x < x - lr * d <-> rsum (map Ropp logps) / INR (List.length logps) < target) /\
  (x - lr * d < x <-> target < rsum (map Ropp logps) / INR (List.length logps)).
Proof.
  intros N L D. pose proof (uniqueness_limite _ _ _ _ D (C93_slope logps target x N)) as ->.
  set (m := rsum _ / _). split; split; intros H; nra.
Qed.
