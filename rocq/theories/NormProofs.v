(** * NormProofs: the running statistics *)
From Coq Require Import Reals Lra Lia.
From Verif Require Import Py NumModel AlgoModel AlgoSpec AlgoProofs NormSpec.
Open Scope list_scope.
Open Scope R_scope.
Set Implicit Arguments. Unset Strict Implicit.

Lemma rate_0 : rate_after 0 = 1 / 2.
Proof. unfold rate_after. cbn [INR]. rewrite Rmax_right; lra. Qed.
Lemma rate_S n : (if Rlt_dec (rate_after n - 1 / 100) (1 / 100) then 1 / 100 else rate_after n - 1 / 100) = rate_after (S n).
Proof.
  unfold rate_after. rewrite S_INR. set (x := INR n).
  destruct (Rlt_dec _ _) as [L|L]; unfold Rmax in *; destruct (Rle_dec (1 / 100) (1 / 2 - x / 100)), (Rle_dec (1 / 100) (1 / 2 - (x + 1) / 100)); lra.
Qed.
Lemma mean0_j d b j : ample d b -> (j < d)%nat -> nth_error (mean0 b) j = Some (Some (average (feature j b))).
Proof.
  intros A Hj. pose proof (width_ample A) as Wd. destruct A as [L W]. unfold mean0. rewrite Wd, nth_error_map.
  rewrite (nth_error_nth' _ 0%nat) by (rewrite seq_length; exact Hj). rewrite seq_nth by exact Hj. cbn [option_map Nat.add].
  f_equal. unfold torch_mean, average. change (column j b) with (feature j b).
  destruct (feature j b) eqn:E; [|reflexivity]. apply (f_equal (@List.length R)) in E. unfold feature in E. rewrite map_length in E. cbn in E. lia.
Qed.
Lemma std0_j d b j : ample d b -> (j < d)%nat -> nth_error (std0 b) j = Some (Some (sample_deviation (feature j b))).
Proof.
  intros A Hj. pose proof (width_ample A) as Wd. destruct A as [L W]. unfold std0. rewrite Wd, nth_error_map.
  rewrite (nth_error_nth' _ 0%nat) by (rewrite seq_length; exact Hj). rewrite seq_nth by exact Hj. cbn [option_map Nat.add].
  f_equal. change (column j b) with (feature j b). assert (El : List.length (feature j b) = List.length b) by apply map_length.
  unfold torch_std, sample_deviation, average. destruct (feature j b) as [|x [|y l]]; [cbn in El; lia|cbn in El; lia|].
  f_equal. f_equal. f_equal. f_equal. apply map_ext. intros z. ring.
Qed.
Lemma eps_floor x : at_least_eps (Some x) = Some (Rmax (1 / 100000) x).
Proof. unfold at_least_eps, vltb, nm_eps. destruct (Rlt_dec x (1 / 100000)); f_equal; [rewrite Rmax_left; lra|rewrite Rmax_right; lra]. Qed.

Definition stat_at (s : normalizer) (j n : nat) (a b : option R) : Prop :=
  nm_rate s = rate_after n /\
  match nm_stats s with
  | None => a = None /\ b = None
  | Some (mean, std) => a <> None /\ b <> None /\ nth_error mean j = Some a /\ nth_error std j = Some b
  end.

Lemma running_history d j batches : (j < d)%nat -> forall s n a b s', nm_good d s -> Forall (ample d) batches ->
  stat_at s j n a b -> nm_history s batches = Ok s' ->
  stat_at s' j (n + List.length batches) (running average (fun x => x) j n a batches)
    (running sample_deviation (Rmax (1 / 100000)) j n b batches).
Proof.
  intros Hj. induction batches as [|bt t IH]; intros s n a b s' G F A E; cbn [nm_history] in E.
  - injection E as <-. cbn [List.length running]. rewrite Nat.add_0_r. exact A.
  - inversion F as [|? ? Ab Ft]; subst. destruct (update_good G Ab) as [s1 [E1 [G1 _]]]. rewrite E1 in E. cbn [rbind] in E.
    cbn [List.length running]. rewrite <- plus_n_Sm. apply (IH s1 (S n) _ _ s' G1 Ft); [|exact E].
    clear IH E. destruct A as [Ar A]. destruct G as [_ G]. unfold update_stats in E1. unfold stat_at.
    destruct (nm_stats s) as [[mean std]|].
    + destruct G as [Gm Gs]. destruct (blend_fin (nm_rate s) Gm (mean0_fin Ab)) as [Em _].
      destruct (blend_fin (nm_rate s) (low_fin Gs) (std0_fin Ab)) as [Es _]. rewrite Em, Es in E1. cbn [rbind] in E1. injection E1 as <-.
      cbn [nm_rate nm_stats]. rewrite Ar. split; [apply rate_S|]. destruct A as (Na & Nb & Ea & Eb).
      destruct a as [a|]; [|congruence]. destruct b as [b|]; [|congruence].
      split; [discriminate|]. split; [discriminate|]. split.
      * rewrite map2_nth, Ea, (mean0_j Ab Hj). reflexivity.
      * rewrite nth_error_map, map2_nth, Eb, (std0_j Ab Hj). cbn [option_map]. f_equal. unfold blend, vadd, vmul, vlift. apply eps_floor.
    + injection E1 as <-. cbn [nm_rate nm_stats]. rewrite Ar. split; [apply rate_S|]. destruct A as [-> ->].
      split; [discriminate|]. split; [discriminate|]. split; [apply (mean0_j Ab Hj)|].
      rewrite nth_error_map, (std0_j Ab Hj). cbn [option_map]. f_equal. apply eps_floor.
Qed.

Lemma running_stats d batches s j : Forall (ample d) batches -> batches <> [] -> (j < d)%nat ->
  nm_history nm_init batches = Ok s ->
  exists mean std, nm_stats s = Some (mean, std)
    /\ nth_error mean j = Some (running average (fun x => x) j 0 None batches)
    /\ nth_error std j = Some (running sample_deviation (Rmax (1 / 100000)) j 0 None batches).
Proof.
  intros F Ne Hj E.
  assert (A : stat_at nm_init j 0 None None) by (split; [symmetry; apply rate_0|split; reflexivity]).
  pose proof (running_history Hj (nm_good_init d) F A E) as [_ H].
  destruct (nm_stats s) as [[mean std]|]; [|exfalso].
  - destruct H as (_ & _ & H1 & H2). eauto.
  - destruct H as [H _]. destruct batches as [|b t]; [congruence|]. cbn [running] in H.
    assert (N : forall t n a, running average (fun x => x) j n (Some a) t <> None).
    { clear. induction t as [|b t IH]; intros n a; [discriminate|]. cbn [running]. apply IH. }
    exact (N _ _ _ H).
Qed.
