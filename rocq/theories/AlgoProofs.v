(** * AlgoProofs: the normalizer *)
From Coq Require Import Reals Lra Lia.
From Verif Require Import Py NumModel AlgoModel AlgoSpec.
Open Scope list_scope.
Open Scope R_scope.
Set Implicit Arguments. Unset Strict Implicit.

Lemma map2_length A B C (f : A -> B -> C) l l' :
  List.length l = List.length l' -> List.length (map2 f l l') = List.length l.
Proof. revert l'. induction l as [|x t IH]; intros [|y t'] E; simpl in *; try lia. f_equal. apply IH. lia. Qed.

Lemma map2_nth A B C (f : A -> B -> C) l l' i :
  nth_error (map2 f l l') i =
  match nth_error l i, nth_error l' i with Some a, Some b => Some (f a b) | _, _ => None end.
Proof.
  revert l' i. induction l as [|x t IH]; intros [|y t'] [|i]; simpl; auto.
  - destruct (nth_error t i); reflexivity.
Qed.

Definition low (d : nat) (std : list val) : Prop :=
  List.length std = d /\ Forall (fun v => exists x, v = Some x /\ nm_eps <= x) std.
Definition fin (d : nat) (mean : list val) : Prop :=
  List.length mean = d /\ Forall (fun v => exists x, v = Some x) mean.
Definition rate_ok (r : R) : Prop := 1 / 100 <= r <= 1 / 2.
Definition nm_good (d : nat) (s : normalizer) : Prop :=
  rate_ok (nm_rate s) /\
  match nm_stats s with None => True | Some (mean, std) => fin d mean /\ low d std end.

Lemma nm_eps_pos : 0 < nm_eps. Proof. unfold nm_eps. lra. Qed.

Lemma nm_good_init d : nm_good d nm_init.
Proof. split; [split; simpl; lra|exact I]. Qed.

Lemma width_ample d b : ample d b -> width b = d.
Proof. intros [L W]. destruct b as [|r t]; simpl in *; [lia|]. inversion W; auto. Qed.

Lemma column_length j b : List.length (column j b) = List.length b.
Proof. unfold column. apply map_length. Qed.

Lemma mean0_fin d b : ample d b -> fin d (mean0 b).
Proof.
  intros A. pose proof (width_ample A) as Wd. destruct A as [L W]. unfold mean0. rewrite Wd. split.
  - rewrite map_length, seq_length. reflexivity.
  - apply Forall_forall. intros v Hv. apply in_map_iff in Hv. destruct Hv as [j [E _]].
    destruct b as [|r [|r' t]]; simpl in L; try lia. subst v. simpl. eexists. reflexivity.
Qed.

Lemma std0_fin d b : ample d b -> fin d (std0 b).
Proof.
  intros A. pose proof (width_ample A) as Wd. destruct A as [L W]. unfold std0. rewrite Wd. split.
  - rewrite map_length, seq_length. reflexivity.
  - apply Forall_forall. intros v Hv. apply in_map_iff in Hv. destruct Hv as [j [E _]].
    destruct b as [|r [|r' t]]; simpl in L; try lia. subst v. unfold torch_std. simpl. eexists. reflexivity.
Qed.

Lemma clip_low d std : fin d std -> low d (map at_least_eps std).
Proof.
  intros [L F]. split; [rewrite map_length; auto|].
  apply Forall_forall. intros v Hv. apply in_map_iff in Hv. destruct Hv as [w [E Hw]].
  rewrite Forall_forall in F. destruct (F _ Hw) as [x ->]. subst v. unfold at_least_eps. simpl.
  destruct (Rlt_dec x nm_eps); eexists; (split; [reflexivity|]); lra.
Qed.

Lemma blend_fin d r a b : fin d a -> fin d b -> rowop (blend r) a b = Ok (map2 (blend r) a b) /\ fin d (map2 (blend r) a b).
Proof.
  intros [La Fa] [Lb Fb]. split.
  - unfold rowop. rewrite La, Lb, Nat.eqb_refl. reflexivity.
  - split; [rewrite map2_length; lia|].
    clear La Lb. revert b Fb. induction a as [|x t IH]; intros [|y t'] Fb; simpl; auto.
    inversion Fa as [|? ? [x' ->] Fa']; inversion Fb as [|? ? [y' ->] Fb']; subst.
    constructor; [eexists; reflexivity|]. apply IH; auto.
Qed.

Lemma low_fin d std : low d std -> fin d std.
Proof. intros [L F]. split; auto. eapply Forall_impl; [|exact F]. intros v [x [-> _]]. eauto. Qed.

Lemma new_rate r : rate_ok r -> rate_ok (if Rlt_dec (r - 1/100) (1/100) then 1/100 else r - 1/100).
Proof. unfold rate_ok. intros H. destruct (Rlt_dec _ _); lra. Qed.

Lemma update_good d s b : nm_good d s -> ample d b ->
  exists s', update_stats s b = Ok s' /\ nm_good d s' /\ nm_stats s' <> None.
Proof.
  intros [Hr G] A. unfold update_stats. destruct (nm_stats s) as [[mean std]|].
  - destruct G as [Gm Gs]. destruct (blend_fin (nm_rate s) Gm (mean0_fin A)) as [-> Fm].
    destruct (blend_fin (nm_rate s) (low_fin Gs) (std0_fin A)) as [-> Fs]. simpl.
    eexists. split; [reflexivity|]. split; [|simpl; discriminate].
    split; [apply new_rate; auto|]. simpl. split; auto. apply clip_low; auto.
  - eexists. split; [reflexivity|]. split; [|simpl; discriminate].
    split; [apply new_rate; auto|]. simpl. split; [apply mean0_fin|apply clip_low, std0_fin]; auto.
Qed.

Lemma history_good d batches : forall s, nm_good d s -> Forall (ample d) batches ->
  exists s', nm_history s batches = Ok s' /\ nm_good d s'.
Proof.
  induction batches as [|b t IH]; intros s G F; simpl; [eauto|].
  inversion F; subst. destruct (update_good G H1) as [s1 [-> [G1 _]]]. simpl. apply IH; auto.
Qed.

(** Round trip of a row. *)
Lemma row_round d mean std row : fin d mean -> low d std -> List.length row = d ->
  exists y, rbind (rowop vsub (map Some row) mean) (fun e => rowop vdiv e std) = Ok y
            /\ List.length y = d
            /\ rbind (rowop vmul std y) (fun e => rowop vadd e mean) = Ok (map Some row)
            /\ Forall (fun v => exists x, v = Some x) y.
Proof.
  intros [Lm Fm] [Ls Fs] Lr.
  assert (forall (row : list R) (mean std : list val), List.length row = List.length mean -> List.length std = List.length mean ->
     Forall (fun v => exists x, v = Some x) mean -> Forall (fun v => exists x, v = Some x /\ nm_eps <= x) std ->
     let y := map2 vdiv (map2 vsub (map Some row) mean) std in
     map2 vadd (map2 vmul std y) mean = map Some row /\ Forall (fun v => exists x, v = Some x) y
     /\ List.length y = List.length mean) as K.
  { clear. induction row as [|x t IH]; intros [|m mt] [|s st] L1 L2 F1 F2; simpl in *; try lia.
    - split; auto.
    - inversion F1 as [|? ? [m' ->] F1']; inversion F2 as [|? ? [s' [-> Hs]] F2']; subst.
      destruct (IH mt st) as [E [F L]]; try lia; auto.
      pose proof nm_eps_pos. unfold vdiv at 1 3 5, vsub, vlift. destruct (Req_EM_T s' 0) as [Z|Z]; [lra|].
      split; [|split].
      + f_equal; [|exact E]. simpl. f_equal. field. auto.
      + constructor; [eauto|exact F].
      + f_equal. exact L. }
  destruct (K row mean std) as [E [F L]]; try lia; auto.
  exists (map2 vdiv (map2 vsub (map Some row) mean) std).
  assert (L1 : List.length (map2 vsub (map Some row) mean) = d) by (rewrite map2_length; rewrite map_length; lia).
  unfold rowop. rewrite map_length, Lr, Lm, Nat.eqb_refl. cbn [rbind].
  rewrite L1, Ls, Nat.eqb_refl. split; [reflexivity|]. split; [lia|].
  replace (List.length (map2 vdiv (map2 vsub (map Some row) mean) std)) with d by lia.
  rewrite Nat.eqb_refl. cbn [rbind]. rewrite (map2_length vmul (l:=std) (l':=map2 vdiv (map2 vsub (map Some row) mean) std)) by lia. rewrite Ls, Nat.eqb_refl.
  split; [f_equal; exact E|exact F].
Qed.

Lemma nm_round d s rows : nm_good d s -> wide d rows ->
  exists y, normalize s (finite rows) = Ok y /\ denormalize s y = Ok (finite rows)
            /\ Forall (Forall (fun v => exists x, v = Some x)) y.
Proof.
  intros [Hr G] W. unfold normalize, denormalize. destruct (nm_stats s) as [[mean std]|].
  - destruct G as [Gm Gs]. induction rows as [|r t IH]; simpl.
    + exists []. split; [|split]; auto.
    + inversion W; subst. destruct (row_round Gm Gs eq_refl) as [y [Ey [_ [Dy Fy]]]].
      destruct IH as [ys [Eys [Dys Fys]]]; auto.
      exists (y :: ys). rewrite Ey. simpl. unfold finite in *. rewrite Eys. simpl. split; auto.
      rewrite Dy. simpl. rewrite Dys. auto.
  - exists (finite rows). split; [|split]; auto.
    apply Forall_forall. intros r Hr'. apply in_map_iff in Hr'. destruct Hr' as [q [<- _]].
    apply Forall_forall. intros v Hv. apply in_map_iff in Hv. destruct Hv as [x [<- _]]. eauto.
Qed.

Lemma normalizer_partial d batches s rows mean std : Forall (ample d) batches -> wide d rows ->
  nm_history nm_init batches = Ok s ->
  (nm_stats s = Some (mean, std) ->
     List.length std = d /\ Forall (fun v => exists x, v = Some x /\ nm_eps <= x) std) /\
  exists y, normalize s (finite rows) = Ok y /\ denormalize s y = Ok (finite rows).
Proof.
  intros F W E. destruct (history_good (nm_good_init d) F) as [s' [E' G]].
  assert (s' = s) by congruence. subst s'. split.
  - intros St. destruct G as [_ G]. rewrite St in G. apply G.
  - destruct (nm_round G W) as [y [A [B _]]]. eauto.
Qed.

(** The mean stays among the data. *)
Lemma rsum_bounds l lo hi : Forall (fun x => lo <= x <= hi) l ->
  INR (List.length l) * lo <= rsum l <= INR (List.length l) * hi.
Proof.
  induction 1 as [|x t H F IH]; cbn [rsum fold_right List.length].
  - simpl. lra.
  - rewrite S_INR. fold (rsum t) in *. lra.
Qed.

Lemma torch_mean_hull l lo hi x : Forall (fun x => lo <= x <= hi) l -> torch_mean l = Some x -> lo <= x <= hi.
Proof.
  intros F E. destruct l as [|a t]; simpl in E; [discriminate|].
  pose proof (rsum_bounds F) as B. injection E as E.
  assert (P : 0 < INR (List.length (a :: t))) by (apply lt_0_INR; simpl; lia).
  change (rsum (a :: t) / INR (List.length (a :: t)) = x) in E.
  set (n := INR (List.length (a :: t))) in *. rewrite <- E.
  split; apply (Rmult_le_reg_r n); auto; unfold Rdiv; rewrite Rmult_assoc, Rinv_l by lra; lra.
Qed.

Definition hull (j : nat) (lo hi : R) (s : normalizer) : Prop :=
  match nm_stats s with
  | None => True
  | Some (mean, _) => forall x, nth_error mean j = Some (Some x) -> lo <= x <= hi
  end.

Lemma mean0_nth b j v : nth_error (mean0 b) j = Some v -> v = torch_mean (column j b).
Proof.
  unfold mean0. intros E. apply nth_error_In in E as E'.
  assert (j < width b)%nat as Hj.
  { assert (nth_error (map (fun j => torch_mean (column j b)) (seq 0 (width b))) j <> None) by congruence.
    apply nth_error_Some in H. rewrite map_length, seq_length in H. exact H. }
  rewrite nth_error_map in E. rewrite (nth_error_nth' _ 0%nat) in E by (rewrite seq_length; auto).
  rewrite seq_nth in E by auto. simpl in E. congruence.
Qed.

Lemma update_hull d j lo hi s b s' : nm_good d s -> ample d b ->
  Forall (fun x => lo <= x <= hi) (column j b) ->
  hull j lo hi s -> update_stats s b = Ok s' -> hull j lo hi s'.
Proof.
  intros [Hr G] A C Hu E. unfold update_stats in E. unfold hull in *.
  destruct (nm_stats s) as [[mean std]|].
  - destruct G as [Gm Gs]. destruct (blend_fin (nm_rate s) Gm (mean0_fin A)) as [E1 Fm].
    destruct (blend_fin (nm_rate s) (low_fin Gs) (std0_fin A)) as [E2 Fs].
    rewrite E1, E2 in E. simpl in E. injection E as E. subst s'. cbn [nm_stats].
    intros x Ex. rewrite map2_nth in Ex.
    destruct (nth_error mean j) as [[m|]|] eqn:Em; try discriminate; destruct (nth_error (mean0 b) j) as [[n|]|] eqn:En; try discriminate.
    unfold blend, vadd, vmul, vlift in Ex. injection Ex as Ex.
    pose proof (Hu _ eq_refl) as B1. apply mean0_nth in En. symmetry in En.
    pose proof (torch_mean_hull C En) as B2. destruct Hr as [R1 R2]. subst x.
    set (r := nm_rate s) in *.
    assert (0 <= r /\ 0 <= 1 - r) as [P1 P2] by lra.
    pose proof (Rmult_le_compat_l r _ _ P1 (proj1 B2)). pose proof (Rmult_le_compat_l r _ _ P1 (proj2 B2)).
    pose proof (Rmult_le_compat_l (1-r) _ _ P2 (proj1 B1)). pose proof (Rmult_le_compat_l (1-r) _ _ P2 (proj2 B1)).
    split; lra.
  - injection E as E. subst s'. cbn [nm_stats]. intros x Ex. apply mean0_nth in Ex. symmetry in Ex.
    eapply torch_mean_hull; eauto.
Qed.

Lemma history_hull d j lo hi batches : forall s s', nm_good d s -> Forall (ample d) batches ->
  Forall (fun b => Forall (fun x => lo <= x <= hi) (column j b)) batches ->
  hull j lo hi s -> nm_history s batches = Ok s' -> hull j lo hi s'.
Proof.
  induction batches as [|b t IH]; intros s s' G F C Hu E; simpl in E.
  - injection E as <-. auto.
  - inversion F; inversion C; subst. destruct (update_good G H1) as [s1 [E1 [G1 _]]].
    rewrite E1 in E. simpl in E. apply (IH s1); auto. exact (update_hull G H1 H5 Hu E1).
Qed.

Lemma normalizer_mean d j lo hi batches s mean std x : Forall (ample d) batches ->
  Forall (Forall (fun row => forall y, nth_error row j = Some y -> lo <= y <= hi)) batches ->
  (j < d)%nat ->
  nm_history nm_init batches = Ok s -> nm_stats s = Some (mean, std) ->
  nth_error mean j = Some (Some x) -> lo <= x <= hi.
Proof.
  intros F C Hj E St Ex.
  assert (hull j lo hi s) as Hu.
  { eapply history_hull; [apply (nm_good_init d)|exact F| |exact I|exact E].
    rewrite Forall_forall in *. intros b Hb. specialize (C b Hb). specialize (F b Hb).
    destruct F as [_ W]. unfold wide in W. rewrite Forall_forall in *. intros y Hy.
    apply in_map_iff in Hy. destruct Hy as [row [<- Hrow]]. apply (C row Hrow).
    apply nth_error_nth'. rewrite (W _ Hrow). exact Hj. }
  unfold hull in Hu. rewrite St in Hu. eauto.
Qed.

(** A batch of one row. *)
Lemma one_row x row : exists s, nm_history nm_init [[x :: row]] = Ok s /\
  forall y z, exists t, normalize s [Some y :: z] = Err RuntimeError \/ normalize s [Some y :: z] = Ok [None :: t].
Proof.
  eexists. split; [reflexivity|]. intros y z. cbn.
  unfold rowop. cbn -[Nat.eqb].
  match goal with |- context[if ?b then _ else _] => destruct b end; cbn -[Nat.eqb]; [|exists []; auto].
  match goal with |- context[if ?b then _ else _] => destruct b end; cbn -[Nat.eqb]; [|exists []; auto].
  eexists. right. reflexivity.
Qed.
