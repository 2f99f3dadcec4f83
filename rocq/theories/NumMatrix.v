(** * NumMatrix: block timers (C78), gamma matrices (C62) *)
From Coq Require Import Reals Lra.
From Verif Require Import Py PyLemmas MemModel MemSpec NumModel NumSpec NumProofs.
Set Implicit Arguments.
Unset Strict Implicit.
Open Scope list_scope.
Open Scope R_scope.

(** ** Block timers *)
Definition bk_event (e : tevent) (b : block) : res block :=
  match e with TEnter _ now => Ok (bk_enter now b) | TExit _ now => bk_exit now b end.
Fixpoint bk_run (es : list tevent) (b : block) : res block :=
  match es with [] => Ok b | e :: r => rbind (bk_event e b) (bk_run r) end.

Lemma scope_dset n m b ts : scope n (dset ts m b) = if String.eqb n m then b else scope n ts.
Proof.
  unfold scope, dget_default. destruct (String.eqb_spec n m) as [->|N].
  - rewrite dget_dset_eq. auto.
  - rewrite dget_dset_neq by auto. auto.
Qed.
Lemma timers_scope name es : forall ts ts', timers_run es ts = Ok ts' ->
  bk_run (filter (about name) es) (scope name ts) = Ok (scope name ts').
Proof.
  induction es as [|e r IH]; intros ts ts' H; cbn [timers_run] in H.
  - injection H as <-. reflexivity.
  - destruct (timers_event e ts) as [ts1|x] eqn:E; [|discriminate]. cbn [rbind] in H. apply IH in H.
    cbn [filter]. destruct e as [n now|n now]; cbn [about timers_event] in *.
    + injection E as <-. rewrite scope_dset in H. rewrite String.eqb_sym in H.
      destruct (String.eqb_spec n name) as [->|N]; [cbn [bk_run bk_event rbind]; exact H|exact H].
    + destruct (bk_exit now (scope n ts)) as [b|x] eqn:Eb; [|discriminate]. cbn [rbind] in E. injection E as <-.
      rewrite scope_dset in H. rewrite String.eqb_sym in H.
      destruct (String.eqb_spec n name) as [->|N]; [cbn [bk_run bk_event]; rewrite Eb; exact H|exact H].
Qed.
Lemma bk_run_app a b x : bk_run (a ++ b) x = rbind (bk_run a x) (bk_run b).
Proof. revert x. induction a as [|e r IH]; intros x; simpl; auto. destruct (bk_event e x); simpl; auto. Qed.
Lemma blocks_values name es ds b : blocks name es ds -> exists st, bk_run es b = Ok (mkBlock (fold_left mw_add ds (bk_values b)) st).
Proof.
  induction 1 as [|es ds t0 t1 B [st IH]].
  - exists (bk_start b). destruct b; reflexivity.
  - exists (Some t0). rewrite bk_run_app, IH. simpl. unfold bk_exit. simpl. rewrite fold_left_app. reflexivity.
Qed.
Lemma dget_stats name ts : dget (timers_stats ts) name = match dget ts name with Some b => Some (mw_current (bk_values b)) | None => None end.
Proof. unfold timers_stats. induction ts as [|[k b] r IH]; cbn [map dget fst snd]; auto. destruct (keqb name k); auto. Qed.
Lemma timers_ok es ts name ds : timers_run es [] = Ok ts -> blocks name (filter (about name) es) ds -> ds <> [] ->
  dget (timers_stats ts) name = Some (Some (average (last_n window_size ds), population_variance (last_n window_size ds))).
Proof.
  intros R B N. pose proof (timers_scope name R) as S. destruct (blocks_values (scope name []) B) as [st E].
  rewrite E in S. injection S as S. rewrite dget_stats. unfold scope, dget_default in S. simpl in S.
  destruct (dget ts name) as [b|] eqn:D.
  - rewrite <- S. cbn [bk_values]. rewrite moving_window by auto. auto.
  - exfalso. unfold bk_init in S. injection S as S _.
    rewrite mw_values in S. unfold last_n in S. apply (f_equal (@List.length _)) in S. rewrite skipn_length in S.
    destruct ds; [congruence|]. cbn [List.length] in S.
    assert (W1 : (1 <= window_size)%nat) by (unfold window_size; simpl; lia). lia.
Qed.
(** If the blocks of every name are one after the other, nothing raises. *)
Lemma timers_run_ok es : forall ts,
  (forall name, exists b, bk_run (filter (about name) es) (scope name ts) = Ok b) -> exists ts', timers_run es ts = Ok ts'.
Proof.
  induction es as [|e r IH]; intros ts H; [eexists; reflexivity|]. cbn [timers_run].
  destruct e as [n now|n now]; cbn [timers_event rbind].
  - apply IH. intros name. destruct (H name) as [b E]. cbn [filter about] in E. rewrite scope_dset, String.eqb_sym.
    destruct (String.eqb_spec n name) as [->|N]; exists b; auto.
  - destruct (H n) as [b E]. cbn [filter about] in E. rewrite String.eqb_refl in E. cbn [bk_run bk_event] in E.
    destruct (bk_exit now (scope n ts)) as [b1|x] eqn:Eb; [|discriminate]. cbn [rbind].
    apply IH. intros name. destruct (H name) as [b' E']. cbn [filter about] in E'. rewrite scope_dset, String.eqb_sym.
    destruct (String.eqb_spec n name) as [->|N]; exists b'; auto.
    cbn [bk_run bk_event] in E'. rewrite Eb in E'. exact E'.
Qed.
Lemma timers_total es : (forall name, exists ds, blocks name (filter (about name) es) ds) -> exists ts, timers_run es [] = Ok ts.
Proof.
  intros H. apply timers_run_ok. intros name. destruct (H name) as [ds B]. destruct (blocks_values (scope name []) B) as [st E]. eauto.
Qed.

(** ** The gamma matrix *)
Definition entry (m : matrix) (i j : nat) : R := nth j (nth i m []) 0.
Lemma set_at_length {A} n (x : A) l : List.length (set_at n x l) = List.length l.
Proof. revert n. induction l; intros [|n]; simpl; auto. Qed.
Lemma nth_set_at {A} n m (x d : A) l : (n < List.length l)%nat -> nth m (set_at n x l) d = if Nat.eqb m n then x else nth m l d.
Proof.
  revert n m. induction l as [|y r IH]; intros [|n] [|m] H; simpl in *; try lia; auto.
  apply IH. lia.
Qed.
Lemma set_column_length c v m : forall f, List.length (set_column c f v m) = List.length m.
Proof. revert v. induction m as [|row r IH]; intros v [|f]; simpl; auto; destruct v; simpl; auto. Qed.
Lemma nth_set_column c m : forall f v i, (i < List.length m)%nat ->
  nth i (set_column c f v m) [] =
    if Nat.leb f i then match nth_error v (i - f) with Some x => set_at c x (nth i m []) | None => nth i m [] end
    else nth i m [].
Proof.
  induction m as [|row r IH]; intros f v i H; cbn [List.length] in H; [lia|].
  destruct f as [|f].
  - destruct v as [|x v]; cbn [set_column].
    + rewrite Nat.sub_0_r. destruct i; reflexivity.
    + destruct i as [|i]; [reflexivity|]. cbn [nth Nat.sub nth_error Nat.leb]. rewrite IH by lia. cbn [Nat.leb]. rewrite Nat.sub_0_r. reflexivity.
  - cbn [set_column]. destruct i as [|i]; [reflexivity|]. cbn [nth Nat.leb Nat.sub]. apply IH. lia.
Qed.
Lemma nth_repeat_lt {A} n i (x d : A) : (i < n)%nat -> nth i (repeat x n) d = x.
Proof. revert i. induction n; intros [|i] H; simpl; try lia; auto. apply IHn. lia. Qed.
Definition filled (gamma : R) (L c : nat) (m : matrix) : Prop :=
  List.length m = (L + 1)%nat /\ (forall i, (i < L + 1)%nat -> List.length (nth i m []) = L)
  /\ forall i j, (i < L + 1)%nat -> (j < L)%nat -> entry m i j = if andb (Nat.ltb j c) (Nat.leb j i) then gamma ^ (i - j) else 0.
Lemma filled_step gamma L c m : (c < L)%nat -> filled gamma L c m ->
  filled gamma L (S c) (set_column c c (firstn (L + 1 - c) (map (fun cc => gamma ^ cc) (seq 0 (L + 1)))) m).
Proof.
  intros Hc (F1 & F2 & F3). set (v := firstn _ _).
  assert (Hv : forall k, (k < L + 1 - c)%nat -> nth_error v k = Some (gamma ^ k)).
  { intros k Hk. unfold v. rewrite firstn_map. rewrite nth_error_map.
    assert (E : firstn (L + 1 - c) (seq 0 (L + 1)) = seq 0 (L + 1 - c)).
    { clear. assert (G : forall n m s, (n <= m)%nat -> firstn n (seq s m) = seq s n).
      { induction n; intros m s H; [reflexivity|]. destruct m; [lia|]. simpl. rewrite IHn by lia. auto. }
      apply G. lia. }
    rewrite E.
    assert (G : forall n s k, (k < n)%nat -> nth_error (seq s n) k = Some (s + k)%nat).
    { clear. induction n; intros s k H; [lia|]. destruct k; simpl; [f_equal; lia|]. rewrite IHn by lia. f_equal. lia. }
    rewrite (G _ 0%nat k Hk). reflexivity. }
  split; [rewrite set_column_length; auto|]. split.
  - intros i Hi. rewrite nth_set_column by lia. destruct (Nat.leb_spec c i); auto.
    rewrite Hv by lia. rewrite set_at_length. auto.
  - intros i j Hi Hj. unfold entry. rewrite nth_set_column by lia. destruct (Nat.leb_spec c i) as [Ci|Ci].
    + rewrite Hv by lia. rewrite nth_set_at by (rewrite F2; lia). destruct (Nat.eqb_spec j c) as [->|Nj].
      * destruct (Nat.ltb_spec c (S c)); [|lia]. destruct (Nat.leb_spec c i); [|lia]. reflexivity.
      * fold (entry m i j). rewrite F3 by auto. destruct (Nat.ltb_spec j c), (Nat.ltb_spec j (S c)); try lia; reflexivity.
    + fold (entry m i j). rewrite F3 by auto.
      destruct (Nat.ltb_spec j c), (Nat.ltb_spec j (S c)), (Nat.leb_spec j i); try lia; reflexivity.
Qed.
Lemma gamma_filled gamma L : filled gamma L L (make_gamma_matrix gamma L).
Proof.
  unfold make_gamma_matrix. cbv zeta.
  assert (G : forall n, (n <= L)%nat -> filled gamma L n
    (fold_left (fun m cc => set_column cc cc (firstn (L + 1 - cc) (map (fun cc => gamma ^ cc) (seq 0 (L + 1)))) m) (seq 0 n)
       (repeat (repeat 0 L) (L + 1)))).
  { induction n as [|n IH]; intros Hn.
    - cbn [seq fold_left]. split; [apply repeat_length|]. split.
      + intros i Hi. rewrite nth_repeat_lt by auto. apply repeat_length.
      + intros i j Hi Hj. unfold entry. rewrite nth_repeat_lt by auto. rewrite nth_repeat_lt by auto. reflexivity.
    - rewrite seq_S, fold_left_app. cbn [fold_left Nat.add]. apply filled_step; [lia|]. apply IH. lia. }
  apply G. lia.
Qed.

Lemma cat_rows_ok (a : matrix) b : List.length a = List.length b -> exists m, cat_rows a b = Ok m /\ List.length m = List.length a
  /\ forall i x y, nth_error a i = Some x -> nth_error b i = Some y -> nth_error m i = Some (x ++ y).
Proof.
  revert b. induction a as [|x a IH]; intros [|y b] H; try discriminate.
  - exists []. split; auto. split; auto. intros [|i]; discriminate.
  - destruct (IH b) as (m & E & El & Hm); [simpl in H; lia|]. exists ((x ++ y) :: m). simpl. rewrite E. split; auto.
    split; [simpl; auto|]. intros [|i] u v; simpl; [congruence|auto].
Qed.
Lemma dot_nth a : forall b, List.length a = List.length b ->
  dot a b = rsum (map (fun k => nth k a 0 * nth k b 0) (seq 0 (List.length a))).
Proof.
  induction a as [|x a IH]; intros [|y b] H; try discriminate; [reflexivity|].
  simpl. rewrite IH by (simpl in H; lia). f_equal. rewrite <- seq_shift, map_map. reflexivity.
Qed.
Lemma rsum_ext f g n s : (forall k, (s <= k < s + n)%nat -> f k = g k) -> rsum (map f (seq s n)) = rsum (map g (seq s n)).
Proof. intros H. f_equal. apply map_ext_in. intros k I. apply in_seq in I. apply H. lia. Qed.
Lemma rsum_zero n s : rsum (map (fun _ : nat => 0) (seq s n)) = 0.
Proof. revert s. induction n; intros s; simpl; [lra|]. rewrite IHn. lra. Qed.
Lemma row_return gamma r v t : (t < List.length r)%nat ->
  dot (r ++ [v]) (column_of t (make_gamma_matrix gamma (List.length r))) = n_step_return gamma r v t.
Proof.
  intros Ht. set (L := List.length r) in *. destruct (gamma_filled gamma L) as (F1 & F2 & F3).
  set (m := make_gamma_matrix gamma L) in *.
  assert (Lc : List.length (r ++ [v]) = List.length (column_of t m)).
  { unfold column_of. rewrite map_length, app_length, F1. fold L. reflexivity. }
  rewrite dot_nth by auto. rewrite app_length. fold L. cbn [List.length].
  assert (En : forall k, (k < L + 1)%nat -> nth k (column_of t m) 0 = entry m k t).
  { intros k Hk. unfold column_of, entry.
    rewrite nth_indep with (d' := (fun row => nth t row 0) []) by (rewrite map_length, F1; auto).
    rewrite (map_nth (fun row => nth t row 0)). reflexivity. }
  rewrite (@rsum_ext _ (fun k => nth k (r ++ [v]) 0 * if Nat.leb t k then gamma ^ (k - t) else 0)).
  2:{ intros k Hk. rewrite En by lia. rewrite F3 by lia. destruct (Nat.ltb_spec t L); [|lia]. reflexivity. }
  unfold n_step_return. fold L. replace (L + 1)%nat with (t + ((L - t) + 1))%nat by lia.
  rewrite seq_app, map_app, rsum_app.
  rewrite (@rsum_ext _ (fun _ => 0) t 0).
  2:{ intros k Hk. destruct (Nat.leb_spec t k); [lia|]. lra. }
  rewrite rsum_zero. rewrite Nat.add_0_l, seq_app, map_app, rsum_app. cbn [seq map rsum fold_right].
  replace (nth (t + (L - t)) (r ++ [v]) 0) with v.
  2:{ rewrite app_nth2 by (fold L; lia). fold L. replace (t + (L - t) - L)%nat with 0%nat by lia. reflexivity. }
  destruct (Nat.leb_spec t (t + (L - t))); [|lia]. replace (t + (L - t) - t)%nat with (L - t)%nat by lia.
  rewrite Rplus_0_l, Rplus_0_r. f_equal; [|ring].
  assert (Sh : forall (f : nat -> R) n s, map f (seq s n) = map (fun k => f (s + k)%nat) (seq 0 n)).
  { clear. intros f n. induction n as [|n IH]; intros s; [reflexivity|]. cbn [seq map]. rewrite Nat.add_0_r. f_equal.
    rewrite IH. rewrite <- (seq_shift n 0), map_map. apply map_ext. intros. f_equal. lia. }
  rewrite (Sh _ (L - t)%nat t). apply rsum_ext. intros k Hk. destruct (Nat.leb_spec t (t + k)); [|lia].
  replace (t + k - t)%nat with k by lia. rewrite app_nth1 by (fold L; lia). ring.
Qed.
Lemma nth_error_concat_len {A} n : forall (ls : list (list A)) i k, Forall (fun l => List.length l = n) ls -> (k < n)%nat ->
  nth_error (concat ls) (i * n + k) = match nth_error ls i with Some l => nth_error l k | None => None end.
Proof.
  induction ls as [|l ls IH]; intros i k F Hk.
  - simpl. destruct (i * n + k)%nat, i; reflexivity.
  - inversion F; subst. cbn [concat]. destruct i as [|i].
    + cbn [Nat.mul Nat.add nth_error]. rewrite nth_error_app1 by auto. reflexivity.
    + rewrite nth_error_app2 by (simpl; lia). cbn [nth_error].
      replace (S i * List.length l + k - List.length l)%nat with (i * List.length l + k)%nat by (simpl; lia). apply IH; auto.
Qed.
Lemma concat_length_len {A} n (ls : list (list A)) : Forall (fun l => List.length l = n) ls -> List.length (concat ls) = (List.length ls * n)%nat.
Proof. induction 1; simpl; auto. rewrite app_length. lia. Qed.

Lemma discount_ok gamma L rewards values : (1 <= L)%nat ->
  Forall (fun r => List.length r = L) rewards -> List.length rewards = List.length values ->
  exists out, discount rewards (map (fun v => [v]) values) (make_gamma_matrix gamma L) = Ok out
    /\ List.length out = (List.length rewards * L)%nat
    /\ forall i t r v, nth_error rewards i = Some r -> nth_error values i = Some v -> (t < L)%nat ->
         nth_error out (i * L + t) = Some (n_step_return gamma r v t).
Proof.
  intros HL F Len. destruct (@cat_rows_ok rewards (map (fun v => [v]) values)) as (m & E & El & Hm); [rewrite map_length; auto|].
  destruct (gamma_filled gamma L) as (F1 & F2 & _).
  assert (Fm : forall row, In row m -> List.length row = (L + 1)%nat).
  { intros row I. apply In_nth_error in I. destruct I as [i Hi].
    assert (Hl : (i < List.length m)%nat) by (apply nth_error_Some; congruence). rewrite El in Hl.
    assert (Hr : nth_error rewards i <> None) by (apply nth_error_Some; auto).
    assert (Hv : nth_error values i <> None) by (apply nth_error_Some; lia).
    destruct (nth_error rewards i) as [r|] eqn:Er; [|congruence]. destruct (nth_error values i) as [v|] eqn:Ev; [|congruence].
    rewrite (Hm i r [v]) in Hi; auto; [|rewrite nth_error_map, Ev; auto]. injection Hi as <-.
    rewrite app_length. apply nth_error_In in Er. rewrite Forall_forall in F. rewrite (F r Er). reflexivity. }
  unfold discount. rewrite E. cbn [rbind]. unfold matmul.
  assert (Fb : forallb (fun row => Nat.eqb (List.length row) (List.length (make_gamma_matrix gamma L))) m = true).
  { apply forallb_forall. intros row I. rewrite F1. apply Nat.eqb_eq. auto. }
  rewrite Fb. cbn [rbind]. eexists. split; [reflexivity|].
  assert (Wd : width (make_gamma_matrix gamma L) = L).
  { specialize (F2 0%nat ltac:(lia)). destruct (make_gamma_matrix gamma L); simpl in *; [lia|auto]. }
  rewrite Wd.
  assert (Fo : Forall (fun l => List.length l = L) (map (fun row => map (fun j => dot row (column_of j (make_gamma_matrix gamma L))) (seq 0 L)) m)).
  { apply Forall_forall. intros l I. apply in_map_iff in I. destruct I as (row & <- & _). rewrite map_length, seq_length. auto. }
  split; [rewrite (concat_length_len Fo), map_length, El; auto|].
  intros i t r v Hr Hv Ht. rewrite (nth_error_concat_len i Fo Ht). rewrite nth_error_map, (Hm i r [v]); auto; [|rewrite nth_error_map, Hv; auto].
  cbn [option_map]. rewrite nth_error_map.
  assert (Es : nth_error (seq 0 L) t = Some t).
  { rewrite nth_error_nth' with (d := 0%nat) by (rewrite seq_length; auto). rewrite seq_nth by auto. auto. }
  rewrite Es. cbn [option_map]. f_equal. apply nth_error_In in Hr. rewrite Forall_forall in F. rewrite <- (F r Hr).
  apply row_return. rewrite (F r Hr). auto.
Qed.
