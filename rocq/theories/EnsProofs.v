(** * EnsProofs *)
From Coq Require Import Reals Lra Lia.
From Verif Require Import Py NumModel NumProofs NumMatrix AmpModel PolModel PolProofs PolMain PolSpec GenSpec GenProofs EnsModel EnsSpec CurlProofs.
From Verif Require AlgoModel AlgoFind.
Set Implicit Arguments.
Unset Strict Implicit.
Open Scope list_scope.
Open Scope R_scope.

Lemma pair_seq {A B} (X : nat -> A) (L : nat -> B) e : pair_members (map X (seq 0 e)) (map L (seq 0 e)) = Ok (map (fun m => (X m, L m)) (seq 0 e)).
Proof. unfold pair_members. rewrite !map_length, Nat.eqb_refl. now rewrite combine_seq. Qed.
Lemma pair_one {A B} (x : A) (L : nat -> B) e : (0 < e)%nat -> pair_members [x] (map L (seq 0 e)) = Ok (map (fun m => (x, L m)) (seq 0 e)).
Proof.
  intros e0. unfold pair_members. destruct (Nat.eqb_spec (List.length [x]) (List.length (map L (seq 0 e)))) as [E|E].
  - rewrite map_length, seq_length in E. simpl in E. subst e. reflexivity.
  - now rewrite map_map.
Qed.
Definition lin (l : linear) (row : list R) : list R := map (affine (ln_w l, ln_b l) (ln_in l) (entry row)) (seq 0 (ln_out l)).
Lemma lin_rows l b m : shape b (ln_in l) m -> rmapM (apply_linear l) m = Ok (map (lin l) m).
Proof. intros [_ F]. apply rmapM_map. intros row I. rewrite Forall_forall in F. apply apply_linear_ok. now apply F. Qed.
Lemma lin_shape l b n m : List.length m = b -> ln_out l = n -> shape b n (map (lin l) m).
Proof.
  intros L E. split; [now rewrite map_length|]. apply Forall_forall. intros r I. apply in_map_iff in I. destruct I as [y [<- _]].
  unfold lin. now rewrite map_length, seq_length.
Qed.
Lemma at_lin l m i j : (i < List.length m)%nat -> (j < ln_out l)%nat -> at_ (map (lin l) m) i j = affine (ln_w l, ln_b l) (ln_in l) (entry (nth i m [])) j.
Proof. intros I J. unfold at_. rewrite (@map_nth_lt _ _ _ _ _ []) by exact I. unfold entry at 1, lin. now rewrite nth_map_seq. Qed.
Lemma ens_linear_seq (L : nat -> linear) (X : nat -> matrix) e b : (forall m, (m < e)%nat -> shape b (ln_in (L m)) (X m)) ->
  ens_linear (map L (seq 0 e)) (map X (seq 0 e)) = Ok (map (fun m => map (lin (L m)) (X m)) (seq 0 e)).
Proof.
  intros H. unfold ens_linear. rewrite pair_seq. cbn [rbind].
  rewrite (@rmapM_map _ _ _ (fun xm => map (lin (snd xm)) (fst xm))).
  - rewrite map_map. reflexivity.
  - intros xm I. apply in_map_iff in I. destruct I as [m [<- I]]. apply in_seq in I. cbn [fst snd]. apply (@lin_rows _ b). apply H. lia.
Qed.
Lemma ens_linear_one (L : nat -> linear) (x : matrix) e b : (0 < e)%nat -> (forall m, (m < e)%nat -> shape b (ln_in (L m)) x) ->
  ens_linear (map L (seq 0 e)) [x] = Ok (map (fun m => map (lin (L m)) x) (seq 0 e)).
Proof.
  intros e0 H. unfold ens_linear. rewrite pair_one by exact e0. cbn [rbind].
  rewrite (@rmapM_map _ _ _ (fun xm => map (lin (snd xm)) (fst xm))).
  - rewrite map_map. reflexivity.
  - intros xm I. apply in_map_iff in I. destruct I as [m [<- I]]. apply in_seq in I. cbn [fst snd]. apply (@lin_rows _ b). apply H. lia.
Qed.
Lemma relu_at b n m i j : shape b n m -> (i < b)%nat -> (j < n)%nat -> at_ (map (map relu) m) i j = Rmax 0 (at_ m i j).
Proof.
  intros S I J. destruct (shape_map relu S) as [_ E]. rewrite E by assumption. unfold relu. apply Rmax_comm.
Qed.

Section Members.
Variables (e b : nat) (params : nat -> nat -> (nat -> nat -> R) * (nat -> R)).
Lemma hidden_seq hs : forall n k X, (forall m, (m < e)%nat -> shape b n (X m)) ->
  exists Y, ens_hidden (build_hidden e n hs k params) (map X (seq 0 e)) = Ok (map Y (seq 0 e)) /\
    forall m, (m < e)%nat -> shape b (last_size n hs) (Y m) /\
      forall r i, (r < b)%nat -> (i < last_size n hs)%nat -> at_ (Y m) r i = features n hs k (params m) (entry (nth r (X m) [])) i.
Proof.
  induction hs as [|h hs IH]; intros n k X SX; cbn [build_hidden ens_hidden].
  - exists X. split; [reflexivity|]. intros m M. split; [now apply SX|]. intros r i _ _. reflexivity.
  - rewrite (@ens_linear_seq _ X e b) by exact SX. cbn [rbind]. rewrite map_map.
    destruct (IH h (S k) (fun m => map (map relu) (map (lin (mkLinear n h (fst (params m k)) (snd (params m k)))) (X m)))) as [Y [E V]].
    { intros m M. apply shape_map. apply lin_shape; [apply (SX m M)|reflexivity]. }
    exists Y. split; [exact E|]. intros m M. destruct (V m M) as [SY VY]. rewrite last_size_cons. split; [exact SY|].
    intros r i Rb Ib. rewrite VY by assumption. cbn [features]. apply features_ext; auto.
    intros j J. assert (LX : List.length (X m) = b) by (apply (SX m M)).
    set (z := map (lin _) (X m)). assert (SZ : shape b h z) by (apply lin_shape; [exact LX|reflexivity]).
    pose proof (relu_at SZ Rb J) as A. unfold at_ at 1 in A. unfold matrix in *. rewrite A.
    unfold z. rewrite at_lin; [|congruence|exact J]. cbn [ln_w ln_b ln_in]. destruct (params m k); reflexivity.
Qed.
Lemma hidden_one h hs n x : (0 < e)%nat -> shape b n x ->
  exists Y, ens_hidden (build_hidden e n (h :: hs) 0 params) [x] = Ok (map Y (seq 0 e)) /\
    forall m, (m < e)%nat -> shape b (last_size n (h :: hs)) (Y m) /\
      forall r i, (r < b)%nat -> (i < last_size n (h :: hs))%nat -> at_ (Y m) r i = features n (h :: hs) 0 (params m) (entry (nth r x [])) i.
Proof.
  intros e0 Sx. destruct (@hidden_seq (h :: hs) n 0%nat (fun _ => x)) as [Y [E V]]; [intros; exact Sx|].
  exists Y. split; [|exact V]. rewrite <- E. cbn [build_hidden ens_hidden].
  rewrite (@ens_linear_seq _ (fun _ => x) e b) by (intros; exact Sx). now rewrite (@ens_linear_one _ x e b).
Qed.
End Members.

Lemma last_size_repeat n h k : last_size n (h :: repeat h k) = h.
Proof.
  revert n h. induction k as [|k IH]; intros n h; [reflexivity|]. rewrite last_size_cons. apply (IH h h).
Qed.
Lemma bound_soft lo hi v : AlgoModel.bound_logvar lo hi v = soft_bounds lo hi v.
Proof. reflexivity. Qed.

Section Ensemble.
Variables (n out layers e h : nat) (det : bool) (params : nat -> nat -> (nat -> nat -> R) * (nat -> R))
  (last : nat -> (nat -> nat -> R) * (nat -> R)) (lo hi : list R).
Hypotheses (e0 : (0 < e)%nat) (Llo : List.length lo = out) (Lhi : List.length hi = out).
Notation hidden := (h :: repeat h (layers - 1)).
Notation en := (build_ensemble n out layers e h det params last lo hi).
Definition m_out (m : nat) (row : list R) (i : nat) : R := member_output n hidden (params m) (last m) row i.
Definition m_lv (m : nat) (row : list R) (i : nat) : R := soft_bounds (entry lo i) (entry hi i) (m_out m row (out + i)).

Lemma firstn_at b c k m : shape b c m -> (k <= c)%nat -> shape b k (map (firstn k) m) /\
  forall i j, (i < b)%nat -> (j < k)%nat -> at_ (map (firstn k) m) i j = at_ m i j.
Proof.
  intros S K. pose proof S as [L F]. split.
  - split; [now rewrite map_length|]. rewrite Forall_forall in *. intros r I. apply in_map_iff in I. destruct I as [y [<- I]].
    rewrite firstn_length, (F y I). lia.
  - intros i j I J. unfold at_. rewrite (@map_nth_lt _ _ _ _ _ []) by (rewrite L; exact I). unfold entry.
    rewrite <- (firstn_skipn k (nth i m [])) at 2. rewrite app_nth1; [reflexivity|].
    rewrite firstn_length, (@shape_nth b c m i S I). lia.
Qed.
Lemma skipn_at b c k m : shape b (k + c) m -> shape b c (map (skipn k) m) /\
  forall i j, (i < b)%nat -> (j < c)%nat -> at_ (map (skipn k) m) i j = at_ m i (k + j).
Proof.
  intros S. pose proof S as [L F]. split.
  - split; [now rewrite map_length|]. rewrite Forall_forall in *. intros r I. apply in_map_iff in I. destruct I as [y [<- I]].
    rewrite skipn_length, (F y I). lia.
  - intros i j I J. unfold at_. rewrite (@map_nth_lt _ _ _ _ _ []) by (rewrite L; exact I). unfold entry.
    rewrite <- (firstn_skipn k (nth i m [])) at 2. rewrite app_nth2; rewrite firstn_length, (@shape_nth b (k + c) m i S I); [|lia].
    f_equal. lia.
Qed.
Lemma bounds_at b m : shape b out m ->
  shape b out (map (zipw (fun bd v => AlgoModel.bound_logvar (fst bd) (snd bd) v) (combine lo hi)) m) /\
  forall i j, (i < b)%nat -> (j < out)%nat ->
    at_ (map (zipw (fun bd v => AlgoModel.bound_logvar (fst bd) (snd bd) v) (combine lo hi)) m) i j = soft_bounds (entry lo j) (entry hi j) (at_ m i j).
Proof.
  intros S. pose proof S as [L F]. split.
  - split; [now rewrite map_length|]. rewrite Forall_forall in *. intros r I. apply in_map_iff in I. destruct I as [y [<- I]].
    rewrite zipw_length, combine_length, (F y I). lia.
  - intros i j I J. unfold at_. rewrite (@map_nth_lt _ _ _ _ _ []) by (rewrite L; exact I). unfold entry.
    rewrite (@zipw_nth _ _ _ _ _ _ _ (0, 0) 0); [|rewrite combine_length; lia|rewrite (@shape_nth b out m i S I); lia].
    rewrite combine_nth by congruence. reflexivity.
Qed.
Lemma forward_from b (X : nat -> matrix) (xs : list matrix) Y :
  ens_hidden (build_hidden e n hidden 0 params) xs = Ok (map Y (seq 0 e)) ->
  (forall m, (m < e)%nat -> shape b (last_size n hidden) (Y m) /\
     forall r i, (r < b)%nat -> (i < last_size n hidden)%nat -> at_ (Y m) r i = features n hidden 0 (params m) (entry (nth r (X m) [])) i) ->
  exists M V, default_forward en xs = Ok (map M (seq 0 e), map V (seq 0 e)) /\
    forall m, (m < e)%nat -> shape b out (M m) /\ shape b out (V m) /\
      forall i j, (i < b)%nat -> (j < out)%nat -> at_ (M m) i j = m_out m (nth i (X m) []) j /\ at_ (V m) i j = m_lv m (nth i (X m) []) j.
Proof.
  intros E V. unfold default_forward, build_ensemble. cbn [en_hidden en_last en_out en_min en_max].
  rewrite E. cbn [rbind].
  assert (LS : last_size n hidden = h) by apply last_size_repeat.
  rewrite LS in V.
  rewrite (@ens_linear_seq (fun m => mkLinear h (2 * out) (fst (last m)) (snd (last m))) Y e b) by (intros m M; apply (V m M)).
  cbn [rbind]. rewrite !map_map.
  eexists. eexists. split; [reflexivity|]. intros m M. destruct (V m M) as [SY VY].
  set (z := map (lin _) (Y m)). assert (SZ : shape b (2 * out) z) by (apply lin_shape; [apply SY|reflexivity]).
  assert (AZ : forall i j, (i < b)%nat -> (j < 2 * out)%nat -> at_ z i j = m_out m (nth i (X m) []) j).
  { intros i j I J. unfold z. rewrite at_lin; [|destruct SY as [-> _]; exact I|exact J]. cbn [ln_w ln_b ln_in].
    unfold m_out, member_output. rewrite LS. replace (fst (last m), snd (last m)) with (last m) by (destruct (last m); reflexivity).
    apply affine_ext. intros k K. apply VY; assumption. }
  destruct (firstn_at SZ (k := out) ltac:(lia)) as [S1 A1].
  assert (SZ2 : shape b (out + out) z) by (replace (out + out)%nat with (2 * out)%nat by lia; exact SZ).
  destruct (skipn_at SZ2) as [S2 A2]. destruct (bounds_at S2) as [S3 A3].
  split; [exact S1|]. split; [exact S3|]. intros i j I J. split.
  - rewrite A1 by assumption. apply AZ; lia.
  - rewrite A3, A2 by assumption. unfold m_lv. rewrite AZ by lia. reflexivity.
Qed.
Lemma forward_members b x : shape b n x ->
  exists M V, default_forward en [x] = Ok (map M (seq 0 e), map V (seq 0 e)) /\
    forall m, (m < e)%nat -> shape b out (M m) /\ shape b out (V m) /\
      forall i j, (i < b)%nat -> (j < out)%nat -> at_ (M m) i j = m_out m (nth i x []) j /\ at_ (V m) i j = m_lv m (nth i x []) j.
Proof.
  intros Sx. destruct (@hidden_one e b params h (repeat h (layers - 1)) n x e0 Sx) as [Y [E V]].
  exact (@forward_from b (fun _ => x) [x] Y E V).
Qed.
Lemma forward_batches b X : (forall m, (m < e)%nat -> shape b n (X m)) ->
  exists M V, default_forward en (map X (seq 0 e)) = Ok (map M (seq 0 e), map V (seq 0 e)) /\
    forall m, (m < e)%nat -> shape b out (M m) /\ shape b out (V m) /\
      forall i j, (i < b)%nat -> (j < out)%nat -> at_ (M m) i j = m_out m (nth i (X m) []) j /\ at_ (V m) i j = m_lv m (nth i (X m) []) j.
Proof.
  intros Sx. destruct (@hidden_seq e b params hidden n 0%nat X Sx) as [Y [E V]]. exact (@forward_from b X _ Y E V).
Qed.
Lemma member_mean_at b c (M : nat -> matrix) : (0 < b)%nat -> (forall m, (m < e)%nat -> shape b c (M m)) ->
  shape b c (member_mean (map M (seq 0 e))) /\
  forall i j, (i < b)%nat -> (j < c)%nat -> at_ (member_mean (map M (seq 0 e))) i j = average e (fun m => at_ (M m) i j).
Proof.
  intros b0 H. unfold member_mean.
  assert (Hd : hd [] (map M (seq 0 e)) = M 0%nat) by (destruct e; [lia|reflexivity]). unfold matrix in *. rewrite Hd.
  pose proof (H 0%nat e0) as S0. rewrite (shape_width S0 b0). destruct S0 as [L0 _]. rewrite L0. split; [apply shape_seq|].
  intros i j I J. rewrite (at_seq (fun i j => np_mean (map (fun m : list (list R) => nth j (nth i m []) 0) (map M (seq 0 e)))) I J).
  unfold np_mean, average. rewrite !map_length, seq_length, map_map. reflexivity.
Qed.
Lemma forward_ok b x : (0 < b)%nat -> shape b n x ->
  exists mean logvar, forward en x = Ok (mean, logvar) /\ shape b out mean /\ shape b out logvar /\
    forall i j, (i < b)%nat -> (j < out)%nat ->
      at_ mean i j = average e (fun m => m_out m (nth i x []) j) /\
      at_ logvar i j = average e (fun m => m_lv m (nth i x []) j).
Proof.
  intros b0 Sx. destruct (forward_members Sx) as [M [V [E A]]]. unfold forward, matrix in *. rewrite E. cbn [rbind].
  destruct (@member_mean_at b out M b0) as [S1 A1]; [intros m Hm; apply (A m Hm)|].
  destruct (@member_mean_at b out V b0) as [S2 A2]; [intros m Hm; apply (A m Hm)|].
  eexists. eexists. split; [reflexivity|]. split; [exact S1|]. split; [exact S2|]. intros i j I J. rewrite A1, A2 by assumption.
  unfold average. split; f_equal; apply f_equal; apply map_seq_ext; intros m Hm; apply (A m Hm); assumption.
Qed.
Lemma sqrt_exp x : sqrt (exp x) = exp (x / 2).
Proof.
  replace x with (x / 2 + x / 2) at 1 by field. rewrite exp_plus. apply sqrt_square. left. apply exp_pos.
Qed.
Lemma sample_ok b x noise : (0 < b)%nat -> shape b n x -> shape b out noise ->
  exists s, sample en noise x = Ok s /\ shape b out s /\
    forall i j, (i < b)%nat -> (j < out)%nat ->
      at_ s i j = average e (fun m => m_out m (nth i x []) j)
                  + if det then 0 else exp (average e (fun m => m_lv m (nth i x []) j) / 2) * at_ noise i j.
Proof.
  intros b0 Sx Sn. destruct (forward_ok b0 Sx) as [mean [logvar [E [S1 [S2 A]]]]]. unfold sample. rewrite E. cbn [rbind].
  replace (en_deterministic en) with det by reflexivity. destruct det.
  - exists mean. split; [reflexivity|]. split; [exact S1|]. intros i j I J. destruct (A i j I J) as [-> _]. ring.
  - destruct (shape_map exp S2) as [S3 A3]. destruct (shape_map sqrt S3) as [S4 A4].
    destruct (zip_rows_shape Rmult S4 Sn) as [S5 A5]. destruct (zip_rows_shape Rplus S1 S5) as [S6 A6].
    eexists. split; [reflexivity|]. split; [exact S6|]. intros i j I J. rewrite A6, A5, A4, A3 by assumption.
    destruct (A i j I J) as [-> ->]. now rewrite sqrt_exp.
Qed.
End Ensemble.
