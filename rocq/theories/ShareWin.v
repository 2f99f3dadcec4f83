(** * ShareWin: the columns of a batch of windows *)
From Verif Require Import Py PyLemmas MemModel MemSpec MemProofs MemRun MemSample.
Open Scope Z_scope.
Set Implicit Arguments.

Section Whole.
Context {S : Type} {HS : Scalar S}.

Lemma whole_columns cols lk out L (ws : list (window S)) :
  config_ok cols lk ->
  Forall (fun w => episode_ok cols lk (w_seq w) /\ 0 <= w_start w /\
                   w_start w + Z.of_nat L <= seq_len lk (w_seq w)) ws ->
  (forall c, In c cols ->
     dget out (c_name c) = Some (concat (map (win_rows cols L c) ws)) /\
     Forall (fun w => List.length (win_rows cols L c w) = local_len c L) ws) ->
  Forall (column_of_batch cols lk out L ws) cols.
Proof.
  intros C Hw Hc. apply Forall_forall. intros c Ic.
  destruct (Hc c Ic) as [E F]. unfold column_of_batch.
  assert (Len : forall n, local_len c L = n -> List.length (concat (map (win_rows cols L c) ws)) = (List.length ws * n)%nat).
  { intros n En. rewrite En in F. rewrite (@concat_len_uniform _ n).
    + rewrite map_length. auto.
    + apply Forall_forall. intros l Il. apply in_map_iff in Il as (w & <- & Iw).
      rewrite Forall_forall in F. auto. }
  destruct (c_kind c) as [| |tg m] eqn:Kc.
  - apply (@windows_rows S HS cols lk c L ws out Ic Kc E F Hw).
  - assert (Ell : local_len c L = 1%nat) by (unfold local_len; rewrite Kc; auto).
    eexists. split; [exact E|]. split; [rewrite (Len _ Ell); lia|]. rewrite Ell in F. intros i w Hi.
    pose proof (@batch_rows S (win_rows cols L c) 1 ws i 0 w F ltac:(lia) Hi) as Er.
    replace (i * 1 + 0)%nat with i in Er by lia. rewrite Er.
    assert (Iw : In w ws) by (eapply nth_error_In; eauto).
    rewrite Forall_forall in Hw. destruct (Hw w Iw) as (Ep & W0 & W1).
    pose proof (proj1 (Forall_forall _ _) Ep c Ic) as Co. unfold col_ok in Co. rewrite Kc in Co.
    pose proof (column_data_seq_len c (w_seq w)) as El.
    unfold win_rows. rewrite Kc. unfold row_at. simpl.
    destruct (column_data c (w_seq w)) as [|r rs]; [unfold zlen in El; simpl in El; lia|].
    simpl. split; congruence.
  - destruct (co_targets C c tg _ Ic Kc) as (d & Id & En & Bd). exists d. eexists.
    split; auto. split; auto. split; auto. split; [exact E|].
    assert (Fc : find_col cols tg = Some d) by (rewrite <- En; apply find_col_In; auto; apply (co_names C)).
    assert (Nx : forall i k w n, local_len c L = n -> nth_error ws i = Some w -> (k < n)%nat ->
       nth_error (concat (map (win_rows cols L c) ws)) (i * n + k) = nth_error (win_rows cols L c w) k).
    { intros i k w n En' Hi Hk. rewrite En' in F. apply batch_rows; auto. }
    assert (Ok_ : forall w, In w ws -> col_ok lk (w_seq w) c /\ 0 <= w_start w /\ w_start w + Z.of_nat L <= seq_len lk (w_seq w)).
    { intros w Iw. rewrite Forall_forall in Hw. destruct (Hw w Iw) as (Ep & W0 & W1).
      split; auto. apply (proj1 (Forall_forall _ _) Ep c Ic). }
    assert (Sl : forall w, zlen (column_data d (w_seq w)) = seq_len tg (w_seq w)).
    { intros w. rewrite <- En. apply column_data_seq_len. }
    destruct m.
    + assert (Ell : local_len c L = L) by (unfold local_len; rewrite Kc; auto). split; [auto|].
      intros i k w Hi Hk. rewrite (Nx i k w L Ell Hi Hk).
      destruct (Ok_ w) as (Co & W0 & W1); [eapply nth_error_In; eauto|]. unfold col_ok in Co. rewrite Kc in Co.
      unfold win_rows. rewrite Kc, Fc.
      replace (w_start w + Z.of_nat L + 1) with (w_start w + 1 + Z.of_nat L) by lia.
      rewrite row_at_slice by (rewrite ?Sl; lia).
      replace (w_start w + 1 + Z.of_nat k) with (w_start w + Z.of_nat k + 1) by lia.
      split; auto. apply row_at_some. rewrite Sl. lia.
    + assert (Ell : local_len c L = 1%nat) by (unfold local_len; rewrite Kc; auto). split; [rewrite (Len _ Ell); lia|].
      intros i w Hi. pose proof (Nx i 0%nat w 1%nat Ell Hi ltac:(lia)) as Er.
      replace (i * 1 + 0)%nat with i in Er by lia. rewrite Er.
      destruct (Ok_ w) as (Co & W0 & W1); [eapply nth_error_In; eauto|]. unfold col_ok in Co. rewrite Kc in Co.
      unfold win_rows. rewrite Kc, Fc.
      change (w_start w + Z.of_nat L + 1) with (w_start w + Z.of_nat L + Z.of_nat 1).
      rewrite row_at_slice by (rewrite ?Sl; lia).
      replace (w_start w + Z.of_nat L + Z.of_nat 0) with (w_start w + Z.of_nat L) by lia.
      split; auto. apply row_at_some. rewrite Sl. lia.
    + assert (Ell : local_len c L = L) by (unfold local_len; rewrite Kc; auto). split; [auto|].
      intros i k w Hi Hk. rewrite (Nx i k w L Ell Hi Hk).
      destruct (Ok_ w) as (Co & W0 & W1); [eapply nth_error_In; eauto|]. unfold col_ok in Co. rewrite Kc in Co.
      unfold win_rows. rewrite Kc, Fc.
      replace (w_start w + Z.of_nat L + n) with (w_start w + n + Z.of_nat L) by lia.
      rewrite row_at_slice by (rewrite ?Sl; lia).
      replace (w_start w + n + Z.of_nat k) with (w_start w + Z.of_nat k + n) by lia.
      split; auto. apply row_at_some. rewrite Sl. lia.
    + assert (Ell : local_len c L = L) by (unfold local_len; rewrite Kc; auto). split; [auto|].
      intros i k w Hi Hk. rewrite (Nx i k w L Ell Hi Hk).
      destruct (Ok_ w) as (Co & W0 & W1); [eapply nth_error_In; eauto|]. unfold col_ok in Co. rewrite Kc in Co.
      unfold win_rows. rewrite Kc, Fc. unfold synth_dones. rewrite nth_error_map, nth_arange by lia.
      simpl. rewrite Sl, Co. auto.
    + assert (Ell : local_len c L = L) by (unfold local_len; rewrite Kc; auto). split; [auto|].
      intros i k w Hi Hk. rewrite (Nx i k w L Ell Hi Hk).
      destruct (Ok_ w) as (Co & W0 & W1); [eapply nth_error_In; eauto|]. unfold col_ok in Co. rewrite Kc in Co.
      unfold win_rows. rewrite Kc, Fc. unfold synth_masks, synth_dones. rewrite nth_error_map, nth_arange by lia.
      simpl. rewrite Sl, Co. auto.
Qed.

(** A batch of a table that holds [B]. *)
Lemma windows_of_inv t B count L draws out : Inv t B -> (1 <= L)%nat ->
  Forall (fun e => episode_ok (t_cols t) (t_lenkey t) (snd e) /\
                   Z.of_nat L <= seq_len (t_lenkey t) (snd e) <= 2 ^ 53) B ->
  snd (t_sample t count L draws) = Ok out ->
  exists ws, List.length ws = count /\ Forall (window_in (t_lenkey t) B (Z.of_nat L)) ws /\
    Forall (column_of_batch (t_cols t) (t_lenkey t) out L ws) (t_cols t).
Proof.
  intros I HL Hb Eo. destruct (t_sample_windows count draws I HL Hb Eo) as (ws & W1 & W2 & _ & W3).
  exists ws. split; [exact W1|]. split; [exact W2|]. apply whole_columns; [apply (inv_cfg I)| |].
  - apply Forall_forall. intros w Iw. rewrite Forall_forall in W2. destruct (W2 w Iw) as (Wi & W0 & Wl).
    rewrite Forall_forall in Hb. apply Hb in Wi. tauto.
  - intros c Ic. subst out. split.
    + apply (dget_map_cols (fun c => concat (map (win_rows (t_cols t) L c) ws))); auto. apply (co_names (inv_cfg I)).
    + apply Forall_forall. intros w Iw. rewrite Forall_forall in W2.
      destruct (W2 w Iw) as (Wi & _). rewrite Forall_forall in Hb. apply Hb in Wi.
      destruct (@read_slice_window S HS t B c L w) as [_ E]; auto; tauto.
Qed.
End Whole.
