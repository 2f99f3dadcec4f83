(** * Proofs about the terminal adaptor (C15). *)
From Verif Require Import Py PyLemmas MemModel MemSpec MemProofs MemRun MemSample AdaptorModel.
Open Scope Z_scope.
Set Implicit Arguments.

Lemma map2_map {A B C W} (f : A -> B -> C) (g : W -> A) (h : W -> B) (ws : list W) :
  map2 f (map g ws) (map h ws) = map (fun w => f (g w) (h w)) ws.
Proof. induction ws; simpl; f_equal; auto. Qed.

Lemma last_nth {A} (l : list A) d x : nth_error l (List.length l - 1) = Some x -> last l d = x.
Proof.
  induction l as [|a l IH]; simpl; [discriminate|]. destruct l as [|b l]; simpl; [congruence|].
  simpl in IH. rewrite Nat.sub_0_r in IH. auto.
Qed.

Section A.
Context {S : Type} `{Scalar S}.

Lemma concat_singletons (f : window S -> array S) ws :
  Forall (fun w => List.length (f w) = 1%nat) ws ->
  concat (map f ws) = map (fun w => hd [] (f w)) ws.
Proof.
  induction 1 as [|w r Hw Hr IH]; simpl; auto. rewrite IH.
  destruct (f w) as [|x [|y z]]; simpl in *; try lia. auto.
Qed.

Lemma chunk_concat' {A} n (frames : list (list A)) fuel : (0 < n)%nat ->
  Forall (fun f => List.length f = n) frames -> (List.length (concat frames) <= fuel)%nat ->
  chunk fuel n (concat frames) = frames.
Proof. intros; apply (@chunk_concat A); auto. Qed.

(** Like [sample_master], with the windows taken from the added episodes. *)
Lemma sample_master_adds cols lk maxlen s e ops count L draws out :
  sampling_ok cols lk s e ops L ->
  let t := run (t_create cols lk maxlen s e) ops in
  snd (t_sample t count L draws) = Ok out ->
  exists ws, batch_of t lk count L ws /\ Forall (fun w => In (fst w) (adds ops)) ws /\
    Forall (fun w => episode_ok cols lk (w_seq w) /\ 0 <= w_start w /\
                     w_start w + Z.of_nat L <= seq_len lk (w_seq w)) ws /\
    (forall c, In c cols ->
       dget out (c_name c) = Some (concat (map (win_rows cols L c) ws)) /\
       Forall (fun w => List.length (win_rows cols L c w) = local_len c L) ws).
Proof.
  intros (C & Fs & Fe & Co & HL & Hep) t Eo.
  destruct (run_create maxlen C Fs Fe Co) as (B & I & Sb & F1 & F2 & F3 & F4).
  fold t in I, F1, F2, F3, F4.
  assert (Hb : Forall (fun e => episode_ok (t_cols t) (t_lenkey t) (snd e) /\
                   Z.of_nat L <= seq_len (t_lenkey t) (snd e) <= 2 ^ 53) B).
  { rewrite F1, F2. eapply sublist_Forall; eauto. }
  destruct (t_sample_windows count draws I HL Hb Eo) as (ws & W1 & W2 & _ & W3).
  rewrite F1 in W3. rewrite F2 in W2.
  exists ws. split; [split; auto; exists B; split; [apply (inv_holds I)|auto]|]. split; [|split].
  - apply Forall_forall. intros w Iw. rewrite Forall_forall in W2. destruct (W2 w Iw) as (Wi & _).
    assert (Fb : Forall (fun x => In x (adds ops)) B)
      by (eapply sublist_Forall; [exact Sb|]; apply Forall_forall; auto).
    rewrite Forall_forall in Fb. auto.
  - apply Forall_forall. intros w Iw. rewrite Forall_forall in W2. destruct (W2 w Iw) as (Wi & W0 & Wl).
    split; auto. rewrite Forall_forall in Hb. apply Hb in Wi. rewrite F1, F2 in Wi. tauto.
  - intros c Ic. subst out. split.
    + apply (dget_map_cols (fun c => concat (map (win_rows cols L c) ws))); auto. apply (co_names C).
    + apply Forall_forall. intros w Iw.
      destruct (@read_slice_window S H t B c L w) as [_ E]; auto; rewrite ?F1, ?F2; auto.
      * rewrite Forall_forall in W2. auto.
      * rewrite Forall_forall in W2. destruct (W2 w Iw) as (Wi & _).
        rewrite Forall_forall in Hb. apply Hb in Wi. rewrite F1, F2 in Wi. tauto.
      * rewrite F1 in E. auto.
Qed.

Lemma terminal_key cols lk maxlen s e ops count L draws out tc mc (interrupted : Z -> bool) :
  sampling_ok cols lk s e ops L ->
  let t := run (t_create cols lk maxlen s e) ops in
  In tc cols -> c_name tc = "terminal"%string -> c_kind tc = KTag ->
  In mc cols -> c_name mc = "masks"%string -> c_kind mc = KVirt lk MMask ->
  c_cast tc s_one = s_one -> c_cast tc s_zero = s_zero ->
  Forall (fun e => dget (snd e) "terminal"%string =
                   Some [[if interrupted (fst e) then s_one else s_zero]]) (adds ops) ->
  sample_terminal t count L draws = Ok out ->
  exists ws tags masks, batch_of t lk count L ws /\
    dget out "terminal"%string = Some tags /\ List.length tags = count /\
    dget out "masks"%string = Some masks /\ List.length masks = (count * L)%nat /\
    forall i w, nth_error ws i = Some w ->
      let at_end := w_start w + Z.of_nat L =? seq_len lk (w_seq w) in
      nth_error tags i = Some [if at_end && negb (interrupted (fst (fst w))) then s_zero else s_one] /\
      nth_error masks (i * L + (L - 1)) = Some [if at_end then s_zero else s_one].
Proof.
  intros So t It Nt Kt Im Nm Km C1 C0 Hterm Eo.
  unfold sample_terminal in Eo.
  destruct (snd (t_sample t count L draws)) as [out0|er] eqn:Es; [|discriminate]. simpl in Eo.
  destruct (sample_master_adds maxlen count draws So Es) as (ws & Bt & Ha & Hw & Hc).
  pose proof So as (C & Fs & Fe & Co & HL & Hep).
  destruct (Hc tc It) as [Et Ft]. destruct (Hc mc Im) as [Em Fm]. rewrite Nt in Et. rewrite Nm in Em.
  assert (Lt : local_len tc L = 1%nat) by (unfold local_len; rewrite Kt; auto). rewrite Lt in Ft.
  assert (Lm : local_len mc L = L) by (unfold local_len; rewrite Km; auto). rewrite Lm in Fm.
  unfold terminal_adaptor in Eo. rewrite Et, Em in Eo.
  destruct (Nat.eqb_spec L 0); [lia|].
  assert (Hlm : List.length (concat (map (win_rows cols L mc) ws)) = (count * L)%nat).
  { rewrite (@concat_len_uniform _ L).
    + rewrite map_length. destruct Bt as [<- _]. auto.
    + apply Forall_forall. intros l Il. apply in_map_iff in Il as (w & <- & Iw).
      rewrite Forall_forall in Fm. auto. }
  rewrite (concat_singletons _ Ft) in Eo.
  assert (Hlt : List.length (map (fun w => hd [] (win_rows cols L tc w)) ws) = count).
  { rewrite map_length. destruct Bt; auto. }
  unfold array, row in *.
  rewrite Hlm, Hlt, Nat.eqb_refl in Eo. cbn [negb] in Eo.
  rewrite chunk_concat' in Eo.
  2:{ lia. }
  2:{ apply Forall_forall. intros l Il. apply in_map_iff in Il as (w & <- & Iw).
      rewrite Forall_forall in Fm. auto. }
  2:{ unfold row in *. rewrite Hlm. auto. }
  rewrite map2_map in Eo. inversion Eo as [Eout]. clear Eo.
  exists ws, (map (fun w => where_one (hd [] (win_rows cols L tc w)) (last (win_rows cols L mc w) [])) ws),
    (concat (map (win_rows cols L mc) ws)).
  split; auto. split; [apply dget_dset_eq|]. split; [rewrite map_length; destruct Bt; auto|].
  split. { rewrite dget_dset_neq; auto. discriminate. }
  split; auto.
  intros i w Hi. set (at_end := w_start w + Z.of_nat L =? seq_len lk (w_seq w)). assert (Iw : In w ws) by (eapply nth_error_In; eauto).
  rewrite Forall_forall in Hw. destruct (Hw w Iw) as (Ep & W0 & W1).
  (* the mask of the last step *)
  assert (Hm : nth_error (win_rows cols L mc w) (L - 1) = Some [if at_end then s_zero else s_one]).
  { unfold win_rows. rewrite Km.
    destruct (co_targets C mc lk MMask Im Km) as (d & Id & En & Bd).
    assert (Efc : find_col cols lk = Some d)
      by (rewrite <- En; apply find_col_In; auto; apply (co_names C)).
    rewrite Efc.
    pose proof (column_data_seq_len d (w_seq w)) as El. rewrite En in El.
    unfold synth_masks. rewrite nth_error_map, nth_arange by lia. simpl. rewrite El. unfold at_end.
    replace (w_start w + Z.of_nat (L - 1) =? seq_len lk (w_seq w) - 1) with
      (w_start w + Z.of_nat L =? seq_len lk (w_seq w)); auto.
    destruct (Z.eqb_spec (w_start w + Z.of_nat L) (seq_len lk (w_seq w))),
      (Z.eqb_spec (w_start w + Z.of_nat (L - 1)) (seq_len lk (w_seq w) - 1)); auto; lia. }
  assert (Hml : last (win_rows cols L mc w) [] = [if at_end then s_zero else s_one]).
  { apply last_nth. rewrite Forall_forall in Fm. pose proof (Fm w Iw) as E1.
    unfold array, row in *. rewrite E1. auto. }
  split.
  - rewrite nth_error_map, Hi. simpl. f_equal. rewrite Hml.
    unfold win_rows. rewrite Kt. unfold column_data. rewrite Nt.
    assert (Ew : dget (w_seq w) "terminal"%string = Some [[if interrupted (fst (fst w)) then s_one else s_zero]]).
    { rewrite Forall_forall in Ha, Hterm. apply (Hterm (fst w)). auto. }
    rewrite Ew. simpl. destruct (interrupted (fst (fst w))); simpl; rewrite ?C1, ?C0.
    + rewrite s_is_one_one, andb_false_r. auto.
    + rewrite s_is_one_zero, andb_true_r. auto.
  - rewrite (@batch_rows S (win_rows cols L mc) L ws i (L - 1) w); auto. lia.
Qed.
End A.
