(** * BldMore: batches of the builders' tables; loading *)
From Coq Require Import Lia Ascii.
From Verif Require Import Py PyLemmas MemModel MemSpec MemProofs MemRun MemSample MemSample4 AdaptorModel AdaptorProofs BldModel BldSpec BldProofs.
Set Implicit Arguments. Unset Strict Implicit.
Open Scope string_scope.
Open Scope list_scope.
Open Scope Z_scope.

Section P.
Context {S : Type} {HS : Scalar S}.
Implicit Types m : mdp S.

Lemma terminal_adaptor_ok L (rows : dict string (array S)) tg v : dget rows "terminal" = Some tg -> dget rows "masks" = Some v -> (1 <= L)%nat ->
  List.length v = (List.length tg * L)%nat -> exists r, terminal_adaptor L "terminal" "masks" rows = Ok r /\
  (forall x, x <> "terminal" -> dget r x = dget rows x) /\ (forall x, In x (dkeys r) -> x = "terminal" \/ In x (dkeys rows)).
Proof.
  intros E1 E2 HL Len. unfold terminal_adaptor. rewrite E1, E2. destruct (Nat.eqb_spec L 0); [lia|]. rewrite Len, Nat.eqb_refl. cbn [negb].
  eexists. split; [reflexivity|]. split.
  - intros x N. apply dget_dset_neq. auto.
  - intros x H. apply In_dkeys_dset in H. tauto.
Qed.

Lemma eject_one_cols (t : table S) id : t_cols (fst (eject_one t id)) = t_cols t.
Proof.
  unfold eject_one. destruct (del_all (t_data t) id) as [d [u|e]]; [|reflexivity]. cbn zeta. destruct (dget _ id) as [len|]; [|reflexivity].
  destruct (s_forget _ id) as [s [u2|e]]; [|reflexivity]. cbn zeta. destruct (e_forget _ id) as [ej x]. reflexivity.
Qed.
Lemma eject_all_cols ids : forall t : table S, t_cols (fst (eject_all t ids)) = t_cols t.
Proof.
  induction ids as [|i ids IH]; intros t; [reflexivity|]. cbn [eject_all]. pose proof (eject_one_cols t i) as H.
  destruct (eject_one t i) as [t1 [u|e]]; cbn [fst] in *; auto. rewrite IH. auto.
Qed.
Lemma add_cols (t : table S) id s dr : t_cols (fst (add_sequence t id s dr)) = t_cols t.
Proof.
  unfold add_sequence. destruct (dget s (t_lenkey t)) as [fr|]; [|reflexivity]. cbn zeta.
  set (z := if t_maxlen t <? t_size t + zlen fr then _ else _).
  assert (E : t_cols (fst z) = t_cols t).
  { unfold z. destruct (t_maxlen t <? t_size t + zlen fr); [|reflexivity]. unfold eject_count. cbn zeta. destruct (e_sample _ _ dr) as [ej [ids|e]]; [|reflexivity]. rewrite eject_all_cols. reflexivity. }
  destruct z as [t1 [u|e]]; cbn [fst] in *; auto. destruct (write_columns _ _ _ s) as [d [u2|e]]; [|exact E].
  destruct (s_track _ _ _) as [s' [u3|e]]; [|exact E]. destruct (e_track _ _ _) as [ej x]. exact E.
Qed.
Lemma run_cols ops : forall t : table S, t_cols (run t ops) = t_cols t.
Proof.
  induction ops as [|o ops IH]; intros t; [reflexivity|]. change (run t (o :: ops)) with (run (step t o) ops). rewrite IH.
  destruct o as [id s dr|c n dr|n| | |]; cbn [step]; auto.
  - apply add_cols.
  - destruct (t_sample_frame t c n dr) as [d ->]. reflexivity.
  - unfold t_resize. destruct (n <? t_maxlen t); reflexivity.
Qed.

Section B.
Variables (next : mapper) (f32 dc mc : S -> S) (term : bool) (m : mdp S) (maxlen : Z) (smp : sampler) (ops : list (op S)) (count L : nat) (draws : list draw).
Hypothesis O : spaces_ok m.
Let cols := builder_columns next f32 dc mc term m.
Let t := run (builder_table next f32 dc mc term m maxlen smp) ops.
Let keys := dkeys (md_state m).
Hypothesis SO : sampling_ok cols "actions" smp (EFifo fifo_init) ops L.

Lemma table_is : t = run (t_create cols "actions" maxlen smp (EFifo fifo_init)) ops.
Proof. unfold t, builder_table. rewrite column_dict_id by (apply builder_names; auto). reflexivity. Qed.

Lemma batch_main out : snd (t_sample t count L draws) = Ok out ->
  exists b ws, builder_sample t keys term count L draws = Ok b /\ batch_of t "actions" count L ws /\
    Forall (column_of_batch cols "actions" out L ws) cols /\
    (forall k, In k keys -> dget (bt_obs b) k = dget out k /\ dget (bt_next b) k = dget out (String.append "next_" k)) /\
    (forall k, ~ In k keys -> dget (bt_obs b) k = None /\ dget (bt_next b) k = None) /\
    (forall x, In x ["actions"; "dones"; "masks"; "rewards"] -> dget (bt_rows b) x = dget out x) /\
    (forall x, In x (dkeys (bt_rows b)) -> In x reserved).
Proof.
  intros E. rewrite table_is in E. destruct (@sample_whole _ _ _ _ _ _ _ _ _ _ _ _ SO E) as (ws & Bt & F). rewrite <- table_is in E, Bt.
  assert (Kc : dkeys out = map (@c_name S) cols).
  { rewrite (sample_keys E), table_is. f_equal. apply run_cols. }
  assert (No : NoDup (dkeys out)) by (rewrite Kc; apply builder_names; auto).
  assert (Names : dkeys out = ["actions"; "dones"; "masks"; "rewards"] ++ with_next_names keys ++ (if term then ["terminal"] else [])).
  { rewrite Kc. unfold cols, builder_columns. rewrite !map_app, state_names. f_equal; [unfold fixed_columns; destruct (md_rewards m); reflexivity|]. f_equal. destruct term; reflexivity. }
  assert (Nn : NoDup (with_next_names keys)) by (apply names_nodup; [apply (so_keys O)|apply (so_next O)]).
  destruct (@move_ok S keys out [] []) as (b0 & Eb & B1 & B2 & B3 & B4); auto.
  { intros x Hx. rewrite Names, !in_app_iff. auto. }
  assert (Res : forall x, In x reserved -> inb x (with_next_names keys) = false).
  { intros x Hx. apply inb_false. intros C. apply in_names in C. destruct C as [C|[k [_ ->]]]; [apply (so_reserved O x); auto|apply (next_not_reserved Hx)]. }
  set (rows1 := ddel (ddel (bt_rows b0) "observation") "next_observation").
  assert (R1 : forall x, In x reserved -> dget rows1 x = dget out x).
  { intros x Hx. unfold rows1. rewrite !dget_ddel_neq. - rewrite B3, Res; auto. - intros <-. cbn in Hx. intuition discriminate. - intros <-. cbn in Hx. intuition discriminate. }
  assert (Hk : forall x, In x (dkeys rows1) -> In x reserved).
  { intros x Hx. unfold rows1 in Hx. apply In_dkeys_ddel in Hx; [|apply NoDup_ddel; auto]. destruct Hx as [_ Hx]. apply In_dkeys_ddel in Hx; [|auto]. destruct Hx as [_ Hx].
    apply dget_key in Hx. destruct Hx as [v Hx]. rewrite B3 in Hx. destruct (inb x (with_next_names keys)) eqn:I; [discriminate|]. apply inb_false in I.
    apply dget_Some_key in Hx. rewrite Names, !in_app_iff in Hx. destruct Hx as [Hx|[Hx|Hx]]; [cbn in Hx |- *; tauto|contradiction|]. destruct term; cbn in Hx |- *; tauto. }
  assert (OB : forall k, In k keys -> dget (bt_obs b0) k = dget out k /\ dget (bt_next b0) k = dget out (String.append "next_" k)).
  { intros k I. rewrite B1, B2. apply inb_In in I. rewrite I. auto. }
  assert (OB' : forall k, ~ In k keys -> dget (bt_obs b0) k = None /\ dget (bt_next b0) k = None).
  { intros k I. rewrite B1, B2. apply inb_false in I. rewrite I. auto. }
  unfold builder_sample. rewrite E. cbn [rbind key_map]. unfold dict_obs_adaptor. rewrite Eb. cbn [rbind bt_obs bt_next bt_rows]. fold rows1.
  destruct term eqn:T.
  - (* terminal *)
    assert (It : In (mkCol "terminal" 1 f32 KTag) cols) by (unfold cols, builder_columns; rewrite !in_app_iff; right; right; left; auto).
    assert (Im : In (mkCol "masks" 1 mc (KVirt "actions" MMask)) cols) by (unfold cols, builder_columns; rewrite !in_app_iff; left; right; right; left; auto).
    pose proof (proj1 (Forall_forall _ _) F _ It) as Ft. unfold column_of_batch in Ft. cbn [c_kind c_name] in Ft. destruct Ft as (tags & Et & Lt & _).
    pose proof (proj1 (Forall_forall _ _) F _ Im) as Fm. unfold column_of_batch in Fm. cbn [c_kind c_name] in Fm. destruct Fm as (d & rws & _ & _ & _ & Em & Lm & _).
    assert (T1 : dget rows1 "terminal" = Some tags) by (rewrite R1; auto; cbn; tauto).
    assert (T2 : dget rows1 "masks" = Some rws) by (rewrite R1; auto; cbn; tauto).
    destruct SO as (_ & _ & _ & _ & HL & _).
    destruct (terminal_adaptor_ok T1 T2 HL) as (r & Er & G1 & G2); [lia|].
    rewrite Er. cbn [rbind]. eexists. exists ws. split; [reflexivity|]. split; [exact Bt|]. split; [exact F|]. cbn [bt_obs bt_next bt_rows].
    split; [exact OB|]. split; [exact OB'|]. split.
    + intros x Hx. rewrite G1; [apply R1; cbn in Hx |- *; tauto|]. intros ->. cbn in Hx. intuition discriminate.
    + intros x Hx. apply G2 in Hx. destruct Hx as [-> | Hx]; [cbn; tauto|auto].
  - eexists. exists ws. split; [reflexivity|]. split; [exact Bt|]. split; [exact F|]. cbn [bt_obs bt_next bt_rows].
    split; [exact OB|]. split; [exact OB'|]. split; [|exact Hk]. intros x Hx. apply R1. cbn in Hx |- *; tauto.
Qed.

Lemma in_cols_state k s : In (k, s) (md_state m) -> In (mkCol k (sp_size s) (sp_cast s) KBase) cols /\ In (mkCol (String.append "next_" k) (sp_size s) (sp_cast s) (KVirt k next)) cols.
Proof. intros H. unfold cols, builder_columns. rewrite !in_app_iff. split; right; left; apply in_state; eauto 10. Qed.
Lemma state_target k s d : In (k, s) (md_state m) -> In d cols -> c_name d = k -> d = mkCol k (sp_size s) (sp_cast s) KBase.
Proof.
  intros H I E. destruct (in_cols_state H) as [I2 _].
  assert (N : NoDup (map (@c_name S) cols)) by (apply builder_names; auto).
  destruct (In_nth _ _ (mkCol k (sp_size s) (sp_cast s) KBase) I) as (i & Li & Ei). destruct (In_nth _ _ (mkCol k (sp_size s) (sp_cast s) KBase) I2) as (j & Lj & Ej).
  assert (i = j). { apply (proj1 (NoDup_nth _ k) N); rewrite ?map_length; auto.
    rewrite (map_nth (@c_name S) cols (mkCol k (sp_size s) (sp_cast s) KBase) i : nth i (map (@c_name S) cols) k = _).
    rewrite (map_nth (@c_name S) cols (mkCol k (sp_size s) (sp_cast s) KBase) j : nth j (map (@c_name S) cols) k = _). rewrite Ei, Ej. auto. }
  subst j. rewrite <- Ei, Ej. auto.
Qed.
Lemma rewards_in : exists size cast, In (mkCol "rewards" size cast KBase) cols /\ cast = match md_rewards m with Some r => sp_cast r | None => f32 end.
Proof.
  unfold cols, builder_columns. destruct (md_rewards m) as [r|] eqn:E; do 2 eexists; (split; [rewrite !in_app_iff; left; unfold fixed_columns; rewrite E; cbn; eauto 10|reflexivity]).
Qed.

Lemma base_rows (out : dict string (array S)) ws k size cast : rows_of_windows out L (mkCol k size cast KBase) ws -> exists rows, dget out k = Some rows /\ window_rows k cast 0 L ws rows.
Proof.
  intros (rows & E & Len & H). exists rows. split; auto. split; auto. intros i j w Hi Hj. destruct (H i j w Hi Hj) as [A B]. split; auto.
  rewrite Z.add_0_r. exact A.
Qed.
Lemma batch_gen out next_says : (forall k s ws, In (k, s) (md_state m) -> column_of_batch cols "actions" out L ws (mkCol (String.append "next_" k) (sp_size s) (sp_cast s) (KVirt k next)) ->
    exists rows, dget out (String.append "next_" k) = Some rows /\ next_says k (sp_cast s) ws rows) ->
  snd (t_sample t count L draws) = Ok out ->
  exists b ws, builder_sample t keys term count L draws = Ok b /\ batch_of t "actions" count L ws /\ batch_says next_says m f32 L b ws.
Proof.
  intros NS E. destruct (batch_main E) as (b & ws & Eb & Bt & F & OB & OB' & R1 & R2). exists b, ws. split; auto. split; auto.
  assert (C : forall c, In c cols -> column_of_batch cols "actions" out L ws c) by (apply Forall_forall; auto).
  split; [|split; [exact OB'|split; [|split; [|split; [|split; [|exact R2]]]]]].
  - intros k s H. destruct (in_cols_state H) as [I1 I2]. assert (Ik : In k keys) by (apply (in_map fst) in H; exact H).
    destruct (OB k Ik) as [-> ->]. split.
    + apply base_rows with (sp_size s). apply (C _ I1).
    + apply NS; auto.
  - rewrite R1 by (cbn; auto). apply base_rows with (sp_size (md_actions m)). apply (C (mkCol "actions" (sp_size (md_actions m)) (sp_cast (md_actions m)) KBase)). left; auto.
  - rewrite R1 by (cbn; auto). destruct rewards_in as (size & cast & I & <-). apply base_rows with size. apply (C _ I).
  - rewrite R1 by (cbn; auto). assert (I : In (mkCol "dones" 1 dc (KVirt "actions" MDones)) cols) by (right; left; auto).
    destruct (C _ I) as (d & rows & _ & _ & _ & Er & Len & H). cbn [c_name] in Er. exists rows. split; auto. split; auto.
  - rewrite R1 by (cbn; auto). assert (I : In (mkCol "masks" 1 mc (KVirt "actions" MMask)) cols) by (right; right; left; auto).
    destruct (C _ I) as (d & rows & _ & _ & _ & Er & Len & H). cbn [c_name] in Er. exists rows. split; auto. split; auto.
Qed.
Lemma batch_one_step out : next = MNext -> snd (t_sample t count L draws) = Ok out ->
  exists b ws, builder_sample t keys term count L draws = Ok b /\ batch_of t "actions" count L ws /\ batch_says (fun k cast ws rows => window_rows k cast 1 L ws rows) m f32 L b ws.
Proof.
  intros N. apply batch_gen. intros k s ws H C. unfold column_of_batch in C. cbn [c_kind c_name] in C. destruct C as (d & rows & Id & En & _ & Er & C). rewrite N in C.
  destruct C as [Len C]. exists rows. split; auto. split; auto. intros i j w Hi Hj. destruct (C i j w Hi Hj) as [A B]. split; auto. rewrite A.
  rewrite (state_target H Id En). reflexivity.
Qed.
Lemma batch_n_step out : next = MNextLast -> snd (t_sample t count L draws) = Ok out ->
  exists b ws, builder_sample t keys term count L draws = Ok b /\ batch_of t "actions" count L ws /\ batch_says (fun k cast ws rows => after_rows k cast L ws rows) m f32 L b ws.
Proof.
  intros N. apply batch_gen. intros k s ws H C. unfold column_of_batch in C. cbn [c_kind c_name] in C. destruct C as (d & rows & Id & En & _ & Er & C). rewrite N in C.
  destruct C as [Len C]. exists rows. split; auto. split; auto. intros i w Hi. destruct (C i w Hi) as [A B]. split; auto. rewrite A.
  rewrite (state_target H Id En). reflexivity.
Qed.
End B.

Section C.
Variables (f32 dc mc : S -> S) (term : bool) (m : mdp S) (maxlen : Z) (smp : sampler) (ops : list (op S)) (count L : nat) (draws : list draw).
Lemma history_sampling next : spaces_ok m -> client_history (builder_columns next f32 dc mc term m) smp ops L -> sampling_ok (builder_columns next f32 dc mc term m) "actions" smp (EFifo fifo_init) ops L.
Proof. intros O (A & B & C & D). split; [apply builder_config; auto|]. split; auto. split; [constructor|auto]. Qed.
Lemma one_step : spaces_ok m -> client_history (builder_columns MNext f32 dc mc term m) smp ops L ->
  let t := run (builder_table MNext f32 dc mc term m maxlen smp) ops in
  match snd (t_sample t count L draws) with
  | Err e => builder_sample t (dkeys (md_state m)) term count L draws = Err e
  | Ok _ => exists b ws, builder_sample t (dkeys (md_state m)) term count L draws = Ok b /\ batch_of t "actions" count L ws /\
      batch_says (fun k cast ws rows => window_rows k cast 1 L ws rows) m f32 L b ws
  end.
Proof.
  intros O C t. destruct (snd (t_sample t count L draws)) as [out|e] eqn:E.
  - apply (batch_one_step O (history_sampling O C) eq_refl E).
  - unfold builder_sample. rewrite E. reflexivity.
Qed.
Lemma n_step : spaces_ok m -> client_history (builder_columns MNextLast f32 dc mc term m) smp ops L ->
  let t := run (builder_table MNextLast f32 dc mc term m maxlen smp) ops in
  match snd (t_sample t count L draws) with
  | Err e => builder_sample t (dkeys (md_state m)) term count L draws = Err e
  | Ok _ => exists b ws, builder_sample t (dkeys (md_state m)) term count L draws = Ok b /\ batch_of t "actions" count L ws /\
      batch_says (fun k cast ws rows => after_rows k cast L ws rows) m f32 L b ws
  end.
Proof.
  intros O C t. destruct (snd (t_sample t count L draws)) as [out|e] eqn:E.
  - apply (batch_n_step O (history_sampling O C) eq_refl E).
  - unfold builder_sample. rewrite E. reflexivity.
Qed.
End C.

Lemma column_dict_nodup (cols : list (column S)) : NoDup (map (@c_name S) (column_dict cols)).
Proof.
  assert (G : forall (l : list (column S)) (d : dict string (column S)), NoDup (dkeys d) -> (forall k c, In (k, c) d -> c_name c = k) ->
    let d' := fold_left (fun d c => dset d (c_name c) c) l d in NoDup (dkeys d') /\ forall k c, In (k, c) d' -> c_name c = k).
  { induction l as [|c l IH]; intros d N H; cbn zeta; cbn [fold_left]; auto. apply IH; [apply NoDup_dset; auto|].
    clear - H. intros k c'. induction d as [|[k0 c0] d IHd]; cbn [dset].
    - intros [E|[]]. injection E as <- <-. auto.
    - destruct (keqb_spec (c_name c) k0) as [Q|Q].
      + intros [E|I]; [injection E as <- <-; auto|apply (H k c'); right; auto].
      + intros [E|I]; [injection E as <- <-; apply (H k0 c0); left; auto|]. apply IHd; auto. intros; apply H; right; auto. }
  destruct (G cols [] ltac:(constructor) ltac:(intros ? ? [])) as [N H]. unfold column_dict.
  set (d := fold_left (fun (d : dict string (column S)) (c : column S) => dset d (c_name c) c) cols []) in *. replace (map (@c_name S) (map snd d)) with (dkeys d); auto.
  unfold dkeys. rewrite map_map. apply map_ext_in. intros [k c] I. cbn. symmetry. apply H; auto.
Qed.
Lemma collision next f32 dc mc term m maxlen smp ops count L draws b k :
  In k (dkeys (md_state m)) -> In (String.append "next_" k) (dkeys (md_state m)) ->
  builder_sample (run (builder_table next f32 dc mc term m maxlen smp) ops) (dkeys (md_state m)) term count L draws <> Ok b.
Proof.
  intros I1 I2. unfold builder_sample. destruct (snd (t_sample _ count L draws)) as [out|e] eqn:E; [|discriminate]. cbn [rbind key_map].
  assert (N : NoDup (dkeys out)). { rewrite (sample_keys E), run_cols. apply column_dict_nodup. }
  unfold dict_obs_adaptor. destruct (@move_collision S (dkeys (md_state m)) out [] [] N) as [e He]; [|rewrite He; discriminate].
  intros C. clear - C I1 I2. assert (Kn : k <> String.append "next_" k). { intros Q. apply (f_equal String.length) in Q. cbn in Q. lia. }
  apply in_split in I2. destruct I2 as (a & c & E). rewrite E in *.
  unfold with_next_names in C. rewrite flat_map_app in C. cbn [flat_map] in C.
  apply in_app_or in I1. apply NoDup_remove_2 with (l := flat_map (fun k => [k; String.append "next_" k]) a) in C. apply C.
  rewrite in_app_iff. destruct I1 as [I1|[I1|I1]].
  - left. apply in_flat_map. exists k. cbn; auto.
  - congruence.
  - right. right. apply in_flat_map. exists k. cbn; auto.
Qed.
Lemma move_rows_gone ks : forall (result obs next : dict string (array S)) b x, NoDup (dkeys result) -> (In x ks \/ ~ In x (dkeys result)) ->
  move_keys true (combine ks ks) result obs next = Ok b -> ~ In x (dkeys (bt_rows b)) /\ NoDup (dkeys (bt_rows b)).
Proof.
  induction ks as [|k ks IH]; intros result obs next b x N H E.
  - injection E as <-. cbn. split; auto. destruct H as [[]|H]; auto.
  - cbn [combine move_keys] in E. unfold pop in E. destruct (dget result k) as [v|] eqn:Ev; [|discriminate]. cbn [rbind fst snd] in E.
    destruct (dget (ddel result k) (String.append "next_" k)) as [w|] eqn:Ew; [|discriminate]. cbn [rbind fst snd] in E.
    eapply IH; [| |exact E]; [repeat apply NoDup_ddel; auto|]. destruct H as [[<-|H]|H]; auto.
    + right. intros C. apply In_dkeys_ddel in C; [|apply NoDup_ddel; auto]. destruct C as [_ C]. apply In_dkeys_ddel in C; tauto.
    + right. intros C. apply In_dkeys_ddel in C; [|apply NoDup_ddel; auto]. destruct C as [_ C]. apply In_dkeys_ddel in C; tauto.
Qed.
Lemma reserved_lost next f32 dc mc m maxlen smp ops count L draws b k :
  In k (dkeys (md_state m)) ->
  builder_sample (run (builder_table next f32 dc mc false m maxlen smp) ops) (dkeys (md_state m)) false count L draws = Ok b ->
  dget (bt_rows b) k = None.
Proof.
  intros I. unfold builder_sample. destruct (snd (t_sample _ count L draws)) as [out|e] eqn:E; [|discriminate]. cbn [rbind key_map].
  assert (N : NoDup (dkeys out)). { rewrite (sample_keys E), run_cols. apply column_dict_nodup. }
  unfold dict_obs_adaptor. destruct (move_keys true _ out [] []) as [b0|e] eqn:M; [|discriminate]. cbn [rbind]. intros Q. injection Q as <-. cbn [bt_rows].
  destruct (move_rows_gone N (or_introl I) M) as [G Nb]. apply dget_None. intros C.
  apply In_dkeys_ddel in C; [|apply NoDup_ddel; auto]. destruct C as [_ C]. apply In_dkeys_ddel in C; tauto.
Qed.
Lemma key_map_cases keys o : key_map keys o = match o with None => Ok (combine keys keys) | Some l => if Nat.eqb (List.length keys) (List.length l) then Ok (combine keys l) else Err AssertionError end.
Proof. reflexivity. Qed.
End P.
