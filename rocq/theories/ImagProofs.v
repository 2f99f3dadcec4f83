(** * ImagProofs: what the collector's memory is given was predicted by the model *)
From Verif Require Import Py PyLemmas MemModel MemSpec MemProofs ProxyModel ProxySpec ProxyProofs ProxyE2E ProxyMore EnvModel EnvSpec EnvProofs EnvMore CollModel CollSpec CollProofs CollMore CollRun ImagSpec.
Set Implicit Arguments.
Unset Strict Implicit.
Open Scope string_scope.
Open Scope list_scope.
Open Scope Z_scope.

Section Imag.
Context {S : Type} `{HS : Scalar S}.
Notation row := (list S).
Notation moment := (@moment S).
Notation output := (dict Z (dobs row row)).
Variables (c : kconf S) (n : nat) (t0 : table S) (starts : list row).
Notation dy := (kc_dyn c).
Notation key := (kc_key c).
Notation hist k := (ehistory dy (make_env n) (k_calls k)).
Notation told k := (outputs (hist k)).
Notation sound := (sound c n t0).
Notation in_batch := (in_batch c n t0).

Definition linked (k : nat) (m m' : moment) : Prop :=
  (exists o, model_says dy key o m m') /\ ((k <> 0%nat \/ never_ends dy) -> foreseen dy key m m').
Definition fine (ms : list moment) : Prop :=
  starts_in key starts ms /\ forall k m m', nth_error ms k = Some m -> nth_error ms (k + 1) = Some m' -> linked k m m'.

Lemma fine_nil : fine [].
Proof. split; [intros m H; discriminate|intros [|k] m m' H; discriminate]. Qed.
Lemma nth_before (A : Type) (l : list A) x k m : nth_error l k = Some m -> nth_error (l ++ [x]) k = Some m.
Proof. intros H. rewrite nth_error_app1; auto. apply nth_error_Some. congruence. Qed.
Lemma nth_snoc (ms : list moment) x k m : nth_error (ms ++ [x]) k = Some m -> nth_error ms k = Some m \/ (k = List.length ms /\ m = x).
Proof.
  intros H. destruct (Nat.lt_ge_cases k (List.length ms)) as [L|L]; [rewrite nth_error_app1 in H by auto; auto|].
  rewrite nth_error_app2 in H by auto. right. destruct (k - List.length ms)%nat as [|j] eqn:E; cbn in H; [|destruct j; discriminate].
  injection H as ->. split; auto. lia.
Qed.
Lemma fine_snoc ms x : fine ms -> (ms = [] -> exists o, saw x key = Some o /\ In o starts) ->
  (forall ms' m, ms = ms' ++ [m] -> linked (List.length ms') m x) -> fine (ms ++ [x]).
Proof.
  intros [F1 F2] A B. split.
  - intros m H. apply nth_snoc in H. destruct H as [H|[H ->]]; [auto|]. destruct ms; [auto|discriminate].
  - intros k m m' H1 H2. apply nth_snoc in H2. destruct H2 as [H2|[H2 ->]].
    + apply nth_snoc in H1. destruct H1 as [H1|[-> _]]; [eauto|]. exfalso.
      assert (List.length ms + 1 < List.length ms)%nat by (apply nth_error_Some; congruence). lia.
    + apply nth_snoc in H1. destruct H1 as [H1|[H1 _]]; [|lia]. destruct (exists_last (l := ms)) as (ms' & y & ->); [intros ->; destruct k; discriminate|].
      rewrite app_length in H2. cbn in H2. assert (k = List.length ms') by lia. subst k. rewrite nth_error_app2, Nat.sub_diag in H1 by auto. injection H1 as ->. auto.
Qed.
Lemma linked_same k m m1 m2 : fst m1 = fst m2 -> linked k m m1 -> linked k m m2.
Proof.
  intros E. assert (X : forall o, model_says dy key o m m1 -> model_says dy key o m m2).
  { intros o (a & cl & i & o' & w & A1 & A2 & A3 & A4 & A5). exists a, cl, i, o', w. unfold saw, received in *. rewrite <- E. auto. }
  intros [(o & A) B]. split; [eauto|]. intros H. destruct (B H) as (o1 & B1 & B2). exists o1. auto.
Qed.
Lemma fine_answer ms ob r r' : fine (ms ++ [(ob, r)]) -> fine (ms ++ [(ob, r')]).
Proof.
  intros [F1 F2]. apply fine_snoc.
  - split.
    + intros m H. apply F1. apply nth_before; auto.
    + intros k m m' H1 H2. apply (F2 k); apply nth_before; auto.
  - intros ->. destruct (F1 (ob, r) eq_refl) as (o & A & B). exists o. auto.
  - intros ms' m ->. apply linked_same with (m1 := (ob, r)); auto. apply F2.
    + rewrite nth_error_app1, nth_error_app2, Nat.sub_diag; auto. rewrite app_length. cbn. lia.
    + rewrite nth_error_app2; rewrite app_length; cbn; [|lia]. rewrite Nat.sub_diag. auto.
Qed.
Lemma fine_prefix ms x : fine (ms ++ [x]) -> fine ms.
Proof.
  intros [F1 F2]. split.
  - intros m H. apply F1. apply nth_before; auto.
  - intros k m m' H1 H2. apply (F2 k); apply nth_before; auto.
Qed.

(** What the memory has of everybody is fine, and stays so with what was observed last. *)
Definition streams_fine (k : coll S) : Prop := forall a, fine (stream a (k_uses k)).
Record pending (k : coll S) : Prop := {
  pe_fine : forall a d, dget (k_obs k) a = Some d -> fine (stream a (k_uses k) ++ [(as_obs key d, None)]);
  pe_first : forall a d, dget (k_obs k) a = Some d -> d_state d = INITIAL -> stream a (k_uses k) = [] }.

Lemma predict_done call : forall cur i acts r, In r (predict dy call i cur acts) -> never_ends dy -> snd r = false.
Proof.
  induction cur as [|o cur IH]; intros i [|a acts] r I N; cbn [predict] in I; try contradiction.
  destruct (dy_model dy call i o a) as [o' w]. destruct I as [<-|I]; [apply N|eauto].
Qed.
Lemma predicted_says call up o a d m : snd m = Some a -> predicted dy call up o a d -> model_says dy key o m (as_obs key d, None).
Proof.
  intros E (i & w & P1 & P2 & P3). exists a, call, i, (d_obs d), w. split; auto. split; auto. unfold saw, received. cbn. rewrite String.eqb_refl. split; auto.
  rewrite P2. cbn. split; auto. rewrite P3. destruct (dy_done dy call i (d_obs d)); [tauto|]. destruct up; split; discriminate.
Qed.
Lemma unseen_empty k a : recorded c n k -> views a (told k) = [] -> stream a (k_uses k) = [].
Proof.
  intros R V. destruct (rc_faith R a) as (l & rest & E & G). rewrite V in E. symmetry in E. apply app_eq_nil in E. destruct E as [-> _].
  unfold given_to in G. destruct (stream a (k_uses k)); [auto|discriminate].
Qed.

(** One sample, with [m] more to come after it. *)
Lemma sample_fine K k k' u m rows : in_batch K k -> collect_sample c k = (k', Ok u) ->
  incl rows starts -> e_init (k_env k) = rows -> e_timestep (k_env k) + 1 + Z.of_nat m = e_len (k_env k) + 1 ->
  (forall D, last_output (hist k) None = Some (true, D) -> never_ends dy -> (1 <= m)%nat -> forall a d, dget D a = Some d -> d_state d <> INITIAL) ->
  streams_fine k -> pending k ->
  streams_fine k' /\ ((1 <= m)%nat -> pending k') /\
  e_init (k_env k') = rows /\ e_timestep (k_env k') = e_timestep (k_env k) + 1 /\ e_len (k_env k') = e_len (k_env k) /\
  (forall D, last_output (hist k') None = Some (true, D) -> never_ends dy -> (2 <= m)%nat -> forall a d, dget D a = Some d -> d_state d <> INITIAL).
Proof.
  intros (SD & LB & _) E IR EI TM NB SF PE. unfold collect_sample in E. set (acts := kc_agent c (k_asked k) (k_obs k)) in *.
  destruct (dict_step dy (k_env k) acts) as [e [D|x]] eqn:ES; [|discriminate].
  destruct (proxy_add (kc_proxy c) (k_proxy k) (as_batch key (k_obs k)) acts (kc_draws c (k_asked k))) as [p [y|y]] eqn:EP; [|discriminate].
  injection E as <- <-. cbn [k_env k_uses k_obs k_calls].
  destruct (step_case dy acts (gd_sane (so_good SD))) as [(e1 & D1 & cur & al & rws & E1 & ST)|(x & E1)]; rewrite ES in E1; [|discriminate].
  injection E1 as <- <-. destruct (sd_after ST) as (T1 & T2 & T3 & T4 & T5 & T6).
  assert (NEW : forall a, stream a (k_uses k ++ [PAdd (as_batch key (k_obs k)) acts (kc_draws c (k_asked k))]) =
     stream a (k_uses k) ++ match dget (k_obs k) a with Some d => [(as_obs key d, dget acts a)] | None => [] end).
  { intros a. rewrite stream_snoc, stream_add, dget_as_batch. destruct (dget (k_obs k) a); auto. }
  assert (FR : forall a d, dget D a = Some d -> d_state d = INITIAL -> exists i o r, nth_error rws i = Some r /\ over (e_len (k_env k) <=? e_timestep (k_env k) + 1) r = true
             /\ In o rows /\ d_obs d = o).
  { intros a d G I. destruct (sd_entry ST G) as [(i & r & N1 & N2)|(Y & i & o & N1 & N2 & ->)].
    - pose proof (sd_old ST N1 N2) as Od. rewrite G in Od. injection Od as ->. exfalso. destruct (over _ _) in I; [unfold final in I; destruct (snd r)|]; discriminate.
    - assert (LR : List.length rws = List.length (e_ids (k_env k))).
      { rewrite (sd_rows ST), predict_length by (apply (sd_length ST)). rewrite (sd_length ST). apply (proj1 (gather_nth (sd_acts ST))). }
      assert (LE : List.length (e_ids e) = List.length (e_ids (k_env k))).
      { destruct (sd_sane ST) as (L1 & _). destruct (gd_sane (so_good SD)) as (L2 & _). congruence. }
      assert (B : (i < List.length (e_ids (k_env k)))%nat) by (rewrite <- LE; apply nth_error_Some; congruence).
      destruct (nth_error rws i) as [r|] eqn:Nr; [|apply nth_error_None in Nr; lia].
      destruct (nth_error (e_ids (k_env k)) i) as [id|] eqn:Ni; [|apply nth_error_None in Ni; lia].
      exists i, o, r. split; auto. pose proof (sd_ids ST Ni Nr) as X. destruct (over _ r); [|exfalso].
      + split; auto. split; auto. rewrite <- EI. eapply nth_error_In; eauto.
      + destruct (gd_sane (so_good SD)) as (_ & _ & L3 & _). apply nth_error_In in Ni. apply L3 in Ni. assert (id = a) by congruence. lia. }
  assert (SF' : forall a, fine (stream a (k_uses k) ++ match dget (k_obs k) a with Some d => [(as_obs key d, dget acts a)] | None => [] end)).
  { intros a. destruct (dget (k_obs k) a) as [d|] eqn:G; [|rewrite app_nil_r; auto]. apply fine_answer with (r := None). apply (pe_fine PE G). }
  destruct LB as [b LB]. destruct (step_ok (rest := []) (hist_step SD ES)) as (b' & D0 & X1 & X2 & X3 & X4 & _).
  assert (b' = b /\ D0 = k_obs k) as [-> ->] by (split; congruence).
  assert (US : forall a, views a (told k) = [] -> dget (k_obs k) a = None /\ stream a (k_uses k) = []).
  { intros a V. split; [|apply unseen_empty; auto; apply (so_rec SD)]. destruct (dget (k_obs k) a) as [d|] eqn:G; auto.
    destruct (so_now SD G) as (l & V' & _). rewrite V in V'. destruct l; discriminate. }
  split; [intros a; cbn [k_uses]; rewrite NEW; auto|]. split; [|split; [congruence|split; [auto|split; [auto|]]]].
  - intros M. constructor; cbn [k_obs k_uses].
    + intros a d G. rewrite NEW. destruct (X3 _ _ G) as [(I1 & I2 & I3)|W].
      * apply views_nil in I3. destruct (US a I3) as [-> ->]. cbn [app]. apply (@fine_snoc []); [apply fine_nil| |intros [|? ?] ? ?; discriminate].
        intros _. destruct (FR _ _ G I1) as (i & o & r & _ & _ & O1 & O2). exists o. unfold saw. cbn. rewrite String.eqb_refl, O2. auto.
      * destruct (X4 _ W) as (d0 & d' & act & G0 & G' & GA & P1 & o & P2). rewrite G in G'. injection G' as <-. rewrite G0.
        apply fine_snoc.
        -- specialize (SF' a). rewrite G0 in SF'. exact SF'.
        -- intros Q. destruct (stream a (k_uses k)); discriminate.
        -- intros ms' mm Q. apply app_inj_tail in Q. destruct Q as [<- <-]. split.
           ++ exists o. eapply predicted_says; [cbn; eauto|exact P2].
           ++ intros H. exists (d_obs d0). split; [unfold saw; cbn; rewrite String.eqb_refl; auto|]. eapply predicted_says; [cbn; eauto|]. apply P1.
              intros [-> I]. destruct H as [H|H]; [apply H; rewrite (pe_first PE G0 I); auto|].
              apply (NB _ LB H M _ _ G0 I).
    + intros a d G I. rewrite NEW. destruct (X3 _ _ G) as [(_ & _ & I3)|W].
      * apply views_nil in I3. destruct (US a I3) as [-> ->]. auto.
      * destruct (X4 _ W) as (d0 & d' & act & G0 & G' & GA & _ & o & (i & w & _ & _ & P3)). rewrite G in G'. injection G' as <-. exfalso.
        rewrite I in P3. destruct (dy_done dy _ i (d_obs d)) in P3; [discriminate P3|]. destruct (_ <=? _) in P3; discriminate P3.
  - intros D' L N M a d G I. cbn [k_calls] in L. rewrite (hist_step SD ES), last_snoc in L. injection L as <-.
    destruct (FR _ _ G I) as (i & o & r & Nr & Ov & _). unfold over in Ov. rewrite (sd_rows ST) in Nr. apply nth_error_In in Nr.
    rewrite (predict_done Nr N) in Ov. cbn in Ov. apply Z.leb_le in Ov. lia.
Qed.

Lemma samples_fine K m : forall k k' rows, in_batch K k -> collect_samples c m k = (k', Ok tt) ->
  incl rows starts -> e_init (k_env k) = rows -> (m <> 0%nat -> e_timestep (k_env k) + Z.of_nat m = e_len (k_env k) + 1) ->
  (forall D, last_output (hist k) None = Some (true, D) -> never_ends dy -> (2 <= m)%nat -> forall a d, dget D a = Some d -> d_state d <> INITIAL) ->
  streams_fine k -> (m <> 0%nat -> pending k) -> streams_fine k'.
Proof.
  induction m as [|m IH]; intros k k' rows IB E IR EI TM NB SF PE; cbn [collect_samples] in E; [injection E as <-; auto|].
  destruct (collect_sample c k) as [k1 [u|x]] eqn:E1; [|discriminate].
  destruct (sample_ok IB E1) as [_ Q]. destruct (Q u eq_refl) as (IB1 & _). clear Q.
  assert (TM' := TM ltac:(discriminate)). rewrite Nat2Z.inj_succ in TM'.
  destruct (@sample_fine K k k1 u m rows IB E1 IR EI ltac:(lia)) as (A1 & A2 & A3 & A4 & A5 & A6).
  - intros D L N M. apply (NB D L N). lia.
  - auto.
  - apply PE. discriminate.
  - apply (IH _ _ rows IB1 E IR A3); auto.
    + intros _. lia.
    + intros M. apply A2. lia.
Qed.

Lemma batch_fine k rows k' : sound k -> collect_batch c k rows = (k', Ok tt) -> incl rows starts -> streams_fine k -> streams_fine k'.
Proof.
  intros SD E IR SF. unfold collect_batch in E. destruct (update_rollout_size c k) as [k1 [u|x]] eqn:EU; [|discriminate].
  destruct (update_ok SD EU) as (R1 & SD1 & B1 & L1 & P1 & C1 & _).
  assert (SF1 : streams_fine k1).
  { unfold update_rollout_size in EU. destruct (_ =? _); [injection EU as <- _; exact SF|].
    destruct (t_resize _ _) as [t x]. injection EU as <- _. intros a. cbn [k_uses]. rewrite stream_use. apply SF. }
  destruct (dict_reset (k_env k1) rows (k_len k1)) as [e [D|x]] eqn:ER; [|discriminate].
  match type of E with collect_samples _ _ ?k0 = _ => set (k2 := k0) in * end.
  assert (IB : in_batch (dkeys (px_store (k_proxy k1))) k2) by (eapply (reset_in SD1 ER); reflexivity).
  assert (H : ehistory dy (make_env n) (k_calls k1 ++ [CReset rows (k_len k1)]) = hist k1 ++ [mkEvent (CReset rows (k_len k1)) (Ok D)]).
  { rewrite ehistory_snoc, <- (so_env SD1). cbn [ecall_step]. rewrite ER. auto. }
  assert (EE : e_init e = rows /\ e_timestep e = 0 /\ e_len e = k_len k1 /\ (n <= List.length rows)%nat).
  { unfold dict_reset in ER. destruct (Nat.ltb_spec (List.length rows) (e_num (k_env k1))) as [Q|Q]; [discriminate|]. injection ER as <- _. cbn.
    rewrite <- (gd_num (so_good SD1)). auto. }
  destruct EE as (E1 & E2 & E3 & LR). destruct (reset_ok (rest := []) H) as (LD & ND & RD).
  assert (FR : forall a d, dget D a = Some d -> In (d_obs d) rows /\ stream a (k_uses k1) = []).
  { intros a d Gd. apply dget_In in Gd. apply In_nth_error in Gd. destruct Gd as [i Ni].
    assert (Li : (i < n)%nat) by (rewrite <- LD; apply nth_error_Some; congruence).
    destruct (nth_error rows i) as [o|] eqn:No; [|apply nth_error_None in No; lia].
    destruct (RD i o Li No) as (id & Nid & V). rewrite Ni in Nid. injection Nid as <- ->. cbn [d_obs]. split; [eapply nth_error_In; eauto|].
    apply unseen_empty; [apply (so_rec SD1)|]. apply views_nil. auto. }
  apply (@samples_fine _ _ _ _ rows IB E IR); cbn [k2 k_env].
  - auto.
  - intros M. rewrite E2, E3. lia.
  - intros D' L. cbn [k2 k_calls] in L. rewrite H, last_snoc in L. discriminate.
  - exact SF1.
  - intros _. constructor; cbn [k2 k_obs k_uses]; intros a d G; destruct (FR _ _ G) as [F1 F2]; auto. rewrite F2. cbn [app].
    apply (@fine_snoc []); [apply fine_nil| |intros [|? ?] ? ?; discriminate].
    intros _. exists (d_obs d). unfold saw. cbn. rewrite String.eqb_refl. split; auto.
Qed.
Lemma run_fine batches : forall k k', sound k -> collect_run c k batches = (k', Ok tt) -> incl (concat batches) starts -> streams_fine k -> streams_fine k'.
Proof.
  induction batches as [|b batches IH]; intros k k' SD E IR SF; cbn [collect_run] in E; [injection E as <-; auto|].
  destruct (collect_batch c k b) as [k1 [[]|x]] eqn:E1; [|discriminate]. cbn [concat] in IR. apply incl_app_inv in IR. destruct IR as [I1 I2].
  apply (IH k1); auto; [apply (proj1 (proj2 (batch_ok SD E1) eq_refl))|]. apply (batch_fine SD E1 I1 SF).
Qed.
End Imag.

Section Main.
Context {S : Type} `{HS : Scalar S}.
Notation row := (list S).
Notation moment := (@moment S).

(** An agent with one episode at most has nothing else. *)
Lemma whole_episode (ms ep : list moment) : one_episode (map (fun m : moment => o_state (fst m)) ms) -> In ep (episodes [] ms) -> ep = ms.
Proof.
  intros [E|(k & fin & E & F)] I.
  - destruct ms; [|discriminate]. destruct I.
  - destruct ms as [|m0 ms]; [discriminate|]. cbn [map] in E. injection E as E0 E.
    assert (exists mid last, ms = mid ++ last /\ Forall (fun m : moment => o_state (fst m) = RUNNING) mid /\ map (fun m : moment => o_state (fst m)) last = fin) as (mid & last & -> & FM & EL).
    { exists (firstn k ms), (skipn k ms). rewrite firstn_skipn. split; auto. split.
      - apply Forall_forall. intros m J0. assert (J : In (o_state (fst m)) (map (fun m : moment => o_state (fst m)) (firstn k ms))) by (apply (in_map (fun m : moment => o_state (fst m))); auto).
        rewrite <- firstn_map, E, firstn_app, repeat_length, Nat.sub_diag, firstn_O, app_nil_r in J.
        rewrite firstn_all2 in J by (rewrite repeat_length; lia). apply repeat_spec in J. auto.
      - rewrite <- skipn_map, E, skipn_app, repeat_length, Nat.sub_diag. rewrite skipn_all2 by (rewrite repeat_length; lia). auto. }
    cbn [episodes] in I. rewrite E0 in I. cbn [is_final app] in I. rewrite episodes_app in I. destruct (@running_no_final S mid [m0] FM) as [R1 R2].
    rewrite R1, R2 in I. cbn [app] in I. destruct F as [->|(s & Fs & ->)].
    + destruct last; [|discriminate]. destruct I.
    + destruct last as [|ml [|? ?]]; try discriminate. cbn [map] in EL. injection EL as EL. cbn [episodes] in I. rewrite EL, Fs in I. cbn in I.
      destruct I as [<-|[]]. reflexivity.
Qed.

Theorem run_imagined (c : kconf S) n t0 len0 batches k : collect_run c (coll_init n t0 len0) batches = (k, Ok tt) ->
  forall a ms, In ms (episodes [] (stream a (k_uses k))) ->
    imagined_but_first (kc_dyn c) (kc_key c) (concat batches) ms /\ (never_ends (kc_dyn c) -> imagined (kc_dyn c) (kc_key c) (concat batches) ms).
Proof.
  intros E a ms I. assert (OE : one_episode (map (fun m : moment => o_state (fst m)) (stream a (k_uses k)))).
  { destruct (run_ok (init_sound c n t0 len0) E) as [[A1 _ _ _] _]. destruct (A1 a) as (l & rest & V & G). apply one_episode_prefix with (y := map d_state rest).
    replace (map (fun m : moment => o_state (fst m)) (stream a (k_uses k))) with (map d_state l).
    - rewrite <- map_app, <- V, <- views_trace. apply episodes_ok.
    - unfold given_to in G. transitivity (map o_state (map (as_obs (kc_key c)) l)); [rewrite map_map; apply map_ext; auto|]. rewrite <- G, map_map. auto. }
  apply whole_episode in I; auto. subst ms.
  destruct (@run_fine S _ c n t0 (concat batches) batches _ _ (init_sound c n t0 len0) E (incl_refl _)) with (a := a) as [F1 F2].
  { intros b. apply fine_nil. }
  split; [|intros N]; (split; [exact F1|]); intros i m m' H1 H2; destruct (F2 i m m' H1 H2) as [G1 G2].
  - destruct i; auto.
  - auto.
Qed.

Theorem batch_imagined (c : kconf S) n cols lenkey maxlen smp ej len0 batches k ns count draws out :
  config_ok cols lenkey -> fresh_sampler smp -> fresh_ejector ej ->
  schema_ok (pc_terminal (kc_proxy c)) (mkSchema [kc_key c] ns) -> layout cols lenkey (pc_terminal (kc_proxy c)) (mkSchema [kc_key c] ns) ->
  agent_dicts c -> agent_names c ns ->
  collect_run c (coll_init n (t_create cols lenkey maxlen smp ej) len0) batches = (k, Ok tt) ->
  (forall a, Forall (sized cols) (stream a (k_uses k)) /\ zlen (stream a (k_uses k)) <= 2 ^ 53) ->
  snd (t_sample (px_table (k_proxy k)) count 1 draws) = Ok out ->
  forall r, (r < count)%nat -> exists ms i m m',
    imagined_but_first (kc_dyn c) (kc_key c) (concat batches) ms /\ (never_ends (kc_dyn c) -> imagined (kc_dyn c) (kc_key c) (concat batches) ms) /\
    nth_error ms i = Some m /\ nth_error ms (i + 1) = Some m' /\ is_transition cols (mkSchema [kc_key c] ns) out r m m'.
Proof.
  intros CO Fs Fe SO LA AD AN E SZ EO r Hr. destruct (collected AD E) as (BO & PR & _).
  pose proof (collected_agents lenkey AD AN E SZ) as AG.
  destruct (end_to_end (r := r) maxlen count draws CO Fs Fe SO LA BO AG (le_n 1) (PR eq_refl) EO) as (a & ms & i & m & m' & I & H1 & H2 & T); [lia|].
  exists ms, i, m, m'. destruct (run_imagined E I) as [A1 A2]. split; auto. split; auto. split; auto. split; [rewrite Nat.add_1_r; auto|auto].
Qed.
End Main.
