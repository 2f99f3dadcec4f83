(** * CollRun: whole runs of the collector *)
From Coq Require Import Permutation.
From Verif Require Import Py PyLemmas MemModel MemSpec MemProofs ProxyModel ProxySpec ProxyProofs ProxyMore EnvModel EnvSpec EnvProofs EnvMore CollModel CollSpec CollProofs CollMore.
Set Implicit Arguments.
Unset Strict Implicit.
Open Scope string_scope.
Open Scope list_scope.
Open Scope Z_scope.

Section Coll.
Context {S : Type} `{HS : Scalar S}.
Notation row := (list S).
Notation output := (dict Z (dobs row row)).
Variables (c : kconf S) (n : nat) (t0 : table S).
Notation dy := (kc_dyn c).
Notation hist k := (ehistory dy (make_env n) (k_calls k)).
Notation told k := (outputs (hist k)).
Notation sound := (sound c n t0).
Notation recorded := (recorded c n).
Notation in_batch := (in_batch c n t0).

Lemma given_use a h o : given_to (S := S) a (h ++ [PUse o]) = given_to a h.
Proof. unfold given_to. rewrite stream_snoc, map_app. cbn. apply app_nil_r. Qed.
Lemma stream_use a h o : stream (S := S) a (h ++ [PUse o]) = stream a h.
Proof. rewrite stream_snoc. cbn. apply app_nil_r. Qed.

Lemma update_ok k k1 r : sound k -> update_rollout_size c k = (k1, r) ->
  recorded k1 /\ sound k1 /\ k_bp k1 = k_bp k + 1 /\ k_len k1 = kc_len c (k_bp k + 1) /\ px_store (k_proxy k1) = px_store (k_proxy k)
  /\ k_calls k1 = k_calls k /\ k_asked k1 = k_asked k /\ k_obs k1 = k_obs k.
Proof.
  intros SD E. unfold update_rollout_size in E. destruct (Z.eqb_spec (k_len k) (kc_len c (k_bp k + 1))) as [L|L].
  - injection E as <- <-. cbn [k_bp k_len k_proxy k_calls k_asked k_obs].
    destruct SD as [[A1 A2 A3 A4] S1 S2 S3 S4 S5 S6 S7 S8 S9 S10].
    split; [constructor; auto|]. split; [constructor; auto; constructor; auto|]. repeat split; auto.
  - set (size := kc_len c (k_bp k + 1) * Z.of_nat (e_num (k_env k)) * kc_retain c) in *.
    assert (P : fst (pstep (kc_proxy c) (k_proxy k) (PUse (OResize size))) = mkPx (px_store (k_proxy k)) (px_done (k_proxy k)) (fst (t_resize (px_table (k_proxy k)) size))) by reflexivity.
    destruct (t_resize (px_table (k_proxy k)) size) as [t x] eqn:ER. injection E as <- <-. cbn [k_bp k_len k_proxy k_calls px_store k_asked k_obs].
    destruct SD as [[A1 A2 A3 A4] S1 S2 S3 S4 S5 S6 S7 S8 S9 S10].
    assert (RC : forall e p o l b q, recorded (mkColl e p o l b q (k_calls k) (k_uses k ++ [PUse (OResize size)]))).
    { intros e p o l b q. constructor; cbn [k_calls k_uses].
      - intros a. rewrite given_use. auto.
      - intros AD. apply Forall_app. split; [apply A2; auto|]. constructor; [exact I|constructor].
      - intros ns AN a. rewrite stream_use. auto.
      - apply Forall_app. split; auto. constructor; [discriminate|constructor]. }
    split; [apply RC|]. split; [|repeat split; auto].
    constructor; cbn [k_calls k_uses k_env k_obs k_proxy px_store]; auto.
    + intros a d G. rewrite given_use. auto.
    + rewrite (prun_snoc _ S8). cbn [pstep step]. rewrite ER. auto.
Qed.

Lemma reset_in k rows l e D k2 : sound k -> dict_reset (k_env k) rows l = (e, Ok D) ->
  k_env k2 = e -> k_proxy k2 = k_proxy k -> k_obs k2 = D -> k_calls k2 = k_calls k ++ [CReset rows l] -> k_uses k2 = k_uses k ->
  in_batch (dkeys (px_store (k_proxy k))) k2.
Proof.
  intros SD E E1 E2 E3 E4 E5.
  assert (H : ehistory dy (make_env n) (k_calls k ++ [CReset rows l]) = hist k ++ [mkEvent (CReset rows l) (Ok D)]).
  { rewrite ehistory_snoc, <- (so_env SD). cbn [ecall_step]. rewrite E. auto. }
  assert (G : good n (hist k2) e) by (rewrite E4, H; apply (good_reset (so_good SD) E)).
  assert (T : told k2 = told k ++ [D]) by (rewrite E4, H; apply outputs_snoc).
  destruct (reset_ok (rest := []) H) as (LD & ND & RD).
  assert (LR : (n <= List.length rows)%nat).
  { unfold dict_reset in E. destruct (Nat.ltb_spec (List.length rows) (e_num (k_env k))) as [Q|Q]; [discriminate|]. rewrite <- (gd_num (so_good SD)). lia. }
  assert (FR : forall a d, dget D a = Some d -> d_state d = INITIAL /\ views a (told k) = []).
  { intros a d Gd. apply dget_In in Gd. apply In_nth_error in Gd. destruct Gd as [i Ni].
    assert (Li : (i < n)%nat) by (rewrite <- LD; apply nth_error_Some; congruence).
    destruct (nth_error rows i) as [o|] eqn:No; [|apply nth_error_None in No; lia].
    destruct (RD i o Li No) as (id & Nid & V). rewrite Ni in Nid. injection Nid as <- ->. split; auto. apply views_nil. auto. }
  assert (V1 : forall a, views a (told k2) = views a (told k) ++ match dget D a with Some d => [d] | None => [] end).
  { intros a. rewrite T, views_app, views_one. auto. }
  assert (NN : Forall (fun a => 0 <= a) (dkeys D) /\ 0 <= e_next e).
  { unfold dict_reset in E. destruct (Nat.ltb _ _); [discriminate|]. injection E as <- <-. pose proof (so_next SD). cbn [e_next]. split; [|lia].
    apply Forall_forall. intros a I. apply In_dkeys_dupdate in I. destruct I as [[]|I]. unfold dkeys in I. rewrite map_map in I. cbn [fst] in I.
    apply in_map_iff in I. destruct I as ([x o] & <- & I). apply in_combine_l in I. apply new_ids_In in I. cbn. lia. }
  destruct SD as [[A1 A2 A3 A4] S1 S2 S3 S4 S5 S6 S7 S8 S9 S10].
  split; [|split; [|split]].
  - constructor.
    + constructor; rewrite E5; auto. intros a. destruct (A1 a) as (l0 & rest & Va & Ga). exists l0, (rest ++ match dget D a with Some d => [d] | None => [] end).
      rewrite V1, Va, app_assoc. auto.
    + rewrite E1, E4, efinal_app, <- S1. cbn [efinal ecall_step]. rewrite E. auto.
    + rewrite E1. exact G.
    + rewrite E1. tauto.
    + rewrite E3. auto.
    + rewrite E3. tauto.
    + rewrite E3, E5. intros a d Gd. destruct (FR _ _ Gd) as [_ V0]. exists []. rewrite V1, V0, Gd. split; auto.
      destruct (A1 a) as (l0 & rest & Va & Ga). rewrite V0 in Va. symmetry in Va. apply app_eq_nil in Va. destruct Va as [-> _]. auto.
    + rewrite E3. intros a d Gd NI. destruct (FR _ _ Gd). congruence.
    + rewrite E2, E5. auto.
    + rewrite E2. auto.
    + rewrite E2. intros a I. rewrite V1. apply S10 in I. destruct (views a (told k)); [congruence|discriminate].
  - exists false. rewrite E4, H, last_snoc, E3. auto.
  - intros a. rewrite E2, E3. split; auto. intros [I|(d & Gd & NI)]; auto. destruct (FR _ _ Gd). congruence.
  - intros a I. apply S10 in I. rewrite E3, V1. split; [|destruct (views a (told k)); [congruence|discriminate]].
    destruct (dget D a) as [d|] eqn:Gd; auto. destruct (FR _ _ Gd). congruence.
Qed.

Lemma batch_ok k rows k' r : sound k -> collect_batch c k rows = (k', r) ->
  recorded k' /\ (r = Ok tt -> sound k' /\ k_bp k' = k_bp k + 1 /\
    List.length (px_store (k_proxy k')) = (List.length (px_store (k_proxy k)) + if (0 <=? kc_len c (k_bp k + 1))%Z then n else 0)%nat).
Proof.
  intros SD E. unfold collect_batch in E. destruct (update_rollout_size c k) as [k1 [u|x]] eqn:EU.
  2:{ injection E as <- <-. split; [|discriminate]. apply (update_ok SD EU). }
  destruct (update_ok SD EU) as (R1 & SD1 & B1 & L1 & P1 & C1 & _).
  destruct (dict_reset (k_env k1) rows (k_len k1)) as [e [D|x]] eqn:ER.
  2:{ injection E as <- <-. split; [|discriminate]. destruct R1 as [A1 A2 A3 A4]. constructor; cbn [k_calls k_uses]; auto.
      intros a. rewrite ehistory_snoc, <- (so_env SD1). cbn [ecall_step]. rewrite ER. cbn [snd]. rewrite outputs_err. auto. }
  match type of E with collect_samples _ _ ?k0 = _ => set (k2 := k0) in * end.
  assert (IB : in_batch (dkeys (px_store (k_proxy k1))) k2) by (eapply (reset_in SD1 ER); reflexivity).
  destruct (samples_ok IB E) as [R2 Q]. split; auto. intros ->. destruct (Q eq_refl) as (IB' & L' & B' & W).
  split; [apply IB'|]. split; [rewrite B'; cbn; congruence|].
  destruct (Z.leb_spec 0 (kc_len c (k_bp k + 1))) as [G|G].
  - destruct W as (W & N1 & N2 & N3 & N4); [rewrite L1; lia|]. rewrite <- P1, <- N2.
    assert (PM : Permutation (dkeys (px_store (k_proxy k'))) (dkeys (px_store (k_proxy k1)) ++ W)).
    { apply NoDup_Permutation; [apply (so_store (proj1 IB'))| |intros a; rewrite in_app_iff; apply N4].
      apply NoDup_app_intro; auto; [apply (so_store SD1)|]. intros a I1 I2. apply (N3 _ I2 I1). }
    apply Permutation_length in PM. rewrite app_length in PM. unfold dkeys in PM. rewrite !map_length in PM. exact PM.
  - replace (Z.to_nat (k_len k1 + 1)) with 0%nat in E by lia. cbn in E. injection E as <-. unfold k2. cbn. rewrite P1. lia.
Qed.

Lemma run_ok batches : forall k k' r, sound k -> collect_run c k batches = (k', r) ->
  recorded k' /\ (r = Ok tt -> sound k' /\
    List.length (px_store (k_proxy k')) = (List.length (px_store (k_proxy k)) +
      n * List.length (filter (fun i => (0 <=? kc_len c (k_bp k + Z.of_nat i))%Z) (seq 1 (List.length batches))))%nat).
Proof.
  induction batches as [|b batches IH]; intros k k' r SD E; cbn [collect_run] in E.
  - injection E as <- <-. split; [apply (so_rec SD)|]. intros _. split; auto. cbn. lia.
  - destruct (collect_batch c k b) as [k1 [u|x]] eqn:E1.
    + destruct (batch_ok SD E1) as [R1 Q1]. destruct u. destruct (Q1 eq_refl) as (SD1 & B1 & P1).
      destruct (IH _ _ _ SD1 E) as [R2 Q2]. split; auto. intros ->. destruct (Q2 eq_refl) as [SD2 P2]. split; auto. rewrite P2, P1, B1.
      cbn [List.length seq filter].
      assert (SH : List.length (filter (fun i => 0 <=? kc_len c (k_bp k + Z.of_nat i)) (seq 2 (List.length batches))) =
                   List.length (filter (fun i => 0 <=? kc_len c (k_bp k + 1 + Z.of_nat i)) (seq 1 (List.length batches)))).
      { rewrite <- (seq_shift (List.length batches) 1). clear. induction (seq 1 (List.length batches)) as [|i l IH]; auto. cbn [map filter].
        replace (k_bp k + Z.of_nat (Datatypes.S i)) with (k_bp k + 1 + Z.of_nat i) by lia. destruct (0 <=? _); cbn [List.length]; congruence. }
      change (Z.of_nat 1) with 1. destruct (0 <=? kc_len c (k_bp k + 1)); cbn [List.length]; rewrite SH; lia.
    + injection E as <- <-. split; [apply (proj1 (batch_ok SD E1))|discriminate].
Qed.

(** ** The theorems *)
Theorem collected len0 batches k r : agent_dicts c -> collect_run c (coll_init n t0 len0) batches = (k, r) ->
  batches_ok (k_uses k) /\ (r = Ok tt -> prun (kc_proxy c) (px_new t0) (k_uses k) = (k_proxy k, Ok tt)) /\
  Forall (fun o => match o with PAdd os _ _ => Forall (fun a => 0 <= a) (dkeys os) | PUse o => o <> OClear end) (k_uses k) /\
  forall a,
    (exists l rest, views a (outputs (ehistory dy (make_env n) (k_calls k))) = l ++ rest /\ map fst (stream a (k_uses k)) = map (as_obs (kc_key c)) l) /\
    (List.length (episodes [] (stream a (k_uses k))) <= 1)%nat /\ Forall proper (episodes [] (stream a (k_uses k))) /\
    forall ns, agent_names c ns -> Forall (conforms (mkSchema [kc_key c] ns)) (stream a (k_uses k)).
Proof.
  intros AD E. destruct (run_ok (init_sound c n t0 len0) E) as [[A1 A2 A3 A4] Q]. split; [auto|]. split; [intros ->; apply (so_prun (proj1 (Q eq_refl)))|].
  split; auto. intros a. split; [apply A1|]. rewrite <- and_assoc. split; [|auto].
  apply one_episode_stream. destruct (A1 a) as (l & rest & V & G). apply one_episode_prefix with (y := map d_state rest).
  replace (map (fun m : moment (S := S) => o_state (fst m)) (stream a (k_uses k))) with (map d_state l).
  - rewrite <- map_app, <- V, <- views_trace. apply episodes_ok.
  - unfold given_to in G. transitivity (map o_state (map (as_obs (kc_key c)) l)); [rewrite map_map; apply map_ext; auto|]. rewrite <- G, map_map. auto.
Qed.

Theorem left_behind len0 batches k : collect_run c (coll_init n t0 len0) batches = (k, Ok tt) ->
  List.length (px_store (k_proxy k)) = (n * long_batches c (List.length batches))%nat.
Proof. intros E. destruct (run_ok (init_sound c n t0 len0) E) as [_ Q]. destruct (Q eq_refl) as [_ P]. exact P. Qed.

Lemma episodes_sub (st : list (moment (S := S))) : forall cur ms, In ms (episodes cur st) -> (forall m, In m ms -> In m (cur ++ st)) /\ (List.length ms <= List.length (cur ++ st))%nat.
Proof.
  induction st as [|m st IH]; intros cur ms I; cbn [episodes] in I; [destruct I|].
  assert (APP : (cur ++ [m]) ++ st = cur ++ m :: st) by (rewrite <- app_assoc; auto).
  destruct (is_final (o_state (fst m))).
  - assert (Q : In ms (episodes [] st) -> (forall m0, In m0 ms -> In m0 (cur ++ m :: st)) /\ (List.length ms <= List.length (cur ++ m :: st))%nat).
    { intros J. destruct (IH _ _ J) as [J1 J2]. cbn [app] in *. split; [intros x Hx; apply in_or_app; right; right; auto|]. rewrite app_length. cbn [List.length]. lia. }
    destruct cur as [|m1 cur]; auto. destruct I as [<-|I]; auto. rewrite <- APP. split; [intros x Hx; apply in_or_app; auto|]. rewrite (app_length _ st). lia.
  - rewrite <- APP. apply IH. auto.
Qed.
Theorem collected_agents len0 batches k r cols lenkey ns : agent_dicts c -> agent_names c ns ->
  collect_run c (coll_init n t0 len0) batches = (k, r) ->
  (forall a, Forall (sized cols) (stream a (k_uses k)) /\ zlen (stream a (k_uses k)) <= 2 ^ 53) ->
  agents_ok (kc_proxy c) cols lenkey (mkSchema [kc_key c] ns) 1 (k_uses k).
Proof.
  intros AD AN E SZ. destruct (collected AD E) as (_ & _ & F & X). split; auto. intros a stored. destruct (X a) as (_ & X1 & X2 & X3). destruct (SZ a) as [Z1 Z2].
  assert (FL : forall (f : list (moment (S := S)) -> bool) l, (List.length (filter f l) <= List.length l)%nat).
  { intros f l. induction l as [|y l IHl]; cbn; auto. destruct (f y); cbn; lia. }
  split; [unfold stored; specialize (FL (kept (kc_proxy c) lenkey) (episodes [] (stream a (k_uses k)))); lia|].
  intros ms I. unfold stored in I. apply filter_In in I. destruct I as [I _]. destruct (episodes_sub I) as [I1 I2]. cbn [app] in I1, I2.
  rewrite Forall_forall in X2, Z1. specialize (X3 ns AN). rewrite Forall_forall in X3. specialize (X2 _ I). split; auto.
  split; [apply Forall_forall; auto|]. split; [apply Forall_forall; auto|].
  destruct X2 as (f & mid & l & -> & _). unfold zlen in *. cbn [List.length] in *. rewrite app_length in *. cbn [List.length] in *. lia.
Qed.

(** ** Nothing but the memory refuses *)

Lemma sound_table k : sound k -> agent_dicts c -> exists ops, px_table (k_proxy k) = run t0 ops.
Proof.
  intros SD AD. destruct (builder_new _ _ (rc_batches (so_rec SD) AD) (so_prun SD)) as (ops & E & _). eauto.
Qed.

Lemma sample_accepted K k k' x : (1 <= n)%nat -> agent_answers c -> agent_dicts c -> Forall (full_reset n) (k_calls k) ->
  in_batch K k -> collect_sample c k = (k', Err x) -> memory_refuses t0 x.
Proof.
  intros N1 AA AD FR (SD & LB & ST & KK) E. unfold collect_sample in E. set (acts := kc_agent c (k_asked k) (k_obs k)) in *.
  destruct (dict_step dy (k_env k) acts) as [e [D|y]] eqn:ES.
  - destruct (proxy_add (kc_proxy c) (k_proxy k) (as_batch (kc_key c) (k_obs k)) acts (kc_draws c (k_asked k))) as [p [u|y]] eqn:EP; [discriminate|].
    injection E as _ <-. destruct (sound_table SD AD) as [ops EO].
    destruct (@fits_ok S HS (kc_proxy c) (k_proxy k) (as_batch (kc_key c) (k_obs k)) acts (kc_draws c (k_asked k)) y) as (l & a & s & d & EA).
    + rewrite dkeys_as_batch. apply (so_keys SD).
    + apply Forall_forall. intros [a ob] I. unfold as_batch in I. apply in_map_iff in I. destruct I as ([a' d] & Q & I). cbn [fst snd] in Q. injection Q as <- <-.
      pose proof (In_dget _ _ _ (so_keys SD) I) as G. cbn [as_obs o_state o_rewards].
      assert (NA : is_final (d_state d) = false -> dget acts a' <> None).
      { intros F. apply AA. apply waiting_In; [apply (so_keys SD)|eauto]. }
      assert (NR : d_state d <> INITIAL -> dget (match d_reward d with Some w => [("reward", w)] | None => [] end) "reward" <> None).
      { intros NI. pose proof (so_rewards SD G NI) as RW. destruct (d_reward d); [cbn; discriminate|congruence]. }
      destruct (d_state d) eqn:EST.
      * split; [apply NR; discriminate|apply NA; auto].
      * apply NR; discriminate.
      * apply NR; discriminate.
      * split; [|apply NA; auto]. apply dget_None. rewrite ST. intros [IK|(d' & G' & NI)]; [destruct (KK _ IK); congruence|]. rewrite G in G'. injection G' as <-. congruence.
    + rewrite EP. auto.
    + exists (ops ++ map as_op l). left. exists a, s, d. unfold run in *. rewrite fold_left_app, <- EO. exact EA.
  - exfalso. destruct LB as [b L].
    assert (H : ehistory dy (make_env n) (k_calls k ++ [CStep acts]) = hist k ++ mkEvent (CStep acts) (Err y) :: []).
    { rewrite ehistory_snoc, <- (so_env SD). cbn [ecall_step]. rewrite ES. auto. }
    assert (FR' : Forall (full_reset n) (k_calls k ++ [CStep acts])) by (apply Forall_app; split; auto; constructor; [exact I|constructor]).
    destruct (step_accepted N1 FR' H L) as [D ED]; [|discriminate]. intros id W. apply AA. auto.
Qed.

Lemma sample_calls k k' r : collect_sample c k = (k', r) -> Forall (full_reset n) (k_calls k) -> Forall (full_reset n) (k_calls k').
Proof.
  intros E FR. unfold collect_sample in E. set (acts := kc_agent c (k_asked k) (k_obs k)) in *.
  assert (Q : Forall (full_reset n) (k_calls k ++ [CStep acts])) by (apply Forall_app; split; auto; constructor; [exact I|constructor]).
  destruct (dict_step dy (k_env k) acts) as [e [D|y]]; [|injection E as <- _; exact Q].
  destruct (proxy_add _ _ _ _ _) as [p [u|y]]; injection E as <- _; exact Q.
Qed.
Lemma samples_accepted K m : (1 <= n)%nat -> agent_answers c -> agent_dicts c -> forall k k' r, Forall (full_reset n) (k_calls k) ->
  in_batch K k -> collect_samples c m k = (k', r) -> Forall (full_reset n) (k_calls k') /\ forall x, r = Err x -> memory_refuses t0 x.
Proof.
  intros N1 AA AD. induction m as [|m IH]; intros k k' r FR IB E; cbn [collect_samples] in E.
  - injection E as <- <-. split; auto. discriminate.
  - destruct (collect_sample c k) as [k1 [u|y]] eqn:E1.
    + apply (IH k1); auto; [apply (sample_calls E1 FR)|apply (proj2 (sample_ok IB E1) u eq_refl)].
    + injection E as <- <-. split; [apply (sample_calls E1 FR)|]. intros x Q. injection Q as <-. apply (sample_accepted N1 AA AD FR IB E1).
Qed.
Theorem accepted len0 batches k x : (1 <= n)%nat -> agent_answers c -> agent_dicts c -> Forall (fun b : list row => List.length b = n) batches ->
  collect_run c (coll_init n t0 len0) batches = (k, Err x) -> memory_refuses t0 x.
Proof.
  intros N1 AA AD FB. revert FB. assert (SD := init_sound c n t0 len0). assert (FR : Forall (full_reset n) (k_calls (coll_init n t0 len0))) by constructor.
  revert SD FR. generalize (coll_init n t0 len0). intros k0 SD FR FB. revert k0 SD FR. induction FB as [|b bs Lb _ IH]; intros k0 SD FR E; cbn [collect_run] in E; [discriminate|].
  assert (B : forall k1 r, collect_batch c k0 b = (k1, r) -> Forall (full_reset n) (k_calls k1) /\ forall x, r = Err x -> memory_refuses t0 x).
  { intros k1 r EB. unfold collect_batch in EB. destruct (update_rollout_size c k0) as [k2 [u|y]] eqn:EU.
    - destruct (update_ok SD EU) as (R1 & SD1 & B1 & L1 & P1 & C1 & _).
      assert (FR2 : Forall (full_reset n) (k_calls k2 ++ [CReset b (k_len k2)])) by (rewrite C1; apply Forall_app; split; auto).
      destruct (dict_reset (k_env k2) b (k_len k2)) as [e [D|y]] eqn:ER.
      + match type of EB with collect_samples _ _ ?k3 = _ => set (k4 := k3) in * end.
        assert (IB : in_batch (dkeys (px_store (k_proxy k2))) k4) by (eapply (reset_in SD1 ER); reflexivity).
        apply (samples_accepted N1 AA AD (k := k4) FR2 IB EB).
      + exfalso. unfold dict_reset in ER. rewrite (gd_num (so_good SD1)), Lb in ER. destruct (Nat.ltb_spec n n); [lia|discriminate].
    - injection EB as <- <-. destruct (update_ok SD EU) as (_ & _ & _ & _ & _ & C1 & _). rewrite C1. split; auto. intros z Q. injection Q as <-.
      destruct (sound_table SD AD) as [ops EO]. exists ops. right. unfold update_rollout_size in EU. destruct (_ =? _); [discriminate|].
      match type of EU with (let '(t, x) := t_resize _ ?s in _) = _ => exists s end. rewrite <- EO. destruct (t_resize _ _) as [t z]. injection EU as _ <-. auto. }
  destruct (collect_batch c k0 b) as [k1 [u|y]] eqn:E1.
  - destruct (B _ _ eq_refl) as [FR1 _]. destruct u. apply (IH k1); auto. apply (proj2 (batch_ok SD E1) eq_refl).
  - injection E as <- <-. apply (proj2 (B _ _ eq_refl)). auto.
Qed.
End Coll.
