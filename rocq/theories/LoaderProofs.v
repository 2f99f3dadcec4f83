(** * LoaderProofs: C33 - C38. *)
From Verif Require Import Py PyLemmas MemModel MemSpec MemProofs MemRun MemSample MemSample2
  ProxyModel LoaderModel LoaderSpec.
Open Scope string_scope.
Open Scope list_scope.
Open Scope Z_scope.
Set Implicit Arguments.

(** ** C33 *)
Section Counters.
Context {S I : Type} (inner_add : I -> dict Z (obs S) -> dict Z (resp S) -> I * res unit).

Lemma logw_add_fields (w : logw I) os rs :
  lw_infs (fst (logw_add inner_add w os rs)) = lw_infs w + zlen os /\
  lw_eps (fst (logw_add inner_add w os rs)) = lw_eps w + (zlen os - zlen rs).
Proof.
  unfold logw_add. destruct (lw_interval w =? 0); [auto|].
  destruct (inner_add (lw_inner w) os rs) as [i x]. auto.
Qed.

Lemma lrun_infs h : forall w : logw I, lw_infs (lrun inner_add w h) = lw_infs w + zsum (map n_obs h).
Proof.
  induction h as [|o r IH]; intros w; [cbn; lia|].
  change (lrun inner_add w (o :: r)) with (lrun inner_add (lstep inner_add w o) r). rewrite IH.
  unfold zsum. cbn [map fold_right]. destruct o as [os rs|n i]; cbn [lstep n_obs].
  - rewrite (proj1 (logw_add_fields w os rs)). lia.
  - cbn. lia.
Qed.

Lemma same_length {A} (l l' : list A) : NoDup l -> NoDup l' -> (forall a, In a l <-> In a l') ->
  List.length l = List.length l'.
Proof.
  intros N N' E. apply Nat.le_antisymm; apply NoDup_incl_length; auto; intros a Ia; apply E; auto.
Qed.

Lemma filter_split {A} (f : A -> bool) l :
  zlen l = zlen (filter f l) + zlen (filter (fun x => negb (f x)) l).
Proof.
  unfold zlen. induction l as [|x r IH]; cbn [filter List.length]; auto.
  destruct (f x); cbn [negb List.length]; lia.
Qed.

Lemma NoDup_filter_keys {V} (f : Z * V -> bool) (d : dict Z V) : NoDup (dkeys d) -> NoDup (map fst (filter f d)).
Proof. intros N. eapply sublist_NoDup; [|exact N]. apply sublist_map, sublist_filter. Qed.

Lemma answers_count (os : dict Z (obs S)) (rs : dict Z (resp S)) : answers_ok (S:=S) (I:=I) (LAdd os rs) ->
  zlen os - zlen rs = zlen (filter (fun x => is_final (o_state (snd x))) os).
Proof.
  intros (N1 & N2 & E). rewrite (filter_split (fun x => is_final (o_state (snd x))) os).
  assert (L : List.length (dkeys rs) = List.length (map fst (filter (fun x => negb (is_final (o_state (snd x)))) os))).
  { apply same_length; auto.
    - apply NoDup_filter_keys; auto.
    - intros a. rewrite E. split.
      + intros (ob & Io & Ef). change a with (fst (a, ob)). apply in_map. apply filter_In. cbn [snd]. rewrite Ef. auto.
      + intros Ia. apply in_map_iff in Ia as ([a' ob] & <- & Ia). apply filter_In in Ia as [Ia Ef]. cbn [fst snd] in *.
        exists ob. split; auto. destruct (is_final (o_state ob)); auto; discriminate. }
  unfold dkeys in L. rewrite !map_length in L. unfold zlen. lia.
Qed.

Lemma lrun_eps h : Forall answers_ok h -> forall w : logw I,
  lw_eps (lrun inner_add w h) = lw_eps w + zsum (map n_final h).
Proof.
  induction 1 as [|o r Ho _ IH]; intros w; [cbn; lia|].
  change (lrun inner_add w (o :: r)) with (lrun inner_add (lstep inner_add w o) r). rewrite IH.
  unfold zsum. cbn [map fold_right]. destruct o as [os rs|n i]; cbn [lstep n_final].
  - rewrite (proj2 (logw_add_fields w os rs)), (answers_count Ho). lia.
  - cbn. lia.
Qed.

(** One write of the statistics per [interval] calls. *)
Lemma lrun_app w h h' : lrun inner_add w (h ++ h') = lrun inner_add (lrun inner_add w h) h'.
Proof. unfold lrun. apply fold_left_app. Qed.

Lemma lrun_cycles (n : nat) (i : I) h : (0 < n)%nat -> Forall is_ladd h ->
  let w := lrun inner_add (logw_new (Z.of_nat n) i) h in
  lw_interval w = Z.of_nat n /\ lw_counter w = Z.of_nat (List.length h mod n) /\
  lw_cycles w = map (fun k => zsum (map n_obs (firstn (k * n) h))) (seq 1 (List.length h / n)).
Proof.
  intros Hn. induction h as [|o h IH] using rev_ind; intros F.
  - cbn [lrun fold_left List.length]. rewrite Nat.div_0_l, Nat.mod_0_l by lia. cbn. auto.
  - apply Forall_app in F as [F1 F2]. destruct (IH F1) as (I1 & I2 & I3). clear IH.
    inversion F2 as [|? ? Fo _]; subst. destruct o as [os rs|]; [|destruct Fo].
    cbv zeta. rewrite lrun_app. cbn [lrun fold_left lstep].
    fold (lrun inner_add (logw_new (Z.of_nat n) i) h).
    set (w := lrun inner_add (logw_new (Z.of_nat n) i) h) in *.
    pose proof (lrun_infs h (logw_new (Z.of_nat n) i)) as Hi. fold w in Hi. cbn [lw_infs logw_new] in Hi.
    rewrite app_length. cbn [List.length]. unfold logw_add. rewrite I1.
    destruct (Z.eqb_spec (Z.of_nat n) 0); [lia|].
    destruct (inner_add (lw_inner w) os rs) as [i' x]. cbn [fst lw_interval lw_counter lw_cycles].
    rewrite I2. set (len := List.length h) in *.
    assert (Em : (Z.of_nat (len mod n) + 1) mod Z.of_nat n = Z.of_nat ((len + 1) mod n)).
    { rewrite <- (Nat.add_mod_idemp_l len 1 n) by lia. rewrite (Nat2Z.inj_mod (len mod n + 1) n). f_equal. lia. }
    rewrite Em. split; auto.
    pose proof (Nat.div_mod len n ltac:(lia)) as D1. pose proof (Nat.div_mod (len + 1) n ltac:(lia)) as D2.
    pose proof (Nat.mod_upper_bound len n ltac:(lia)) as B1.
    pose proof (Nat.mod_upper_bound (len + 1) n ltac:(lia)) as B2.
    assert (Hq : forall k, In k (seq 1 (len / n)) -> firstn (k * n) (h ++ [LAdd os rs]) = firstn (k * n) h).
    { intros k Ik. apply in_seq in Ik. rewrite firstn_app. replace (k * n - List.length h)%nat with 0%nat by (fold len; nia).
      cbn. rewrite app_nil_r. auto. }
    destruct (Z.eqb_spec (Z.of_nat ((len + 1) mod n)) 0) as [E0|E0].
    + assert (Ed : ((len + 1) / n = len / n + 1)%nat) by nia.
      split; [lia|]. rewrite Ed, seq_app, map_app, I3. f_equal.
      * apply map_ext_in. intros k Ik. rewrite Hq; auto.
      * cbn [seq map]. f_equal. rewrite Hi.
        rewrite firstn_all2; [|rewrite app_length; cbn; fold len; nia].
        rewrite map_app, zsum_app. cbn. unfold zsum. cbn. lia.
    + assert (Ed : ((len + 1) / n = len / n)%nat) by nia.
      assert (Ed2 : ((len + 1) mod n = len mod n + 1)%nat) by nia.
      split; [lia|]. rewrite Ed, I3. apply map_ext_in. intros k Ik. rewrite Hq; auto.
Qed.
End Counters.

(** ** C34 *)
Section Exports.
Context (per min_time t0 : Z).

Fixpoint expw_run (w : expw) (cs : list ecall) : expw :=
  match cs with [] => w | c :: r => expw_run (fst (fst (expw_add w c))) r end.

Lemma exports_app w a b : exports w (a ++ b) = exports w a ++ exports (expw_run w a) b.
Proof.
  revert w. induction a as [|c r IH]; intros w; cbn [app exports expw_run]; auto.
  destruct (expw_add w c) as [[w' x] y]. cbn [fst]. rewrite IH. auto.
Qed.
Lemma expw_run_app w a b : expw_run w (a ++ b) = expw_run (expw_run w a) b.
Proof. revert w. induction a as [|c r IH]; intros w; cbn [app expw_run]; auto. Qed.
Lemma exports_length w cs : List.length (exports w cs) = List.length cs.
Proof.
  revert w. induction cs as [|c r IH]; intros w; cbn [exports]; auto.
  destruct (expw_add w c) as [[w' x] y]. cbn. rewrite IH. auto.
Qed.

Definition w0 : expw := expw_new per min_time t0.
Definition past (pre : list ecall) : list (ecall * bool) := combine pre (exports w0 pre).

Lemma combine_app {A B} (a a' : list A) (b b' : list B) : List.length a = List.length b ->
  combine (a ++ a') (b ++ b') = combine a b ++ combine a' b'.
Proof. revert b. induction a as [|x r IH]; intros [|y b] E; cbn in *; try discriminate; auto. rewrite IH; auto. Qed.

Lemma expw_inv pre :
  let w := expw_run w0 pre in let '(n, t) := since t0 (past pre) in
  xw_per w = per /\ xw_min w = min_time /\ xw_next w = xw_step w - n + per /\ xw_next_time w = t + min_time.
Proof.
  induction pre as [|c r IH] using rev_ind.
  - cbn. repeat split; lia.
  - cbv zeta in *. rewrite expw_run_app. cbn [expw_run].
    unfold past. rewrite exports_app, combine_app by (rewrite exports_length; auto).
    cbn [exports]. fold (past r). unfold since. rewrite fold_left_app. fold (since t0 (past r)).
    set (w := expw_run w0 r) in *. destruct (since t0 (past r)) as [n t]. destruct IH as (I1 & I2 & I3 & I4).
    unfold expw_add. destruct (ec_inner c) as [u|e] eqn:Ei.
    + destruct ((xw_next w <? xw_step w) && (xw_next_time w <? ec_now c)); cbn [combine fold_left fst xw_per xw_min xw_next xw_step xw_next_time].
      * rewrite I1, I2. repeat split; lia.
      * rewrite Ei. repeat split; auto; lia.
    + cbn [combine fold_left fst]. rewrite Ei. auto.
Qed.

(** When an export happens. *)
Lemma export_iff pre c post :
  nth_error (exports w0 (pre ++ c :: post)) (List.length pre) = Some true <->
  succeeded c = true /\ per < fst (since t0 (past pre)) /\ snd (since t0 (past pre)) + min_time < ec_now c.
Proof.
  rewrite exports_app, nth_error_app2 by (rewrite exports_length; auto).
  rewrite exports_length, Nat.sub_diag. cbn [exports].
  pose proof (expw_inv pre) as IV. cbv zeta in IV. destruct (since t0 (past pre)) as [n t]. cbn [fst snd].
  destruct IV as (I1 & I2 & I3 & I4). unfold expw_add, succeeded.
  destruct (ec_inner c) as [u|e]; cbn [is_ok].
  - destruct (Z.ltb_spec (xw_next (expw_run w0 pre)) (xw_step (expw_run w0 pre)));
    destruct (Z.ltb_spec (xw_next_time (expw_run w0 pre)) (ec_now c)); cbn [andb nth_error]; split; intros X;
      try discriminate; try (split; [auto|split; lia]); auto;
      exfalso; destruct X as (_ & X1 & X2); lia.
  - cbn. split; [discriminate|intros (X & _); discriminate].
Qed.

Lemma since_count (l : list (ecall * bool)) n t :
  fst (fold_left (fun '(n, t) '(c, exported) =>
         if (exported : bool) then (0, ec_now c)
         else (match ec_inner c with Ok _ => n + 1 | Err _ => n end, t)) l (n, t)) <=
  Z.max n 0 + zlen (filter (fun x => succeeded (fst x)) l).
Proof.
  revert n t. induction l as [|[c e] r IH]; intros n t; cbn [fold_left filter].
  - cbn. lia.
  - destruct e.
    + pose proof (IH 0 (ec_now c)) as E. cbn [fst]. unfold zlen in *.
      destruct (succeeded c); cbn [List.length] in *; lia.
    + unfold succeeded at 1. cbn [fst]. destruct (ec_inner c) as [u|x] eqn:Ei; cbn [is_ok].
      * pose proof (IH (n + 1) t) as E. unfold zlen in *. cbn [List.length]. lia.
      * apply IH.
Qed.

Lemma past_app pre c r : past (pre ++ c :: r) =
  past pre ++ combine (c :: r) (exports (expw_run w0 pre) (c :: r)).
Proof. unfold past. rewrite exports_app, combine_app; auto. rewrite exports_length. auto. Qed.

Lemma since_time_mono pre r : 0 <= min_time -> snd (since t0 (past pre)) <= snd (since t0 (past (pre ++ r))).
Proof.
  intros Hm. induction r as [|c r IH] using rev_ind; [rewrite app_nil_r; lia|].
  rewrite app_assoc. set (q := pre ++ r) in *.
  rewrite past_app. pose proof (expw_inv q) as IV. cbv zeta in IV. cbn [exports].
  unfold since at 2. rewrite fold_left_app. fold (since t0 (past q)).
  destruct (since t0 (past q)) as [n t]. cbn [fst snd] in *. destruct IV as (I1 & I2 & I3 & I4).
  unfold expw_add. destruct (ec_inner c) as [u|e] eqn:Ei.
  - destruct (Z.ltb_spec (xw_next (expw_run w0 q)) (xw_step (expw_run w0 q)));
    destruct (Z.ltb_spec (xw_next_time (expw_run w0 q)) (ec_now c)); cbn [andb combine fold_left snd]; try lia.
  - cbn [combine fold_left snd]. lia.
Qed.

Lemma export_gap pre c mid c' post : 0 <= min_time ->
  let bs := exports w0 (pre ++ c :: mid ++ c' :: post) in
  nth_error bs (List.length pre) = Some true ->
  nth_error bs (List.length pre + Datatypes.S (List.length mid)) = Some true ->
  per < zlen (filter succeeded mid) /\ ec_now c + min_time < ec_now c'.
Proof.
  intros Hm bs E1 E2. unfold bs in *.
  change (pre ++ c :: mid ++ c' :: post) with (pre ++ (c :: mid) ++ c' :: post) in E2.
  rewrite app_assoc in E2.
  replace (List.length pre + Datatypes.S (List.length mid))%nat with (List.length (pre ++ c :: mid)) in E2
    by (rewrite app_length; auto).
  apply export_iff in E2 as (_ & E2 & E3).
  assert (Ec : exports (expw_run w0 pre) (c :: mid) = true :: exports (expw_run w0 (pre ++ [c])) mid).
  { rewrite exports_app, nth_error_app2 in E1 by (rewrite exports_length; auto).
    rewrite exports_length, Nat.sub_diag in E1. rewrite expw_run_app. cbn [exports expw_run] in *.
    destruct (expw_add (expw_run w0 pre) c) as [[w' x] y]. cbn [fst nth_error] in *. congruence. }
  split.
  - rewrite past_app, Ec in E2. cbn [combine] in E2. unfold since in E2. rewrite fold_left_app in E2.
    cbn [fold_left] in E2. destruct (fold_left _ (past pre) (0, t0)) as [n t].
    match type of E2 with _ < fst (fold_left _ ?l (?n0, ?tt)) => pose proof (since_count l n0 tt) as E end.
    cbn [Z.max] in E.
    assert (El : forall bs' : list bool, zlen (filter (fun x => succeeded (fst x)) (combine mid bs')) <= zlen (filter succeeded mid)).
    { clear. unfold zlen. induction mid as [|m r IH]; intros [|b bs']; cbn [combine filter List.length]; try lia.
      cbn [fst]. specialize (IH bs'). destruct (succeeded m); cbn [List.length]; lia. }
    specialize (El (exports (expw_run w0 (pre ++ [c])) mid)). lia.
  - assert (Et : snd (since t0 (past (pre ++ [c]))) = ec_now c).
    { rewrite past_app. assert (Ec' : exports (expw_run w0 pre) [c] = [true]).
      { cbn [exports] in *. destruct (expw_add (expw_run w0 pre) c) as [[w' x] y]. inversion Ec; auto. }
      rewrite Ec'. cbn [combine]. unfold since. rewrite fold_left_app. cbn [fold_left].
      destruct (fold_left _ (past pre) (0, t0)) as [n t]. auto. }
    pose proof (@since_time_mono (pre ++ [c]) mid Hm) as Hmono. rewrite Et in Hmono.
    rewrite <- app_assoc in Hmono. cbn [app] in Hmono. lia.
Qed.
End Exports.

(** ** C38 *)
Definition waits (has_exporter : bool) (p : poll) : Prop :=
  po_ready p = false /\ (has_exporter = true -> po_export p = Ok tt) /\ po_shutdown p = false.

Lemma warmup_iff hx ps x n : warmup hx ps = (x, n) ->
  (x = Ok tt <-> exists pre p post, ps = pre ++ p :: post /\ Forall (waits hx) pre /\ po_ready p = true) /\
  (x = Err Shutdown -> (exists pre p post, ps = pre ++ p :: post /\ Forall (waits hx) pre /\ po_ready p = false /\
      (po_shutdown p = true \/ (hx = true /\ po_export p = Err Shutdown)))) /\
  (x = Err Diverges -> Forall (waits hx) ps \/
      exists pre p post, ps = pre ++ p :: post /\ po_export p = Err Diverges) /\
  (hx = true -> exists pre, (exists post, ps = pre ++ post) /\ n = List.length pre /\ Forall (fun p => po_ready p = false) pre /\
      (x = Ok tt -> exists p post, ps = pre ++ p :: post /\ po_ready p = true)).
Proof.
  revert x n. induction ps as [|p r IH]; intros x n E; cbn [warmup] in E.
  - inversion E; subst. split; [|split; [|split]].
    + split; [discriminate|]. intros (pre & p & post & Ep & _). destruct pre; discriminate.
    + discriminate.
    + intros _. left. constructor.
    + intros _. exists []. split; [exists []; auto|]. split; auto. split; [constructor|discriminate].
  - destruct (po_ready p) eqn:Er.
    { inversion E; subst. split; [|split; [|split]].
      - split; auto. intros _. exists [], p, r. auto.
      - discriminate.
      - discriminate.
      - intros _. exists []. split; [exists (p :: r); auto|]. split; auto. split; [constructor|]. intros _. exists p, r. auto. }
    assert (Eh : (exists e, hx = true /\ po_export p = Err e /\ x = Err e /\ n = 1%nat) \/
                 ((hx = true -> po_export p = Ok tt) /\
                  (let n0 := if hx then 1%nat else 0%nat in
                   if po_shutdown p then (Err Shutdown, n0) else let '(x, k) := warmup hx r in (x, (n0 + k)%nat)) = (x, n))).
    { destruct hx.
      - destruct (po_export p) as [[]|e]; [right; auto|left]. inversion E. eauto.
      - right. split; [discriminate|auto]. }
    clear E. destruct Eh as [(e & Eh & Ee & -> & ->)|(Ee & E)].
    { split; [|split; [|split]].
      - split; [discriminate|]. intros (pre & q & post & Ep & F & Rq). destruct pre as [|p' pre].
        + inversion Ep; subst. congruence.
        + inversion Ep; subst. inversion F as [|? ? (_ & W & _) _]; subst. rewrite W in Ee by auto. discriminate.
      - intros X. inversion X; subst. exists [], p, r. split; auto.
      - intros X. inversion X; subst. right. exists [], p, r. auto.
      - intros _. exists [p]. split; [exists r; auto|]. split; auto. split; [auto|discriminate]. }
    cbv zeta in E. destruct (po_shutdown p) eqn:Es.
    { inversion E; subst. split; [|split; [|split]].
      - split; [discriminate|]. intros (pre & q & post & Ep & F & Rq). destruct pre as [|p' pre].
        + inversion Ep; subst. congruence.
        + inversion Ep; subst. inversion F as [|? ? (_ & _ & W) _]; subst. congruence.
      - intros _. exists [], p, r. auto 10.
      - discriminate.
      - intros ->. exists [p]. split; [exists r; auto|]. split; auto. split; [auto|discriminate]. }
    assert (W : waits hx p) by (split; auto).
    destruct (warmup hx r) as [x' k] eqn:Ew. inversion E; subst x' n.
    destruct (IH x k eq_refl) as (I1 & I2 & I3 & I4). split; [|split; [|split]].
    + rewrite I1. split.
      * intros (pre & q & post & -> & F & Rq). exists (p :: pre), q, post. auto.
      * intros (pre & q & post & Ep & F & Rq). destruct pre as [|p' pre]; inversion Ep; subst; [congruence|].
        inversion F; subst. exists pre, q, post. auto.
    + intros X. destruct (I2 X) as (pre & q & post & -> & F & Y). exists (p :: pre), q, post. auto.
    + intros X. destruct (I3 X) as [F|(pre & q & post & -> & Y)]; [left; auto|right]. exists (p :: pre), q, post. auto.
    + intros Hh. destruct (I4 Hh) as (pre & (post & ->) & -> & F & G). exists (p :: pre). split; [exists post; auto|].
      rewrite Hh. split; auto. split; auto. intros X. destruct (G X) as (q & post' & E' & Rq). exists q, post'.
      cbn [app]. rewrite E'. auto.
Qed.

(** ** C35 *)
Section Loaders.
Context {S : Type} {HS : Scalar S}.

Lemma step_ne (t : table S) B o : Inv t B -> op_ok (t_cols t) B o -> B <> [] ->
  exists B', Inv (step t o) B' /\ sublist B' (B ++ adds [o]) /\ t_cols (step t o) = t_cols t /\ B' <> [].
Proof.
  intros I Ho Ne. destruct o as [id s dr|c n dr|n| | |]; simpl in Ho; try tauto.
  - destruct Ho as [So Nid].
    destruct (@add_sequence_inv S t B id s dr I Nid So) as
      [(t' & e & E & I' & _ & _ & F1 & F2 & F3 & _)|
       (t' & ids & E & I' & N1 & N2 & _ & N3 & F1 & F2 & F3 & _)]; simpl; rewrite E; simpl.
    + exists B. split; auto. split; auto.
      rewrite <- (app_nil_r B) at 1. apply sublist_app; [apply sublist_refl|]. repeat constructor.
    + exists (drop_all ids B ++ [(wrap_id id, s)]). split; auto. split.
      { apply sublist_app; [apply sublist_filter|apply sublist_refl]. }
      split; auto. destruct (drop_all ids B); discriminate.
  - exists B. simpl. destruct (t_sample_frame t c n dr) as [d Ed].
    pose proof (t_sample_inv c n dr I) as I'. simpl in Ed. rewrite app_nil_r.
    split; auto. split; [apply sublist_refl|]. rewrite Ed. auto.
  - exists B. simpl. unfold t_resize. rewrite app_nil_r.
    destruct (Z.ltb_spec n (t_maxlen t)); simpl.
    + split; auto. split; [apply sublist_refl|]. auto.
    + split; [apply Inv_with_maxlen; auto|]. split; [apply sublist_refl|]. auto.
  - exists B. simpl. rewrite app_nil_r. split; auto. split; [apply sublist_refl|]. auto.
  - exists B. simpl. rewrite app_nil_r. split; auto. split; [apply sublist_refl|]. auto.
Qed.

Lemma run_ne ops : forall (t : table S) B, Inv t B -> Forall no_clear ops ->
  Forall (fun e => seq_ok (t_cols t) (snd e)) (adds ops) ->
  NoDup (map fst (B ++ adds ops)) -> B <> [] ->
  exists B', Inv (run t ops) B' /\ sublist B' (B ++ adds ops) /\ B' <> [].
Proof.
  induction ops as [|o r IH]; intros t B I Nc So ND Ne.
  - exists B. simpl. rewrite app_nil_r. split; auto. split; [apply sublist_refl|auto].
  - inversion Nc as [|? ? Nc1 Nc2]; subst.
    assert (Ea : adds (o :: r) = adds [o] ++ adds r) by (apply (adds_app [o] r)).
    rewrite Ea in So, ND. apply Forall_app in So as [So1 So2].
    assert (Ho : op_ok (t_cols t) B o).
    { destruct o; simpl; auto.
      split; [inversion So1; auto|]. simpl in ND. rewrite map_app in ND.
      intros In1. apply NoDup_remove_2 in ND. apply ND. apply in_or_app; auto. }
    destruct (@step_ne t B o I Ho Ne) as (B1 & I1 & S1 & F1 & Ne1).
    destruct (IH (step t o) B1 I1 Nc2) as (B2 & I2 & S2 & Ne2).
    { rewrite F1; auto. }
    { eapply sublist_NoDup; [|exact ND]. apply sublist_map. rewrite app_assoc.
      apply sublist_app; [auto|apply sublist_refl]. }
    { auto. }
    exists B2. split; auto. split; auto.
    eapply sublist_trans; [exact S2|]. rewrite Ea, app_assoc. apply sublist_app; auto.
    apply sublist_refl.
Qed.

Definition ops_of (rounds : list (list (op S) * list draw)) : list (op S) := concat (map fst rounds).

Lemma sampling_ok_app cols lk s e (a b : list (op S)) L :
  sampling_ok cols lk s e (a ++ b) L -> sampling_ok cols lk s e a L.
Proof.
  intros (C & Fs & Fe & (C1 & C2 & C3) & HL & Hep). rewrite adds_app in *.
  apply Forall_app in C1 as [C1 _]. apply Forall_app in C2 as [C2 _]. apply Forall_app in Hep as [Hep _].
  split; auto. split; auto. split; auto. split; [|auto]. split; auto. split; auto.
  eapply sublist_NoDup; [|exact C3]. apply sublist_map. rewrite <- (app_nil_r (adds a)) at 1.
  apply sublist_app; [apply sublist_refl|]. clear. induction (adds b); [apply sublist_refl|constructor; auto].
Qed.

Lemma sampling_ok_insert cols lk s e (a b : list (op S)) L c n d :
  sampling_ok cols lk s e (a ++ b) L -> sampling_ok cols lk s e ((a ++ [OSample c n d]) ++ b) L.
Proof.
  intros (C & Fs & Fe & (C1 & C2 & C3) & HL & Hep).
  assert (E : adds ((a ++ [OSample c n d]) ++ b) = adds (a ++ b)).
  { rewrite !adds_app. simpl. rewrite app_nil_r. auto. }
  split; auto. split; auto. split; auto. split; [|rewrite E; auto]. split; [|rewrite E; auto].
  apply Forall_app in C1 as [C1 C1']. apply Forall_app. split; auto. apply Forall_app. split; auto.
  constructor; auto. discriminate.
Qed.

Lemma load_one_full cols lk maxlen s e ops l draws b :
  sampling_ok cols lk s e ops (ld_length l) -> ld_group l <> ld_size_key l ->
  snd (load_one l (run (t_create cols lk maxlen s e) ops) draws) = Ok b -> full_batch cols l b.
Proof.
  intros So Ng. unfold load_one.
  destruct (t_sample (run (t_create cols lk maxlen s e) ops) (ld_count l) (ld_length l) draws) as [t' [rows|er]] eqn:E;
    [|discriminate].
  cbn [snd]. intros X; match type of X with Ok ?y = Ok _ => assert (Eb : y = b) by (injection X; auto) end; rewrite <- Eb; clear X Eb.
  assert (Es : snd (t_sample (run (t_create cols lk maxlen s e) ops) (ld_count l) (ld_length l) draws) = Ok rows)
    by (rewrite E; auto).
  unfold full_batch. split; [apply dget_dset_eq|].
  eexists. split; [rewrite dget_dset_neq by auto; apply dget_dset_eq|].
  split; [apply dget_dset_eq|]. intros c Ic Bc Nc.
  destruct (@sample_aligned S HS cols lk maxlen s e ops (ld_count l) (ld_length l) draws rows So Es)
    as (ws & (Lw & _) & R).
  destruct (R c Ic Bc) as (rs & Er & Lr & _). exists rs.
  split.
  - rewrite dget_dset_neq by auto. rewrite dget_map_val, Er. auto.
  - unfold zlen, array, row in *. rewrite Lr, Lw. lia.
Qed.

Lemma iterate_running cols lk maxlen s e l : ld_group l <> ld_size_key l ->
  forall rounds ops B, let t := run (t_create cols lk maxlen s e) ops in
  sampling_ok cols lk s e (ops ++ ops_of rounds) (ld_length l) ->
  Forall (fun x => - 2 ^ 63 <= fst x < 2 ^ 63) (adds (ops ++ ops_of rounds)) ->
  Inv t B -> sublist B (adds ops) -> B <> [] ->
  ~ In (Err Diverges) (iterate l GRunning t rounds) ->
  Forall (fun r => exists b, r = Ok b /\ full_batch cols l b) (iterate l GRunning t rounds).
Proof.
  intros Ng. induction rounds as [|[os draws] r IH]; intros ops B t So Hid I Sb Ne Nd; [constructor|].
  assert (Eo : ops ++ ops_of ((os, draws) :: r) = (ops ++ os) ++ ops_of r)
    by (unfold ops_of; cbn [map concat fst]; rewrite app_assoc; auto).
  rewrite Eo in So, Hid.
  pose proof (sampling_ok_app _ _ So) as So1.
  assert (Et : run t os = run (t_create cols lk maxlen s e) (ops ++ os)).
  { unfold t, run. rewrite fold_left_app. auto. }
  cbn [iterate] in Nd |- *. rewrite Et in *.
  set (t1 := run (t_create cols lk maxlen s e) (ops ++ os)) in *.
  assert (HB : exists B1, Inv t1 B1 /\ sublist B1 (adds (ops ++ os)) /\ B1 <> []).
  { destruct So1 as (C & Fs & Fe & (C1 & C2 & C3) & _).
    rewrite <- Et.
    assert (Tc : t_cols t = cols).
    { destruct (proj1 (conj (sampling_ok_app _ _ (sampling_ok_app _ _ So)) I)) as (C' & Fs' & Fe' & Co' & _).
      destruct (run_create maxlen C' Fs' Fe' Co') as (B0 & _ & _ & F1 & _). exact F1. }
    destruct (@run_ne os t B I) as (B1 & I1 & S1 & Ne1); auto.
    - apply Forall_app in C1 as [_ C1]; auto.
    - rewrite Tc. rewrite adds_app in C2. apply Forall_app in C2 as [_ C2]; auto.
    - eapply sublist_NoDup; [|exact C3]. apply sublist_map. rewrite adds_app. apply sublist_app; [auto|apply sublist_refl].
    - exists B1. split; auto. split; auto. eapply sublist_trans; [exact S1|]. rewrite adds_app.
      apply sublist_app; [auto|apply sublist_refl]. }
  destruct HB as (B1 & I1 & S1 & Ne1).
  unfold loader_next in *.
  pose proof (@load_one_full cols lk maxlen s e (ops ++ os) l draws) as LF. fold t1 in LF.
  assert (Hf : fst (load_one l t1 draws) = step t1 (OSample (ld_count l) (ld_length l) draws)).
  { unfold load_one. cbn [step]. destruct (t_sample t1 (ld_count l) (ld_length l) draws) as [t' [x|x]]; auto. }
  assert (Hs : forall er, snd (load_one l t1 draws) = Err er -> er = Diverges).
  { intros er E. apply (@sample_total S HS cols lk maxlen s e (ops ++ os) (ld_count l) (ld_length l) draws er B1 So1).
    - rewrite adds_app in Hid. apply Forall_app in Hid as [Hid _]. eapply Forall_impl; [|exact Hid]. cbn; tauto.
    - rewrite adds_app in Hid. apply Forall_app in Hid as [Hid _]. eapply Forall_impl; [|exact Hid]. cbn; tauto.
    - apply (inv_holds I1).
    - auto.
    - unfold load_one in E. unfold t1 in E.
      destruct (t_sample (run (t_create cols lk maxlen s e) (ops ++ os)) (ld_count l) (ld_length l) draws) as [t' [x|x]];
      cbn [snd] in *; congruence. }
  destruct (load_one l t1 draws) as [t2 [b|er]].
  - cbn [fst snd] in *. constructor.
    + exists b. split; auto.
    + assert (E2 : t2 = run (t_create cols lk maxlen s e) ((ops ++ os) ++ [OSample (ld_count l) (ld_length l) draws])).
      { rewrite Hf. unfold t1, run. rewrite (fold_left_app _ (ops ++ os)). auto. }
      rewrite E2 in *.
      destruct (@step_ne t1 B1 (OSample (ld_count l) (ld_length l) draws) I1 Logic.I Ne1) as (B2 & I2 & S2 & _ & Ne2).
      apply (IH _ B2); auto.
      * apply sampling_ok_insert; auto.
      * rewrite !adds_app in *. cbn [adds]. rewrite app_nil_r. auto.
      * rewrite <- Hf in I2. auto.
      * eapply sublist_trans; [exact S2|]. rewrite !adds_app. cbn [adds]. rewrite !app_nil_r.
        rewrite adds_app in S1. exact S1.
      * intros X. apply Nd. right. auto.
  - exfalso. apply Nd. left. f_equal. apply Hs. auto.
Qed.

Lemma iterate_ready cols lk maxlen s e l ops draws rounds :
  let t := run (t_create cols lk maxlen s e) ops in
  ld_group l <> ld_size_key l -> (1 <= ld_count l)%nat ->
  sampling_ok cols lk s e (ops ++ ops_of rounds) (ld_length l) ->
  Forall (fun x => - 2 ^ 63 <= fst x < 2 ^ 63) (adds (ops ++ ops_of rounds)) ->
  is_ready l t = true ->
  ~ In (Err Diverges) (iterate l GNew t (([], draws) :: rounds)) ->
  Forall (fun r => exists b, r = Ok b /\ full_batch cols l b) (iterate l GNew t (([], draws) :: rounds)).
Proof.
  intros t Ng Hc So Hid R Nd.
  assert (E : iterate l GNew t (([], draws) :: rounds) = iterate l GRunning t (([], draws) :: rounds)).
  { cbn [iterate run fold_left]. unfold loader_next. rewrite R. auto. }
  rewrite E in *.
  pose proof (sampling_ok_app _ _ So) as (C & Fs & Fe & Co & HL & _).
  destruct (run_create maxlen C Fs Fe Co) as (B & I & Sb & F1 & F2 & _). fold t in I, F1, F2.
  apply (@iterate_running cols lk maxlen s e l Ng (([], draws) :: rounds) ops B); auto.
  intros ->. unfold is_ready in R. apply Z.leb_le in R. unfold t_size in R. rewrite (inv_total I) in R.
  unfold total_len in R. cbn in R. nia.
Qed.

Lemma not_ready l (t : table S) draws r : is_ready l t = false ->
  iterate l GNew t (([], draws) :: r) = Err OtherError :: iterate l GDone t r.
Proof. intros R. cbn [iterate run fold_left]. unfold loader_next. rewrite R. auto. Qed.

(** ** C36 *)
Lemma joint_ok_iff ls : joint_ok ls = Ok tt <-> NoDup (map ld_group ls).
Proof.
  unfold joint_ok.
  destruct (forallb (fun l => (count_occ string_dec (map ld_group ls) (ld_group l) <=? 1)%nat) ls) eqn:E.
  - split; auto. intros _. rewrite forallb_forall in E. apply (NoDup_count_occ string_dec). intros g.
    destruct (in_dec string_dec g (map ld_group ls)) as [Ig|Ng].
    + apply in_map_iff in Ig as (l & <- & Il). apply E in Il. apply Nat.leb_le in Il. auto.
    + apply (count_occ_not_In string_dec) in Ng. rewrite Ng. lia.
  - split; [discriminate|]. intros ND. rewrite (NoDup_count_occ string_dec) in ND.
    exfalso. assert (X : forallb (fun l => (count_occ string_dec (map ld_group ls) (ld_group l) <=? 1)%nat) ls = true).
    { apply forallb_forall. intros l _. apply Nat.leb_le. apply ND. }
    congruence.
Qed.

Definition size_of (l : loader) : Z := Z.of_nat (ld_count l) * Z.of_nat (ld_length l).

Lemma load_one_entries l (t : table S) draws b : snd (load_one l t draws) = Ok b -> ld_group l <> ld_size_key l ->
  (exists d, dget b (ld_group l) = Some (EData d)) /\ dget b (ld_size_key l) = Some (ENum (size_of l)).
Proof.
  unfold load_one. destruct (t_sample t (ld_count l) (ld_length l) draws) as [t' [rows|e]]; [|discriminate].
  cbn [snd]. intros X Ng; match type of X with Ok ?y = Ok _ => assert (Eb : y = b) by (injection X; auto) end; rewrite <- Eb; clear X Eb. split.
  - eexists. rewrite dget_dset_neq by auto. apply dget_dset_eq.
  - apply dget_dset_eq.
Qed.

Definition loader_ok (size_key : string) (l : loader) : Prop :=
  ld_group l <> size_key /\ ld_group l <> ld_size_key l.

Lemma joint_body_ok sk (ls : list (loader * table S)) : forall draws out n,
  Forall (loader_ok sk) (map fst ls) -> NoDup (dkeys out ++ map (fun lt => ld_group (fst lt)) ls) ->
  dget out sk = Some (ENum n) ->
  (forall i l t, nth_error ls i = Some (l, t) -> is_ready l t = true /\ is_ok (snd (load_one l t (nth i draws []))) = true) ->
  exists out', snd (joint_body sk ls draws out) = Ok out' /\
    dkeys out' = dkeys out ++ map (fun lt => ld_group (fst lt)) ls /\
    dget out' sk = Some (ENum (n + zsum (map (fun lt => size_of (fst lt)) ls))) /\
    (forall k, k <> sk -> dmem out k = true -> dget out' k = dget out k) /\
    (forall i l t, nth_error ls i = Some (l, t) ->
       exists b, snd (load_one l t (nth i draws [])) = Ok b /\ dget out' (ld_group l) = dget b (ld_group l) /\
                 dget b (ld_group l) <> None).
Proof.
  induction ls as [|[l t] r IH]; intros draws out n F ND G Hr.
  - exists out. cbn [joint_body snd map]. rewrite app_nil_r. unfold zsum. cbn [fold_right]. rewrite Z.add_0_r.
    split; auto. split; auto. split; auto. split; auto. intros [|i] ? ? X; discriminate.
  - inversion F as [|? ? [Ng1 Ng2] F']; subst. cbn [map fst] in *.
    destruct (Hr 0%nat l t eq_refl) as [R0 L0].
    replace (nth 0 draws []) with (hd [] draws) in L0 by (destruct draws; auto).
    cbn [joint_body]. unfold loader_next. rewrite R0.
    pose proof (@load_one_entries l t (hd [] draws)) as LE.
    destruct (load_one l t (hd [] draws)) as [t' [b|er]] eqn:El; [|discriminate].
    cbn [snd] in *. destruct (LE b eq_refl Ng2) as [[d Gd] Gn]. rewrite Gd, Gn. unfold add_num.
    rewrite dget_dset_neq by auto. rewrite G.
    assert (Nk : ~ In (ld_group l) (dkeys out)).
    { intros X. apply NoDup_remove_2 in ND. apply ND. apply in_or_app; auto. }
    set (out1 := dset (dset out (ld_group l) (EData d)) sk (ENum (n + size_of l))).
    assert (K1 : dkeys out1 = dkeys out ++ [ld_group l]).
    { unfold out1. rewrite dkeys_dset_mem; rewrite dkeys_dset_fresh by auto; auto.
      apply in_or_app. left. eapply dget_Some_key; eauto. }
    destruct (IH (tl draws) out1 (n + size_of l) F') as (out' & E & K & Gs & Fr & Hl).
    + rewrite K1, <- app_assoc. auto.
    + unfold out1. apply dget_dset_eq.
    + intros i l0 t0 E0. destruct (Hr (Datatypes.S i) l0 t0 E0) as [A B]. split; auto.
      destruct draws; cbn [nth tl] in *; auto. destruct i; auto.
    + destruct (joint_body sk r (tl draws) out1) as [r' x]. cbn [snd] in *. subst x. exists out'. split; auto.
      split; [rewrite K, K1, <- app_assoc; auto|].
      split; [rewrite Gs; unfold zsum; cbn [fold_right]; f_equal; f_equal; lia|].
      split.
      * intros k Nk' Mk. assert (k <> ld_group l).
        { intros ->. apply Nk. apply dmem_In. auto. }
        rewrite Fr; auto.
        -- unfold out1. rewrite !dget_dset_neq by auto. auto.
        -- unfold dmem, out1. rewrite !dget_dset_neq by auto. auto.
      * intros [|i] l0 t0 E0; cbn [nth_error] in E0.
        -- inversion E0; subst l0 t0. exists b. replace (nth 0 draws []) with (hd [] draws) by (destruct draws; auto).
           rewrite El. split; auto. split; [|rewrite Gd; discriminate].
           rewrite Fr; auto.
           ++ unfold out1. rewrite dget_dset_neq by auto. rewrite dget_dset_eq. auto.
           ++ unfold dmem, out1. rewrite dget_dset_neq by auto. rewrite dget_dset_eq. auto.
        -- destruct (Hl i l0 t0 E0) as (b0 & Eb & Gb). exists b0. split; auto.
           destruct draws; cbn [nth tl] in *; auto. destruct i; auto.
Qed.

Lemma joint_next_ok sk (ls : list (loader * table S)) g draws : g <> GDone ->
  Forall (loader_ok sk) (map fst ls) -> NoDup (map (fun lt => ld_group (fst lt)) ls) ->
  (forall i l t, nth_error ls i = Some (l, t) -> is_ready l t = true /\ is_ok (snd (load_one l t (nth i draws []))) = true) ->
  exists ls' out, joint_next sk ls g draws = (GRunning, ls', Ok out) /\
    dkeys out = sk :: map (fun lt => ld_group (fst lt)) ls /\
    dget out sk = Some (ENum (zsum (map (fun lt => size_of (fst lt)) ls))) /\
    (forall i l t, nth_error ls i = Some (l, t) ->
       exists b, snd (load_one l t (nth i draws [])) = Ok b /\ dget out (ld_group l) = dget b (ld_group l) /\
                 dget b (ld_group l) <> None).
Proof.
  intros Hg F ND Hr.
  destruct (@joint_body_ok sk ls draws [(sk, ENum 0)] 0 F) as (out & E & K & G & _ & Hl); auto.
  - cbn [dkeys map fst app]. constructor; auto. intros X. apply in_map_iff in X as ([l t] & El & Il).
    rewrite Forall_forall in F. destruct (F l) as [N _]; [|cbn in *; congruence].
    change l with (fst (l, t)). apply in_map. auto.
  - cbn [dget]. rewrite keqb_refl. auto.
  - assert (R : joint_ready ls = true).
    { unfold joint_ready. apply forallb_forall. intros [l t] Il. apply In_nth_error in Il as [i Ei].
      apply (Hr i l t Ei). }
    unfold joint_next. destruct (joint_body sk ls draws [(sk, ENum 0)]) as [ls' x]. cbn [snd] in E. subst x.
    exists ls', out. split; [destruct g; try congruence; rewrite R; auto|]. split; auto.
Qed.

(** What the variant with one data group yields: the same, one level down. *)
Lemma group_next_ok sk group (ls : list (loader * table S)) draws ls' out total :
  group <> sk -> NoDup (dkeys out) ->
  joint_next sk ls GNew draws = (GRunning, ls', Ok out) -> dget out sk = Some (ENum total) ->
  exists b, group_next sk group ls GNew draws = (GRunning, ls', Ok b) /\
    dget b sk = Some (ENum total) /\ dkeys b = [group; sk] /\
    exists d, dget b group = Some (EGroups d) /\ dget d sk = None /\ forall k, k <> sk -> dget d k = dget out k.
Proof.
  intros Ng ND E G. unfold group_next. rewrite E, G. eexists. split; [reflexivity|].
  split; [apply dget_dset_eq|]. split.
  - rewrite dkeys_dset_fresh; [auto|]. cbn. intuition.
  - exists (ddel out sk). split; [rewrite dget_dset_neq by auto; apply dget_dset_eq|].
    split; [apply dget_ddel_eq; auto|]. intros k Nk. apply dget_ddel_neq; auto.
Qed.

(** ** C37: nothing below a loader raises StopIteration. *)
Definition ns {A} (r : res A) : Prop := r <> Err StopIteration.

Lemma ns_bind {A B} (r : res A) (f : A -> res B) : ns r -> (forall a, ns (f a)) -> ns (rbind r f).
Proof. destruct r; cbn; auto. intros N _ E. apply N. congruence. Qed.

Ltac nsd := repeat first [ discriminate | match goal with
  | |- ns (match ?x with _ => _ end) => destruct x eqn:?
  | |- ns (if ?x then _ else _) => destruct x eqn:?
  | |- ns (rbind _ _) => apply ns_bind; [|intros ?]
  | |- ns (snd (match ?x with _ => _ end)) => destruct x eqn:?
  | |- ns (snd (if ?x then _ else _)) => destruct x eqn:?
  | |- ns (snd (_, _)) => cbn [snd]
  end ]; auto.

Lemma ns_pyindex {A} (l : list A) i : ns (pyindex l i).
Proof. unfold pyindex. nsd. Qed.
Lemma ns_randint0 hi d : ns (randint0 hi d).
Proof. unfold randint0. nsd. Qed.

Lemma ns_fifo_pe f tc count : forall i draws, ns (fifo_sample_per_episode f tc i count draws).
Proof.
  induction count as [|c IH]; intros i draws; cbn [fifo_sample_per_episode]; [discriminate|].
  nsd; auto using ns_pyindex, ns_randint0. 
Qed.
Lemma ns_fifo_seq f ro tc count : forall ep cur draws, ns (fifo_sample_seq f ro tc ep cur count draws).
Proof.
  induction count as [|c IH]; intros ep cur draws; cbn [fifo_sample_seq]; [discriminate|].
  nsd; auto using ns_pyindex, ns_randint0.
Qed.
Lemma ns_w_loop tc draws : forall w, ns (snd (w_sample_loop w tc draws)).
Proof.
  induction draws as [|[id k] ds IH]; intros w; cbn [w_sample_loop]; [discriminate|].
  nsd; match goal with E : w_sample_loop ?w tc ds = _ |- _ => specialize (IH w); rewrite E in IH; cbn in IH end;
    intros X; apply IH; congruence.
Qed.
Lemma ns_w_sample w count tc draws : ns (snd (w_sample w count tc draws)).
Proof.
  unfold w_sample, w_refresh, w_rebalance. nsd; try apply ns_w_loop.
  repeat match goal with H : (if ?x then _ else _) = _ |- _ => destruct x end; congruence.
Qed.
Lemma ns_s_sample s count tc draws : ns (snd (s_sample s count tc draws)).
Proof.
  destruct s; cbn; [|apply ns_w_sample]. unfold fifo_sample. destruct per_episode; [apply ns_fifo_pe|apply ns_fifo_seq].
Qed.
Lemma ns_gather_points (t : table S) c n pts : forall idx buf, ns (gather_points t c n idx buf pts).
Proof.
  induction pts as [|[[id a] b] r IH]; intros idx buf; cbn [gather_points]; [discriminate|].
  assert (N : ns (rbind (read_slice t c id a b) (np_assign buf idx n))).
  { apply ns_bind; [unfold read_slice, read_mapped; nsd|intros x; unfold np_assign; nsd]. }
  destruct (rbind (read_slice t c id a b) (np_assign buf idx n)) as [buf'|e]; auto.
  assert (D : ns (@Err (array S) (diagnostic t id))).
  { unfold diagnostic. destruct (forallb _ _); discriminate. }
  destruct e; auto.
Qed.
Lemma ns_gather_cols count n pts cols : forall t : table S, ns (snd (gather_cols t count n pts cols)).
Proof.
  induction cols as [|c r IH]; intros t; cbn [gather_cols]; [discriminate|].
  pose proof (@ns_gather_points t c (local_len c n) pts 0 (firstn (count * local_len c n) (temp_for t c (count * local_len c n)))) as N.
  destruct (gather_points t c (local_len c n) 0 (firstn (count * local_len c n) (temp_for t c (count * local_len c n))) pts)
    as [out|e]; [|intros X; apply N; cbn in X; congruence].
  match goal with |- context [gather_cols ?t1 count n pts r] => specialize (IH t1); destruct (gather_cols t1 count n pts r) as [t2 [x|x]] end;
    cbn [snd] in *; [discriminate|]. intros X; apply IH; congruence.
Qed.
Lemma ns_t_sample (t : table S) count n draws : ns (snd (t_sample t count n draws)).
Proof.
  unfold t_sample. pose proof (ns_s_sample (t_sampler t) count (Z.of_nat n) draws) as N.
  destruct (s_sample (t_sampler t) count (Z.of_nat n) draws) as [s [pts|e]].
  - apply ns_gather_cols.
  - cbn [snd] in *. intros X; apply N; congruence.
Qed.
Lemma ns_load_one l (t : table S) draws : ns (snd (load_one l t draws)).
Proof.
  unfold load_one. pose proof (ns_t_sample t (ld_count l) (ld_length l) draws) as N.
  destruct (t_sample t (ld_count l) (ld_length l) draws) as [s [pts|e]]; cbn [snd] in *; [discriminate|].
  intros X; apply N; congruence.
Qed.

Lemma loader_next_keeps l g (t : table S) d : g <> GDone ->
  let '(g', _, x) := loader_next l g t d in ns x /\ (is_ok x = true -> g' <> GDone).
Proof.
  intros Hg. pose proof (ns_load_one l t d) as N. unfold loader_next.
  destruct (load_one l t d) as [t' [b|e]]; cbn [snd] in N.
  - destruct g; try congruence; [destruct (is_ready l t)|]; split; discriminate.
  - assert (N' : ns (@Err (batch S) e)) by (intros X; apply N; congruence).
    destruct g; try congruence; [destruct (is_ready l t)|]; split; auto; discriminate.
Qed.

(** A loader that only produced batches so far is not exhausted. *)
Lemma loader_keeps l : forall rounds g (t : table S) k, g <> GDone ->
  (forall j, (j < k)%nat -> exists b, nth_error (iterate l g t rounds) j = Some (Ok b)) ->
  nth_error (iterate l g t rounds) k <> Some (Err StopIteration).
Proof.
  induction rounds as [|[os d] r IH]; intros g t k Hg Hk; [destruct k; discriminate|].
  cbn [iterate] in *. pose proof (@loader_next_keeps l g (run t os) d Hg) as LN.
  destruct (loader_next l g (run t os) d) as [[g' t'] x]. destruct LN as [Nx Gx].
  destruct k as [|k]; cbn [nth_error] in *; [intros X; apply Nx; congruence|].
  destruct (Hk 0%nat ltac:(lia)) as (b & Eb). cbn in Eb. inversion Eb; subst x.
  apply IH; [apply Gx; auto|]. intros j Hj. apply (Hk (Datatypes.S j)). lia.
Qed.

Lemma ns_joint_body sk (ls : list (loader * table S)) : forall draws out, ns (snd (joint_body sk ls draws out)).
Proof.
  induction ls as [|[l t] r IH]; intros draws out; cbn [joint_body]; [discriminate|].
  assert (Hn : GNew <> GDone) by discriminate.
  pose proof (@loader_next_keeps l GNew t (hd [] draws) Hn) as LN.
  destruct (loader_next l GNew t (hd [] draws)) as [[g' t'] x]. destruct LN as [Nx _].
  destruct x as [data|e]; [|cbn [snd]; intros X; apply Nx; congruence].
  destruct (dget data (ld_group l)) as [g|]; [|discriminate]. destruct (dget data (ld_size_key l)) as [n|]; [|discriminate].
  assert (Na : ns (add_num (dset out (ld_group l) g) sk n)) by (unfold add_num; nsd).
  destruct (add_num (dset out (ld_group l) g) sk n) as [out'|e]; [|cbn [snd]; auto].
  specialize (IH (tl draws) out'). destruct (joint_body sk r (tl draws) out') as [r' x]. auto.
Qed.

Lemma joint_keeps sk : forall draws (ls : list (loader * table S)) g k, g <> GDone ->
  (forall j, (j < k)%nat -> exists b, nth_error (joint_iterate (joint_next sk) ls g draws) j = Some (Ok b)) ->
  nth_error (joint_iterate (joint_next sk) ls g draws) k <> Some (Err StopIteration).
Proof.
  induction draws as [|d r IH]; intros ls g k Hg Hk; [destruct k; discriminate|].
  cbn [joint_iterate] in *.
  assert (LN : let '(g', _, x) := joint_next sk ls g d in ns x /\ (is_ok x = true -> g' <> GDone)).
  { unfold joint_next. pose proof (ns_joint_body sk ls d [(sk, ENum 0)]) as N.
    destruct (joint_body sk ls d [(sk, ENum 0)]) as [ls' [b|e]]; cbn [snd] in N;
    destruct g; try congruence; try (destruct (joint_ready ls)); split; auto; discriminate. }
  destruct (joint_next sk ls g d) as [[g' t'] x]. destruct LN as [Nx Gx].
  destruct k as [|k]; cbn [nth_error] in *; [intros X; apply Nx; congruence|].
  destruct (Hk 0%nat ltac:(lia)) as (b & Eb). cbn in Eb. inversion Eb; subst x.
  apply IH; [apply Gx; auto|]. intros j Hj. apply (Hk (Datatypes.S j)). lia.
Qed.

(** The variant with one data group always ends after one batch. *)
Lemma group_stops sk group (ls : list (loader * table S)) d draws b :
  nth_error (joint_iterate (group_next sk group) ls GNew (d :: draws)) 0 = Some (Ok b) ->
  joint_iterate (group_next sk group) ls GNew (d :: draws) = Ok b :: map (fun _ => Err StopIteration) draws.
Proof.
  cbn [joint_iterate]. destruct (group_next sk group ls GNew d) as [[g ls'] x] eqn:E. cbn [nth_error].
  intros X; inversion X; subst x. f_equal.
  assert (Hg : g <> GNew).
  { unfold group_next in E. destruct (joint_next sk ls GNew d) as [[g0 ls0] [data|e]].
    - destruct (dget data sk); inversion E; discriminate.
    - inversion E. }
  clear - Hg. revert ls' g Hg. induction draws as [|d r IH]; intros ls' g Hg; auto.
  cbn [joint_iterate map]. destruct g; [congruence| |]; cbn [group_next]; f_equal; apply IH; discriminate.
Qed.
End Loaders.
