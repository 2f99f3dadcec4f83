(** * CriticProofs: from agents to the critic's loss (C138) *)
From Coq Require Import Reals Lra Lia.
From Verif Require Import Py PyLemmas MemModel MemSpec ProxyModel ProxySpec ProxyE2E NumModel NumSpec NumTarget E2ESpec E2EProofs
  PolModel PolSpec PolMain CriticModel CriticSpec.
Open Scope list_scope.
Open Scope R_scope.

Lemma finite_choice {A} (d : A) (P : nat -> A -> Prop) n : (forall j, (j < n)%nat -> exists x, P j x) ->
  exists f, forall j, (j < n)%nat -> P j (f j).
Proof.
  induction n as [|n IH]; intros Hx.
  - exists (fun _ => d). intros j Hj. lia.
  - destruct IH as (f & Hf); [intros j Hj; apply Hx; lia|]. destruct (Hx n ltac:(lia)) as (x & Px).
    exists (fun j => if Nat.eqb j n then x else f j). intros j Hj. destruct (Nat.eqb_spec j n); [subst; auto|]. apply Hf. lia.
Qed.
Lemma list_as_seq {A} (l : list A) n f : List.length l = n -> (forall k, (k < n)%nat -> nth_error l k = Some (f k)) ->
  l = map f (seq 0 n).
Proof.
  revert n f. induction l as [|x l IH]; intros [|n] f E Hk; cbn in E; try lia; auto.
  cbn. f_equal.
  - specialize (Hk O ltac:(lia)). cbn in Hk. congruence.
  - rewrite <- seq_shift, map_map. apply IH; [lia|]. intros k L. exact (Hk (Datatypes.S k) ltac:(lia)).
Qed.
Lemma combine_maps {A B C} (f : A -> B) (g : A -> C) l : combine (map f l) (map g l) = map (fun x => (f x, g x)) l.
Proof. induction l; cbn; auto. rewrite IHl. auto. Qed.
Lemma msq_seq n f g : mean_square_error (map f (seq 0 n)) (map g (seq 0 n)) =
  rsum (map (fun k => (f k - g k) ^ 2) (seq 0 n)) / INR n.
Proof. unfold mean_square_error. rewrite combine_maps, map_map, map_length, seq_length. reflexivity. Qed.

Lemma greatest_unique l v w : greatest l v -> greatest l w -> v = w.
Proof. intros (I1 & F1) (I2 & F2). rewrite Forall_forall in F1, F2. apply F1 in I2. apply F2 in I1. lra. Qed.
Lemma fold_max_ge r : forall x, x <= fold_left Rmax r x /\ Forall (fun y => y <= fold_left Rmax r x) r /\
  (fold_left Rmax r x = x \/ In (fold_left Rmax r x) r).
Proof.
  induction r as [|y r IH]; intros x; cbn.
  - split; [lra|]. split; auto.
  - destruct (IH (Rmax x y)) as (G & F & I). pose proof (Rmax_l x y). pose proof (Rmax_r x y).
    split; [lra|]. split; [constructor; [lra|auto]|]. destruct I as [I|I]; auto.
    rewrite I. unfold Rmax. destruct (Rle_dec x y); auto.
Qed.
Lemma row_max_greatest l : l <> [] -> greatest l (row_max l).
Proof.
  destruct l as [|x r]; [congruence|]. intros _. unfold row_max. destruct (fold_max_ge r x) as (G & F & I).
  split; [destruct I as [-> | I]; [left; auto|right; auto]|]. constructor; auto.
Qed.
Lemma dqn_values {S} `{Scalar S} (net : list (row (S:=S)) -> list R) os :
  dqn_next_values net os = row_by_row (fun _ o => row_max (net o)) os.
Proof.
  unfold dqn_next_values, row_by_row. generalize O. induction os as [|o os IH]; intros k; cbn; auto.
  f_equal. apply IH.
Qed.
Lemma sac_values {S A} `{Scalar S} (policy : nat -> list (row (S:=S)) -> A * R) q1t q2t la os :
  sac_next_values policy q1t q2t la os = row_by_row (soft_value policy q1t q2t (exp la)) os.
Proof.
  unfold sac_next_values, row_by_row. apply map_ext. intros (i, o). cbn [fst snd]. unfold soft_value.
  destruct (policy i o) as (a, lp). cbn [fst snd]. unfold Rmin. destruct (Rle_dec (q1t a o) (q2t a o)); ring.
Qed.
Lemma q_target_ext {O} gamma scale L m (v w : list O -> list R) os rs ms : v os = w os ->
  q_target gamma scale L m v os rs ms = q_target gamma scale L m w os rs ms.
Proof. intros E. unfold q_target. rewrite E. reflexivity. Qed.
Lemma n_step_ext gamma rs v w t : v = w -> n_step_return gamma rs v t = n_step_return gamma rs w t.
Proof. intros ->. reflexivity. Qed.

Section T.
Context {S : Type} {HS : Scalar S}.
Variable num : S -> R.
Hypothesis num0 : num s_zero = 0.
Hypothesis num1 : num s_one = 1.

(** The rows of a batch as what agents saw and did. *)
Lemma batch_origin pc cols lk maxlen smp ej sch (h : list (pop S)) p count L draws out gamma scale masking reward nexts mask value
    obs action :
  config_ok cols lk -> fresh_sampler smp -> fresh_ejector ej ->
  schema_ok (pc_terminal pc) sch -> layout cols lk (pc_terminal pc) sch ->
  batches_ok h -> agents_ok pc cols lk sch L h -> (1 <= L)%nat ->
  prun pc (px_new (t_create cols lk maxlen smp ej)) h = (p, Ok tt) ->
  snd (t_sample (px_table p) count L draws) = Ok out ->
  In reward cols -> is_base reward -> c_name reward = "rewards"%string ->
  Forall (fun q => In (fst q) cols /\ (c_kind (fst q) = KVirt (c_name (snd q)) MNextLast \/ c_kind (fst q) = KVirt (c_name (snd q)) MNext /\ L = 1%nat)
                   /\ In (snd q) cols) nexts ->
  In mask cols -> (exists tg, c_kind mask = KVirt tg MMask) ->
  Forall (fun c => In c cols /\ is_base c /\ In (c_name c) (sc_obs sch)) obs ->
  In action cols -> is_base action -> In (c_name action) (sc_resp sch) ->
  exists qt from, origin h count L from /\
    q_target gamma scale L masking (row_by_row value) (observations out (map (fun q => c_name (fst q)) nexts) count)
         (numbers num out (c_name reward)) (numbers num out (c_name mask)) = Ok qt
    /\ qt = map (fun k => experienced_target num gamma scale L masking reward (map snd nexts) value
                   (k / L)%nat (fst (from (k / L)%nat)) (snd (from (k / L)%nat)) (k mod L)%nat) (seq 0 (count * L))
    /\ observations out (map (@c_name S) obs) (count * L) =
         map (fun k => seen_at obs (fst (from (k / L)%nat)) (snd (from (k / L)%nat) + k mod L)) (seq 0 (count * L))
    /\ map (map num) (dget_default out (c_name action) []) =
         map (fun k => did num action (fst (from (k / L)%nat)) (snd (from (k / L)%nat) + k mod L)) (seq 0 (count * L))
    /\ forall k, (k < count * L)%nat -> exists a m v, In (fst (from (k / L)%nat)) (episodes [] (stream a h)) /\
         nth_error (fst (from (k / L)%nat)) (snd (from (k / L)%nat) + k mod L) = Some m /\ answered m (c_name action) = Some v.
Proof.
  intros CO Fs Fe SO LA BO AG HL E Eo Ir Br Nr Nx Imk Km OB Ia Ba Na.
  destruct (end_to_end_windows maxlen count draws CO Fs Fe SO LA BO AG HL E Eo) as [Sz _].
  destruct (@agent_targets_win S HS num num0 num1 pc cols lk maxlen smp ej sch h p count L draws out gamma scale masking reward nexts mask value
    CO Fs Fe SO LA BO AG HL E Eo Ir Br Nr Nx Imk Km) as (qt & Eq & Lq & Hq).
  destruct (@finite_choice (list (@moment S) * nat) ([], O) (fun j x => exists a, In (fst x) (episodes [] (stream a h)) /\
      is_window cols sch out L j (fst x) (snd x) /\ forall t, (t < L)%nat -> nth_error qt (j * L + t) =
            Some (experienced_target num gamma scale L masking reward (map snd nexts) value j (fst x) (snd x) t)) count) as (from & Hf).
  { intros j Hj. destruct (Hq j Hj) as (a & ms & i & I & W & T). exists (ms, i), a. auto. }
  exists qt, from.
  assert (KL : forall k, (k < count * L)%nat -> (k / L < count)%nat /\ (k mod L < L)%nat /\ (k / L * L + k mod L = k)%nat).
  { intros k Hk. split; [apply Nat.div_lt_upper_bound; lia|]. split; [apply Nat.mod_upper_bound; lia|].
    rewrite (Nat.mul_comm (k / L)). symmetry. apply Nat.div_mod. lia. }
  assert (MO : forall k, (k < count * L)%nat -> exists a m m', In (fst (from (k / L)%nat)) (episodes [] (stream a h)) /\
      nth_error (fst (from (k / L)%nat)) (snd (from (k / L)%nat) + k mod L) = Some m /\ is_transition cols sch out k m m').
  { intros k Hk. destruct (KL k Hk) as (K1 & K2 & K3). destruct (Hf _ K1) as (a & I & (Wl & Wt & _) & _).
    set (ms := fst (from (k / L)%nat)) in *. set (i := snd (from (k / L)%nat)) in *.
    destruct (nth_error ms (i + k mod L)) as [m|] eqn:E1; [|apply nth_error_None in E1; lia].
    destruct (nth_error ms (i + k mod L + 1)) as [m'|] eqn:E2; [|apply nth_error_None in E2; lia].
    exists a, m, m'. split; auto. split; auto. specialize (Wt _ m m' K2 E1 E2). rewrite K3 in Wt. exact Wt. }
  assert (G : forall name rows r, dget out name = Some rows -> nth r rows [] = row_or_empty (batch_row out name r)).
  { intros name rows r Eg. apply nth_rows. unfold batch_row. rewrite Eg. reflexivity. }
  split; [|split; [exact Eq|split; [|split; [|split]]]].
  - intros j Hj. destruct (Hf j Hj) as (a & I & (Wl & _) & _). exists a. auto.
  - apply list_as_seq; auto. intros k Hk. destruct (KL k Hk) as (K1 & K2 & K3). destruct (Hf _ K1) as (a & _ & _ & T).
    specialize (T _ K2). rewrite K3 in T. exact T.
  - unfold observations. apply map_ext_in. intros k Ik. apply in_seq in Ik.
    destruct (MO k ltac:(lia)) as (a & m & m' & _ & E1 & T). unfold seen_at. rewrite map_map. apply map_ext_in. intros c Ic.
    rewrite Forall_forall in OB. destruct (OB c Ic) as (I1 & I2 & I3). destruct (Sz c I1) as (rows & Ec & _).
    unfold dget_default. rewrite Ec, (G _ _ _ Ec). f_equal. destruct (T c I1) as (T1 & _). destruct (T1 I2 I3) as (_ & ->).
    unfold of_moment. rewrite E1. reflexivity.
  - destruct (Sz action Ia) as (rows & Ec & Lr). rewrite Ba in Lr. unfold dget_default. rewrite Ec.
    apply list_as_seq; [rewrite map_length; auto|]. intros k Hk. rewrite nth_error_map.
    destruct (MO k Hk) as (a & m & m' & _ & E1 & T). destruct (T action Ia) as (_ & T1 & _). destruct (T1 Ba Na) as (_ & T2).
    assert (Ek : nth_error rows k = batch_row out (c_name action) k) by (unfold batch_row; rewrite Ec; auto).
    unfold did, of_moment. rewrite E1, <- T2, <- Ek.
    destruct (nth_error rows k) as [r|] eqn:Er; [|apply nth_error_None in Er; lia].
    transitivity (Some (map num r)); [exact (f_equal (option_map (map num)) Er)|].
    reflexivity.
  - intros k Hk. destruct (MO k Hk) as (a & m & m' & I & E1 & T). destruct (T action Ia) as (_ & T1 & _). destruct (T1 Ba Na) as (N & _).
    destruct (answered m (c_name action)) as [v|] eqn:Ev; [|congruence]. exists a, m, v. auto.
Qed.

Lemma dqn_critic_ok pc cols lk maxlen smp ej sch (h : list (pop S)) p count L draws out gamma scale reward nexts mask
    obs action n q_net target_q_net best :
  config_ok cols lk -> fresh_sampler smp -> fresh_ejector ej ->
  schema_ok (pc_terminal pc) sch -> layout cols lk (pc_terminal pc) sch ->
  batches_ok h -> agents_ok pc cols lk sch L h -> (1 <= L)%nat ->
  prun pc (px_new (t_create cols lk maxlen smp ej)) h = (p, Ok tt) ->
  snd (t_sample (px_table p) count L draws) = Ok out ->
  In reward cols -> is_base reward -> c_name reward = "rewards"%string ->
  Forall (fun q => In (fst q) cols /\ (c_kind (fst q) = KVirt (c_name (snd q)) MNextLast \/ c_kind (fst q) = KVirt (c_name (snd q)) MNext /\ L = 1%nat)
                   /\ In (snd q) cols) nexts ->
  In mask cols -> (exists tg, c_kind mask = KVirt tg MMask) ->
  Forall (fun c => In c cols /\ is_base c /\ In (c_name c) (sc_obs sch)) obs ->
  In action cols -> is_base action -> In (c_name action) (sc_resp sch) ->
  (forall o, List.length (q_net o) = n) -> (forall o, greatest (target_q_net o) (best o)) ->
  chooses num action n h ->
  exists from taken, origin h count L from
    /\ (forall j t, (j < count)%nat -> (t < L)%nat ->
          did num action (fst (from j)) (snd (from j) + t) = [INR (taken j t)] /\ (taken j t < n)%nat)
    /\ dqn_critic gamma scale L q_net target_q_net
         (observations out (map (@c_name S) obs) (count * L)) (observations out (map (fun q => c_name (fst q)) nexts) count)
         (map (map num) (dget_default out (c_name action) []))
         (numbers num out (c_name reward)) (numbers num out (c_name mask)) =
       Ok (mean_over count L
             (fun j t => nth (taken j t) (q_net (seen_at obs (fst (from j)) (snd (from j) + t))) 0)
             (fun j t => experienced_target num gamma scale L true reward (map snd nexts) (fun _ => best) j (fst (from j)) (snd (from j)) t)).
Proof.
  intros CO Fs Fe SO LA BO AG HL E Eo Ir Br Nr Nx Imk Km OB Ia Ba Na Hn Hb Hc.
  destruct (@batch_origin pc cols lk maxlen smp ej sch h p count L draws out gamma scale true reward nexts mask
    (fun _ => best) obs action CO Fs Fe SO LA BO AG HL E Eo Ir Br Nr Nx Imk Km OB Ia Ba Na)
    as (qt & from & Ho & Eq & Eqt & Eob & Eac & Han).
  destruct (@finite_choice nat O (fun k a => did num action (fst (from (k / L)%nat)) (snd (from (k / L)%nat) + k mod L) = [INR a] /\ (a < n)%nat) (count * L)) as (tk & Ht).
  { intros k Hk. destruct (Han k Hk) as (a & m & v & I & E1 & Ev).
    destruct (Hc a _ m v I (nth_error_In _ _ E1) Ev) as (b & Lb & Eb). exists b. split; auto.
    unfold did, of_moment. rewrite E1, Ev. exact Eb. }
  exists from, (fun j t => tk (j * L + t)%nat). split; auto. split.
  { intros j t Hj Hk. assert (B : (j * L + t < count * L)%nat).
    { assert (((j + 1) * L <= count * L)%nat) by (apply Nat.mul_le_mono_r; lia). lia. }
    destruct (Ht _ B) as (T1 & T2). split; auto.
    replace ((j * L + t) / L)%nat with j in T1; [replace ((j * L + t) mod L)%nat with t in T1; auto|].
    - rewrite Nat.add_comm, Nat.mod_add by lia. symmetry. apply Nat.mod_small. auto.
    - rewrite Nat.div_add_l, Nat.div_small by lia. lia. }
  unfold dqn_critic, dqn_begin_batch.
  rewrite (@q_target_ext _ gamma scale L true (dqn_next_values target_q_net) (row_by_row (fun _ => best))).
  2:{ rewrite dqn_values. unfold row_by_row. apply map_ext. intros (i, o). cbn [fst snd].
      apply (@greatest_unique (target_q_net o)); auto. apply row_max_greatest. intros X. destruct (Hb o) as (I & _). rewrite X in I. destruct I. }
  rewrite Eq. cbn [rbind].
  set (N := (count * L)%nat) in *.
  set (obl := observations out (map (@c_name S) obs) N) in *.
  assert (Lo : List.length obl = N) by (rewrite Eob, map_length, seq_length; auto).
  rewrite (@dqn_ok (fun _ => Ok (map q_net obl)) [] (map q_net obl) n N _ _ (map tk (seq 0 N))); auto.
  - f_equal. unfold first_column. rewrite map_map. cbn [entry nth]. rewrite Eob, map_map.
    rewrite combine_maps, map_map. cbn [fst snd]. rewrite Eqt, map_map.
    unfold mean_over. fold N.
    assert (X : forall f g, mean_square_error (map f (seq 0 N)) (map g (seq 0 N)) = rsum (map (fun k => (f k - g k) ^ 2) (seq 0 N)) / INR N) by (intros; apply msq_seq).
    etransitivity; [apply X|]. f_equal. f_equal. apply map_ext_in. intros k Ik. apply in_seq in Ik.
    replace (k / L * L + k mod L)%nat with k; [reflexivity|].
    rewrite (Nat.mul_comm (k / L)). apply Nat.div_mod. lia.
  - split; [rewrite map_length; auto|]. apply Forall_forall. intros r Ir'. apply in_map_iff in Ir' as (o & <- & _). auto.
  - split; [rewrite Eac, map_length, seq_length; auto|]. apply Forall_forall. intros r Ir'. rewrite Eac in Ir'.
    apply in_map_iff in Ir' as (k & <- & Ik). apply in_seq in Ik. destruct (Ht k ltac:(lia)) as (-> & _). auto.
  - split; [rewrite Eqt, !map_length, seq_length; auto|]. apply Forall_forall. intros r Ir'.
    apply in_map_iff in Ir' as (k & <- & _). auto.
  - rewrite map_length, seq_length. auto.
  - unfold first_column. rewrite Eac, map_map, map_map. apply map_ext_in. intros k Ik. apply in_seq in Ik.
    destruct (Ht k ltac:(lia)) as (-> & _). auto.
  - apply Forall_forall. intros a I. apply in_map_iff in I as (k & <- & Ik). apply in_seq in Ik. apply Ht. lia.
Qed.

Lemma sac_critic_ok pc cols lk maxlen smp ej sch (h : list (pop S)) p count L draws out gamma scale masking reward nexts mask
    obs action policy q q1t q2t ln_alpha :
  config_ok cols lk -> fresh_sampler smp -> fresh_ejector ej ->
  schema_ok (pc_terminal pc) sch -> layout cols lk (pc_terminal pc) sch ->
  batches_ok h -> agents_ok pc cols lk sch L h -> (1 <= L)%nat -> (1 <= count)%nat ->
  prun pc (px_new (t_create cols lk maxlen smp ej)) h = (p, Ok tt) ->
  snd (t_sample (px_table p) count L draws) = Ok out ->
  In reward cols -> is_base reward -> c_name reward = "rewards"%string ->
  Forall (fun q => In (fst q) cols /\ (c_kind (fst q) = KVirt (c_name (snd q)) MNextLast \/ c_kind (fst q) = KVirt (c_name (snd q)) MNext /\ L = 1%nat)
                   /\ In (snd q) cols) nexts ->
  In mask cols -> (exists tg, c_kind mask = KVirt tg MMask) ->
  Forall (fun c => In c cols /\ is_base c /\ In (c_name c) (sc_obs sch)) obs ->
  In action cols -> is_base action -> In (c_name action) (sc_resp sch) ->
  exists from, origin h count L from
    /\ sac_critic gamma scale L masking policy q q1t q2t ln_alpha
         (observations out (map (@c_name S) obs) (count * L)) (observations out (map (fun q => c_name (fst q)) nexts) count)
         (map (map num) (dget_default out (c_name action) []))
         (numbers num out (c_name reward)) (numbers num out (c_name mask)) =
       Ok (mean_over count L
             (fun j t => q (did num action (fst (from j)) (snd (from j) + t)) (seen_at obs (fst (from j)) (snd (from j) + t)))
             (fun j t => experienced_target num gamma scale L masking reward (map snd nexts)
                (soft_value policy q1t q2t (exp ln_alpha)) j (fst (from j)) (snd (from j)) t)).
Proof.
  intros CO Fs Fe SO LA BO AG HL HC E Eo Ir Br Nr Nx Imk Km OB Ia Ba Na.
  destruct (@batch_origin pc cols lk maxlen smp ej sch h p count L draws out gamma scale masking reward nexts mask
    (soft_value policy q1t q2t (exp ln_alpha)) obs action CO Fs Fe SO LA BO AG HL E Eo Ir Br Nr Nx Imk Km OB Ia Ba Na)
    as (qt & from & Ho & Eq & Eqt & Eob & Eac & _).
  exists from. split; auto. unfold sac_critic, sac_begin_batch.
  rewrite (@q_target_ext _ gamma scale L masking (sac_next_values policy q1t q2t ln_alpha) (row_by_row (soft_value policy q1t q2t (exp ln_alpha)))) by apply sac_values.
  rewrite Eq. cbn [rbind]. rewrite Eob, Eac, Eqt.
  set (N := (count * L)%nat) in *.
  assert (NP : (0 < N)%nat) by (unfold N; apply Nat.mul_pos_pos; lia).
  edestruct q_loss_ok as (loss & -> & -> & _); [exact NP|reflexivity| | |].
  - rewrite combine_maps, map_map. split; [rewrite map_length, seq_length; reflexivity|].
    apply Forall_forall. intros r I. apply in_map_iff in I as (k & <- & _). auto.
  - rewrite map_map. split; [rewrite map_length, seq_length; reflexivity|].
    apply Forall_forall. intros r I. apply in_map_iff in I as (k & <- & _). auto.
  - f_equal. rewrite combine_maps. unfold first_column. rewrite !map_map. cbn [entry nth fst snd]. apply msq_seq.
Qed.
End T.
