(** * E2EProofs: from agents to Q-targets (C132) *)
From Coq Require Import Reals Lra.
From Verif Require Import Py PyLemmas MemModel MemSpec MemProofs MemRun MemSample MemSample4 ProxyModel ProxySpec
  ProxyProofs ProxyAlign ProxyE2E NumModel NumSpec NumProofs NumMatrix NumTarget E2ESpec.
Set Implicit Arguments.
Unset Strict Implicit.
Open Scope list_scope.
Open Scope R_scope.

Lemma nth_firstn_lt (l : list R) k n : (k < n)%nat -> nth k (firstn n l) 0 = nth k l 0.
Proof. revert k n. induction l as [|a l IH]; intros [|k] [|n] H; simpl; try lia; auto. apply IH. lia. Qed.
Lemma nth_skipn_add (l : list R) k n : nth k (skipn n l) 0 = nth (n + k) l 0.
Proof. revert k n. induction l as [|a l IH]; intros k [|n]; simpl; auto. destruct k; auto. Qed.
Lemma last_is_nth (l : list R) : l <> [] -> last l 0 = nth (List.length l - 1) l 0.
Proof.
  induction l as [|a l IH]; intros H; [congruence|]. destruct l as [|b l]; [reflexivity|].
  change (last (a :: b :: l) 0) with (last (b :: l) 0). rewrite IH by discriminate. simpl. rewrite Nat.sub_0_r.
  destruct (List.length l); reflexivity.
Qed.

Section T.
Context {S : Type} {HS : Scalar S}.
Variable num : S -> R.

Lemma target_rows (out : dict string (array S)) count L gamma scale masking rname mname ns value rrows mrows :
  (1 <= L)%nat -> dget out rname = Some rrows -> List.length rrows = (count * L)%nat ->
  dget out mname = Some mrows -> List.length mrows = (count * L)%nat ->
  exists qt, q_target gamma scale L masking (row_by_row value) (observations out ns count)
         (numbers num out rname) (numbers num out mname) = Ok qt
    /\ List.length qt = (count * L)%nat
    /\ forall i t, (i < count)%nat -> (t < L)%nat ->
       nth_error qt (i * L + t) = Some (n_step_return gamma
         (map (fun k => scale * number num (nth (i * L + k) rrows [])) (seq 0 L))
         (let v := value i (map (fun n => nth i (dget_default out n []) []) ns) in
          if masking then v * number num (nth (i * L + (L - 1)) mrows []) else v) t).
Proof.
  intros HL Er Lr Em Lm.
  assert (En : numbers num out rname = map (number num) rrows) by (unfold numbers, dget_default; rewrite Er; auto).
  assert (Emn : numbers num out mname = map (number num) mrows) by (unfold numbers, dget_default; rewrite Em; auto).
  rewrite En, Emn.
  set (ob := observations out ns count).
  assert (Lo : List.length ob = count) by (unfold ob, observations; rewrite map_length, seq_length; auto).
  assert (Ob : forall i, (i < count)%nat -> nth_error ob i = Some (map (fun n => nth i (dget_default out n []) []) ns)).
  { intros i Hi. unfold ob, observations. rewrite nth_error_map. rewrite nth_error_nth' with (d := 0%nat) by (rewrite seq_length; auto).
    rewrite seq_nth by auto. reflexivity. }
  set (val := row_by_row value ob).
  assert (Lv : List.length val = count) by (unfold val; rewrite row_by_row_length; auto).
  unfold q_target. cbv zeta. fold val.
  rewrite (@split_ok _ (map (number num) mrows) count L HL) by (rewrite map_length; lia). cbn [rbind].
  rewrite (@split_ok _ (map (Rmult scale) (map (number num) rrows)) count L HL) by (rewrite !map_length; lia). cbn [rbind].
  set (lm := map (fun row => last row 0) (chunks count L (map (number num) mrows))).
  assert (Llm : List.length lm = count) by (unfold lm; rewrite map_length, chunks_length; auto).
  assert (Bd : forall i, (i < count)%nat -> ((i + 1) * L <= count * L)%nat) by (intros; apply Nat.mul_le_mono_r; lia).
  assert (Hlm : forall i, (i < count)%nat -> nth_error lm i = Some (number num (nth (i * L + (L - 1)) mrows []))).
  { intros i Hi. specialize (Bd i Hi). unfold lm. rewrite nth_error_map, chunks_nth by auto. cbn [option_map]. f_equal.
    assert (Lf : List.length (firstn L (skipn (i * L) (map (number num) mrows))) = L).
    { rewrite firstn_length, skipn_length, map_length, Lm. lia. }
    rewrite last_is_nth by (intros X; rewrite X in Lf; simpl in Lf; lia). rewrite Lf.
    rewrite nth_firstn_lt, nth_skipn_add by lia.
    rewrite nth_indep with (d' := number num []) by (rewrite map_length, Lm; lia). apply map_nth. }
  assert (Vx : exists val', (if masking then multiply val lm else Ok val) = Ok val' /\ List.length val' = count
     /\ forall i, (i < count)%nat -> nth_error val' i = Some
          (let v := value i (map (fun n => nth i (dget_default out n []) []) ns) in
           if masking then v * number num (nth (i * L + (L - 1)) mrows []) else v)).
  { destruct masking.
    - destruct (@multiply_ok val lm) as (m & E & El & Hmm); [lia|]. exists m. split; auto. split; [lia|].
      intros i Hi. exact (Hmm i _ _ (row_by_row_nth value (Ob i Hi)) (Hlm i Hi)).
    - exists val. split; auto. split; auto. intros i Hi. apply row_by_row_nth. auto. }
  destruct Vx as (val' & -> & Lv' & Hv'). cbn [rbind].
  set (rs := chunks count L (map (Rmult scale) (map (number num) rrows))).
  assert (Hrs : forall i, (i < count)%nat -> nth_error rs i = Some (map (fun k => scale * number num (nth (i * L + k) rrows [])) (seq 0 L))).
  { intros i Hi. specialize (Bd i Hi). unfold rs. rewrite chunks_nth by auto. f_equal.
    apply (nth_ext _ _ 0 0).
    - rewrite firstn_length, skipn_length, !map_length, seq_length, Lr. lia.
    - intros k Hk. rewrite firstn_length, skipn_length, !map_length, Lr in Hk.
      assert (Hk' : (k < L)%nat) by lia.
      rewrite nth_firstn_lt, nth_skipn_add by auto.
      rewrite map_map. rewrite nth_indep with (d' := (fun x => scale * number num x) []) by (rewrite map_length, Lr; lia).
      rewrite (map_nth (fun x => scale * number num x)).
      rewrite nth_indep with (d' := (fun k => scale * number num (nth (i * L + k) rrows [])) 0%nat) by (rewrite map_length, seq_length; auto).
      rewrite (map_nth (fun k => scale * number num (nth (i * L + k) rrows []))).
      rewrite seq_nth by auto. reflexivity. }
  assert (Lrs : List.length rs = count) by apply chunks_length.
  assert (Frs : Forall (fun r => List.length r = L) rs).
  { apply Forall_forall. intros r I. apply In_nth_error in I. destruct I as [i Hi].
    assert (Hc : (i < List.length rs)%nat) by (apply nth_error_Some; congruence). rewrite Lrs in Hc.
    rewrite (Hrs i Hc) in Hi. injection Hi as <-. rewrite map_length, seq_length. auto. }
  destruct (@discount_ok gamma L rs val' HL Frs) as (qt & Eq & Lq & Hq); [lia|].
  exists qt. rewrite Eq. cbn [rbind].
  rewrite !map_length, Lr. rewrite Lrs in Lq. rewrite Lq, Nat.eqb_refl. split; [reflexivity|]. split; [reflexivity|].
  intros i k Hi Hk. rewrite (Hq i k _ _ (Hrs i Hi) (Hv' i Hi) Hk). reflexivity.
Qed.

Hypothesis num0 : num s_zero = 0.
Hypothesis num1 : num s_one = 1.

Lemma agent_targets_win pc cols lk maxlen smp ej sch (h : list (pop S)) p count L draws out gamma scale masking reward nexts mask value :
  config_ok cols lk -> fresh_sampler smp -> fresh_ejector ej ->
  schema_ok (pc_terminal pc) sch -> layout cols lk (pc_terminal pc) sch ->
  batches_ok h -> agents_ok pc cols lk sch L h -> (1 <= L)%nat ->
  prun pc (px_new (t_create cols lk maxlen smp ej)) h = (p, Ok tt) ->
  snd (t_sample (px_table p) count L draws) = Ok out ->
  In reward cols -> is_base reward -> c_name reward = "rewards"%string ->
  Forall (fun q => In (fst q) cols /\ (c_kind (fst q) = KVirt (c_name (snd q)) MNextLast \/ c_kind (fst q) = KVirt (c_name (snd q)) MNext /\ L = 1%nat)
                   /\ In (snd q) cols) nexts ->
  In mask cols -> (exists tg, c_kind mask = KVirt tg MMask) ->
  exists qt,
    q_target gamma scale L masking (row_by_row value) (observations out (map (fun q => c_name (fst q)) nexts) count)
         (numbers num out (c_name reward)) (numbers num out (c_name mask)) = Ok qt
    /\ List.length qt = (count * L)%nat
    /\ forall j, (j < count)%nat -> exists a ms i, In ms (episodes [] (stream a h)) /\ is_window cols sch out L j ms i
       /\ forall t, (t < L)%nat -> nth_error qt (j * L + t) =
            Some (experienced_target num gamma scale L masking reward (map snd nexts) value j ms i t).
Proof.
  intros CO Fs Fe SO LA BO AG HL E Eo Ir Br Nr Nx Imk (tg & Km).
  destruct (end_to_end_windows maxlen count draws CO Fs Fe SO LA BO AG HL E Eo) as [Sz W].
  destruct (Sz reward Ir) as (rrows & Er & Lr). rewrite Br in Lr.
  destruct (Sz mask Imk) as (mrows & Em & Lm). rewrite Km in Lm.
  destruct (@target_rows out count L gamma scale masking (c_name reward) (c_name mask) (map (fun q => c_name (fst q)) nexts) value rrows mrows HL Er Lr Em Lm)
    as (qt & Eq & Lq & Hq).
  exists qt. split; auto. split; auto. intros j Hj. destruct (W j Hj) as (a & ms & i & Ims & WW). pose proof WW as (Hl & Ht & Hn & _).
  exists a, ms, i. split; auto. split; auto. intros t Ht'. rewrite (Hq j t Hj Ht'). f_equal. unfold experienced_target.
  assert (Mo : forall k, (k < L)%nat -> exists m m', nth_error ms (i + k) = Some m /\ nth_error ms (i + k + 1) = Some m').
  { intros k Hk. destruct (nth_error ms (i + k)) as [m|] eqn:E1; [|apply nth_error_None in E1; lia].
    destruct (nth_error ms (i + k + 1)) as [m'|] eqn:E2; [|apply nth_error_None in E2; lia]. eauto. }
  assert (G : forall name rows r, dget out name = Some rows -> nth r rows [] = row_or_empty (batch_row out name r)).
  { intros name rows r Eg. apply nth_rows. unfold batch_row. rewrite Eg. reflexivity. }
  f_equal.
  - apply map_ext_in. intros k Ik. apply in_seq in Ik. f_equal. unfold reward_for. f_equal. rewrite (G _ _ _ Er). f_equal.
    destruct (Mo k ltac:(lia)) as (m & m' & E1 & E2).
    destruct (Ht k m m' ltac:(lia) E1 E2 reward Ir) as (_ & _ & T & _). destruct (T Br Nr) as [_ ->].
    unfold of_moment. rewrite E2. reflexivity.
  - destruct (Mo (L - 1)%nat ltac:(lia)) as (m & m' & E1 & E2).
    replace (i + (L - 1) + 1)%nat with (i + L)%nat in E2 by lia.
    assert (V : map (fun n => nth j (dget_default out n []) []) (map (fun q => c_name (fst q)) nexts) = seen_at (map snd nexts) ms (i + L)).
    { unfold seen_at. rewrite !map_map. apply map_ext_in. intros [c d] Icd. cbn [fst snd].
      rewrite Forall_forall in Nx. destruct (Nx _ Icd) as (Ic & K & Id). cbn [fst snd] in *.
      destruct (Sz c Ic) as (rows & Ec & _). unfold dget_default. rewrite Ec, (G _ _ _ Ec). f_equal.
      unfold of_moment. rewrite E2. destruct K as [K|[K EL]].
      - destruct (Hn c d m' Ic Id K E2) as [_ ->]. reflexivity.
      - subst L. replace (i + (1 - 1))%nat with (i + 0)%nat in E1 by lia.
        replace (i + 1)%nat with (i + 0 + 1)%nat in E2 by lia.
        destruct (Ht 0%nat m m' ltac:(lia) E1 E2 c Ic) as (_ & _ & _ & T & _). destruct (T d Id K) as [_ T'].
        replace (j * 1 + 0)%nat with j in T' by lia. rewrite T'. reflexivity. }
    cbv zeta. rewrite V. destruct masking; cbn [andb]; auto.
    assert (Ek : number num (nth (j * L + (L - 1)) mrows []) = if ended_at ms (i + L) then 0 else 1).
    { rewrite (G _ _ _ Em). unfold ended_at. rewrite E2.
      assert (E2' : nth_error ms (i + (L - 1) + 1) = Some m') by (replace (i + (L - 1) + 1)%nat with (i + L)%nat by lia; auto).
      destruct (Ht (L - 1)%nat m m' ltac:(lia) E1 E2' mask Imk) as (_ & _ & _ & _ & _ & T). rewrite (T tg Km). unfold row_or_empty, number. cbn [hd].
      destruct (is_final (o_state (fst m'))); auto. }
    rewrite Ek. destruct (ended_at ms (i + L)); ring.
Qed.
Lemma agent_targets pc cols lk maxlen smp ej sch (h : list (pop S)) p count L draws out gamma scale masking reward nexts mask value :
  config_ok cols lk -> fresh_sampler smp -> fresh_ejector ej ->
  schema_ok (pc_terminal pc) sch -> layout cols lk (pc_terminal pc) sch ->
  batches_ok h -> agents_ok pc cols lk sch L h -> (1 <= L)%nat ->
  prun pc (px_new (t_create cols lk maxlen smp ej)) h = (p, Ok tt) ->
  snd (t_sample (px_table p) count L draws) = Ok out ->
  In reward cols -> is_base reward -> c_name reward = "rewards"%string ->
  Forall (fun q => In (fst q) cols /\ (c_kind (fst q) = KVirt (c_name (snd q)) MNextLast \/ c_kind (fst q) = KVirt (c_name (snd q)) MNext /\ L = 1%nat)
                   /\ In (snd q) cols) nexts ->
  In mask cols -> (exists tg, c_kind mask = KVirt tg MMask) ->
  exists qt,
    q_target gamma scale L masking (row_by_row value) (observations out (map (fun q => c_name (fst q)) nexts) count)
         (numbers num out (c_name reward)) (numbers num out (c_name mask)) = Ok qt
    /\ List.length qt = (count * L)%nat
    /\ forall j, (j < count)%nat -> exists a ms i, In ms (episodes [] (stream a h)) /\ (i + L < List.length ms)%nat
       /\ forall t, (t < L)%nat -> nth_error qt (j * L + t) =
            Some (experienced_target num gamma scale L masking reward (map snd nexts) value j ms i t).
Proof.
  intros CO Fs Fe SO LA BO AG HL E Eo Ir Br Nr Nx Imk Km.
  destruct (@agent_targets_win pc cols lk maxlen smp ej sch h p count L draws out gamma scale masking reward nexts mask value
    CO Fs Fe SO LA BO AG HL E Eo Ir Br Nr Nx Imk Km) as (qt & Eq & Lq & Hq).
  exists qt. split; auto. split; auto. intros j Hj. destruct (Hq j Hj) as (a & ms & i & I & (Hl & _) & T).
  exists a, ms, i. auto.
Qed.
End T.
