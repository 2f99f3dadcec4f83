(** * NumExamples: witnesses and cases for NumProps *)
From Coq Require Import Reals Lra.
From Verif Require Import Py PyLemmas MemModel MemSpec MemProofs MemRun MemSample MemExamples NumModel NumSpec NumProofs NumMatrix NumTarget.
Open Scope list_scope.
Open Scope R_scope.

Lemma nested_blocks :
  timers_run [TEnter "a" 0; TEnter "a" 4; TExit "a" 7; TExit "a" 10] [] = Ok [("a"%string, mkBlock [7 - 4; 10 - 4] (Some 4))].
Proof. reflexivity. Qed.
Lemma deprecated_partial (A B : Type) (f : A -> B) (limit : Z) (calls : list A) :
  map snd (deprecated_calls f limit 0 calls) = map f calls
  /\ ((limit <= 0)%Z -> map fst (deprecated_calls f limit 0 calls) = map (fun _ => false) calls).
Proof.
  split; [apply deprecated_values|]. intros H. rewrite deprecated_warnings. destruct (Z.ltb_spec 0 limit); auto. lia.
Qed.
Lemma deprecated_always (A B : Type) (f : A -> B) (limit : Z) (calls : list A) : (0 < limit)%Z ->
  map fst (deprecated_calls f limit 0 calls) = map (fun _ => true) calls.
Proof. intros H. rewrite deprecated_warnings. destruct (Z.ltb_spec 0 limit); auto. lia. Qed.
Lemma ramp_all min_x max_x min_y max_y x : / 10 ^ 10 <= max_x - min_x ->
  (x <= min_x -> truncated_linear min_x max_x min_y max_y x = min_y)
  /\ (max_x <= x -> truncated_linear min_x max_x min_y max_y x = max_y)
  /\ (min_x <= x <= max_x ->
        truncated_linear min_x max_x min_y max_y x = min_y + (x - min_x) * ((max_y - min_y) / (max_x - min_x))).
Proof.
  intros W. split; [intros; apply ramp_low; auto|]. split; [intros; apply ramp_high; auto|intros; apply ramp_mid; auto].
Qed.
Lemma return_recursion gamma r v :
  (forall t, (t < List.length r)%nat -> n_step_return gamma r v t = nth t r 0 + gamma * n_step_return gamma r v (S t))
  /\ n_step_return gamma r v (List.length r) = v.
Proof.
  split.
  - intros t Ht. unfold n_step_return. replace (List.length r - t)%nat with (S (List.length r - S t)) by lia.
    cbn [seq map rsum fold_right pow]. rewrite Nat.add_0_r. fold (rsum (map (fun k => gamma ^ k * nth (t + k) r 0) (seq 1 (List.length r - S t)))).
    rewrite <- seq_shift, map_map.
    rewrite (@rsum_ext (fun x => gamma ^ S x * nth (t + S x) r 0) (fun x => gamma * (gamma ^ x * nth (S t + x) r 0))).
    + rewrite rsum_map_mult. ring.
    + intros k _. replace (t + S k)%nat with (S t + k)%nat by lia. simpl. ring.
  - unfold n_step_return. rewrite Nat.sub_diag. simpl. ring.
Qed.
Lemma split_rows (A : Type) (data : list A) (n L : nat) : (1 <= L)%nat -> List.length data = (n * L)%nat ->
  exists rows, split_rollouts data L = Ok rows /\ List.length rows = n
    /\ forall i k row, nth_error rows i = Some row -> (k < L)%nat -> nth_error row k = nth_error data (i * L + k).
Proof.
  intros HL E. exists (chunks n L data). split; [apply split_ok; auto|]. split; [apply chunks_length|].
  intros i k row Hi Hk. assert (Hn : (i < n)%nat) by (rewrite <- (chunks_length L n data); apply nth_error_Some; congruence).
  rewrite chunks_nth in Hi by auto. injection Hi as <-.
  assert (F : forall (l : list A) k n, (k < n)%nat -> nth_error (firstn n l) k = nth_error l k).
  { clear. induction l as [|a l IH]; intros [|k] [|n] H; simpl; try lia; auto. apply IH. lia. }
  rewrite F by auto. generalize (i * L)%nat as m. clear. intros m. revert data.
  induction m as [|m IH]; intros data; [reflexivity|]. destruct data; simpl; [destruct k; reflexivity|]. apply IH.
Qed.

(** An episode of four transitions, with rewards and masks. *)
Definition target_cols : list (column Z) :=
  [ mkCol "obs" 1 idz KBase; mkCol "actions" 1 idz KBase; mkCol "rewards" 1 idz KBase;
    mkCol "next_obs" 1 idz (KVirt "obs" MNextLast); mkCol "masks" 1 idz (KVirt "actions" MMask) ].
Definition target_seq : sequence Z := [("obs", ex_rows 0 5); ("actions", ex_rows 100 4); ("rewards", ex_rows 10 4)]%string.
Definition target_ops : list (op Z) := [OAdd 1 target_seq []].
Lemma target_config : config_ok target_cols "actions".
Proof.
  constructor.
  - repeat constructor; simpl; intuition discriminate.
  - intros c Hc. simpl in Hc. repeat (destruct Hc as [<-|Hc]; [simpl; lia|]). destruct Hc.
  - exists (mkCol "actions" 1 idz KBase). unfold is_base. simpl. auto.
  - intros c tg m Hc E. simpl in Hc.
    repeat (destruct Hc as [<-|Hc]; [try discriminate|]); [| |destruct Hc]; simpl in E; injection E as <- <-.
    + exists (mkCol "obs" 1 idz KBase). unfold is_base. simpl. auto.
    + exists (mkCol "actions" 1 idz KBase). unfold is_base. simpl. auto.
Qed.
Lemma target_sampling_ok : sampling_ok target_cols "actions" (SWeighted (w_init false)) (EFifo fifo_init) target_ops 3.
Proof.
  split; [apply target_config|]. split; [constructor|]. split; [constructor|]. split.
  - split; [repeat constructor; discriminate|]. split; [|simpl; repeat constructor; simpl; tauto].
    simpl. constructor; [|constructor]. split; [repeat constructor; simpl; intuition discriminate|].
    split; [simpl; tauto|].
    intros c fr Hc E. simpl in Hc.
    repeat (destruct Hc as [<-|Hc]; [vm_compute in E; injection E as <-; repeat constructor|]). destruct Hc.
  - split; [lia|]. simpl. constructor; [|constructor]. cbn [snd]. split; [|vm_compute; split; congruence].
    unfold episode_ok, target_cols. repeat constructor; vm_compute; congruence.
Qed.
