(** * StyleProps: C142.  Read StyleSpec.v first. *)
From Coq Require Import Reals Lra Lia.
From Verif Require Import Py MemModel MemSpec ProxyModel ProxySpec ProxyExamples MemExamples NumModel NumSpec E2ESpec E2EExamples
  CriticSpec ActorSpec ActorProofs AmpModel AmpSpec StyleSpec StyleProofs.
Open Scope string_scope.
Open Scope list_scope.
Open Scope R_scope.

(** Whatever agents did, and whichever rollouts the memory draws: the reward the learner gets
    for a step is the one the agent got for it, plus the weighted style bonus of the move
    the agent made: what it saw then, and what it saw at the moment after. *)
Theorem C142_reward_partial : forall (S : Type) (HS : Scalar S) (num : S -> R)
    (pc : pconf) (cols : list (MemModel.column S)) (lenkey : string) (maxlen : Z) (smp : sampler) (ej : ejector)
    (sch : schema) (h : list (pop S)) (p : proxy S) (count L : nat) (draws : list draw) (out : dict string (array S))
    (obs next reward : MemModel.column S) (d : nat) (D : list R -> R) (state : list R -> list R)
    (disc sm : matrix -> matrix) (w : R) (key group : string) (observation next_observation : dict string matrix),
  config_ok cols lenkey -> fresh_sampler smp -> fresh_ejector ej ->
  schema_ok (pc_terminal pc) sch -> layout cols lenkey (pc_terminal pc) sch ->
  batches_ok h -> agents_ok pc cols lenkey sch L h -> (1 <= L)%nat -> (1 <= count)%nat ->
  prun pc (px_new (t_create cols lenkey maxlen smp ej)) h = (p, Ok tt) ->
  snd (t_sample (px_table p) count L draws) = Ok out ->
  In obs cols -> is_base obs -> In (c_name obs) (sc_obs sch) -> sees obs d h ->
  In next cols -> (c_kind next = KVirt (c_name obs) MNextLast \/ c_kind next = KVirt (c_name obs) MNext /\ L = 1%nat) ->
  In reward cols -> is_base reward -> c_name reward = "rewards" -> single_rewards h ->
  scores D disc -> each_row state sm ->
  dget observation key = Some (shown num out (c_name obs)) -> dget next_observation key = Some (shown num out (c_name next)) ->
  exists from, origin h count L from /\
    amp_begin_batch disc sm w L key group observation next_observation (T2 (shown num out (c_name reward))) =
    Ok [(group, [("rewards", map (fun k => let (ms, i) := from (k / L)%nat in let t := (i + k mod L)%nat in
          [reward_for num reward ms t + w * style_bonus (D (move num obs state ms t))]) (seq 0 (count * L)))])].
Proof. exact @style_reward_ok. Qed.
Print Assumptions C142_reward_partial.

(** The discriminator, with batches of single steps: it is trained to score moves made in the
    reference memory 1 and moves of the agents -1, and nothing but moves. *)
Theorem C142_discriminator_partial : forall (S : Type) (HS : Scalar S) (num : S -> R)
    (pc1 : pconf) (cols1 : list (MemModel.column S)) (lenkey1 : string) (maxlen1 : Z) (smp1 : sampler) (ej1 : ejector)
    (sch1 : schema) (h1 : list (pop S)) (p1 : proxy S) (count1 : nat) (draws1 : list draw) (out1 : dict string (array S))
    (obs1 next1 : MemModel.column S) (d1 : nat)
    (pc2 : pconf) (cols2 : list (MemModel.column S)) (lenkey2 : string) (maxlen2 : Z) (smp2 : sampler) (ej2 : ejector)
    (sch2 : schema) (h2 : list (pop S)) (p2 : proxy S) (count2 : nat) (draws2 : list draw) (out2 : dict string (array S))
    (obs2 next2 : MemModel.column S) (d2 : nat)
    (D : list R -> R) (G : list R -> list R) (disc grad : matrix -> matrix)
    (state1 : list R -> list R) (sm1 : matrix -> matrix) (state2 : list R -> list R) (sm2 : matrix -> matrix)
    (weight : R) (key : string) (o1 n1 o2 n2 : dict string matrix),
  config_ok cols1 lenkey1 -> fresh_sampler smp1 -> fresh_ejector ej1 ->
  schema_ok (pc_terminal pc1) sch1 -> layout cols1 lenkey1 (pc_terminal pc1) sch1 ->
  batches_ok h1 -> agents_ok pc1 cols1 lenkey1 sch1 1 h1 ->
  prun pc1 (px_new (t_create cols1 lenkey1 maxlen1 smp1 ej1)) h1 = (p1, Ok tt) ->
  snd (t_sample (px_table p1) count1 1 draws1) = Ok out1 ->
  In obs1 cols1 -> is_base obs1 -> In (c_name obs1) (sc_obs sch1) -> sees obs1 d1 h1 ->
  In next1 cols1 -> (c_kind next1 = KVirt (c_name obs1) MNextLast \/ c_kind next1 = KVirt (c_name obs1) MNext) ->
  config_ok cols2 lenkey2 -> fresh_sampler smp2 -> fresh_ejector ej2 ->
  schema_ok (pc_terminal pc2) sch2 -> layout cols2 lenkey2 (pc_terminal pc2) sch2 ->
  batches_ok h2 -> agents_ok pc2 cols2 lenkey2 sch2 1 h2 ->
  prun pc2 (px_new (t_create cols2 lenkey2 maxlen2 smp2 ej2)) h2 = (p2, Ok tt) ->
  snd (t_sample (px_table p2) count2 1 draws2) = Ok out2 ->
  In obs2 cols2 -> is_base obs2 -> In (c_name obs2) (sc_obs sch2) -> sees obs2 d2 h2 ->
  In next2 cols2 -> (c_kind next2 = KVirt (c_name obs2) MNextLast \/ c_kind next2 = KVirt (c_name obs2) MNext) ->
  scores D disc -> each_row G grad -> each_row state1 sm1 -> each_row state2 sm2 ->
  dget o1 key = Some (shown num out1 (c_name obs1)) -> dget n1 key = Some (shown num out1 (c_name next1)) ->
  dget o2 key = Some (shown num out2 (c_name obs2)) -> dget n2 key = Some (shown num out2 (c_name next2)) ->
  exists from1 from2, origin h1 count1 1 from1 /\ origin h2 count2 1 from2 /\
    discriminator_loss disc grad sm1 sm2 weight key (mkDBatch count1 o1 n1) (mkDBatch count2 o2 n2) =
    Ok (least_squares D G weight
          (map (fun j => move num obs1 state1 (fst (from1 j)) (snd (from1 j))) (seq 0 count1))
          (map (fun j => move num obs2 state2 (fst (from2 j)) (snd (from2 j))) (seq 0 count2))).
Proof. exact @style_loss_ok. Qed.
Print Assumptions C142_discriminator_partial.

(** With rollouts of several steps no memory serves both: where the next-observation column
    has one row for each rollout the discriminator's loss raises, where it has one for each
    step the reward raises. *)
Theorem C142_rollouts_refuted : forall (S : Type) (HS : Scalar S) (num : S -> R)
    (pc : pconf) (cols : list (MemModel.column S)) (lenkey : string) (maxlen : Z) (smp : sampler) (ej : ejector)
    (sch : schema) (h : list (pop S)) (p : proxy S) (count L : nat) (draws : list draw) (out : dict string (array S))
    (obs next : MemModel.column S) (disc grad sm1 : matrix -> matrix) (state2 : list R -> list R) (sm2 : matrix -> matrix)
    (weight : R) (key : string) (w : R) (group : string) (o n : dict string matrix) (rewards : tensor) (size : nat) (bi : dbatch),
  config_ok cols lenkey -> fresh_sampler smp -> fresh_ejector ej ->
  schema_ok (pc_terminal pc) sch -> layout cols lenkey (pc_terminal pc) sch ->
  batches_ok h -> agents_ok pc cols lenkey sch L h -> (2 <= L)%nat -> (1 <= count)%nat ->
  prun pc (px_new (t_create cols lenkey maxlen smp ej)) h = (p, Ok tt) ->
  snd (t_sample (px_table p) count L draws) = Ok out ->
  In obs cols -> is_base obs -> In next cols -> each_row state2 sm2 ->
  dget o key = Some (shown num out (c_name obs)) -> dget n key = Some (shown num out (c_name next)) ->
  (c_kind next = KVirt (c_name obs) MNextLast -> exists e, discriminator_loss disc grad sm1 sm2 weight key bi (mkDBatch size o n) = Err e)
  /\ (c_kind next = KVirt (c_name obs) MNext -> exists e, amp_begin_batch disc sm2 w L key group o n rewards = Err e).
Proof. exact @rollouts_fail. Qed.
Print Assumptions C142_rollouts_refuted.

(** The memories and agents of C132's and C29's examples. *)
Lemma px_single a ms m v : In ms (episodes [] (stream a px_h)) -> In m ms ->
  saw m "obs" = Some v \/ received m = Some v -> List.length v = 1%nat.
Proof.
  intros I Im Ev. rewrite px_streams in I.
  destruct (a =? 0)%Z; [|destruct (a =? 1)%Z; [|destruct (a =? 2)%Z; [|destruct (a =? 7)%Z]]]; vm_compute in I; try tauto;
    (destruct I as [<-|[]]; cbn in Im; decompose [or] Im; try tauto; subst; vm_compute in Ev;
     destruct Ev as [Ev|Ev]; try discriminate; injection Ev as <-; reflexivity).
Qed.
Example C142_case :
  sees (mkCol "obs" 1 idz KBase) 1 px_h /\ single_rewards px_h
  /\ config_ok ee_cols "actions" /\ schema_ok true px_sch /\ layout ee_cols "actions" true px_sch /\ batches_ok px_h
  /\ agents_ok px_pc ee_cols "actions" px_sch 2 px_h
  /\ (exists p out, prun px_pc (px_new ee_table) px_h = (p, Ok tt)
     /\ snd (t_sample (px_table p) 1 2 [(1, 0)]%Z) = Ok out
     /\ amp_begin_batch (map (fun x => [nth 1 x 0 - nth 0 x 0])) (fun x => x) 3 2 "obs" "g"
          [("obs", shown IZR out "obs")] [("obs", shown IZR out "next_obs")] (T2 (shown IZR out "rewards")) =
        Ok [("g", [("rewards", [[1011 + 3 * style (11 - 10)]; [1012 + 3 * style (12 - 11)]])])])
  /\ agents_ok px_pc px_cols "actions" px_sch 1 px_h
  /\ exists p out, prun px_pc (px_new px_table0) px_h = (p, Ok tt)
     /\ snd (t_sample (px_table p) 2 1 [(1, 2 ^ 53 - 1); (0, 0)]%Z) = Ok out
     /\ discriminator_loss (map (fun x => [nth 0 x 0])) (map (fun _ => [1; 0])) (fun x => x) (fun x => x) 2 "o"
          (mkDBatch 2 [("o", shown IZR out "obs")] [("o", shown IZR out "next_obs")])
          (mkDBatch 2 [("o", shown IZR out "next_obs")] [("o", shown IZR out "obs")]) =
        Ok ((11 * 11 + 1) / 2 + (14 * 14 + 2 * 2) / 2 + 2).
Proof.
  split; [|split; [|split; [exact ee_config|split; [exact px_schema|split; [exact ee_layout|split; [exact px_batches|split; [exact ee_agents|split; [|split]]]]]]]].
  - intros a ms m v I Im Ev. eapply px_single; eauto.
  - intros a ms m v I Im Ev. eapply px_single; eauto.
  - eexists. eexists. split; [vm_compute; reflexivity|]. split; [vm_compute; reflexivity|]. reflexivity.
  - exact (@agents_shorter Z _ px_pc px_cols "actions" px_sch 2 1 px_h ltac:(lia) px_agents).
  - eexists. eexists. split; [vm_compute; reflexivity|]. split; [vm_compute; reflexivity|]. cbn. f_equal.
    unfold adversarial_loss, mean_all, gradient_loss, np_mean. cbn. lra.
Qed.
