(** * C27 - C32: building episodes from concurrently running agents. *)
From Verif Require Import Py PyLemmas MemModel MemSpec MemProofs MemExamples
  ProxyModel ProxySpec ProxyProofs ProxyAlign ProxyE2E ProxyMore ProxyExamples.
Open Scope string_scope.
Open Scope list_scope.
Open Scope Z_scope.

(** ** C27: episodes of concurrently running agents never mix.

    After any history of batches (interleaved with samples and resizes), the table
    is the initial table with some additions made to it; the additions of agent
    [a] are, one by one and in order, the completed episodes in [a]'s own stream
    of moments that are long enough.  As this holds after every prefix of the
    history, each is added in the call in which it ends. *)
Theorem C27_agents_do_not_mix :
  forall (S : Type) (HS : Scalar S) (pc : pconf) (t0 : table S) (h : list (pop S)) (p : proxy S),
  batches_ok h -> prun pc (px_new t0) h = (p, Ok tt) ->
  exists ops, px_table p = run t0 ops /\
    filter (fun o => negb (is_add o)) ops = uses h /\
    forall a,
      Forall2 (records (pc_terminal pc) (t_lenkey t0)) (added_by a (additions ops))
        (filter (kept pc (t_lenkey t0)) (episodes [] (stream a h))) /\
      (In a (dkeys (px_store p)) <-> running [] (stream a h) <> []).
Proof. intros S HS. exact builder_new. Qed.
Print Assumptions C27_agents_do_not_mix.

Example C27_example :
  batches_ok px_h /\ snd (prun px_pc (px_new px_table0) px_h) = Ok tt /\
  dget (t_data (px_table (fst (prun px_pc (px_new px_table0) px_h)))) "obs" =
    Some [(0, [[0]; [1]; [2]]); (1, [[10]; [11]; [12]; [13]])].
Proof. split; [apply px_batches|]. vm_compute. auto. Qed.

(** ** C28: completed episodes have aligned columns. *)
Theorem C28_aligned_columns :
  forall (S : Type) (HS : Scalar S) (pc : pconf) (t0 : table S) (h : list (pop S)) (p : proxy S)
         (sch : schema),
  batches_ok h -> schema_ok (pc_terminal pc) sch ->
  In (t_lenkey t0) (names (pc_terminal pc) sch) ->
  prun pc (px_new t0) h = (p, Ok tt) ->
  exists ops, px_table p = run t0 ops /\
    forall a, Forall2 (fun s ms => proper ms -> Forall (conforms sch) ms ->
                                   aligned (pc_terminal pc) sch s ms)
                (added_by a (additions ops))
                (filter (kept pc (t_lenkey t0)) (episodes [] (stream a h))).
Proof. intros S HS. exact episodes_aligned. Qed.
Print Assumptions C28_aligned_columns.

Example C28_example :
  schema_ok true px_sch /\ In "actions" (names true px_sch) /\
  agents_ok px_pc px_cols "actions" px_sch 2 px_h /\
  map (fun n => dget (t_data (px_table (fst (prun px_pc (px_new px_table0) px_h)))) n)
      ["obs"; "actions"; "rewards"; "terminal"] =
  [Some [(0, [[0]; [1]; [2]]); (1, [[10]; [11]; [12]; [13]])];
   Some [(0, [[50]; [51]]); (1, [[60]; [61]; [62]])];
   Some [(0, [[1001]; [1002]]); (1, [[1011]; [1012]; [1013]])];
   Some [(0, [[0]]); (1, [[1]])]].
Proof. split; [apply px_schema|]. split; [simpl; auto|]. split; [apply px_agents|]. vm_compute. auto. Qed.

(** ** C29: every stored transition really happened. *)
Theorem C29_transitions_happened :
  forall (S : Type) (HS : Scalar S) (pc : pconf) (cols : list (column S)) (lenkey : string)
         (maxlen : Z) (smp : sampler) (ej : ejector) (sch : schema) (h : list (pop S)) (p : proxy S)
         (count L : nat) (draws : list draw) (out : dict string (array S)),
  config_ok cols lenkey -> fresh_sampler smp -> fresh_ejector ej ->
  schema_ok (pc_terminal pc) sch -> layout cols lenkey (pc_terminal pc) sch ->
  batches_ok h -> agents_ok pc cols lenkey sch L h -> (1 <= L)%nat ->
  prun pc (px_new (t_create cols lenkey maxlen smp ej)) h = (p, Ok tt) ->
  snd (t_sample (px_table p) count L draws) = Ok out ->
  forall r, (r < count * L)%nat ->
  exists a ms i m m', In ms (episodes [] (stream a h)) /\
    nth_error ms i = Some m /\ nth_error ms (Datatypes.S i) = Some m' /\
    is_transition cols sch out r m m'.
Proof. intros S HS. exact end_to_end. Qed.
Print Assumptions C29_transitions_happened.

(** And the windows stay together: the rows of a window are consecutive transitions of one
    episode of one agent, and what lies behind the window is what that agent saw next. *)
Theorem C29_windows :
  forall (S : Type) (HS : Scalar S) (pc : pconf) (cols : list (column S)) (lenkey : string)
         (maxlen : Z) (smp : sampler) (ej : ejector) (sch : schema) (h : list (pop S)) (p : proxy S)
         (count L : nat) (draws : list draw) (out : dict string (array S)),
  config_ok cols lenkey -> fresh_sampler smp -> fresh_ejector ej ->
  schema_ok (pc_terminal pc) sch -> layout cols lenkey (pc_terminal pc) sch ->
  batches_ok h -> agents_ok pc cols lenkey sch L h -> (1 <= L)%nat ->
  prun pc (px_new (t_create cols lenkey maxlen smp ej)) h = (p, Ok tt) ->
  snd (t_sample (px_table p) count L draws) = Ok out ->
  batch_sized cols out count L /\
  forall j, (j < count)%nat ->
  exists a ms i, In ms (episodes [] (stream a h)) /\ is_window cols sch out L j ms i.
Proof. intros S HS. exact end_to_end_windows. Qed.
Print Assumptions C29_windows.

Example C29_example :
  config_ok px_cols "actions" /\ schema_ok true px_sch /\ layout px_cols "actions" true px_sch /\
  batches_ok px_h /\ agents_ok px_pc px_cols "actions" px_sch 2 px_h /\
  snd (t_sample (px_table (fst (prun px_pc (px_new px_table0) px_h))) 2 2
         [(1, 2 ^ 53 - 1); (0, 0)]) =
  Ok [("obs", [[11]; [12]; [0]; [1]]); ("actions", [[61]; [62]; [50]; [51]]);
      ("rewards", [[1012]; [1013]; [1001]; [1002]]); ("terminal", [[1]; [0]]);
      ("next_obs", [[12]; [13]; [1]; [2]]); ("masks", [[1]; [0]; [1]; [0]])].
Proof.
  split; [apply px_config|]. split; [apply px_schema|]. split; [apply px_layout|].
  split; [apply px_batches|]. split; [apply px_agents|]. vm_compute. auto.
Qed.

(** ** C30: short and unknown episodes are dropped, everything else is stored.

    C27 says which completed episodes are stored (exactly the started ones that
    are long enough: [episodes] has no episode for a final observation without
    a start).  Besides, a final observation for an unknown agent changes nothing,
    and a batch that respects the protocol is only refused if the table refuses. *)
Theorem C30_stored_iff_kept :
  forall (S : Type) (HS : Scalar S) (pc : pconf) (t0 : table S) (h : list (pop S)) (p : proxy S),
  batches_ok h -> prun pc (px_new t0) h = (p, Ok tt) ->
  exists ops, px_table p = run t0 ops /\
    forall a, List.length (added_by a (additions ops)) =
              List.length (filter (kept pc (t_lenkey t0)) (episodes [] (stream a h))).
Proof. intros S HS. exact stored_count. Qed.
Print Assumptions C30_stored_iff_kept.

Theorem C30_unknown_agent :
  forall (S : Type) (HS : Scalar S) (pc : pconf) (p : proxy S) (a : Z) (o : obs S)
         (rs : dict Z (resp S)) (dr : list (list draw)),
  dget (px_store p) a = None -> is_final (o_state o) = true ->
  dget (o_rewards o) "reward" <> None ->
  exists p', proxy_add pc p [(a, o)] rs dr = (p', Ok tt) /\
    px_store p' = px_store p /\ px_table p' = px_table p.
Proof. intros S HS. exact unknown_final. Qed.
Print Assumptions C30_unknown_agent.

Theorem C30_protocol_accepted :
  forall (S : Type) (HS : Scalar S) (pc : pconf) (p : proxy S) (os : dict Z (obs S))
         (rs : dict Z (resp S)) (dr : list (list draw)) (e : exn),
  NoDup (dkeys os) -> batch_fits p os rs ->
  snd (proxy_add pc p os rs dr) = Err e ->
  exists l a s d, snd (add_sequence (run (px_table p) (map as_op l)) a s d) = Err e.
Proof. intros S HS. exact fits_ok. Qed.
Print Assumptions C30_protocol_accepted.

Example C30_example :
  (* agent 2 stops after one transition, agent 7 was never started *)
  kept px_pc "actions" [(ob INITIAL 20, Some (ac 80)); (ob INTERRUPTED 21, None)] = false /\
  dget (px_store (px_new px_table0)) 7 = None /\ is_final (o_state (ob TERMINAL 70)) = true /\
  dget (o_rewards (ob TERMINAL 70)) "reward" <> None /\
  batch_fits (px_new px_table0) [(0, ob INITIAL 0); (7, ob TERMINAL 70)] [(0, ac 50)].
Proof. repeat split; try (vm_compute; congruence). repeat constructor; vm_compute; congruence. Qed.

(** ** C31: an error for one agent does not lose other agents' episodes.

    False: the first agent's episode is complete, the second one restarts without
    having ended; the first episode is neither stored nor pending. *)
Theorem C31_error_loses_episode_refuted :
  exists (h : list (pop Z)) (p p' : proxy Z) os,
    prun (mkPc None false) (px_new px_table0) h = (p, Ok tt) /\
    In 0 (dkeys (px_store p)) /\
    dget os 0 = Some (ob TERMINAL 2) /\
    proxy_add (mkPc None false) p os [] [] = (p', Err AssertionError) /\
    ~ In 0 (dkeys (px_store p')) /\ px_table p' = px_table0.
Proof. exact error_loses. Qed.
Print Assumptions C31_error_loses_episode_refuted.

(** What is true: episodes of agents are kept by a failing call in which no
    episode ends. *)
Theorem C31_error_keeps_running_partial :
  forall (S : Type) (HS : Scalar S) (pc : pconf) (p : proxy S) (os : dict Z (obs S))
         (rs : dict Z (resp S)) (dr : list (list draw)) (p' : proxy S) (er : exn),
  Forall (fun x => is_final (o_state (snd x)) = false) os ->
  proxy_add pc p os rs dr = (p', Err er) ->
  px_table p' = px_table p /\
  forall b e, dget (px_store p) b = Some e ->
  exists e', dget (px_store p') b = Some e' /\ extends e e'.
Proof. intros S HS. exact error_keeps. Qed.
Print Assumptions C31_error_keeps_running_partial.

(** ** C32: rewards stay aligned whatever states an agent reports.

    False: an agent whose first observation is RUNNING gets a reward row without
    an action before it. *)
Theorem C32_rewards_misaligned_refuted :
  exists (h : list (pop Z)) (p : proxy Z) rewards actions,
    batches_ok h /\ prun (mkPc None false) (px_new px_table1) h = (p, Ok tt) /\
    dget (t_data (px_table p)) "rewards" = Some [(0, rewards)] /\
    dget (t_data (px_table p)) "actions" = Some [(0, actions)] /\
    (List.length actions < List.length rewards)%nat.
Proof. exact rewards_misaligned. Qed.
Print Assumptions C32_rewards_misaligned_refuted.

(** What is true: if every episode starts with INITIAL, rewards and responses have
    the same number of rows.  (INITIAL in the middle of an episode is refused, so
    nothing need be assumed about the later states.) *)
Theorem C32_rewards_aligned_partial :
  forall (S : Type) (HS : Scalar S) (pc : pconf) (t0 : table S) (h : list (pop S)) (p : proxy S)
         (sch : schema),
  batches_ok h -> schema_ok (pc_terminal pc) sch ->
  In (t_lenkey t0) (names (pc_terminal pc) sch) ->
  prun pc (px_new t0) h = (p, Ok tt) ->
  (forall a ms, In ms (episodes [] (stream a h)) -> Forall (conforms sch) ms /\
     exists first, hd_error ms = Some first /\ o_state (fst first) = INITIAL) ->
  exists ops, px_table p = run t0 ops /\
    forall a s d k, In (a, s, d) (additions ops) -> In k (sc_resp sch) ->
      seq_len "rewards" s = seq_len k s.
Proof. intros S HS. exact rewards_aligned. Qed.
Print Assumptions C32_rewards_aligned_partial.

Example C32_example : forall ms, In ms (episodes [] (stream 1 px_h)) ->
  Forall (conforms px_sch) ms /\
  exists first, hd_error ms = Some first /\ o_state (fst first) = INITIAL.
Proof.
  intros ms I. change (In ms [[(ob INITIAL 10, Some (ac 60)); (ob RUNNING 11, Some (ac 61));
                       (ob RUNNING 12, Some (ac 62)); (ob INTERRUPTED 13, None)]]) in I.
  destruct I as [<-|[]]. split.
  - repeat (apply Forall_cons; [apply px_conf; cbn; intros; try discriminate; eauto|]). apply Forall_nil.
  - eexists. split; reflexivity.
Qed.
