(** * ProxyExamples: concrete agents and histories. *)
From Verif Require Import Py PyLemmas MemModel MemSpec MemProofs MemExamples
  ProxyModel ProxySpec ProxyProofs ProxyAlign ProxyE2E ProxyMore.
Open Scope string_scope.
Open Scope list_scope.
Open Scope Z_scope.

(** ** An example: agents 0 and 1, interleaved, in batches. *)
Definition px_cols : list (column Z) :=
  [ mkCol "obs" 1 idz KBase; mkCol "actions" 1 idz KBase; mkCol "rewards" 1 idz KBase;
    mkCol "terminal" 1 idz KTag; mkCol "next_obs" 1 idz (KVirt "obs" MNext);
    mkCol "masks" 1 idz (KVirt "actions" MMask) ].
Definition px_sch : schema := mkSchema ["obs"] ["actions"].
Definition px_pc : pconf := mkPc (Some 2) true.
Definition ob (st : estate) (v : Z) : obs Z :=
  mkObs (match st with INITIAL => [] | _ => [("reward", [v + 1000])] end) st [("obs", [v])].
Definition ac (v : Z) : resp Z := mkResp [("actions", [v])] [].

Definition px_h : list (pop Z) :=
  [ PAdd [(0, ob INITIAL 0)] [(0, ac 50)] [];
    PAdd [(1, ob INITIAL 10); (0, ob RUNNING 1)] [(0, ac 51); (1, ac 60)] [];
    PAdd [(0, ob TERMINAL 2); (1, ob RUNNING 11); (7, ob TERMINAL 70)] [(1, ac 61)] [];
    PUse (OResize 40);
    PAdd [(1, ob RUNNING 12); (2, ob INITIAL 20)] [(1, ac 62); (2, ac 80)] [];
    PAdd [(2, ob INTERRUPTED 21); (1, ob INTERRUPTED 13)] [] [] ].

Definition px_table0 : table Z :=
  t_create px_cols "actions" 10 (SWeighted (w_init false)) (EFifo fifo_init).

Lemma px_config : config_ok px_cols "actions".
Proof.
  constructor.
  - repeat constructor; simpl; intuition discriminate.
  - intros c I. simpl in I. decompose [or] I; subst; simpl; try lia; tauto.
  - eexists. split; [right; left; reflexivity|]. split; reflexivity.
  - intros c tg m I K. simpl in I. decompose [or] I; subst; simpl in K; inversion K; subst; try tauto.
    + eexists. split; [left; reflexivity|]. split; reflexivity.
    + eexists. split; [right; left; reflexivity|]. split; reflexivity.
Qed.
Lemma px_batches : batches_ok px_h.
Proof. unfold batches_ok, px_h. repeat constructor; simpl; intuition discriminate. Qed.
Lemma px_schema : schema_ok true px_sch.
Proof. unfold schema_ok. simpl. repeat constructor; simpl; intuition discriminate. Qed.
Lemma px_layout : layout px_cols "actions" true px_sch.
Proof.
  split; [|split].
  - intros n. simpl. tauto.
  - simpl. auto.
  - intros c I. simpl in I. decompose [or] I; subst; simpl; auto. tauto.
Qed.

Lemma px_streams a : stream a px_h =
  if a =? 0 then [(ob INITIAL 0, Some (ac 50)); (ob RUNNING 1, Some (ac 51)); (ob TERMINAL 2, None)]
  else if a =? 1 then [(ob INITIAL 10, Some (ac 60)); (ob RUNNING 11, Some (ac 61));
                       (ob RUNNING 12, Some (ac 62)); (ob INTERRUPTED 13, None)]
  else if a =? 2 then [(ob INITIAL 20, Some (ac 80)); (ob INTERRUPTED 21, None)]
  else if a =? 7 then [(ob TERMINAL 70, None)] else [].
Proof.
  destruct (Z.eqb_spec a 0); [subst; reflexivity|]. destruct (Z.eqb_spec a 1); [subst; reflexivity|].
  destruct (Z.eqb_spec a 2); [subst; reflexivity|]. destruct (Z.eqb_spec a 7); [subst; reflexivity|].
  unfold stream, px_h. cbn [flat_map dget keqb EqK_Z].
  repeat match goal with |- context[?x =? ?y] =>
    destruct (Z.eqb_spec x y); [congruence|] end.
  reflexivity.
Qed.

Lemma px_conf st v r :
  (is_final st = false -> exists w, r = Some (ac w)) -> conforms px_sch (ob st v, r).
Proof.
  intros Hr. split; [|split].
  - intros k. unfold saw. cbn [fst o_data ob dget keqb EqK_string px_sch sc_obs].
    destruct (String.eqb_spec k "obs") as [->|Ne]; simpl; split; intros; try discriminate; auto; try congruence.
    intuition congruence.
  - cbn [fst o_state ob]. intros Hf k. destruct (Hr Hf) as (w & ->). unfold answered.
    cbn [snd ac r_scalar r_list dget orelse keqb EqK_string].
    destruct (String.eqb_spec k "actions") as [->|Ne]; simpl; split; intros; try discriminate; auto; try congruence.
    intuition congruence.
  - destruct st; cbn; intros; discriminate.
Qed.
Lemma px_sized st v r : (exists w, r = Some (ac w)) \/ r = None -> sized px_cols (ob st v, r).
Proof.
  intros Hr c Ic. simpl in Ic.
  assert (E : c_rowsize c = 1%nat) by (decompose [or] Ic; subst; auto; tauto). rewrite E.
  split; [|split; [|split]]; auto.
  - intros x. unfold saw. cbn [fst ob o_data dget]. destruct (keqb _ _); intros X; inversion X; auto.
  - intros x. unfold answered. destruct Hr as [(w & ->)| ->]; cbn [snd]; [|discriminate].
    cbn [ac r_scalar r_list dget orelse]. destruct (keqb _ _); intros X; inversion X; auto.
  - intros x _. unfold received. cbn [fst ob o_rewards]. destruct st; cbn; intros X; inversion X; auto.
Qed.

Lemma px_agents : agents_ok px_pc px_cols "actions" px_sch 2 px_h.
Proof.
  split.
  - unfold px_h. repeat constructor; simpl; try lia; discriminate.
  - intros a. rewrite px_streams. cbv zeta.
    destruct (a =? 0); [|destruct (a =? 1); [|destruct (a =? 2); [|destruct (a =? 7)]]];
      (split; [vm_compute; lia|]).
    + intros ms I. vm_compute in I. destruct I as [<-|[]].
      change (proper [(ob INITIAL 0, Some (ac 50)); (ob RUNNING 1, Some (ac 51)); (ob TERMINAL 2, None)] /\
        Forall (conforms px_sch) [(ob INITIAL 0, Some (ac 50)); (ob RUNNING 1, Some (ac 51)); (ob TERMINAL 2, None)] /\
        Forall (sized px_cols) [(ob INITIAL 0, Some (ac 50)); (ob RUNNING 1, Some (ac 51)); (ob TERMINAL 2, None)] /\
        2 <= 2 <= 2 ^ 53).
      split; [|split; [|split; [|lia]]].
      * exists (ob INITIAL 0, Some (ac 50)), [(ob RUNNING 1, Some (ac 51))], (ob TERMINAL 2, None).
        repeat constructor.
      * repeat (apply Forall_cons; [apply px_conf; cbn; intros; try discriminate; eauto|]). apply Forall_nil.
      * repeat (apply Forall_cons; [apply px_sized; eauto|]). apply Forall_nil.
    + intros ms I. vm_compute in I. destruct I as [<-|[]].
      change (proper [(ob INITIAL 10, Some (ac 60)); (ob RUNNING 11, Some (ac 61)); (ob RUNNING 12, Some (ac 62)); (ob INTERRUPTED 13, None)] /\
        Forall (conforms px_sch) [(ob INITIAL 10, Some (ac 60)); (ob RUNNING 11, Some (ac 61)); (ob RUNNING 12, Some (ac 62)); (ob INTERRUPTED 13, None)] /\
        Forall (sized px_cols) [(ob INITIAL 10, Some (ac 60)); (ob RUNNING 11, Some (ac 61)); (ob RUNNING 12, Some (ac 62)); (ob INTERRUPTED 13, None)] /\
        2 <= 3 <= 2 ^ 53).
      split; [|split; [|split; [|lia]]].
      * exists (ob INITIAL 10, Some (ac 60)), [(ob RUNNING 11, Some (ac 61)); (ob RUNNING 12, Some (ac 62))], (ob INTERRUPTED 13, None).
        repeat constructor.
      * repeat (apply Forall_cons; [apply px_conf; cbn; intros; try discriminate; eauto|]). apply Forall_nil.
      * repeat (apply Forall_cons; [apply px_sized; eauto|]). apply Forall_nil.
    + intros ms I. vm_compute in I. destruct I.
    + intros ms I. vm_compute in I. destruct I.
    + intros ms I. vm_compute in I. destruct I.
Qed.

(** ** C31 *)
Lemma error_loses :
  exists (h : list (pop Z)) (p p' : proxy Z) os,
    prun (mkPc None false) (px_new px_table0) h = (p, Ok tt) /\
    In 0 (dkeys (px_store p)) /\
    dget os 0 = Some (ob TERMINAL 2) /\
    proxy_add (mkPc None false) p os [] [] = (p', Err AssertionError) /\
    ~ In 0 (dkeys (px_store p')) /\ px_table p' = px_table0.
Proof.
  exists [PAdd [(0, ob INITIAL 0); (1, ob INITIAL 10)] [(0, ac 50); (1, ac 60)] []].
  eexists. eexists. exists [(0, ob TERMINAL 2); (1, ob INITIAL 11)].
  split; [vm_compute; reflexivity|]. split; [vm_compute; auto|]. split; [reflexivity|].
  split; [vm_compute; reflexivity|]. split; [|vm_compute; reflexivity].
  vm_compute. intuition discriminate.
Qed.

(** ** C32 *)
Definition px_table1 : table Z :=
  t_create [ mkCol "obs" 1 idz KBase; mkCol "actions" 1 idz KBase; mkCol "rewards" 1 idz KBase ]
    "actions" 10 (SWeighted (w_init false)) (EFifo fifo_init).
Lemma rewards_misaligned :
  exists (h : list (pop Z)) (p : proxy Z) rewards actions,
    batches_ok h /\ prun (mkPc None false) (px_new px_table1) h = (p, Ok tt) /\
    dget (t_data (px_table p)) "rewards" = Some [(0, rewards)] /\
    dget (t_data (px_table p)) "actions" = Some [(0, actions)] /\
    (List.length actions < List.length rewards)%nat.
Proof.
  exists [PAdd [(0, ob RUNNING 0)] [(0, ac 50)] []; PAdd [(0, ob TERMINAL 1)] [] []].
  eexists. eexists. eexists.
  split; [unfold batches_ok; repeat constructor; simpl; intuition discriminate|].
  split; [vm_compute; reflexivity|]. split; [vm_compute; reflexivity|].
  split; [vm_compute; reflexivity|]. vm_compute. lia.
Qed.
