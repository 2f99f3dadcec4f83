(** * E2EExamples: a memory with a column behind the window *)
From Coq Require Import Reals Lra.
From Verif Require Import Py MemModel MemSpec ProxyModel ProxySpec ProxyExamples MemExamples NumModel NumSpec E2ESpec.
Open Scope string_scope.
Open Scope list_scope.
Open Scope Z_scope.

Definition ee_cols : list (column Z) :=
  [ mkCol "obs" 1 idz KBase; mkCol "actions" 1 idz KBase; mkCol "rewards" 1 idz KBase;
    mkCol "terminal" 1 idz KTag; mkCol "next_obs" 1 idz (KVirt "obs" MNextLast);
    mkCol "masks" 1 idz (KVirt "actions" MMask) ].
Definition ee_table : table Z := t_create ee_cols "actions" 10 (SWeighted (w_init false)) (EFifo fifo_init).
Lemma ee_config : config_ok ee_cols "actions".
Proof.
  constructor.
  - repeat constructor; simpl; intuition discriminate.
  - intros c I. simpl in I. decompose [or] I; subst; simpl; try lia; tauto.
  - eexists. split; [right; left; reflexivity|]. split; reflexivity.
  - intros c tg m I K. simpl in I. decompose [or] I; subst; simpl in K; inversion K; subst; try tauto.
    + eexists. split; [left; reflexivity|]. split; reflexivity.
    + eexists. split; [right; left; reflexivity|]. split; reflexivity.
Qed.
Lemma ee_layout : layout ee_cols "actions" true px_sch.
Proof.
  split; [|split].
  - intros n. simpl. tauto.
  - simpl. auto.
  - intros c I. simpl in I. decompose [or] I; subst; simpl; auto. tauto.
Qed.
Lemma ee_agents : agents_ok px_pc ee_cols "actions" px_sch 2 px_h.
Proof.
  destruct px_agents as [A B]. split; [exact A|]. intros a. destruct (B a) as [B1 B2]. split; [exact B1|].
  intros ms I. destruct (B2 ms I) as (P1 & P2 & P3 & P4).
  exact (conj P1 (conj P2 (conj P3 P4))).
Qed.
Definition ee_value (j : nat) (o : list (list Z)) : R := IZR (hd 0 (hd [] o)).
Definition ee_episode : list (@moment Z) :=
  [(ob INITIAL 10, Some (ac 60)); (ob RUNNING 11, Some (ac 61)); (ob RUNNING 12, Some (ac 62)); (ob INTERRUPTED 13, None)].
