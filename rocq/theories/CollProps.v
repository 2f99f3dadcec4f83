(** * CollProps: the theorems for C79, and cases that meet their hypotheses

    Every dynamics and termination pattern, every agent, schedule of rollout lengths,
    number of environments, batches, and memory.  A run ends at the first exception. *)
From Verif Require Import Py MemModel MemSpec ProxyModel ProxySpec EnvModel EnvSpec CollModel CollSpec CollProofs CollMore CollRun ProxyExamples.
Open Scope string_scope.
Open Scope list_scope.
Open Scope Z_scope.

(** ** C79 *)
(** What the memory is given of an agent is a prefix of what the environment told that
    agent; it contains at most one episode, a proper one.  (What the memory makes of
    it is C27 - C29; [agents_ok] is what C29 asks for.)  Missing: that nothing stays
    behind, see below. *)
Theorem C79_episodes_partial : forall (S : Type) (HS : Scalar S) (c : kconf S) (n : nat) (t0 : table S) (len0 : Z) (batches : list (list (list S))) (k : coll S) (r : res unit),
  agent_dicts c -> collect_run c (coll_init n t0 len0) batches = (k, r) ->
  batches_ok (k_uses k) /\ (r = Ok tt -> prun (kc_proxy c) (px_new t0) (k_uses k) = (k_proxy k, Ok tt)) /\
  Forall (fun o => match o with PAdd os _ _ => Forall (fun a => 0 <= a) (dkeys os) | PUse o => o <> OClear end) (k_uses k) /\
  forall a,
    (exists l rest, views a (outputs (ehistory (kc_dyn c) (make_env n) (k_calls k))) = l ++ rest /\ map fst (stream a (k_uses k)) = map (as_obs (kc_key c)) l) /\
    (List.length (episodes [] (stream a (k_uses k))) <= 1)%nat /\ Forall proper (episodes [] (stream a (k_uses k))) /\
    forall ns, agent_names c ns -> Forall (conforms (mkSchema [kc_key c] ns)) (stream a (k_uses k)).
Proof. exact (@collected). Qed.
Print Assumptions C79_episodes_partial.

Theorem C79_fit_for_memory : forall (S : Type) (HS : Scalar S) (c : kconf S) (n : nat) (t0 : table S) (len0 : Z) (batches : list (list (list S))) (k : coll S) (r : res unit)
    (cols : list (column S)) (lenkey : string) (ns : list string),
  agent_dicts c -> agent_names c ns -> collect_run c (coll_init n t0 len0) batches = (k, r) ->
  (forall a, Forall (sized cols) (stream a (k_uses k)) /\ zlen (stream a (k_uses k)) <= 2 ^ 53) ->
  agents_ok (kc_proxy c) cols lenkey (mkSchema [kc_key c] ns) 1 (k_uses k).
Proof. exact (@collected_agents). Qed.
Print Assumptions C79_fit_for_memory.

(** With an observation for each environment and an agent that answers everybody, only
    the memory can refuse. *)
Theorem C79_accepted : forall (S : Type) (HS : Scalar S) (c : kconf S) (n : nat) (t0 : table S) (len0 : Z) (batches : list (list (list S))) (k : coll S) (x : exn),
  (1 <= n)%nat -> agent_answers c -> agent_dicts c -> Forall (fun b => List.length b = n) batches ->
  collect_run c (coll_init n t0 len0) batches = (k, Err x) -> memory_refuses t0 x.
Proof. exact (@accepted). Qed.
Print Assumptions C79_accepted.

(** Every batch with a rollout leaves one unfinished episode for each environment in
    the memory, for ever. *)
Theorem C79_left_behind_refuted : forall (S : Type) (HS : Scalar S) (c : kconf S) (n : nat) (t0 : table S) (len0 : Z) (batches : list (list (list S))) (k : coll S),
  collect_run c (coll_init n t0 len0) batches = (k, Ok tt) ->
  List.length (px_store (k_proxy k)) = (n * long_batches c (List.length batches))%nat.
Proof. exact (@left_behind). Qed.
Print Assumptions C79_left_behind_refuted.

(** Two environments that count; three is the end.  Rollouts of one step, then of two. *)
Definition sums : dyn (list Z) (resp Z) (list Z) :=
  mkDyn (fun _ _ o a => match o, dget (r_list a) "actions" with [x], Some [y] => ([x + y], [y]) | _, _ => ([0], [0]) end)
        None (fun _ _ o => 3 <=? hd 0 o).
Definition col_conf : kconf Z :=
  mkKc sums (fun t d => map (fun a => (a, ac (Z.of_nat t))) (waiting d)) (mkPc None true) "obs" (fun _ => []) (fun b => Z.min b 2) 10.
Definition col_run : coll Z * res unit := collect_run col_conf (coll_init 2 px_table0 1) [[[0]; [1]]; [[2]; [0]]; [[5]; [6]]].
Lemma col_dicts : agent_dicts col_conf.
Proof.
  intros t d. cbn. apply Forall_forall. intros x I. apply in_map_iff in I. destruct I as (a & <- & _). cbn. split; repeat constructor. intros [].
Qed.
Lemma col_names : agent_names col_conf ["actions"].
Proof.
  intros t d a r G. cbn [kc_agent col_conf] in G. apply PyLemmas.dget_In in G. apply in_map_iff in G. destruct G as (b & E & _). injection E as _ <-.
  intros k. cbn. destruct (String.eqb_spec k "actions") as [->|N]; split; intros; auto; try discriminate; try congruence.
  destruct H as [<-|[]]. congruence.
Qed.
Lemma col_answers : agent_answers col_conf.
Proof.
  intros t d a I G. apply PyLemmas.dget_None in G. apply G. unfold dkeys. cbn [kc_agent col_conf]. rewrite map_map. cbn [fst]. rewrite map_id. exact I.
Qed.
Example C79_case :
  agent_dicts col_conf /\ agent_names col_conf ["actions"] /\ agent_answers col_conf /\
  snd col_run = Ok tt /\ List.length (px_store (k_proxy (fst col_run))) = 6%nat /\
  map (fun l => map (fun m => (o_state (fst m), o_data (fst m))) l) (episodes [] (stream 9 (k_uses (fst col_run)))) =
    [[(INITIAL, [("obs", [0])]); (RUNNING, [("obs", [2])]); (TERMINAL, [("obs", [5])])]].
Proof.
  split; [exact col_dicts|]. split; [exact col_names|]. split; [exact col_answers|]. split; [vm_compute; reflexivity|]. split; vm_compute; reflexivity.
Qed.
(** A memory that may not shrink refuses a shorter rollout. *)
Example C79_refused_case : exists k,
  collect_run (mkKc sums (kc_agent col_conf) (mkPc None true) "obs" (fun _ => []) (fun b => 3 - b) 10) (coll_init 1 px_table0 3) [[[0]]; [[0]]] = (k, Err ValueError)
  /\ (1 <= 1)%nat /\ Forall (fun b : list (list Z) => List.length b = 1%nat) [[[0]]; [[0]]].
Proof. eexists. split; [vm_compute; reflexivity|]. split; [auto|repeat constructor]. Qed.

(** The values of the run above have the sizes the memory expects. *)
Definition single (d : dict string (list Z)) : bool := forallb (fun x => Nat.eqb (List.length (snd x)) 1) d.
Definition singles (h : list (pop Z)) : bool :=
  forallb (fun o => match o with
                    | PAdd os rs _ => forallb (fun x => single (o_data (snd x)) && single (o_rewards (snd x))) os && forallb (fun x => single (r_list (snd x)) && single (r_scalar (snd x))) rs
                    | PUse _ => true end) h.
Lemma single_get d k v : single d = true -> dget d k = Some v -> List.length v = 1%nat.
Proof.
  intros F G. apply PyLemmas.dget_In in G. unfold single in F. rewrite forallb_forall in F. apply F in G. apply Nat.eqb_eq in G. exact G.
Qed.
Lemma singles_sized h a : singles h = true -> Forall (sized px_cols) (stream a h).
Proof.
  intros F. apply Forall_forall. intros m I. unfold stream in I. apply in_flat_map in I. destruct I as (o & Io & I).
  unfold singles in F. rewrite forallb_forall in F. apply F in Io. destruct o as [os rs dr|o]; [|destruct I].
  apply andb_prop in Io. destruct Io as [F1 F2]. rewrite forallb_forall in F1, F2.
  destruct (dget os a) as [x|] eqn:G; [|destruct I]. destruct I as [<-|[]]. apply PyLemmas.dget_In in G. apply F1 in G. cbn [snd] in G. apply andb_prop in G. destruct G as [G1 G2].
  assert (R1 : forall c, In c (storage_cols px_cols) -> c_rowsize c = 1%nat) by (intros c J; cbn in J; intuition (subst; reflexivity)).
  intros c J. rewrite (R1 c J). split; [|split; [|split]].
  - intros v Q. apply (single_get _ _ _ G1 Q).
  - intros v Q. unfold answered in Q. cbn [snd] in Q. destruct (dget rs a) as [r|] eqn:GR; [|discriminate]. apply PyLemmas.dget_In in GR. apply F2 in GR. cbn [snd] in GR.
    apply andb_prop in GR. destruct GR as [S1 S2]. destruct (dget (r_scalar r) (c_name c)) eqn:GS; cbn in Q.
    + injection Q as ->. apply (single_get _ _ _ S2 GS).
    + apply (single_get _ _ _ S1 Q).
  - intros v _ Q. apply (single_get _ _ _ G2 Q).
  - auto.
Qed.
Lemma stream_short h a : zlen (stream (S := Z) a h) <= zlen h.
Proof.
  unfold zlen. apply inj_le. induction h as [|o h IH]; [auto|]. unfold stream in *. cbn [flat_map]. rewrite app_length. cbn [List.length].
  match goal with |- (List.length ?x + _ <= _)%nat => assert (L1 : (List.length x <= 1)%nat) by (destruct o as [os rs dr|]; [destruct (dget os a)|]; cbn; auto) end. apply (Nat.add_le_mono _ 1 _ _ L1 IH).
Qed.
Lemma col_fit len0 batches k r : collect_run col_conf (coll_init 2 px_table0 len0) batches = (k, r) ->
  singles (k_uses k) = true -> zlen (k_uses k) <= 2 ^ 53 -> agents_ok (kc_proxy col_conf) px_cols "actions" (mkSchema ["obs"] ["actions"]) 1 (k_uses k).
Proof.
  intros E F L. refine (C79_fit_for_memory _ _ col_conf _ _ _ _ _ _ px_cols "actions" ["actions"] col_dicts col_names E _). intros a.
  split; [apply singles_sized; exact F|]. eapply Z.le_trans; [apply stream_short|exact L].
Qed.
Example C79_fit_case : agents_ok (kc_proxy col_conf) px_cols "actions" (mkSchema ["obs"] ["actions"]) 1 (k_uses (fst col_run)).
Proof.
  apply (col_fit 1 [[[0]; [1]]; [[2]; [0]]; [[5]; [6]]] (fst col_run) (snd col_run)).
  - unfold col_run. apply surjective_pairing.
  - vm_compute. reflexivity.
  - vm_compute. discriminate.
Qed.
