(** * LiveProps: training on data that is collected while it runs (C147, C43, C45) *)
From Coq Require Import Reals.
From Verif Require Import Py MemModel MemSpec ProxyModel ProxySpec LoaderModel TrainModel TrainSpec TrainMain AgentModel AgentSpec
  GymModel GymSpec GymMisc GymTProps LiveModel LiveSpec LiveProofs LiveOrder LiveMain.
Open Scope string_scope.
Open Scope list_scope.
Open Scope Z_scope.

(** ** C147: a collector, a memory, a loader, a trainer and callbacks that change the policy while it is used *)
Theorem C147_batches_happened : forall (S E : Type) (HSc : Scalar S) (O V : Type) (num : S -> R) (env : genv S E)
    (* the agent acts by the current weights, which the other callbacks change *)
    (agent : V -> nat -> dict Z (obs S) -> res (dict Z (resp S))) (others : behaviour O V)
    eject_draws sample_draws (obj : dict string (cell S) -> O) pc ld sc stop envs cols maxlen smp ej dobs dact kmin size_key cbs fuel st0 v s out,
  envs <> [] -> shows env dobs -> (forall v, answers_all dobs dact (agent v)) ->
  pc_min pc = Some kmin -> Z.of_nat (ld_length ld) <= kmin -> (1 <= ld_length ld)%nat ->
  config_ok cols "actions" -> fresh_sampler smp -> fresh_ejector ej -> layout cols "actions" (pc_terminal pc) (mkSchema ["obs"] ["actions"]) ->
  gym_sizes dobs dact cols -> ld_group ld <> ld_size_key ld -> NoDup (map cb_id cbs) ->
  live_train (lab_act num env agent others eject_draws pc sc) (lab_next sample_draws obj ld stop) size_key cbs fuel st0
    (lab_new envs (t_create cols "actions" maxlen smp ej) v) = (s, out) ->
  Z.of_nat (List.length (lb_notes (wd_world s))) <= 2 ^ 53 ->
  forall k b, In (TBatch k b) (wd_trace s) ->
  (* the rows of the batch were drawn at some time; every rollout happened before that time *)
  exists before rows after, lb_notes (wd_world s) = before ++ NDrew rows :: after /\ batch_of obj ld rows b /\
    batch_sized cols rows (ld_count ld) (ld_length ld) /\ forall j, (j < ld_count ld)%nat -> rollout_happened env agent cols (ld_length ld) before rows j.
Proof. exact @batches_happened. Qed.
Print Assumptions C147_batches_happened.

(** An experiment in which the weights are a number, which is the action, and grow by one in every step.  The sixth
    batch holds what the second and third policies did. *)
Definition lv_agent (v : Z) : nat -> dict Z (obs Z) -> res (dict Z (resp Z)) :=
  fun _ os => Ok (map (fun x => (fst x, mkResp [("actions", [v])] [])) (waiting os)).
Definition lv_others : behaviour (dict string (cell Z)) Z :=
  with_terminator 3 (fun c ph _ _ v => if Nat.eqb (cb_id c) 2 then match ph with PBackward => (v + 1, Ok []) | _ => (v, Ok []) end else (v, Ok [])).
Definition lv_ld := mkLoader 1 2 "batch_size" "default".
Definition lv_cbs : list callback := [mkCb 1 0 None; mkCb 2 0 None; mkCb 3 0 (Some 6)].
Definition lv_run fuel := live_train (lab_act (fun _ => 1%R) ex_env lv_agent lv_others (fun _ => []) (mkPc (Some 2) false) (mkSc 1 3 1))
  (lab_next (fun i => [((if (i <? 5)%nat then 2 else 4), 0)]) (fun d => d) lv_ld (fun _ => Ok false)) "batch_size" lv_cbs fuel []
  (lab_new [0%nat] (t_create gt_cols "actions" 100 (SWeighted (w_init false)) (EFifo fifo_init)) 7).
Example C147_fits : shows ex_env 1 /\ (forall v, answers_all 1 1 (lv_agent v)) /\ NoDup (map cb_id lv_cbs) /\
  config_ok gt_cols "actions" /\ layout gt_cols "actions" false (mkSchema ["obs"] ["actions"]) /\ gym_sizes 1 1 gt_cols.
Proof.
  split; [exact ex_shows|]. split; [|split; [|exact (proj2 (proj2 C133_fits))]].
  - intros v i os N W Sh. eexists. split; [reflexivity|]. split; [unfold dkeys; rewrite map_map; reflexivity|]. apply Forall_forall. intros x Ix.
    apply in_map_iff in Ix as (y & <- & _). exists [v]. auto.
  - repeat constructor; simpl; intuition discriminate.
Qed.
Example C147_run : match lv_run 8 with
  (s, out) => out = Returned /\ List.length (batches (wd_trace s)) = 6%nat /\ List.length (lb_notes (wd_world s)) = 15%nat /\
    nth_error (batches (wd_trace s)) 5 = Some (6, [("default", VObj [("obs", CRows [[0]; [1]]); ("actions", CRows [[8]; [9]]); ("rewards", CRows [[1]; [1]]);
      ("next_obs", CRows [[2]]); ("masks", CRows [[1]; [0]]); ("batch_size", CSize 2)]); ("batch_size", VNum 2)]) end.
Proof. vm_compute. auto. Qed.

(** ** C43: the order of the hooks, when what the data loader gives depends on what the hooks do *)
Theorem C43_live : forall (O W : Type) (act : behaviour O W) (next : W -> W * option (item O)) size cbs fuel st0 w s out,
  live_train act next size cbs fuel st0 w = (s, out) -> leaves act cbs before_training "bp_step" ->
  exists l m, in_order cbs l /\ (m <= fuel)%nat /\ (out = Running -> m = fuel) /\
   ((* a hook stopped the run before training began *)
    (exists n e tr0 x, calls (wd_trace s) = firstn n (opening l) /\ wd_trace s = tr0 ++ [x] /\ quiet tr0 /\ raises x = Some e
        /\ out = match e with Shutdown => Returned | _ => Raised OtherError end)
    (* nothing stopped the run *)
    \/ (quiet (wd_trace s) /\ calls (wd_trace s) = opening l ++ steps_calls l 1 m /\ (out = Returned \/ out = Running))
    (* a hook, or something between the steps, stopped it, and then end_training was called *)
    \/ (exists main fin n e, wd_trace s = main ++ fin /\ calls main = opening l ++ firstn n (steps_calls l 1 m)
        /\ ((exists tr0 x, main = tr0 ++ [x] /\ quiet tr0 /\ raises x = Some e)
            \/ quiet main /\ exists i, calls main = opening l ++ steps_calls l 1 i)
        /\ closes l e fin out)).
Proof. exact @live_order. Qed.
Print Assumptions C43_live.

(** ** C45: a terminator, on data that is always there *)
Theorem C45_live : forall (O W : Type) (act : behaviour O W) (next : W -> W * option (item O)) id n t size cbs,
  terminator id n = Ok t -> In t cbs -> NoDup (map cb_id cbs) ->
  TrainSpec.total act cbs anytime -> leaves act cbs before_training "bp_step" -> leaves act cbs anytime "bp_samples" -> gives next size ->
  forall fuel st0 w, exists s out, live_train (with_terminator id act) next size cbs fuel st0 w = (s, out) /\
    (n <= Z.of_nat fuel -> out = Returned /\ Z.of_nat (List.length (batches (wd_trace s))) = n
       /\ (forall c, In c cbs -> Z.of_nat (count PBackward (cb_id c) (calls (wd_trace s))) = n)) /\
    (Z.of_nat fuel < n -> out = Running).
Proof. exact @live_terminates. Qed.
Print Assumptions C45_live.

(** A loader that gives what a hook has counted. *)
Example C45_live_fits : gives (O := unit) (fun w : Z => (w, Some (mkItem (Ok [("n", VNum w)]) (Ok false)))) "n" /\
  match live_train (with_terminator 1 (fun c ph _ _ w => (w + 1, Ok []))) (fun w : Z => (w, Some (mkItem (Ok [("n", VNum w)]) (Ok false)))) "n"
    [mkCb 0 0 None; mkCb 1 5 (Some 2)] 9 [] 0 with
  | (s, out) => out = Returned /\ batches (wd_trace s) = [(1, [("n", VNum 2)]); (2, [("n", VNum 5)])] :> list (Z * tstate unit) end.
Proof.
  split.
  - intros w. exists w, [("n", VNum w)], w. split; auto. split; [repeat constructor; simpl; auto|]. split; [reflexivity|]. simpl. intuition discriminate.
  - vm_compute. auto.
Qed.
