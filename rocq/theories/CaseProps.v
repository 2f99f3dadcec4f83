(** * CaseProps: how often a metric is written (C77), and cases that meet the hypotheses of
    theorems of other files *)
From Coq Require Import Reals Permutation Sorted.
From Verif Require Import Py PyLemmas.
From Verif Require LogModel LogSpec LogProofs CaseProofs TrainModel TrainSpec TrainProofs TrainState TrainMain TrainMore TrainThms TrainThms2 TrainExamples
  CkptModel CkptSpec CkptExamples MemModel MemSpec MemProofs MemExamples V1Spec MemProps5 ProxyModel ProxySpec ProxyMore
  ProxyExamples EnvModel EnvSpec EnvProps GymModel GymSpec GymMisc.
Open Scope string_scope.
Open Scope list_scope.
Open Scope Z_scope.

(** ** C77: nothing is written twice *)
Section Logging.
Import LogModel LogSpec LogProofs CaseProofs.
(** As many values are written as there are scalars, windows and cumulative values, and the two
    rates: so each that C77_written lists is written once. *)
Theorem C77_once : forall (P : Type) (ls : list (logs P)) step0 samples0 elapsed step samples ev,
  tensorboard_end_cycle ls step0 samples0 elapsed step samples = (ev, Ok tt) ->
  zlen ev = zsum (map (fun s => zlen (lg_scalars s) + zlen (lg_windows s) + zlen (lg_cumulative s)) ls) + 2.
Proof. exact cycle_length. Qed.
Print Assumptions C77_once.
Example C77_case :
  let s := mkLogs [("loss", 9)] [("windowed[3]:train/reward", ([3; 4; 5], 3)); ("loss/x", ([6; 7], 2))]
             [("windowed[3]:train/reward", 15); ("loss/x", 18)] tt 2 in
  (forall s' k w n, In s' [s; s] -> In (k, (w, n)) (lg_windows s') -> w <> []) /\
  zlen (fst (tensorboard_end_cycle [s; s] 1 0 10 21 640)) = 12 /\ snd (tensorboard_end_cycle [s; s] 1 0 10 21 640) = Ok tt.
Proof.
  split; [|vm_compute; auto]. intros s' k w n [<-|[<-|[]]] I; cbn [lg_windows In] in I;
    repeat (destruct I as [E|I]; [injection E as <- <- <-; discriminate|]); destruct I.
Qed.
End Logging.

(** ** C43, C44, C46, C47: a run of three steps, and one that a callback stops *)
Section Training.
Import TrainModel TrainSpec TrainProofs TrainThms TrainThms2 TrainExamples.
(** Callback 1 has a cycle of 2: after three steps it has seen two cycles begin and one end, the
    second begin directly in front of the third step's other hooks. *)
Example C44_case :
  let s := fst (train demo_act "batch_size" demo_cbs (mkData demo_items false) [] tt) in
  leaves demo_act demo_cbs before_training "bp_step" /\ NoDup (map cb_id demo_cbs) /\
  List.length (batches (wd_trace s)) = 3%nat /\
  count PBeginCycle 1 (calls (wd_trace s)) = 2%nat /\ count PEndCycle 1 (calls (wd_trace s)) = 1%nat /\
  count PBeginCycle 3 (calls (wd_trace s)) = 3%nat /\ count PEndCycle 3 (calls (wd_trace s)) = 3%nat /\
  count PBeginCycle 2 (calls (wd_trace s)) = 0%nat.
Proof.
  cbv zeta. split; [apply demo_leaves; discriminate|]. split; [repeat constructor; simpl; intuition discriminate|].
  vm_compute. auto 10.
Qed.
(** A loss that raises in its first step: everyone's end_training is called once, and the exception is raised again. *)
Example C46_case :
  let act : behaviour unit unit := fun c ph x st w =>
    (w, match ph with PBackward => if Nat.eqb (cb_id c) 2 then Err IndexError else Ok [] | _ => Ok [] end) in
  let r := train act "batch_size" demo_cbs (mkData demo_items true) [] tt in
  total act demo_cbs (fun ph => ph = PEndTraining) /\ NoDup (map cb_id demo_cbs) /\
  (exists l a b, in_order demo_cbs l /\ wd_trace (fst r) = a ++ b /\ calls a = opening l /\ quiet a) /\
  snd r = Raised IndexError /\ map (fun i => count PEndTraining i (calls (wd_trace (fst r)))) [1; 2; 3]%nat = [1; 1; 1]%nat.
Proof.
  cbv zeta. split; [intros c ph x st w _ ->; eexists; reflexivity|]. split; [repeat constructor; simpl; intuition discriminate|].
  split; [|vm_compute; auto].
  exists (sort_cbs demo_cbs). set (tr := wd_trace _). exists (firstn 6 tr), (skipn 6 tr).
  split; [apply sort_in_order|]. split; [symmetry; apply firstn_skipn|]. split; [vm_compute; reflexivity|].
  vm_compute. repeat constructor.
Qed.
(** The value that one callback returns is what the next one sees. *)
Example C47_case :
  proper demo_act demo_items /\
  exists s es1 c seen c' seen' r es2,
    train demo_act "batch_size" demo_cbs (mkData demo_items false) [] tt = (s, Running) /\
    wd_trace s = es1 ++ TCall PBackward c None seen (Ok [("loss", VNum 3)]) :: TCall PBackward c' None seen' r :: es2 /\
    dget seen "loss" = None /\ dget seen' "loss" = Some (VNum 3) /\ dget seen' "batch_size" = Some (VNum 3).
Proof.
  split; [destruct demo_facts as (s & _ & H & _); exact H|].
  eexists. exists (firstn 12 (wd_trace (fst (train demo_act "batch_size" demo_cbs (mkData demo_items false) [] tt)))).
  do 6 eexists. split; [vm_compute; reflexivity|]. split; [vm_compute; reflexivity|]. vm_compute. auto.
Qed.
End Training.

(** ** C49: a run of five steps and one that resumes its second checkpoint *)
Section Resuming.
Import TrainModel TrainSpec TrainProofs TrainState TrainMain TrainMore TrainThms TrainThms2 CkptModel CkptSpec CkptExamples.
Example C49_case :
  keeps_files ex_act [1%nat; 2%nat] /\ NoDup (map cb_id ex_cbs2) /\ In 2%nat (map cb_id ex_cbs2) /\
  (forall c, In c ex_cbs -> cb_id c = 1%nat -> cb_cycle c = Some 2) /\
  proper ex_act (map ex_item [8; 9; 10]) /\ Forall2 (sized "batch_size") (map ex_item [8; 9; 10]) [8; 9; 10] /\
  leaves ex_act ex_cbs2 anytime "bp_step" /\ leaves ex_act ex_cbs2 anytime "bp_samples" /\
  (1 < List.length (saves 1 (wd_trace (fst ex_run1))))%nat /\
  exists a c seen r b, wd_trace (fst ex_run2) = a ++ TCall PBackward c None seen r :: b /\ List.length (batches a) = 2%nat /\
    dget seen "bp_step" = Some (VNum 5) /\ dget seen "bp_samples" = Some (VNum 35).
Proof.
  split; [apply ex_keeps|]. split; [repeat constructor; simpl; intuition discriminate|]. split; [simpl; auto|].
  split; [intros c [<-|[<-|[]]] E; [reflexivity|discriminate E]|]. split; [apply ex_proper|]. split; [apply ex_sized|].
  split; [apply ex_leaves; discriminate|]. split; [apply ex_leaves; discriminate|]. split; [vm_compute; auto|].
  exists (firstn 23 (wd_trace (fst ex_run2))). do 4 eexists. split; [vm_compute; reflexivity|]. vm_compute. auto.
Qed.
End Resuming.

(** ** C20: a table that can be exported, and one that cannot *)
Section Exporting.
Import MemModel MemSpec MemProofs MemExamples V1Spec MemProps5.
Example C20_case :
  config_ok ex_cols "actions" /\ fresh_sampler unif_s /\ fresh_ejector fifo_e /\ client_ok ex_cols ex_ops /\
  is_ok (serialize (ex_table 20 unif_s fifo_e)) = true /\
  is_ok (serialize (run (ex_create 10 unif_s fifo_e) [OAdd 1 (ex_seq 0 0) []])) = false.
Proof.
  split; [apply ex_config_ok|]. split; [constructor|]. split; [constructor|]. split; [apply ex_client_ok|].
  vm_compute. auto.
Qed.
End Exporting.

(** ** C31: one agent starts again without having ended; the other one's episode goes on *)
Section Proxies.
Import MemModel ProxyModel ProxySpec ProxyMore ProxyExamples.
Example C31_case :
  let start := [PAdd [(0, ob INITIAL 0); (1, ob INITIAL 10)] [(0, mkResp [("actions", [50])] []); (1, mkResp [("actions", [60])] [])] []] in
  let p := fst (prun (mkPc None false) (px_new px_table0) start) in
  let os := [(0, ob RUNNING 1); (1, ob INITIAL 11)] in
  let r := proxy_add (mkPc None false) p os [(0, mkResp [("actions", [51])] [])] [] in
  Forall (fun x => is_final (o_state (snd x)) = false) os /\ snd r = Err AssertionError /\
  dkeys (px_store p) = [0; 1] /\ dkeys (px_store (fst r)) = [0; 1] /\ px_store (fst r) <> px_store p.
Proof. cbv zeta. split; [repeat constructor|]. vm_compute. intuition discriminate. Qed.
End Proxies.

(** ** C71: an agent in its second step *)
Section Simulating.
Import ProxyModel EnvModel EnvSpec EnvProps.
Example C71_case : exists past D rest b D0 d0 d,
  ehistory counting (make_env 2) [CReset [0; 1] 3; CStep [(2, 1); (3, 5)]; CStep [(2, 1); (4, 0)]]
  = past ++ mkEvent (CStep [(2, 1); (4, 0)]) (Ok D) :: rest /\
  last_output past None = Some (b, D0) /\ dget D0 2 = Some d0 /\ dget D 2 = Some d /\ d_state d0 = RUNNING /\
  d_obs d0 = 1 /\ d_obs d = 2.
Proof. eexists [_; _], _, [], _, _, _, _. split; [reflexivity|]. vm_compute. auto 10. Qed.
End Simulating.

(** ** C114, C115: two environments that are cut off after two steps *)
Section Collecting.
Import MemModel ProxyModel ProxySpec GymModel GymSpec GymMisc.
Example C114_case : shows ex_env 1 /\ answers_all 1 1 ex_agent /\
  match collect_run (fun _ => 1%R) ex_env ex_agent (fun _ => []) (gym_new [0%nat; 0%nat]) 5 with
  | Ok (c, outs) => List.length outs = 5%nat /\
      map (fun k => List.length (ended (seen_after outs (co_obs c) k))) [0; 1; 2; 3; 4]%nat = [0; 2; 0; 2; 0]%nat
  | Err _ => False
  end.
Proof. split; [apply ex_shows|]. split; [apply ex_answers|]. vm_compute. auto. Qed.
End Collecting.
