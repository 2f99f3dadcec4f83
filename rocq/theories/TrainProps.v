(** * TrainProps: the properties of Trainer.train (C43-C48) *)
From Coq Require Import Permutation Sorted.
From Verif Require Import Py TrainModel TrainSpec TrainState TrainMain TrainThms TrainThms2 TrainExamples.
Open Scope string_scope.
Open Scope list_scope.
Open Scope Z_scope.

(** ** C43: callbacks run in order, phases are nested *)
Theorem C43_phase_order :
  forall (O W : Type) (act : behaviour O W) size cbs d st0 w s out,
  train act size cbs d st0 w = (s, out) ->
  exists l k0, in_order cbs l
   /\ (leaves act cbs before_training "bp_step" -> k0 = 1)
   /\ ((* a hook stopped the run before training began *)
       (exists n e tr0 x, calls (wd_trace s) = firstn n (opening l)
           /\ wd_trace s = tr0 ++ [x] /\ quiet tr0 /\ raises x = Some e
           /\ out = match e with Shutdown => Returned | _ => Raised OtherError end)
       (* nothing stopped the run *)
       \/ (quiet (wd_trace s)
           /\ calls (wd_trace s) = opening l ++ steps_calls l k0 (List.length (da_items d))
           /\ out = if da_ends d then Returned else Running)
       (* something stopped it, and then end_training was called *)
       \/ (exists main fin n e, wd_trace s = main ++ fin
           /\ calls main = opening l ++ firstn n (steps_calls l k0 (List.length (da_items d)))
           /\ (stops (fun it e => item_raises it e \/ miscounts e) l k0 (da_items d) main e
               \/ (quiet main /\ n = 0%nat /\ miscounts e
                   /\ ~ leaves act cbs before_training "bp_step"))
           /\ closes l e fin out)).
Proof. exact (fun O W act => @train_order_main O W act). Qed.
Print Assumptions C43_phase_order.

(** When the samples can be counted, only hooks, the data loader and the shutdown
    signal stop a run. *)
Theorem C43_stop_reasons :
  forall (O W : Type) (act : behaviour O W) size cbs d st0 w s out,
  leaves act cbs anytime "bp_samples" -> Forall (countable size) (da_items d) ->
  train act size cbs d st0 w = (s, out) ->
  exists l k0, in_order cbs l
   /\ (leaves act cbs before_training "bp_step" -> k0 = 1)
   /\ ((exists n e tr0 x, calls (wd_trace s) = firstn n (opening l)
           /\ wd_trace s = tr0 ++ [x] /\ quiet tr0 /\ raises x = Some e
           /\ out = match e with Shutdown => Returned | _ => Raised OtherError end)
       \/ (quiet (wd_trace s)
           /\ calls (wd_trace s) = opening l ++ steps_calls l k0 (List.length (da_items d))
           /\ out = if da_ends d then Returned else Running)
       \/ (exists main fin n e, wd_trace s = main ++ fin
           /\ calls main = opening l ++ firstn n (steps_calls l k0 (List.length (da_items d)))
           /\ (stops item_raises l k0 (da_items d) main e
               \/ (quiet main /\ n = 0%nat /\ miscounts e
                   /\ ~ leaves act cbs before_training "bp_step"))
           /\ closes l e fin out)).
Proof. exact (fun O W act => @train_order_strict O W act). Qed.
Print Assumptions C43_stop_reasons.

(** ** C44: cycles *)
Theorem C44_cycle_steps :
  forall (O W : Type) (act : behaviour O W) size cbs d st0 w s out a ph c x seen r b,
  train act size cbs d st0 w = (s, out) ->
  leaves act cbs before_training "bp_step" ->
  wd_trace s = a ++ TCall ph c x seen r :: b ->
  (ph = PBeginCycle -> exists p q, In c cbs /\ cb_cycle c = Some p /\ 0 < p /\ 0 <= q
                              /\ Z.of_nat (List.length (batches a)) = q * p + 1)
  /\ (ph = PEndCycle -> exists p q, In c cbs /\ cb_cycle c = Some p /\ 0 < p /\ 0 < q
                              /\ Z.of_nat (List.length (batches a)) = q * p).
Proof. exact (@cycle_steps). Qed.
Print Assumptions C44_cycle_steps.

Theorem C44_cycle_counts :
  forall (O W : Type) (act : behaviour O W) size cbs d st0 w s out n tr c,
  train act size cbs d st0 w = (s, out) ->
  leaves act cbs before_training "bp_step" ->
  NoDup (map cb_id cbs) -> In c cbs ->
  (* [tr] is the run up to the end of step n *)
  List.length (batches tr) = n
  /\ ((exists k b rest, wd_trace s = tr ++ TBatch k b :: rest) \/ (out = Running /\ wd_trace s = tr)) ->
  match cb_cycle c with
  | Some p =>
      (0 < p ->
         Z.of_nat (count PBeginCycle (cb_id c) (calls tr)) = (Z.of_nat n + p - 1) / p
         /\ Z.of_nat (count PEndCycle (cb_id c) (calls tr)) = Z.of_nat n / p)
      /\ (p <= 0 -> count PBeginCycle (cb_id c) (calls tr) = 0%nat
              /\ count PEndCycle (cb_id c) (calls tr) = 0%nat)
  | None => count PBeginCycle (cb_id c) (calls tr) = 0%nat
            /\ count PEndCycle (cb_id c) (calls tr) = 0%nat
  end.
Proof. exact (@cycle_counts). Qed.
Print Assumptions C44_cycle_counts.

(** ** C45: BackPropStepsTerminator *)
Theorem C45_terminator_stops :
  forall (O W : Type) (act : behaviour O W) id n t size cbs d st0 w,
  terminator id n = Ok t -> In t cbs -> NoDup (map cb_id cbs) ->
  total act cbs anytime ->
  leaves act cbs before_training "bp_step" -> leaves act cbs anytime "bp_samples" ->
  Forall (countable size) (da_items d) ->
  Forall (fun it => it_stop it = Ok false /\ exists b, it_batch it = Ok b) (da_items d) ->
  n <= Z.of_nat (List.length (da_items d)) ->
  exists s, train (with_terminator id act) size cbs d st0 w = (s, Returned)
    /\ Z.of_nat (List.length (batches (wd_trace s))) = n
    /\ (forall c, In c cbs -> Z.of_nat (count PBackward (cb_id c) (calls (wd_trace s))) = n).
Proof. exact (@terminates). Qed.
Print Assumptions C45_terminator_stops.

Theorem C45_terminator_not_before :
  forall (O W : Type) (act : behaviour O W) id n t size cbs d st0 w,
  terminator id n = Ok t -> In t cbs -> NoDup (map cb_id cbs) ->
  total act cbs anytime ->
  leaves act cbs before_training "bp_step" -> leaves act cbs anytime "bp_samples" ->
  Forall (countable size) (da_items d) ->
  Forall (fun it => it_stop it = Ok false /\ exists b, it_batch it = Ok b) (da_items d) ->
  da_ends d = false ->
  Z.of_nat (List.length (da_items d)) < n ->
  exists s, train (with_terminator id act) size cbs d st0 w = (s, Running).
Proof. exact (@keeps_running). Qed.
Print Assumptions C45_terminator_not_before.

Theorem C45_accepts_positive :
  forall id n, (exists t, terminator id n = Ok t) <-> 1 <= n.
Proof. exact terminator_iff. Qed.
Print Assumptions C45_accepts_positive.

(** ** C46: end_training *)
Theorem C46_end_training_partial :
  forall (O W : Type) (act : behaviour O W) size cbs d st0 w s out,
  train act size cbs d st0 w = (s, out) ->
  total act cbs (fun ph => ph = PEndTraining) ->
  NoDup (map cb_id cbs) ->
  (exists l a b, in_order cbs l /\ wd_trace s = a ++ b /\ calls a = opening l /\ quiet a) ->
  out <> Running ->
  (* the data loader was exhausted: end_training is not called *)
  (da_ends d = true /\ quiet (wd_trace s) /\ out = Returned
   /\ forall c, In c cbs -> count PEndTraining (cb_id c) (calls (wd_trace s)) = 0%nat)
  \/ exists e, out = match e with Shutdown => Returned | _ => Raised e end
     /\ (forall c, In c cbs -> count PEndTraining (cb_id c) (calls (wd_trace s)) = 1%nat)
     /\ (forall a c x seen r b, wd_trace s = a ++ TCall PEndTraining c x seen r :: b -> x = Some e).
Proof. exact (@end_once). Qed.
Print Assumptions C46_end_training_partial.

Theorem C46_reraised_partial :
  forall (O W : Type) (act : behaviour O W) size cbs d st0 w s out a ph c x seen e b,
  train act size cbs d st0 w = (s, out) ->
  total act cbs (fun ph => ph = PEndTraining) ->
  wd_trace s = a ++ TCall ph c x seen (Err e) :: b ->
  out = if (match ph with PRestore | PBeginTraining => true | _ => false end)
        then match e with Shutdown => Returned | _ => Raised OtherError end
        else match e with Shutdown => Returned | _ => Raised e end.
Proof. exact (@reraised). Qed.
Print Assumptions C46_reraised_partial.

(** A data loader that ends: nobody is told. *)
Theorem C46_exhausted_refuted :
  exists (act : behaviour unit unit) cbs d s,
    train act "batch_size" cbs d [] tt = (s, Returned)
    /\ List.length (batches (wd_trace s)) = 3%nat
    /\ forall c, In c cbs -> count PEndTraining (cb_id c) (calls (wd_trace s)) = 0%nat.
Proof. exact exhausted_example. Qed.
Print Assumptions C46_exhausted_refuted.

(** An end_training that raises: the later callbacks are not told, and the
    original exception is lost. *)
Theorem C46_raising_end_refuted :
  exists (act : behaviour unit unit) cbs d s,
    train act "batch_size" cbs d [] tt = (s, Raised ValueError)
    /\ (exists a c x seen b, wd_trace s = a ++ TCall PBackward c x seen (Err IndexError) :: b)
    /\ exists c, In c cbs /\ count PEndTraining (cb_id c) (calls (wd_trace s)) = 0%nat.
Proof. exact raising_end_example. Qed.
Print Assumptions C46_raising_end_refuted.

(** ** C47: what the hooks see *)
Theorem C47_state_visible :
  forall (O W : Type) (act : behaviour O W) size cbs d st0 w s out,
  proper act (da_items d) ->
  train act size cbs d st0 w = (s, out) ->
  (forall key, dget (wd_state s) key = visible size (initial st0) (wd_trace s) key)
  /\ forall es1 ph c x seen r es2, wd_trace s = es1 ++ TCall ph c x seen r :: es2 ->
       forall key, dget seen key = visible size (initial st0) es1 key.
Proof. exact (@train_faithful). Qed.
Print Assumptions C47_state_visible.

(** In particular between two hooks called one after the other. *)
Theorem C47_next_hook :
  forall (O W : Type) (act : behaviour O W) size cbs d st0 w s out es1 ph c x seen u ph' c' x' seen' r es2,
  proper act (da_items d) ->
  train act size cbs d st0 w = (s, out) ->
  wd_trace s = es1 ++ TCall ph c x seen (Ok u) :: TCall ph' c' x' seen' r :: es2 ->
  forall key, dget seen' key = match dget u key with Some v => Some v | None => dget seen key end.
Proof. exact (@next_hook). Qed.
Print Assumptions C47_next_hook.

(** ** C48: the counters *)
Theorem C48_counters :
  forall (O W : Type) (act : behaviour O W) size cbs d sizes st0 w s out a ph c x seen r b,
  train act size cbs d st0 w = (s, out) ->
  proper act (da_items d) -> Forall2 (sized size) (da_items d) sizes -> size <> "bp_step" ->
  size <> "bp_samples" ->
  leaves act cbs anytime "bp_step" -> leaves act cbs anytime "bp_samples" ->
  wd_trace s = a ++ TCall ph c x seen r :: b ->
  let k := List.length (batches a) in
  dget seen "bp_step" = Some (VNum (Z.max 1 (Z.of_nat k)))
  /\ dget seen "bp_samples" = Some (VNum (zsum (firstn k sizes))).
Proof. exact (@counters). Qed.
Print Assumptions C48_counters.

(** ** The hypotheses can be met *)
Example C48_example :
  exists s, train demo_act "batch_size" demo_cbs (mkData demo_items false) [] tt = (s, Running)
  /\ proper demo_act demo_items /\ Forall2 (sized "batch_size") demo_items [3; 4; 5]
  /\ leaves demo_act demo_cbs anytime "bp_step" /\ leaves demo_act demo_cbs anytime "bp_samples"
  /\ NoDup (map cb_id demo_cbs) /\ total demo_act demo_cbs anytime
  /\ calls (wd_trace s) = opening demo_sorted ++ steps_calls demo_sorted 1 3
  /\ List.length (calls (wd_trace s)) = 42%nat.
Proof. exact demo_facts. Qed.
Example C45_example :
  exists t s, terminator 7 2 = Ok t
  /\ Forall (countable "batch_size") demo_items
  /\ Forall (fun it => it_stop it = Ok false /\ exists b, it_batch it = Ok b) demo_items
  /\ train (with_terminator 7 demo_act) "batch_size" (t :: demo_cbs) (mkData demo_items false) [] tt
     = (s, Returned)
  /\ List.length (batches (wd_trace s)) = 2%nat.
Proof. exact demo_terminates. Qed.
