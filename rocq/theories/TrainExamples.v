(** * TrainExamples: concrete training runs *)
From Coq Require Import Permutation Sorted.
From Verif Require Import Py PyLemmas TrainModel TrainSpec TrainProofs TrainState TrainMain TrainMore TrainThms TrainThms2.
Open Scope string_scope.
Open Scope list_scope.
Open Scope Z_scope.

Lemma terminator_iff id n : (exists t, terminator id n = Ok t) <-> 1 <= n.
Proof.
  unfold terminator. destruct (Z.ltb_spec 0 n); split; intros H'; try lia.
  - eauto.
  - destruct H'. discriminate.
Qed.

Lemma next_hook (O W : Type) (act : behaviour O W) size cbs d st0 w s out es1 ph c x seen u ph' c' x' seen' r es2 :
  proper act (da_items d) ->
  train act size cbs d st0 w = (s, out) ->
  wd_trace s = es1 ++ TCall ph c x seen (Ok u) :: TCall ph' c' x' seen' r :: es2 ->
  forall key, dget seen' key = match dget u key with Some v => Some v | None => dget seen key end.
Proof.
  intros P H E key. destruct (train_faithful _ _ _ _ _ P H) as [_ F].
  rewrite (F _ _ _ _ _ _ _ E key).
  assert (E' : wd_trace s = (es1 ++ [TCall ph c x seen (Ok u)]) ++ TCall ph' c' x' seen' r :: es2)
    by (rewrite <- app_assoc; auto).
  rewrite (F _ _ _ _ _ _ _ E' key), visible_app. simpl. unfold merged. auto.
Qed.

(** Three callbacks: one with a cycle of 2, one that produces a value, one that
    runs first. *)
Definition demo_cbs : list callback :=
  [mkCb 1 0 (Some 2); mkCb 2 0 None; mkCb 3 (-1) (Some 1)].
Definition demo_sorted : list callback :=
  [mkCb 3 (-1) (Some 1); mkCb 1 0 (Some 2); mkCb 2 0 None].
Definition demo_act : behaviour unit unit := fun c ph x st w =>
  (w, Ok (match ph with PBackward => [("loss", VNum (Z.of_nat (cb_id c)))] | _ => [] end)).
Definition demo_item (n : Z) : item unit :=
  mkItem (Ok [("obs", VObj tt); ("batch_size", VNum n)]) (Ok false).
Definition demo_items : list (item unit) := [demo_item 3; demo_item 4; demo_item 5].

Lemma demo_sized n : sized "batch_size" (demo_item n) n.
Proof.
  intros b E. injection E as <-. repeat split.
  - repeat constructor; simpl; intuition discriminate.
  - simpl. intuition discriminate.
Qed.
Lemma demo_leaves cbs key phs : key <> "loss" -> leaves demo_act cbs phs key.
Proof.
  intros N c ph x st w u _ _ E. destruct ph; simpl in E; injection E as <-; simpl; intuition congruence.
Qed.
Lemma demo_facts :
  exists s, train demo_act "batch_size" demo_cbs (mkData demo_items false) [] tt = (s, Running)
  /\ proper demo_act demo_items /\ Forall2 (sized "batch_size") demo_items [3; 4; 5]
  /\ leaves demo_act demo_cbs anytime "bp_step" /\ leaves demo_act demo_cbs anytime "bp_samples"
  /\ NoDup (map cb_id demo_cbs) /\ total demo_act demo_cbs anytime
  /\ calls (wd_trace s) = opening demo_sorted ++ steps_calls demo_sorted 1 3
  /\ List.length (calls (wd_trace s)) = 42%nat.
Proof.
  eexists. split; [vm_compute; reflexivity|]. split; [|split; [|split; [|split; [|split; [|split; [|split]]]]]].
  - split.
    + intros c ph x st w u E. destruct ph; simpl in E; injection E as <-; repeat constructor; simpl; tauto.
    + repeat constructor; intros b E; injection E as <-; repeat constructor; simpl; intuition discriminate.
  - do 3 (apply Forall2_cons; [apply demo_sized|]). apply Forall2_nil.
  - apply demo_leaves. discriminate.
  - apply demo_leaves. discriminate.
  - repeat constructor; simpl; intuition discriminate.
  - intros c ph x st w _ _. eexists. reflexivity.
  - vm_compute. reflexivity.
  - vm_compute. reflexivity.
Qed.
Lemma demo_terminates :
  exists t s, terminator 7 2 = Ok t
  /\ Forall (countable "batch_size") demo_items
  /\ Forall (fun it => it_stop it = Ok false /\ exists b, it_batch it = Ok b) demo_items
  /\ train (with_terminator 7 demo_act) "batch_size" (t :: demo_cbs) (mkData demo_items false) [] tt
     = (s, Returned)
  /\ List.length (batches (wd_trace s)) = 2%nat.
Proof.
  eexists. eexists. split; [reflexivity|]. split; [|split; [|split]].
  - do 3 (apply Forall_cons; [eexists; apply demo_sized|]). apply Forall_nil.
  - repeat constructor; simpl; eauto.
  - vm_compute. reflexivity.
  - vm_compute. reflexivity.
Qed.

Lemma exhausted_example :
  exists (act : behaviour unit unit) cbs d s,
    train act "batch_size" cbs d [] tt = (s, Returned)
    /\ List.length (batches (wd_trace s)) = 3%nat
    /\ forall c, In c cbs -> count PEndTraining (cb_id c) (calls (wd_trace s)) = 0%nat.
Proof.
  exists demo_act, demo_cbs, (mkData demo_items true). eexists.
  split; [vm_compute; reflexivity|]. split; [vm_compute; reflexivity|].
  intros c [<-|[<-|[<-|[]]]]; vm_compute; reflexivity.
Qed.
Lemma raising_end_example :
  exists (act : behaviour unit unit) cbs d s,
    train act "batch_size" cbs d [] tt = (s, Raised ValueError)
    /\ (exists a c x seen b, wd_trace s = a ++ TCall PBackward c x seen (Err IndexError) :: b)
    /\ exists c, In c cbs /\ count PEndTraining (cb_id c) (calls (wd_trace s)) = 0%nat.
Proof.
  exists (fun c ph x st w =>
    (w, match ph with PEndTraining => Err ValueError | PBackward => Err IndexError | _ => Ok [] end)),
    demo_cbs, (mkData demo_items true). eexists.
  split; [vm_compute; reflexivity|]. split.
  - set (tr := wd_trace _). exists (firstn 12 tr), (mkCb 3 (-1) (Some 1)), None.
    vm_compute. eexists. eexists. reflexivity.
  - exists (mkCb 2 0 None). split; [simpl; auto|]. vm_compute. reflexivity.
Qed.
