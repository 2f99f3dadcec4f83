(** * TargProps: C136 *)
From Coq Require Import Reals Lra Lia.
From Verif Require Import Py NumModel AlgoModel AlgoSpec AlgoProofs TargModel TargSpec TargProofs.
Open Scope list_scope.
Open Scope R_scope.

(** C136: whatever the optimizers do, the Q-targets of every batch are computed with the moving
    averages of all that the networks have been before it. *)
Theorem C136_sac : forall h q1 q2 tau steps h0 qt h' trace c q k s i j first,
  (q1 < List.length h)%nat -> (q2 < List.length h)%nat -> Forall (optimizes (List.length h)) steps ->
  sac_qtarget h q1 q2 None None tau = (h0, qt) -> train qt h0 steps = (h', trace) ->
  nth_error [q1; q2] c = Some q -> entry (read h q) i j = Some first -> nth_error trace k = Some s ->
  entry (nth c (used s) []) i j
  = Some (moving_average tau first (map (fun s => number i j (nth c (trained s) [])) (firstn k trace))).
Proof. exact sac_average. Qed.
Print Assumptions C136_sac.
Theorem C136_dqn : forall h q tau steps h0 qt h' trace k s i j first,
  (q < List.length h)%nat -> Forall (optimizes (List.length h)) steps ->
  dqn_qtarget h q None tau = (h0, qt) -> train qt h0 steps = (h', trace) ->
  entry (read h q) i j = Some first -> nth_error trace k = Some s ->
  entry (nth 0 (used s) []) i j
  = Some (moving_average tau first (map (fun s => number i j (nth 0 (trained s) [])) (firstn k trace))).
Proof. exact dqn_average. Qed.
Print Assumptions C136_dqn.
(** The averages stay among what the network has been. *)
Theorem C136_between : forall tau lo hi, 0 <= tau <= 1 -> forall history first, lo <= first <= hi ->
  Forall (fun x => lo <= x <= hi) history -> lo <= moving_average tau first history <= hi.
Proof. exact ma_between. Qed.
Print Assumptions C136_between.
(** A network given as its own target: the targets are computed with the newest parameters. *)
Theorem C136_own_target_finding : forall tau h q steps h' trace,
  train (mkQt [(q, q)] tau) h steps = (h', trace) -> (q < List.length h)%nat -> Forall (optimizes (List.length h)) steps ->
  forall k s s' i j, nth_error trace k = Some s -> nth_error trace (S k) = Some s' ->
  forall x, entry (nth 0 (trained s) []) i j = Some x -> entry (nth 0 (used s') []) i j = Some x.
Proof. exact own_target. Qed.
Print Assumptions C136_own_target_finding.

(** An optimizer that adds one to every number of the first module. *)
Definition add_one (h : modules) : modules :=
  match h with [] => [] | p :: t => map (map (fun x => x + 1)) p :: t end.
Example C136_case : optimizes 2 add_one
  /\ nth_error (snd (train (snd (sac_qtarget [[[0]]; [[5; 6]]] 0 1 None None (1 / 2))) (fst (sac_qtarget [[[0]]; [[5; 6]]] 0 1 None None (1 / 2)))
                           [add_one; add_one; add_one])) 2 = Some (mkSeen [[[5 / 4]]; [[5; 6]]] [[[3]]; [[5; 6]]]).
Proof.
  split.
  - split; [|split].
    + intros [|p h] m; [destruct m; reflexivity|]. destruct m as [|m]; [|reflexivity]. unfold same_sizes, read, add_one. cbn [nth].
      rewrite map_map. apply map_ext. intros a. rewrite map_length. reflexivity.
    + intros [|p h]; reflexivity.
    + intros [|p h] m L; [reflexivity|]. destruct m as [|m]; [lia|]. reflexivity.
  - assert (H : forall a b c d, a = 5 / 4 -> b = 5 -> c = 6 -> d = 3 ->
      Some (mkSeen [[[a]]; [[b; c]]] [[[d]]; [[5; 6]]]) = Some (mkSeen [[[5 / 4]]; [[5; 6]]] [[[3]]; [[5; 6]]]))
      by (intros; subst; reflexivity).
    cbn. apply H; field.
Qed.
