(** * AmpProps: C88-C90 *)
From Coq Require Import Reals Lra Lia.
From Verif Require Import Py NumModel AmpModel AmpSpec AmpProofs AmpMore.
Open Scope list_scope.
Open Scope R_scope.

(** C88: for a batch of [n] rollouts of [L] steps the reward of each step grows by the
    weighted style reward of that step's pair: its own observation and the one after
    it in the same rollout.  Nothing else of the batch is returned. *)
Theorem C88_total_reward : forall D S disc sm w L n d key group
    (observation next_observation : dict string matrix) (obs final : matrix) rewards,
  scores D disc -> each_row S sm -> (1 <= L)%nat -> (1 <= n)%nat ->
  dget observation key = Some obs -> dget next_observation key = Some final ->
  List.length obs = (n * L)%nat -> rows_of d obs -> List.length final = n -> rows_of d final ->
  List.length rewards = (n * L)%nat ->
  amp_begin_batch disc sm w L key group observation next_observation (T2 (col rewards)) =
    Ok [(group, [("rewards"%string,
      map (fun i => [nth i rewards 0 + w * style_bonus (D (S (nth i obs []) ++ S (following L obs final i)))])
          (seq 0 (n * L)))])].
Proof. exact amp_total. Qed.
Print Assumptions C88_total_reward.
(** The style reward is at most one, and one exactly for a prediction of one. *)
Theorem C88_bounded_above : forall p, style_bonus p <= 1 /\ (style_bonus p = 1 <-> p = 1).
Proof. exact style_top. Qed.
Print Assumptions C88_bounded_above.
(** It has no lower bound: the predictions are not clamped. *)
Theorem C88_unbounded_below_finding : forall b, exists p, style_bonus p < b.
Proof. exact style_low. Qed.
Print Assumptions C88_unbounded_below_finding.
(** A batch that is not made of whole rollouts is refused, never paired up wrongly. *)
Theorem C88_whole_rollouts : forall disc sm w L d key group
    (observation next_observation : dict string matrix) (obs final : matrix) rewards,
  (1 <= d)%nat -> dget observation key = Some obs -> dget next_observation key = Some final ->
  rows_of d obs -> rows_of d final -> (forall n, List.length obs <> (n * L)%nat) ->
  exists e, amp_begin_batch disc sm w L key group observation next_observation rewards = Err e.
Proof. exact amp_misfit. Qed.
Print Assumptions C88_whole_rollouts.
(** So are rewards that are not one column with one entry per step. *)
Theorem C88_rewards_checked : forall D disc sm w L n d key group
    (observation next_observation : dict string matrix) (obs final : matrix) rewards,
  scores D disc -> (exists S, each_row S sm) -> (1 <= L)%nat -> (1 <= n)%nat ->
  dget observation key = Some obs -> dget next_observation key = Some final ->
  List.length obs = (n * L)%nat -> rows_of d obs -> List.length final = n -> rows_of d final ->
  (forall v, rewards = T2 (col v) -> List.length v <> (n * L)%nat) ->
  amp_begin_batch disc sm w L key group observation next_observation rewards = Err AssertionError.
Proof. exact amp_rewards_checked. Qed.
Print Assumptions C88_rewards_checked.
(** Two rollouts of two steps: what follows the four observations. *)
Example C88_case : map (following 2 [[1]; [2]; [3]; [4]] [[5]; [6]]) (seq 0 4) = [[2]; [5]; [4]; [6]].
Proof. reflexivity. Qed.
Example C88_case_run : amp_begin_batch (map (fun x => [nth 0 x 0 + nth 1 x 0])) (fun x => x) 1 2 "obs" "g"
    [("obs"%string, [[1]; [2]; [3]; [4]])] [("obs"%string, [[5]; [6]])] (T2 (col [10; 20; 30; 40])) =
  Ok [("g"%string, [("rewards"%string, [[10 + 1 * style (1 + 2)]; [20 + 1 * style (2 + 5)]; [30 + 1 * style (3 + 4)]; [40 + 1 * style (4 + 6)]])])].
Proof. reflexivity. Qed.

(** C89: the loss is the average squared distance of the scores of real pairs from 1,
    plus that of the policy's pairs from -1, plus the weighted average squared length of
    the gradient at the real pairs; batches of the wrong size are refused. *)
Theorem C89_loss : forall D G disc grad S1 m1 S2 m2 weight key bi bp o1 n1 o2 n2,
  scores D disc -> each_row G grad -> each_row S1 m1 -> each_row S2 m2 ->
  dget (db_obs bi) key = Some o1 -> dget (db_next bi) key = Some n1 -> List.length o1 = List.length n1 ->
  dget (db_obs bp) key = Some o2 -> dget (db_next bp) key = Some n2 -> List.length o2 = List.length n2 ->
  discriminator_loss disc grad m1 m2 weight key bi bp =
    if andb (Nat.eqb (List.length o1) (db_size bi)) (Nat.eqb (List.length o2) (db_size bp))
    then Ok (least_squares D G weight (pairs_of S1 o1 n1) (pairs_of S2 o2 n2))
    else Err AssertionError.
Proof. exact disc_loss. Qed.
Print Assumptions C89_loss.
(** The symmetry loss is the same for the two parts of the actions. *)
Theorem C89_symmetry_loss : forall D G disc grad rights lefts weight n actions,
  scores D disc -> each_row G grad -> inside n rights -> inside n lefts -> rows_of n actions ->
  symmetry_loss disc grad (action_map rights) (action_map lefts) weight actions =
    Ok (least_squares D G weight (map (part rights) actions) (map (part lefts) actions)).
Proof. exact symmetry_loss_ok. Qed.
Print Assumptions C89_symmetry_loss.
(** It is never negative, and zero exactly when every real pair scores 1, every policy
    pair -1, and the score does not change around the real pairs. *)
Theorem C89_zero_iff_perfect : forall D G weight pos neg,
  (forall x, is_gradient D x (G x)) -> 0 < weight -> pos <> [] -> neg <> [] ->
  0 <= least_squares D G weight pos neg /\
  (least_squares D G weight pos neg = 0 <->
     (forall x, In x pos -> D x = 1 /\ flat_at D x) /\ (forall x, In x neg -> D x = -1)).
Proof. exact least_squares_zero. Qed.
Print Assumptions C89_zero_iff_perfect.
Example C89_case : is_gradient (fun _ => 1) [3; 4] [0; 0] /\ inside 4 [(0, 2)%Z; (3, 4)%Z].
Proof.
  split; [split; [reflexivity|]|].
  - intros j H. assert (nth j [0; 0] 0 = 0) as -> by (destruct j as [|[|[|]]]; reflexivity).
    apply derivable_pt_lim_const.
  - split; [discriminate|]. repeat constructor; cbn; lia.
Qed.
Example C89_case_run : discriminator_loss (map (fun x => [nth 0 x 0])) (map (fun _ => [1; 0])) (fun x => x) (fun x => x) 2 "o"
   (mkDBatch 1 [("o"%string, [[3]])] [("o"%string, [[4]])]) (mkDBatch 1 [("o"%string, [[5]])] [("o"%string, [[6]])]) = Ok (4 + 36 + 2).
Proof. cbn. f_equal. unfold adversarial_loss, mean_all, gradient_loss, np_mean. cbn. field. Qed.

(** C90: each reward grows by the weighted confusion reward of its own action's two
    sides, which lies between 0 and 2. *)
Theorem C90_total_reward : forall D disc rights lefts w group n actions rewards,
  scores D disc -> inside n rights -> inside n lefts -> part_size rights = part_size lefts ->
  actions <> [] -> rows_of n actions -> List.length rewards = List.length actions ->
  symmetry_begin_batch disc (action_map rights) (action_map lefts) w group actions (T2 (col rewards)) =
    Ok [(group, [("rewards"%string,
      map (fun i => let a := nth i actions [] in
                    [nth i rewards 0 + w * confusion_bonus (D (part rights a)) (D (part lefts a))])
          (seq 0 (List.length actions)))])].
Proof. exact symmetry_total. Qed.
Print Assumptions C90_total_reward.
Theorem C90_bounded : forall right left, 0 <= confusion_bonus right left <= 2.
Proof. exact confusion_range. Qed.
Print Assumptions C90_bounded.
(** The most is given exactly when both sides are taken for the other one. *)
Theorem C90_best_when_confused : forall right left, confusion_bonus right left = 2 <-> right <= -1 /\ 1 <= left.
Proof. exact confusion_top. Qed.
Print Assumptions C90_best_when_confused.
(** Rewards given as a flat vector are not refused: the result is a square matrix. *)
Theorem C90_flat_rewards_finding : forall D disc rights lefts w group n actions rewards,
  scores D disc -> inside n rights -> inside n lefts -> part_size rights = part_size lefts ->
  (2 <= List.length actions)%nat -> rows_of n actions -> List.length rewards = List.length actions ->
  symmetry_begin_batch disc (action_map rights) (action_map lefts) w group actions (T1 rewards) =
    Ok [(group, [("rewards"%string,
      map (fun i => map (fun j =>
             nth j rewards 0 + confusion_bonus (D (part rights (nth i actions []))) (D (part lefts (nth i actions []))) * w)
             (seq 0 (List.length actions)))
          (seq 0 (List.length actions)))])].
Proof. exact symmetry_flat. Qed.
Print Assumptions C90_flat_rewards_finding.
Example C90_case : inside 3 [(0, 1)%Z] /\ inside 3 [(2, 3)%Z] /\ part [(0, 1)%Z] [7; 8; 9] = [7] /\
  part [(2, 3)%Z] [7; 8; 9] = [9] /\ part_size [(0, 1)%Z] = part_size [(2, 3)%Z].
Proof. repeat split; try discriminate; repeat constructor; cbn; lia. Qed.
