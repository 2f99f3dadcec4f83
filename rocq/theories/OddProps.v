(** * OddProps: the minimum tree (C128), truncated normal numbers (C129), initialisation (C130),
    tag columns after a legacy import (C131) *)
From Coq Require Import Reals Lra.
From Verif Require Import Py SegModel SegSpec OddModel OddSpec OddProofs.
Open Scope string_scope.
Open Scope list_scope.
Open Scope Z_scope.

(** ** C128 *)
Theorem C128_minimum : forall cap t h start stop limit, min_new cap = Ok t -> in_range cap h ->
  let last := match stop with None => cap | Some x => if x <? 0 then x + cap else x end in
  0 <= start < last -> last <= cap -> Z.log2 cap < Z.of_nat limit ->
  exists v, min_min limit (seg_sets t h) start stop = Ok v
  /\ (forall i, start <= i < last -> num_le v (last_value None h i))
  /\ exists i, start <= i < last /\ v = last_value None h i.
Proof. exact min_ok. Qed.
Print Assumptions C128_minimum.
(** Finding: the docstring promises min(arr[start], ..., arr[end]). *)
Theorem C128_documented_end_finding : exists t h, min_new 4 = Ok t /\ in_range 4 h /\
  last_value None h 2 = Some 1 /\ min_min 10 (seg_sets t h) 0 (Some 2) = Ok (Some 5).
Proof.
  eexists. exists [(0, Some 5); (1, Some 7); (2, Some 1)]. split; [reflexivity|].
  split; [repeat (apply Forall_cons; [cbn; lia|]); apply Forall_nil|]. vm_compute. auto.
Qed.
Print Assumptions C128_documented_end_finding.
Example C128_case : exists t, min_new 4 = Ok t /\ in_range 4 [(0, Some 5); (1, Some 7); (2, Some 1); (0, Some 9)]
  /\ min_min 10 (seg_sets t [(0, Some 5); (1, Some 7); (2, Some 1); (0, Some 9)]) 0 (Some 2) = Ok (Some 7)
  /\ min_min 10 (seg_sets t [(0, Some 5); (1, Some 7); (2, Some 1); (0, Some 9)]) 3 None = Ok None.
Proof. eexists. split; [reflexivity|]. split; [repeat (apply Forall_cons; [cbn; lia|]); apply Forall_nil|]. vm_compute. auto. Qed.

(** ** C129 *)
(** A finished call: every number is within two standard deviations; the numbers of the first
    round that were are kept; every number was drawn. *)
Theorem C129_within : forall fuel draw mean std size t, truncated_normal fuel draw mean std size = Ok t ->
  List.length t = size /\ Forall (within mean std) t
  /\ (forall i, (i < size)%nat -> within mean std (draw 0%nat i) -> nth_error t i = Some (draw 0%nat i))
  /\ (forall v, In v t -> exists a b, v = draw a b).
Proof. exact truncated_ok. Qed.
Print Assumptions C129_within.
(** It finishes at the latest with the first round whose numbers are all within bounds... *)
Theorem C129_ends : forall draw mean std size k, (0 <= std)%R ->
  (forall i, (i < size)%nat -> within mean std (draw k i)) ->
  exists t, forall fuel, (k + 1 < fuel)%nat -> truncated_normal fuel draw mean std size = Ok t.
Proof. exact truncated_ends. Qed.
Print Assumptions C129_ends.
(** ... and never does if none is. *)
Theorem C129_never : forall draw mean std size, (0 <= std)%R -> (0 < size)%nat -> (forall a b, ~ within mean std (draw a b)) ->
  forall fuel, truncated_normal fuel draw mean std size = Err Diverges.
Proof. exact truncated_never. Qed.
Print Assumptions C129_never.
(** Three numbers; the second is drawn again. *)
Definition ex_draw (k i : nat) : R := match k, i with 0%nat, 1%nat => 5 | 0%nat, _ => 1 | _, _ => (-1) end%R.
Example C129_case : (0 <= 1)%R /\ (forall i, (i < 3)%nat -> within 0 1 (ex_draw 1 i)) /\ ~ within 0 1 (ex_draw 0 1)
  /\ within 0 1 (ex_draw 0 0) /\ exists t, truncated_normal 3 ex_draw 0 1 3 = Ok t /\ nth_error t 0 = Some 1%R.
Proof.
  assert (H : forall i, (i < 3)%nat -> within 0 1 (ex_draw 1 i)). { intros i _. unfold within, ex_draw. lra. }
  split; [lra|]. split; [exact H|]. split; [unfold within, ex_draw; lra|]. split; [unfold within, ex_draw; lra|].
  destruct (@C129_ends ex_draw 0 1 3 1) as [t T]; [lra|exact H|]. exists t. specialize (T 3%nat ltac:(lia)). split; [exact T|].
  apply C129_within in T. destruct T as (_ & _ & K & _). apply (K 0%nat); [lia|]. unfold within, ex_draw. lra.
Qed.

(** ** C130 *)
(** Each initialiser on a tree of modules: the layers it is for get new weights and zero biases,
    wherever they are in the tree, and nothing else changes. *)
Theorem C130_orthogonal_partial : forall gain m,
  (forall x, part_of x m -> well_made x) -> (forall x, part_of x m -> ~ linear_without_bias x) ->
  exists m', apply_init (ortho_init gain) m = Ok m' /\
  everywhere (fun k _ w b w' b' =>
    match k with KLinear | KConv2 => w' = Some (Orthogonal gain) /\ zeroed b b' | _ => w' = w /\ b' = b end) m m'.
Proof. exact ortho_ok. Qed.
Print Assumptions C130_orthogonal_partial.
Theorem C130_xavier_partial : forall gain m,
  (forall x, part_of x m -> well_made x) -> (forall x, part_of x m -> ~ linear_without_bias x) ->
  exists m', apply_init (xavier_init gain) m = Ok m' /\
  everywhere (fun k _ w b w' b' =>
    match k with KLinear => w' = Some (Xavier gain) /\ zeroed b b' | _ => w' = w /\ b' = b end) m m'.
Proof. exact xavier_ok. Qed.
Print Assumptions C130_xavier_partial.
Theorem C130_normal : forall m, (forall x, part_of x m -> well_made x) ->
  exists m', apply_init normal_init m = Ok m' /\
  everywhere (fun k _ w b w' b' =>
    match k with
    | KLinear => w' = Some (Normal (1 / 1000)) /\ zeroed b b'
    | KConv1 => w' = Some (Normal (1 / 100)) /\ zeroed b b'
    | KNorm => w' = Some (Const 1) /\ zeroed b b'
    | _ => w' = w /\ b' = b
    end) m m'.
Proof. exact normal_ok. Qed.
Print Assumptions C130_normal.
(** One linear layer without a bias anywhere: three of the initialisers fail. *)
Theorem C130_no_bias_refuted : forall m x gain, (forall x, part_of x m -> well_made x) -> part_of x m -> linear_without_bias x ->
  apply_init (ortho_init gain) m = Err AttributeError /\ apply_init (xavier_init gain) m = Err AttributeError
  /\ apply_init truncated_init m = Err AttributeError.
Proof. exact bias_needed. Qed.
Print Assumptions C130_no_bias_refuted.
(** A new ensemble has the layers asked for, with zero biases and weights that are truncated
    normal numbers for the number of inputs of their layer... *)
Theorem C130_ensemble : forall in_size out_size layers members hidden, exists m,
  ensemble_new in_size out_size layers members hidden = Ok m
  /\ ensemble_layers m = fresh_layer members in_size hidden :: repeat (fresh_layer members hidden hidden) (layers - 1)
                         ++ [fresh_layer members hidden (2 * out_size)].
Proof. exact ensemble_ok. Qed.
Print Assumptions C130_ensemble.
(** ... that is, at most one over the square root of it. *)
Theorem C130_ensemble_bound : forall n draw fuel size t, (0 < n)%nat -> truncated_normal fuel draw 0 (stddev n) size = Ok t ->
  Forall (fun v => (- (1 / sqrt (INR n)) <= v <= 1 / sqrt (INR n))%R) t.
Proof. exact std_bound. Qed.
Print Assumptions C130_ensemble_bound.
(** For a plain linear layer it is the number of outputs instead. *)
Theorem C130_linear_inputs_refuted : forall members n_in n_out, n_in <> n_out ->
  exists w', truncated_init KLinear [n_out; n_in] (Some Made) (Some Made) = Ok (Some (Truncated w'), Some (Const 0))
  /\ w' = (1 / (2 * sqrt (INR n_out)))%R
  /\ truncated_init KEnsemble [members; n_in; n_out] (Some Made) (Some Made) = Ok (Some (Truncated (1 / (2 * sqrt (INR n_in)))), Some (Const 0))
  /\ ((0 < n_in)%nat -> (0 < n_out)%nat -> w' <> (1 / (2 * sqrt (INR n_in)))%R).
Proof. exact linear_fan_out. Qed.
Print Assumptions C130_linear_inputs_refuted.
Definition ex_net (bias : option content) : module :=
  mkModule KOther [] None None
    [mkModule KOther [] None None [mkModule KLinear [3%nat; 2%nat] (Some Made) bias []; mkModule KOther [] None None []];
     mkModule KConv2 [4%nat; 3%nat; 2%nat; 2%nat] (Some Made) None []].
Example C130_case : (forall b x, part_of x (ex_net b) -> well_made x)
  /\ (forall x, part_of x (ex_net (Some Made)) -> ~ linear_without_bias x)
  /\ exists x, part_of x (ex_net None) /\ linear_without_bias x.
Proof.
  assert (K : forall b x, part_of x (ex_net b) -> well_made x /\ (b <> None -> ~ linear_without_bias x)).
  { intros b x P. apply part_inv in P.
    destruct P as [->|(y & [<-|[<-|[]]] & P)]; [split; [exact I|intros _ [E _]; discriminate E]| |].
    - apply part_inv in P. destruct P as [->|(y & [<-|[<-|[]]] & P)]; [split; [exact I|intros _ [E _]; discriminate E]| |].
      + apply part_inv in P. destruct P as [->|(y & [] & P)]. split; [split; [discriminate|eauto]|]. intros N [_ E]. contradiction.
      + apply part_inv in P. destruct P as [->|(y & [] & P)]. split; [exact I|intros _ [E _]; discriminate E].
    - apply part_inv in P. destruct P as [->|(y & [] & P)]. split; [discriminate|intros _ [E _]; discriminate E]. }
  split; [intros b x P; apply (K b x P)|]. split; [intros x P; apply (K _ x P); discriminate|].
  exists (mkModule KLinear [3%nat; 2%nat] (Some Made) None []). split; [|split; reflexivity]. eapply part_below; [left; reflexivity|]. eapply part_below; [left; reflexivity|]. apply part_here.
Qed.

(** ** C131 *)
(** After a legacy import each tag is found under the new identity. *)
Theorem C131_read_partial : forall s s' id, NoDup (dkeys s) -> 0 <= id -> tag_post_import s = Ok s' ->
  tag_read s' (- id - 1) = tag_read s id.
Proof. exact tag_read_ok. Qed.
Print Assumptions C131_read_partial.
Theorem C131_value_partial : forall s s' id r rows, NoDup (dkeys s) -> 0 <= id -> tag_post_import s = Ok s' ->
  dget s id = Some (TArr (r :: rows)) -> tag_read s id = Ok r /\ tag_read s' (- id - 1) = Ok r.
Proof. exact tag_read_value. Qed.
Print Assumptions C131_value_partial.
Theorem C131_import_succeeds : forall s, NoDup (dkeys s) ->
  exists s', tag_post_import s = Ok s' /\ NoDup (dkeys s')
  /\ (forall i, 0 <= i -> dget s i <> None -> exists v, dget s i = Some v /\ dget s' (- i - 1) = Some (TProxy v))
  /\ (forall i, 0 <= i -> dget s' i = None)
  /\ (forall i, 0 <= i -> dget s i = None -> dget s' (- i - 1) = None).
Proof. exact post_import_ok. Qed.
Print Assumptions C131_import_succeeds.
(** But if anything was imported, the memory cannot be stored any more. *)
Theorem C131_store_refuted : forall s s' id, NoDup (dkeys s) -> 0 <= id -> dget s id <> None -> tag_post_import s = Ok s' ->
  tag_serialize s' = Err TypeError.
Proof. exact import_then_store. Qed.
Print Assumptions C131_store_refuted.
Definition ex_tags : tags := [(0, TArr [[7]]); (-3, TArr [[8]]); (4, TArr [[9]])].
Example C131_case : NoDup (dkeys ex_tags) /\ exists s', tag_post_import ex_tags = Ok s' /\ tag_read s' (-5) = Ok [9]
  /\ tag_serialize ex_tags = Ok ([(0, 0, 1); (-3, 1, 1); (4, 2, 1)], [[7]; [8]; [9]]) /\ tag_serialize s' = Err TypeError.
Proof.
  split; [repeat (constructor; [cbn; intuition discriminate|]); constructor|]. eexists. split; [vm_compute; reflexivity|]. vm_compute. auto.
Qed.
