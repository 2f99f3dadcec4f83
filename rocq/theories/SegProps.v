(** * SegProps: C39 - C42, the segment trees. *)
From Verif Require Import Py PyLemmas SegModel SegSpec SegProofs.
Open Scope Z_scope.

(** A concrete tree: four items, concatenation of lists (not commutative). *)
Definition ex_h : list (Z * list Z) := [(1, [10]); (3, [30]); (1, [11; 12]); (0, [1])].
Definition ex_sum_h : list (Z * Z) := [(1, 5); (3, 2); (0, 4); (1, 3)].

(** ** C39 *)
Theorem C39_capacity_power_of_two :
  forall (A : Type) (op : A -> A -> A) (e : A) (cap : Z),
  (exists t, seg_new cap op e = Ok t) <-> exists k, 0 <= k /\ cap = 2 ^ k.
Proof. intros A op e cap. exact (@seg_new_iff A op e cap). Qed.
Print Assumptions C39_capacity_power_of_two.

Theorem C39_array :
  forall (A : Type) (op : A -> A -> A) (e : A) (cap : Z) (t : seg A) (h : list (Z * A)),
  seg_new cap op e = Ok t -> in_range cap h ->
  (forall i, seg_get (seg_sets t h) i =
     if (0 <=? i) && (i <? cap) then Ok (last_value e h i) else Err AssertionError) /\
  (forall i v, 0 <= i < cap -> snd (seg_set (seg_sets t h) i v) = Ok tt).
Proof.
  intros A op e cap t h E R. split; [exact (@seg_array A op e cap t h E R)|].
  intros i v Hi. exact (@seg_set_ok A op e cap t h i v E R Hi).
Qed.
Print Assumptions C39_array.

Example C39_example : in_range 4 ex_h /\
  exists t, seg_new 4 (@List.app Z) [] = Ok t /\
    map (seg_get (seg_sets t ex_h)) [0; 1; 2; 3] = [Ok [1]; Ok [11; 12]; Ok []; Ok [30]].
Proof.
  split; [repeat (apply Forall_cons; [cbn; lia|]); apply Forall_nil|].
  eexists. split; reflexivity.
Qed.

(** ** C40: reduce(start, stop) combines the items start .. stop-1 in order. *)
Theorem C40_reduce :
  forall (A : Type) (op : A -> A -> A) (e : A) (cap : Z) (t : seg A) (h : list (Z * A))
         (start : Z) (stop : option Z) (limit : nat),
  associative op -> op e e = e -> seg_new cap op e = Ok t -> in_range cap h ->
  let last := match stop with None => cap | Some x => if x <? 0 then x + cap else x end in
  0 <= start < last -> last <= cap -> Z.log2 cap < Z.of_nat limit ->
  seg_reduce limit (seg_sets t h) start stop =
  Ok (fold_range op (last_value e h) start (Z.to_nat (last - start) - 1)).
Proof. intros A op e cap t h start stop limit Ha. exact (@seg_reduce_spec A op e Ha cap t h start stop limit). Qed.
Print Assumptions C40_reduce.

Example C40_example : associative (@List.app Z) /\ ([] ++ [] = @nil Z)%list /\ in_range 4 ex_h /\
  exists t, seg_new 4 (@List.app Z) [] = Ok t /\
    seg_reduce 1000 (seg_sets t ex_h) 1 None = Ok [11; 12; 30] /\
    seg_reduce 1000 (seg_sets t ex_h) 0 (Some (-1)) = Ok [1; 11; 12].
Proof.
  split; [intros x y z; apply app_assoc|]. split; [reflexivity|].
  split; [repeat (apply Forall_cons; [cbn; lia|]); apply Forall_nil|].
  eexists. split; [reflexivity|]. vm_compute. auto.
Qed.

(** Finding: reducing an empty range never terminates (RecursionError), it does
    not give the neutral element. *)
Theorem C40_empty_range_finding :
  forall (A : Type) (op : A -> A -> A) (e : A) (cap : Z) (t : seg A) (h : list (Z * A))
         (start : Z) (stop : Z) (limit : nat),
  seg_new cap op e = Ok t -> in_range cap h -> 0 <= stop <= start ->
  seg_reduce limit (seg_sets t h) start (Some stop) = Err RecursionError.
Proof. intros A. exact reduce_empty_range. Qed.
Print Assumptions C40_empty_range_finding.

(** ** C41 *)
Theorem C41_highest_index :
  forall (cap : Z) (t : seg Z) (h : list (Z * Z)) (limit : nat) (tol p : Z),
  sum_new cap = Ok t -> in_range cap h -> Z.log2 cap < Z.of_nat limit ->
  let items := last_value 0 h in
  (forall k, 0 <= k < cap -> 0 <= items k) ->
  0 <= p <= prefix_sum items cap + tol ->
  exists i, find_prefixsum_idx limit tol (seg_sets t h) p = Ok i /\ 0 <= i < cap /\
    prefix_sum items i <= p /\ forall j, i < j < cap -> p < prefix_sum items j.
Proof. exact find_highest. Qed.
Print Assumptions C41_highest_index.

(** Item [i] is chosen exactly for the p in an interval of length items[i]. *)
Theorem C41_interval :
  forall (cap : Z) (t : seg Z) (h : list (Z * Z)) (limit : nat) (tol p i : Z),
  sum_new cap = Ok t -> in_range cap h -> Z.log2 cap < Z.of_nat limit -> 0 <= tol ->
  let items := last_value 0 h in
  (forall k, 0 <= k < cap -> 0 <= items k) ->
  0 <= p < prefix_sum items cap ->
  (find_prefixsum_idx limit tol (seg_sets t h) p = Ok i <->
   0 <= i < cap /\ prefix_sum items i <= p < prefix_sum items i + items i).
Proof. exact find_interval. Qed.
Print Assumptions C41_interval.

(** Outside [0, sum + tolerance] the call is refused. *)
Theorem C41_outside_refused :
  forall (cap : Z) (t : seg Z) (h : list (Z * Z)) (limit : nat) (tol p : Z),
  sum_new cap = Ok t -> in_range cap h -> Z.log2 cap < Z.of_nat limit ->
  ~ 0 <= p <= prefix_sum (last_value 0 h) cap + tol ->
  find_prefixsum_idx limit tol (seg_sets t h) p = Err AssertionError.
Proof.
  intros cap t h limit tol p E R Hl. exact (proj2 (@find_prefixsum_spec cap t h limit tol p E R Hl)).
Qed.
Print Assumptions C41_outside_refused.

Example C41_example : in_range 4 ex_sum_h /\
  (forall k, 0 <= k < 4 -> 0 <= last_value 0 ex_sum_h k) /\
  exists t, sum_new 4 = Ok t /\
    map (find_prefixsum_idx 1000 0 (seg_sets t ex_sum_h)) [0; 3; 4; 6; 7; 8; 10] =
    [Ok 0; Ok 0; Ok 1; Ok 1; Ok 3; Ok 3; Err AssertionError].
Proof.
  split; [repeat (apply Forall_cons; [cbn; lia|]); apply Forall_nil|]. split.
  - intros k Hk. assert (k = 0 \/ k = 1 \/ k = 2 \/ k = 3) as [->|[->|[->| ->]]] by lia; vm_compute; discriminate.
  - eexists. split; [reflexivity|]. vm_compute. reflexivity.
Qed.

(** Finding: at p = sum (which the assertion admits) an item of weight 0 is chosen. *)
Theorem C41_zero_weight_finding :
  exists (t : seg Z) (h : list (Z * Z)), sum_new 4 = Ok t /\ in_range 4 h /\
    find_prefixsum_idx 1000 0 (seg_sets t h) (prefix_sum (last_value 0 h) 4) = Ok 3 /\
    last_value 0 h 3 = 0.
Proof.
  eexists _, [(0, 4); (1, 3)]. split; [reflexivity|].
  split; [repeat (apply Forall_cons; [cbn; lia|]); apply Forall_nil|]. vm_compute. auto.
Qed.
Print Assumptions C41_zero_weight_finding.

(** ** C42 *)
Theorem C42_out_of_range_partial :
  forall (A : Type) (op : A -> A -> A) (e : A) (cap : Z) (t : seg A) (h : list (Z * A)) (i : Z) (v : A),
  seg_new cap op e = Ok t -> in_range cap h -> cap <= i \/ i < - 3 * cap ->
  seg_set (seg_sets t h) i v = (seg_sets t h, Err IndexError).
Proof. intros A. exact set_outside. Qed.
Print Assumptions C42_out_of_range_partial.

(** Negative indices down to -3*cap are accepted, and silently change sums. *)
Theorem C42_negative_accepted_refuted :
  (forall (A : Type) (op : A -> A -> A) (e : A) (cap : Z) (t : seg A) (h : list (Z * A)) (i : Z) (v : A),
   seg_new cap op e = Ok t -> in_range cap h -> - 3 * cap <= i < 0 ->
   snd (seg_set (seg_sets t h) i v) = Ok tt) /\
  exists t t' : seg Z, sum_new 4 = Ok t /\ seg_set t (-1) 7 = (t', Ok tt) /\
    map (seg_get t') [0; 1; 2; 3] = [Ok 0; Ok 0; Ok 0; Ok 0] /\ seg_reduce 1000 t' 0 None = Ok 7.
Proof.
  split; [intros A; exact set_negative|]. eexists _, _.
  split; [reflexivity|]. split; [reflexivity|]. vm_compute. auto.
Qed.
Print Assumptions C42_negative_accepted_refuted.

Example C42_example : in_range 4 ex_sum_h /\ exists t, sum_new 4 = Ok t /\
  seg_set (seg_sets t ex_sum_h) 4 1 = (seg_sets t ex_sum_h, Err IndexError).
Proof.
  split; [repeat (apply Forall_cons; [cbn; lia|]); apply Forall_nil|].
  eexists. split; [reflexivity|]. vm_compute. reflexivity.
Qed.
