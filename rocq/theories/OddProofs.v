(** * OddProofs *)
From Coq Require Import Reals Lra.
From Verif Require Import Py PyLemmas SegModel SegSpec SegProofs OddModel OddSpec.
Set Implicit Arguments.
Open Scope string_scope.
Open Scope list_scope.
Open Scope Z_scope.

(** ** MinSegmentTree *)
Lemma py_min_assoc : associative py_min.
Proof.
  intros [x|] [y|] [z|]; unfold py_min, num_ltb; auto;
    repeat match goal with |- context [?a <? ?b] => destruct (Z.ltb_spec a b) end; auto; try lia; f_equal; lia.
Qed.
Lemma py_min_spec x y : num_le (py_min x y) x /\ num_le (py_min x y) y /\ (py_min x y = x \/ py_min x y = y).
Proof.
  destruct x as [x|], y as [y|]; unfold py_min, num_ltb, num_le; auto; try (repeat split; auto; lia).
  destruct (Z.ltb_spec y x); repeat split; auto; lia.
Qed.
Lemma num_le_trans x y z : num_le x y -> num_le y z -> num_le x z.
Proof. destruct x, y, z; cbn; auto; try tauto. lia. Qed.
Lemma num_le_refl x : num_le x x.
Proof. destruct x; cbn; auto. lia. Qed.
Lemma fold1_min l : forall x, let v := fold1 py_min x l in
  (forall y, In y (x :: l) -> num_le v y) /\ In v (x :: l).
Proof.
  induction l as [|y r IH]; intros x; cbn [fold1].
  - split; [|left; auto]. intros y [<-|[]]. apply num_le_refl.
  - destruct (IH y) as [L I]. destruct (py_min_spec x (fold1 py_min y r)) as (A & B & C). cbn zeta. split.
    + intros z [<-|J]; auto. eapply num_le_trans; eauto.
    + destruct C as [-> | ->]; [left|right]; auto.
Qed.
Lemma min_ok cap t h start stop limit : min_new cap = Ok t -> in_range cap h ->
  let last := match stop with None => cap | Some x => if x <? 0 then x + cap else x end in
  0 <= start < last -> last <= cap -> Z.log2 cap < Z.of_nat limit ->
  exists v, min_min limit (seg_sets t h) start stop = Ok v
  /\ (forall i, start <= i < last -> num_le v (last_value None h i))
  /\ exists i, start <= i < last /\ v = last_value None h i.
Proof.
  intros E Hr last Hs Hl Hf. unfold min_min. unfold min_new in E.
  rewrite (@seg_reduce_spec num py_min None py_min_assoc cap t h start stop limit) by (auto; reflexivity).
  fold last. eexists. split; [reflexivity|]. unfold fold_range.
  set (n := (Z.to_nat (last - start) - 1)%nat).
  destruct (@fold1_min (map (fun i => last_value None h (start + 1 + Z.of_nat i)) (seq 0 n)) (last_value None h start)) as [L I].
  split.
  - intros i Hi. apply L. destruct (Z.eq_dec i start) as [->|N]; [left; auto|]. right. apply in_map_iff.
    exists (Z.to_nat (i - start - 1)). split; [f_equal; lia|]. apply in_seq. lia.
  - destruct I as [I|I].
    + exists start. split; [lia|auto].
    + apply in_map_iff in I. destruct I as (k & Ek & Ik). apply in_seq in Ik. exists (start + 1 + Z.of_nat k). split; [lia|auto].
Qed.

(** ** truncated_normal_ *)
Lemma violates_spec mean std v : violates mean std v = false <-> within mean std v.
Proof.
  unfold violates, within. destruct (Rlt_dec v (mean - 2 * std)); [split; [discriminate|lra]|].
  destruct (Rlt_dec (mean + 2 * std) v); split; try discriminate; intros; auto; lra.
Qed.
Lemma violations_0 mean std t : violations mean std t = 0%nat <-> Forall (within mean std) t.
Proof.
  unfold violations. induction t as [|v r IH]; cbn [filter].
  - split; auto.
  - destruct (violates mean std v) eqn:E; cbn [List.length].
    + split; [discriminate|]. intros F. inversion F; subst. apply violates_spec in H1. congruence.
    + rewrite IH. apply violates_spec in E. split; intros F; [constructor; auto|inversion F; auto].
Qed.
Lemma refill_length mean std t : forall ds, List.length (refill mean std t ds) = List.length t.
Proof.
  induction t as [|v r IH]; intros ds; cbn [refill]; auto. destruct (violates mean std v); [destruct ds|]; cbn [List.length]; auto.
Qed.
Lemma refill_keeps mean std t : forall ds i v, nth_error t i = Some v -> within mean std v ->
  nth_error (refill mean std t ds) i = Some v.
Proof.
  induction t as [|x r IH]; intros ds [|i] v E W; try discriminate E; cbn [refill].
  - injection E as ->. apply violates_spec in W. rewrite W. reflexivity.
  - destruct (violates mean std x); [destruct ds|]; cbn [nth_error]; auto.
Qed.
Lemma refill_in mean std t : forall ds v, In v (refill mean std t ds) -> In v t \/ In v ds.
Proof.
  induction t as [|x r IH]; intros ds v I; cbn [refill] in I; auto. destruct (violates mean std x).
  - destruct ds as [|d ds]; auto. destruct I as [<-|I]; [right; left; auto|]. destruct (IH _ _ I); [left; right|right; right]; auto.
  - destruct I as [<-|I]; [left; left; auto|]. destruct (IH _ _ I); [left; right|right]; auto.
Qed.
Lemma refill_inside mean std t : forall ds, (violations mean std t <= List.length ds)%nat -> Forall (within mean std) ds ->
  Forall (within mean std) (refill mean std t ds).
Proof.
  unfold violations. induction t as [|x r IH]; intros ds L F; cbn [refill filter] in *; auto.
  destruct (violates mean std x) eqn:E.
  - destruct ds as [|d ds]; cbn [List.length] in L; [lia|]. inversion F; subst. constructor; auto. apply IH; auto. lia.
  - constructor; auto. apply violates_spec. auto.
Qed.
Lemma refill_violations_pos mean std t : forall ds, violations mean std t = List.length ds -> Forall (fun d => ~ within mean std d) ds ->
  violations mean std (refill mean std t ds) = violations mean std t.
Proof.
  unfold violations. induction t as [|x r IH]; intros ds L F; cbn [refill filter] in *; auto.
  destruct (violates mean std x) eqn:E.
  - destruct ds as [|d ds]; cbn [List.length] in L; [discriminate|]. inversion F; subst. cbn [filter].
    assert (V : violates mean std d = true). { destruct (violates mean std d) eqn:V; auto. apply violates_spec in V. contradiction. }
    rewrite V. cbn [List.length]. rewrite IH; auto.
  - cbn [filter]. rewrite E. apply IH; auto.
Qed.

Lemma loop_ok fuel draw mean std : forall k t t', trunc_loop fuel draw mean std k t = Ok t' ->
  List.length t' = List.length t /\ Forall (within mean std) t'
  /\ (forall i v, nth_error t i = Some v -> within mean std v -> nth_error t' i = Some v)
  /\ (forall v, In v t' -> In v t \/ exists a b, v = draw a b).
Proof.
  induction fuel as [|fuel IH]; intros k t t' E; [discriminate|]. cbn [trunc_loop] in E.
  destruct (Nat.eqb_spec (violations mean std t) 0) as [N|N].
  - injection E as <-. split; auto. split; [apply violations_0; auto|]. split; auto.
  - apply IH in E. destruct E as (L & F & K & D). rewrite refill_length in L. split; auto. split; auto. split.
    + intros i v Ei W. apply K; auto. apply refill_keeps; auto.
    + intros v I. destruct (D v I) as [J|J]; auto. apply refill_in in J. destruct J as [J|J]; auto.
      apply in_map_iff in J. destruct J as (b & <- & _). eauto.
Qed.
Lemma truncated_ok fuel draw mean std size t : truncated_normal fuel draw mean std size = Ok t ->
  List.length t = size /\ Forall (within mean std) t
  /\ (forall i, (i < size)%nat -> within mean std (draw 0%nat i) -> nth_error t i = Some (draw 0%nat i))
  /\ (forall v, In v t -> exists a b, v = draw a b).
Proof.
  unfold truncated_normal. destruct (Rlt_dec std 0); [discriminate|]. intros E. apply loop_ok in E.
  destruct E as (L & F & K & D). rewrite map_length, seq_length in L. split; auto. split; auto. split.
  - intros i Hi W. apply K; auto. rewrite nth_error_map.
    assert (N : nth_error (seq 0 size) i = Some i).
    { rewrite nth_error_nth' with (d := 0%nat) by (rewrite seq_length; auto). rewrite seq_nth; auto. }
    rewrite N. reflexivity.
  - intros v I. destruct (D v I) as [J|J]; auto. apply in_map_iff in J. destruct J as (b & <- & _). eauto.
Qed.
Lemma loop_ends draw mean std n : forall k t, Forall (within mean std) (map (draw (k + n)%nat) (seq 0 (List.length t))) ->
  exists t', forall fuel, (n + 1 < fuel)%nat -> trunc_loop fuel draw mean std k t = Ok t'.
Proof.
  induction n as [|n IH]; intros k t F.
  - destruct (Nat.eq_dec (violations mean std t) 0) as [N|N].
    + exists t. intros [|f] Hf; [lia|]. cbn [trunc_loop]. rewrite N. reflexivity.
    + exists (refill mean std t (map (draw k) (seq 0 (violations mean std t)))).
      intros [|[|f]] Hf; [lia|lia|]. cbn [trunc_loop]. apply Nat.eqb_neq in N. rewrite N.
      assert (V : violations mean std (refill mean std t (map (draw k) (seq 0 (violations mean std t)))) = 0%nat).
      { apply violations_0. apply refill_inside; [rewrite map_length, seq_length; auto|].
        rewrite Nat.add_0_r in F. rewrite Forall_forall in F |- *. intros x I. apply F. apply in_map_iff in I.
        destruct I as (j & <- & J). apply in_map. apply in_seq. apply in_seq in J.
        assert (violations mean std t <= List.length t)%nat by (unfold violations; clear; induction t; cbn; [auto|destruct violates; cbn; lia]). lia. }
      rewrite V. reflexivity.
  - destruct (Nat.eq_dec (violations mean std t) 0) as [N|N].
    + exists t. intros [|f] Hf; [lia|]. cbn [trunc_loop]. rewrite N. reflexivity.
    + destruct (IH (S k) (refill mean std t (map (draw k) (seq 0 (violations mean std t))))) as [t' H].
      { rewrite refill_length. replace (S k + n)%nat with (k + S n)%nat by lia. auto. }
      exists t'. intros [|f] Hf; [lia|]. cbn [trunc_loop]. apply Nat.eqb_neq in N. rewrite N. apply H. lia.
Qed.
Lemma truncated_ends draw mean std size k : (0 <= std)%R ->
  (forall i, (i < size)%nat -> within mean std (draw k i)) ->
  exists t, forall fuel, (k + 1 < fuel)%nat -> truncated_normal fuel draw mean std size = Ok t.
Proof.
  intros S H. unfold truncated_normal. destruct (Rlt_dec std 0); [lra|].
  destruct k as [|k].
  - exists (map (draw 0%nat) (seq 0 size)). intros [|f] Hf; [lia|]. cbn [trunc_loop].
    assert (V : violations mean std (map (draw 0%nat) (seq 0 size)) = 0%nat).
    { apply violations_0. apply Forall_forall. intros x I. apply in_map_iff in I. destruct I as (j & <- & J). apply H. apply in_seq in J. lia. }
    rewrite V. reflexivity.
  - destruct (@loop_ends draw mean std k 1%nat (map (draw 0%nat) (seq 0 size))) as [t' T].
    + apply Forall_forall. intros x I. apply in_map_iff in I. destruct I as (j & <- & J). apply H.
      apply in_seq in J. rewrite map_length, seq_length in J. lia.
    + exists t'. intros f Hf. apply T. lia.
Qed.
Lemma loop_never draw mean std : (forall a b, ~ within mean std (draw a b)) -> forall fuel k t,
  violations mean std t <> 0%nat -> trunc_loop fuel draw mean std k t = Err Diverges.
Proof.
  intros H. induction fuel as [|f IH]; intros k t N; cbn [trunc_loop]; auto.
  pose proof N as N'. apply Nat.eqb_neq in N. rewrite N. apply IH. rewrite refill_violations_pos; auto.
  - rewrite map_length, seq_length. auto.
  - apply Forall_forall. intros x I. apply in_map_iff in I. destruct I as (j & <- & J). auto.
Qed.
Lemma truncated_never draw mean std size : (0 <= std)%R -> (0 < size)%nat -> (forall a b, ~ within mean std (draw a b)) ->
  forall fuel, truncated_normal fuel draw mean std size = Err Diverges.
Proof.
  intros S N H fuel. unfold truncated_normal. destruct (Rlt_dec std 0); [lra|]. apply loop_never; auto.
  intros V. apply violations_0 in V. destruct size as [|sz]; [lia|]. inversion V; subst. eapply H; eauto.
Qed.

(** ** Initialisation *)
Lemma module_ind2 (P : module -> Prop) : (forall k sh w b cs, Forall P cs -> P (mkModule k sh w b cs)) -> forall m, P m.
Proof.
  intros H. fix IH 1. intros [k sh w b cs]. apply H. induction cs as [|c r IHr]; constructor; auto.
Qed.
Definition apply_all (f : init) : list module -> res (list module) :=
  fix all (ms : list module) : res (list module) :=
    match ms with
    | [] => Ok []
    | x :: r => rbind (apply_init f x) (fun x => rbind (all r) (fun r => Ok (x :: r)))
    end.
Lemma apply_unfold f k sh w b cs : apply_init f (mkModule k sh w b cs)
  = rbind (apply_all f cs) (fun cs => rbind (f k sh w b) (fun wb => Ok (mkModule k sh (fst wb) (snd wb) cs))).
Proof. reflexivity. Qed.
Lemma below k sh w b cs c x : In c cs -> part_of x c -> part_of x (mkModule k sh w b cs).
Proof. intros. eapply part_below; eauto. Qed.
Lemma part_inv x k sh w b cs : part_of x (mkModule k sh w b cs) -> x = mkModule k sh w b cs \/ exists c, In c cs /\ part_of x c.
Proof. intros P. inversion P; subst; eauto. Qed.
(** If the initialiser works on every module, it works on the tree. *)
Lemma apply_ok f P m : (forall k sh w b cs, part_of (mkModule k sh w b cs) m -> exists w' b', f k sh w b = Ok (w', b') /\ P k sh w b w' b') ->
  exists m', apply_init f m = Ok m' /\ everywhere P m m'.
Proof.
  induction m as [k sh w b cs IH] using module_ind2. intros H. rewrite apply_unfold.
  assert (A : exists cs', apply_all f cs = Ok cs' /\ Forall2 (everywhere P) cs cs').
  { assert (H' : forall c, In c cs -> exists c', apply_init f c = Ok c' /\ everywhere P c c').
    { intros c I. rewrite Forall_forall in IH. apply IH; auto. intros k1 s1 w1 b1 c1 Pt. apply (H k1 s1 w1 b1 c1). eapply below; eauto. }
    clear IH H. induction cs as [|c r IHr]; [exists []; split; auto; constructor|].
    destruct (H' c (or_introl eq_refl)) as (c' & E & V). destruct IHr as (r' & E' & V'). { intros; apply H'; right; auto. }
    exists (c' :: r'). split; [|constructor; auto]. cbn [apply_all]. rewrite E. cbn [rbind]. fold (apply_all f). rewrite E'. reflexivity. }
  destruct A as (cs' & E & V). rewrite E. cbn [rbind]. destruct (H k sh w b cs (part_here _)) as (w' & b' & F & Q).
  rewrite F. cbn [rbind fst snd]. eexists. split; [reflexivity|]. constructor; auto.
Qed.
(** If it fails on one, with one kind of exception, so does the tree. *)
Lemma apply_fails f e m x : (forall k sh w b cs, part_of (mkModule k sh w b cs) m -> f k sh w b = Err e \/ exists wb, f k sh w b = Ok wb) ->
  part_of x m -> (let '(mkModule k sh w b _) := x in f k sh w b = Err e) -> apply_init f m = Err e.
Proof.
  induction m as [k sh w b cs IH] using module_ind2. intros H Px Fx. rewrite apply_unfold.
  assert (A : (exists c, In c cs /\ part_of x c) \/ x = mkModule k sh w b cs).
  { inversion Px; subst; eauto. }
  assert (G : apply_all f cs = Err e \/ exists cs', apply_all f cs = Ok cs').
  { assert (H' : forall c, In c cs -> apply_init f c = Err e \/ exists c', apply_init f c = Ok c').
    { assert (Gen : forall c, (forall k sh w b cs, part_of (mkModule k sh w b cs) c -> f k sh w b = Err e \/ exists wb, f k sh w b = Ok wb) ->
        apply_init f c = Err e \/ exists c', apply_init f c = Ok c').
      { clear. intros c. induction c as [k sh w b cs IH] using module_ind2. intros H. rewrite apply_unfold.
        assert (G : apply_all f cs = Err e \/ exists cs', apply_all f cs = Ok cs').
        { assert (H' : forall c, In c cs -> apply_init f c = Err e \/ exists c', apply_init f c = Ok c').
          { intros c I. rewrite Forall_forall in IH. apply IH; auto. intros k1 s1 w1 b1 c1 Pt. apply (H k1 s1 w1 b1 c1). eapply below; eauto. }
          clear IH H. induction cs as [|c r IHr]; [right; exists []; auto|]. cbn [apply_all].
          destruct (H' c (or_introl eq_refl)) as [-> | [c' ->]]; [left; auto|]. cbn [rbind]. fold (apply_all f).
          destruct IHr as [-> | [r' ->]]; [intros; apply H'; right; auto|left; auto|right; eexists; reflexivity]. }
        destruct G as [-> | [cs' ->]]; [left; auto|]. cbn [rbind].
        destruct (H k sh w b cs (part_here _)) as [-> | [wb ->]]; [left; auto|right; eexists; reflexivity]. }
      intros c I. apply Gen. intros k1 s1 w1 b1 c1 Pt. apply (H k1 s1 w1 b1 c1). eapply below; eauto. }
    clear - H'. induction cs as [|c r IHr]; [right; exists []; auto|]. cbn [apply_all].
    destruct (H' c (or_introl eq_refl)) as [-> | [c' ->]]; [left; auto|]. cbn [rbind]. fold (apply_all f).
    destruct IHr as [-> | [r' ->]]; [intros; apply H'; right; auto|left; auto|right; eexists; reflexivity]. }
  destruct A as [(c & I & Pc)|E].
  - assert (Fc : apply_init f c = Err e).
    { rewrite Forall_forall in IH. apply IH; auto. intros k1 s1 w1 b1 c1 Pt. apply (H k1 s1 w1 b1 c1). eapply below; eauto. }
    destruct G as [-> | [cs' G]]; auto. exfalso. clear - G I Fc. revert cs' G. induction cs as [|y r IHr]; [destruct I|].
    intros cs'. cbn [apply_all]. destruct I as [->|I]; [rewrite Fc; discriminate|].
    destruct (apply_init f y) as [y'|]; [|discriminate]. cbn [rbind]. fold (apply_all f).
    destruct (apply_all f r) as [r'|]; [|discriminate]. intros _. eapply IHr; eauto.
  - subst x. destruct G as [-> | [cs' ->]]; auto. cbn [rbind]. rewrite Fx. reflexivity.
Qed.

(** What each initialiser does. *)
Definition ortho_does (gain : R) k (sh : list nat) (w b w' b' : option content) : Prop :=
  match k with KLinear | KConv2 => w' = Some (Orthogonal gain) /\ zeroed b b' | _ => w' = w /\ b' = b end.
Definition xavier_does (gain : R) k (sh : list nat) (w b w' b' : option content) : Prop :=
  match k with KLinear => w' = Some (Xavier gain) /\ zeroed b b' | _ => w' = w /\ b' = b end.
Definition normal_does k (sh : list nat) (w b w' b' : option content) : Prop :=
  match k with
  | KLinear => w' = Some (Normal (1 / 1000)) /\ zeroed b b'
  | KConv1 => w' = Some (Normal (1 / 100)) /\ zeroed b b'
  | KNorm => w' = Some (Const 1) /\ zeroed b b'
  | _ => w' = w /\ b' = b
  end.
Lemma ortho_ok gain m : (forall x, part_of x m -> well_made x) -> (forall x, part_of x m -> ~ linear_without_bias x) ->
  exists m', apply_init (ortho_init gain) m = Ok m' /\ everywhere (ortho_does gain) m m'.
Proof.
  intros H N. apply apply_ok. intros k sh w b cs Pt. pose proof (H _ Pt) as W. cbn in W. pose proof (N _ Pt) as B. cbn in B.
  destruct k; unfold ortho_init, ortho_does, zeroed; cbn [rbind]; eauto.
  - destruct w as [w|]; [|tauto]. destruct b as [b|]; [|tauto]. cbn. eauto.
  - destruct w as [w|]; [|tauto]. cbn. destruct b; eauto.
Qed.
Lemma xavier_ok gain m : (forall x, part_of x m -> well_made x) -> (forall x, part_of x m -> ~ linear_without_bias x) ->
  exists m', apply_init (xavier_init gain) m = Ok m' /\ everywhere (xavier_does gain) m m'.
Proof.
  intros H N. apply apply_ok. intros k sh w b cs Pt. pose proof (H _ Pt) as W. cbn in W. pose proof (N _ Pt) as B. cbn in B.
  destruct k; unfold xavier_init, xavier_does, zeroed; cbn [rbind]; eauto.
  destruct w as [w|]; [|tauto]. destruct b as [b|]; [|tauto]. cbn. eauto.
Qed.
Lemma normal_ok m : (forall x, part_of x m -> well_made x) ->
  exists m', apply_init normal_init m = Ok m' /\ everywhere normal_does m m'.
Proof.
  intros H. apply apply_ok. intros k sh w b cs Pt. pose proof (H _ Pt) as W. cbn in W.
  destruct k; unfold normal_init, normal_does, zeroed; cbn [rbind]; eauto.
  - destruct w as [w|]; [|tauto]. cbn. destruct b; eauto.
  - destruct w as [w|]; [|tauto]. cbn. destruct b; eauto.
  - destruct w as [w|]; [|tauto]. destruct b as [b|]; [|tauto]. cbn. eauto.
Qed.
Lemma bias_needed m x gain : (forall x, part_of x m -> well_made x) -> part_of x m -> linear_without_bias x ->
  apply_init (ortho_init gain) m = Err AttributeError /\ apply_init (xavier_init gain) m = Err AttributeError
  /\ apply_init truncated_init m = Err AttributeError.
Proof.
  intros H Px Lx. destruct x as [kx shx wx bx csx]. pose proof (H _ Px) as Wx. cbn in Wx, Lx. destruct Lx as [-> ->]. cbn in Wx.
  destruct Wx as (Wx & o & i & ->). destruct wx as [wx|]; [|tauto].
  split; [|split]; apply apply_fails with (x := mkModule KLinear [o; i] (Some wx) None csx); auto; try reflexivity; intros k sh w b cs Pt; pose proof (H _ Pt) as W; cbn in W.
  - destruct k; cbn; eauto; destruct w as [w|]; try tauto; cbn; eauto. destruct b; cbn; eauto.
  - destruct k; cbn; eauto; destruct w as [w|]; try tauto; cbn; eauto. destruct b; cbn; eauto.
  - destruct k; cbn; eauto.
    + destruct W as (Ww & o' & i' & ->). destruct w as [w|]; [|tauto]. destruct b; cbn; eauto.
    + destruct W as (Ww & Bw & m0 & i' & o' & ->). destruct w as [w|]; [|tauto]. destruct b; [|tauto]. cbn. eauto.
Qed.
(** The ensemble. *)
Definition fresh_module (members n_in n_out : nat) : module :=
  mkModule KEnsemble [members; n_in; n_out] (Some (Truncated (stddev n_in))) (Some (Const 0)) [].
Lemma layer_ok members n_in n_out : apply_init truncated_init (ensemble_layer members n_in n_out) = Ok (fresh_module members n_in n_out).
Proof. reflexivity. Qed.
Lemma apply_repeat f x x' n : apply_init f x = Ok x' -> apply_all f (repeat x n) = Ok (repeat x' n).
Proof. intros E. induction n; auto. cbn [repeat apply_all]. rewrite E. cbn [rbind]. fold (apply_all f). rewrite IHn. reflexivity. Qed.
Lemma layers_repeat x l n : ensemble_layers x = [l] -> flat_map ensemble_layers (repeat x n) = repeat l n.
Proof. intros E. induction n; auto. cbn [repeat flat_map]. rewrite E, IHn. auto. Qed.
Lemma ensemble_ok in_size out_size layers members hidden : exists m,
  ensemble_new in_size out_size layers members hidden = Ok m
  /\ ensemble_layers m = fresh_layer members in_size hidden :: repeat (fresh_layer members hidden hidden) (layers - 1)
                         ++ [fresh_layer members hidden (2 * out_size)].
Proof.
  set (relu := mkModule KOther [] None None []).
  set (sq := fun n_in => mkModule KOther [] None None [fresh_module members n_in hidden; relu]).
  exists (mkModule KOther [] None None [mkModule KOther [] None None (sq in_size :: repeat (sq hidden) (layers - 1)); fresh_module members hidden (2 * out_size)]).
  split.
  - unfold ensemble_new. rewrite apply_unfold. cbn [apply_all]. rewrite apply_unfold.
    assert (S1 : forall n, apply_init truncated_init (mkModule KOther [] None None [ensemble_layer members n hidden; mkModule KOther [] None None []]) = Ok (sq n)) by reflexivity.
    assert (A : forall n r r', apply_all truncated_init r = Ok r' ->
              apply_all truncated_init (mkModule KOther [] None None [ensemble_layer members n hidden; mkModule KOther [] None None []] :: r) = Ok (sq n :: r')).
    { intros n r r' E. cbn [apply_all]. rewrite S1. cbn [rbind]. fold (apply_all truncated_init). rewrite E. reflexivity. }
    rewrite (A in_size _ (repeat (sq hidden) (layers - 1))) by (apply apply_repeat; auto). reflexivity.
  - cbn [ensemble_layers flat_map app]. rewrite app_nil_r.
    assert (L : forall n, ensemble_layers (sq n) = [fresh_layer members n hidden]) by reflexivity.
    rewrite L. cbn [app]. f_equal. rewrite (@layers_repeat _ (fresh_layer members hidden hidden)) by apply L. reflexivity.
Qed.
Lemma std_bound n draw fuel size t : (0 < n)%nat -> truncated_normal fuel draw 0 (stddev n) size = Ok t ->
  Forall (fun v => (- (1 / sqrt (INR n)) <= v <= 1 / sqrt (INR n))%R) t.
Proof.
  intros N E. apply truncated_ok in E. destruct E as (_ & F & _). eapply Forall_impl; [|exact F]. intros v W. unfold within, stddev in W.
  assert (Q : (0 < sqrt (INR n))%R) by (apply sqrt_lt_R0; apply lt_0_INR; auto).
  assert (X : (2 * (1 / (2 * sqrt (INR n))) = 1 / sqrt (INR n))%R) by (field; lra). lra.
Qed.
Lemma linear_fan_out members n_in n_out : n_in <> n_out ->
  exists w', truncated_init KLinear [n_out; n_in] (Some Made) (Some Made) = Ok (Some (Truncated w'), Some (Const 0))
  /\ w' = (1 / (2 * sqrt (INR n_out)))%R
  /\ truncated_init KEnsemble [members; n_in; n_out] (Some Made) (Some Made) = Ok (Some (Truncated (1 / (2 * sqrt (INR n_in)))), Some (Const 0))
  /\ ((0 < n_in)%nat -> (0 < n_out)%nat -> w' <> (1 / (2 * sqrt (INR n_in)))%R).
Proof.
  intros N. exists (stddev n_out). split; [reflexivity|]. split; [reflexivity|]. split; [reflexivity|].
  intros A B E. unfold stddev in E. apply N.
  assert (QA : (0 < sqrt (INR n_in))%R) by (apply sqrt_lt_R0; apply lt_0_INR; auto).
  assert (QB : (0 < sqrt (INR n_out))%R) by (apply sqrt_lt_R0; apply lt_0_INR; auto).
  assert (S : sqrt (INR n_in) = sqrt (INR n_out)).
  { assert (E' : (/ (2 * sqrt (INR n_out)) = / (2 * sqrt (INR n_in)))%R) by (unfold Rdiv in E; lra).
    apply (f_equal Rinv) in E'. rewrite !Rinv_inv in E'. lra. }
  apply sqrt_inj in S; [|apply pos_INR|apply pos_INR]. apply INR_eq in S. auto.
Qed.

(** ** Tag columns *)
Lemma tag_get_ok (s : tags) id : tag_get s id = match dget s id with None => Err KeyError | Some v => Ok (TProxy v) end.
Proof. reflexivity. Qed.
Lemma tag_rename_ok ids : forall s : tags, NoDup ids -> (forall i, In i ids -> 0 <= i) -> (forall i, In i ids -> dget s i <> None) ->
  NoDup (dkeys s) ->
  exists s', tag_rename s ids = Ok s' /\ NoDup (dkeys s')
  /\ (forall i, In i ids -> exists v, dget s i = Some v /\ dget s' (- i - 1) = Some (TProxy v))
  /\ (forall i, In i ids -> dget s' i = None)
  /\ (forall i, ~ In i ids -> ~ In (- i - 1) ids -> dget s' i = dget s i).
Proof.
  induction ids as [|i r IH]; intros s N P H K.
  - exists s. split; auto. repeat split; auto; intros i [].
  - inversion N; subst. cbn [tag_rename]. rewrite tag_get_ok. destruct (dget s i) as [v|] eqn:Ei; [|destruct (H i); [left|]; auto].
    cbn [rbind]. assert (Pi : 0 <= i) by (apply P; left; auto). replace (- Z.abs i - 1) with (- i - 1) by lia.
    set (s1 := ddel (dset s (- i - 1) (TProxy v)) i).
    assert (G : forall j, dget s1 j = if j =? i then None else if j =? - i - 1 then Some (TProxy v) else dget s j).
    { intros j. unfold s1. destruct (Z.eqb_spec j i) as [->|Nj].
      - apply dget_ddel_eq. unfold dkeys. change (dset s (- i - 1) (TProxy v)) with (dupdate s [(- i - 1, TProxy v)]). apply NoDup_dupdate. auto.
      - rewrite dget_ddel_neq by auto. destruct (Z.eqb_spec j (- i - 1)) as [->|Nj2]; [apply dget_dset_eq|apply dget_dset_neq; auto]. }
    destruct (IH s1) as (s' & E & K' & A & B & C).
    + auto.
    + intros j J. apply P. right. auto.
    + intros j J. rewrite G. destruct (Z.eqb_spec j i) as [->|Nj]; [contradiction|].
      destruct (Z.eqb_spec j (- i - 1)) as [->|Nj2]; [discriminate|]. apply H. right. auto.
    + unfold s1. apply NoDup_ddel. change (dset s (- i - 1) (TProxy v)) with (dupdate s [(- i - 1, TProxy v)]). apply NoDup_dupdate. auto.
    + assert (Nr : ~ In (- i - 1) r) by (intros J; assert (0 <= - i - 1) by (apply P; right; auto); lia).
      exists s'. split; auto. split; auto. split; [|split].
      * intros j [<-|J].
        { exists v. split; auto. rewrite C; auto; [|replace (- (- i - 1) - 1) with i by lia; auto].
          rewrite G. destruct (Z.eqb_spec (- i - 1) i); [lia|]. rewrite Z.eqb_refl. auto. }
        { destruct (A j J) as (u & U1 & U2). rewrite G in U1.
          destruct (Z.eqb_spec j i) as [->|Nj]; [contradiction|]. destruct (Z.eqb_spec j (- i - 1)) as [->|Nj2]; [contradiction|]. eauto. }
      * intros j [<-|J]; [|auto]. rewrite C by auto. rewrite G, Z.eqb_refl. auto.
      * intros j Nj Nj2. rewrite C; [|intros J; apply Nj; right; auto|intros J; apply Nj2; right; auto]. rewrite G.
        destruct (Z.eqb_spec j i) as [->|]; [destruct Nj; left; auto|].
        destruct (Z.eqb_spec j (- i - 1)) as [->|]; auto. destruct Nj2. left. lia.
Qed.

Lemma filter_get (s : tags) i : 0 <= i -> dget (filter (fun kv => 0 <=? fst kv) s) i = dget s i.
Proof.
  intros P. induction s as [|[k v] r IH]; cbn [filter dget fst]; auto. destruct (Z.leb_spec 0 k) as [L|L]; cbn [dget].
  - rewrite IH. auto.
  - destruct (keqb_spec i k) as [->|N]; auto. lia.
Qed.
Lemma filter_keys (s : tags) : NoDup (dkeys s) -> NoDup (dkeys (filter (fun kv => 0 <=? fst kv) s)).
Proof.
  unfold dkeys. induction s as [|[k v] r IH]; cbn [filter map fst]; intros N; auto. inversion N; subst. destruct (0 <=? k); auto. cbn [map]. constructor; auto.
  intros I. apply H1. apply in_map_iff in I. destruct I as (x & E & J). apply filter_In in J. apply in_map_iff. exists x. tauto.
Qed.
Lemma post_import_ok (s : tags) : NoDup (dkeys s) ->
  exists s', tag_post_import s = Ok s' /\ NoDup (dkeys s')
  /\ (forall i, 0 <= i -> dget s i <> None -> exists v, dget s i = Some v /\ dget s' (- i - 1) = Some (TProxy v))
  /\ (forall i, 0 <= i -> dget s' i = None)
  /\ (forall i, 0 <= i -> dget s i = None -> dget s' (- i - 1) = None).
Proof.
  intros N. unfold tag_post_import. set (s0 := filter (fun kv => 0 <=? fst kv) s).
  assert (N0 : NoDup (dkeys s0)) by (apply filter_keys; auto).
  assert (P0 : forall i, In i (dkeys s0) -> 0 <= i).
  { intros i I. unfold dkeys in I. apply in_map_iff in I. destruct I as ([k v] & <- & J). apply filter_In in J. cbn in J. destruct J as [_ J]. apply Z.leb_le in J. auto. }
  assert (M0 : forall i, In i (dkeys s0) <-> dget s0 i <> None).
  { intros i. split; intros H; [|destruct (dget s0 i) as [v|] eqn:E; [apply dget_In in E; unfold dkeys; change i with (fst (i, v)); apply in_map; auto|congruence]].
    intros E. apply dget_None in E. contradiction. }
  destruct (@tag_rename_ok (dkeys s0) s0 N0 P0) as (s' & E & N' & A & B & C); auto. { intros i I. apply M0. auto. }
  exists s'. split; auto. split; auto. split; [|split].
  - intros i Pi G. assert (I : In i (dkeys s0)). { apply M0. unfold s0. rewrite filter_get; auto. }
    destruct (A i I) as (v & V & W). exists v. split; auto. unfold s0 in V. rewrite filter_get in V; auto.
  - intros i Pi. destruct (dget s0 i) as [v|] eqn:G; [apply B; apply M0; congruence|].
    rewrite C; auto; intros J; [apply M0 in J; congruence|]. apply P0 in J. lia.
  - intros i Pi G. assert (G0 : dget s0 i = None) by (unfold s0; rewrite filter_get; auto).
    rewrite C.
    + destruct (dget s0 (- i - 1)) as [v|] eqn:D; auto. assert (J : 0 <= - i - 1) by (apply P0; apply M0; congruence). lia.
    + intros J. apply P0 in J. lia.
    + intros J. replace (- (- i - 1) - 1) with i in J by lia. apply M0 in J. congruence.
Qed.
Lemma tag_read_ok (s s' : tags) i : NoDup (dkeys s) -> 0 <= i -> tag_post_import s = Ok s' ->
  tag_read s' (- i - 1) = tag_read s i.
Proof.
  intros N P E. destruct (@post_import_ok s N) as (s2 & E2 & _ & A & _ & C). rewrite E in E2. injection E2 as <-.
  unfold tag_read, tag_get. destruct (dget s i) as [v|] eqn:G.
  - destruct (A i P) as (u & U & W); [congruence|]. rewrite W. rewrite G in U. injection U as <-. reflexivity.
  - rewrite (C i P G). reflexivity.
Qed.
Lemma serialize_err_fold (l : tags) e : fold_left (fun acc kv =>
    rbind acc (fun '(ranges, merged) => rbind (tag_rows (snd kv)) (fun rows => Ok (ranges ++ [(fst kv, zlen merged, zlen rows)], merged ++ rows)))) l (Err e)
  = (Err e : res (list (Z * Z * Z) * list (list Z))).
Proof. induction l; auto. Qed.
Lemma serialize_proxy (s : tags) id v : In (id, TProxy v) s -> tag_serialize s = Err TypeError.
Proof.
  unfold tag_serialize. intros I.
  assert (K : forall r m, fold_left (fun acc kv =>
    rbind acc (fun '(ranges, merged) => rbind (tag_rows (snd kv)) (fun rows => Ok (ranges ++ [(fst kv, zlen merged, zlen rows)], merged ++ rows)))) s (Ok (r, m)) = Err TypeError).
  { induction s as [|[k u] rest IH]; [destruct I|]. intros r m. cbn [fold_left rbind fst snd]. destruct I as [I|I].
    - injection I as -> ->. cbn [tag_rows rbind]. apply serialize_err_fold.
    - destruct u; cbn [tag_rows rbind]; [apply IH; auto|apply serialize_err_fold]. }
  rewrite K. reflexivity.
Qed.
Lemma import_then_store (s s' : tags) i : NoDup (dkeys s) -> 0 <= i -> dget s i <> None -> tag_post_import s = Ok s' ->
  tag_serialize s' = Err TypeError.
Proof.
  intros N P G E. destruct (@post_import_ok s N) as (s2 & E2 & _ & A & _). rewrite E in E2. injection E2 as <-.
  destruct (A i P G) as (v & V & W). apply dget_In in W. eapply serialize_proxy. exact W.
Qed.
Lemma tag_read_value (s s' : tags) i r rows : NoDup (dkeys s) -> 0 <= i -> tag_post_import s = Ok s' ->
  dget s i = Some (TArr (r :: rows)) -> tag_read s i = Ok r /\ tag_read s' (- i - 1) = Ok r.
Proof.
  intros N P E G. rewrite (@tag_read_ok s s' i N P E). unfold tag_read, tag_get. rewrite G. cbn. auto.
Qed.
