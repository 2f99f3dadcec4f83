(** * HlcProps: C138, for critics that predict a histogram.  Read HlcSpec.v first. *)
From Coq Require Import Reals Lra Lia.
From Verif Require Import Py MemModel MemSpec ProxyModel ProxySpec NumModel NumSpec E2ESpec
  AlgoModel AlgoSpec AlgoFind CriticSpec ActorSpec HlcModel HlcSpec HlcProofs.
Open Scope string_scope.
Open Scope list_scope.
Open Scope R_scope.

(** Whatever agents did, and whichever windows the memory draws: the loss of a batch is the
    average surprise, of the chances the network gives to the bins for what an agent saw and
    did, at the bell curve around the return that agent got from there. *)
Theorem C138_hlgauss : forall (S : Type) (HS : Scalar S) (num : S -> R), num s_zero = 0 -> num s_one = 1 ->
  forall (erf : R -> R) (ratio lo hi : R) (bins : nat)
         (pc : pconf) (cols : list (MemModel.column S)) (lenkey : string) (maxlen : Z) (smp : sampler) (ej : ejector)
         (sch : schema) (h : list (pop S)) (p : proxy S) (count L : nat) (draws : list draw) (out : dict string (array S))
         (gamma scale : R) (masking : bool) (reward : MemModel.column S) (nexts : list (MemModel.column S * MemModel.column S)) (mask : MemModel.column S)
         (obs : list (MemModel.column S)) (action : MemModel.column S)
         (policy : nat -> list (row (S:=S)) -> list R * R) (logit_net : list R -> list (row (S:=S)) -> list R)
         (q1t q2t : list R -> list (row (S:=S)) -> R) (ln_alpha : R),
  saturating erf -> lo < hi -> (0 < bins)%nat -> 0 < ratio -> (forall a o, List.length (logit_net a o) = bins) ->
  config_ok cols lenkey -> fresh_sampler smp -> fresh_ejector ej ->
  schema_ok (pc_terminal pc) sch -> layout cols lenkey (pc_terminal pc) sch ->
  batches_ok h -> agents_ok pc cols lenkey sch L h -> (1 <= L)%nat -> (1 <= count)%nat ->
  prun pc (px_new (t_create cols lenkey maxlen smp ej)) h = (p, Ok tt) ->
  snd (t_sample (px_table p) count L draws) = Ok out ->
  In reward cols -> is_base reward -> c_name reward = "rewards" ->
  Forall (fun q => In (fst q) cols /\ (c_kind (fst q) = KVirt (c_name (snd q)) MNextLast
                                       \/ c_kind (fst q) = KVirt (c_name (snd q)) MNext /\ L = 1%nat)
                   /\ In (snd q) cols) nexts ->
  In mask cols -> (exists target, c_kind mask = KVirt target MMask) ->
  Forall (fun c => In c cols /\ is_base c /\ In (c_name c) (sc_obs sch)) obs ->
  In action cols -> is_base action -> In (c_name action) (sc_resp sch) ->
  exists from, origin h count L from /\
    let answer j t := logit_net (did num action (fst (from j)) (snd (from j) + t)) (seen_at obs (fst (from j)) (snd (from j) + t)) in
    let wanted j t := experienced_target num gamma scale L masking reward (map snd nexts)
                        (soft_value policy q1t q2t (exp ln_alpha)) j (fst (from j)) (snd (from j)) t in
    hl_critic erf ratio lo hi bins gamma scale L masking policy logit_net q1t q2t ln_alpha
      (observations out (map (@c_name S) obs) (count * L)) (observations out (map (fun q => c_name (fst q)) nexts) count)
      (map (map num) (dget_default out (c_name action) []))
      (numbers num out (c_name reward)) (numbers num out (c_name mask)) =
    Ok (* what is logged *) (Some (average count L (fun _ j t => valued lo hi bins (answer j t))),
        (* the loss *) Some (average count L (fun _ j t =>
          surprise bins (share erf ratio lo hi bins (within lo hi (wanted j t))) (chance bins (answer j t))))).
Proof. exact @hl_critic_ok. Qed.
Print Assumptions C138_hlgauss.

(** Two bins between 0 and 4: a return of 9 counts as 4, that is in the second bin only; equal
    logits give each bin the same chance, and stand for the middle of the range. *)
Example C138_hlgauss_case :
  saturating (fun x => Rmax (-1) (Rmin 1 x)) /\ within 0 4 9 = 4 /\ edge 0 4 2 1 = 2
  /\ share (fun x => Rmax (-1) (Rmin 1 x)) (1 / 8) 0 4 2 (within 0 4 9) 0 = 0
  /\ share (fun x => Rmax (-1) (Rmin 1 x)) (1 / 8) 0 4 2 (within 0 4 9) 1 = 1
  /\ chance 2 [0; 0] 1 = 1 / 2 /\ valued 0 4 2 [0; 0] = 2
  /\ surprise 2 (fun i => INR i) (fun _ => 1 / 2) = ln 2.
Proof.
  assert (S0 : 0 < sqrt 2) by (apply sqrt_lt_R0; lra).
  assert (S2 : sqrt 2 < 2) by (rewrite <- (sqrt_square 2) at 2 by lra; apply sqrt_lt_1; lra).
  assert (W : within 0 4 9 = 4).
  { unfold within. destruct (Rle_dec 9 0); [lra|]. destruct (Rle_dec 4 9); lra. }
  assert (D : forall x, 2 <= x -> Rmax (-1) (Rmin 1 (- (x) / (sqrt 2 * (1 / 8 * ((4 - 0) / INR 2))))) = -1).
  { intros x Hx. cbn [INR].
    assert (- x / (sqrt 2 * (1 / 8 * ((4 - 0) / (1 + 1)))) <= -1).
    { unfold Rdiv. apply Rmult_le_reg_r with (sqrt 2 * (1 / 8 * ((4 - 0) / (1 + 1)))); [lra|].
      rewrite Rmult_assoc, Rinv_l by lra. lra. }
    unfold Rmax, Rmin. destruct (Rle_dec 1 _); [lra|]. destruct (Rle_dec (-1) _); lra. }
  assert (Z0 : Rmax (-1) (Rmin 1 0) = 0).
  { unfold Rmax, Rmin. destruct (Rle_dec 1 0); [lra|]. destruct (Rle_dec (-1) 0); lra. }
  assert (E0 : edge 0 4 2 0 = 0) by (unfold edge; cbn; lra).
  assert (E1 : edge 0 4 2 1 = 2) by (unfold edge; cbn; lra).
  assert (E2 : edge 0 4 2 2 = 4) by (unfold edge; cbn; lra).
  split; [exact (proj1 clip_saturating)|]. split; [exact W|]. split; [exact E1|].
  rewrite W. unfold share. rewrite E0, E1, E2.
  replace (2 - 4) with (- (2)) by lra. replace (0 - 4) with (- (4)) by lra. rewrite !D by lra.
  replace (4 - 4) with 0 by lra.
  assert (Z1 : Rmax (-1) (Rmin 1 (0 / (sqrt 2 * (1 / 8 * ((4 - 0) / INR 2))))) = 0).
  { unfold Rdiv at 1. rewrite Rmult_0_l. exact Z0. }
  rewrite ?Z1. split; [field|]. split; [field|]. split; [|split].
  - unfold chance. cbn. rewrite exp_0. lra.
  - unfold valued. cbn [seq map]. rewrite E0, E1, E2. unfold chance. cbn. rewrite exp_0. lra.
  - unfold surprise. cbn. replace (1 / 2) with (/ 2) by lra. rewrite ln_Rinv by lra. lra.
Qed.
