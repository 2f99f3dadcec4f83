(** * LossProofs: backward passes *)
From Coq Require Import Reals Lra Lia.
From Verif Require Import Py PyLemmas NumModel NumProofs SchedModel LossModel LossSpec.
Open Scope list_scope.
Open Scope R_scope.
Set Implicit Arguments.
Unset Strict Implicit.

Lemma mapi_nth {A B} (f : nat -> A -> B) l : forall i j, nth_error (mapi f i l) j = option_map (f (i + j)%nat) (nth_error l j).
Proof.
  induction l as [|x l IH]; intros i [|j]; cbn; auto.
  - rewrite Nat.add_0_r. auto.
  - rewrite IH. replace (S i + j)%nat with (i + S j)%nat by lia. auto.
Qed.
Lemma mapi_length {A B} (f : nat -> A -> B) l : forall i, List.length (mapi f i l) = List.length l.
Proof. induction l; intros i; cbn; auto. Qed.
Lemma set_at_length {A} (l : list A) : forall n x, List.length (set_at n x l) = List.length l.
Proof. induction l; intros [|n] x; cbn; auto. Qed.
Lemma set_at_nth {A} (l : list A) : forall n x j, (n < List.length l)%nat ->
  nth_error (set_at n x l) j = if Nat.eqb j n then Some x else nth_error l j.
Proof.
  induction l as [|y l IH]; intros [|n] x [|j] H; cbn in *; try lia; auto. rewrite IH by lia. auto.
Qed.
Lemma set_at_nth_d {A} (l : list A) n x j d : (n < List.length l)%nat ->
  nth j (set_at n x l) d = if Nat.eqb j n then x else nth j l d.
Proof.
  intros H. destruct (Nat.eqb_spec j n) as [->|NE].
  - erewrite nth_error_nth; [|rewrite set_at_nth by auto; rewrite Nat.eqb_refl; reflexivity]. auto.
  - revert n j H NE. induction l as [|y l IH]; intros [|n] [|j] H NE; cbn in *; try lia; auto. apply IH; lia.
Qed.
Lemma write_length ps : forall new vals, List.length (write ps new vals) = List.length vals.
Proof. induction ps; intros [|x new] vals; cbn; auto. rewrite IHps, set_at_length. auto. Qed.
Lemma write_other ps : forall new vals i d, Forall (fun p => (p < List.length vals)%nat) ps -> ~ In i ps ->
  nth i (write ps new vals) d = nth i vals d.
Proof.
  induction ps as [|p ps IH]; intros [|x new] vals i d F N; cbn; auto.
  inversion F; subst. cbn in N. rewrite IH; [|rewrite set_at_length; auto|tauto].
  rewrite set_at_nth_d by auto. destruct (Nat.eqb_spec i p); [|auto]. subst. tauto.
Qed.
Lemma write_own ps : forall new vals k p x, Forall (fun p => (p < List.length vals)%nat) ps -> NoDup ps ->
  nth_error ps k = Some p -> nth_error new k = Some x -> nth p (write ps new vals) 0 = x.
Proof.
  induction ps as [|q ps IH]; intros [|y new] vals [|k] p x F ND E1 E2; cbn in *; try discriminate.
  - injection E1 as ->. injection E2 as ->. inversion F; inversion ND; subst.
    rewrite write_other; [|rewrite set_at_length; auto|auto]. rewrite set_at_nth_d, Nat.eqb_refl by auto. auto.
  - inversion F; inversion ND; subst. eapply IH; eauto. rewrite set_at_length. auto.
Qed.
Lemma write_assigned ps new vals : Forall (fun p => (p < List.length vals)%nat) ps -> NoDup ps ->
  assigned ps new vals (write ps new vals).
Proof.
  intros F ND. split; [apply write_length|]. split.
  - intros k p x E1 E2. eapply write_own; eauto.
  - intros i N. apply write_other; auto.
Qed.

(** The gradient after [zero_grad] and [backward] is the batch's. *)
Lemma fresh_grad ps g new p x : (p < List.length g)%nat -> In p ps -> new p = Some x ->
  grad_at (accumulate new (zero_grad ps g)) p = Some x.
Proof.
  intros H I E. unfold grad_at, accumulate, zero_grad. rewrite !mapi_nth. cbn [Nat.add].
  destruct (nth_error g p) as [o|] eqn:EG; [|apply nth_error_None in EG; lia]. cbn.
  apply inb_In in I. rewrite I, E. destruct o; cbn; auto. f_equal. lra.
Qed.
Lemma fresh_grads ps g new d : Forall (fun p => (p < List.length g)%nat) ps ->
  (forall p, In p ps -> new p = Some (d p)) ->
  map (grad_at (accumulate new (zero_grad ps g))) ps = map Some (map d ps).
Proof.
  intros F H. rewrite map_map. apply map_ext_in. intros p I. rewrite Forall_forall in F. apply fresh_grad; auto.
Qed.
Lemma present_some l : present (map Some l) = l.
Proof. induction l; cbn; congruence. Qed.
Lemma total_norm_some l : total_norm (map Some l) = euclid l.
Proof.
  unfold total_norm, euclid. rewrite present_some. do 2 f_equal. apply map_ext. intros x. ring.
Qed.
Lemma margin_pos : 0 < margin.
Proof. unfold margin. apply Rinv_0_lt_compat. apply pow_lt. lra. Qed.
Lemma euclid_pos g : 0 <= euclid g.
Proof. apply sqrt_pos. Qed.
Lemma clip_clipped bound g : map (fun y => y * clip_coef bound (euclid g)) g = clipped bound g.
Proof.
  unfold clip_coef, clipped. fold margin. pose proof margin_pos as M. pose proof (euclid_pos g) as P.
  assert (Q : 0 < euclid g + margin) by lra. pose proof (Rinv_0_lt_compat _ Q) as IQ.
  assert (EQ : (euclid g + margin) * / (euclid g + margin) = 1) by (apply Rinv_r; lra).
  unfold Rdiv. destruct (Rle_dec (euclid g + margin) bound) as [L|L].
  - rewrite Rmin_right by nra. rewrite <- (map_id g) at 2. apply map_ext. intros; lra.
  - rewrite Rmin_left by nra. apply map_ext. intros; ring.
Qed.
Lemma clip_own ps bound g gs : Forall (fun p => (p < List.length g)%nat) ps ->
  map (grad_at g) ps = map Some gs ->
  map (grad_at (clip_grad ps bound g)) ps = map Some (clipped bound gs).
Proof.
  intros F E. rewrite <- clip_clipped, <- total_norm_some, <- E.
  cut (map (grad_at (clip_grad ps bound g)) ps
    = map (option_map (fun y => y * clip_coef bound (total_norm (map (grad_at g) ps)))) (map (grad_at g) ps)).
  - intros ->. set (c := clip_coef _ _). rewrite E, !map_map. auto.
  - rewrite map_map. apply map_ext_in. intros p I. unfold clip_grad, grad_at. rewrite mapi_nth. cbn [Nat.add].
    rewrite Forall_forall in F. specialize (F _ I). apply inb_In in I. rewrite I.
    destruct (nth_error g p) as [o|] eqn:EG; auto.
Qed.

Lemma rsum_scale c l : rsum (map (fun x => x * x) (map (Rmult c) l)) = c * c * rsum (map (fun x => x * x) l).
Proof. induction l; cbn; [lra|]. unfold rsum in *. rewrite IHl. ring. Qed.
Lemma rsum_squares l : 0 <= rsum (map (fun x => x * x) l).
Proof. induction l; cbn; [lra|]. fold (rsum (map (fun x => x * x) l)). pose proof (Rle_0_sqr a). unfold Rsqr in *. lra. Qed.
Lemma euclid_scale c l : 0 <= c -> euclid (map (Rmult c) l) = c * euclid l.
Proof.
  intros C. unfold euclid. rewrite rsum_scale, sqrt_mult; [|nra|apply rsum_squares].
  rewrite sqrt_square by auto. auto.
Qed.
Lemma clipped_ok bound g : 0 <= bound ->
  euclid (clipped bound g) <= bound /\
  (exists c, 0 <= c <= 1 /\ clipped bound g = map (Rmult c) g) /\
  (euclid g + margin <= bound -> clipped bound g = g).
Proof.
  intros B. unfold clipped. pose proof margin_pos as M. pose proof (euclid_pos g) as P.
  assert (Q : 0 < euclid g + margin) by lra. pose proof (Rinv_0_lt_compat _ Q) as IQ.
  assert (EQ : (euclid g + margin) * / (euclid g + margin) = 1) by (apply Rinv_r; lra).
  destruct (Rle_dec (euclid g + margin) bound) as [L|L].
  - split; [lra|]. split; [|auto]. exists 1. split; [lra|]. rewrite <- (map_id g) at 1. apply map_ext. intros; lra.
  - assert (C0 : 0 <= bound / (euclid g + margin)) by (unfold Rdiv; nra).
    assert (C1 : bound / (euclid g + margin) <= 1) by (unfold Rdiv; nra).
    split; [|split; [|tauto]].
    + rewrite euclid_scale by auto. unfold Rdiv.
      replace (bound * / (euclid g + margin) * euclid g) with (bound * (euclid g * / (euclid g + margin))) by ring.
      assert (euclid g * / (euclid g + margin) <= 1) by nra. nra.
    + eexists. split; [|reflexivity]. lra.
Qed.

Section Loss.
Context {OS : Type}.
Variable ostep : OS -> R -> list R -> list (option R) -> OS * list R.
Variable lrstep : Z -> R -> R.
Notation backward := (backward ostep lrstep).
Notation run_losses := (run_losses ostep lrstep).

Definition well (h : heap) : Prop := List.length (h_grad h) = List.length (h_val h).

Lemma backward_clean gradient l h d : well h -> sound_loss (List.length (h_val h)) l ->
  (forall p, In p (ls_params l) -> gradient (h_val h) p = Some (d p)) ->
  let '(l', h', _) := backward gradient l h in
  clean_step ostep lrstep d l l' (h_val h) (h_val h') /\ well h' /\ List.length (h_val h') = List.length (h_val h).
Proof.
  intros W (ND & F) G. unfold LossModel.backward.
  set (ps := ls_params l) in *.
  set (g := accumulate (gradient (h_val h)) (zero_grad ps (h_grad h))).
  assert (LG : List.length g = List.length (h_grad h)) by (unfold g, accumulate, zero_grad; rewrite !mapi_length; auto).
  assert (FG0 : Forall (fun p => (p < List.length (h_grad h))%nat) ps) by (rewrite W; auto).
  assert (FG : Forall (fun p => (p < List.length g)%nat) ps) by (rewrite LG; auto).
  assert (E1 : map (grad_at g) ps = map Some (map d ps)) by (apply fresh_grads; auto).
  pose proof (@clip_own ps (ls_max l) g (map d ps) FG E1) as E2.
  destruct (ostep _ _ _ _) as (os, new) eqn:EO. cbn. rewrite E2 in EO. split; [|split].
  - exists os, new. split; [exact EO|]. split; [auto|]. apply write_assigned; auto.
  - unfold well. cbn. unfold clip_grad. rewrite mapi_length, write_length, LG. auto.
  - apply write_length.
Qed.
Lemma backward_log gradient l h d : well h -> sound_loss (List.length (h_val h)) l ->
  (forall p, In p (ls_params l) -> gradient (h_val h) p = Some (d p)) ->
  snd (backward gradient l h) = (lrstep (ls_epoch l + 1)%Z (ls_lr l), euclid (map d (ls_params l))).
Proof.
  intros W (ND & F) G. unfold LossModel.backward.
  set (ps := ls_params l) in *.
  set (g := accumulate (gradient (h_val h)) (zero_grad ps (h_grad h))).
  assert (FG0 : Forall (fun p => (p < List.length (h_grad h))%nat) ps) by (rewrite W; auto).
  assert (E1 : map (grad_at g) ps = map Some (map d ps)) by (apply fresh_grads; auto).
  destruct (ostep _ _ _ _) as (os, new) eqn:EO. cbn. rewrite E1, total_norm_some. auto.
Qed.

(** A run is a clean run, whatever gradients lay around. *)
Lemma nth_error_set {A} (l : list A) k x : (k < List.length l)%nat -> forall j,
  nth_error (set_at k x l) j = if Nat.eqb j k then Some x else nth_error l j.
Proof. intros H j. apply set_at_nth. auto. Qed.
Lemma Forall_set {A} (P : A -> Prop) l : forall k x, Forall P l -> P x -> Forall P (set_at k x l).
Proof. induction l; intros [|k] x F H; cbn; auto; inversion F; subst; constructor; auto. Qed.

Lemma run_clean calls : forall ls h, well h -> Forall (sound_loss (List.length (h_val h))) ls ->
  Forall (sound_call ls) calls ->
  let '(ls', h') := run_losses calls ls h in
  clean_run ostep lrstep calls ls (h_val h) ls' (h_val h').
Proof.
  induction calls as [|(k, gradient) calls IH]; intros ls h W FL FC; cbn.
  - constructor.
  - inversion FC as [|? ? (l & EL & GL) FC']; subst. cbn in EL, GL. rewrite EL.
    pose proof FL as FL0. rewrite Forall_forall in FL. assert (IL : In l ls) by (eapply nth_error_In; eauto).
    pose proof (FL _ IL) as SL.
    set (d := fun p => match gradient (h_val h) p with Some x => x | None => 0 end).
    assert (HD : forall p, In p (ls_params l) -> gradient (h_val h) p = Some (d p)).
    { intros p I. unfold d. destruct (GL (h_val h) p I) as (x & ->). auto. }
    pose proof (@backward_clean gradient l h d W SL HD) as BC.
    destruct (backward gradient l h) as ((l', h1), lg) eqn:EB. destruct BC as (CS & W1 & L1).
    assert (LP : ls_params l' = ls_params l).
    { destruct CS as (os & new & _ & -> & _). auto. }
    assert (KL : (k < List.length ls)%nat) by (apply nth_error_Some; congruence).
    specialize (IH (set_at k l' ls) h1 W1). destruct (run_losses calls (set_at k l' ls) h1) as (ls', h') eqn:ER.
    econstructor; [exact EL|exact HD|exact CS|apply nth_error_set; auto|].
    apply IH.
    + rewrite L1. apply Forall_set; auto. unfold sound_loss in *. rewrite LP. auto.
    + rewrite Forall_forall in FC' |- *. intros c IC. destruct (FC' c IC) as (l2 & E2 & G2).
      unfold sound_call. rewrite set_at_nth by auto. destruct (Nat.eqb_spec (fst c) k) as [EK|].
      * exists l'. split; auto. rewrite LP. subst k. rewrite EL in E2. injection E2 as ->. auto.
      * exists l2. auto.
Qed.

(** ** Saving and loading *)
Definition alike (l l2 : loss OS) : Prop :=
  ls_params l2 = ls_params l /\ ls_network l2 = ls_network l /\ ls_max l2 = ls_max l /\
  ls_opt l2 = ls_opt l /\ ls_lr l2 = ls_lr l.

(** Losses that differ in their epochs only, with a schedule that leaves the rate
    alone, train alike. *)
Lemma backward_alike gradient l l2 h h2 : (forall e r, (0 < e)%Z -> lrstep e r = r) ->
  (0 <= ls_epoch l)%Z -> (0 <= ls_epoch l2)%Z ->
  alike l l2 -> h_val h = h_val h2 -> well h -> well h2 -> sound_loss (List.length (h_val h)) l ->
  (forall vals p, In p (ls_params l) -> exists x, gradient vals p = Some x) ->
  let '(l', h', _) := backward gradient l h in
  let '(l2', h2', _) := backward gradient l2 h2 in
  alike l' l2' /\ h_val h' = h_val h2' /\ well h' /\ well h2' /\ (0 <= ls_epoch l')%Z /\ (0 <= ls_epoch l2')%Z
  /\ List.length (h_val h') = List.length (h_val h) /\ ls_params l' = ls_params l.
Proof.
  intros LC E1 E2 (A1 & A2 & A3 & A4 & A5) HV W W2 (ND & F) G. unfold LossModel.backward.
  rewrite A1, A2, A3, A4, A5, <- HV.
  set (ps := ls_params l) in *.
  set (g := accumulate (gradient (h_val h)) (zero_grad ps (h_grad h))).
  set (g2 := accumulate (gradient (h_val h)) (zero_grad ps (h_grad h2))).
  assert (LG : List.length g = List.length (h_grad h)) by (unfold g, accumulate, zero_grad; rewrite !mapi_length; auto).
  assert (LG2 : List.length g2 = List.length (h_grad h2)) by (unfold g2, accumulate, zero_grad; rewrite !mapi_length; auto).
  unfold well in W, W2.
  set (d := fun p => match gradient (h_val h) p with Some x => x | None => 0 end).
  assert (HD : forall p, In p ps -> gradient (h_val h) p = Some (d p)).
  { intros p I. unfold d. destruct (G (h_val h) p I) as (x & ->). auto. }
  assert (F1 : Forall (fun p => (p < List.length (h_grad h))%nat) ps) by (rewrite W; auto).
  assert (F2 : Forall (fun p => (p < List.length (h_grad h2))%nat) ps) by (rewrite W2, <- HV; auto).
  assert (FG : Forall (fun p => (p < List.length g)%nat) ps) by (rewrite LG; auto).
  assert (FG2 : Forall (fun p => (p < List.length g2)%nat) ps) by (rewrite LG2; auto).
  assert (M1 : map (grad_at g) ps = map Some (map d ps)) by (apply fresh_grads; auto).
  assert (M2 : map (grad_at g2) ps = map Some (map d ps)) by (apply fresh_grads; auto).
  rewrite (@clip_own ps (ls_max l) g _ FG M1), (@clip_own ps (ls_max l) g2 _ FG2 M2).
  destruct (ostep _ _ _ _) as (os, new). cbn.
  repeat split; cbn; auto; unfold well; cbn; try lia.
  - rewrite !LC by lia. auto.
  - unfold clip_grad. rewrite mapi_length, write_length, LG. auto.
  - unfold clip_grad. rewrite mapi_length, write_length, LG2, W2, HV. auto.
  - apply write_length.
Qed.
Lemma run_alike calls : (forall e r, (0 < e)%Z -> lrstep e r = r) -> forall ls ls2 h h2,
  Forall (fun l => 0 <= ls_epoch l)%Z ls -> Forall (fun l => 0 <= ls_epoch l)%Z ls2 ->
  Forall2 alike ls ls2 -> h_val h = h_val h2 -> well h -> well h2 ->
  Forall (sound_loss (List.length (h_val h))) ls -> Forall (sound_call ls) calls ->
  h_val (snd (run_losses calls ls h)) = h_val (snd (run_losses calls ls2 h2)) /\
  Forall2 alike (fst (run_losses calls ls h)) (fst (run_losses calls ls2 h2)).
Proof.
  intros LC. induction calls as [|(k, gradient) calls IH]; intros ls ls2 h h2 E1 E2 AL HV W W2 FL FC; cbn; [auto|].
  inversion FC as [|? ? (l & EL & GL) FC']; subst. cbn in EL, GL. rewrite EL.
  assert (EL2 : exists l2, nth_error ls2 k = Some l2 /\ alike l l2).
  { clear - AL EL. revert k EL. induction AL; intros [|k] EL; cbn in *; try discriminate; eauto.
    injection EL as ->. eauto. }
  destruct EL2 as (l2 & EL2 & A). rewrite EL2.
  pose proof FL as FL0. rewrite Forall_forall in FL. assert (IL : In l ls) by (eapply nth_error_In; eauto).
  assert (IL2 : In l2 ls2) by (eapply nth_error_In; eauto).
  pose proof (FL _ IL) as SL. pose proof E1 as E1'. pose proof E2 as E2'. rewrite Forall_forall in E1', E2'.
  pose proof (@backward_alike gradient l l2 h h2 LC (E1' _ IL) (E2' _ IL2) A HV W W2 SL GL) as BA.
  destruct (backward gradient l h) as ((l', h1), lg). destruct (backward gradient l2 h2) as ((l2', h21), lg2).
  destruct BA as (A' & HV' & W' & W2' & P1 & P2 & L1 & LP).
  assert (KL : (k < List.length ls)%nat) by (apply nth_error_Some; congruence).
  apply IH; auto.
  - apply Forall_set; auto.
  - apply Forall_set; auto.
  - clear - AL A'. revert k. induction AL; intros [|k]; cbn; auto.
  - rewrite L1. apply Forall_set; auto. unfold sound_loss in *. rewrite LP. auto.
  - rewrite Forall_forall in FC' |- *. intros c IC. destruct (FC' c IC) as (l3 & E3 & G3).
    unfold sound_call. rewrite set_at_nth by auto. destruct (Nat.eqb_spec (fst c) k) as [EK|].
    + exists l'. split; auto. rewrite LP. subst k. rewrite EL in E3. injection E3 as ->. auto.
    + exists l3. auto.
Qed.

Lemma write_back ps vals : forall vals2, Forall (fun p => (p < List.length vals2)%nat) ps -> NoDup ps ->
  forall p, nth p (write ps (map (fun p => nth p vals 0) ps) vals2) 0 = if inb p ps then nth p vals 0 else nth p vals2 0.
Proof.
  intros vals2 F ND p. destruct (inb p ps) eqn:E.
  - apply inb_In in E. apply In_nth_error in E as (k & E).
    eapply write_own; eauto. rewrite nth_error_map, E. auto.
  - apply inb_false in E. apply write_other; auto.
Qed.
(** Loading what was saved. *)
Lemma load_saved : forall ls ls2 h h2, same_build ls ls2 ->
  sound_networks (List.length (h_val h2)) ls ->
  exists ls', exists h', load_all (save_all ls h) ls2 h2 = Ok (ls', h') /\
    Forall2 alike ls ls' /\ Forall2 (fun l2 l' => ls_epoch l' = ls_epoch l2) ls2 ls' /\
    List.length (h_val h') = List.length (h_val h2) /\ h_grad h' = h_grad h2 /\
    forall p, nth p (h_val h') 0 = if existsb (fun l => inb p (ls_network l)) ls then nth p (h_val h) 0 else nth p (h_val h2) 0.
Proof.
  induction ls as [|l ls IH]; intros ls2 h h2 SB SN; inversion SB as [|? l2 ? ls2' (P & N & M) SB']; subst; cbn.
  - exists [], h2. repeat split; auto.
  - inversion SN as [|? ? (ND & F) SN']; subst. rewrite N.
    set (h3 := mkHeap (write (ls_network l) (map (fun p => nth p (h_val h) 0) (ls_network l)) (h_val h2)) (h_grad h2)).
    destruct (IH ls2' h h3 SB') as (ls' & h' & E & A & EP & LL & GG & V).
    { unfold h3. cbn. rewrite write_length. auto. }
    unfold save_all in E. rewrite E. cbn. eexists _, _. split; [reflexivity|].
    split; [constructor; auto; repeat split; cbn; auto|]. split; [constructor; auto|].
    split; [rewrite LL; unfold h3; cbn; apply write_length|]. split; [auto|].
    intros p. rewrite V. destruct (existsb _ ls); [rewrite Bool.orb_true_r; auto|]. rewrite Bool.orb_false_r.
    unfold h3. cbn. apply write_back; auto.
Qed.
Lemma resume_same calls ls ls2 h h2 : (forall e r, (0 < e)%Z -> lrstep e r = r) ->
  Forall (fun l => 0 <= ls_epoch l)%Z ls -> Forall (fun l => 0 <= ls_epoch l)%Z ls2 ->
  well h -> well h2 -> List.length (h_val h2) = List.length (h_val h) -> same_build ls ls2 ->
  sound_networks (List.length (h_val h)) ls -> cover (List.length (h_val h)) ls ->
  Forall (sound_loss (List.length (h_val h))) ls -> Forall (sound_call ls) calls ->
  exists ls', exists h', load_all (save_all ls h) ls2 h2 = Ok (ls', h') /\
    h_val (snd (run_losses calls ls' h')) = h_val (snd (run_losses calls ls h)).
Proof.
  intros LC E1 E2 W W2 LL SB SN CV SL SC.
  destruct (@load_saved ls ls2 h h2 SB) as (ls' & h' & E & A & EP & LH & GG & V); [rewrite LL; auto|].
  exists ls', h'. split; auto. symmetry. apply run_alike; auto.
  - clear - EP E2. induction EP; inversion E2; subst; constructor; auto. lia.
  - apply nth_ext with (d := 0) (d' := 0); [rewrite LH; auto|]. intros p H. rewrite V.
    destruct (CV p H) as (l & I & J).
    assert (X : existsb (fun l => inb p (ls_network l)) ls = true); [|rewrite X; auto].
    apply existsb_exists. exists l. split; auto. apply inb_In. auto.
  - unfold well in *. congruence.
Qed.
End Loss.
