(** * ExpGym: what a collector adds suits the memory (C149) *)
From Coq Require Import Reals Lia.
From Verif Require Import Py PyLemmas MemModel MemSpec ProxyModel ProxySpec ProxyProofs ProxyE2E LoaderModel TrainModel TrainSpec
  GymModel GymSpec GymProofs GymMore GymRun GymE2E LiveModel LiveSpec LiveRun ExpSpec ExpMem.
Set Implicit Arguments. Unset Strict Implicit.
Open Scope string_scope.
Open Scope list_scope.
Open Scope Z_scope.

Section P.
Context {S E : Type} {HSc : Scalar S}.
Variable num : S -> R.
Variable env : genv S E.
Variable agent : nat -> dict Z (obs S) -> res (dict Z (resp S)).
Variables (dobs dact : nat) (m : Z).
Hypothesis HS : shows env dobs.
Hypothesis HM : at_most env m.
Notation play := (play env any_end).
Notation inv := (inv num env agent dobs dact).

Lemma play_bound ms e : play ms e -> zlen ms - 1 <= m.
Proof.
  intros P. destruct (play_walk P) as (e0 & e1 & o1 & tr & o & R & Ss & T). pose proof T as [T1 _ _].
  assert (Q : zlen tr <= m).
  { eapply HM; eauto. apply Forall_forall. intros x Ix. apply In_nth_error in Ix as [k Hk]. apply nth_rl in Hk as [H1 H2]. eapply walk_not_over; eauto. }
  unfold zlen in *. rewrite T1. lia.
Qed.

Lemma now_play n off g os hc a ob : inv n off g os hc -> dget os a = Some ob -> exists e, play (stream a hc ++ [(ob, None)]) e.
Proof.
  intros I G. destruct (in_dec Z.eq_dec a (gy_ids g)) as [Ii|Ni].
  - destruct (inv_cur I Ii) as (ob' & e & s & G' & _ & P & _). rewrite G in G'. injection G' as <-. eauto.
  - destruct (i_rest I G Ni) as (_ & e & P). eauto.
Qed.

Lemma gym_fits n off g os (h : list (pop S)) p rs dr pc T0 : inv n off g os (adds_of h) -> call_ok agent dobs dact n (PAdd os rs dr) ->
  store_rel (pc_terminal pc) (px_store p) (fun a => running [] (stream a h)) -> prun pc (px_new T0) h = (p, Ok tt) -> batch_fits p os rs.
Proof.
  intros I (N & _ & _ & _ & _ & Kr & _) [_ SR] _. unfold batch_fits. apply Forall_forall. intros [a o] Ia.
  assert (G : dget os a = Some o) by (apply In_dget; auto).
  destruct (now_play I G) as (e & P). apply play_has_shape in P. pose proof (sh_first P) as Sf. rewrite stream_adds in Sf.
  assert (Hr : is_final (o_state o) = false -> dget rs a <> None).
  { intros F Q. apply dget_None in Q. apply Q. rewrite Kr. apply (waiting_iff N). eauto. }
  specialize (SR a). destruct (stream a h) as [|m0 r] eqn:Es; cbn [app] in Sf; destruct Sf as [S1 S2].
  - cbn [fst] in S1. rewrite S1 in *. split; [|apply Hr; reflexivity]. destruct (dget (px_store p) a); [|auto]. destruct SR as [C _]. cbn in C. congruence.
  - apply Forall_app in S2 as [_ S2]. inversion S2 as [|? ? [S3 [rw S4]] _]; subst. cbn [fst] in *. 
    assert (Rw : dget (o_rewards o) "reward" <> None) by (rewrite S4; cbn; discriminate).
    destruct (o_state o); cbn in S3; try (destruct S3; discriminate); auto.
  - exact 0%nat.
Qed.

Lemma episodes_bound n off g os h : inv n off g os (adds_of h) -> forall a ms, In ms (episodes [] (stream a h)) -> zlen ms - 1 <= m.
Proof.
  intros I a ms Im. pose proof (stream_cases I a) as SC. rewrite stream_adds in SC. destruct SC as [SC|[SC|SC]].
  - rewrite SC in Im. destruct Im.
  - rewrite (whole_episode dobs SC) in Im. destruct Im as [<-|[]]. destruct SC as (before & ob & e & _ & P & _). eapply play_bound; eauto.
  - rewrite (open_no_episode dobs SC) in Im. destruct Im.
Qed.

Lemma exp_agents n off g os h pc cols L k : inv n off g os (adds_of h) -> other_uses h -> m <= 2 ^ 53 -> pc_min pc = Some k -> Z.of_nat L <= k ->
  gym_sizes dobs dact cols -> batches_ok h /\ agents_ok pc cols "actions" gym_sch L h.
Proof.
  intros I Ou Hm Pm Lk Cs. eapply run_agents_gen; eauto. intros a (before & ob & e & _ & P & _). apply play_bound in P. lia.
Qed.
End P.
