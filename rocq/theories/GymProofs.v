(** * GymProofs: the wrapper's step *)
From Coq Require Import Reals Lia Lra.
From Verif Require Import Py PyLemmas MemModel MemSpec ProxyModel ProxySpec AgentSpec NumModel GymModel GymSpec.
Set Implicit Arguments. Unset Strict Implicit.
Open Scope string_scope.
Open Scope list_scope.
Open Scope Z_scope.

Section P.
Context {S E : Type}.
Implicit Types v : vstep S.
Implicit Types results : dict Z (obs S).
Notation lid := (fun x : Z * R * vstep S => fst (fst x)).
Definition done v : bool := v_term v || v_trunc v.
Definition term_obs v : obs S := later_obs TERMINAL (v_reward v) (v_final v).

Record dl_spec (results : dict Z (obs S)) (next : Z) (l : list (Z * R * vstep S)) (k : loop) : Prop := {
  dl_next : next <= lp_next k;
  dl_len : List.length (lp_ids k) = List.length l;
  dl_lens : List.length (lp_sums k) = List.length l;
  dl_at : forall j id s v, nth_error l j = Some (id, s, v) ->
    if done v
    then exists id', nth_error (lp_ids k) j = Some id' /\ nth_error (lp_sums k) j = Some 0%R /\ next <= id' < lp_next k /\ In id' (lp_new k) /\
         dget (lp_results k) id = Some (term_obs v) /\ dget (lp_results k) id' = Some (initial_obs (v_obs v))
    else nth_error (lp_ids k) j = Some id /\ nth_error (lp_sums k) j = Some s /\ ~ In id (lp_new k);
  dl_new : forall x, In x (lp_new k) -> next <= x < lp_next k;
  dl_nodup : NoDup (lp_ids k);
  dl_frame : forall x, x < next -> (forall j s v, nth_error l j = Some (x, s, v) -> done v = false) -> dget (lp_results k) x = dget results x;
  dl_frame2 : forall x, lp_next k <= x -> dget results x = None -> dget (lp_results k) x = None;
  dl_keys : forall x, next <= x < lp_next k -> dget results x = None -> dget (lp_results k) x <> None -> In x (lp_new k);
  dl_newids : forall x, In x (lp_new k) -> In x (lp_ids k);
  dl_kd : NoDup (dkeys results) -> NoDup (dkeys (lp_results k));
  dl_completed : lp_completed k = map (fun x => snd (fst x)) (filter (fun x => done (snd x)) l) }.

Lemma done_loop_ok : forall l results next, NoDup (map lid l) -> (forall x, In x (map lid l) -> x < next) ->
  dl_spec results next l (done_loop results next l).
Proof.
  induction l as [|[[id s] v] l IH]; intros results next N B.
  - constructor; cbn; auto; try lia; try (constructor; fail); try (intros x []; fail); try (intros [|j] ? ? ? H; discriminate); try (intros x H; lia).
  - cbn [map fst snd] in N. inversion N as [|? ? N1 N2]; subst.
    assert (Bid : id < next) by (apply B; left; auto).
    cbn [done_loop]. fold (done v). destruct (done v) eqn:D.
    + set (r1 := dset (dset results id (term_obs v)) next (initial_obs (v_obs v))).
      destruct (IH r1 (next + 1) N2) as [H1 H2 H3 H4 H5 H6 H7 H8 H9 H10 H11 H12].
      { intros x Hx. specialize (B x (or_intror Hx)). lia. }
      set (k := done_loop r1 (next + 1) l) in *. fold (term_obs v). fold r1. fold k.
      constructor; cbn [lp_next lp_ids lp_sums lp_results lp_new lp_completed List.length]; try lia.
      * intros [|j] id0 s0 v0 Hj; cbn [nth_error] in *.
        -- injection Hj as <- <- <-. rewrite D. exists next. split; auto. split; auto. split; [lia|]. split; [left; auto|]. split.
           ++ rewrite H7; [|lia|]. { unfold r1. rewrite dget_dset_neq by lia. apply dget_dset_eq. }
              intros j s' v' Hj. exfalso. apply N1. apply nth_error_In in Hj. apply (in_map lid) in Hj. exact Hj.
           ++ rewrite H7; [apply dget_dset_eq|lia|]. intros j s' v' Hj. exfalso. apply nth_error_In in Hj. apply (in_map lid) in Hj. specialize (B next (or_intror Hj)). lia.
        -- specialize (H4 j id0 s0 v0 Hj). destruct (done v0).
           ++ destruct H4 as (id' & A1 & A2 & A3 & A4 & A5). exists id'. split; auto. split; auto. split; [lia|]. split; [right; auto|]. auto.
           ++ destruct H4 as (A1 & A2 & A3). split; auto. split; auto. intros [C|C]; [|contradiction]. subst id0.
              apply nth_error_In in Hj. apply (in_map lid) in Hj. specialize (B next (or_intror Hj)). lia.
      * intros x [<-|Hx]; [lia|]. apply H5 in Hx. lia.
      * constructor; auto. intros C. apply In_nth_error in C. destruct C as [j C].
        destruct (nth_error l j) as [[[id0 s0] v0]|] eqn:Hj.
        -- specialize (H4 j id0 s0 v0 Hj). destruct (done v0).
           ++ destruct H4 as (id' & A1 & _ & A3 & _). rewrite A1 in C. injection C as ->. lia.
           ++ destruct H4 as (A1 & _). rewrite A1 in C. injection C as ->. apply nth_error_In in Hj. apply (in_map lid) in Hj. specialize (B next (or_intror Hj)). lia.
        -- apply nth_error_None in Hj. assert (j < List.length (lp_ids k))%nat by (apply nth_error_Some; congruence). lia.
      * intros x Hx F. rewrite H7; [|lia|intros j s' v' Hj; apply (F (Datatypes.S j) s' v' Hj)].
        unfold r1. rewrite !dget_dset_neq; auto; [|lia]. intros ->. specialize (F O s v eq_refl). congruence.
      * intros x Hx R0. apply H8; auto. unfold r1. rewrite !dget_dset_neq; auto; lia.
      * intros x Hx R0 Q. destruct (Z.eq_dec x next) as [-> |]; [left; auto|right]. apply H9; auto; [lia|]. unfold r1. rewrite !dget_dset_neq; auto; lia.
      * intros x [<-|Hx]; [left; auto|right; auto].
      * intros Nk. apply H11. unfold r1. repeat apply NoDup_dset; auto.
      * cbn [filter snd map fst]. rewrite D. cbn [map fst snd]. f_equal. auto.
    + destruct (IH results next N2) as [H1 H2 H3 H4 H5 H6 H7 H8 H9 H10 H11 H12].
      { intros x Hx. apply (B x (or_intror Hx)). }
      set (k := done_loop results next l) in *.
      constructor; cbn [lp_next lp_ids lp_sums lp_results lp_new lp_completed List.length]; try lia; auto.
      * intros [|j] id0 s0 v0 Hj; cbn [nth_error] in *.
        -- injection Hj as <- <- <-. rewrite D. split; auto. split; auto. intros C. apply H5 in C. lia.
        -- specialize (H4 j id0 s0 v0 Hj). destruct (done v0); auto.
      * constructor; auto. intros C. apply In_nth_error in C. destruct C as [j C].
        destruct (nth_error l j) as [[[id0 s0] v0]|] eqn:Hj.
        -- specialize (H4 j id0 s0 v0 Hj). destruct (done v0).
           ++ destruct H4 as (id' & A1 & _ & A3 & _). rewrite A1 in C. injection C as ->. lia.
           ++ destruct H4 as (A1 & _). rewrite A1 in C. injection C as ->. apply N1. apply nth_error_In in Hj. apply (in_map lid) in Hj. exact Hj.
        -- apply nth_error_None in Hj. assert (j < List.length (lp_ids k))%nat by (apply nth_error_Some; congruence). lia.
      * intros x Hx F. apply H7; auto. intros j s' v' Hj. apply (F (Datatypes.S j) s' v' Hj).
      * intros x Hx. right; auto.
      * cbn [filter snd map fst]. rewrite D. auto.
Qed.

Lemma running_frame new x : forall (l : list (Z * vstep S)) results, (~ In x (map fst l) \/ In x new) -> dget (running_obs results new l) x = dget results x.
Proof.
  induction l as [|[id v] l IH]; intros results H; [reflexivity|]. cbn [running_obs]. rewrite IH.
  - destruct (inb id new) eqn:I; auto. apply dget_dset_neq. intros <-. apply inb_false in I. destruct H as [H|H]; [apply H; left; auto|contradiction].
  - destruct H as [H|H]; auto. left. intros C. apply H. right; auto.
Qed.
Lemma running_at new : forall (l : list (Z * vstep S)) results x v, NoDup (map fst l) -> In (x, v) l -> ~ In x new ->
  dget (running_obs results new l) x = Some (later_obs RUNNING (v_reward v) (v_obs v)).
Proof.
  induction l as [|[id v0] l IH]; intros results x v N I Nx; [destruct I|]. cbn [map fst] in N. inversion N; subst. cbn [running_obs]. destruct I as [I|I].
  - injection I as -> ->. rewrite running_frame by auto. apply inb_false in Nx. rewrite Nx. apply dget_dset_eq.
  - apply IH; auto.
Qed.
Lemma running_nodup new : forall (l : list (Z * vstep S)) results, NoDup (dkeys results) -> NoDup (dkeys (running_obs results new l)).
Proof. induction l as [|[id v] l IH]; intros results N; auto. cbn [running_obs]. apply IH. destruct (inb id new); auto. apply NoDup_dset; auto. Qed.

(** The observations that one step of the wrapper returns. *)
Record step_spec (next : Z) (l : list (Z * R * vstep S)) (next' : Z) (ids' : list Z) (sums' : list R) (os : dict Z (obs S)) : Prop := {
  ss_next : next <= next';
  ss_len : List.length ids' = List.length l;
  ss_lens : List.length sums' = List.length l;
  ss_nodup : NoDup ids';
  ss_at : forall j id s v, nth_error l j = Some (id, s, v) ->
    if done v
    then exists id', nth_error ids' j = Some id' /\ nth_error sums' j = Some 0%R /\ next <= id' < next' /\
         dget os id = Some (term_obs v) /\ dget os id' = Some (initial_obs (v_obs v)) /\ ~ In id ids'
    else nth_error ids' j = Some id /\ nth_error sums' j = Some s /\ dget os id = Some (later_obs RUNNING (v_reward v) (v_obs v));
  ss_keys : forall x, dget os x <> None -> In x (map lid l) \/ next <= x /\ In x ids';
  ss_below : forall x, In x ids' -> x < next -> In x (map lid l);
  ss_kd : NoDup (dkeys os) }.

Lemma nth_combine_l {A B} : forall (a : list A) (b : list B) j x y, nth_error a j = Some x -> nth_error b j = Some y -> nth_error (combine a b) j = Some (x, y).
Proof. induction a as [|x a IH]; intros [|y b] [|j] u w H1 H2; try discriminate; cbn in *; [congruence|]. eapply IH; eauto. Qed.
Lemma combine_nth {A B} : forall (a : list A) (b : list B) j x y, nth_error (combine a b) j = Some (x, y) -> nth_error a j = Some x /\ nth_error b j = Some y.
Proof. induction a as [|x a IH]; intros [|y b] [|j] u w H; try discriminate; cbn in *; [injection H as -> ->; auto|]. apply IH; auto. Qed.
Lemma map_fst_combine {A B} : forall (a : list A) (b : list B), List.length a = List.length b -> map fst (combine a b) = a.
Proof. induction a as [|x a IH]; intros [|y b] H; try discriminate; auto. cbn. f_equal. apply IH. auto. Qed.

Lemma step_ok next (l : list (Z * R * vstep S)) : NoDup (map lid l) -> (forall x, In x (map lid l) -> x < next) ->
  let k := done_loop [] next l in
  step_spec next l (lp_next k) (lp_ids k) (lp_sums k) (running_obs (lp_results k) (lp_new k) (combine (lp_ids k) (map snd l))).
Proof.
  intros N B k. pose proof (done_loop_ok [] N B) as Q0. change (done_loop [] next l) with k in Q0. clearbody k. destruct Q0 as [H1 H2 H3 H4 H5 H6 H7 H8 H9 H10 H11 H12].
  assert (Lc : map fst (combine (lp_ids k) (map snd l)) = lp_ids k) by (apply map_fst_combine; rewrite map_length; auto).
  assert (Below : forall x, In x (lp_ids k) -> x < next -> exists j s v, nth_error l j = Some (x, s, v) /\ done v = false).
  { intros x Hx Hn. apply In_nth_error in Hx. destruct Hx as [j Hj]. destruct (nth_error l j) as [[[id s] v]|] eqn:El.
    - pose proof (H4 j id s v El) as Q. destruct (done v) eqn:D.
      + destruct Q as (id' & A1 & _ & A3 & _). rewrite A1 in Hj. injection Hj as ->. lia.
      + destruct Q as (A1 & _). rewrite A1 in Hj. injection Hj as ->. eauto.
    - apply nth_error_None in El. assert (j < List.length (lp_ids k))%nat by (apply nth_error_Some; congruence). lia. }
  assert (Uniq : forall j j' id s v s' v', nth_error l j = Some (id, s, v) -> nth_error l j' = Some (id, s', v') -> (s, v) = (s', v')).
  { intros j j' id s v s' v' E1 E2. assert (j = j').
    { apply (proj1 (NoDup_nth_error (map lid l)) N). { rewrite map_length. apply nth_error_Some. congruence. } rewrite !nth_error_map, E1, E2. reflexivity. }
    subst. rewrite E1 in E2. congruence. }
  constructor; auto.
  - intros j id s v Hj. pose proof (H4 j id s v Hj) as Q. destruct (done v) eqn:D.
    + destruct Q as (id' & A1 & A2 & A3 & A4 & A5 & A6). exists id'. split; auto. split; auto. split; auto.
      assert (Ni : ~ In id (lp_ids k)). { intros C. assert (Bi : id < next) by (apply B; apply nth_error_In in Hj; apply (in_map lid) in Hj; exact Hj).
        destruct (Below id C Bi) as (j' & s' & v' & E' & D'). pose proof (Uniq _ _ _ _ _ _ _ Hj E') as U. injection U as -> ->. congruence. }
      split; [rewrite running_frame; auto; left; rewrite Lc; auto|]. split; [rewrite running_frame; auto|auto].
    + destruct Q as (A1 & A2 & A3). split; auto. split; auto. apply running_at; auto; [rewrite Lc; auto|]. eapply nth_error_In.
      apply nth_combine_l; [exact A1|]. rewrite nth_error_map, Hj. reflexivity.
  - intros x Hx. destruct (Z.lt_ge_cases x next) as [Lt|Ge].
    + left. destruct (in_dec Z.eq_dec x (lp_ids k)) as [I|I].
      * destruct (Below x I Lt) as (j & s & v & E1 & _). apply nth_error_In in E1. apply (in_map lid) in E1. exact E1.
      * rewrite running_frame in Hx by (left; rewrite Lc; auto). destruct (in_dec Z.eq_dec x (map lid l)) as [I2|I2]; auto.
        exfalso. apply Hx. rewrite H7; auto. intros j s v Hj. exfalso. apply I2. apply nth_error_In in Hj. apply (in_map lid) in Hj. exact Hj.
    + right. split; auto. destruct (in_dec Z.eq_dec x (lp_ids k)) as [I|I]; auto. exfalso. apply Hx. rewrite running_frame by (left; rewrite Lc; auto).
      destruct (Z.lt_ge_cases x (lp_next k)) as [Lt2|Ge2]; [|apply H8; auto].
      destruct (dget (lp_results k) x) eqn:Q; auto. exfalso. apply I. apply H10. apply H9; auto. congruence.
  - intros x Hx Hn. destruct (Below x Hx Hn) as (j & s & v & E1 & _). apply nth_error_In in E1. apply (in_map lid) in E1. exact E1.
  - apply running_nodup. apply H11. constructor.
Qed.

Lemma fresh_len : forall n a, List.length (fresh a n) = n.
Proof. induction n; intros; cbn; auto. Qed.
Lemma fresh_in : forall n a x, In x (fresh a n) <-> a <= x < a + Z.of_nat n.
Proof. induction n as [|n IH]; intros a x; cbn [fresh In]; [lia|]. rewrite IH. lia. Qed.
Lemma fresh_nodup : forall n a, NoDup (fresh a n).
Proof. induction n as [|n IH]; intros a; cbn; constructor; auto. rewrite fresh_in. lia. Qed.

Lemma fold_dset_frame {V W} (f : V -> W) x : forall (l : list (Z * V)) d, ~ In x (map fst l) -> dget (fold_left (fun d io => dset d (fst io) (f (snd io))) l d) x = dget d x.
Proof. induction l as [|[a b] l IH]; intros d H; auto. cbn [fold_left fst snd]. rewrite IH by (intros C; apply H; right; auto). apply dget_dset_neq. intros <-. apply H. left; auto. Qed.
Lemma fold_dset_at {V W} (f : V -> W) : forall (l : list (Z * V)) d x b, NoDup (map fst l) -> In (x, b) l -> dget (fold_left (fun d io => dset d (fst io) (f (snd io))) l d) x = Some (f b).
Proof.
  induction l as [|[a v] l IH]; intros d x b N I; [destruct I|]. cbn [map fst] in N. inversion N; subst. cbn [fold_left fst snd]. destruct I as [I|I].
  - injection I as -> ->. rewrite fold_dset_frame by auto. apply dget_dset_eq.
  - apply IH; auto.
Qed.
Lemma fold_dset_nodup {V W} (f : V -> W) : forall (l : list (Z * V)) d, NoDup (dkeys d) -> NoDup (dkeys (fold_left (fun d io => dset d (fst io) (f (snd io))) l d)).
Proof. induction l as [|[a v] l IH]; intros d N; auto. cbn [fold_left]. apply IH. apply NoDup_dset; auto. Qed.
End P.
