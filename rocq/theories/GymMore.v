(** * GymMore: the collector follows the environments *)
From Coq Require Import Reals Lia Lra Permutation.
From Verif Require Import Py PyLemmas MemModel MemSpec ProxyModel ProxySpec AgentSpec NumModel NumProofs GymModel GymSpec GymProofs.
Set Implicit Arguments. Unset Strict Implicit.
Open Scope string_scope.
Open Scope list_scope.
Open Scope Z_scope.

Section L.
Lemma NoDup_map_filter {A B} (f : A -> B) p : forall l, NoDup (map f l) -> NoDup (map f (filter p l)).
Proof.
  induction l as [|x l IH]; intros N; auto. cbn [map] in N. inversion N as [|? ? N1 N2]; subst. cbn [filter]. destruct (p x); auto. cbn [map]. constructor; auto.
  intros C. apply N1. apply in_map_iff in C as (y & <- & I). apply filter_In in I as [I _]. apply in_map; auto.
Qed.
Lemma NoDup_filter_keys {V} p (d : dict Z V) : NoDup (dkeys d) -> NoDup (map fst (filter p d)).
Proof. apply NoDup_map_filter. Qed.
Lemma map_snd_combine {A B} : forall (a : list A) (b : list B), List.length a = List.length b -> map snd (combine a b) = b.
Proof. induction a as [|x a IH]; intros [|y b] H; try discriminate; auto. cbn. f_equal. apply IH. auto. Qed.
End L.

Section P.
Context {S E : Type}.
Variable num : S -> R.
Variable env : genv S E.
Variable agent : nat -> dict Z (obs S) -> res (dict Z (resp S)).
Variables dobs dact : nat.
Hypothesis HS : shows env dobs.
Hypothesis HA : answers_all dobs dact agent.
Notation play := (play env any_end).

(** What is known of every call of memory.add. *)
Definition call_ok (n : nat) (o : pop S) : Prop :=
  match o with
  | PAdd os rs _ => NoDup (dkeys os) /\ List.length (waiting os) = n /\ Forall (fun a => 0 <= a) (dkeys os) /\
      Forall (fun x => exists o, o_data (snd x) = [("obs", o)] /\ List.length o = dobs) os /\
      Forall (fun x => exists a, snd x = mkResp [("actions", a)] [] /\ List.length a = dact) rs /\
      dkeys rs = map fst (waiting os) /\ exists i, agent i os = Ok rs
  | PUse _ => False
  end.
Record inv (n : nat) (off : Z -> R) (g : gym (E := E)) (os : dict Z (obs S)) (h : list (pop S)) : Prop := {
  i_envs : List.length (gy_envs g) = n;
  i_ids : List.length (gy_ids g) = n;
  i_sums : List.length (gy_sums g) = n;
  i_nd : NoDup (gy_ids g);
  i_rng : forall x, In x (gy_ids g) -> 0 <= x < gy_next g;
  i_kd : NoDup (dkeys os);
  i_krng : forall x, dget os x <> None -> 0 <= x < gy_next g;
  i_cur : forall j id e s, nth_error (gy_ids g) j = Some id -> nth_error (gy_envs g) j = Some e -> nth_error (gy_sums g) j = Some s ->
     exists ob, dget os id = Some ob /\ is_final (o_state ob) = false /\ play (stream id h ++ [(ob, None)]) e /\ s = (off id + total num (stream id h ++ [(ob, None)]))%R;
  i_rest : forall id ob, dget os id = Some ob -> ~ In id (gy_ids g) -> is_final (o_state ob) = true /\ exists e, play (stream id h ++ [(ob, None)]) e;
  i_past : forall id, dget os id = None -> stream id h = [] \/ whole_play env any_end (stream id h);
  i_future : forall id, gy_next g <= id -> stream id h = [];
  i_off : forall id, gy_next g <= id -> off id = 0%R;
  i_calls : Forall (call_ok n) h }.

Lemma stream_snoc a h (os : dict Z (obs S)) (rs : dict Z (resp S)) dr : stream a (h ++ [PAdd os rs dr]) = stream a h ++ match dget os a with Some ob => [(ob, dget rs a)] | None => [] end.
Proof. unfold stream. rewrite flat_map_app. cbn [flat_map]. rewrite app_nil_r. reflexivity. Qed.

Lemma play_shape : forall ms e, play ms e -> Forall (fun m => exists o, o_data (fst m) = [("obs", o)] /\ List.length o = dobs) ms.
Proof.
  destruct HS as [H1 H2]. induction 1 as [e0 e o R|before ob e action e' a P IH F St].
  - constructor; [|constructor]. cbn. exists o. split; auto. specialize (H1 e0). rewrite R in H1. exact H1.
  - apply Forall_app in IH as [I1 I2]. inversion I2; subst. apply Forall_app. split; auto. constructor; [auto|]. constructor; [|constructor].
    cbn. eexists. split; [reflexivity|]. specialize (H2 e action). rewrite St in H2. exact H2.
Qed.

Lemma rmapM_ok {A B} (f : A -> res B) : forall l, (forall x, In x l -> exists y, f x = Ok y) -> exists r, rmapM f l = Ok r /\ List.length r = List.length l /\
  forall j x, nth_error l j = Some x -> exists y, nth_error r j = Some y /\ f x = Ok y.
Proof.
  induction l as [|x l IH]; intros H.
  - exists []. split; auto. split; auto. intros [|j] y Hj; discriminate.
  - destruct (H x (or_introl eq_refl)) as [y Hy]. destruct IH as (r & A1 & A2 & A3); [intros; apply H; right; auto|].
    exists (y :: r). cbn [rmapM]. rewrite Hy. cbn. rewrite A1. cbn. split; auto. split; [lia|]. intros [|j] x0 Hj; cbn in *.
    + injection Hj as <-. eauto.
    + auto.
Qed.

Lemma waiting_iff (os : dict Z (obs S)) : NoDup (dkeys os) -> forall a, In a (map fst (waiting os)) <-> exists ob, dget os a = Some ob /\ is_final (o_state ob) = false.
Proof.
  intros N a. rewrite in_map_iff. split.
  - intros ([a' ob] & <- & I). unfold waiting in I. apply filter_In in I as [I F]. exists ob. split; [apply In_dget; auto|]. cbn in F |- *. destruct (o_state ob); auto; discriminate.
  - intros (ob & G & F). exists (a, ob). split; auto. apply filter_In. split.
    + apply dget_In; auto.
    + cbn. destruct (o_state ob); auto; discriminate.
Qed.

Lemma total_app a b : total num (a ++ b) = (total (S := S) num a + total num b)%R.
Proof. unfold total. rewrite map_app. apply rsum_app. Qed.
Lemma rsum_perm a b : Permutation a b -> rsum a = rsum b.
Proof. induction 1; unfold rsum in *; cbn; lra. Qed.
Lemma nth_map2 {A B C} (f : A -> B -> C) : forall (a : list A) (b : list B) j x y, nth_error a j = Some x -> nth_error b j = Some y ->
  nth_error (map (fun p => f (fst p) (snd p)) (combine a b)) j = Some (f x y).
Proof. intros. rewrite nth_error_map, (nth_combine_l H H0). reflexivity. Qed.
Lemma nth_ex {A} (l : list A) j n : List.length l = n -> (j < n)%nat -> exists x, nth_error l j = Some x.
Proof. intros L H. destruct (nth_error l j) eqn:Q; eauto. apply nth_error_None in Q. lia. Qed.
Lemma nth_lt {A} (l : list A) j x n : List.length l = n -> nth_error l j = Some x -> (j < n)%nat.
Proof. intros L H. rewrite <- L. apply nth_error_Some. congruence. Qed.

Lemma inv_step n off g os h i dr : (1 <= n)%nat -> inv n off g os h ->
  exists rs g' os' lg, agent i os = Ok rs /\ dict_step num env g rs = Ok (g', os', lg) /\ inv n off g' os' (h ++ [PAdd os rs dr]) /\
    lg = mean_of (map (fun a => off a + total num (so_far (h ++ [PAdd os rs dr]) os' a))%R (ended os')).
Proof.
  intros Hn [I1 I2 I3 I4 I5 I6 I7 I8 I9 I10 I11 I12 I13].
  assert (Wids : forall a, In a (map fst (waiting os)) <-> In a (gy_ids g)).
  { intros a. rewrite (waiting_iff I6). split.
    - intros (ob & G & F). destruct (in_dec Z.eq_dec a (gy_ids g)) as [|Ni]; auto. destruct (I9 a ob G Ni) as [C _]. congruence.
    - intros Ia. apply In_nth_error in Ia as [j Hj]. pose proof (nth_lt I2 Hj) as Lj.
      destruct (nth_ex I1 Lj) as [e He]. destruct (nth_ex I3 Lj) as [s Hs]. destruct (I8 j a e s Hj He Hs) as (ob & A1 & A2 & _). eauto. }
  assert (Nw : NoDup (map fst (waiting os))). { unfold waiting. apply NoDup_filter_keys. exact I6. }
  assert (Pw : Permutation (map fst (waiting os)) (gy_ids g)) by (apply NoDup_Permutation; auto).
  assert (Lw : List.length (waiting os) = n). { rewrite <- I2, <- (Permutation_length Pw), map_length. reflexivity. }
  assert (Sh : Forall (fun x => exists o, o_data (snd x) = [("obs", o)] /\ List.length o = dobs) os).
  { apply Forall_forall. intros [a ob] Ia. cbn [snd]. pose proof (In_dget _ _ _ I6 Ia) as G.
    destruct (in_dec Z.eq_dec a (gy_ids g)) as [Ii|Ni].
    - apply In_nth_error in Ii as [j Hj]. pose proof (nth_lt I2 Hj) as Lj. destruct (nth_ex I1 Lj) as [e He]. destruct (nth_ex I3 Lj) as [s Hs].
      destruct (I8 j a e s Hj He Hs) as (ob' & A1 & _ & A2 & _). rewrite G in A1. injection A1 as <-. apply play_shape in A2. apply Forall_app in A2 as [_ A2]. inversion A2; auto.
    - destruct (I9 a ob G Ni) as (_ & e & A2). apply play_shape in A2. apply Forall_app in A2 as [_ A2]. inversion A2; auto. }
  destruct (HA i I6) as (rs & Ers & Krs & Frs); [intros C; rewrite C in Lw; cbn in Lw; lia|exact Sh|].
  assert (Nrs : NoDup (dkeys rs)) by (rewrite Krs; auto).
  assert (Gact : forall id, In id (gy_ids g) -> exists a, dget rs id = Some (mkResp [("actions", a)] [])).
  { intros id Ii. apply Wids in Ii. rewrite <- Krs in Ii. destruct (dget_key _ _ Ii) as [r Hr]. pose proof (dget_In _ _ Hr) as Hi. rewrite Forall_forall in Frs. destruct (Frs _ Hi) as (a & Ea & _). cbn in Ea. subst. eauto. }
  destruct (@rmapM_ok _ _ (fun id => match dget rs id with None => Err KeyError | Some r => match dget (r_list r) "actions" with None => Err KeyError | Some a => Ok a end end) (gy_ids g)) as (acts & B1 & B2 & B3).
  { intros x Ix. destruct (Gact x Ix) as [a Ea]. rewrite Ea. exists a. reflexivity. }
  set (evs := map (fun ea => vec_one env (fst ea) (snd ea)) (combine (gy_envs g) acts)).
  set (vs := map snd evs).
  set (sums := map (fun sv => (fst sv + num (v_reward (snd sv)))%R) (combine (gy_sums g) vs)).
  set (l := combine (combine (gy_ids g) sums) vs).
  assert (Lev : List.length evs = n) by (unfold evs; rewrite map_length, combine_length; lia).
  assert (Lvs : List.length vs = n) by (unfold vs; rewrite map_length; auto).
  assert (Lsu : List.length sums = n) by (unfold sums; rewrite map_length, combine_length; lia).
  assert (Ll : List.length l = n) by (unfold l; rewrite !combine_length; lia).
  assert (Lid : map (fun x => fst (fst x)) l = gy_ids g).
  { unfold l. rewrite <- (map_map fst fst). rewrite map_fst_combine by (rewrite combine_length; lia). apply map_fst_combine. lia. }
  assert (Lsn : map snd l = vs). { unfold l. apply map_snd_combine. rewrite combine_length. lia. }
  (* everything about environment j *)
  assert (At : forall j, (j < n)%nat -> exists id e s a e' v ob, nth_error (gy_ids g) j = Some id /\ nth_error (gy_envs g) j = Some e /\ nth_error (gy_sums g) j = Some s /\
     dget rs id = Some (mkResp [("actions", a)] []) /\ vec_one env e a = (e', v) /\ nth_error evs j = Some (e', v) /\
     nth_error l j = Some (id, (s + num (v_reward v))%R, v) /\
     dget os id = Some ob /\ is_final (o_state ob) = false /\ play (stream id h ++ [(ob, None)]) e /\ s = (off id + total num (stream id h ++ [(ob, None)]))%R).
  { intros j Hj. destruct (nth_ex I2 Hj) as [id Hid]. destruct (nth_ex I1 Hj) as [e He]. destruct (nth_ex I3 Hj) as [s Hs].
    destruct (B3 j id Hid) as (a & Ha & Fa). destruct (Gact id (nth_error_In _ _ Hid)) as [a' Ea]. rewrite Ea in Fa. cbn in Fa. injection Fa as ->.
    destruct (I8 j id e s Hid He Hs) as (ob & A1 & A2 & A3 & A4). destruct (vec_one env e a) as [e' v] eqn:V.
    assert (Hev : nth_error evs j = Some (e', v)). { unfold evs. rewrite (nth_map2 (fun x y => vec_one env x y) He Ha). congruence. }
    assert (Hvs : nth_error vs j = Some v). { unfold vs. rewrite nth_error_map, Hev. reflexivity. }
    exists id, e, s, a, e', v, ob. repeat split; auto. unfold l. apply nth_combine_l; auto. apply nth_combine_l; auto. unfold sums.
    apply (nth_map2 (fun x y => (x + num (v_reward y))%R)); auto. }
  assert (Nl : NoDup (map (fun x => fst (fst x)) l)) by (rewrite Lid; auto).
  assert (Bl : forall x, In x (map (fun x => fst (fst x)) l) -> x < gy_next g) by (rewrite Lid; intros x Hx; apply I5; auto).
  pose proof (step_ok Nl Bl) as SP. cbv zeta in SP. pose proof (done_loop_ok [] Nl Bl) as DL. set (k := done_loop [] (gy_next g) l) in *.
  rewrite Lsn in SP. set (os' := running_obs (lp_results k) (lp_new k) (combine (lp_ids k) vs)) in *.
  destruct SP as [P1 P2 P3 P4 P5 P6 P7 P8]. rewrite Ll in P2, P3. rewrite Lid in P6, P7.
  set (g' := mkGym (map fst evs) (lp_next k) (lp_ids k) (lp_sums k)).
  assert (ES : dict_step num env g rs = Ok (g', os', match lp_completed k with [] => None | c => Some (rsum c / INR (List.length c))%R end)).
  { unfold dict_step, batched_actions. rewrite B1. reflexivity. }
  set (h' := h ++ [PAdd os rs dr]).
  assert (Sold : forall id ob, In id (gy_ids g) -> dget os id = Some ob -> exists a, dget rs id = Some (mkResp [("actions", a)] []) /\ stream id h' = stream id h ++ [(ob, Some (mkResp [("actions", a)] []))]).
  { intros id ob Ii G. destruct (Gact id Ii) as [a Ea]. exists a. split; auto. unfold h'. rewrite stream_snoc, G, Ea. reflexivity. }
  (* what the step does to environment j *)
  assert (Vec : forall e a e' v, vec_one env e a = (e', v) -> exists e1 an, g_step env e a = (e1, an) /\ v_reward v = an_reward an /\ v_term v = an_term an /\ v_trunc v = an_trunc an /\
     if done v then v_final v = an_obs an /\ g_reset env e1 = (e', v_obs v) else e1 = e' /\ v_obs v = an_obs an).
  { intros e a e' v V. unfold vec_one in V. destruct (g_step env e a) as [e1 an]. exists e1, an. split; auto. unfold done. destruct (an_term an || an_trunc an) eqn:D.
    - destruct (g_reset env e1) as [e2 o] eqn:R. injection V as <- <-. cbn [v_reward v_term v_trunc v_final v_obs]. rewrite D. auto.
    - injection V as <- <-. cbn [v_reward v_term v_trunc v_final v_obs]. rewrite D. auto. }
  assert (Dead : forall j id e s a e' v ob, nth_error (gy_ids g) j = Some id -> nth_error l j = Some (id, s, v) -> dget rs id = Some (mkResp [("actions", a)] []) -> vec_one env e a = (e', v) -> dget os id = Some ob ->
     is_final (o_state ob) = false -> play (stream id h ++ [(ob, None)]) e -> done v = true ->
     dget os' id = Some (term_obs v) /\ ~ In id (lp_ids k) /\ exists e1, play (stream id h' ++ [(term_obs v, None)]) e1).
  { intros j id e s a e' v ob A1 A7 A4 A5 A8 A9 A10 D. specialize (P5 j _ _ _ A7). rewrite D in P5. destruct P5 as (id' & _ & _ & _ & Q1 & _ & Q2). split; auto. split; auto.
    destruct (Vec _ _ _ _ A5) as (e1 & an & Es & R1 & R2 & R3 & R4). rewrite D in R4. destruct R4 as [R4 R5]. exists e1.
    destruct (Sold id ob (nth_error_In _ _ A1) A8) as (a' & Ea & ->). rewrite A4 in Ea. injection Ea as <-. rewrite <- app_assoc. cbn [app]. unfold term_obs, later_obs. rewrite R1, R4.
    assert (TERMINAL = any_end (an_term an) (an_trunc an)) as ->. { unfold any_end. rewrite <- R2, <- R3. unfold done in D. rewrite D. reflexivity. }
    eapply play_step; eauto. }
  exists rs, g', os'. eexists. split; [exact Ers|]. split; [exact ES|]. fold h'. split.
  - constructor; cbn [g' gy_envs gy_ids gy_sums gy_next]; auto.
    + rewrite map_length. auto.
    + intros x Hx. apply In_nth_error in Hx as [j Hj]. pose proof (nth_lt P2 Hj) as Lj. destruct (At j Lj) as (id & e & s & a & e' & v & ob & A1 & A2 & A3 & A4 & A5 & A6 & A7 & A8 & A9 & A10 & A11).
      specialize (P5 j _ _ _ A7). destruct (done v).
      * destruct P5 as (id' & Q1 & _ & Q2 & _). rewrite Q1 in Hj. injection Hj as ->. assert (0 <= gy_next g) by (specialize (I5 id (nth_error_In _ _ A1)); lia). lia.
      * destruct P5 as (Q1 & _). rewrite Q1 in Hj. injection Hj as ->. specialize (I5 x (nth_error_In _ _ A1)). lia.
    + intros x Hx. destruct (P6 x Hx) as [C|[C1 C]]; [specialize (I5 x C); lia|]. apply In_nth_error in C as [j Hj]. pose proof (nth_lt P2 Hj) as Lj. destruct (At j Lj) as (id & e & s & a & e' & v & ob & A1 & A2 & A3 & A4 & A5 & A6 & A7 & A8 & A9 & A10 & A11).
      specialize (P5 j _ _ _ A7). specialize (I5 id (nth_error_In _ _ A1)). destruct (done v).
      * destruct P5 as (id' & Q1 & _ & Q2 & _). rewrite Q1 in Hj. injection Hj as ->. lia.
      * destruct P5 as (Q1 & _). rewrite Q1 in Hj. injection Hj as ->. lia.
    + intros j id1 e1 s1 H1 H2 H3. pose proof (nth_lt P2 H1) as Lj. destruct (At j Lj) as (id & e & s & a & e' & v & ob & A1 & A2 & A3 & A4 & A5 & A6 & A7 & A8 & A9 & A10 & A11).
      rewrite nth_error_map, A6 in H2. cbn in H2. injection H2 as <-. destruct (Vec _ _ _ _ A5) as (e2 & an & Es & R1 & R2 & R3 & R4). pose proof (P5 j _ _ _ A7) as P5j. destruct (done v) eqn:D.
      * destruct P5j as (id' & Q1 & Q2 & Q3 & _ & Q4 & _). rewrite Q1 in H1. injection H1 as ->. rewrite Q2 in H3. injection H3 as <-. destruct R4 as [_ R4].
        exists (initial_obs (v_obs v)). split; auto. split; auto.
        assert (Z0 : stream id1 h' = []). { unfold h'. rewrite stream_snoc, I11 by lia. destruct (dget os id1) eqn:G; auto. specialize (I7 id1). rewrite G in I7. assert (0 <= id1 < gy_next g) by (apply I7; discriminate). lia. }
        rewrite Z0. split; [eapply play_reset; eauto|]. rewrite I12 by lia. unfold total. cbn. lra.
      * destruct P5j as (Q1 & Q2 & Q3). rewrite Q1 in H1. injection H1 as ->. rewrite Q2 in H3. injection H3 as <-. destruct R4 as [-> R4].
        exists (later_obs RUNNING (v_reward v) (v_obs v)). split; auto. split; auto. destruct (Sold id1 ob (nth_error_In _ _ A1) A8) as (a' & Ea & ->). rewrite A4 in Ea. injection Ea as <-. split.
        -- rewrite <- app_assoc. cbn [app]. unfold later_obs. rewrite R1, R4.
           assert (RUNNING = any_end (an_term an) (an_trunc an)) as ->. { unfold any_end. rewrite <- R2, <- R3. unfold done in D. rewrite D. reflexivity. }
           eapply play_step; eauto.
        -- rewrite A11. rewrite !total_app. unfold total. cbn. lra.
    + intros id1 ob1 G1 Ni. destruct (P6 id1) as [C|[_ C]]; [congruence| |contradiction]. apply In_nth_error in C as [j Hj]. pose proof (nth_lt I2 Hj) as Lj.
      destruct (At j Lj) as (id & e & s & a & e' & v & ob & A1 & A2 & A3 & A4 & A5 & A6 & A7 & A8 & A9 & A10 & A11). rewrite A1 in Hj. injection Hj as ->. destruct (done v) eqn:D.
      * destruct (Dead j id1 e _ a e' v ob A1 A7 A4 A5 A8 A9 A10 D) as (Q1 & _ & Q3). rewrite G1 in Q1. injection Q1 as ->. split; auto.
      * specialize (P5 j _ _ _ A7). rewrite D in P5. destruct P5 as (Q1 & _). apply nth_error_In in Q1. contradiction.
    + intros id1 G1. unfold h'. rewrite stream_snoc. destruct (dget os id1) as [ob|] eqn:G; [|rewrite app_nil_r; auto].
      destruct (in_dec Z.eq_dec id1 (gy_ids g)) as [Ii|Ni].
      * apply In_nth_error in Ii as [j Hj]. pose proof (nth_lt I2 Hj) as Lj. destruct (At j Lj) as (id & e & s & a & e' & v & ob' & A1 & A2 & A3 & A4 & A5 & A6 & A7 & A8 & A9 & A10 & A11). rewrite A1 in Hj. injection Hj as ->.
        specialize (P5 j _ _ _ A7). destruct (done v); [destruct P5 as (id' & _ & _ & _ & Q & _)|destruct P5 as (_ & _ & Q)]; congruence.
      * destruct (I9 id1 ob G Ni) as (F & e & Pl). right. assert (Gr : dget rs id1 = None). { apply dget_None. rewrite Krs, Wids. auto. } rewrite Gr. exists (stream id1 h), ob, e. auto.
    + intros id1 Hid. unfold h'. rewrite stream_snoc, I11 by lia. destruct (dget os id1) eqn:G; auto. specialize (I7 id1). rewrite G in I7. assert (0 <= id1 < gy_next g) by (apply I7; discriminate). lia.
    + intros id1 Hid. apply I12. lia.
    + apply Forall_app. split; auto. constructor; [|constructor]. cbn [call_ok]. repeat split; auto; [|eauto]. apply Forall_forall. intros x Hx. apply dget_key in Hx as [ob G]. apply (I7 x). congruence.
  - assert (Eend : forall a, In a (ended os') <-> In a (map (fun x => fst (fst x)) (filter (fun x => done (snd x)) l))).
    { intros a. unfold ended. rewrite !in_map_iff. split.
      - intros ([a' ob1] & <- & I). apply filter_In in I as [I F]. cbn [snd fst] in *. pose proof (In_dget _ _ _ P8 I) as G1.
        destruct (P6 a') as [C|[C0 C]]; [congruence| |].
        + apply In_nth_error in C as [j Hj]. pose proof (nth_lt I2 Hj) as Lj. destruct (At j Lj) as (id & e & s & aa & e' & v & ob' & A1 & A2 & A3 & A4 & A5 & A6 & A7 & A8 & A9 & A10 & A11). rewrite A1 in Hj. injection Hj as ->.
          exists (a', (s + num (v_reward v))%R, v). split; auto. apply filter_In. split; [eapply nth_error_In; eauto|]. cbn [snd]. destruct (done v) eqn:D; auto. specialize (P5 j _ _ _ A7). rewrite D in P5. destruct P5 as (_ & _ & Q). rewrite G1 in Q. injection Q as ->. discriminate.
        + exfalso. apply In_nth_error in C as [j Hj]. pose proof (nth_lt P2 Hj) as Lj. destruct (At j Lj) as (id & e & s & aa & e' & v & ob' & A1 & A2 & A3 & A4 & A5 & A6 & A7 & A8 & A9 & A10 & A11).
          specialize (P5 j _ _ _ A7). destruct (done v) eqn:D.
          * destruct P5 as (id' & Q1 & _ & _ & _ & Q & _). rewrite Q1 in Hj. injection Hj as ->. rewrite G1 in Q. injection Q as ->. discriminate.
          * destruct P5 as (Q1 & _ & Q). rewrite Q1 in Hj. injection Hj as ->. rewrite G1 in Q. injection Q as ->. discriminate.
      - intros ([[a' s'] v] & <- & I). apply filter_In in I as [I D]. cbn [snd fst] in *. apply In_nth_error in I as [j Hj]. specialize (P5 j _ _ _ Hj). rewrite D in P5. destruct P5 as (id' & _ & _ & _ & Q & _).
        exists (a', term_obs v). split; auto. apply filter_In. split; [apply dget_In; auto|reflexivity]. }
    assert (Pe : Permutation (map (fun x => fst (fst x)) (filter (fun x => done (snd x)) l)) (ended os')).
    { apply NoDup_Permutation; [| |intros a; symmetry; apply Eend].
      - apply NoDup_map_filter. exact Nl.
      - unfold ended. apply NoDup_filter_keys. exact P8. }
    rewrite (dl_completed DL).
    assert (Val : map (fun x => snd (fst x)) (filter (fun x => done (snd x)) l) = map (fun a => off a + total num (so_far h' os' a))%R (map (fun x => fst (fst x)) (filter (fun x => done (snd x)) l))).
    { rewrite map_map. apply map_ext_in. intros [[id1 s'] v] I. apply filter_In in I as [I D]. cbn [fst snd] in *. apply In_nth_error in I as [j Hj]. pose proof (nth_lt Ll Hj) as Lj.
      destruct (At j Lj) as (id & e & s & aa & e' & v' & ob' & A1 & A2 & A3 & A4 & A5 & A6 & A7 & A8 & A9 & A10 & A11). rewrite A7 in Hj. injection Hj as -> <- ->.
      destruct (Dead j id1 e _ aa e' v ob' A1 A7 A4 A5 A8 A9 A10 D) as (Q1 & _ & _). unfold so_far. rewrite Q1.
      destruct (Sold id1 ob' (nth_error_In _ _ A1) A8) as (a' & Ea & ->). rewrite A11. rewrite !total_app. unfold total. cbn. lra. }
    rewrite Val. set (f := fun a => (off a + total num (so_far h' os' a))%R).
    pose proof (Permutation_map f Pe) as Pf. set (A := map f (map _ (filter _ l))) in *. clearbody A. set (B := map f (ended os')) in *. clearbody B.
    pose proof (Permutation_length Pf) as LAB. pose proof (rsum_perm Pf) as RAB. destruct A, B; try discriminate; auto. unfold mean_of. rewrite RAB, LAB. reflexivity.
Qed.
End P.
