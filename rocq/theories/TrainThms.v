(** * TrainThms: the theorems C44-C48 *)
From Coq Require Import Permutation Sorted.
From Verif Require Import Py PyLemmas TrainModel TrainSpec TrainProofs TrainState TrainMain TrainMore.
Set Implicit Arguments.
Unset Strict Implicit.
Open Scope string_scope.
Open Scope list_scope.
Open Scope Z_scope.

Section P.
Context {O W : Type}.
Notation world := (world O W).
Notation entry := (entry O).

(** ** C44 *)
Lemma cycle_steps (act : behaviour O W) size cbs d st0 w s out a ph c x seen r b :
  train act size cbs d st0 w = (s, out) ->
  leaves act cbs before_training "bp_step" ->
  wd_trace s = a ++ TCall ph c x seen r :: b ->
  (ph = PBeginCycle -> exists p q, In c cbs /\ cb_cycle c = Some p /\ 0 < p /\ 0 <= q
                              /\ Z.of_nat (List.length (batches a)) = q * p + 1)
  /\ (ph = PEndCycle -> exists p q, In c cbs /\ cb_cycle c = Some p /\ 0 < p /\ 0 < q
                              /\ Z.of_nat (List.length (batches a)) = q * p).
Proof.
  intros H Lv E. split; intros ->.
  - destruct (train_call_in_step _ _ _ _ _ _ _ _ _ _ H Lv E)
      as (a1 & k & b1 & a2 & rest & _ & _ & K & P & C); try discriminate.
    assert (I : In (PBeginCycle, c) (step_calls (sort_cbs cbs) k))
      by (rewrite <- C; apply in_or_app; right; left; auto).
    apply in_step_calls in I. destruct I as (I & F & _).
    destruct (first_of_cycle_spec _ P (F eq_refl)) as (p & q & Cy & Pp & Q & Kq).
    exists p, q. repeat split; auto; [apply sort_incl; auto|]. congruence.
  - destruct (train_call_in_step _ _ _ _ _ _ _ _ _ _ H Lv E)
      as (a1 & k & b1 & a2 & rest & _ & _ & K & P & C); try discriminate.
    assert (I : In (PEndCycle, c) (step_calls (sort_cbs cbs) k))
      by (rewrite <- C; apply in_or_app; right; left; auto).
    apply in_step_calls in I. destruct I as (I & _ & F & _).
    destruct (last_of_cycle_spec _ P (F eq_refl)) as (p & q & Cy & Pp & Q & Kq).
    exists p, q. repeat split; auto; [apply sort_incl; auto|]. congruence.
Qed.

(** [tr] are the entries of a run up to the end of its n-th step. *)
Definition after_steps (s : world) (out : outcome) (n : nat) (tr : list entry) : Prop :=
  List.length (batches tr) = n
  /\ ((exists k b rest, wd_trace s = tr ++ TBatch k b :: rest) \/ (out = Running /\ wd_trace s = tr)).

Lemma running_calls (act : behaviour O W) size cbs d st0 w s :
  train act size cbs d st0 w = (s, Running) ->
  leaves act cbs before_training "bp_step" ->
  calls (wd_trace s) = opening (sort_cbs cbs) ++ steps_calls (sort_cbs cbs) 1 (List.length (da_items d))
  /\ List.length (batches (wd_trace s)) = List.length (da_items d) /\ quiet (wd_trace s).
Proof.
  intros H Lv. destruct (train_order _ _ _ _ _ _ H)
    as [(e & _ & _ & Eo)|(s1 & es1 & T1 & C1 & Q1 & B1 & A & D)].
  - destruct e; discriminate.
  - destruct D as [(e & E & F & K)|(k & s2 & r2 & es2 & K & L & T2 & F2 & F)].
    + rewrite (first_step_1 _ _ Lv A) in K. discriminate.
    + rewrite (first_step_1 _ _ Lv A) in K. injection K as <-.
      apply finish_cases in F. simpl in F. destruct r2 as [u|e].
      * destruct F as [-> _]. destruct F2 as [Q2 C2]. rewrite T2, calls_app, C1, C2. split; auto.
        destruct u. destruct (loop_batches _ _ _ _ _ _ L) as (es2' & T2' & _ & L2 & _).
        rewrite T2, T1 in T2'. apply app_inv_head in T2'. subst es2'.
        rewrite batches_app, B1. simpl app. split; auto. apply quiet_app; auto.
      * destruct F as (r3 & _ & Eo). destruct r3; [destruct e|]; discriminate.
Qed.

Lemma after_steps_calls (act : behaviour O W) size cbs d st0 w s out n tr :
  train act size cbs d st0 w = (s, out) ->
  leaves act cbs before_training "bp_step" ->
  after_steps s out n tr ->
  calls tr = opening (sort_cbs cbs) ++ steps_calls (sort_cbs cbs) 1 n.
Proof.
  intros H Lv [N [(k & b & rest & E)|[-> E]]].
  - destruct (train_at_batch _ _ _ _ _ _ _ _ H Lv E) as [C _]. rewrite C, N. auto.
  - destruct (running_calls H Lv) as (C & B & _). rewrite E in *. rewrite C. congruence.
Qed.

Lemma cycle_counts (act : behaviour O W) size cbs d st0 w s out n tr c :
  train act size cbs d st0 w = (s, out) ->
  leaves act cbs before_training "bp_step" ->
  NoDup (map cb_id cbs) -> In c cbs ->
  after_steps s out n tr ->
  match cb_cycle c with
  | Some p =>
      (0 < p ->
         Z.of_nat (count PBeginCycle (cb_id c) (calls tr)) = (Z.of_nat n + p - 1) / p
         /\ Z.of_nat (count PEndCycle (cb_id c) (calls tr)) = Z.of_nat n / p)
      /\ (p <= 0 -> count PBeginCycle (cb_id c) (calls tr) = 0%nat
              /\ count PEndCycle (cb_id c) (calls tr) = 0%nat)
  | None => count PBeginCycle (cb_id c) (calls tr) = 0%nat
            /\ count PEndCycle (cb_id c) (calls tr) = 0%nat
  end.
Proof.
  intros H Lv ND I A. rewrite (after_steps_calls H Lv A), !count_app, !count_opening by discriminate.
  simpl Nat.add. pose proof (NoDup_sort _ ND) as ND'. pose proof (@incl_sort cbs c I) as I'.
  pose proof (@count_no_cycle _ c PBeginCycle n ND' I') as N1.
  pose proof (@count_no_cycle _ c PEndCycle n ND' I') as N2.
  destruct (cb_cycle c) as [p|] eqn:Cy.
  - split; intros P.
    + split; [apply count_begins|apply count_ends]; auto.
    + split; auto.
  - split; auto.
Qed.

(** ** C46 *)
Lemma count_prefix_zero ph id (l rest whole : list (phase * callback)) :
  l ++ rest = whole -> count ph id whole = 0%nat -> count ph id l = 0%nat.
Proof. intros <-. rewrite count_app. lia. Qed.
Lemma count_firstn_zero ph id n (l : list (phase * callback)) :
  count ph id l = 0%nat -> count ph id (firstn n l) = 0%nat.
Proof. intros Z. apply count_prefix_zero with (rest := skipn n l) (whole := l); auto. apply firstn_skipn. Qed.
Lemma count_closing l id ph : ph <> PEndTraining -> count ph id (closing l) = 0%nat.
Proof. intros N. unfold closing. apply count_all_of_other; auto. Qed.
Lemma count_steps_end l id k n : count PEndTraining id (steps_calls l k n) = 0%nat.
Proof.
  revert k. induction n as [|n IH]; intros k; auto.
  rewrite steps_calls_S, count_app, IH. unfold step_calls.
  rewrite !count_app, !count_all_of_other by discriminate. auto.
Qed.
Lemma raises_call (x : entry) e : raises x = Some e -> calls [x] <> [].
Proof. destruct x; simpl; intros; discriminate. Qed.

Definition begun (cbs : list callback) (tr : list entry) : Prop :=
  exists l a b, in_order cbs l /\ tr = a ++ b /\ calls a = opening l /\ quiet a.

Lemma opening_length l l' : Permutation l l' -> List.length (opening l) = List.length (opening l').
Proof.
  intros P. unfold opening, all_of. rewrite !app_length, !map_length.
  rewrite (Permutation_length P). auto.
Qed.

Lemma end_once (act : behaviour O W) size cbs d st0 w s out :
  train act size cbs d st0 w = (s, out) ->
  total act cbs (fun ph => ph = PEndTraining) ->
  NoDup (map cb_id cbs) ->
  begun cbs (wd_trace s) -> out <> Running ->
  (* the data loader was exhausted *)
  (da_ends d = true /\ quiet (wd_trace s) /\ out = Returned
   /\ forall c, In c cbs -> count PEndTraining (cb_id c) (calls (wd_trace s)) = 0%nat)
  \/ exists e, out = match e with Shutdown => Returned | _ => Raised e end
     /\ (forall c, In c cbs -> count PEndTraining (cb_id c) (calls (wd_trace s)) = 1%nat)
     /\ (forall a c x seen r b, wd_trace s = a ++ TCall PEndTraining c x seen r :: b -> x = Some e).
Proof.
  intros H Tot ND (l0 & a & b & IO & T & C & Q) NR.
  pose proof (train_shape _ _ _ _ _ _ H) as Sh.
  destruct (train_order_main _ _ _ _ _ _ H) as (l & k0 & IO' & _ & D).
  destruct D as [(n & e & tr0 & x & Cn & Tn & Qn & Rx & _)|[(Qt & Ct & Eo)|(main & fin & n & e & Tm & Cm & St & X & D)]].
  - exfalso. rewrite Tn in T. rewrite Tn in Cn.
    assert (Cb : calls b = []).
    { assert (L : (List.length (calls (tr0 ++ [x])) <= List.length (opening l))%nat).
      { rewrite Cn, firstn_length. lia. }
      rewrite T, calls_app, app_length, C in L.
      rewrite (@opening_length l0 l) in L.
      - destruct (calls b); auto. simpl in L. lia.
      - destruct IO as [P0 _], IO' as [P1 _]. eapply Permutation_trans; [apply Permutation_sym; eauto|auto]. }
    destruct b as [|y b _] using rev_ind.
    + rewrite app_nil_r in T. subst a. apply Forall_app in Q. destruct Q as [_ Q]. inversion Q. congruence.
    + rewrite app_assoc in T. apply app_inj_tail in T. destruct T as [_ <-].
      rewrite calls_app in Cb. apply app_eq_nil in Cb. destruct Cb as [_ Cb].
      eapply raises_call; eauto.
  - left. destruct (da_ends d); [|congruence]. repeat split; auto.
    intros c I. rewrite Ct, count_app, count_opening, count_steps_end by discriminate. auto.
  - right. exists e.
    assert (CM : forall c, In c cbs -> count PEndTraining (cb_id c) (calls main) = 0%nat).
    { intros c I. rewrite Cm, count_app, count_opening by discriminate.
      rewrite count_firstn_zero; auto. apply count_steps_end. }
    assert (CF : calls fin = closing l /\ out = match e with Shutdown => Returned | _ => Raised e end).
    { destruct D as [(Qf & Cf & Eo)|(tr0 & x & e' & rest & Tf & Qf & Rx & Cf & Eo)]; auto.
      exfalso. destruct Sh as (es1 & es2 & fin' & k & _ & _ & _ & _ & _ & _ & _ & _ & _ & G).
      rewrite Tm, Tf in G. apply Forall_app in G. destruct G as [_ G]. apply Forall_app in G.
      destruct G as [_ G]. inversion G; subst. destruct x as [|ph c x seen [u|ex]]; try discriminate.
      destruct H2 as [I [w' A]].
      assert (Ph : ph = PEndTraining).
      { apply (@in_closing l ph c). rewrite <- Cf. apply in_or_app. left. rewrite calls_app.
        apply in_or_app. right. left. auto. }
      destruct (Tot c ph x seen w' I Ph) as [u U]. congruence. }
    destruct CF as [Cf Eo]. split; auto. split.
    + intros c I. rewrite Tm, calls_app, count_app, CM, Cf by auto. unfold closing. rewrite count_all_of.
      destruct IO' as [P _]. simpl.
      rewrite filter_id_one; auto.
      * eapply Permutation_NoDup; [apply Permutation_map; exact P|auto].
      * eapply Permutation_in; eauto.
    + intros a' c x seen r b' E. rewrite Tm in E. apply app_mid in E.
      destruct E as [(b'' & E & _)|(a'' & _ & E)].
      * exfalso.
        assert (Z : In (PEndTraining, c) (calls main)) by (rewrite E; apply in_calls).
        rewrite Cm in Z. apply in_app_or in Z. destruct Z as [Z|Z].
        -- apply in_opening in Z. destruct Z; discriminate.
        -- assert (Z' : In (PEndTraining, c) (steps_calls l k0 (Datatypes.length (da_items d)))).
           { rewrite <- (firstn_skipn n). apply in_or_app. auto. }
           apply in_flat_map in Z'. destruct Z' as (i & _ & Z'). apply in_step_calls in Z'. tauto.
      * rewrite E in X. apply Forall_app in X. destruct X as [_ X]. inversion X. auto.
Qed.

(** An exception of a hook during training, other than shutdown, is what
    train() raises. *)
Lemma reraised (act : behaviour O W) size cbs d st0 w s out a ph c x seen e b :
  train act size cbs d st0 w = (s, out) ->
  total act cbs (fun ph => ph = PEndTraining) ->
  wd_trace s = a ++ TCall ph c x seen (Err e) :: b ->
  out = if (match ph with PRestore | PBeginTraining => true | _ => false end)
        then match e with Shutdown => Returned | _ => Raised OtherError end
        else match e with Shutdown => Returned | _ => Raised e end.
Proof.
  intros H Tot T.
  pose proof (train_shape _ _ _ _ _ _ H) as Sh.
  destruct (train_order_main _ _ _ _ _ _ H) as (l & k0 & IO' & _ & D).
  destruct D as [(n & e' & tr0 & y & Cn & Tn & Qn & Rx & Eo)|[(Qt & _)|(main & fin & n & e' & Tm & Cm & St & X & D)]].
  - rewrite Tn in T. apply snoc_split in T. destruct T as [(-> & E & _)|(b' & E)].
    + subst y. simpl in Rx. injection Rx as <-.
      assert (I : In (ph, c) (opening l)).
      { rewrite <- (firstn_skipn n). apply in_or_app. left. rewrite <- Cn, Tn, calls_app.
        apply in_or_app. right. left. auto. }
      apply in_opening in I. destruct I; subst ph; auto.
    + exfalso. rewrite E in Qn. apply Forall_app in Qn. destruct Qn as [_ Qn]. inversion Qn. discriminate.
  - exfalso. rewrite T in Qt. apply Forall_app in Qt. destruct Qt as [_ Qt]. inversion Qt. discriminate.
  - rewrite Tm in T. apply app_mid in T. destruct T as [(b' & E & _)|(a' & _ & E)].
    + (* in the main part it is the last one *)
      assert (L : e = e' /\ (ph <> PRestore /\ ph <> PBeginTraining)).
      { destruct St as [[(tr0 & y & Em & Qm & Ry)|[Qm _]]|[Qm _]].
        - rewrite Em in E. apply snoc_split in E. destruct E as [(-> & E & _)|(b'' & E)].
          + subst y. simpl in Ry. split; [congruence|].
            (* it is not in the opening: that would have stopped before training began *)
            destruct (train_order _ _ _ _ _ _ H)
              as [(e0 & (n0 & C0) & _ & Eo)|(s1 & es1 & T1 & C1 & Q1 & B1 & A & DD)].
            * exfalso. assert (P0 : calls (wd_trace s) = calls main ++ calls fin) by (rewrite Tm, calls_app; auto).
              (* closing was called or failed: fin cannot be empty unless there are no callbacks *)
              assert (NB : In (ph, c) (calls main)) by (rewrite Em, calls_app; apply in_or_app; right; left; auto).
              assert (Lc : l <> []).
              { intros ->. rewrite Cm in NB. simpl in NB. unfold steps_calls, step_calls, opening in NB.
                simpl in NB. rewrite flat_map_concat_map in NB.
                assert (Zr : forall m, concat (map (fun _ : nat => @nil (phase * callback)) m) = []).
                { intros m. induction m; auto. }
                rewrite Zr, firstn_nil in NB. auto. }
              destruct fin as [|f fin].
              -- destruct D as [(_ & Cf & _)|(tr1 & x1 & e1 & r1 & Tf & _)].
                 ++ destruct l; [congruence|discriminate].
                 ++ destruct tr1; discriminate.
              -- inversion X as [|? ? Xf XF]; subst. destruct f as [|phf cf xf sf rf]; [destruct Xf|].
                 assert (If : In (phf, cf) (closing l)).
                 { destruct D as [(_ & Cf & _)|(tr1 & x1 & e1 & r1 & Tf & _ & _ & Cf & _)].
                   - rewrite <- Cf. left; auto.
                   - rewrite <- Cf. left; auto. }
                 apply in_closing in If. subst phf.
                 assert (Io : In (PEndTraining, cf) (opening (sort_cbs cbs))).
                 { rewrite <- (firstn_skipn n0). apply in_or_app. left. rewrite <- C0, P0.
                   apply in_or_app. right. left. auto. }
                 apply in_opening in Io. destruct Io; discriminate.
            * assert (Pl : List.length es1 = List.length (opening (sort_cbs cbs))).
              { rewrite <- C1. clear - B1. induction es1 as [|[k b|ph c x s r] es IH]; auto.
                - discriminate.
                - simpl. f_equal. apply IH. auto. }
              assert (Ls : exists tl, wd_trace s = es1 ++ tl).
              { destruct DD as [(e1 & _ & Fi & _)|(k & s2 & r2 & es2 & _ & _ & T2 & _ & Fi)].
                - apply finish_closes in Fi. destruct Fi as (fin' & -> & _). rewrite T1. eauto.
                - destruct r2 as [u|e1].
                  + apply finish_cases in Fi. simpl in Fi. destruct Fi as [-> _]. rewrite T2. eauto.
                  + apply finish_closes in Fi. destruct Fi as (fin' & -> & _). rewrite T2, <- app_assoc. eauto. }
              destruct Ls as [tl Ls]. rewrite Ls in Tm. symmetry in Tm. rewrite Em in Tm.
              rewrite <- app_assoc in Tm. simpl in Tm. symmetry in Tm. apply app_mid in Tm.
              destruct Tm as [(b3 & E3 & _)|(a3 & E3 & _)].
              -- rewrite E3 in Q1. apply Forall_app in Q1. destruct Q1 as [_ Q1]. inversion Q1. discriminate.
              -- (* calls tr0 already contains the whole opening *)
                 assert (Nph : In (ph, c) (firstn n (steps_calls l k0 (Datatypes.length (da_items d))))).
                 { rewrite Em, E3, !calls_app, C1, <- app_assoc in Cm.
                   assert (LL : List.length (opening (sort_cbs cbs)) = List.length (opening l)).
                   { apply opening_length. destruct IO' as [P1 _].
                     eapply Permutation_trans; [apply Permutation_sym, sort_perm|auto]. }
                   assert (Ct : calls a3 ++ calls [TCall ph c x seen (Err e)]
                                = firstn n (steps_calls l k0 (Datatypes.length (da_items d)))).
                   { clear - Cm LL. revert Cm LL. generalize (opening (sort_cbs cbs)) (opening l).
                     induction l0 as [|p q IH]; intros [|p' q'] E L; simpl in *; try discriminate; auto.
                     injection E as _ E. eapply IH; eauto. }
                   rewrite <- Ct. apply in_or_app. right. left. auto. }
                 assert (Ns : In (ph, c) (steps_calls l k0 (Datatypes.length (da_items d)))).
                 { rewrite <- (firstn_skipn n). apply in_or_app. auto. }
                 apply in_flat_map in Ns. destruct Ns as (i & _ & Ns). apply in_step_calls in Ns. tauto.
          + exfalso. rewrite E in Qm. apply Forall_app in Qm. destruct Qm as [_ Qm]. inversion Qm. discriminate.
        - exfalso. rewrite E in Qm. apply Forall_app in Qm. destruct Qm as [_ Qm]. inversion Qm. discriminate.
        - exfalso. rewrite E in Qm. apply Forall_app in Qm. destruct Qm as [_ Qm]. inversion Qm. discriminate. }
      destruct L as [<- [N1 N2]].
      assert (Eo : out = match e with Shutdown => Returned | _ => Raised e end).
      { destruct D as [(Qf & Cf & Eo)|(tr0 & y & e' & rest & Tf & Qf & Rx & Cf & Eo)]; auto.
        exfalso. destruct Sh as (es1 & es2 & fin' & k & _ & _ & _ & _ & _ & _ & _ & _ & _ & G).
        rewrite Tm, Tf in G. apply Forall_app in G. destruct G as [_ G]. apply Forall_app in G.
        destruct G as [_ G]. inversion G; subst. destruct y as [|phy cy xy seeny [u|ex]]; try discriminate.
        destruct H2 as [I [w' A]].
        assert (Ph : phy = PEndTraining).
        { apply (@in_closing l phy cy). rewrite <- Cf. apply in_or_app. left. rewrite calls_app.
          apply in_or_app. right. left. auto. }
        destruct (Tot cy phy xy seeny w' I Ph) as [u U]. congruence. }
      destruct ph; try congruence; auto.
    + exfalso. destruct Sh as (es1 & es2 & fin' & k & _ & _ & _ & _ & _ & _ & _ & _ & _ & G).
      rewrite Tm, E in G. apply Forall_app in G. destruct G as [_ G]. apply Forall_app in G.
      destruct G as [_ G]. inversion G; subst. destruct H2 as [I [w' A]].
      assert (Ph : ph = PEndTraining).
      { assert (Z : In (ph, c) (calls (a' ++ TCall ph c x seen (Err e) :: b))) by apply in_calls.
        apply (@in_closing l ph c). destruct D as [(_ & <- & _)|(tr0 & y & e1 & rest & _ & _ & _ & <- & _)]; auto.
        apply in_or_app; auto. }
      destruct (Tot c ph x seen w' I Ph) as [u U]. congruence.
Qed.
End P.
