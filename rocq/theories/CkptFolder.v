(** * CkptFolder: every checkpoint of a run succeeds, whether or not the folder
    existed before (C53) *)
From Coq Require Import Permutation Sorted.
From Verif Require Import Py PyLemmas TrainModel TrainSpec TrainProofs TrainState TrainMain TrainMore TrainThms TrainThms2
  CkptModel CkptSpec CkptProofs CkptRun CkptMain.
Set Implicit Arguments.
Unset Strict Implicit.
Open Scope string_scope.
Open Scope list_scope.
Open Scope Z_scope.

Section Run.
Context {O X D E : Type}.
Variable path_obj : string -> O.
Variable state_dict : string -> X -> D.
Variable load_state_dict : string -> D -> bool -> bool -> bool -> X -> X.
Notation cworld := (cworld O X D E).
Variable (cid lid : nat) (folder : string) (names : list string) (lo : loader_cfg).
Variable act : behaviour O cworld.
Notation act' := (with_checkpoints path_obj state_dict load_state_dict cid folder names lid lo act).
Hypothesis keeps : keeps_files act [cid; lid].
Hypothesis objs_stay : forall c ph x st w, ~ In (cb_id c) [cid; lid] ->
  incl names (dkeys (cw_objs w)) -> incl names (dkeys (cw_objs (fst (act c ph x st w)))).

Definition begun (tr : list (entry O)) : Prop :=
  exists c x seen u, In (TCall PBeginTraining c x seen (Ok u)) tr /\ cb_id c = cid.
Definition healthy (s : world O cworld) : Prop :=
  In "bp_step" (dkeys (wd_state s)) /\ In "bp_samples" (dkeys (wd_state s))
  /\ incl names (dkeys (cw_objs (wd_world s)))
  /\ (begun (wd_trace s) -> In folder (cw_dirs (wd_world s)))
  /\ forall a c x seen e b, wd_trace s = a ++ TCall PEndCycle c x seen (Err e) :: b -> cb_id c = cid -> ~ begun a.

Lemma load_all_keys nm saved (objs : dict string X) :
  incl (dkeys objs) (dkeys (fst (load_all load_state_dict lo nm saved objs))).
Proof.
  revert objs. induction nm as [|n r IH]; simpl; intros objs; [apply incl_refl|].
  destruct (dget saved n); [|apply incl_refl]. destruct (dget objs n); [|apply incl_refl].
  eapply incl_tran; [|apply IH]. intros k I.
  match goal with |- In k (dkeys (dset objs n ?v)) => change (dset objs n v) with (dupdate objs [(n, v)]) end.
  apply In_dkeys_dupdate. auto.
Qed.
Lemma load_restore_keys (w w' : cworld) r : load_restore load_state_dict lo w = (w', r) ->
  incl (dkeys (cw_objs w)) (dkeys (cw_objs w')).
Proof.
  unfold load_restore. intros H. destruct (negb _); [injection H as <- <-; apply incl_refl|].
  destruct (dget (cw_files w) _) as [f|]; [|injection H as <- <-; apply incl_refl].
  pose proof (@load_all_keys (lo_names lo) (cf_callbacks f) (cw_objs w)) as I.
  destruct (load_all _ lo (lo_names lo) (cf_callbacks f) (cw_objs w)) as [objs [u|e]]; injection H as <- <-; auto.
Qed.

Lemma grow_state (st u : tstate O) key : In key (dkeys st) -> In key (dkeys (dupdate st u)).
Proof. intros I. apply In_dkeys_dupdate. auto. Qed.
Lemma grow_dset (st : tstate O) k v key : In key (dkeys st) -> In key (dkeys (dset st k v)).
Proof. intros I. change (dset st k v) with (dupdate st [(k, v)]). apply grow_state. auto. Qed.
Lemma dset_key (st : tstate O) k v : In k (dkeys (dset st k v)).
Proof. change (dset st k v) with (dupdate st [(k, v)]). apply In_dkeys_dupdate. right. left. auto. Qed.
Lemma begun_snoc tr (e : entry O) : begun (tr ++ [e]) ->
  begun tr \/ exists c x seen u, e = TCall PBeginTraining c x seen (Ok u) /\ cb_id c = cid.
Proof.
  intros (c & x & seen & u & I & Ec). apply in_app_iff in I. destruct I as [I|[I|[]]].
  - left. exists c, x, seen, u. auto.
  - right. exists c, x, seen, u. auto.
Qed.

Lemma healthy_call ph c x s w r :
  act' c ph x (wd_state s) (wd_world s) = (w, r) -> healthy s ->
  healthy (mkWorld (match r with Ok u => dupdate (wd_state s) u | Err _ => wd_state s end) w
       (wd_trace s ++ [TCall ph c x (wd_state s) r])).
Proof.
  intros A (K1 & K2 & Ob & Fo & Er). unfold healthy. cbn [wd_state wd_world wd_trace].
  assert (KS : forall key, In key (dkeys (wd_state s)) ->
     In key (dkeys match r with Ok u => dupdate (wd_state s) u | Err _ => wd_state s end)).
  { intros key I. destruct r; auto. apply grow_state. auto. }
  split; [auto|]. split; [auto|].
  assert (Q : incl names (dkeys (cw_objs w))
      /\ incl (cw_dirs (wd_world s)) (cw_dirs w)
      /\ (ph = PBeginTraining -> cb_id c = cid -> In folder (cw_dirs w))
      /\ (ph = PEndCycle -> cb_id c = cid -> In folder (cw_dirs (wd_world s)) -> exists u, r = Ok u)).
  { unfold with_checkpoints in A. destruct (Nat.eqb_spec (cb_id c) cid) as [Ec|Nc].
    - destruct ph; try (injection A as <- <-; split; [auto|split; [apply incl_refl|split; [discriminate|discriminate]]]; fail).
      + injection A as <- <-. cbn [ckpt_begin_training cw_objs cw_dirs]. split; [auto|].
        destruct (inb folder (cw_dirs (wd_world s))) eqn:Ib.
        * apply inb_In in Ib. split; [apply incl_refl|]. split; [auto|discriminate].
        * split; [apply incl_tl, incl_refl|]. split; [intros; left; auto|discriminate].
      + destruct (end_cycle_cases A) as [(e & -> & ->)|(u & f & -> & Fi & Ix & Di & Oj & _)].
        * split; [auto|]. split; [apply incl_refl|]. split; [discriminate|]. intros _ _ If.
          assert (Rd : ready names (wd_state s, cw_objs (wd_world s), cw_rest (wd_world s))) by (simpl; auto).
          destruct (@end_cycle_ready O X D E path_obj state_dict folder names _ _ _ (wd_world s) Rd If) as (w1 & u & Eq).
          replace (mkCW _ _ _ _ _) with (wd_world s) in Eq by (destruct (wd_world s); auto).
          rewrite A in Eq. discriminate.
        * rewrite Oj, Di. split; [auto|]. split; [apply incl_refl|]. split; [discriminate|eauto].
    - destruct (Nat.eqb_spec (cb_id c) lid) as [El|Nl].
      + destruct ph; try (injection A as <- <-; split; [auto|split; [apply incl_refl|split; [tauto|tauto]]]; fail).
        destruct (@load_keeps O X D E load_state_dict lo _ _ _ A) as (_ & _ & Dr).
        split; [eapply incl_tran; [exact Ob|eapply load_restore_keys; eauto]|].
        rewrite Dr. split; [apply incl_refl|split; [tauto|tauto]].
      + assert (Ni : ~ In (cb_id c) [cid; lid]) by (simpl; intuition congruence).
        destruct (keeps ph x (wd_state s) (wd_world s) Ni) as (_ & _ & Dr).
        pose proof (@objs_stay c ph x (wd_state s) (wd_world s) Ni Ob) as Os.
        rewrite A in Dr, Os. cbn [fst] in Dr, Os. rewrite Dr. split; [auto|split; [apply incl_refl|split; [tauto|tauto]]]. }
  destruct Q as (Q1 & Q2 & Q3 & Q4). split; [auto|]. split.
  - intros B. apply begun_snoc in B. destruct B as [B|(c' & x' & sn & u & Eq & Ec)].
    + apply Q2. auto.
    + injection Eq as E1 E2 E3 E4 E5. subst. auto.
  - intros a c' x' sn e b Eq Ec B. apply snoc_split in Eq. destruct Eq as [(-> & Eq & _)|(b' & Eq)].
    + injection Eq as E1 E2 E3 E4 E5. subst. destruct (Q4 eq_refl Ec (Fo B)) as (u & Hu). discriminate.
    + exact (Er _ _ _ _ _ _ Eq Ec B).
Qed.
Lemma merge_keys size k b (st st' : tstate O) key : merge_batch size k b st = Ok st' ->
  In key (dkeys st) -> In key (dkeys st').
Proof.
  intros H I. unfold merge_batch in H.
  destruct (dget _ "bp_samples") as [[a|]|]; try discriminate;
  destruct (dget _ size) as [[c|]|]; try discriminate. injection H as <-.
  apply grow_dset, grow_dset, grow_state. auto.
Qed.
Lemma healthy_batch size k b st s : merge_batch size k b (wd_state s) = Ok st -> healthy s ->
  healthy (mkWorld st (wd_world s) (wd_trace s ++ [TBatch k b])).
Proof.
  intros M (K1 & K2 & Ob & Fo & Er). unfold healthy. cbn [wd_state wd_world wd_trace].
  split; [eapply merge_keys; eauto|]. split; [eapply merge_keys; eauto|]. split; [auto|]. split.
  - intros B. apply begun_snoc in B. destruct B as [B|(c' & x' & sn & u & Eq & _)]; [auto|discriminate].
  - intros a c x sn e b' Eq Ec. apply snoc_split in Eq. destruct Eq as [(_ & Eq & _)|(b2 & Eq)]; [discriminate|eauto].
Qed.

(** Before an end of cycle the Checkpointer has been told that training begins. *)
Lemma begun_before size cbs d st0 (w : cworld) s out a c x seen r b :
  train act' size cbs d st0 w = (s, out) ->
  wd_trace s = a ++ TCall PEndCycle c x seen r :: b -> cb_id c = cid -> begun a.
Proof.
  intros H T Ec.
  assert (Q : quiet a) by (eapply quiet_before; eauto; discriminate).
  destruct (train_order_main _ _ _ _ _ _ H) as (l & k0 & Io & _ & Dj).
  assert (Ic : In c l).
  { assert (J : In (PEndCycle, c) (calls (wd_trace s))) by (rewrite T; apply in_calls).
    assert (Op : ~ In (PEndCycle, c) (opening l)).
    { intros I. apply in_opening in I. intuition discriminate. }
    assert (St : forall n, In (PEndCycle, c) (steps_calls l k0 n) -> In c l).
    { intros n I. apply in_steps_calls in I. destruct I as [k' I]. unfold step_calls in I.
      rewrite !in_app_iff in I. unfold all_of in I. rewrite !in_map_iff in I.
      destruct I as [(z & Z & _)|[(z & Z & _)|[(z & Z & _)|[(z & Z & _)|(z & Z & I)]]]]; try discriminate.
      injection Z as ->. apply filter_In in I. tauto. }
    destruct Dj as [(n & e & tr0 & y & Cm & _)|[(_ & Cm & _)|(main & fin & n & e & Tm & Cm & _ & Cl)]].
    - rewrite Cm in J. destruct Op. rewrite <- (firstn_skipn n). apply in_or_app; auto.
    - rewrite Cm in J. apply in_app_iff in J. destruct J as [J|J]; [tauto|eauto].
    - rewrite Tm, calls_app, in_app_iff, Cm, in_app_iff in J. destruct J as [[J|J]|J]; [tauto| |].
      + apply (St (List.length (da_items d))). rewrite <- (firstn_skipn n). apply in_or_app; auto.
      + exfalso. assert (Z : PEndCycle = PEndTraining); [|discriminate]. apply (@in_closing l _ c).
        destruct Cl as [_ [(_ & <- & _)|(tr0 & y & e' & rest & _ & _ & _ & <- & _)]]; auto.
        apply in_or_app; auto. }
  assert (J : In (PBeginTraining, c) (calls a)).
  { assert (B0 : In (PBeginTraining, c) (opening l)).
    { unfold opening. apply in_or_app. right. unfold all_of. apply in_map. auto. }
    assert (Op : ~ In (PEndCycle, c) (opening l)).
    { intros I. apply in_opening in I. intuition discriminate. }
    assert (G : forall (t : list (entry O)) rest b', t = a ++ TCall PEndCycle c x seen r :: b' ->
              calls t = opening l ++ rest -> In (PBeginTraining, c) (calls a)).
    { intros t rest b' -> Ct. rewrite calls_app in Ct. cbn [calls flat_map app] in Ct.
      symmetry in Ct. apply app_mid in Ct. destruct Ct as [(b2 & Eo & _)|(a2 & Ea & _)].
      - destruct Op. rewrite Eo. apply in_or_app. right. left. auto.
      - rewrite Ea. apply in_or_app. auto. }
    destruct Dj as [(n & e & tr0 & y & Cm & _)|[(_ & Cm & _)|(main & fin & n & e & Tm & Cm & _ & Cl)]].
    - exfalso. apply Op. rewrite <- (firstn_skipn n). apply in_or_app. left. rewrite <- Cm, T. apply in_calls.
    - eapply G; eauto.
    - rewrite Tm in T. apply app_mid in T. destruct T as [(b' & Em & _)|(a' & Ea & _)].
      + eapply G; eauto.
      + rewrite Ea, calls_app, Cm. apply in_or_app. left. apply in_or_app. auto. }
  apply in_calls_inv in J. destruct J as (a1 & x1 & seen1 & r1 & b1 & Ea).
  rewrite Ea in Q. apply Forall_app in Q. destruct Q as [_ Q]. inversion Q as [|? ? Q1 _]; subst.
  destruct r1 as [u|]; [|discriminate]. exists c, x1, seen1, u. split; auto. apply in_or_app. right. left. auto.
Qed.

Lemma every_checkpoint size cbs d st0 (w : cworld) s out a c x seen r b :
  train act' size cbs d st0 w = (s, out) ->
  incl names (dkeys (cw_objs w)) ->
  wd_trace s = a ++ TCall PEndCycle c x seen r :: b -> cb_id c = cid -> exists u, r = Ok u.
Proof.
  intros H Ob T Ec.
  assert (Hs : healthy s).
  { eapply train_inv with (P := healthy); [| |exact H|].
    - intros. apply healthy_call; auto.
    - intros sz k b0 st s' M N. eapply healthy_batch; eauto.
    - unfold healthy. cbn [wd_state wd_world wd_trace]. 
      split; [apply dset_key|]. split; [apply grow_dset; apply dset_key|]. split; [auto|]. split.
      + intros (c' & x' & sn & u & [] & _).
      + intros a' c' x' sn e b' Eq. destruct a'; discriminate. }
  destruct r as [u|e]; [eauto|]. exfalso. destruct Hs as (_ & _ & _ & _ & Er).
  exact (Er _ _ _ _ _ _ T Ec (begun_before H T Ec)).
Qed.
End Run.

Lemma grow_dset_any {V} (d : dict string V) k v key : In key (dkeys d) -> In key (dkeys (dset d k v)).
Proof. intros I. change (dset d k v) with (dupdate d [(k, v)]). apply In_dkeys_dupdate. auto. Qed.
