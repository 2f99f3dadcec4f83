(** * LiveOrder: the order of the hooks when the data loader looks at the world *)
From Coq Require Import Lia Permutation.
From Verif Require Import Py PyLemmas TrainModel TrainSpec TrainProofs TrainState TrainMain TrainMore TrainThms TrainThms2 LiveModel LiveSpec LiveProofs.
Set Implicit Arguments. Unset Strict Implicit.
Open Scope string_scope.
Open Scope list_scope.
Open Scope Z_scope.

Section P.
Context {O W : Type}.
Variable act : behaviour O W.
Variable next : W -> W * option (item O).
Variable id : nat.
Notation A := (with_terminator id act).

Lemma phase_same ph x : forall cs, ~ In id (map cb_id cs) -> forall s, run_phase A ph x cs s = run_phase act ph x cs s.
Proof.
  induction cs as [|c cs IH]; intros Ni s; auto. cbn [run_phase]. unfold with_terminator at 1. destruct (Nat.eqb_spec (cb_id c) id) as [E|N].
  - exfalso. apply Ni. left. exact E.
  - destruct (act c ph x (wd_state s) (wd_world s)) as [w [u|e]]; auto. apply IH. intros I. apply Ni. right. exact I.
Qed.
Lemma andthen_same (p : world O W * res unit) f g : (forall s, f s = g s) -> andthen p f = andthen p g.
Proof. intros H. destruct p as [s [u|e]]; cbn; auto. Qed.
Lemma not_in_filter f cs : ~ In id (map cb_id cs) -> ~ In id (map cb_id (filter f cs)).
Proof. intros N I. apply N. apply in_map_iff in I as (c & E & I). apply filter_In in I as [I _]. apply in_map_iff. eauto. Qed.
Lemma step_same size cs k it s : ~ In id (map cb_id cs) -> one_step A size cs k it s = one_step act size cs k it s.
Proof.
  intros Ni. unfold one_step. destruct (it_batch it); auto. destruct (merge_batch size k a (wd_state s)); auto. destruct (it_stop it) as [[|]|]; auto.
  unfold begin_cycle_cbs, end_cycle_cbs. rewrite phase_same by (apply not_in_filter, not_in_filter; auto). apply andthen_same. intros s2.
  rewrite phase_same by auto. apply andthen_same. intros s3. rewrite phase_same by auto. apply andthen_same. intros s4. rewrite phase_same by auto. apply andthen_same.
  intros s5. apply phase_same. apply not_in_filter, not_in_filter; auto.
Qed.
Lemma loop_same size cs : ~ In id (map cb_id cs) -> forall fuel k s, live_loop A next size cs fuel k s = live_loop act next size cs fuel k s.
Proof.
  intros Ni. induction fuel as [|fuel IH]; intros k s; auto. cbn [live_loop]. destruct (next (wd_world s)) as [w [it|]]; auto. rewrite step_same by auto.
  destruct (one_step act size cs k it _) as [s1 [u|e]]; auto.
Qed.
Lemma train_same size cbs fuel st0 w : ~ In id (map cb_id cbs) -> live_train A next size cbs fuel st0 w = live_train act next size cbs fuel st0 w.
Proof.
  intros Ni. assert (Nc : ~ In id (map cb_id (sort_cbs cbs))).
  { intros I. apply Ni. destruct (sort_in_order cbs) as [P _]. eapply Permutation_in; [apply Permutation_map, Permutation_sym; exact P|exact I]. }
  unfold live_train. rewrite phase_same by auto.
  assert (Q : andthen (run_phase act PRestore None (sort_cbs cbs) (mkWorld (dset (dset st0 "bp_samples" (VNum 0)) "bp_step" (VNum 1)) w [])) (run_phase A PBeginTraining None (sort_cbs cbs)) =
     andthen (run_phase act PRestore None (sort_cbs cbs) (mkWorld (dset (dset st0 "bp_samples" (VNum 0)) "bp_step" (VNum 1)) w [])) (run_phase act PBeginTraining None (sort_cbs cbs))).
  { apply andthen_same. intros s. apply phase_same. auto. }
  rewrite Q. clear Q. assert (Fi : forall p e, finish A (sort_cbs cbs) p e = finish act (sort_cbs cbs) p e).
  { intros [s [u|e]] e'; cbn; auto. rewrite phase_same by auto. reflexivity. }
  destruct (andthen _ _) as [s [u|e]]; auto. destruct (dget (wd_state s) "bp_step") as [[k|o]|]; rewrite ?Fi; auto. rewrite loop_same by auto.
  destruct (live_loop act next size (sort_cbs cbs) fuel k s) as [[s1 r1] e1]. apply Fi.
Qed.

Lemma items_short size cs : forall fuel k s, (List.length (items_of A next size cs fuel k s) <= fuel)%nat.
Proof.
  induction fuel as [|fuel IH]; intros k s; cbn [items_of]; auto. destruct (next (wd_world s)) as [w [it|]]; cbn; [|lia].
  destruct (one_step A size cs k it _) as [s1 [u|e]]; cbn; [specialize (IH (k + 1) s1)|]; lia.
Qed.
Lemma items_all size cs : forall fuel k s s' u, live_loop A next size cs fuel k s = (s', Ok u, false) -> List.length (items_of A next size cs fuel k s) = fuel.
Proof.
  induction fuel as [|fuel IH]; intros k s s' u H; cbn [items_of live_loop] in *; auto. destruct (next (wd_world s)) as [w [it|]]; [|discriminate].
  destruct (one_step A size cs k it _) as [s1 [u1|e]]; [|discriminate]. cbn. f_equal. eauto.
Qed.
End P.

Section Q.
Context {O W : Type}.
Definition starts_at_one (ph : phase) (c : callback) (r : res (tstate O)) : bool :=
  match r with
  | Err _ => true
  | Ok u => match ph with PRestore | PBeginTraining => negb (existsb (String.eqb "bp_step") (dkeys u)) | _ => true end
  end.

Lemma live_order (act : behaviour O W) next size cbs fuel st0 w s out :
  live_train act next size cbs fuel st0 w = (s, out) -> leaves act cbs before_training "bp_step" ->
  exists l m, in_order cbs l /\ (m <= fuel)%nat /\ (out = Running -> m = fuel) /\
   ((exists n e tr0 x, calls (wd_trace s) = firstn n (opening l) /\ wd_trace s = tr0 ++ [x] /\ quiet tr0 /\ raises x = Some e
        /\ out = match e with Shutdown => Returned | _ => Raised OtherError end)
    \/ (quiet (wd_trace s) /\ calls (wd_trace s) = opening l ++ steps_calls l 1 m /\ (out = Returned \/ out = Running))
    \/ (exists main fin n e, wd_trace s = main ++ fin /\ calls main = opening l ++ firstn n (steps_calls l 1 m)
        /\ ((exists tr0 x, main = tr0 ++ [x] /\ quiet tr0 /\ raises x = Some e)
            \/ quiet main /\ exists i, calls main = opening l ++ steps_calls l 1 i)
        /\ closes l e fin out)).
Proof.
  intros H Le. set (id := Datatypes.S (list_max (map cb_id cbs))).
  assert (Ni : ~ In id (map cb_id cbs)).
  { intros I. assert (Q : (list_max (map cb_id cbs) <= list_max (map cb_id cbs))%nat) by auto. apply list_max_le in Q. rewrite Forall_forall in Q. specialize (Q _ I). unfold id in Q. lia. }
  rewrite <- (@train_same O W act next id size cbs fuel st0 w Ni) in H.
  destruct (@live_replay O W act id starts_at_one cbs next size fuel st0 w s out H) as [Au Rp].
  destruct Rp as (d & Et & Hd).
  { intros ph c x st r I Nc. destruct (Au _ _ _ _ _ I) as [Ic [w' Hw]]. destruct r as [u|e]; [|reflexivity]. unfold with_terminator in Hw.
    destruct (Nat.eqb_spec (cb_id c) id); [contradiction|]. cbn [starts_at_one].
    destruct ph; auto; (destruct (existsb (String.eqb "bp_step") (dkeys u)) eqn:E2; [apply existsb_key in E2; exfalso; eapply Le; [exact Ic| |exact Hw|exact E2]; unfold before_training; auto|auto]). }
  assert (LB : leaves (with_terminator id (replay (O := O) starts_at_one)) cbs before_training "bp_step").
  { apply with_term_leaves. intros c ph x st l u Ic Hp Hr. unfold replay in Hr. destruct l as [|r rest]; cbn in Hr; [injection Hr as <-; auto|].
    destruct (starts_at_one ph c r) eqn:K; [|injection Hr as <-; auto]. subst r. cbn [starts_at_one] in K. intros I. apply existsb_key in I.
    destruct Hp as [-> | ->]; rewrite I in K; discriminate. }
  destruct (@train_order_main O _ _ _ _ _ _ _ _ _ Et) as (l & k0 & IO & K0 & D). cbn [wd_trace] in D. specialize (K0 LB). subst k0.
  exists l, (List.length (da_items d)). split; auto. split; [|split].
  - destruct Hd as [[-> _]|(k & s1 & s2 & r & ends & El & -> & _)]; cbn; [lia|apply items_short].
  - intros ->. destruct Hd as [[_ N]|(k & s1 & s2 & r & ends & El & -> & Nr)]; [congruence|]. cbn [da_items].
    destruct r as [u|e]; [|exfalso; eapply Nr; eauto]. destruct ends; [|eapply items_all; eauto]. exfalso.
    destruct D as [(n & e & tr0 & x & _ & _ & _ & _ & Eo)|[(_ & _ & Eo)|(main & fin & n & e & _ & _ & _ & Cl)]].
    + destruct e; discriminate.
    + discriminate.
    + destruct Cl as (_ & [(_ & _ & Eo)|(? & ? & ? & ? & _ & _ & _ & _ & Eo)]); [destruct e; discriminate|discriminate].
  - destruct D as [D|[(D1 & D2 & D3)|(main & fin & n & e & D1 & D2 & D3 & D4)]]; [left; exact D|right; left|right; right].
    + split; auto. split; auto. destruct (da_ends d); auto.
    + exists main, fin, n, e. split; auto. split; auto. split; auto. destruct D3 as [[D3|(Q1 & i & it & _ & _ & Q2)]|(_ & _ & _ & N)]; [left; exact D3|right; split; eauto|contradiction].
Qed.
End Q.
