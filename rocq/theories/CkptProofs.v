(** * CkptProofs *)
From Coq Require Import DecimalString DecimalZ Permutation Sorted Ascii.
From Verif Require Import Py PyLemmas TrainModel TrainSpec TrainProofs TrainState TrainMain TrainMore TrainThms TrainThms2
  CkptModel CkptSpec.
Set Implicit Arguments.
Unset Strict Implicit.
Open Scope string_scope.
Open Scope list_scope.
Open Scope Z_scope.

(** ** File names *)
Lemma str_Z_inj i j : str_Z i = str_Z j -> i = j.
Proof.
  unfold str_Z. intros H.
  assert (F : forall z, NilZero.int_of_string (NilZero.string_of_int (Z.to_int z)) = Some (Z.to_int z)).
  { intros z. apply NilZero.isi.
    - destruct z; simpl; try discriminate. intros N. injection N as N.
      apply (f_equal Pos.of_uint) in N. rewrite DecimalPos.Unsigned.of_to in N. discriminate.
    - destruct z; simpl; try discriminate. intros N. injection N as N.
      apply (f_equal Pos.of_uint) in N. rewrite DecimalPos.Unsigned.of_to in N. discriminate. }
  apply to_int_inj. assert (S : Some (Z.to_int i) = Some (Z.to_int j)) by (rewrite <- !F, H; auto).
  congruence.
Qed.
Lemma append_inj_l a b c : String.append a b = String.append a c -> b = c.
Proof. induction a; simpl; intros H; auto. injection H as H; auto. Qed.
Lemma append_len a b : String.length (String.append a b) = (String.length a + String.length b)%nat.
Proof. induction a; simpl; auto. Qed.
Lemma append_inj_r a b c : String.append a c = String.append b c -> a = b.
Proof.
  revert b. induction a as [|x a IH]; intros [|y b] H; simpl in *; auto.
  - apply (f_equal String.length) in H. simpl in H. rewrite append_len in H. lia.
  - apply (f_equal String.length) in H. simpl in H. rewrite append_len in H. lia.
  - injection H as -> H. f_equal. auto.
Qed.
Lemma ckpt_path_inj folder i j : ckpt_path folder i = ckpt_path folder j -> i = j.
Proof.
  unfold ckpt_path, path_join, ckpt_name. intros H. apply str_Z_inj.
  assert (A : forall a b, String.append "checkpoint_" (String.append a ".tar") = String.append "checkpoint_" (String.append b ".tar") -> a = b).
  { intros a b N. apply append_inj_l in N. eapply append_inj_r; eauto. }
  destruct (last_char folder) as [c|]; [|apply A; auto].
  destruct (Ascii.eqb c _).
  - apply A. eapply append_inj_l; eauto.
  - apply append_inj_l in H. injection H as H. apply A. simpl. rewrite H. auto.
Qed.
Lemma last_slash_iff s : last_char s = Some "/"%char <-> exists r, s = String.append r "/".
Proof.
  induction s as [|c s IH].
  - split; [discriminate|]. intros [[|d r] E]; discriminate.
  - cbn [last_char]. destruct s as [|d s].
    + split.
      * intros E. injection E as ->. exists "". reflexivity.
      * intros [[|e r] E]; cbn [String.append] in E; [injection E as ->; reflexivity|destruct r; discriminate].
    + rewrite IH. split; intros [r E].
      * exists (String c r). cbn [String.append]. f_equal. exact E.
      * destruct r as [|e r]; cbn [String.append] in E; [discriminate|]. injection E as E1 E2. exists r. exact E2.
Qed.
Lemma last_char_some s : s <> "" -> exists c, last_char s = Some c.
Proof. induction s as [|c s IH]; intros N; [congruence|]. cbn [last_char]. destruct s as [|d s]; [eauto|]. apply IH. discriminate. Qed.
Lemma ckpt_path_is folder i : let file := String.append "checkpoint_" (String.append (NilZero.string_of_int (Z.to_int i)) ".tar") in
  (folder = "" -> ckpt_path folder i = file)
  /\ ((exists r, folder = String.append r "/") -> ckpt_path folder i = String.append folder file)
  /\ (folder <> "" -> (forall r, folder <> String.append r "/") -> ckpt_path folder i = String.append folder (String.append "/" file)).
Proof.
  cbn zeta. unfold ckpt_path, path_join, ckpt_name, str_Z. split; [|split].
  - intros ->. reflexivity.
  - intros H. apply last_slash_iff in H. rewrite H. reflexivity.
  - intros N H. destruct (last_char_some N) as [c Ec]. rewrite Ec.
    destruct (Ascii.eqb_spec c "/"%char) as [Q|Q]; [|reflexivity]. exfalso. rewrite Q in Ec. apply last_slash_iff in Ec. destruct Ec as [r Ec]. apply (H r Ec).
Qed.

Lemma names_ok_iff names :
  (NoDup names -> names_ok names = Ok tt) /\ (~ NoDup names -> names_ok names = Err ValueError).
Proof.
  unfold names_ok. split; intros N.
  - rewrite nodup_fixed_point by auto. rewrite Nat.eqb_refl. auto.
  - destruct (Nat.eqb_spec (List.length names) (List.length (nodup string_dec names))) as [L|L]; auto.
    exfalso. apply N. apply NoDup_incl_NoDup with (nodup string_dec names).
    + apply NoDup_nodup.
    + lia.
    + intros x I. eapply nodup_In; eauto.
Qed.

(** ** Invariants of a run *)
Section Inv.
Context {O W : Type}.
Variable act : behaviour O W.
Variable cbs : list callback.
Variable P : world O W -> Prop.
Hypothesis Hcall : forall ph c x s w r, In c cbs -> act c ph x (wd_state s) (wd_world s) = (w, r) -> P s ->
  P (mkWorld (match r with Ok u => dupdate (wd_state s) u | Err _ => wd_state s end) w
       (wd_trace s ++ [TCall ph c x (wd_state s) r])).
Hypothesis Hbatch : forall size k b st s, merge_batch size k b (wd_state s) = Ok st -> P s -> P (mkWorld st (wd_world s) (wd_trace s ++ [TBatch k b])).

Lemma run_phase_inv ph x cs s s' r :
  incl cs cbs -> run_phase act ph x cs s = (s', r) -> P s -> P s'.
Proof.
  revert s. induction cs as [|c cs IH]; simpl; intros s I H p; [injection H as <- <-; auto|].
  destruct (act c ph x (wd_state s) (wd_world s)) as [w [u|e]] eqn:A.
  - eapply IH; [eapply incl_cons_inv; eauto|exact H|].
    refine (Hcall _ A p). apply I. left; auto.
  - injection H as <- <-. refine (Hcall _ A p). apply I. left; auto.
Qed.
Lemma andthen_inv (p : world O W * res unit) g s' r :
  andthen p g = (s', r) -> (P (fst p)) -> (forall s s' r, g s = (s', r) -> P s -> P s') -> P s'.
Proof. destruct p as [s [u|e]]; simpl; intros H p G; [eauto|]. injection H as <- <-. auto. Qed.
Lemma run_phase_inv' ph x cs s : incl cs cbs -> P s -> P (fst (run_phase act ph x cs s)).
Proof. intros I p. destruct (run_phase act ph x cs s) eqn:R. eapply run_phase_inv; eauto. Qed.
Lemma one_step_inv size cs k it s s' r :
  incl cs cbs -> one_step act size cs k it s = (s', r) -> P s -> P s'.
Proof.
  intros I H p. unfold one_step in H. destruct (it_batch it) as [b|e]; [|injection H as <- <-; auto].
  destruct (merge_batch size k b (wd_state s)) as [st|e] eqn:Mb; [|injection H as <- <-; auto].
  assert (p1 := Hbatch Mb p).
  destruct (it_stop it) as [[|]|e]; try (injection H as <- <-; exact p1).
  assert (J : forall f, incl (filter f cs) cbs).
  { intros f z Z. apply I. apply filter_In in Z. tauto. }
  assert (J2 : forall f g, incl (filter f (filter g cs)) cbs).
  { intros f g z Z. apply filter_In in Z. apply (J g). tauto. }
  eapply andthen_inv; [exact H|apply run_phase_inv'; [apply J2|exact p1]|].
  clear - I J2 Hcall. intros s s' r H p. eapply andthen_inv; [exact H|apply run_phase_inv'; [exact I|exact p]|].
  clear - I J2 Hcall. intros s s' r H p. eapply andthen_inv; [exact H|apply run_phase_inv'; [exact I|exact p]|].
  clear - I J2 Hcall. intros s s' r H p. eapply andthen_inv; [exact H|apply run_phase_inv'; [exact I|exact p]|].
  clear - I J2 Hcall. intros s s' r H p. eapply run_phase_inv; [|exact H|exact p]. apply J2.
Qed.
Lemma loop_inv size cs k items s s' r :
  incl cs cbs -> loop act size cs k items s = (s', r) -> P s -> P s'.
Proof.
  intros I. revert k s s' r. induction items as [|it items IH]; simpl; intros k s s' r H p; [injection H as <- <-; auto|].
  eapply andthen_inv; [exact H| |].
  - destruct (one_step act size cs k it s) as [s1 r1] eqn:S1. exact (one_step_inv I S1 p).
  - intros s1 s2 r1 H1 p1. exact (IH _ _ _ _ H1 p1).
Qed.
Lemma finish_inv cs p ends s' out :
  incl cs cbs -> finish act cs p ends = (s', out) -> P (fst p) -> P s'.
Proof.
  intros I H p0. destruct p as [s [u|e]]; simpl in *; [injection H as <- <-; auto|].
  destruct (run_phase act PEndTraining (Some e) cs s) as [s1 [u|e1]] eqn:R;
    injection H as <- <-; eapply run_phase_inv; eauto.
Qed.
Lemma train_inv size d st0 w s out :
  train act size cbs d st0 w = (s, out) ->
  P (mkWorld (dset (dset st0 "bp_samples" (VNum 0)) "bp_step" (VNum 1)) w []) -> P s.
Proof.
  unfold train. intros H p. set (s0 := mkWorld _ _ _) in *. pose proof (@sort_incl cbs) as I.
  destruct (andthen _ _) as [s1 r1] eqn:A.
  assert (p1 : P s1).
  { eapply andthen_inv; [exact A|apply run_phase_inv'; auto|]. intros. eapply run_phase_inv; eauto. }
  destruct r1 as [u|e]; [|destruct e; injection H as <- <-; auto].
  destruct (dget (wd_state s1) "bp_step") as [[k|o]|].
  - eapply finish_inv; [exact I|exact H|].
    destruct (loop act size (sort_cbs cbs) k (da_items d) s1) eqn:L. eapply loop_inv; eauto.
  - eapply finish_inv; [exact I|exact H|]. auto.
  - eapply finish_inv; [exact I|exact H|]. auto.
Qed.
End Inv.
