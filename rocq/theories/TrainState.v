(** * TrainState: what the hooks see *)
From Coq Require Import Permutation Sorted.
From Verif Require Import Py PyLemmas TrainModel TrainSpec TrainProofs.
Set Implicit Arguments.
Open Scope string_scope.
Open Scope list_scope.
Open Scope Z_scope.

Section P.
Context {O W : Type}.
Context (act : behaviour O W).
Context (size : string).
Context (f0 : @lookup O).
Notation world := (world O W).
Notation entry := (entry O).

Definition faithful (s : world) : Prop :=
  (forall key, dget (wd_state s) key = visible size f0 (wd_trace s) key)
  /\ forall es1 ph c x seen r es2, wd_trace s = es1 ++ TCall ph c x seen r :: es2 ->
       forall key, dget seen key = visible size f0 es1 key.

Lemma visible_app f (a b : list entry) : visible size f (a ++ b) = visible size (visible size f a) b.
Proof. unfold visible. apply fold_left_app. Qed.

Lemma snoc_split {A} (l : list A) y es1 x es2 :
  l ++ [y] = es1 ++ x :: es2 -> (es1 = l /\ x = y /\ es2 = []) \/ exists es2', l = es1 ++ x :: es2'.
Proof.
  intros H. destruct es2 as [|z r] using rev_ind.
  - apply app_inj_tail in H. destruct H. subst. auto.
  - right. exists r. rewrite app_comm_cons, app_assoc in H. apply app_inj_tail in H. tauto.
Qed.

Context (NDact : forall c ph x st w u, snd (act c ph x st w) = Ok u -> NoDup (dkeys u)).

Lemma run_phase_faithful ph x cs s s' r :
  run_phase act ph x cs s = (s', r) -> faithful s -> faithful s'.
Proof.
  revert s. induction cs as [|c cs IH]; simpl; intros s H F; [injection H as <- <-; auto|].
  destruct (act c ph x (wd_state s) (wd_world s)) as [w [u|e]] eqn:A; destruct F as [F1 F2].
  - apply IH in H; auto. split; simpl.
    + intros key. rewrite visible_app. simpl. unfold merged.
      rewrite dget_dupdate. 2: { eapply (NDact c ph x (wd_state s) (wd_world s)). rewrite A. auto. }
      destruct (dget u key); auto.
    + intros * E. apply snoc_split in E. destruct E as [(-> & E & _)|(es2' & E)].
      * injection E as -> -> -> -> ->. auto.
      * eauto.
  - injection H as <- <-. split; simpl.
    + intros key. rewrite visible_app. simpl. auto.
    + intros * E. apply snoc_split in E. destruct E as [(-> & E & _)|(es2' & E)].
      * injection E as -> -> -> -> ->. auto.
      * eauto.
Qed.

Lemma andthen_faithful (p : world * res unit) g s' r :
  (forall s s' r, g s = (s', r) -> faithful s -> faithful s') ->
  andthen p g = (s', r) -> faithful (fst p) -> faithful s'.
Proof.
  intros G H F. destruct p as [s [u|e]]; simpl in *.
  - eapply G; eauto.
  - injection H as <- <-. auto.
Qed.

Lemma phases_faithful ph cs g s s' r :
  (forall s s' r, g s = (s', r) -> faithful s -> faithful s') ->
  andthen (run_phase act ph None cs s) g = (s', r) -> faithful s -> faithful s'.
Proof.
  intros G H F. eapply andthen_faithful; eauto.
  destruct (run_phase act ph None cs s) as [s1 r1] eqn:R. eapply run_phase_faithful; eauto.
Qed.

Lemma written_eq (f : @lookup O) k v : written f k v k = v.
Proof. unfold written. rewrite String.eqb_refl. auto. Qed.
Lemma written_neq (f : @lookup O) k k' v : k' <> k -> written f k v k' = f k'.
Proof. intros N. unfold written. destruct (String.eqb_spec k' k); congruence. Qed.

Lemma dget_dset_written (d : tstate O) k v key :
  dget (dset d k v) key = written (dget d) k (Some v) key.
Proof.
  unfold written. destruct (String.eqb_spec key k) as [->|N].
  - apply dget_dset_eq.
  - apply dget_dset_neq. auto.
Qed.

Lemma merge_batch_visible k (b st st' : tstate O) (f : @lookup O) :
  NoDup (dkeys b) -> (forall key, dget st key = f key) ->
  merge_batch size k b st = Ok st' ->
  forall key, dget st' key = after size f (TBatch k b) key.
Proof.
  intros ND F H key. unfold merge_batch in H. simpl.
  set (g := written (merged f b) "bp_step" (Some (VNum k))).
  assert (G : forall key, dget (dset (dupdate st b) "bp_step" (VNum k)) key = g key).
  { intros k'. rewrite dget_dset_written. unfold g, written.
    destruct (k' =? "bp_step")%string; auto. rewrite dget_dupdate by auto. unfold merged.
    destruct (dget b k'); auto. }
  rewrite (G "bp_samples"), (G size) in H.
  destruct (g "bp_samples") as [[a|]|] eqn:A; try discriminate;
  destruct (g size) as [[c|]|] eqn:B; try discriminate.
  injection H as <-. rewrite dget_dset_written. unfold written at 1 2.
  destruct (key =? "bp_samples")%string; auto.
Qed.

Lemma one_step_faithful cs k it s s' r :
  (forall b, it_batch it = Ok b -> NoDup (dkeys b)) ->
  one_step act size cs k it s = (s', r) -> faithful s -> faithful s'.
Proof.
  intros ND H F. unfold one_step in H.
  destruct (it_batch it) as [b|e] eqn:B; [|injection H as <- <-; auto].
  destruct (merge_batch size k b (wd_state s)) as [st|e] eqn:M; [|injection H as <- <-; auto].
  assert (F1 : faithful (mkWorld st (wd_world s) (wd_trace s ++ [TBatch k b]))).
  { destruct F as [F1 F2]. split; simpl.
    - intros key. rewrite visible_app. exact (@merge_batch_visible _ _ _ _ _ (ND _ eq_refl) F1 M key).
    - intros * E. apply snoc_split in E. destruct E as [(_ & E & _)|(es2' & E)]; [discriminate|eauto]. }
  destruct (it_stop it) as [[|]|e]; try (injection H as <- <-; auto).
  revert H F1. apply phases_faithful; intros *; apply phases_faithful; intros *.
  apply phases_faithful; intros *; apply phases_faithful; intros *. apply run_phase_faithful.
Qed.

Lemma loop_faithful cs k items s s' r :
  Forall (fun it : item O => forall b, it_batch it = Ok b -> NoDup (dkeys b)) items ->
  loop act size cs k items s = (s', r) -> faithful s -> faithful s'.
Proof.
  revert k s s' r. induction items as [|it items IH]; simpl; intros k s s' r ND H F.
  - injection H as <- <-. auto.
  - inversion ND; subst. destruct (one_step act size cs k it s) as [s1 r1] eqn:S1.
    eapply andthen_faithful; [|exact H|].
    + intros; eapply IH; eauto.
    + simpl. eapply one_step_faithful; eauto.
Qed.
Lemma finish_faithful cs p ends s' out :
  finish act cs p ends = (s', out) -> faithful (fst p) -> faithful s'.
Proof.
  intros H F. apply finish_cases in H. destruct p as [s [u|e]]; simpl in *.
  - destruct H as [-> _]. auto.
  - destruct H as (r2 & R & _). eapply run_phase_faithful; eauto.
Qed.
End P.

Lemma train_faithful {O W} (act : behaviour O W) size cbs d st0 w s out :
  proper act (da_items d) ->
  train act size cbs d st0 w = (s, out) -> faithful size (initial st0) s.
Proof.
  intros [ND NI] H. destruct (train_cases _ _ _ _ _ _ H) as (s1 & r1 & A & C).
  assert (F1 : faithful size (initial st0) s1).
  { revert A. set (s0 := mkWorld _ _ _). intros A.
    eapply (@phases_faithful O W act size (initial st0) ND); [|exact A|].
    - intros *. apply (@run_phase_faithful O W act size (initial st0) ND).
    - split; simpl.
      + intros key. rewrite dget_dset_written. unfold initial, written.
        destruct (key =? "bp_step")%string; auto. rewrite dget_dset_written. auto.
      + intros * E. destruct es1; discriminate. }
  destruct r1 as [u|e].
  - destruct (dget (wd_state s1) "bp_step") as [[k|o]|]; eapply finish_faithful; eauto.
    destruct (loop act size (sort_cbs cbs) k (da_items d) s1) as [s2 r2] eqn:L.
    eapply loop_faithful; eauto.
  - destruct C as [-> _]. auto.
Qed.

(** ** Counters *)
Section Counters.
Context {O W : Type}.
Context (act : behaviour O W).
Context (size : string).
Notation world := (world O W).
Notation entry := (entry O).

(** In the trace every call to a hook of a callback in [cbs] is as [act] did it. *)
Definition genuine (cbs : list callback) (tr : list entry) : Prop :=
  Forall (fun e => match e with
            | TCall ph c x seen r => In c cbs /\ exists w, snd (act c ph x seen w) = r
            | TBatch _ _ => True end) tr.

Lemma run_phase_genuine cbs ph x cs (s s' : world) r :
  incl cs cbs -> run_phase act ph x cs s = (s', r) ->
  genuine cbs (wd_trace s) -> genuine cbs (wd_trace s').
Proof.
  revert s. induction cs as [|c cs IH]; simpl; intros s I H G; [injection H as <- <-; auto|].
  destruct (act c ph x (wd_state s) (wd_world s)) as [w [u|e]] eqn:A.
  - eapply IH; [eapply incl_cons_inv; eauto|exact H|]. simpl. apply Forall_app; split; auto.
    constructor; [|constructor]. split; [apply I; left; auto|]. exists (wd_world s). rewrite A. auto.
  - injection H as <- <-. simpl. apply Forall_app; split; auto.
    constructor; [|constructor]. split; [apply I; left; auto|]. exists (wd_world s). rewrite A. auto.
Qed.
Lemma andthen_genuine cbs (p : world * res unit) g s' r :
  (forall s s' r, g s = (s', r) -> genuine cbs (wd_trace s) -> genuine cbs (wd_trace s')) ->
  andthen p g = (s', r) -> genuine cbs (wd_trace (fst p)) -> genuine cbs (wd_trace s').
Proof.
  intros G H F. destruct p as [s [u|e]]; simpl in *.
  - eapply G; eauto.
  - injection H as <- <-. auto.
Qed.
Lemma phases_genuine cbs ph cs g (s s' : world) r :
  incl cs cbs ->
  (forall s s' r, g s = (s', r) -> genuine cbs (wd_trace s) -> genuine cbs (wd_trace s')) ->
  andthen (run_phase act ph None cs s) g = (s', r) ->
  genuine cbs (wd_trace s) -> genuine cbs (wd_trace s').
Proof.
  intros I G H F. eapply andthen_genuine; eauto.
  destruct (run_phase act ph None cs s) as [s1 r1] eqn:R. eapply run_phase_genuine; eauto.
Qed.
Lemma one_step_genuine cs k it (s s' : world) r :
  one_step act size cs k it s = (s', r) -> genuine cs (wd_trace s) -> genuine cs (wd_trace s').
Proof.
  intros H F. unfold one_step in H.
  destruct (it_batch it) as [b|e] eqn:B; [|injection H as <- <-; auto].
  destruct (merge_batch size k b (wd_state s)) as [st|e] eqn:M; [|injection H as <- <-; auto].
  assert (F1 : genuine cs (wd_trace (mkWorld st (wd_world s) (wd_trace s ++ [TBatch k b])))).
  { apply Forall_app; split; auto. }
  destruct (it_stop it) as [[|]|e]; try (injection H as <- <-; auto).
  rewrite begin_cbs_eq, end_cbs_eq in H.
  revert H F1. apply phases_genuine; [apply incl_filter|intros *].
  apply phases_genuine; [apply incl_refl|intros *]. apply phases_genuine; [apply incl_refl|intros *].
  apply phases_genuine; [apply incl_refl|intros *]. apply run_phase_genuine. apply incl_filter.
Qed.
Lemma loop_genuine cs k items (s s' : world) r :
  loop act size cs k items s = (s', r) -> genuine cs (wd_trace s) -> genuine cs (wd_trace s').
Proof.
  revert k s s' r. induction items as [|it items IH]; simpl; intros k s s' r H F.
  - injection H as <- <-. auto.
  - destruct (one_step act size cs k it s) as [s1 r1] eqn:S1.
    eapply andthen_genuine; [|exact H|].
    + intros; eapply IH; eauto.
    + simpl. eapply one_step_genuine; eauto.
Qed.

(** The batches are numbered from [k] and are those of the loader. *)
Fixpoint batches_of (k : Z) (items : list (item O)) (bs : list (Z * tstate O)) : Prop :=
  match bs with
  | [] => True
  | (k', b) :: r =>
      match items with
      | it :: items' => k' = k /\ it_batch it = Ok b /\ batches_of (k + 1) items' r
      | [] => False
      end
  end.
Lemma loop_batches cs k items (s s' : world) r :
  loop act size cs k items s = (s', r) ->
  exists es, wd_trace s' = wd_trace s ++ es /\ batches_of k items (batches es)
        /\ (r = Ok tt -> List.length (batches es) = List.length items)
        /\ (es = [] \/ exists k' b es', es = TBatch k' b :: es').
Proof.
  revert k s. induction items as [|it items IH]; simpl; intros k s H.
  - injection H as <- <-. exists []. rewrite app_nil_r. simpl. repeat split; auto.
  - destruct (one_step act size cs k it s) as [s1 [u|e]] eqn:S1; simpl in H;
      destruct (one_step_follows _ _ _ _ _ _ S1) as (es1 & T1 & _ & B1 & N1).
    + destruct u. apply IH in H. destruct H as (es2 & T2 & B2 & L2 & _).
      destruct B1 as [->|(b & I & B1 & es' & E)]; [destruct (N1 eq_refl eq_refl)|].
      exists (es1 ++ es2). rewrite T2, T1, <- app_assoc. split; [auto|].
      rewrite batches_app, B1. simpl. repeat split; auto.
      right. exists k, b. subst es1. simpl. eauto.
    + injection H as <- <-. exists es1. split; auto.
      destruct B1 as [->|(b & I & B1 & es' & E)].
      * simpl. repeat split; auto. discriminate.
      * rewrite B1. simpl. split; [repeat split; auto; destruct items; exact Logic.I|]. split; [discriminate|]. right. subst. eauto.
Qed.
Lemma run_phase_batches ph x cs (s s' : world) r :
  run_phase act ph x cs s = (s', r) -> batches (wd_trace s') = batches (wd_trace s).
Proof.
  intros R. destruct (run_phase_follows _ _ _ _ _ R) as (es & T & _ & B & _).
  rewrite T, batches_app, B, app_nil_r. auto.
Qed.

(** Values of the counters along a trace. *)
Definition untouched (key : string) (tr : list entry) : Prop :=
  Forall (fun e => match e with TCall _ _ _ _ (Ok u) => ~ In key (dkeys u) | _ => True end) tr.

Lemma genuine_untouched cbs (phs : phase -> Prop) key tr :
  genuine cbs tr -> leaves act cbs phs key ->
  Forall (fun p => phs (fst p)) (calls tr) -> untouched key tr.
Proof.
  intros G L. unfold untouched. induction G as [|e r E G IH]; simpl; intros C; constructor.
  - destruct e as [|ph c x seen [u|]]; auto. destruct E as [I [w A]].
    inversion C; subst. eapply L; eauto.
  - apply IH. destruct e; simpl in C; auto. inversion C; auto.
Qed.
Lemma untouched_app key a b : untouched key (a ++ b) <-> untouched key a /\ untouched key b.
Proof. apply Forall_app. Qed.

Lemma merged_other (f : @lookup O) u key : ~ In key (dkeys u) -> merged f u key = f key.
Proof. intros N. unfold merged. destruct (dget u key) eqn:G; auto. apply dget_Some_key in G. tauto. Qed.

Lemma visible_step f tr :
  untouched "bp_step" tr -> size <> "bp_step" ->
  visible size f tr "bp_step"
  = match rev (batches tr) with (k, _) :: _ => Some (VNum k) | [] => f "bp_step" end.
Proof.
  intros U N. revert U. induction tr as [|e r IH] using rev_ind; intros U; auto.
  apply untouched_app in U. destruct U as [U1 U2].
  rewrite visible_app, batches_app, rev_app_distr. simpl.
  destruct e as [k b|ph c x seen [u|e]]; simpl.
  - rewrite written_neq by discriminate. apply written_eq.
  - inversion U2; subst. rewrite merged_other by auto. auto.
  - auto.
Qed.

(** Sum of the sample counts of the batches. *)
Definition size_of (b : tstate O) : Z := match dget b size with Some (VNum n) => n | _ => 0 end.
Definition has_size (b : tstate O) : Prop :=
  (exists n, dget b size = Some (VNum n)) /\ ~ In "bp_samples" (dkeys b).
Lemma visible_samples f n0 tr :
  size <> "bp_step" -> size <> "bp_samples" ->
  untouched "bp_samples" tr ->
  Forall (fun p => has_size (snd p)) (batches tr) ->
  f "bp_samples" = Some (VNum n0) ->
  visible size f tr "bp_samples" = Some (VNum (n0 + zsum (map (fun p => size_of (snd p)) (batches tr)))).
Proof.
  intros N1 N2. induction tr as [|e r IH] using rev_ind; intros U H I.
  - simpl. rewrite Z.add_0_r. auto.
  - apply untouched_app in U. destruct U as [U1 U2].
    rewrite batches_app in *. apply Forall_app in H. destruct H as [H1 H2].
    rewrite visible_app, map_app, zsum_app. specialize (IH U1 H1 I).
    destruct e as [k b|ph c x seen [u|e]]; simpl in *.
    + inversion H2; subst. destruct H3 as [[n Hn] Hb]. simpl in Hn, Hb.
      rewrite written_eq. rewrite written_neq by discriminate.
      rewrite (written_neq _ _ N1). rewrite merged_other by auto. rewrite IH.
      unfold merged, size_of. rewrite Hn. simpl. do 2 f_equal. lia.
    + inversion U2; subst. rewrite merged_other by auto. rewrite IH. do 2 f_equal. lia.
    + rewrite IH. do 2 f_equal. lia.
Qed.
End Counters.
