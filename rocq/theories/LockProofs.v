(** * LockProofs (C57) *)
From Coq Require Import Permutation.
From Verif Require Import Py PyLemmas LockModel LockSpec.
Set Implicit Arguments.
Unset Strict Implicit.
Open Scope list_scope.
Open Scope Z_scope.

Lemma set_nth_length {A} n (x : A) l : List.length (set_nth n x l) = List.length l.
Proof. revert n. induction l as [|y r IH]; intros [|n]; simpl; auto. Qed.
Lemma set_nth_eq {A} n (x y : A) l : nth_error l n = Some y -> nth_error (set_nth n x l) n = Some x.
Proof. revert n. induction l as [|z r IH]; intros [|n]; simpl; try discriminate; auto. Qed.
Lemma set_nth_neq {A} n m (x : A) l : n <> m -> nth_error (set_nth n x l) m = nth_error l m.
Proof. revert n m. induction l as [|z r IH]; intros [|n] [|m] H; simpl; auto; try congruence. Qed.
Lemma set_nth_cases {A} n m (x y z : A) l :
  nth_error l n = Some z -> nth_error (set_nth n x l) m = Some y -> (m = n /\ y = x) \/ (m <> n /\ nth_error l m = Some y).
Proof.
  intros H1 H2. destruct (Nat.eq_dec n m) as [->|N].
  - rewrite (set_nth_eq _ H1) in H2. injection H2 as <-. auto.
  - rewrite set_nth_neq in H2 by auto. auto.
Qed.

Section G.
Context {S L : Type}.
Notation call := (call S L).
Notation sys := (system S L).

Lemma one_by_one_app d (h1 h2 : list (nat * call)) :
  one_by_one d (h1 ++ h2) = (fst (one_by_one d h1) ++ fst (one_by_one (snd (one_by_one d h1)) h2),
                             snd (one_by_one (snd (one_by_one d h1)) h2)).
Proof.
  revert d. induction h1 as [|[i c] r IH]; intros d; simpl.
  - destruct (one_by_one d h2); auto.
  - destruct (alone c d) as [l d1]. rewrite IH. destruct (one_by_one d1 r). auto.
Qed.
Lemma of_thread_app {A} i (a b : list (nat * A)) : of_thread i (a ++ b) = of_thread i a ++ of_thread i b.
Proof. unfold of_thread. rewrite filter_app, map_app. auto. Qed.
Lemma of_thread_one {A} i j (x : A) : of_thread i [(j, x)] = if Nat.eqb j i then [x] else [].
Proof. unfold of_thread. simpl. destruct (Nat.eqb j i); auto. Qed.

(** The thread inside has made some of the steps of its call, alone. *)
Definition midway (c : call) (d : S) (l : L) (rest : list (micro S L)) (now : S) : Prop :=
  exists pre, ca_body c = pre ++ rest
    /\ (l, now) = fold_left (fun ld m => m (fst ld) (snd ld)) pre (ca_init c, d).

Definition Inv (d : S) (programs : list (list call)) (s : sys) : Prop :=
  exists (h : list (nat * call)) (cur : option call),
    List.length (sy_threads s) = List.length programs
    /\ (forall p, In p h -> (fst p < List.length programs)%nat)
    /\ (sy_lock s = None -> cur = None /\ sy_data s = snd (one_by_one d h))
    /\ (forall j, sy_lock s = Some j -> (j < List.length programs)%nat /\ exists c, cur = Some c)
    /\ forall i t, nth_error (sy_threads s) i = Some t ->
         exists program, nth_error programs i = Some program
         /\ th_done t = of_thread i (fst (one_by_one d h))
         /\ ((sy_lock s <> Some i /\ th_in t = None /\ program = of_thread i h ++ th_todo t)
             \/ (sy_lock s = Some i /\ exists c l rest, cur = Some c /\ th_in t = Some (l, rest)
                  /\ program = of_thread i h ++ [c] ++ th_todo t
                  /\ midway c (snd (one_by_one d h)) l rest (sy_data s))).

Lemma Inv_start d programs : Inv d programs (start d programs).
Proof.
  exists [], None. simpl. split; [apply map_length|]. split; [tauto|]. split; [auto|].
  split; [discriminate|]. intros i t H. rewrite nth_error_map in H. destruct (nth_error programs i) as [p|]; [|discriminate].
  injection H as <-. exists p. split; auto. split; auto. left. simpl. split; [discriminate|auto].
Qed.

Lemma Inv_tick (d : S) (programs : list (list call)) i s : Inv d programs s -> Inv d programs (tick i s).
Proof.
  intros (h & cur & Len & Lt & Free & Held & Th). unfold tick.
  destruct (nth_error (sy_threads s) i) as [t|] eqn:Ni; [|exists h, cur; auto].
  destruct (Th i t Ni) as (prog & Np & Dn & Cs).
  destruct (th_in t) as [[l ms]|] eqn:In_.
  - destruct Cs as [(_ & X & _)|(Lk & c & l0 & rest & Ec & El & Ep & Mi)]; [congruence|].
    rewrite Lk in *. injection El as <- <-. subst cur.
    destruct ms as [|m ms].
    + (* release *)
      destruct Mi as (pre & Eb & Ef). rewrite app_nil_r in Eb. subst pre.
      exists (h ++ [(i, c)]), None. cbn [sy_threads sy_lock sy_data]. rewrite set_nth_length.
      split; auto. destruct (Held i eq_refl) as [Hi _].
      split; [intros p Ip; apply in_app_iff in Ip; destruct Ip as [Ip|[<-|[]]]; auto|].
      assert (Ob : one_by_one d (h ++ [(i, c)]) = (fst (one_by_one d h) ++ [(i, l)], sy_data s)).
      { rewrite one_by_one_app. simpl. unfold alone. rewrite <- Ef. auto. }
      rewrite Ob. cbn [fst snd]. split; [auto|]. split; [discriminate|].
      intros j t' Nj. destruct (set_nth_cases Ni Nj) as [[-> ->]|[Nji Nj']].
      * exists prog. split; auto. cbn [th_done th_in th_todo].
        rewrite !of_thread_app, !of_thread_one, Nat.eqb_refl, Dn. split; auto. left.
        split; [discriminate|]. split; auto. rewrite Ep, <- app_assoc. auto.
      * destruct (Th j t' Nj') as (prog' & Np' & Dn' & Cs'). exists prog'. split; auto.
        rewrite !of_thread_app, !of_thread_one. replace (Nat.eqb i j) with false by (symmetry; apply Nat.eqb_neq; auto).
        rewrite !app_nil_r. split; auto. left. split; [discriminate|].
        destruct Cs' as [(_ & A & B)|(A & _)]; [auto|congruence].
    + (* a step of the body *)
      destruct (m l (sy_data s)) as [l' d'] eqn:Em.
      exists h, (Some c). cbn [sy_threads sy_lock sy_data]. rewrite set_nth_length.
      split; auto. split; auto. split; [discriminate|]. split; [exact Held|].
      intros j t' Nj. destruct (set_nth_cases Ni Nj) as [[-> ->]|[Nji Nj']].
      * exists prog. split; auto. cbn [th_done th_in th_todo]. split; auto. right. split; auto.
        exists c, l', ms. split; auto. split; auto. split; auto. destruct Mi as (pre & Eb & Ef).
        exists (pre ++ [m]). split; [rewrite <- app_assoc; auto|]. rewrite fold_left_app.
        match goal with |- _ = fold_left _ [m] ?a => replace a with (l, sy_data s) by exact Ef end. simpl. auto.
      * destruct (Th j t' Nj') as (prog' & Np' & Dn' & Cs'). exists prog'. split; auto. split; auto. left.
        destruct Cs' as [(A & B & C)|(A & _)]; [auto|congruence].
  - destruct Cs as [(Nl & _ & Ep)|(_ & c & l0 & rest & _ & X & _)]; [|congruence].
    destruct (th_todo t) as [|c r] eqn:Td; [exists h, cur; auto|].
    destruct (sy_lock s) as [j|] eqn:Lk.
    + exists h, cur. rewrite Lk. auto.
    + (* acquire *)
      destruct (Free eq_refl) as [-> Ed].
      exists h, (Some c). cbn [sy_threads sy_lock sy_data]. rewrite set_nth_length.
      split; auto. split; auto. split; [discriminate|].
      split.
      { intros j E. injection E as <-. split; [|eauto]. rewrite <- Len. apply nth_error_Some. congruence. }
      intros j t' Nj. destruct (set_nth_cases Ni Nj) as [[-> ->]|[Nji Nj']].
      * exists prog. split; auto. cbn [th_done th_in th_todo]. split; auto. right. split; auto.
        exists c, (ca_init c), (ca_body c). split; auto. split; auto. split; [rewrite Ep; auto|].
        exists []. split; auto. simpl. rewrite Ed. auto.
      * destruct (Th j t' Nj') as (prog' & Np' & Dn' & Cs'). exists prog'. split; auto. split; auto. left.
        destruct Cs' as [(A & B & C)|(A & _)]; [|congruence].
        split; [congruence|auto].
Qed.
Lemma Inv_ticks (d : S) (programs : list (list call)) sched s : Inv d programs s -> Inv d programs (ticks sched s).
Proof. revert s. induction sched as [|i r IH]; simpl; intros s I; auto. apply IH. apply Inv_tick. auto. Qed.

Lemma linearizable (d : S) (programs : list (list call)) sched : as_if_alone d programs (ticks sched (start d programs)).
Proof.
  destruct (@Inv_ticks d programs sched _ (Inv_start d programs)) as (h & cur & Len & Lt & Free & Held & Th).
  exists h. split; [|split; auto; intros E; apply Free; auto].
  intros i t Ni. destruct (Th i t Ni) as (prog & Np & Dn & Cs).
  destruct Cs as [(_ & A & B)|(_ & c & l & rest & _ & A & B & _)].
  - exists prog, []. cbn [app List.length]. intuition auto.
  - exists prog, [c]. split; auto. split; auto. split; [congruence|]. cbn [List.length]. intuition auto.
Qed.

(** Somebody can always go on. *)
Lemma progress (d : S) (programs : list (list call)) sched :
  let s := ticks sched (start d programs) in
  finished s \/ exists i, tick i s <> s.
Proof.
  cbv zeta. destruct (@Inv_ticks d programs sched _ (Inv_start d programs)) as (h & cur & Len & Lt & Free & Held & Th).
  set (s := ticks sched (start d programs)) in *.
  destruct (sy_lock s) as [j|] eqn:Lk.
  - right. exists j. destruct (Held j eq_refl) as [Hj _]. rewrite <- Len in Hj. apply nth_error_Some in Hj.
    destruct (nth_error (sy_threads s) j) as [t|] eqn:Nj; [|congruence].
    destruct (Th j t Nj) as (prog & _ & _ & [(A & _)|(_ & c & l & rest & _ & A & _)]); [congruence|].
    unfold tick. rewrite Nj, A. intros E. destruct rest as [|m rest].
    + apply (f_equal sy_lock) in E. simpl in E. congruence.
    + destruct (m l (sy_data s)) as [l' d']. apply (f_equal sy_threads) in E. simpl in E.
      apply (f_equal (fun l => nth_error l j)) in E. rewrite (set_nth_eq _ Nj), Nj in E. injection E as E.
      apply (f_equal th_in) in E. simpl in E. rewrite A in E. injection E as _ E.
      apply (f_equal (@List.length _)) in E. simpl in E. lia.
  - destruct (existsb (fun t => match th_todo t with [] => false | _ => true end) (sy_threads s)) eqn:Ex.
    + right. apply existsb_exists in Ex. destruct Ex as (t & It & Et). apply In_nth_error in It. destruct It as [i Ni].
      exists i. destruct (Th i t Ni) as (prog & _ & _ & [(_ & A & _)|(A & _)]); [|congruence].
      unfold tick. rewrite Ni, A, Lk. destruct (th_todo t) as [|c r]; [discriminate|].
      intros E. apply (f_equal sy_lock) in E. simpl in E. congruence.
    + left. apply Forall_forall. intros t It. pose proof It as It'. apply In_nth_error in It. destruct It as [i Ni].
      destruct (Th i t Ni) as (prog & _ & _ & [(_ & A & _)|(A & _)]); [|congruence]. split; auto.
      destruct (th_todo t) as [|c r] eqn:Td; auto. exfalso.
      assert (X : existsb (fun t => match th_todo t with [] => false | _ => true end) (sy_threads s) = true).
      { apply existsb_exists. exists t. rewrite Td. auto. }
      congruence.
Qed.
End G.

(** ** AtomicInt *)
Lemma alone_increment v d : alone (ai_increment v) d = (mkRegs d d, d + v).
Proof. reflexivity. Qed.

Definition increments (incs : list (list Z)) : list (list (call Z regs)) := map (map ai_increment) incs.

(** A history of increments. *)
Fixpoint climb (d : Z) (h : list (nat * Z)) : list (nat * Z) :=
  match h with [] => [] | (i, v) :: r => (i, d) :: climb (d + v) r end.
Lemma one_by_one_increments d (h : list (nat * Z)) :
  one_by_one d (map (fun p => (fst p, ai_increment (snd p))) h)
  = (map (fun p => (fst p, mkRegs (snd p) (snd p))) (climb d h), d + zsum (map snd h)).
Proof.
  revert d. induction h as [|[i v] r IH]; intros d; simpl.
  - f_equal. lia.
  - rewrite IH. f_equal. lia.
Qed.
Lemma climb_bound d h : Forall (fun p => 0 < snd p) h -> Forall (fun q => d <= snd q) (climb d h).
Proof.
  revert d. induction h as [|[i v] r IH]; intros d F; simpl; constructor; inversion F; subst; simpl in *; [lia|].
  eapply Forall_impl; [|apply (IH (d + v)); auto]. simpl. intros; lia.
Qed.
Lemma climb_NoDup d h : Forall (fun p => 0 < snd p) h -> NoDup (map snd (climb d h)).
Proof.
  revert d. induction h as [|[i v] r IH]; intros d F; simpl; constructor; inversion F; subst; simpl in *; auto.
  intros I. apply in_map_iff in I. destruct I as (q & Eq & Iq).
  pose proof (@climb_bound (d + v) r H2) as B. rewrite Forall_forall in B. specialize (B _ Iq). lia.
Qed.

Lemma of_thread_partition {A} n (h : list (nat * A)) : (forall p, In p h -> (fst p < n)%nat) ->
  Permutation (flat_map (fun i => of_thread i h) (seq 0 n)) (map snd h).
Proof.
  induction h as [|[i a] r IH]; intros H.
  - simpl. clear. induction (seq 0 n); simpl; auto.
  - simpl. rewrite <- IH by (intros p I; apply H; right; auto).
    assert (Hi : (i < n)%nat) by (apply (H (i, a)); left; auto).
    assert (J : In i (seq 0 n)) by (apply in_seq; lia).
    apply in_split in J. destruct J as (l1 & l2 & E).
    assert (ND : NoDup (l1 ++ i :: l2)) by (rewrite <- E; apply seq_NoDup).
    assert (N1 : forall l, ~ In i l -> flat_map (fun j => of_thread j ((i, a) :: r)) l = flat_map (fun j => of_thread j r) l).
    { induction l as [|j l IHl]; intros N; simpl; auto. rewrite IHl by (simpl in N; tauto). f_equal.
      unfold of_thread. simpl. destruct (Nat.eqb_spec i j); auto. subst. simpl in N. tauto. }
    rewrite E, !flat_map_app. simpl. apply NoDup_remove_2 in ND. rewrite in_app_iff in ND.
    rewrite !N1 by tauto. unfold of_thread at 2. simpl. rewrite Nat.eqb_refl. simpl.
    fold (of_thread i r). symmetry. apply Permutation_middle.
Qed.

Lemma history {S L V} (f : V -> call S L) (Inj : forall a b, f a = f b -> a = b) d progs (h : list (nat * call S L)) (s : system S L) :
  (forall p, In p h -> (fst p < List.length progs)%nat) ->
  List.length (sy_threads s) = List.length progs ->
  (forall i t, nth_error (sy_threads s) i = Some t ->
       exists program rest, nth_error (map (map f) progs) i = Some program
         /\ program = of_thread i h ++ rest ++ th_todo t
         /\ (th_in t = None -> rest = []) /\ (List.length rest <= 1)%nat
         /\ th_done t = of_thread i (fst (one_by_one d h))) ->
  exists hv : list (nat * V), h = map (fun p => (fst p, f (snd p))) hv
    /\ forall i pr, nth_error progs i = Some pr -> exists rest, pr = of_thread i hv ++ rest.
Proof.
  intros Lt Len Th.
  assert (K : forall i c, In (i, c) h -> exists v pr, c = f v /\ nth_error progs i = Some pr).
  { intros i c I. assert (Hi := Lt _ I). simpl in Hi. rewrite <- Len in Hi. apply nth_error_Some in Hi.
    destruct (nth_error (sy_threads s) i) as [t|] eqn:Ni; [|congruence].
    destruct (Th i t Ni) as (prog & rest & Np & Ep & _). rewrite nth_error_map in Np.
    destruct (nth_error progs i) as [pr|] eqn:Nc; [|discriminate]. injection Np as <-.
    assert (Ib : In c (map f pr)).
    { rewrite Ep. apply in_or_app. left. unfold of_thread. apply in_map_iff. exists (i, c). split; auto.
      apply filter_In. split; auto. simpl. apply Nat.eqb_refl. }
    apply in_map_iff in Ib. destruct Ib as (v & <- & _). eauto. }
  assert (X : exists hv : list (nat * V), h = map (fun p => (fst p, f (snd p))) hv).
  { clear -K. induction h as [|[i c] r IH]; [exists []; auto|].
    destruct IH as [hv ->]; [intros j c' I; apply (K j c'); right; auto|].
    destruct (K i c) as (v & pr & -> & _); [left; auto|]. exists ((i, v) :: hv). auto. }
  destruct X as [hv ->]. exists hv. split; auto.
  intros i pr Ni. assert (Hi : (i < List.length (sy_threads s))%nat).
  { rewrite Len. apply nth_error_Some. congruence. }
  apply nth_error_Some in Hi. destruct (nth_error (sy_threads s) i) as [t|] eqn:Nt; [|congruence].
  destruct (Th i t Nt) as (prog & rest & Np & Ep & _). rewrite nth_error_map, Ni in Np. injection Np as <-.
  assert (Bm : of_thread i (map (fun p => (fst p, f (snd p))) hv) = map f (of_thread i hv)).
  { unfold of_thread. clear. induction hv as [|[j v] r IH]; simpl; auto. destruct (Nat.eqb j i); simpl; rewrite IH; auto. }
  rewrite Bm in Ep. clear -Ep Inj. revert Ep. generalize (of_thread i hv) as l. intros l Ep.
  assert (G : forall a b r, map f a = map f b ++ r -> exists q, a = b ++ q).
  { intros a. induction a as [|x a IH]; intros [|y b] r E; simpl in *.
    - exists []. auto.
    - discriminate.
    - exists (x :: a). auto.
    - injection E as E1 E2. apply Inj in E1. subst.
      destruct (IH _ _ E2) as [q ->]. exists q. auto. }
  eapply G. exact Ep.
Qed.
Lemma increment_inj a b : ai_increment a = ai_increment b -> a = b.
Proof. intros E. apply (f_equal (fun c => snd (alone c 0))) in E. rewrite !alone_increment in E. simpl in E. auto. Qed.
Lemma threads_length {S L} d (programs : list (list (call S L))) sched :
  List.length (sy_threads (ticks sched (start d programs))) = List.length programs.
Proof. destruct (@Inv_ticks S L d programs sched _ (Inv_start d programs)) as (h & cur & Len & _). auto. Qed.

Lemma flat_map_seq {A B} (l : list A) (f : A -> list B) (g : nat -> list B) k :
  (forall i a, nth_error l i = Some a -> f a = g (k + i)%nat) ->
  flat_map f l = flat_map g (seq k (List.length l)).
Proof.
  revert k. induction l as [|a r IH]; intros k H; simpl; auto.
  rewrite (H 0%nat a eq_refl), Nat.add_0_r. f_equal. apply IH. intros i b Hb. rewrite (H (Datatypes.S i) b Hb). f_equal. lia.
Qed.

Lemma atomic_int d incs sched :
  Forall (Forall (fun v => 0 < v)) incs ->
  let s := ticks sched (start d (increments incs)) in
  NoDup (returned s)
  /\ (finished s -> sy_data s = d + zsum (concat incs)
                   /\ List.length (returned s) = List.length (concat incs)).
Proof.
  intros Pos. cbv zeta.
  pose proof (@linearizable Z regs d (increments incs) sched) as (h & Th & Lt & Free).
  pose proof (@threads_length Z regs d (increments incs) sched) as Len.
  assert (Li : List.length (increments incs) = List.length incs) by (unfold increments; apply map_length).
  rewrite Li in Len, Lt. set (s := ticks sched (start d (increments incs))) in *.
  destruct (@history _ _ _ ai_increment increment_inj d incs h s Lt Len Th) as (hv & -> & Pre).
  rewrite one_by_one_increments in *. cbn [fst snd] in *.
  assert (Ltv : forall p, In p hv -> (fst p < List.length incs)%nat).
  { intros p I. apply (Lt (fst p, ai_increment (snd p))). apply in_map_iff. exists p. auto. }
  assert (Posv : Forall (fun p => 0 < snd p) hv).
  { apply Forall_forall. intros [i v] I. simpl. assert (Hi := Ltv _ I). simpl in Hi.
    apply nth_error_Some in Hi. destruct (nth_error incs i) as [inc|] eqn:Ni; [|congruence].
    destruct (Pre i inc Ni) as [rest ->]. apply nth_error_In in Ni. rewrite Forall_forall in Pos.
    specialize (Pos _ Ni). rewrite Forall_forall in Pos. apply Pos. apply in_or_app. left. unfold of_thread.
    apply in_map_iff. exists (i, v). split; auto. apply filter_In. split; auto. simpl. apply Nat.eqb_refl. }
  assert (Lc : forall p, In p (climb d hv) -> (fst p < List.length incs)%nat).
  { revert Ltv. clear. revert d. induction hv as [|[i v] r IH]; simpl; intros d L p I; [tauto|].
    destruct I as [<-|I]; [apply (L (i, v)); auto|]. apply (IH (d + v)); auto. }
  assert (Perm : Permutation (returned s) (map snd (climb d hv))).
  { rewrite <- (of_thread_partition Lc). unfold returned. rewrite <- Len.
    rewrite (@flat_map_seq _ _ (sy_threads s) _ (fun i => of_thread i (climb d hv)) 0); auto.
    intros i t Ni. destruct (Th i t Ni) as (prog & rest & _ & _ & _ & _ & ->). simpl.
    unfold of_thread. clear. induction (climb d hv) as [|[j z] r IH]; simpl; auto.
    destruct (Nat.eqb j i); simpl; rewrite <- IH; auto. }
  split.
  - eapply Permutation_NoDup; [apply Permutation_sym; exact Perm|]. apply climb_NoDup. auto.
  - intros Fin.
    assert (Full : forall i inc, nth_error incs i = Some inc -> of_thread i hv = inc).
    { intros i inc Ni. destruct (Pre i inc Ni) as [rest0 ->].
      assert (Hi : (i < List.length (sy_threads s))%nat) by (rewrite Len; apply nth_error_Some; congruence).
      apply nth_error_Some in Hi. destruct (nth_error (sy_threads s) i) as [t|] eqn:Nt; [|congruence].
      destruct (Th i t Nt) as (prog & rest & Np & Ep & R1 & _ & _).
      unfold finished in Fin. rewrite Forall_forall in Fin. destruct (Fin t) as [T1 T2]; [eapply nth_error_In; eauto|].
      rewrite (R1 T2), T1 in Ep. simpl in Ep. rewrite app_nil_r in Ep. subst prog.
      unfold increments in Np. rewrite nth_error_map, Ni in Np. injection Np as Np.
      apply (f_equal (@List.length _)) in Np. rewrite map_length, app_length in Np.
      assert (Lb : List.length (of_thread i (map (fun p => (fst p, ai_increment (snd p))) hv)) = List.length (of_thread i hv)).
      { unfold of_thread. rewrite !map_length. clear. induction hv as [|[j v] r IH]; simpl; auto. destruct (Nat.eqb j i); simpl; auto. }
      rewrite Lb in Np. destruct rest0; [rewrite app_nil_r; auto|simpl in Np; lia]. }
    assert (Pc : Permutation (concat incs) (map snd hv)).
    { rewrite <- (of_thread_partition Ltv). rewrite <- (map_id incs) at 1. rewrite <- flat_map_concat_map.
      rewrite (@flat_map_seq _ _ incs _ (fun i => of_thread i hv) 0); auto.
      intros i inc Ni. simpl. symmetry. auto. }
    split.
    + rewrite Free.
      * f_equal. clear -Pc. unfold zsum. induction Pc; simpl; lia.
      * destruct (sy_lock s) as [j|] eqn:Lk; auto. exfalso.
        destruct (@Inv_ticks Z regs d (increments incs) sched _ (Inv_start d (increments incs)))
          as (h' & cur & _ & _ & _ & Held & Th'). fold s in Held, Th'.
        destruct (Held j Lk) as [Hj _]. rewrite Li, <- Len in Hj. apply nth_error_Some in Hj.
        destruct (nth_error (sy_threads s) j) as [t|] eqn:Nj; [|congruence].
        destruct (Th' j t Nj) as (prog & _ & _ & [(A & _)|(_ & c & l & rest & _ & A & _)]); [congruence|].
        unfold finished in Fin. rewrite Forall_forall in Fin. destruct (Fin t) as [_ T2]; [eapply nth_error_In; eauto|].
        congruence.
    + rewrite (Permutation_length Perm), (Permutation_length Pc), !map_length.
      clear. revert d. induction hv as [|[i v] r IH]; intros d; simpl; auto.
Qed.

(** ** The other methods *)
Lemma methods_alone (A : Type) (v d : Z) (x : A) (c : option A) :
  alone (ai_increment v) d = (mkRegs d d, d + v)
  /\ snd (alone (ai_iadd v) d) = d + v /\ snd (alone (ai_isub v) d) = d - v
  /\ (rg_result (fst (alone (ai_swap v) d)), snd (alone (ai_swap v) d)) = (d, v)
  /\ alone (@ac_take A) c = (c, None) /\ alone (@ac_read A) c = (c, c)
  /\ snd (alone (ac_set x) c) = Some x /\ alone (lr_swap x) c = (c, Some x).
Proof. repeat split. Qed.

Section Take.
Context {A : Type}.
(** [Some x] sets, [None] takes. *)
Definition opc (o : option A) : call (option A) (option A) := match o with Some x => ac_set x | None => ac_take end.
Lemma opc_inj a b : opc a = opc b -> a = b.
Proof. intros E. apply (f_equal (fun c => snd (alone c None))) in E. destruct a, b; simpl in E; auto. Qed.
Lemma serve c (h : list (nat * option A)) :
  NoDup (taken [c] ++ taken (map snd h)) ->
  NoDup (taken (map snd (fst (one_by_one c (map (fun p => (fst p, opc (snd p))) h)))))
  /\ incl (taken (map snd (fst (one_by_one c (map (fun p => (fst p, opc (snd p))) h))))) (taken [c] ++ taken (map snd h)).
Proof.
  revert c. induction h as [|[i o] r IH]; intros c N; simpl.
  - split; [constructor|]. intros y [].
  - destruct o as [x|]; simpl in *.
    + specialize (IH (Some x)). simpl in IH.
      destruct IH as [I1 I2].
      { destruct c; simpl in *; auto. inversion N; auto. }
      simpl. destruct (one_by_one (Some x) _) as [res d2] eqn:E. simpl in *. split; auto.
      intros y Hy. apply in_or_app. right. apply I2. auto.
    + specialize (IH None). simpl in IH. destruct IH as [I1 I2].
      { destruct c; simpl in *; auto. inversion N; auto. }
      simpl. destruct (one_by_one None _) as [res d2] eqn:E. simpl in *. destruct c as [y|]; simpl in *.
      * split.
        -- constructor; auto. intros Hy. apply I2 in Hy. inversion N. auto.
        -- intros z [->|Hz]; [left; auto|right; apply I2; auto].
      * split; auto.
Qed.
Lemma taken_app (a b : list (option A)) : taken (a ++ b) = taken a ++ taken b.
Proof. unfold taken. apply flat_map_app. Qed.
Lemma taken_some (l : list A) : taken (map Some l) = l.
Proof. induction l; simpl; congruence. Qed.
Lemma taken_perm (a b : list (option A)) : Permutation a b -> Permutation (taken a) (taken b).
Proof.
  unfold taken. induction 1; simpl; auto.
  - apply Permutation_app_head. auto.
  - rewrite !app_assoc. apply Permutation_app_tail. apply Permutation_app_comm.
  - eapply perm_trans; eauto.
Qed.
Lemma NoDup_prefixes (l1 l2 : list (list A)) :
  Forall2 (fun a b => exists r, b = a ++ r) l1 l2 -> NoDup (concat l2) -> NoDup (concat l1) /\ incl (concat l1) (concat l2).
Proof.
  induction 1 as [|a b l1 l2 [r ->] F IH]; simpl; intros N; [split; auto; intros y []|].
  assert (N2 : NoDup (concat l2)).
  { clear -N. induction (a ++ r); simpl in *; auto. inversion N; auto. }
  destruct (IH N2) as [I1 I2]. split.
  - clear IH F. revert N. rewrite <- app_assoc. induction a as [|x a IHa]; simpl; auto. intros N. inversion N; subst.
    constructor; auto. intros X. apply H1. rewrite !in_app_iff in *. destruct X; auto.
  - intros y Hy. rewrite !in_app_iff in *. destruct Hy; auto.
Qed.

Lemma take_once (sets : list (list A)) (takers : list nat) (sched : list nat) :
  NoDup (concat sets) ->
  let s := ticks sched (start None (map (map (@ac_set A)) sets ++ map (repeat (@ac_take A)) takers)) in
  NoDup (flat_map (fun t => taken (th_done t)) (skipn (List.length sets) (sy_threads s))).
Proof.
  intros ND. cbv zeta.
  set (progs := map (map Some) sets ++ map (repeat (@None A)) takers).
  assert (Ep : map (map (@ac_set A)) sets ++ map (repeat (@ac_take A)) takers = map (map opc) progs).
  { unfold progs. rewrite map_app. rewrite !map_map. f_equal.
    - apply map_ext. intros l. rewrite map_map. auto.
    - apply map_ext. intros n. induction n as [|n IH]; [reflexivity|]. cbn [repeat map]. rewrite IH. reflexivity. }
  rewrite Ep.
  pose proof (@linearizable _ _ None (map (map opc) progs) sched) as (h & Th & Lt & Free).
  pose proof (@threads_length _ _ None (map (map opc) progs) sched) as Len.
  rewrite map_length in Len, Lt. set (s := ticks sched (start None (map (map opc) progs))) in *.
  destruct (@history _ _ _ opc opc_inj None progs h s Lt Len Th) as (hv & -> & Pre).
  assert (Ltv : forall p, In p hv -> (fst p < List.length progs)%nat).
  { intros p I. apply (Lt (fst p, opc (snd p))). apply in_map_iff. exists p. auto. }
  assert (Nh : NoDup (taken (map snd hv))).
  { eapply Permutation_NoDup; [apply taken_perm, (of_thread_partition Ltv)|].
    assert (E : forall l, taken (flat_map (fun i => of_thread i hv) l) = concat (map (fun i => taken (of_thread i hv)) l)).
    { induction l; simpl; auto. rewrite taken_app. congruence. }
    rewrite E. apply (@NoDup_prefixes _ (map taken progs)).
    - clear -Pre. assert (G : forall ps k, (forall i pr, nth_error ps i = Some pr -> exists rest, pr = of_thread (k + i) hv ++ rest) ->
        Forall2 (fun a b => exists r, b = a ++ r) (map (fun i => taken (of_thread i hv)) (seq k (List.length ps))) (map taken ps)).
      { induction ps as [|p ps IH]; intros k H; simpl; constructor.
        - destruct (H 0%nat p eq_refl) as [rest ->]. rewrite Nat.add_0_r. rewrite taken_app. eauto.
        - apply IH. intros i pr Hi. specialize (H (Datatypes.S i) pr Hi). replace (Datatypes.S k + i)%nat with (k + Datatypes.S i)%nat by lia. auto. }
      apply G. simpl. auto.
    - unfold progs. rewrite map_app, concat_app, !map_map.
      replace (map (fun x => taken (map Some x)) sets) with sets by (rewrite <- (map_id sets) at 1; apply map_ext; intros; symmetry; apply taken_some).
      replace (concat (map (fun x => taken (repeat (@None A) x)) takers)) with (@nil A); [rewrite app_nil_r; auto|].
      clear. induction takers as [|n r IH]; simpl; auto. rewrite <- IH, app_nil_r. induction n; simpl; auto. }
  destruct (@serve None hv) as [N _]; [simpl; auto|].
  set (res := fst (one_by_one None (map (fun p => (fst p, opc (snd p))) hv))) in *.
  assert (Ltr : forall p, In p res -> (fst p < List.length progs)%nat).
  { assert (E : map fst res = map fst hv).
    { unfold res. clear. generalize (@None A). induction hv as [|[i o] r IH]; intros c; simpl; auto.
      destruct (alone (opc o) c) as [l d1]. specialize (IH d1). destruct (one_by_one d1 _). simpl in *. congruence. }
    intros p I. assert (I' : In (fst p) (map fst hv)) by (rewrite <- E; apply in_map; auto).
    apply in_map_iff in I'. destruct I' as (q & <- & Iq). auto. }
  assert (P : Permutation (flat_map (fun t => taken (th_done t)) (sy_threads s)) (taken (map snd res))).
  { eapply Permutation_trans; [|apply taken_perm, (of_thread_partition Ltr)]. rewrite <- Len.
    rewrite (@flat_map_seq _ _ (sy_threads s) _ (fun i => taken (of_thread i res)) 0).
    - clear. induction (seq 0 (List.length (sy_threads s))) as [|i l IH]; simpl; auto. rewrite taken_app. apply Permutation_app_head. auto.
    - intros i t Ni. destruct (Th i t Ni) as (prog & rest & _ & _ & _ & _ & ->). auto. }
  apply Permutation_sym, Permutation_NoDup in P; auto.
  rewrite <- (firstn_skipn (List.length sets) (sy_threads s)), flat_map_app in P.
  revert P. generalize (flat_map (fun t : thread (option A) (option A) => taken (th_done t)) (firstn (List.length sets) (sy_threads s))).
  intros l. induction l; simpl; auto. intros X. inversion X; auto.
Qed.
End Take.
