(** * CrudListed: what a storage lists while threads create and delete *)
From Verif Require Import Py PyLemmas CkptModel LogModel LogSpec LogProofs LockModel LockProofs CrudModel CrudSpec CrudProofs CrudMore CrudListedSpec.
From Coq Require Import Ascii Sorted Permutation.
Set Implicit Arguments.
Unset Strict Implicit.
Open Scope string_scope.
Open Scope list_scope.
Open Scope Z_scope.

Section Listed.
Context {D T : Type}.
Notation fs := (fs D).
Notation state := (state D T).
Notation worker := (worker D T).
Notation csys := (csys D T).
Notation held := (@CrudMore.held D T).

Definition filed (f : fs) (it : item T) : Prop := exists d, dget f (it_path it) = Some (File d).
Lemma isfile_filed (f : fs) (it : item T) : isfile f (it_path it) = true -> filed f it.
Proof. unfold isfile, filed. destruct (dget f (it_path it)) as [[d|]|]; try discriminate. eauto. Qed.

Lemma take_out_perm h (l : list (item T)) it r : take_out h l = Some (it, r) -> Permutation l (it :: r).
Proof.
  revert r. induction l as [|x l IH]; cbn [take_out]; intros r H; [discriminate|].
  destruct (negb (it_handle x =? h)); [|injection H as -> ->; auto].
  destruct (take_out h l) as [[y r']|]; [|discriminate]. injection H as <- <-.
  rewrite (IH _ eq_refl). apply perm_swap.
Qed.

Definition owned (l : list (item T)) (ws : list worker) : list Z :=
  map (@it_handle T) l ++ flat_map (fun w => held (w_place w)) ws.

Definition lplace (c : config) (f : fs) (n : Z) (own : list Z) (p : place D T) : Prop :=
  match p with
  | Adding it => filed f it
  | Removing q => exists d h, q = file_path c d h /\ 0 <= h < n /\ ~ In h own
  | _ => True
  end.
Definition linv (c : config) (y : csys) : Prop :=
  let s := c_state y in let own := owned (s_items s) (c_workers y) in
  0 <= s_counter s /\ NoDup own /\ below (s_counter s) own
  /\ Forall (fun it => good_item c it /\ filed (s_fs s) it) (s_items s)
  /\ Forall (fun w => lplace c (s_fs s) (s_counter s) own (w_place w)) (c_workers y).

Lemma change_sub n m l l' x : change n m l l' -> In x l' -> In x l \/ x = n.
Proof.
  intros C I. destruct C as [l l' m P L|l l' P|y l l' m P L].
  - left. apply Permutation_sym in P. eapply Permutation_in; eauto.
  - apply Permutation_sym in P. eapply Permutation_in in I; [|exact P]. destruct I as [<-|I]; auto.
  - left. apply Permutation_sym in P. eapply Permutation_in; [exact P|]. apply in_or_app. auto.
Qed.

(** Where one step may change the disk. *)
Lemma work_touch c (w : worker) (s : state) log w' s' log' : tworker c (s_fs s) w -> work c w s log = (w', s', log') ->
  forall p, w_place w = Removing p
     \/ (exists it sv, w_place w = Saving it sv /\ p = it_path it /\ good_item c it)
     \/ dget (s_fs s') p = dget (s_fs s) p.
Proof.
  intros (TD & TP & TO) H p. unfold work in H.
  destruct (w_place w) as [|date utc sv|date h utc sv|date h utc sv|it sv|it|q] eqn:P.
  - destruct (w_todo w) as [|[date utc sv|utc q|h|g] r] eqn:TDo.
    + injection H as <- <- <-. auto.
    + destruct (isdir (s_fs s) (cf_dir c)); injection H as <- <- <-; auto.
    + inversion TD; subst. contradiction.
    + destruct (take_out h (s_items s)) as [[it l]|]; injection H as <- <- <-; auto.
    + inversion TD; subst. contradiction.
  - injection H as <- <- <-. auto.
  - injection H as <- <- <-. auto.
  - injection H as <- <- <-. auto.
  - destruct TP as [TP1 TP2]. destruct (string_dec p (it_path it)) as [->|Q]; [right; left; eauto|]. right. right. destruct sv as [|m r].
    + destruct (isfile (s_fs s) (it_path it)); injection H as <- <- <-; auto.
    + inversion TP1 as [|? ? M1 M2]; subst. pose proof (M1 (it_path it) (s_fs s)) as SB.
      destruct (m (it_path it) (s_fs s)) as [f [x|]] eqn:E; cbn [fst] in SB; injection H as <- <- <-; cbn [s_fs]; apply SB; auto.
  - injection H as <- <- <-. auto.
  - destruct (string_dec q p) as [->|Q]; [left; auto|]. right. right. injection H as <- <- <-.
    unfold os_remove. destruct (dget (s_fs s) q) as [[d|]|]; auto. cbn [s_fs]. apply dget_ddel_neq. auto.
Qed.

(** One step: how the handles of the listed items and of this thread change,
    and where listed items, items about to be listed and files about to be
    removed come from. *)
Lemma work_owned c (w : worker) (s : state) log w' s' log' : tworker c (s_fs s) w -> work c w s log = (w', s', log') ->
  s_counter s <= s_counter s'
  /\ change (s_counter s) (s_counter s') (map (@it_handle T) (s_items s) ++ held (w_place w)) (map (@it_handle T) (s_items s') ++ held (w_place w'))
  /\ (forall it, In it (s_items s') -> In it (s_items s) \/ (w_place w = Adding it /\ s_fs s' = s_fs s))
  /\ (forall it, w_place w' = Adding it -> filed (s_fs s') it \/ w_place w = Adding it)
  /\ (forall q, w_place w' = Removing q -> exists it, In it (s_items s) /\ it_path it = q /\ held (w_place w) = []
        /\ held (w_place w') = [] /\ Permutation (s_items s) (it :: s_items s') /\ s_counter s' = s_counter s).
Proof.
  intros (TD & TP & TO) H. unfold work in H.
  assert (KK : forall w0 s0 lg, (w0, s0, lg) = (w', s', log') -> s_counter s <= s_counter s0 -> s_items s0 = s_items s ->
    change (s_counter s) (s_counter s0) (held (w_place w)) (held (w_place w0)) ->
    (forall it, w_place w0 = Adding it -> filed (s_fs s0) it) -> (forall q, w_place w0 <> Removing q) ->
    s_counter s <= s_counter s'
    /\ change (s_counter s) (s_counter s') (map (@it_handle T) (s_items s) ++ held (w_place w)) (map (@it_handle T) (s_items s') ++ held (w_place w'))
    /\ (forall it, In it (s_items s') -> In it (s_items s) \/ (w_place w = Adding it /\ s_fs s' = s_fs s))
    /\ (forall it, w_place w' = Adding it -> filed (s_fs s') it \/ w_place w = Adding it)
    /\ (forall q, w_place w' = Removing q -> exists it, In it (s_items s) /\ it_path it = q /\ held (w_place w) = []
        /\ held (w_place w') = [] /\ Permutation (s_items s) (it :: s_items s') /\ s_counter s' = s_counter s)).
  { intros w0 s0 lg E L F C A R0. injection E as -> -> ->. split; auto. rewrite F. split.
    - pose proof (change_frame (map (@it_handle T) (s_items s)) [] C) as Q. rewrite !app_nil_r in Q. exact Q.
    - split; auto. split; [auto|]. intros q X. destruct (R0 _ X). }
  destruct (w_place w) as [|date utc sv|date h utc sv|date h utc sv|it sv|it|p] eqn:P.
  - destruct (w_todo w) as [|[date utc sv|utc p|h|g] r] eqn:TDo.
    + apply (KK _ _ _ H); try lia; auto; rewrite P; try discriminate. apply ch_same; auto; lia.
    + destruct (isdir (s_fs s) (cf_dir c)); apply (KK _ _ _ H); cbn [w_place]; try lia; auto; try discriminate; apply ch_same; auto; lia.
    + inversion TD; subst. contradiction.
    + destruct (take_out h (s_items s)) as [[it l]|] eqn:TO'.
      * injection H as <- <- <-. cbn [s_counter s_items s_fs w_place CrudMore.held]. rewrite !app_nil_r.
        pose proof (take_out_perm TO') as PP. split; [lia|]. split.
        { apply ch_drop with (x := [it_handle it]); [|lia]. cbn [app]. change (it_handle it :: map (@it_handle T) l) with (map (@it_handle T) (it :: l)).
          apply Permutation_map. exact PP. }
        split; [|split].
        -- intros it' I. left. apply Permutation_sym in PP. eapply Permutation_in; [exact PP|]. right. auto.
        -- intros it' X. discriminate X.
        -- intros q X. injection X as <-. exists it. split; [|split; [|split; [|split; [|split]]]]; auto.
           apply Permutation_sym in PP. eapply Permutation_in; [exact PP|]. left. auto.
      * apply (KK _ _ _ H); cbn [w_place]; try lia; auto; try discriminate. apply ch_same; auto; lia.
    + inversion TD; subst. contradiction.
  - apply (KK _ _ _ H); cbn [w_place s_counter s_items CrudMore.held]; try lia; auto; try discriminate. apply ch_new. auto.
  - apply (KK _ _ _ H); try lia; auto; destruct (dmem (s_fs s) (file_path c date h)); cbn [w_place CrudMore.held]; try discriminate.
    + apply ch_drop with (x := [h]); auto; lia.
    + apply ch_same; auto; lia.
  - apply (KK _ _ _ H); cbn [w_place s_counter s_items CrudMore.held it_handle]; try lia; auto; try discriminate. apply ch_same; auto; lia.
  - destruct sv as [|m r].
    + destruct (isfile (s_fs s) (it_path it)) eqn:IF; apply (KK _ _ _ H); cbn [w_place CrudMore.held]; try lia; auto; try discriminate.
      * apply ch_same; auto; lia.
      * intros it' X. injection X as <-. apply isfile_filed. auto.
      * apply ch_drop with (x := [it_handle it]); auto; lia.
    + destruct (m (it_path it) (s_fs s)) as [f [x|]]; apply (KK _ _ _ H); cbn [w_place s_counter s_items CrudMore.held]; try lia; auto; try discriminate.
      * apply ch_drop with (x := [it_handle it]); auto; lia.
      * apply ch_same; auto; lia.
  - injection H as <- <- <-. cbn [s_counter s_items s_fs w_place CrudMore.held]. split; [lia|]. split.
    { rewrite map_app, app_nil_r. cbn [map]. apply ch_same; auto; lia. }
    split; [|split]; try discriminate. intros it' I. apply in_app_or in I. destruct I as [I|[<-|[]]]; auto.
  - assert (X1 : s_counter (match os_remove (s_fs s) p with Ok f => mkState (s_counter s) (s_items s) f | Err _ => s end) = s_counter s)
      by (destruct (os_remove (s_fs s) p); auto).
    assert (X2 : s_items (match os_remove (s_fs s) p with Ok f => mkState (s_counter s) (s_items s) f | Err _ => s end) = s_items s)
      by (destruct (os_remove (s_fs s) p); auto).
    apply (KK _ _ _ H); rewrite ?X1, ?X2; cbn [w_place]; try lia; auto; try discriminate. apply ch_same; auto; lia.
Qed.

Lemma owned_split (l : list (item T)) a (w : worker) b :
  Permutation (owned l (a ++ w :: b)) ((map (@it_handle T) l ++ held (w_place w)) ++ flat_map (fun w => held (w_place w)) (a ++ b)).
Proof.
  unfold owned. rewrite !flat_map_app. cbn [flat_map]. rewrite <- app_assoc. apply Permutation_app_head. apply perm_mid.
Qed.

Lemma lstep c i (y : csys) : full c y -> linv c y -> linv c (cstep c i y).
Proof.
  intros ((T1 & T2) & hs & U) (A & B & C & E & F). unfold cstep.
  destruct (nth_error (c_workers y) i) as [w|] eqn:N; [|unfold linv; auto].
  destruct (work c w (c_state y) (c_calls y)) as [[w' s'] log'] eqn:W.
  assert (TW : tworker c (s_fs (c_state y)) w) by (eapply Forall_forall in T1; [exact T1|eapply nth_error_In; eauto]).
  destruct (work_tidy TW W) as (D1 & _ & _). destruct (work_owned TW W) as (W1 & W2 & W3 & W4 & W5).
  destruct (@split_set_nth worker i (c_workers y) w w' N) as (a & b & E1 & E2 & _).
  unfold linv. cbn [c_state c_calls c_workers]. rewrite E2. clear E2.
  set (s := c_state y) in *. rewrite E1 in B, C, F. 
  set (rest := flat_map (fun w => held (w_place w)) (a ++ b)).
  assert (Q : change (s_counter s) (s_counter s') (owned (s_items s) (a ++ w :: b)) (owned (s_items s') (a ++ w' :: b))).
  { eapply change_perm; [|apply Permutation_sym, owned_split|apply Permutation_sym, owned_split].
    exact (change_frame [] rest W2). }
  destruct (change_keeps A Q B C) as [Q1 Q2].
  assert (FW : lplace c (s_fs s) (s_counter s) (owned (s_items s) (a ++ w :: b)) (w_place w)).
  { eapply Forall_forall in F; [exact F|]. apply in_or_app. right. left. auto. }
  (* what this step may not touch *)
  assert (KEEP : forall it : item T, good_item c it -> In (it_handle it) (owned (s_items s) (a ++ w :: b)) ->
      ~ In (it_handle it) (held (w_place w)) -> dget (s_fs s') (it_path it) = dget (s_fs s) (it_path it)).
  { intros it (d & G) I NH. destruct (work_touch TW W (it_path it)) as [X|[(it' & sv & X1 & X2 & (d' & X3))|X]]; [| |exact X]; exfalso.
    - rewrite X in FW. cbn [lplace] in FW. destruct FW as (d' & h' & P1 & P2 & P3). apply P3.
      assert (X' : it_handle it = h'); [|rewrite <- X'; auto].
      apply (@file_path_inj c d d'); [| |congruence]; [|lia]. eapply Forall_forall in C; [|exact I]. simpl in C. lia.
    - apply NH. rewrite X1. cbn [CrudMore.held]. left. symmetry.
      assert (I' : In (it_handle it') (owned (s_items s) (a ++ w :: b))).
      { apply in_or_app. right. apply in_flat_map. exists w. split; [apply in_or_app; right; left; auto|]. rewrite X1. left. auto. }
      apply (@file_path_inj c d d'); [| |congruence].
      + eapply Forall_forall in C; [|exact I]. simpl in C. lia.
      + eapply Forall_forall in C; [|exact I']. simpl in C. lia. }
  split; [lia|]. split; [exact Q1|]. split; [exact Q2|]. split.
  - apply Forall_forall. intros it I. destruct (W3 it I) as [I'|[P1 P2]].
    + eapply Forall_forall in E; [|exact I']. destruct E as [G (d & FE)]. split; auto. exists d. rewrite KEEP; auto.
      * apply in_or_app. left. apply in_map. auto.
      * intros X. eapply Permutation_NoDup in B; [|apply owned_split]. apply NoDup_app_remove_r in B.
        eapply (NoDup_app_disjoint B); [|exact X]. apply in_map. auto.
    + rewrite P1 in FW. cbn [lplace] in FW. destruct TW as (_ & TP & _). rewrite P1 in TP. cbn [tplace] in TP.
      split; auto. unfold filed in *. fold s in P2. rewrite P2. auto.
  - apply Forall_forall. intros v V.
    assert (OLD : In v (a ++ b) -> lplace c (s_fs s') (s_counter s') (owned (s_items s') (a ++ w' :: b)) (w_place v)).
    { intros VI. assert (VI' : In v (a ++ w :: b)).
      { apply in_app_or in VI. apply in_or_app. destruct VI; [left|right; right]; auto. }
      assert (FV := F). eapply Forall_forall in FV; [|exact VI'].
      destruct (w_place v) as [|date utc sv|date h utc sv|date h utc sv|it sv|it|q] eqn:PV; cbn [lplace] in *; auto.
      - destruct FV as [d FV]. exists d. rewrite KEEP; auto.
        + assert (TV : tworker c (s_fs s) v) by (eapply Forall_forall in T1; [exact T1|rewrite E1; auto]).
          destruct TV as (_ & TP & _). rewrite PV in TP. exact TP.
        + apply in_or_app. right. apply in_flat_map. exists v. split; auto. rewrite PV. left. auto.
        + intros X. eapply Permutation_NoDup in B; [|apply owned_split].
          eapply (NoDup_app_disjoint B); [apply in_or_app; right; exact X|]. apply in_flat_map. exists v. split; auto. rewrite PV. left. auto.
      - destruct FV as (d & h & P1 & P2 & P3). exists d, h. split; auto. split; [lia|]. intros X.
        destruct (change_sub Q X) as [X'|X']; [auto|lia]. }
    apply in_app_or in V. destruct V as [V|[V|V]]; try (apply OLD; apply in_or_app; auto; fail). subst v.
    destruct (w_place w') as [|date utc sv|date h utc sv|date h utc sv|it sv|it|q] eqn:PV; cbn [lplace]; auto.
    + destruct (W4 it eq_refl) as [X|X]; auto.
      (* a thread about to add does add *)
      exfalso. unfold work in W. rewrite X in W. injection W as <- <- <-. discriminate PV.
    + destruct (W5 q eq_refl) as (it & I1 & I2 & I3 & I4 & I5 & I6).
      eapply Forall_forall in E; [|exact I1]. destruct E as [(d & G) _]. exists d, (it_handle it). split; [congruence|].
      assert (I' : In (it_handle it) (owned (s_items s) (a ++ w :: b))) by (apply in_or_app; left; apply in_map; auto).
      split. { eapply Forall_forall in C; [|exact I']. simpl in C. fold s in I6. lia. }
      intros X. eapply Permutation_NoDup in B; [|apply owned_split]. rewrite I3, app_nil_r in B.
      eapply Permutation_NoDup in B; [|apply Permutation_app_tail, Permutation_map; exact I5]. cbn [map app] in B.
      apply NoDup_cons_iff in B. destruct B as [B _]. apply B.
      eapply Permutation_in in X; [|apply owned_split]. rewrite PV in X. cbn [CrudMore.held] in X. rewrite app_nil_r in X. exact X.
Qed.

Lemma lstart c (s : state) programs : 0 <= s_counter s -> s_items s = [] -> linv c (cstart s programs).
Proof.
  intros H I. assert (X : flat_map (fun w : worker => held (w_place w)) (map (fun p => mkWorker p Between []) programs) = []).
  { clear. induction programs as [|p r IH]; simpl; auto. }
  unfold linv, owned, cstart. cbn [c_state c_workers]. rewrite I, X. cbn [map app]. split; auto. split; [constructor|].
  split; [constructor|]. split; [constructor|]. apply Forall_forall. intros w V. apply in_map_iff in V. destruct V as (p & <- & _). exact Logic.I.
Qed.
Lemma lsteps c sched : forall y : csys, full c y -> linv c y -> linv c (csteps c sched y).
Proof. induction sched as [|i r IH]; intros y F L; cbn [csteps]; auto. apply IH; [apply tstep; auto|apply lstep; auto]. Qed.

(** ** The disk stays a disk *)
Definition pplace (p : place D T) : Prop :=
  match p with
  | Naming _ _ sv | Checking _ _ _ sv | Calling _ _ _ sv | Saving _ sv => Forall (@disk_saver D) sv
  | _ => True
  end.
Definition pinv (y : csys) : Prop := proper (s_fs (c_state y))
  /\ Forall (fun w => Forall (@disk_job D T) (w_todo w) /\ pplace (w_place w)) (c_workers y).
Lemma work_proper c (w : worker) (s : state) log w' s' log' : tworker c (s_fs s) w -> work c w s log = (w', s', log') ->
  proper (s_fs s) -> Forall (@disk_job D T) (w_todo w) -> pplace (w_place w) ->
  proper (s_fs s') /\ Forall (@disk_job D T) (w_todo w') /\ pplace (w_place w').
Proof.
  intros (TD & TP & TO) H PR DJ PP. unfold work in H.
  destruct (w_place w) as [|date utc sv|date h utc sv|date h utc sv|it sv|it|q] eqn:P; cbn [pplace] in PP.
  - destruct (w_todo w) as [|[date utc sv|utc q|h|g] r] eqn:TDo.
    + injection H as <- <- <-. rewrite TDo, P. auto.
    + inversion DJ; subst. destruct (isdir (s_fs s) (cf_dir c)); injection H as <- <- <-; cbn [w_todo w_place pplace]; auto.
    + inversion TD; subst. contradiction.
    + inversion DJ; subst. destruct (take_out h (s_items s)) as [[it l]|]; injection H as <- <- <-; cbn [w_todo w_place pplace s_fs]; auto.
    + inversion TD; subst. contradiction.
  - injection H as <- <- <-. cbn [w_todo w_place pplace s_fs]. auto.
  - injection H as <- <- <-. cbn [w_todo w_place s_fs]. destruct (dmem (s_fs s) (file_path c date h)); auto.
  - injection H as <- <- <-. cbn [w_todo w_place pplace s_fs]. auto.
  - destruct sv as [|m r].
    + destruct (isfile (s_fs s) (it_path it)); injection H as <- <- <-; cbn [w_todo w_place pplace]; auto.
    + inversion PP as [|? ? M1 M2]; subst. pose proof (M1 (it_path it) (s_fs s) PR) as M.
      destruct (m (it_path it) (s_fs s)) as [f [x|]] eqn:E; cbn [fst] in M; injection H as <- <- <-; cbn [w_todo w_place pplace s_fs]; auto.
  - injection H as <- <- <-. cbn [w_todo w_place pplace s_fs]. auto.
  - injection H as <- <- <-. cbn [w_todo w_place pplace]. split; auto.
    unfold os_remove. destruct (dget (s_fs s) q) as [[d|]|]; auto. cbn [s_fs]. unfold proper in *. apply NoDup_ddel. auto.
Qed.
Lemma pstep c i (y : csys) : full c y -> pinv y -> pinv (cstep c i y).
Proof.
  intros ((T1 & _) & _) (PR & A). unfold cstep. destruct (nth_error (c_workers y) i) as [w|] eqn:N; [|split; auto].
  destruct (work c w (c_state y) (c_calls y)) as [[w' s'] log'] eqn:W.
  assert (TW : tworker c (s_fs (c_state y)) w) by (eapply Forall_forall in T1; [exact T1|eapply nth_error_In; eauto]).
  assert (PW := A). eapply Forall_forall in PW; [|eapply nth_error_In; exact N]. destruct PW as [P1 P2].
  destruct (work_proper TW W PR P1 P2) as (X1 & X2 & X3). split; auto. cbn [c_workers].
  apply Forall_forall. intros v V. apply In_nth_error in V. destruct V as [j V].
  destruct (set_nth_cases N V) as [[-> ->]|[NJ V']]; auto. eapply Forall_forall in A; [exact A|]. eapply nth_error_In; eauto.
Qed.

(** ** Returned items *)
Definition rinv (programs : list (list (job D T))) (y : csys) : Prop :=
  let s := c_state y in
  (forall it, In it (s_items s) -> In it (results y))
  /\ (forall it, In it (results y) -> In it (s_items s)
        \/ ((exists p, In p programs /\ In (JDelete (it_handle it)) p)
            /\ (dget (s_fs s) (it_path it) = None
                \/ (filed (s_fs s) it /\ exists w, In w (c_workers y) /\ w_place w = Removing (it_path it)))))
  /\ Forall (fun w => forall h, In (JDelete h) (w_todo w) -> exists p, In p programs /\ In (JDelete h) p) (c_workers y).

Lemma init_items dir prefix ext (f : fs) c (s : state) : init dir prefix ext f = Ok (c, s) -> s_items s = [].
Proof.
  unfold init. destruct (String.eqb ext ""); [discriminate|]. destruct (contains "." ext); [discriminate|].
  destruct (dget f dir) as [[d|]|]; intros H; try discriminate; injection H as <- <-; auto.
Qed.
Lemma init_proper dir prefix ext (f : fs) c (s : state) : proper f -> init dir prefix ext f = Ok (c, s) -> proper (s_fs s).
Proof. intros P H. destruct (init_inv P H) as (J & _). unfold inv in J. tauto. Qed.

Lemma in_results (y : csys) it : In it (results y) <-> exists w, In w (c_workers y) /\ In it (oks (w_done w)).
Proof. unfold results. rewrite in_flat_map. reflexivity. Qed.

(** A returned item's path changes only by a removal. *)
Lemma returned_kept c (y : csys) i w w' s' log' it : full c y -> nth_error (c_workers y) i = Some w ->
  work c w (c_state y) (c_calls y) = (w', s', log') -> In it (results y) ->
  w_place w = Removing (it_path it) \/ dget (s_fs s') (it_path it) = dget (s_fs (c_state y)) (it_path it).
Proof.
  intros ((T1 & T2) & hs & U) N W I.
  assert (TW : tworker c (s_fs (c_state y)) w) by (eapply Forall_forall in T1; [exact T1|eapply nth_error_In; eauto]).
  destruct (work_touch TW W (it_path it)) as [X|[(it' & sv' & X1 & X2 & (d' & X3))|X]]; auto. exfalso.
  apply in_results in I. destruct I as (v & V & I).
  assert (GI : good_item c it).
  { eapply Forall_forall in T1; [|exact V]. destruct T1 as (_ & _ & T1). eapply Forall_forall in T1; eauto. }
  destruct GI as (d & GI). destruct U as (_ & _ & _ & _ & U1 & U2).
  assert (I1 : In (it_handle it) (claimed v)) by (unfold claimed; apply in_or_app; right; apply in_map; auto).
  assert (I2 : In (it_handle it') (claimed w)) by (unfold claimed; rewrite X1; left; auto).
  assert (E : it_handle it = it_handle it').
  { apply (@file_path_inj c d d'); [| |congruence]; (eapply Forall_forall in U2; [apply U2|]; apply in_flat_map).
    - exists v. auto.
    - exists w. split; auto. eapply nth_error_In; eauto. }
  apply In_nth_error in V. destruct V as [j V]. destruct (Nat.eq_dec i j) as [<-|NE].
  + rewrite N in V. injection V as <-. assert (ND : NoDup (claimed w)).
    { destruct (@split_set_nth worker i (c_workers y) w w N) as (a & b & E1 & _). rewrite E1, flat_map_app in U1. cbn [flat_map] in U1.
      apply NoDup_app_remove_l in U1. apply NoDup_app_remove_r in U1. auto. }
    unfold claimed in ND. rewrite X1 in ND. cbn [CrudMore.held app] in ND. apply NoDup_cons_iff in ND. destruct ND as [ND _]. apply ND.
    rewrite <- E. apply in_map. auto.
  + rewrite E in I1. eapply claimed_apart with (i := i) (j := j); eauto.
Qed.

(** One step: what is listed, returned and left to do. *)
Lemma work_listed c (w : worker) (s : state) log w' s' log' : tworker c (s_fs s) w -> work c w s log = (w', s', log') ->
  (forall j, In j (w_todo w') -> In j (w_todo w))
  /\ (forall it, In it (oks (w_done w)) -> In it (oks (w_done w')))
  /\ (forall it, In it (oks (w_done w')) -> In it (oks (w_done w)) \/ In it (s_items s'))
  /\ (forall it, In it (s_items s') -> In it (s_items s) \/ In it (oks (w_done w')))
  /\ (forall it, In it (s_items s) -> In it (s_items s')
        \/ (In (JDelete (it_handle it)) (w_todo w) /\ s_fs s' = s_fs s /\ w_place w' = Removing (it_path it))).
Proof.
  intros (TD & TP & TO) H. unfold work in H.
  assert (KK : forall w0 s0 lg, (w0, s0, lg) = (w', s', log') -> s_items s0 = s_items s ->
    (forall j, In j (w_todo w0) -> In j (w_todo w)) -> oks (w_done w0) = oks (w_done w) ->
    (forall j, In j (w_todo w') -> In j (w_todo w))
    /\ (forall it, In it (oks (w_done w)) -> In it (oks (w_done w')))
    /\ (forall it, In it (oks (w_done w')) -> In it (oks (w_done w)) \/ In it (s_items s'))
    /\ (forall it, In it (s_items s') -> In it (s_items s) \/ In it (oks (w_done w')))
    /\ (forall it, In it (s_items s) -> In it (s_items s')
        \/ (In (JDelete (it_handle it)) (w_todo w) /\ s_fs s' = s_fs s /\ w_place w' = Removing (it_path it)))).
  { intros w0 s0 lg E F1 F2 F3. injection E as -> -> ->. rewrite F1, F3. auto 10. }
  assert (OE : forall e, oks (w_done w ++ [Err e]) = oks (w_done w)).
  { intros e. rewrite oks_app. cbn [oks flat_map]. apply app_nil_r. }
  destruct (w_place w) as [|date utc sv|date h utc sv|date h utc sv|it sv|it|q] eqn:P.
  - destruct (w_todo w) as [|[date utc sv|utc q|h|g] r] eqn:TDo.
    + apply (KK _ _ _ H); auto. rewrite TDo. auto.
    + destruct (isdir (s_fs s) (cf_dir c)); apply (KK _ _ _ H); cbn [w_todo w_done]; auto; right; auto.
    + inversion TD; subst. contradiction.
    + destruct (take_out h (s_items s)) as [[it l]|] eqn:TO'.
      * injection H as <- <- <-. cbn [w_todo w_done s_items w_place s_fs]. split; [right; auto|]. split; auto. split; auto.
        pose proof (take_out_perm TO') as PP. destruct (take_out_some TO') as (HE & _). split.
        -- intros it' I. left. apply Permutation_sym in PP. eapply Permutation_in; [exact PP|]. right. auto.
        -- intros it' I. eapply Permutation_in in I; [|exact PP]. destruct I as [<-|I]; [|auto]. right. rewrite HE. split; [left; auto|]. auto.
      * apply (KK _ _ _ H); cbn [w_todo w_done]; auto; right; auto.
    + inversion TD; subst. contradiction.
  - apply (KK _ _ _ H); auto.
  - apply (KK _ _ _ H); auto.
  - apply (KK _ _ _ H); auto.
  - destruct sv as [|m r].
    + destruct (isfile (s_fs s) (it_path it)); apply (KK _ _ _ H); cbn [w_todo w_done]; auto.
    + destruct (m (it_path it) (s_fs s)) as [f [x|]]; apply (KK _ _ _ H); cbn [w_todo w_done]; auto.
  - injection H as <- <- <-. cbn [w_todo w_done s_items s_fs w_place]. rewrite oks_app. cbn [oks flat_map app].
    split; auto. split; [intros; apply in_or_app; auto|]. split; [|split].
    + intros it' I. apply in_app_or in I. destruct I as [I|[<-|[]]]; auto. right. apply in_or_app. right. left. auto.
    + intros it' I. apply in_app_or in I. destruct I as [I|[<-|[]]]; auto. right. apply in_or_app. right. left. auto.
    + intros it' I. left. apply in_or_app. auto.
  - apply (KK _ _ _ H); auto. destruct (os_remove (s_fs s) q); auto.
Qed.

Lemma rstep c programs i (y : csys) : full c y -> linv c y -> pinv y -> rinv programs y -> rinv programs (cstep c i y).
Proof.
  intros FU LI (PR & _) (A & B & C). unfold cstep. destruct (nth_error (c_workers y) i) as [w|] eqn:N; [|unfold rinv; auto].
  destruct (work c w (c_state y) (c_calls y)) as [[w' s'] log'] eqn:W.
  assert (TW : tworker c (s_fs (c_state y)) w).
  { destruct FU as ((T1 & _) & _). eapply Forall_forall in T1; [exact T1|eapply nth_error_In; eauto]. }
  destruct (work_listed TW W) as (L1 & L2 & L3 & L4 & L5).
  destruct (@split_set_nth worker i (c_workers y) w w' N) as (a & b & E1 & E2 & _).
  assert (RES : forall it, In it (results (mkCsys s' log' (set_nth i w' (c_workers y)))) <-> (exists v, In v (a ++ b) /\ In it (oks (w_done v))) \/ In it (oks (w_done w'))).
  { intros it. rewrite in_results. cbn [c_workers]. rewrite E2. split.
    - intros (v & V & I). apply in_app_or in V. destruct V as [V|[<-|V]]; auto; left; exists v; split; auto; apply in_or_app; auto.
    - intros [(v & V & I)|I]; [exists v|exists w']; split; auto; [|apply in_or_app; right; left; auto].
      apply in_app_or in V. apply in_or_app. destruct V; [left|right; right]; auto. }
  assert (RES0 : forall it, In it (results y) <-> (exists v, In v (a ++ b) /\ In it (oks (w_done v))) \/ In it (oks (w_done w))).
  { intros it. rewrite in_results, E1. split.
    - intros (v & V & I). apply in_app_or in V. destruct V as [V|[<-|V]]; auto; left; exists v; split; auto; apply in_or_app; auto.
    - intros [(v & V & I)|I]; [exists v|exists w]; split; auto; [|apply in_or_app; right; left; auto].
      apply in_app_or in V. apply in_or_app. destruct V; [left|right; right]; auto. }
  assert (WC : forall h, In (JDelete h) (w_todo w) -> exists p, In p programs /\ In (JDelete h) p).
  { eapply Forall_forall in C; [exact C|]. rewrite E1. apply in_or_app. right. left. auto. }
  unfold rinv. cbn [c_state c_workers]. split; [|split].
  - intros it I. apply RES. destruct (L4 it I) as [X|X]; auto. apply A in X. apply RES0 in X. destruct X as [X|X]; auto.
  - intros it I. apply RES in I.
    assert (I0 : In it (results y) \/ In it (s_items s')).
    { destruct I as [I|I]; [left; apply RES0; auto|]. destruct (L3 it I) as [X|X]; auto. left. apply RES0. auto. }
    destruct I0 as [I0|I0]; auto.
    pose proof (returned_kept FU N W I0) as K.
    destruct (B it I0) as [X|(X1 & X2)].
    + destruct (L5 it X) as [Y|(Y1 & Y2 & Y3)]; auto. right. split; [auto|]. right. split.
      * unfold filed. rewrite Y2. destruct LI as (_ & _ & _ & E & _). eapply Forall_forall in E; [|exact X]. apply E.
      * exists w'. split; auto. rewrite E2. apply in_or_app. right. left. auto.
    + right. split; auto. destruct K as [K|K].
      * (* this thread removes it *)
        unfold work in W. rewrite K in W. injection W as <- <- <-.
        destruct X2 as [X2|((d & X2) & _)].
        -- left. unfold os_remove. rewrite X2. auto.
        -- left. unfold os_remove. rewrite X2. cbn [s_fs]. apply dget_ddel_eq; exact PR.
      * destruct X2 as [X2|((d & X2) & v & V & PV)]; [left; congruence|].
        rewrite E1 in V. assert (VV : In v (a ++ b) \/ v = w).
        { apply in_app_or in V. destruct V as [V|[<-|V]]; auto; left; apply in_or_app; auto. }
        destruct VV as [VV| ->].
        -- right. split; [exists d; congruence|]. exists v. split; auto. rewrite E2. apply in_app_or in VV. apply in_or_app. destruct VV; [left|right; right]; auto.
        -- left. unfold work in W. rewrite PV in W. injection W as <- <- <-. unfold os_remove. rewrite X2. cbn [s_fs]. apply dget_ddel_eq; exact PR.
  - rewrite E2. apply Forall_forall. intros v V h I. assert (VV : In v (a ++ w :: b) \/ v = w').
    { apply in_app_or in V. destruct V as [V|[<-|V]]; auto; left; apply in_or_app; auto; right; right; auto. }
    destruct VV as [VV| ->].
    + rewrite E1 in C. eapply Forall_forall in C; [|exact VV]. auto.
    + apply WC. apply L1. auto.
Qed.
Lemma rsteps c programs sched : forall y : csys, full c y -> linv c y -> pinv y -> rinv programs y ->
  full c (csteps c sched y) /\ linv c (csteps c sched y) /\ rinv programs (csteps c sched y).
Proof.
  induction sched as [|i r IH]; intros y F L P0 R0; cbn [csteps]; auto.
  apply IH; [apply tstep; auto|apply lstep; auto|eapply pstep; eauto|apply rstep; auto].
Qed.
Lemma rstart (s : state) programs : s_items s = [] -> rinv programs (cstart s programs).
Proof.
  intros I. unfold rinv, cstart. cbn [c_state c_workers]. rewrite I. split; [intros it []|]. split.
  - intros it J. exfalso. apply in_results in J. cbn [c_workers] in J. destruct J as (w & V & J).
    apply in_map_iff in V. destruct V as (p & <- & _). destruct J.
  - apply Forall_forall. intros w V. apply in_map_iff in V. destruct V as (p & <- & V). cbn [w_todo]. eauto.
Qed.

Theorem listed_exist dir prefix ext (f : fs) c (s : state) programs sched : init dir prefix ext f = Ok (c, s) ->
  proper f -> Forall (Forall (@tidy D T)) programs -> Forall (Forall (@disk_job D T)) programs ->
  let y := csteps c sched (cstart s programs) in
  (forall it, In it (s_items (c_state y)) ->
     In it (results y) /\ exists d, dget (s_fs (c_state y)) (it_path it) = Some (File d))
  /\ (forall it, In it (results y) -> (forall p, In p programs -> ~ In (JDelete (it_handle it)) p) ->
        In it (s_items (c_state y)))
  /\ (Forall (fun w => w_place w = Between) (c_workers y) ->
      forall it, In it (results y) -> ~ In it (s_items (c_state y)) -> dget (s_fs (c_state y)) (it_path it) = None).
Proof.
  intros H PF TD DJ y. pose proof (init_counter H) as HC. pose proof (init_items H) as HI.
  destruct (@rsteps c programs sched (cstart s programs)) as (F & L & (A & B & C)).
  { apply tstart; auto. } { apply lstart; auto. }
  { split; [eapply init_proper; eauto|]. apply Forall_forall. intros w V. apply in_map_iff in V. destruct V as (p & <- & V).
    split; [|exact I]. eapply Forall_forall in DJ; [exact DJ|exact V]. }
  { apply rstart; auto. }
  fold y in F, L, A, B, C. split; [|split].
  - intros it I. split; auto. destruct L as (_ & _ & _ & E & _). eapply Forall_forall in E; [|exact I]. apply E.
  - intros it I ND. destruct (B it I) as [X|((p & P1 & P2) & _)]; auto. destruct (ND p P1 P2).
  - intros Q it I NI. destruct (B it I) as [X|(_ & [X|(_ & w & V & PV)])]; [contradiction|exact X|].
    eapply Forall_forall in Q; [|exact V]. congruence.
Qed.
End Listed.
