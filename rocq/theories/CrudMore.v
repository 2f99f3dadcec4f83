(** * CrudMore: contents; many threads *)
From Verif Require Import Py PyLemmas CkptModel LogModel LogSpec LogProofs LockModel LockProofs CrudModel CrudSpec CrudProofs.
From Coq Require Import Ascii Sorted Permutation.
Set Implicit Arguments.
Unset Strict Implicit.
Open Scope string_scope.
Open Scope list_scope.
Open Scope Z_scope.

Section Contents.
Context {D T : Type}.
Notation fs := (fs D).
Notation state := (state D T).
Notation event := (event D T).

Definition holds_item (c : config) (acc : Z -> option D) (f : fs) (it : item T) : Prop :=
  0 <= it_handle it /\ (exists date, it_path it = file_path c date (it_handle it))
  /\ exists d, acc (it_handle it) = Some d /\ dget f (it_path it) = Some (File d).
Definition cinv (c : config) (acc : Z -> option D) (s : state) : Prop := Forall (holds_item c acc (s_fs s)) (s_items s).

Lemma holds_other c acc acc' (f f' : fs) it h p : holds_item c acc f it -> it_handle it <> h ->
  (forall k, k <> h -> acc' k = acc k) -> same_but p f f' -> (exists date, p = file_path c date h) -> 0 <= h ->
  holds_item c acc' f' it.
Proof.
  intros (A & (date & B) & d & C & E) N AC S (date' & P) H. split; auto. split; [eauto|]. exists d.
  rewrite AC by auto. split; auto. rewrite S; auto. rewrite B, P. intros X. apply file_path_inj in X; auto.
Qed.

Lemma contents_step c o (s : state) alive used a s' acc : inv alive used s -> cinv c acc s -> plain o -> do_op c o s = (a, s') ->
  let e := mkEvent (s_fs s) o a (s_fs s') in
  cinv c (fun h => stored h [e] (acc h)) s'.
Proof.
  intros I CI PL H e. assert (DC : decent o) by (destruct o; simpl in *; tauto).
  destruct (step_ok I DC H) as [AL J]. fold e in AL, J. destruct AL as [_ AL].
  assert (IA : s_items s = alive) by (unfold inv in I; tauto).
  assert (JA : s_items s' = filter (fun it => negb (inb (it_handle it) (gone e))) alive ++ created e) by (unfold inv in J; tauto).
  assert (US : Forall (fun h => h < s_counter s) (map (@it_handle T) alive)) by (unfold inv in I; tauto).
  unfold cinv in *. rewrite JA. rewrite IA in CI. rewrite Forall_forall in CI.
  destruct o as [date utc sv|date utc d|utc p|h d| |h|h| |g]; try contradiction; unfold gone in *; cbn [e_op e e_before e_after e_answer] in *.
  - (* data *)
    rewrite filter_keep. cbn [do_op] in H. unfold create_with_data in H.
    destruct (create_with_saver c date utc (data_saver d) s) as [r s1] eqn:E. injection H as <- <-.
    assert (DS : forall p f, proper f -> proper (fst (data_saver d p f))).
    { intros p f P. unfold data_saver. destruct (write f p d) as [f'|x] eqn:W; cbn [fst]; auto. eapply proper_write; eauto. }
    destruct (create_case I DS E) as [(F & -> & ->)|(F & h & L & N & S1 & A & J1)].
    + cbn [rmap created e_answer]. rewrite app_nil_r. apply Forall_forall. intros it IN. cbn [stored e_op e_answer e rmap]. auto.
    + assert (H0 : 0 <= h) by (unfold inv in I; lia).
      unfold data_saver in *. destruct (write (s_fs s) (file_path c date h) d) as [f'|x] eqn:W; cbn [fst snd] in *.
      * destruct (proper_write (f := s_fs s) (f' := f') (p := file_path c date h) (d := d)) as (P1 & P2 & P3); auto; [unfold inv in I; tauto|].
        rewrite S1 in *. assert (X : isfile f' (file_path c date h) = true) by (apply isfile_get; eauto). rewrite X in A. subst r.
        unfold e. cbn [created e_answer rmap stored e_op it_handle]. apply Forall_app. split.
        -- apply Forall_forall. intros it IN. pose proof (CI it IN) as HI.
           assert (NE : it_handle it <> h).
           { intros Q. eapply Forall_forall in US; [|apply in_map; exact IN]. lia. }
           eapply holds_other with (h := h) (acc := acc) (p := file_path c date h); eauto.
           intros k K. destruct (Z.eqb_spec h k); congruence.
        -- constructor; [|constructor]. split; auto. cbn [it_handle it_path]. split; [eauto|]. exists d. rewrite Z.eqb_refl. auto.
      * subst r. unfold e. cbn [created e_answer rmap]. rewrite app_nil_r. apply Forall_forall. intros it IN.
        cbn [stored e_op e_answer rmap]. rewrite S1. auto.
  - (* update *)
    rewrite filter_keep. destruct AL as (o & FO & AL). destruct o as [it0|].
    + destruct FO as [FO1 FO2]. destruct (CI it0 FO1) as (Z0 & DP & d0 & AC & DG).
      assert (ND : isdir (s_fs s) (it_path it0) = false) by (unfold isdir; rewrite DG; auto). rewrite ND in AL.
      destruct (isdir (s_fs s) (dirname (it_path it0))).
      * destruct AL as (-> & G1 & G2). unfold e. cbn [created e_answer]. rewrite app_nil_r. apply Forall_forall. intros it IN.
        cbn [stored e_op e_answer]. pose proof (CI it IN) as HI.
        destruct (Z.eq_dec (it_handle it) h) as [Q|Q].
        -- destruct HI as (A & (dt & B) & d1 & C & E). split; auto. split; [eauto|]. exists d.
           rewrite Q, Z.eqb_refl. split; auto.
           assert (it = it0).
           { assert (SS : StronglySorted Z.lt (map (@it_handle T) alive)) by (unfold inv in I; tauto).
             apply ssorted_nodup in SS.
             apply In_nth_error in IN. destruct IN as [n1 IN]. apply In_nth_error in FO1. destruct FO1 as [n2 FO1].
             assert (n1 = n2).
             { apply (proj1 (NoDup_nth_error _) SS).
               - apply nth_error_Some. rewrite nth_error_map, IN. discriminate.
               - rewrite !nth_error_map, IN, FO1. simpl. congruence. }
             congruence. }
           subst it. auto.
        -- apply holds_other with (h := h) (acc := acc) (f := s_fs s) (p := it_path it0); auto; try (rewrite <- FO2; assumption).
           intros k K. destruct (Z.eqb_spec h k); congruence.
      * destruct AL as (-> & G). unfold e. cbn [created e_answer]. rewrite app_nil_r, G. apply Forall_forall. intros it IN. cbn [stored e_op e_answer]. auto.
    + destruct AL as (-> & G). unfold e. cbn [created e_answer]. rewrite app_nil_r, G. apply Forall_forall. intros it IN. cbn [stored e_op e_answer]. auto.
  - destruct AL as (-> & G). rewrite filter_keep. unfold e. cbn [created e_answer]. rewrite app_nil_r, G. apply Forall_forall. intros it IN. cbn [stored e_op]. auto.
  - (* delete *)
    destruct AL as (o & FO & AL). destruct o as [it0|].
    + destruct FO as [FO1 FO2]. destruct (CI it0 FO1) as (Z0 & DP & d0 & AC & DG).
      assert (ND : isfile (s_fs s) (it_path it0) = true) by (apply isfile_get; eauto). rewrite ND in AL. destruct AL as (-> & G1 & G2).
      unfold e. cbn [created e_answer]. rewrite app_nil_r. apply Forall_forall. intros it IN. apply filter_In in IN. destruct IN as [IN K].
      cbn [inb] in K. destruct (keqb_spec (it_handle it) h) as [Q|Q]; [discriminate|]. cbn [stored e_op e_answer].
      apply holds_other with (h := h) (acc := acc) (f := s_fs s) (p := it_path it0); auto.
      * intros k Hk. destruct (Z.eqb_spec h k); congruence.
      * rewrite <- FO2. auto.
      * rewrite <- FO2. auto.
    + destruct AL as (-> & G). unfold e. cbn [created e_answer]. rewrite app_nil_r, G. apply Forall_forall. intros it IN. apply filter_In in IN.
      destruct IN as [IN K]. cbn [stored e_op e_answer]. cbn [inb] in K. destruct (keqb_spec (it_handle it) h) as [Q|Q]; [discriminate|].
      destruct (CI it IN) as (A & B & C). split; auto. split; auto. destruct (Z.eqb_spec h (it_handle it)); [congruence|]. auto.
  - destruct AL as (o & FO & -> & G). rewrite filter_keep. unfold e. cbn [created e_answer]. rewrite app_nil_r, G. apply Forall_forall. intros it IN. cbn [stored e_op]. auto.
  - assert (X : created e = []) by (destruct AL as (G & [[_ ->]|(l & it & _ & ->)]); auto).
    destruct AL as (G & _). rewrite X, filter_keep, app_nil_r, G. apply Forall_forall. intros it IN. cbn [stored e_op]. auto.
Qed.

Lemma contents_from c ops : forall (s : state) alive used acc, inv alive used s -> cinv c acc s -> Forall (@plain D T) ops ->
  forall past e rest, history c ops s = past ++ e :: rest ->
  forall it, In it (live past alive) ->
  exists d, stored (it_handle it) past (acc (it_handle it)) = Some d /\ dget (e_before e) (it_path it) = Some (File d).
Proof.
  induction ops as [|o ops IH]; intros s alive used acc I CI PL past e rest H it L; [destruct past; discriminate|].
  inversion PL as [|? ? P1 P2]; subst. cbn [history] in H. destruct (do_op c o s) as [a s'] eqn:E.
  assert (DC : decent o) by (destruct o; simpl in *; tauto).
  destruct (step_ok I DC E) as [_ S2]. pose proof (contents_step I CI P1 E) as CI'.
  destruct past as [|e0 past]; cbn [app] in H; injection H as H0 H.
  - subst e. cbn [live] in L. cbn [stored e_before]. unfold cinv in CI. rewrite Forall_forall in CI.
    assert (IA : s_items s = alive) by (unfold inv in I; tauto). rewrite IA in CI. destruct (CI it L) as (_ & _ & C). exact C.
  - subst e0. cbn [live] in L. exact (IH _ _ _ _ S2 CI' P2 past e rest H it L).
Qed.
Theorem contents dir prefix ext (f : fs) c (s : state) ops :
  proper f -> init dir prefix ext f = Ok (c, s) -> Forall (@plain D T) ops ->
  forall past e rest, history c ops s = past ++ e :: rest ->
  forall it, In it (live past []) ->
  (exists d, stored (it_handle it) past None = Some d /\ dget (e_before e) (it_path it) = Some (File d))
  /\ (e_op e = ODelete (it_handle it) -> e_answer e = Ok (ABool true)).
Proof.
  intros P I PL past e rest H it L. destruct (init_inv P I) as (J & _).
  assert (IA : s_items s = []) by (unfold inv in J; tauto).
  assert (X : exists d, stored (it_handle it) past None = Some d /\ dget (e_before e) (it_path it) = Some (File d)).
  { apply (@contents_from c ops s [] [] (fun _ => None) J) with (rest := rest); auto. unfold cinv. rewrite IA. constructor. }
  split; auto. intros E. destruct X as (d & _ & X).
  assert (DC : Forall (@decent D T) ops) by (eapply Forall_impl; [|exact PL]; intros o; destruct o; simpl; tauto).
  destruct (@history_from D T c ops s [] [] J DC past e rest H) as (s1 & IV & _ & _ & AL). rewrite E in AL.
  destruct AL as ([it0|] & FO & AL).
  - destruct FO as [FO1 FO2].
    assert (it0 = it).
    { assert (SS : StronglySorted Z.lt (map (@it_handle T) (live past []))) by (unfold inv in IV; tauto).
      apply ssorted_nodup in SS.
      apply In_nth_error in L. destruct L as [n1 L]. apply In_nth_error in FO1. destruct FO1 as [n2 FO1].
      assert (n1 = n2).
      { apply (proj1 (NoDup_nth_error _) SS).
        - apply nth_error_Some. rewrite nth_error_map, L. discriminate.
        - rewrite !nth_error_map, L, FO1. simpl. congruence. }
      congruence. }
    subst it0. assert (Y : isfile (e_before e) (it_path it) = true) by (apply isfile_get; eauto). rewrite Y in AL. tauto.
  - exfalso. eapply FO; eauto.
Qed.

(** ** Many threads *)
Notation worker := (worker D T).
Notation csys := (csys D T).
Lemma split_set_nth (A : Type) i (l : list A) x y : nth_error l i = Some x ->
  exists a b, l = a ++ x :: b /\ set_nth i y l = a ++ y :: b /\ List.length a = i.
Proof.
  revert l. induction i as [|i IH]; intros [|z l] H; simpl in H; try discriminate.
  - injection H as ->. exists [], l. auto.
  - destruct (IH _ H) as (a & b & -> & E & L). exists (z :: a), b. simpl. rewrite E, L. auto.
Qed.

Lemma NoDup_app_remove_l (A : Type) (a b : list A) : NoDup (a ++ b) -> NoDup b.
Proof. induction a; simpl; auto. intros H. inversion H; auto. Qed.
Lemma NoDup_app_remove_r (A : Type) (a b : list A) : NoDup (a ++ b) -> NoDup a.
Proof.
  induction a; simpl; intros H; constructor; inversion H; subst; auto. intros I. apply H2. apply in_or_app. auto.
Qed.

Lemma NoDup_app_disjoint (A : Type) (a b : list A) x : NoDup (a ++ b) -> In x a -> In x b -> False.
Proof.
  induction a as [|y a IH]; simpl; intros H I J; [destruct I|]. inversion H; subst. destruct I as [->|I]; auto.
  apply H2. apply in_or_app. auto.
Qed.

(** Handles of calls that have not called their saver yet; of all calls under
    way. *)
Definition waiting (p : place D T) : list Z :=
  match p with Checking _ h _ _ | Calling _ h _ _ => [h] | _ => [] end.
Definition held (p : place D T) : list Z :=
  match p with
  | Checking _ h _ _ | Calling _ h _ _ => [h]
  | Saving it _ | Adding it => [it_handle it]
  | _ => []
  end.
Definition oks (l : list (res (item T))) : list (item T) := flat_map (fun r => match r with Ok it => [it] | Err _ => [] end) l.
Definition claimed (w : worker) : list Z := held (w_place w) ++ map (@it_handle T) (oks (w_done w)).
Lemma oks_app a b : oks (a ++ b) = oks a ++ oks b.
Proof. apply flat_map_app. Qed.

(** [hs]: the handles behind the calls of savers. *)
Definition paths_ok (c : config) (hs : list Z) (log : list (string * bool)) : Prop :=
  Forall2 (fun h pb => exists date, fst pb = file_path c date h) hs log.
Definition below (n : Z) (l : list Z) : Prop := Forall (fun h => 0 <= h < n) l.
Definition uinv (c : config) (hs : list Z) (s : state) (log : list (string * bool)) (ws : list worker) : Prop :=
  0 <= s_counter s /\ paths_ok c hs log
  /\ NoDup (hs ++ flat_map (fun w => waiting (w_place w)) ws)
  /\ below (s_counter s) (hs ++ flat_map (fun w => waiting (w_place w)) ws)
  /\ NoDup (flat_map claimed ws) /\ below (s_counter s) (flat_map claimed ws).

Lemma below_mono n m l : n <= m -> below n l -> below m l.
Proof. intros L H. eapply Forall_impl; [|exact H]. simpl. intros; lia. Qed.
Lemma below_perm n l l' : Permutation l l' -> below n l -> below n l'.
Proof. intros P H. apply Forall_forall. intros x X. eapply Forall_forall in H; [exact H|]. apply Permutation_sym in P. eapply Permutation_in; eauto. Qed.
Lemma fresh_cons n l : 0 <= n -> NoDup l -> below n l -> NoDup (n :: l) /\ below (n + 1) (n :: l).
Proof.
  intros N ND B. split.
  - constructor; auto. intros I. eapply Forall_forall in B; [|exact I]. simpl in B. lia.
  - constructor; [lia|]. eapply below_mono; [|exact B]. lia.
Qed.

(** What a step may do to one of the lists of handles. *)
Inductive change (n : Z) : Z -> list Z -> list Z -> Prop :=
| ch_same l l' m : Permutation l l' -> n <= m -> change n m l l'
| ch_new l l' : Permutation (n :: l) l' -> change n (n + 1) l l'
| ch_drop x l l' m : Permutation l (x ++ l') -> n <= m -> change n m l l'.
Lemma change_keeps n m l l' : 0 <= n -> change n m l l' -> NoDup l -> below n l -> NoDup l' /\ below m l'.
Proof.
  intros N C ND B. destruct C as [l l' m P L|l l' P|x l l' m P L].
  - split; [eapply Permutation_NoDup; eauto|]. eapply below_mono; [exact L|]. eapply below_perm; eauto.
  - destruct (fresh_cons N ND B) as [F1 F2]. split; [eapply Permutation_NoDup; eauto|eapply below_perm; eauto].
  - split.
    + eapply Permutation_NoDup in P; auto. apply NoDup_app_remove_l in P. auto.
    + eapply below_mono; [exact L|]. pose proof (below_perm P B) as Q. apply Forall_app in Q. tauto.
Qed.

Lemma perm_mid (A : Type) (a x b : list A) : Permutation (a ++ x ++ b) (x ++ a ++ b).
Proof. rewrite !app_assoc. apply Permutation_app_tail. apply Permutation_app_comm. Qed.

(** One step: the new calls of savers, and how the handles of this thread change. *)
Lemma work_handles c (w : worker) (s : state) log w' s' log' : work c w s log = (w', s', log') ->
  s_counter s <= s_counter s' /\
  exists h1, paths_ok c h1 (skipn (List.length log) log') /\ log' = log ++ skipn (List.length log) log'
    /\ change (s_counter s) (s_counter s') (waiting (w_place w)) (h1 ++ waiting (w_place w'))
    /\ change (s_counter s) (s_counter s') (claimed w) (claimed w').
Proof.
  intros H. unfold work in H. unfold claimed.
  assert (K : forall w0 s0, (w0, s0, log) = (w', s', log') -> s_counter s <= s_counter s0 ->
      change (s_counter s) (s_counter s0) (waiting (w_place w)) (waiting (w_place w0)) ->
      change (s_counter s) (s_counter s0) (claimed w) (claimed w0) ->
      s_counter s <= s_counter s' /\
      exists h1, paths_ok c h1 (skipn (List.length log) log') /\ log' = log ++ skipn (List.length log) log'
        /\ change (s_counter s) (s_counter s') (waiting (w_place w)) (h1 ++ waiting (w_place w'))
        /\ change (s_counter s) (s_counter s') (claimed w) (claimed w')).
  { intros w0 s0 E L C1 C2. injection E as <- <- <-. split; auto. exists []. rewrite skipn_all, app_nil_r. split; [constructor|].
    split; auto. }
  unfold claimed in K.
  destruct (w_place w) as [|date utc sv|date h utc sv|date h utc sv|it sv|it|p] eqn:P.
  - destruct (w_todo w) as [|[date utc sv|utc p|h|g] r] eqn:TD.
    + apply (K _ _ H); try lia; rewrite P; apply ch_same; auto; lia.
    + destruct (isdir (s_fs s) (cf_dir c)); apply (K _ _ H); cbn [w_place w_done waiting held]; try lia;
        try (apply ch_same; auto; lia). rewrite oks_app. cbn [oks flat_map]. rewrite app_nil_r. apply ch_same; auto; lia.
    + destruct (isfile (s_fs s) p && String.eqb (dirname p) (cf_dir c)); apply (K _ _ H); cbn [w_place w_done waiting held s_counter]; try lia;
        try (apply ch_same; auto; lia).
      * apply ch_new. auto.
      * rewrite oks_app. cbn [oks flat_map]. rewrite app_nil_r. apply ch_same; auto; lia.
    + destruct (take_out h (s_items s)) as [[it l]|]; apply (K _ _ H); cbn [w_place w_done waiting held s_counter]; try lia; apply ch_same; auto; lia.
    + apply (K _ _ H); cbn [w_place w_done waiting held s_counter]; try lia; apply ch_same; auto; lia.
  - apply (K _ _ H); cbn [w_place w_done waiting held s_counter]; try lia; apply ch_new; auto.
  - apply (K _ _ H); try lia; destruct (dmem (s_fs s) (file_path c date h)); cbn [w_place w_done waiting held];
      try (apply ch_same; auto; lia); apply ch_drop with (x := [h]); auto; lia.
  - injection H as <- <- <-. split; [lia|]. exists [h].
    rewrite skipn_app, skipn_all, Nat.sub_diag. cbn [skipn app w_place w_done waiting held it_handle].
    split; [constructor; [|constructor]; exists date; auto|]. split; auto. split; apply ch_same; auto; lia.
  - destruct sv as [|m r].
    + destruct (isfile (s_fs s) (it_path it)); apply (K _ _ H); cbn [w_place w_done waiting held]; try lia; try (apply ch_same; auto; lia).
      rewrite oks_app. cbn [oks flat_map]. rewrite app_nil_r. apply ch_drop with (x := [it_handle it]); auto; lia.
    + destruct (m (it_path it) (s_fs s)) as [f [x|]]; apply (K _ _ H); cbn [w_place w_done waiting held s_counter]; try lia; try (apply ch_same; auto; lia).
      rewrite oks_app. cbn [oks flat_map]. rewrite app_nil_r. apply ch_drop with (x := [it_handle it]); auto; lia.
  - apply (K _ _ H); cbn [w_place w_done waiting held s_counter]; try lia; try (apply ch_same; auto; lia).
    rewrite oks_app, map_app. cbn [oks flat_map map app]. apply ch_same; [|lia].
    apply Permutation_cons_append.
  - assert (X : s_counter (match os_remove (s_fs s) p with Ok f => mkState (s_counter s) (s_items s) f | Err _ => s end) = s_counter s)
      by (destruct (os_remove (s_fs s) p); auto).
    apply (K _ _ H); rewrite X; cbn [w_place w_done waiting held]; try lia; apply ch_same; auto; lia.
Qed.

Lemma change_frame n m l l' (a b : list Z) : change n m l l' -> change n m (a ++ l ++ b) (a ++ l' ++ b).
Proof.
  intros C. destruct C as [l l' m P L|l l' P|x l l' m P L].
  - apply ch_same; auto. apply Permutation_app_head, Permutation_app_tail; auto.
  - apply ch_new. rewrite (perm_mid a l b), (perm_mid a l' b). apply (Permutation_app_tail (a ++ b)) in P. exact P.
  - apply ch_drop with (x := x); auto. rewrite (perm_mid a l b), (perm_mid a l' b). apply (Permutation_app_tail (a ++ b)) in P.
    eapply Permutation_trans; [exact P|]. rewrite <- app_assoc. apply Permutation_refl.
Qed.
Lemma change_perm n m l l' l1 l1' : change n m l l' -> Permutation l l1 -> Permutation l' l1' -> change n m l1 l1'.
Proof.
  intros C Q Q'. destruct C as [l l' m P L|l l' P|x l l' m P L].
  - apply ch_same; auto. rewrite <- Q, P. auto.
  - apply ch_new. rewrite <- Q, P. auto.
  - apply ch_drop with (x := x); auto. rewrite <- Q, P, Q'. auto.
Qed.

Lemma ustep c hs i (y : csys) : uinv c hs (c_state y) (c_calls y) (c_workers y) ->
  let y' := cstep c i y in exists hs', uinv c hs' (c_state y') (c_calls y') (c_workers y').
Proof.
  intros (A & B & C & E & F & G). unfold cstep. destruct (nth_error (c_workers y) i) as [w|] eqn:N.
  2: { cbn zeta. exists hs. unfold uinv. auto 10. }
  destruct (work c w (c_state y) (c_calls y)) as [[w' s'] log'] eqn:W.
  destruct (work_handles W) as (L & h1 & P1 & P2 & C1 & C2).
  destruct (@split_set_nth worker i (c_workers y) w w' N) as (a & b & E1 & E2 & _).
  cbn zeta. cbn [c_state c_calls c_workers]. rewrite E2. rewrite E1 in *.
  rewrite flat_map_app in *. cbn [flat_map] in *.
  exists (hs ++ h1). unfold uinv. split; [lia|]. split.
  { rewrite P2. apply Forall2_app; auto. }
  rewrite flat_map_app in *. cbn [flat_map] in *. cbn beta in *.
  set (wa := flat_map (fun w => waiting (w_place w)) a) in *. set (wb := flat_map (fun w => waiting (w_place w)) b) in *.
  assert (Q : change (s_counter (c_state y)) (s_counter s') (hs ++ wa ++ waiting (w_place w) ++ wb) ((hs ++ h1) ++ wa ++ waiting (w_place w') ++ wb)).
  { apply change_perm with (l := (hs ++ wa) ++ waiting (w_place w) ++ wb) (l' := (hs ++ wa) ++ (h1 ++ waiting (w_place w')) ++ wb).
    - apply change_frame; auto.
    - rewrite <- app_assoc. auto.
    - rewrite <- !app_assoc. apply Permutation_app_head. apply perm_mid. }
  destruct (change_keeps A Q C E) as [Q1 Q2].
  destruct (change_keeps A (change_frame (flat_map claimed a) (flat_map claimed b) C2) F G) as [Q3 Q4].
  rewrite (flat_map_app claimed). cbn [flat_map]. auto.
Qed.
Lemma usteps c sched : forall hs (y : csys), uinv c hs (c_state y) (c_calls y) (c_workers y) ->
  exists hs', let y' := csteps c sched y in uinv c hs' (c_state y') (c_calls y') (c_workers y').
Proof.
  induction sched as [|i r IH]; intros hs y U; cbn [csteps]; [eauto|].
  destruct (@ustep c hs i y U) as [hs' U']. eauto.
Qed.
Lemma ustart c (s : state) programs : 0 <= s_counter s -> uinv c [] (c_state (cstart s programs)) (c_calls (cstart s programs)) (c_workers (cstart s programs)).
Proof.
  intros H. assert (X : forall (f : worker -> list Z), (forall p, f (mkWorker p Between []) = []) ->
     flat_map f (map (fun p => mkWorker p Between []) programs) = []).
  { intros f F. induction programs as [|p r IH]; simpl; auto. rewrite F, IH. auto. }
  unfold uinv, cstart. cbn [c_state c_calls c_workers]. rewrite !X by auto. repeat split; auto; try constructor.
Qed.
Lemma paths_distinct c hs log : paths_ok c hs log -> NoDup hs -> Forall (fun h => 0 <= h) hs -> NoDup (map fst log).
Proof.
  induction 1 as [|h pb hs log [date E] F IH]; intros ND P; simpl; [constructor|].
  apply NoDup_cons_iff in ND. destruct ND as [NI ND]. inversion P; subst. constructor; auto.
  intros I. apply in_map_iff in I. destruct I as (pb' & E' & I').
  assert (X : exists h' date', In h' hs /\ fst pb' = file_path c date' h').
  { clear - F I'. induction F as [|h0 pb0 hs log [d0 E0] F IH]; [destruct I'|]. destruct I' as [->|I'].
    - exists h0, d0. split; [left|]; auto.
    - destruct (IH I') as (h' & d' & A & B). exists h', d'. split; [right|]; auto. }
  destruct X as (h' & d' & X1 & X2). assert (h = h').
  { apply (@file_path_inj c date d'); auto; [|congruence]. eapply Forall_forall in X1; [|eassumption]. auto. }
  congruence.
Qed.
Theorem unique_paths c (s : state) programs sched : 0 <= s_counter s ->
  let y := csteps c sched (cstart s programs) in
  NoDup (saver_paths y) /\ NoDup (map (@it_handle T) (results y)).
Proof.
  intros H y. destruct (@usteps c sched [] (cstart s programs) (ustart c programs H)) as (hs & A & B & C & E & F & G).
  fold y in A, B, C, E, F, G. split.
  - unfold saver_paths. apply (paths_distinct B).
    + apply NoDup_app_remove_r in C. auto.
    + apply Forall_app in E. destruct E as [E _]. eapply Forall_impl; [|exact E]. simpl. intros; lia.
  - assert (X : exists x, Permutation (flat_map claimed (c_workers y)) (x ++ map (@it_handle T) (results y))).
    { unfold results. clear. induction (c_workers y) as [|w ws (x & IH)]; [exists []; auto|].
      exists (held (w_place w) ++ x). cbn [flat_map]. unfold claimed at 1. rewrite map_app. fold (oks (w_done w)).
      rewrite IH. rewrite <- !app_assoc. apply Permutation_app_head. rewrite !app_assoc. apply Permutation_app_tail. apply Permutation_app_comm. }
    destruct X as [x X]. eapply Permutation_NoDup in X; [|exact F]. apply NoDup_app_remove_l in X. auto.
Qed.

(** ** Nobody but the savers *)
Definition good_item (c : config) (it : item T) : Prop := exists date, it_path it = file_path c date (it_handle it).
Definition tplace (c : config) (f : fs) (p : place D T) : Prop :=
  match p with
  | Naming _ _ sv | Checking _ _ _ sv => Forall (@only_at D) sv
  | Calling date h _ sv => Forall (@only_at D) sv /\ dget f (file_path c date h) = None
  | Saving it sv => Forall (@only_at D) sv /\ good_item c it
  | Adding it => good_item c it
  | _ => True
  end.
Definition tworker (c : config) (f : fs) (w : worker) : Prop :=
  Forall (@tidy D T) (w_todo w) /\ tplace c f (w_place w) /\ Forall (good_item c) (oks (w_done w)).
Definition tinv (c : config) (y : csys) : Prop :=
  Forall (tworker c (s_fs (c_state y))) (c_workers y) /\ Forall (fun pb => snd pb = false) (c_calls y).

(** A tidy step of one thread: what it does to the disk. *)
Lemma work_tidy c (w : worker) (s : state) log w' s' log' : tworker c (s_fs s) w -> work c w s log = (w', s', log') ->
  (forall p, dget (s_fs s') p <> dget (s_fs s) p ->
     (w_place w = Removing p /\ dget (s_fs s) p <> None)
     \/ exists it sv, w_place w = Saving it sv /\ p = it_path it /\ good_item c it)
  /\ tworker c (s_fs s') w' /\ (Forall (fun pb => snd pb = false) log -> Forall (fun pb => snd pb = false) log').
Proof.
  intros (TD & TP & TO) H. unfold work in H.
  assert (KK : forall w0 s0, (w0, s0, log) = (w', s', log') -> s_fs s0 = s_fs s -> tworker c (s_fs s) w0 ->
    (forall p, dget (s_fs s') p <> dget (s_fs s) p ->
     (w_place w = Removing p /\ dget (s_fs s) p <> None)
     \/ exists it sv, w_place w = Saving it sv /\ p = it_path it /\ good_item c it)
    /\ tworker c (s_fs s') w' /\ (Forall (fun pb => snd pb = false) log -> Forall (fun pb => snd pb = false) log')).
  { intros w0 s0 E F TW. injection E as -> -> ->. rewrite F. split; [intros p N; congruence|]. auto. }
  destruct (w_place w) as [|date utc sv|date h utc sv|date h utc sv|it sv|it|p] eqn:P.
  - destruct (w_todo w) as [|[date utc sv|utc p|h|g] r] eqn:TDo.
    + apply (KK _ _ H); auto. unfold tworker. rewrite P, TDo. auto.
    + inversion TD; subst. destruct (isdir (s_fs s) (cf_dir c)); apply (KK _ _ H); auto; unfold tworker; cbn [w_todo w_place w_done tplace]; auto.
      rewrite oks_app. cbn [oks flat_map]. rewrite app_nil_r. auto.
    + inversion TD; subst. contradiction.
    + inversion TD; subst. destruct (take_out h (s_items s)) as [[it l]|]; apply (KK _ _ H); auto; unfold tworker; cbn [w_todo w_place w_done tplace]; auto.
    + inversion TD; subst. contradiction.
  - apply (KK _ _ H); auto. unfold tworker; cbn [w_todo w_place w_done tplace]; auto.
  - apply (KK _ _ H); auto. unfold tworker; cbn [w_todo w_place w_done]. destruct (dmem (s_fs s) (file_path c date h)) eqn:M; cbn [tplace]; auto.
    split; auto. split; auto. split; auto. unfold dmem in M. destruct (dget (s_fs s) (file_path c date h)); [discriminate|auto].
  - destruct TP as [TP1 TP2]. injection H as <- <- <-. split; [intros q N; congruence|]. split.
    + unfold tworker; cbn [w_todo w_place w_done tplace]. split; auto. split; auto. split; auto. exists date. auto.
    + intros F. apply Forall_app. split; auto. constructor; [|constructor]. cbn [snd]. unfold dmem. rewrite TP2. auto.
  - destruct TP as [TP1 TP2]. destruct sv as [|m r].
    + destruct (isfile (s_fs s) (it_path it)); apply (KK _ _ H); auto; unfold tworker; cbn [w_todo w_place w_done tplace]; auto.
      rewrite oks_app. cbn [oks flat_map]. rewrite app_nil_r. auto.
    + inversion TP1 as [|? ? M1 M2]; subst. pose proof (M1 (it_path it) (s_fs s)) as SB.
      destruct (m (it_path it) (s_fs s)) as [f [x|]] eqn:E; cbn [fst] in SB; injection H as <- <- <-; cbn [s_fs].
      * split; [|split; auto].
        -- intros p N. destruct (string_dec p (it_path it)) as [->|Q]; [right; eauto|]. exfalso. apply N. apply SB; auto.
        -- unfold tworker; cbn [w_todo w_place w_done tplace]. rewrite oks_app. cbn [oks flat_map]. rewrite app_nil_r. auto.
      * split; [|split; auto].
        -- intros p N. destruct (string_dec p (it_path it)) as [->|Q]; [right; eauto|]. exfalso. apply N. apply SB; auto.
        -- unfold tworker; cbn [w_todo w_place w_done tplace]. auto.
  - apply (KK _ _ H); auto. unfold tworker; cbn [w_todo w_place w_done tplace]. split; auto. split; auto.
    rewrite oks_app. apply Forall_app. split; auto. cbn [oks flat_map app]. constructor; auto.
  - injection H as <- <- <-.
    assert (X : forall q, dget (s_fs (match os_remove (s_fs s) p with Ok f => mkState (s_counter s) (s_items s) f | Err _ => s end)) q <> dget (s_fs s) q ->
      q = p /\ dget (s_fs s) p <> None).
    { intros q. unfold os_remove. destruct (dget (s_fs s) p) as [[d|]|]; cbn [s_fs]; try congruence. intros N.
      split; [|discriminate]. destruct (string_dec q p); auto. exfalso. apply N. apply dget_ddel_neq. auto. }
    split; [|split; auto].
    + intros q N. apply X in N. destruct N as [-> N]. left. auto.
    + unfold tworker; cbn [w_todo w_place w_done tplace]. auto.
Qed.

Lemma claimed_apart (ws : list worker) i j w w' h : NoDup (flat_map claimed ws) -> i <> j -> nth_error ws i = Some w -> nth_error ws j = Some w' ->
  In h (claimed w) -> In h (claimed w') -> False.
Proof.
  revert i j. induction ws as [|x r IH]; intros i j ND N A B I J; [destruct i; discriminate|].
  cbn [flat_map] in ND. destruct i as [|i], j as [|j]; simpl in A, B; try congruence.
  - injection A as ->. apply (NoDup_app_disjoint ND I). apply in_flat_map. exists w'. split; auto. eapply nth_error_In; eauto.
  - injection B as ->. apply (NoDup_app_disjoint ND J). apply in_flat_map. exists w. split; auto. eapply nth_error_In; eauto.
  - apply (IH i j); auto. apply NoDup_app_remove_l in ND. auto.
Qed.

Definition full (c : config) (y : csys) : Prop := tinv c y /\ exists hs, uinv c hs (c_state y) (c_calls y) (c_workers y).
Lemma tstep c i (y : csys) : full c y -> full c (cstep c i y).
Proof.
  intros ((T1 & T2) & hs & U). split; [|exact (@ustep c hs i y U)].
  unfold cstep. destruct (nth_error (c_workers y) i) as [w|] eqn:N; [|split; auto].
  destruct (work c w (c_state y) (c_calls y)) as [[w' s'] log'] eqn:W.
  assert (TW : tworker c (s_fs (c_state y)) w) by (eapply Forall_forall in T1; [exact T1|eapply nth_error_In; eauto]).
  destruct (work_tidy TW W) as (A & B & C). split; cbn [c_state c_calls c_workers]; auto.
  apply Forall_forall. intros v V. apply In_nth_error in V. destruct V as [j V].
  destruct (set_nth_cases N V) as [[-> ->]|[NJ V']]; auto.
  assert (TV : tworker c (s_fs (c_state y)) v) by (eapply Forall_forall in T1; [exact T1|eapply nth_error_In; eauto]).
  destruct TV as (V1 & V2 & V3). split; auto. split; auto.
  destruct (w_place v) as [|date utc sv|date h utc sv|date h utc sv|it sv|it|p] eqn:P; cbn [tplace] in *; auto.
  destruct V2 as [V2 V4]. split; auto.
  destruct (dget (s_fs s') (file_path c date h)) as [nd|] eqn:G; auto. exfalso.
  destruct (A (file_path c date h)) as [[_ X]|(it & sv' & X1 & X2 & (d' & X3))]; [congruence|congruence|].
  destruct U as (_ & _ & _ & _ & U1 & U2).
  assert (I1 : In h (claimed v)) by (unfold claimed; rewrite P; left; auto).
  assert (I2 : In (it_handle it) (claimed w)) by (unfold claimed; rewrite X1; left; auto).
  assert (h = it_handle it).
  { apply (@file_path_inj c date d'); [| |congruence]; (eapply Forall_forall in U2; [apply U2|]; apply in_flat_map).
    - exists v. split; auto. eapply nth_error_In; eauto.
    - exists w. split; auto. eapply nth_error_In; eauto. }
  subst h. eapply claimed_apart with (i := i) (j := j); eauto.
Qed.
Lemma tsteps c sched : forall y : csys, full c y -> full c (csteps c sched y).
Proof. induction sched as [|i r IH]; intros y F; cbn [csteps]; auto. apply IH, tstep, F. Qed.
Lemma tstart c (s : state) programs : 0 <= s_counter s -> Forall (Forall (@tidy D T)) programs -> full c (cstart s programs).
Proof.
  intros H TD. split; [|exists []; apply ustart; auto]. split; cbn [cstart c_calls c_state c_workers]; [|constructor].
  apply Forall_forall. intros w I. apply in_map_iff in I. destruct I as (p & <- & I).
  unfold tworker. cbn [w_todo w_place w_done tplace oks flat_map]. split; [eapply Forall_forall in TD; eauto|]. split; auto.
Qed.
Theorem no_overwrite c (s : state) programs sched : 0 <= s_counter s -> Forall (Forall (@tidy D T)) programs ->
  let y := csteps c sched (cstart s programs) in
  (forall p b, In (p, b) (c_calls y) -> b = false)
  /\ (forall i it, In it (results y) ->
        dget (s_fs (c_state (cstep c i y))) (it_path it) <> dget (s_fs (c_state y)) (it_path it) ->
        exists w, nth_error (c_workers y) i = Some w /\ w_place w = Removing (it_path it)).
Proof.
  intros H TD y. destruct (tsteps sched (tstart c H TD)) as ((T1 & T2) & hs & U). fold y in T1, T2, U. split.
  - intros p b I. eapply Forall_forall in T2; [|exact I]. exact T2.
  - intros i it I. unfold cstep. destruct (nth_error (c_workers y) i) as [w|] eqn:N; [|congruence].
    destruct (work c w (c_state y) (c_calls y)) as [[w' s'] log'] eqn:W. cbn [c_state]. intros CH.
    assert (TW : tworker c (s_fs (c_state y)) w) by (eapply Forall_forall in T1; [exact T1|eapply nth_error_In; eauto]).
    destruct (work_tidy TW W) as (A & _). destruct (A _ CH) as [[X _]|(it' & sv' & X1 & X2 & (d' & X3))]; [eauto|]. exfalso.
    unfold results in I. apply in_flat_map in I. destruct I as (v & V & I). fold (oks (w_done v)) in I.
    assert (GI : good_item c it).
    { eapply Forall_forall in T1; [|exact V]. destruct T1 as (_ & _ & T1). eapply Forall_forall in T1; eauto. }
    destruct GI as (d & GI). destruct U as (_ & _ & _ & _ & U1 & U2).
    assert (I1 : In (it_handle it) (claimed v)) by (unfold claimed; apply in_or_app; right; apply in_map; auto).
    assert (I2 : In (it_handle it') (claimed w)) by (unfold claimed; rewrite X1; left; auto).
    assert (E : it_handle it = it_handle it').
    { apply (@file_path_inj c d d'); [| |congruence]; (eapply Forall_forall in U2; [apply U2|]; apply in_flat_map).
      - exists v. auto.
      - exists w. split; auto. eapply nth_error_In; eauto. }
    apply In_nth_error in V. destruct V as [j V]. destruct (Nat.eq_dec i j) as [<-|NE].
    + rewrite N in V. injection V as <-. assert (ND : NoDup (claimed w)).
      { destruct (@split_set_nth worker i (c_workers y) w w N) as (a & b & E1 & _). rewrite E1, flat_map_app in U1. cbn [flat_map] in U1.
        apply NoDup_app_remove_l in U1. apply NoDup_app_remove_r in U1. auto. }
      unfold claimed in ND. rewrite X1 in ND. cbn [held app] in ND. apply NoDup_cons_iff in ND. destruct ND as [ND _]. apply ND.
      rewrite <- E. apply in_map. auto.
    + rewrite E in I1. eapply claimed_apart with (i := i) (j := j); eauto.
Qed.

Lemma init_counter dir prefix ext (f : fs) c (s : state) : init dir prefix ext f = Ok (c, s) -> 0 <= s_counter s.
Proof.
  unfold init. destruct (String.eqb ext ""); [discriminate|]. destruct (contains "." ext); [discriminate|].
  destruct (dget f dir) as [[d|]|]; intros H; try discriminate; injection H as <- <-; simpl; lia.
Qed.
Theorem unique_paths_init dir prefix ext (f : fs) c (s : state) programs sched : init dir prefix ext f = Ok (c, s) ->
  let y := csteps c sched (cstart s programs) in
  NoDup (saver_paths y) /\ NoDup (map (@it_handle T) (results y)).
Proof. intros H. apply unique_paths. eapply init_counter; eauto. Qed.
Theorem no_overwrite_init dir prefix ext (f : fs) c (s : state) programs sched : init dir prefix ext f = Ok (c, s) ->
  Forall (Forall (@tidy D T)) programs ->
  let y := csteps c sched (cstart s programs) in
  (forall p b, In (p, b) (c_calls y) -> b = false)
  /\ (forall i it, In it (results y) ->
        dget (s_fs (c_state (cstep c i y))) (it_path it) <> dget (s_fs (c_state y)) (it_path it) ->
        exists w, nth_error (c_workers y) i = Some w /\ w_place w = Removing (it_path it)).
Proof. intros H. apply no_overwrite. eapply init_counter; eauto. Qed.

Lemma increase_from c ops : forall (s : state) alive used, inv alive used s -> Forall (@decent D T) ops ->
  StronglySorted Z.lt used ->
  StronglySorted Z.lt (used ++ map (@it_handle T) (flat_map created (history c ops s)))
  /\ StronglySorted Z.lt (map (@it_handle T) (live (history c ops s) alive)).
Proof.
  induction ops as [|o ops IH]; intros s alive used I DC SS.
  - cbn [history live flat_map map]. rewrite app_nil_r. split; auto. unfold inv in I; tauto.
  - inversion DC as [|? ? DC1 DC2]; subst. cbn [history]. destruct (do_op c o s) as [a s'] eqn:E.
    destruct (step_ok I DC1 E) as [S1 S2]. cbn [flat_map live]. rewrite map_app, app_assoc.
    apply (IH _ _ _ S2 DC2). destruct S1 as [S1 _].
    unfold created. cbn [e_answer]. destruct a as [[it| | | |]|]; cbn [map]; rewrite ?app_nil_r; auto.
    apply ssorted_snoc; auto. apply (S1 it eq_refl).
Qed.
Theorem handles_increase dir prefix ext (f : fs) c (s : state) ops :
  proper f -> init dir prefix ext f = Ok (c, s) -> Forall (@decent D T) ops ->
  StronglySorted Z.lt (map (@it_handle T) (flat_map created (history c ops s)))
  /\ StronglySorted Z.lt (map (@it_handle T) (live (history c ops s) [])).
Proof.
  intros P I DC. destruct (init_inv P I) as (J & _). apply (@increase_from c ops s [] [] J DC). constructor.
Qed.
End Contents.
Lemma handle_text h : handle_from_string (handle_str h) = Some h.
Proof. unfold handle_from_string, handle_str. rewrite parse_str. auto. Qed.
