(** * CrudProofs *)
From Verif Require Import Py PyLemmas TrainModel TrainSpec CkptModel CkptSpec CkptProofs LogModel LogSpec LogProofs LockModel CrudModel CrudSpec.
From Coq Require Import Ascii Sorted.
Set Implicit Arguments.
Unset Strict Implicit.
Open Scope string_scope.
Open Scope list_scope.
Open Scope Z_scope.

(** ** Paths *)
Lemma last_sep c X s X' s' : X +++ String c s = X' +++ String c s' -> without c s -> without c s' -> s = s'.
Proof.
  revert X'. induction X as [|x X IH]; intros [|y X'] H W W'; cbn [append] in H.
  - injection H; auto.
  - injection H as -> H. rewrite H in W. apply without_app in W. destruct W as [_ W]. simpl in W. tauto.
  - injection H as -> H. rewrite <- H in W'. apply without_app in W'. destruct W' as [_ W']. simpl in W'. tauto.
  - injection H as -> H. eauto.
Qed.
Lemma not_digit_underscore : ~ digit "_"%char.
Proof. intros (n & H & E). apply (f_equal nat_of_ascii) in E. rewrite nat_ascii_embedding in E by lia. vm_compute in E. lia. Qed.
Lemma join_shape dir a b : exists X, path_join dir (a +++ b) = X +++ b.
Proof.
  unfold path_join. destruct (String.prefix "/" (a +++ b)); [eauto|]. destruct (ends_with_slash dir).
  - exists (dir +++ a). rewrite sapp_assoc. auto.
  - exists (dir +++ "/" +++ a). rewrite !sapp_assoc. auto.
Qed.
Lemma file_path_shape c date h : exists X, file_path c date h = X +++ "_" +++ handle_str h +++ "." +++ cf_ext c.
Proof.
  unfold file_path. destruct (join_shape (cf_dir c) (cf_prefix c +++ date) ("_" +++ handle_str h +++ "." +++ cf_ext c)) as [X E].
  exists X. rewrite sapp_assoc in E. auto.
Qed.
Lemma file_path_inj c date date' h h' : 0 <= h -> 0 <= h' -> file_path c date h = file_path c date' h' -> h = h'.
Proof.
  intros H H' E. destruct (file_path_shape c date h) as [X F]. destruct (file_path_shape c date' h') as [X' F'].
  rewrite F, F' in E. rewrite <- !sapp_assoc in E. apply sapp_inj_r in E. apply sapp_inj_r in E. rewrite !sapp_assoc in E.
  apply str_Z_inj. apply (@last_sep "_"%char X (handle_str h) X' (handle_str h') E); apply str_without; auto; apply not_digit_underscore.
Qed.

Section Crud.
Context {D T : Type}.
Notation fs := (fs D).
Notation state := (state D T).
Notation event := (event D T).

Lemma find_name_ok fuel c date (f : fs) n h m : find_name fuel c date f n = Ok (h, m) ->
  n <= h /\ m = h + 1 /\ dget f (file_path c date h) = None.
Proof.
  revert n. induction fuel as [|k IH]; intros n; cbn [find_name]; [discriminate|].
  destruct (dmem f (file_path c date n)) eqn:E.
  - intros H. apply IH in H. intuition lia.
  - intros H. injection H as <- <-. unfold dmem in E. destruct (dget f _); [discriminate|]. intuition lia.
Qed.
Lemma find_name_err fuel c date (f : fs) n e : find_name fuel c date f n = Err e ->
  forall k, 0 <= k < Z.of_nat fuel -> In (file_path c date (n + k)) (dkeys f).
Proof.
  revert n. induction fuel as [|j IH]; intros n; cbn [find_name]; intros H k K; [lia|].
  destruct (dmem f (file_path c date n)) eqn:E; [|discriminate].
  destruct (Z.eq_dec k 0) as [->|N].
  - rewrite Z.add_0_r. apply dmem_In in E. auto.
  - replace (n + k) with (n + 1 + (k - 1)) by lia. apply IH; auto. lia.
Qed.
Lemma find_name_total c date (f : fs) n : 0 <= n ->
  exists h, find_name (S (List.length f)) c date f n = Ok (h, h + 1) /\ n <= h /\ dget f (file_path c date h) = None.
Proof.
  intros N. destruct (find_name (S (List.length f)) c date f n) as [[h m]|e] eqn:E.
  - apply find_name_ok in E. destruct E as (A & -> & B). exists h. auto.
  - exfalso. pose proof (find_name_err E) as F.
    set (l := map (fun i => file_path c date (n + Z.of_nat i)) (seq 0 (S (List.length f)))).
    assert (ND : NoDup l).
    { unfold l. apply FinFun.Injective_map_NoDup; [|apply seq_NoDup].
      intros a b H. apply file_path_inj in H; lia. }
    assert (I : incl l (dkeys f)).
    { intros p P. apply in_map_iff in P. destruct P as (i & <- & I). apply in_seq in I. apply F. lia. }
    apply NoDup_incl_length in I; auto. unfold l in I. rewrite map_length, seq_length in I.
    unfold dkeys in I. rewrite map_length in I. lia.
Qed.

(** ** Lists of items *)
Lemma forallb_filter_id (A : Type) (f : A -> bool) (l : list A) : forallb f l = true -> filter f l = l.
Proof. induction l; simpl; intros H; auto. apply andb_true_iff in H. destruct H as [H1 H2]. rewrite H1, IHl; auto. Qed.
Lemma take_out_none h (l : list (item T)) : take_out h l = None -> forall it, In it l -> it_handle it <> h.
Proof.
  induction l as [|x r IH]; cbn [take_out]; intros H it I; [destruct I|].
  destruct (Z.eqb_spec (it_handle x) h) as [E|N]; cbn [negb] in H; [discriminate|].
  destruct (take_out h r) as [[y r']|]; [discriminate|]. destruct I as [<-|I]; auto.
Qed.
Lemma take_out_some h (l : list (item T)) it r : take_out h l = Some (it, r) ->
  it_handle it = h /\ In it l /\
  (NoDup (map (@it_handle T) l) -> r = filter (fun i => negb (inb (it_handle i) [h])) l).
Proof.
  revert r. induction l as [|x l IH]; cbn [take_out]; intros r H; [discriminate|].
  destruct (Z.eqb_spec (it_handle x) h) as [E|N]; cbn [negb] in H.
  - injection H as -> ->. split; auto. split; [left; auto|]. intros ND. cbn [map] in ND. apply NoDup_cons_iff in ND. destruct ND as [NI ND].
    cbn [filter]. rewrite E. cbn [inb]. rewrite keqb_refl. cbn [orb negb].
    symmetry. apply forallb_filter_id. apply forallb_forall. intros i I.
    cbn [inb]. destruct (keqb_spec (it_handle i) h) as [X|X]; auto. exfalso. apply NI. rewrite E, <- X. apply in_map; auto.
  - destruct (take_out h l) as [[y r']|] eqn:F; [|discriminate]. injection H as <- <-.
    destruct (IH _ eq_refl) as (A & B & C). split; auto. split; [right; auto|]. intros ND. cbn [map] in ND. apply NoDup_cons_iff in ND.
    destruct ND as [NI ND]. cbn [filter]. cbn [inb]. destruct (keqb_spec (it_handle x) h) as [X|X]; [congruence|]. cbn [orb negb].
    f_equal. rewrite (C ND). auto.
Qed.
Lemma filter_none h (l : list (item T)) : (forall it, In it l -> it_handle it <> h) ->
  filter (fun i => negb (inb (it_handle i) [h])) l = l.
Proof.
  intros H. apply forallb_filter_id. apply forallb_forall. intros i I. cbn [inb].
  destruct (keqb_spec (it_handle i) h); auto. exfalso. eapply H; eauto.
Qed.
Lemma find_found h (l : list (item T)) : found h l (find (fun it => it_handle it =? h) l).
Proof.
  unfold found. destruct (find _ l) as [it|] eqn:E.
  - apply find_some in E. destruct E as [A B]. apply Z.eqb_eq in B. auto.
  - intros it I. apply (find_none _ _ E) in I. apply Z.eqb_neq in I. auto.
Qed.
Lemma ssorted_filter (f : item T -> bool) (l : list (item T)) :
  StronglySorted Z.lt (map (@it_handle T) l) -> StronglySorted Z.lt (map (@it_handle T) (filter f l)).
Proof.
  induction l as [|x r IH]; cbn [filter map]; intros H; auto.
  apply StronglySorted_inv in H. destruct H as [H F]. destruct (f x); cbn [map]; auto.
  constructor; auto. apply Forall_forall. intros y Y. apply in_map_iff in Y. destruct Y as (i & <- & I). apply filter_In in I.
  eapply Forall_forall in F; [exact F|]. apply in_map. tauto.
Qed.
Lemma ssorted_snoc l x : StronglySorted Z.lt l -> Forall (fun y => y < x) l -> StronglySorted Z.lt (l ++ [x]).
Proof.
  induction l as [|y l IH]; cbn [app]; intros H F.
  - constructor; constructor.
  - apply StronglySorted_inv in H. destruct H as [H G]. inversion F; subst. constructor; auto.
    apply Forall_app; auto.
Qed.
Lemma ssorted_nodup l : StronglySorted Z.lt l -> NoDup l.
Proof.
  induction 1 as [|x l S IH F]; constructor; auto. intros I. eapply Forall_forall in F; [|exact I]. lia.
Qed.

(** ** One call *)
Definition inv (alive : list (item T)) (used : list Z) (s : state) : Prop :=
  s_items s = alive /\ 0 <= s_counter s /\ Forall (fun h => h < s_counter s) used
  /\ StronglySorted Z.lt (map (@it_handle T) alive) /\ Forall (fun h => h < s_counter s) (map (@it_handle T) alive)
  /\ proper (s_fs s).

Lemma inv_same alive used s f : inv alive used s -> proper f -> inv alive used (mkState (s_counter s) (s_items s) f).
Proof. unfold inv. simpl. tauto. Qed.
Lemma inv_add alive used s it f : inv alive used s -> proper f -> s_counter s <= it_handle it ->
  inv (alive ++ [it]) (used ++ [it_handle it]) (mkState (it_handle it + 1) (s_items s ++ [it]) f).
Proof.
  unfold inv. cbn [s_items s_counter s_fs]. intros (A & B & C & E & F & G) P L. rewrite map_app. cbn [map].
  repeat split; auto; try lia; try congruence.
  - apply Forall_app. split; [eapply Forall_impl; [|exact C]; simpl; intros; lia|constructor; [lia|constructor]].
  - apply ssorted_snoc; auto. eapply Forall_impl; [|exact F]; simpl; intros; lia.
  - apply Forall_app. split; [eapply Forall_impl; [|exact F]; simpl; intros; lia|constructor; [lia|constructor]].
Qed.
Lemma inv_grow alive used s n f : inv alive used s -> proper f -> s_counter s <= n -> inv alive used (mkState n (s_items s) f).
Proof.
  unfold inv. cbn [s_items s_counter s_fs]. intros (A & B & C & E & F & G) P L.
  repeat split; auto; try lia; (eapply Forall_impl; [|eassumption]; simpl; intros; lia).
Qed.
Lemma filter_keep (l : list (item T)) : filter (fun it => negb (inb (it_handle it) [])) l = l.
Proof. apply forallb_filter_id. apply forallb_forall. auto. Qed.

Lemma create_case c date utc sv (s : state) alive used a s' :
  inv alive used s -> (forall p f, proper f -> proper (fst (sv p f))) ->
  create_with_saver c date utc sv s = (a, s') ->
  (isdir (s_fs s) (cf_dir c) = false /\ a = Err OtherError /\ s' = s)
  \/ (isdir (s_fs s) (cf_dir c) = true /\ exists h, let p := file_path c date h in
      s_counter s <= h /\ dget (s_fs s) p = None /\ s_fs s' = fst (sv p (s_fs s))
      /\ a = match snd (sv p (s_fs s)) with
             | Some x => Err x
             | None => if isfile (s_fs s') p then Ok (mkItem h utc p) else Err AssertionError
             end
      /\ inv (alive ++ match a with Ok it => [it] | Err _ => [] end)
             (used ++ map (@it_handle T) match a with Ok it => [it] | Err _ => [] end) s').
Proof.
  intros I DC. unfold create_with_saver. destruct (isdir (s_fs s) (cf_dir c)); cbn [negb].
  2: { intros H. injection H as <- <-. left. auto. }
  intros H. right. split; auto.
  destruct (@find_name_total c date (s_fs s) (s_counter s)) as (h & E & L & N); [unfold inv in I; tauto|].
  rewrite E in H. exists h. cbn zeta. cbn [it_path] in H.
  assert (PR : proper (fst (sv (file_path c date h) (s_fs s)))) by (apply DC; unfold inv in I; tauto).
  destruct (sv (file_path c date h) (s_fs s)) as [f [x|]]; cbn [fst snd] in *.
  - injection H as <- <-. cbn [s_fs map]. rewrite !app_nil_r. do 4 (split; [solve [auto]|]). apply inv_grow; auto. lia.
  - destruct (isfile f (file_path c date h)) eqn:F; injection H as <- <-; cbn [s_fs map].
    + rewrite F. do 4 (split; [solve [auto]|]). exact (@inv_add alive used s (mkItem h utc (file_path c date h)) f I PR L).
    + rewrite F, !app_nil_r. do 4 (split; [solve [auto]|]). apply inv_grow; auto. lia.
Qed.

Lemma used_below alive used (s : state) h : inv alive used s -> s_counter s <= h -> Forall (fun k => k < h) used /\ 0 <= h.
Proof.
  unfold inv. intros (_ & B & C & _) L. split; [|lia]. eapply Forall_impl; [|exact C]. simpl. intros; lia.
Qed.

Lemma proper_write (f f' : fs) p d : proper f -> write f p d = Ok f' -> proper f' /\ dget f' p = Some (File d) /\ same_but p f f'.
Proof.
  unfold write. intros P. destruct (isdir f p); [discriminate|]. destruct (isdir f (dirname p)); [|discriminate].
  intros H. injection H as <-. split; [apply NoDup_dset; auto|]. split; [apply dget_dset_eq|].
  intros q Q. apply dget_dset_neq. auto.
Qed.
Lemma isfile_get (f : fs) p : isfile f p = true <-> exists d, dget f p = Some (File d).
Proof.
  unfold isfile. destruct (dget f p) as [[d|]|]; split; intros H; try discriminate; eauto; destruct H; discriminate.
Qed.

Lemma step_ok c o (s : state) alive used a s' : inv alive used s -> decent o -> do_op c o s = (a, s') ->
  let e := mkEvent (s_fs s) o a (s_fs s') in
  allowed c alive used e
  /\ inv (filter (fun it => negb (inb (it_handle it) (gone e))) alive ++ created e)
         (used ++ map (@it_handle T) (created e)) s'.
Proof.
  intros I DC H e. pose proof I as (IA & IB & IC & ID & IE & IF).
  destruct o as [date utc sv|date utc d|utc p|h d| |h|h| |g]; cbn [do_op] in H.
  - (* saver *)
    destruct (create_with_saver c date utc sv s) as [r s1] eqn:E. injection H as <- <-.
    unfold e, allowed, gone, created. cbn [e_op e_before e_after e_answer]. rewrite filter_keep.
    destruct (create_case I DC E) as [(F & -> & ->)|(F & h & L & N & S1 & A & J)].
    + rewrite F. cbn [rmap map]. rewrite !app_nil_r. split; auto. split; [|auto]. intros it X. discriminate.
    + rewrite F. destruct (used_below I L) as [U0 U1]. split.
      * split.
        -- intros it X. rewrite A in X. destruct (snd (sv _ (s_fs s))); [discriminate|].
           destruct (isfile (s_fs s1) (file_path c date h)) eqn:IFl; [|discriminate]. cbn [rmap] in X.
           injection X as <-. cbn [it_handle it_path]. auto.
        -- exists h. cbn zeta. split; [auto|]. split; [auto|]. split; [auto|]. split; [auto|].
           rewrite A. destruct (snd (sv _ (s_fs s))); cbn [rmap]; auto. destruct (isfile _ _); auto.
      * destruct r; cbn [rmap map]; auto.
  - (* data *)
    unfold create_with_data in H. destruct (create_with_saver c date utc (data_saver d) s) as [r s1] eqn:E. injection H as <- <-.
    assert (DS : forall p f, proper f -> proper (fst (data_saver d p f))).
    { intros p f P. unfold data_saver. destruct (write f p d) as [f'|x] eqn:W; cbn [fst]; auto. eapply proper_write; eauto. }
    unfold e, allowed, gone, created. cbn [e_op e_before e_after e_answer]. rewrite filter_keep.
    destruct (create_case I DS E) as [(F & -> & ->)|(F & h & L & N & S1 & A & J)].
    + rewrite F. cbn [rmap map]. rewrite !app_nil_r. split; auto. split; [|auto]. intros it X. discriminate.
    + rewrite F. destruct (used_below I L) as [U0 U1]. split.
      * split.
        -- intros it X. rewrite A in X. destruct (snd (data_saver d _ (s_fs s))); [discriminate|].
           destruct (isfile (s_fs s1) (file_path c date h)) eqn:IFl; [|discriminate]. cbn [rmap] in X.
           injection X as <-. cbn [it_handle it_path]. auto.
        -- exists h. cbn zeta. split; [auto|]. split; [auto|]. split; [auto|].
           unfold data_saver in *. rewrite A, S1.
           destruct (write (s_fs s) (file_path c date h) d) as [f'|x] eqn:W; cbn [fst snd rmap].
           ++ destruct (proper_write IF W) as (P1 & P2 & P3).
              unfold write in W. destruct (isdir (s_fs s) (file_path c date h)); [discriminate|].
              destruct (isdir (s_fs s) (dirname (file_path c date h))); [|discriminate].
              assert (X : isfile f' (file_path c date h) = true) by (apply isfile_get; eauto).
              rewrite X. cbn [rmap]. auto.
           ++ unfold write in W. assert (X : isdir (s_fs s) (file_path c date h) = false) by (unfold isdir; rewrite N; auto).
              rewrite X in W. destruct (isdir (s_fs s) (dirname (file_path c date h))); [discriminate|]. injection W as <-. auto.
      * destruct r; cbn [rmap map]; auto.
  - (* register *)
    unfold create_from_filepath in H. unfold e, allowed, gone, created. cbn [e_op e_before e_after e_answer]. rewrite filter_keep.
    destruct (isfile (s_fs s) p) eqn:F; cbn [negb] in H.
    2: { injection H as <- <-. cbn [map]. rewrite !app_nil_r. split; auto. split; auto. discriminate. }
    destruct (String.eqb_spec (dirname p) (cf_dir c)) as [Q|Q]; cbn [negb] in H.
    2: { injection H as <- <-. cbn [map]. rewrite !app_nil_r. split; auto. split; [discriminate|].
         destruct (string_dec _ _); [contradiction|auto]. }
    injection H as <- <-. cbn [rmap s_fs map]. split.
    + split.
      * intros it X. injection X as <-. cbn [it_handle it_path]. auto.
      * split; auto. destruct (string_dec _ _); [|contradiction]. eauto.
    + exact (@inv_add alive used s (mkItem (s_counter s) utc p) (s_fs s) I IF (Z.le_refl _)).
  - (* update *)
    unfold update, get in H. unfold e, allowed, gone, created. cbn [e_op e_before e_after e_answer]. rewrite filter_keep.
    pose proof (find_found h (s_items s)) as FF. rewrite IA in *.
    destruct (find (fun it => it_handle it =? h) alive) as [it|] eqn:F.
    2: { injection H as <- <-. cbn [rmap map]. rewrite !app_nil_r. split; auto. split; [discriminate|]. exists None. auto. }
    destruct (write (s_fs s) (it_path it) d) as [f|x] eqn:W; injection H as <- <-; cbn [rmap map s_fs]; rewrite !app_nil_r.
    + destruct (proper_write IF W) as (P1 & P2 & P3). split; [|rewrite <- IA; apply inv_same; auto; rewrite IA; auto].
      split; [discriminate|]. exists (Some it). split; auto.
      unfold write in W. destruct (isdir (s_fs s) (it_path it)); [discriminate|].
      destruct (isdir (s_fs s) (dirname (it_path it))); [|discriminate]. auto.
    + split; auto. split; [discriminate|]. exists (Some it). split; auto.
      unfold write in W. destruct (isdir (s_fs s) (it_path it)); [injection W as <-; auto|].
      destruct (isdir (s_fs s) (dirname (it_path it))); [discriminate|]. injection W as <-. auto.
  - (* items *)
    injection H as <- <-. unfold e, allowed, gone, created. cbn [e_op e_before e_after e_answer map]. rewrite filter_keep, !app_nil_r.
    unfold items. rewrite IA. split; auto. split; [discriminate|auto].
  - (* delete *)
    unfold delete in H. unfold e, allowed, gone. cbn [e_op e_before e_after e_answer].
    rewrite IA in H. destruct (take_out h alive) as [[it r]|] eqn:F.
    2: { injection H as <- <-. cbn [rmap]. unfold created. cbn [e_answer map]. pose proof (take_out_none F) as FN.
         rewrite (filter_none FN), !app_nil_r. split; auto. split; [discriminate|]. exists None. auto. }
    destruct (take_out_some F) as (A & B & C). specialize (C (ssorted_nodup ID)).
    assert (R : forall f, proper f -> inv r used (mkState (s_counter s) r f)).
    { intros f P. unfold inv. cbn [s_items s_counter s_fs]. repeat split; auto.
      - rewrite C. apply ssorted_filter; auto.
      - rewrite C. apply Forall_forall. intros z Z. apply in_map_iff in Z. destruct Z as (i & <- & Z). apply filter_In in Z.
        eapply Forall_forall in IE; [exact IE|]. apply in_map. tauto. }
    unfold os_remove in H. destruct (dget (s_fs s) (it_path it)) as [[d|]|] eqn:G; injection H as <- <-; cbn [rmap s_fs];
      unfold created; cbn [e_answer map]; rewrite <- C, !app_nil_r.
    + split; [|apply R; apply NoDup_ddel; auto]. split; [discriminate|]. exists (Some it). split; [split; auto|].
      assert (X : isfile (s_fs s) (it_path it) = true) by (apply isfile_get; eauto). rewrite X. split; auto. split.
      * apply dget_ddel_eq. auto.
      * intros q Q. apply dget_ddel_neq. auto.
    + split; [|apply R; auto]. split; [discriminate|]. exists (Some it). split; [split; auto|].
      unfold isfile. rewrite G. auto.
    + split; [|apply R; auto]. split; [discriminate|]. exists (Some it). split; [split; auto|].
      unfold isfile. rewrite G. auto.
  - (* get *)
    injection H as <- <-. unfold e, allowed, gone, created. cbn [e_op e_before e_after e_answer map]. rewrite filter_keep, !app_nil_r.
    split; auto. split; [discriminate|]. unfold get. rewrite IA. exists (find (fun it => it_handle it =? h) alive).
    split; auto. apply find_found.
  - (* latest *)
    injection H as <- <-. unfold e, allowed, gone, created. cbn [e_op e_before e_after e_answer map]. rewrite filter_keep, !app_nil_r.
    split; auto. split; [discriminate|]. split; auto. unfold latest. rewrite IA.
    destruct (rev alive) as [|it l] eqn:R.
    + left. split; auto. rewrite <- (rev_involutive alive), R. auto.
    + right. exists (rev l), it. split; auto. rewrite <- (rev_involutive alive), R. auto.
  - (* outside *)
    injection H as <- <-. unfold e, allowed, gone, created. cbn [e_op e_before e_after e_answer map s_fs]. rewrite filter_keep, !app_nil_r.
    split; [|apply inv_same; auto]. split; [discriminate|auto].
Qed.

(** ** Histories *)
Lemma history_from c ops : forall (s : state) alive used, inv alive used s -> Forall (@decent D T) ops ->
  forall past e rest, history c ops s = past ++ e :: rest ->
  exists s1, inv (live past alive) (used ++ map (@it_handle T) (flat_map created past)) s1
    /\ s_fs s1 = e_before e
    /\ allowed c (live past alive) (used ++ map (@it_handle T) (flat_map created past)) e.
Proof.
  induction ops as [|o ops IH]; intros s alive used I DC past e rest H; [destruct past; discriminate|].
  inversion DC as [|? ? DC1 DC2]; subst. cbn [history] in H. destruct (do_op c o s) as [a s'] eqn:E.
  destruct (step_ok I DC1 E) as [S1 S2].
  destruct past as [|e0 past]; cbn [app] in H; injection H as H0 H.
  - subst e. exists s. cbn [live flat_map map e_before]. rewrite app_nil_r. auto.
  - subst e0. destruct (IH _ _ _ S2 DC2 past e rest H) as (s1 & A & B & C). exists s1.
    cbn [live flat_map]. rewrite map_app, app_assoc. auto.
Qed.
Lemma init_inv dir prefix ext (f : fs) c (s : state) : proper f -> init dir prefix ext f = Ok (c, s) ->
  inv [] [] s /\ cf_dir c = dir /\ isdir (s_fs s) dir = true /\ (forall p, p <> dir -> dget (s_fs s) p = dget f p).
Proof.
  intros P. unfold init. destruct (String.eqb ext ""); [discriminate|]. destruct (contains "." ext); [discriminate|].
  destruct (dget f dir) as [[d|]|] eqn:G; [discriminate| |]; intros H; injection H as <- <-; cbn [cf_dir s_fs].
  - split; [repeat split; simpl; auto; try lia; constructor|]. split; auto. split; auto. unfold isdir. rewrite G. auto.
  - split; [repeat split; simpl; auto; try lia; try constructor; apply NoDup_dset; auto|]. split; auto. split.
    + unfold isdir. rewrite dget_dset_eq. auto.
    + intros p Q. apply dget_dset_neq. auto.
Qed.
Theorem storage_conforms dir prefix ext (f : fs) c (s : state) ops :
  proper f -> init dir prefix ext f = Ok (c, s) -> Forall (@decent D T) ops -> conforms c (history c ops s).
Proof.
  intros P I DC past e rest H. destruct (init_inv P I) as (J & _).
  destruct (@history_from c ops s [] [] J DC past e rest H) as (s1 & _ & _ & A). exact A.
Qed.
End Crud.
