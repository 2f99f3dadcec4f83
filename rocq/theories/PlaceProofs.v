(** * PlaceProofs: where a storage puts its files *)
From Verif Require Import Py PyLemmas CkptModel LogModel LogSpec LogProofs CrudModel CrudSpec CrudProofs PlaceSpec.
From Coq Require Import Ascii DecimalString.
Set Implicit Arguments.
Unset Strict Implicit.
Open Scope string_scope.
Open Scope list_scope.
Open Scope Z_scope.

Lemma chars_app (a b : string) : list_ascii_of_string (a ++ b)%string = list_ascii_of_string a ++ list_ascii_of_string b.
Proof. induction a; simpl; auto. rewrite IHa. auto. Qed.
Lemma no_slash_app a b : no_slash a -> no_slash b -> no_slash (a ++ b)%string.
Proof. unfold no_slash. rewrite chars_app. intros A B I. apply in_app_or in I. tauto. Qed.
Lemma no_slash_tail x r : no_slash (String x r) -> no_slash r /\ x <> "/"%char.
Proof. unfold no_slash. simpl. intuition. Qed.

Lemma no_slash_none name : no_slash name -> before_last_slash name = None.
Proof.
  induction name as [|x r IH]; intros N; auto. apply no_slash_tail in N. destruct N as [N1 N2]. cbn [before_last_slash].
  rewrite IH by auto. destruct (Ascii.eqb_spec x "/"); congruence.
Qed.
Lemma before_slash d name : no_slash name -> before_last_slash (d ++ "/" ++ name)%string = Some d.
Proof.
  intros N. induction d as [|x d IH].
  - cbn [String.append before_last_slash]. rewrite no_slash_none by auto. rewrite Ascii.eqb_refl. auto.
  - change (String x d ++ "/" ++ name)%string with (String x (d ++ "/" ++ name)%string).
    cbn [before_last_slash]. rewrite IH. auto.
Qed.
Lemma dirname_inside d name : folder d -> no_slash name -> dirname (inside d name) = d.
Proof.
  intros F N. unfold dirname, inside. destruct (string_dec d "/") as [->|ND].
  - change ("/" ++ name)%string with ("" ++ "/" ++ name)%string. rewrite before_slash by auto. auto.
  - rewrite before_slash by auto. destruct F as [F|[F _]]; [contradiction|]. destruct d; congruence.
Qed.
Lemma ends_split d : ends_with_slash d = true -> exists r, d = (r ++ "/")%string.
Proof.
  induction d as [|x r IH]; cbn [ends_with_slash]; [discriminate|]. destruct r as [|y r].
  - intros H. destruct (Ascii.eqb_spec x "/"); [|discriminate]. subst. exists "". auto.
  - intros H. destruct (IH H) as [q E]. exists (String x q). rewrite E. auto.
Qed.
Lemma join_inside d name : folder d -> no_slash name -> name <> "" -> path_join d name = inside d name.
Proof.
  intros F N E. unfold path_join, inside.
  assert (X : String.prefix "/" name = false).
  { destruct name as [|x r]; [contradiction|]. apply no_slash_tail in N. destruct N as [_ N]. cbn [String.prefix].
    destruct (ascii_dec "/" x); [congruence|auto]. }
  rewrite X. destruct F as [->|[F1 F2]].
  - auto.
  - destruct (string_dec d "/") as [->|ND]; [exfalso; apply (F2 ""); auto|].
    destruct (ends_with_slash d) eqn:S0; auto. destruct (ends_split S0) as [r ->]. destruct (F2 r); auto.
Qed.

Lemma without_no_slash s : without "/"%char s -> no_slash s.
Proof.
  unfold no_slash. induction s as [|x r IH]; simpl; intros H I; [destruct I|]. destruct H as [H1 H2], I as [I|I]; [congruence|]. apply IH; auto.
Qed.
Lemma not_digit_slash : ~ digit "/"%char.
Proof. intros (n & H & E). apply (f_equal nat_of_ascii) in E. rewrite nat_ascii_embedding in E by lia. vm_compute in E. lia. Qed.
Lemma str_no_slash h : no_slash (str_Z h).
Proof.
  apply without_no_slash. assert (Z0 : without "/"%char "0") by (simpl; split; [discriminate|auto]).
  unfold str_Z. destruct (Z.to_int h) as [d|d]; cbn [NilZero.string_of_int]; unfold NilZero.string_of_uint.
  - destruct d; try (apply uint_without, not_digit_slash); auto.
  - cbn [without]. split; [discriminate|]. destruct d; try (apply uint_without, not_digit_slash); auto.
Qed.
Lemma file_inside c date h : folder (cf_dir c) -> no_slash (cf_prefix c) -> no_slash date -> no_slash (cf_ext c) ->
  file_path c date h = inside (cf_dir c) (cf_prefix c ++ date ++ "_" ++ handle_str h ++ "." ++ cf_ext c)%string.
Proof.
  intros F P Q E. apply join_inside; auto.
  - repeat apply no_slash_app; auto; try apply str_no_slash; unfold no_slash; simpl; intuition discriminate.
  - intros X. apply (f_equal String.length) in X. rewrite !append_length in X. simpl in X. lia.
Qed.

Section Place.
Context {D T : Type}.

Lemma init_config dir prefix ext (f : fs D) c (s : state D T) : init dir prefix ext f = Ok (c, s) -> c = mkConfig dir prefix ext.
Proof.
  unfold init. destruct (String.eqb ext ""); [discriminate|]. destruct (contains "." ext); [discriminate|].
  destruct (dget f dir) as [[d|]|]; intros H; try discriminate; injection H as <- <-; auto.
Qed.
Lemma created_path c date utc sv (s : state D T) it s' : create_with_saver c date utc sv s = (Ok it, s') ->
  it_path it = file_path c date (it_handle it).
Proof.
  unfold create_with_saver. destruct (negb (isdir (s_fs s) (cf_dir c))); [discriminate|].
  destruct (find_name _ c date (s_fs s) (s_counter s)) as [[h n]|]; [|discriminate].
  destruct (sv _ (s_fs s)) as [f [x|]]; [discriminate|]. destruct (isfile f _); [|discriminate].
  intros H. injection H as <- <-. auto.
Qed.
Lemma in_history c ops : forall (s : state D T) e, In e (history c ops s) -> exists s0 s1, do_op c (e_op e) s0 = (e_answer e, s1) /\ e_before e = s_fs s0 /\ e_after e = s_fs s1.
Proof.
  induction ops as [|o r IH]; intros s e I; [destruct I|]. cbn [history] in I. destruct (do_op c o s) as [a s1] eqn:E.
  destruct I as [<-|I]; [|eauto]. exists s, s1. auto.
Qed.
Theorem stored_place dir prefix ext (f : fs D) c (s : state D T) ops : init dir prefix ext f = Ok (c, s) ->
  folder dir -> no_slash prefix -> no_slash ext ->
  forall e date it, In e (history c ops s) -> stored_on e = Some (date, it) -> no_slash date ->
  it_path it = inside dir (prefix ++ date ++ "_" ++ handle_str (it_handle it) ++ "." ++ ext)%string.
Proof.
  intros H F P E e date it I ST ND. apply init_config in H. subst c.
  destruct (in_history I) as (s0 & s1 & DO & _). unfold stored_on in ST.
  assert (X : it_path it = file_path (mkConfig dir prefix ext) date (it_handle it)).
  { destruct (e_op e) as [d0 utc sv|d0 utc d| | | | | | |] eqn:O; try discriminate ST; cbn [do_op] in DO;
      (destruct (e_answer e) as [[it'| | | |]|]; try discriminate ST; injection ST as <- <-).
    - destruct (create_with_saver (mkConfig dir prefix ext) d0 utc sv s0) as [[i0|] s2] eqn:CR; [|discriminate DO].
      injection DO as <- <-. eapply created_path; eauto.
    - unfold create_with_data in DO. destruct (create_with_saver (mkConfig dir prefix ext) d0 utc (data_saver d) s0) as [[i0|] s2] eqn:CR; [|discriminate DO].
      injection DO as <- <-. eapply created_path; eauto. }
  rewrite X. apply file_inside; auto.
Qed.
Theorem registered_place dir prefix ext (f : fs D) c (s : state D T) ops : init dir prefix ext f = Ok (c, s) ->
  forall e utc d name, In e (history c ops s) -> e_op e = ORegister utc (inside d name) -> folder d -> no_slash name ->
  ((exists h, e_answer e = Ok (AItem (mkItem h utc (inside d name)))) <->
     d = dir /\ exists x, dget (e_before e) (inside d name) = Some (File x)).
Proof.
  intros H e utc d name I O F N. apply init_config in H. subst c.
  destruct (in_history I) as (s0 & s1 & DO & B & _). rewrite O in DO. cbn [do_op] in DO. rewrite B.
  unfold create_from_filepath, isfile in DO. cbn [cf_dir] in DO. rewrite dirname_inside in DO by auto.
  destruct (dget (s_fs s0) (inside d name)) as [[x|]|] eqn:G; cbn [negb] in DO.
  - destruct (String.eqb_spec d dir) as [Q|Q]; cbn [negb rmap] in DO; injection DO as <- <-.
    + split; [eauto|]. intros _. eauto.
    + split; [intros (h & X); discriminate X|]. intros (X & _). contradiction.
  - injection DO as <- <-. split; [intros (h & X); discriminate X|]. intros (_ & x & X). discriminate X.
  - injection DO as <- <-. split; [intros (h & X); discriminate X|]. intros (_ & x & X). discriminate X.
Qed.
End Place.

(** ** A prefix with a slash *)
Definition two_folders : fs Z := [("/d", Folder); ("/e", Folder)].
Definition elsewhere : config * state Z unit :=
  match init "/d" "/e/x" "bin" two_folders with Ok cs => cs | Err _ => (mkConfig "" "" "", mkState 0 [] []) end.
Lemma stored_elsewhere : init "/d" "/e/x" "bin" two_folders = Ok elsewhere
  /\ exists e it, history (fst elsewhere) [OData "1" tt 10] (snd elsewhere) = [e] /\ stored_on e = Some ("1", it)
     /\ dget (e_after e) (it_path it) = Some (File 10)
     /\ forall name, it_path it <> inside "/d" name.
Proof.
  split; [reflexivity|]. eexists. eexists. split; [vm_compute; reflexivity|]. split; [vm_compute; reflexivity|].
  split; [vm_compute; reflexivity|]. intros name X. cbn in X. discriminate X.
Qed.
Definition slash_day : list (op Z unit) := [OData "1" tt 10; ORegister tt "/d/mine"; ORegister tt "/e/yours"].
Definition three_files : fs Z := [("/d", Folder); ("/d/mine", File 1); ("/e", Folder); ("/e/yours", File 2)].
Definition at_d : config * state Z unit :=
  match init "/d" "x" "bin" three_files with Ok cs => cs | Err _ => (mkConfig "" "" "", mkState 0 [] []) end.
Lemma place_day : init "/d" "x" "bin" three_files = Ok at_d
  /\ map (@e_answer Z unit) (history (fst at_d) slash_day (snd at_d))
     = [Ok (AItem (mkItem 0 tt "/d/x1_0.bin")); Ok (AItem (mkItem 1 tt "/d/mine")); Err OtherError].
Proof. split; [reflexivity|vm_compute; reflexivity]. Qed.
Lemma place_names : folder "/d" /\ folder "/e" /\ no_slash "x" /\ no_slash "bin" /\ no_slash "1" /\ no_slash "mine" /\ no_slash "yours"
  /\ "/d/mine" = inside "/d" "mine" /\ "/e/yours" = inside "/e" "yours".
Proof.
  assert (X : forall a, a <> "/"%char -> folder (String "/" (String a ""))).
  { intros a N. right. split; [discriminate|]. intros r E. destruct r as [|b r]; [discriminate E|]. injection E as <- E.
    destruct r as [|b r]; [injection E as E; contradiction|]. injection E as <- E. destruct r; discriminate E. }
  repeat split; try (apply X; discriminate); unfold no_slash; simpl; intuition discriminate.
Qed.
