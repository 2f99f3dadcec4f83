(** * LogProofs (C55, C56, C77) *)
From Coq Require Import DecimalString Ascii.
From Verif Require Import Py PyLemmas CkptModel CkptProofs LogModel LogSpec.
Set Implicit Arguments.
Unset Strict Implicit.
Open Scope string_scope.
Open Scope list_scope.
Open Scope Z_scope.

Notation "a +++ b" := (String.append a b) (at level 60, right associativity).

(** ** Strings *)
Lemma sapp_nil s : s +++ "" = s.
Proof. induction s as [|x r IH]; simpl; auto. rewrite IH. auto. Qed.
Lemma sapp_assoc a b c : (a +++ b) +++ c = a +++ b +++ c.
Proof. induction a as [|x r IH]; simpl; auto. rewrite IH. auto. Qed.
Lemma append_length a b : String.length (a +++ b) = (String.length a + String.length b)%nat.
Proof. induction a as [|x r IH]; simpl; auto. Qed.
Lemma sapp_inj_r a b c : a +++ c = b +++ c -> a = b.
Proof.
  revert b. induction a as [|x r IH]; intros [|y b] H; simpl in H; auto.
  - exfalso. assert (L : String.length c = Datatypes.S (String.length (b +++ c))) by (rewrite H at 1; auto).
    rewrite append_length in L. lia.
  - exfalso. assert (L : String.length c = Datatypes.S (String.length (r +++ c))) by (rewrite <- H at 1; auto).
    rewrite append_length in L. lia.
  - injection H as -> H. f_equal. auto.
Qed.
Lemma without_app c a b : without c (a +++ b) <-> without c a /\ without c b.
Proof. induction a as [|x r IH]; simpl; [tauto|]. rewrite IH. tauto. Qed.

Lemma split_app c a b : without c a ->
  split_on c (a +++ b) = let '(p, ps) := split_on c b in (a +++ p, ps).
Proof.
  induction a as [|x r IH]; simpl; intros W.
  - destruct (split_on c b). auto.
  - destruct W as [N W]. rewrite (IH W). destruct (split_on c b) as [p ps].
    destruct (Ascii.eqb_spec x c); [congruence|]. auto.
Qed.
Lemma split_sep c b : split_on c (String c b) = let '(p, ps) := split_on c b in ("", p :: ps).
Proof. simpl. destruct (split_on c b). rewrite Ascii.eqb_refl. auto. Qed.
Lemma split_whole c a : without c a -> split_on c a = (a, []).
Proof. intros W. rewrite <- (sapp_nil a) at 1. rewrite (split_app "" W). simpl. rewrite sapp_nil. auto. Qed.
Lemma split_join c s p ps : split_on c s = (p, ps) ->
  join_with c p ps = s /\ without c p /\ Forall (without c) ps.
Proof.
  revert p ps. induction s as [|x r IH]; simpl; intros p ps H.
  - injection H as <- <-. simpl. auto.
  - destruct (split_on c r) as [q qs] eqn:E. destruct (IH _ _ eq_refl) as (J & W1 & W2).
    destruct (Ascii.eqb_spec x c) as [->|N]; injection H as <- <-.
    + simpl. rewrite J. auto.
    + simpl. split; auto. destruct qs; simpl in *; rewrite <- J; auto.
Qed.
Lemma join_split c p ps : without c p -> Forall (without c) ps -> split_on c (join_with c p ps) = (p, ps).
Proof.
  revert p. induction ps as [|q r IH]; cbn [join_with]; intros p W F.
  - apply split_whole. auto.
  - inversion F; subst. rewrite split_app, split_sep, IH by auto. rewrite sapp_nil. auto.
Qed.

Definition sfx : string := "_bp_step".
Lemma tag_eq k : exists p ps, split_on "/"%char k = (p, ps) /\ tag k = join_with "/"%char (p +++ sfx) ps.
Proof. unfold tag. destruct (split_on "/"%char k) as [p ps]. exists p, ps. auto. Qed.
Lemma without_sfx : without "/"%char sfx.
Proof. unfold sfx. simpl. repeat split; try discriminate. Qed.
Lemma tag_inj k k' : tag k = tag k' -> k = k'.
Proof.
  destruct (tag_eq k) as (p & ps & E & ->). destruct (tag_eq k') as (p' & ps' & E' & ->). intros H.
  destruct (split_join E) as (J & W1 & W2). destruct (split_join E') as (J' & W1' & W2').
  assert (X : split_on "/"%char (join_with "/"%char (p +++ sfx) ps) = (p +++ sfx, ps)).
  { apply join_split; auto. apply without_app. split; auto. apply without_sfx. }
  assert (X' : split_on "/"%char (join_with "/"%char (p' +++ sfx) ps') = (p' +++ sfx, ps')).
  { apply join_split; auto. apply without_app. split; auto. apply without_sfx. }
  rewrite H, X' in X. injection X as X1 X2. apply sapp_inj_r in X1. subst. auto.
Qed.
Lemma join_head c p q ps : join_with c (p +++ q) ps = p +++ join_with c q ps.
Proof. destruct ps; simpl; auto. apply sapp_assoc. Qed.
Lemma tag_spec a rest : without "/"%char a -> (rest = "" \/ exists r, rest = String "/" r) ->
  tag (a +++ rest) = a +++ "_bp_step" +++ rest.
Proof.
  intros W R. unfold tag. rewrite (split_app rest W). destruct R as [->|[r ->]].
  - simpl. rewrite !sapp_nil. auto.
  - rewrite split_sep. destruct (split_on "/"%char r) as [p ps] eqn:E. rewrite sapp_nil.
    cbn [join_with]. destruct (split_join E) as (J & _). rewrite J, sapp_assoc. auto.
Qed.

(** ** The key syntax *)
Lemma prefix_spec sub s : String.prefix sub s = true <-> exists b, s = sub +++ b.
Proof.
  revert s. induction sub as [|x r IH]; intros s; simpl.
  - split; intros _; [exists s; auto|destruct s; auto].
  - destruct s as [|y s]; simpl; [split; [discriminate|intros [b B]; discriminate]|].
    destruct (ascii_dec x y) as [->|N].
    + rewrite IH. split; intros [b B]; exists b; [rewrite B; auto|injection B; auto].
    + split; [discriminate|]. intros [b B]. injection B as -> _. congruence.
Qed.
Lemma contains_spec sub s : contains sub s = true <-> exists a b, s = a +++ sub +++ b.
Proof.
  induction s as [|x r IH].
  - unfold contains. destruct (String.prefix sub "") eqn:E.
    + apply prefix_spec in E. destruct E as [b E]. split; auto. intros _. exists "", b. auto.
    + split; [discriminate|]. intros (a & b & H). destruct a; [|discriminate].
      assert (X : String.prefix sub "" = true) by (apply prefix_spec; eauto). congruence.
  - cbn [contains]. destruct (String.prefix sub (String x r)) eqn:E.
    + apply prefix_spec in E. destruct E as [b E]. split; auto. intros _. exists "", b. auto.
    + rewrite IH. split.
      * intros (a & b & ->). exists (String x a), b. auto.
      * intros (a & b & H). destruct a as [|y a].
        -- assert (X : String.prefix sub (String x r) = true) by (apply prefix_spec; eauto). congruence.
        -- injection H as -> H. eauto.
Qed.
Lemma drop_last_app s c : drop_last (s +++ String c "") = s.
Proof.
  induction s as [|x r IH]; auto. cbn [append drop_last].
  destruct (r +++ String c "") as [|y q] eqn:E; [destruct r; discriminate|]. rewrite IH. auto.
Qed.

Definition digit (c : ascii) : Prop := exists n, (48 <= n <= 57)%nat /\ c = ascii_of_nat n.
Lemma uint_without c d : ~ digit c -> without c (NilEmpty.string_of_uint d).
Proof.
  intros N. induction d; simpl; auto; split; auto; intros <-; apply N;
  match goal with |- digit ?c => exists (nat_of_ascii c); split; [vm_compute; lia|reflexivity] end.
Qed.
Lemma str_without c n : ~ digit c -> 0 <= n -> without c (str_Z n).
Proof.
  intros N H. unfold str_Z. destruct (Z.to_int n) as [d|d] eqn:E.
  - cbn [NilZero.string_of_int]. unfold NilZero.string_of_uint.
    destruct d; try (apply uint_without; auto). simpl. split; auto. intros <-. apply N.
    exists 48%nat. split; [lia|reflexivity].
  - destruct n; simpl in E; try discriminate. lia.
Qed.
Lemma not_digit_colon : ~ digit ":"%char.
Proof. intros (n & H & E). apply (f_equal nat_of_ascii) in E. rewrite nat_ascii_embedding in E by lia. vm_compute in E. lia. Qed.
Lemma not_digit_bracket : ~ digit "["%char.
Proof. intros (n & H & E). apply (f_equal nat_of_ascii) in E. rewrite nat_ascii_embedding in E by lia. vm_compute in E. lia. Qed.
Lemma str_Z_round z : NilZero.int_of_string (NilZero.string_of_int (Z.to_int z)) = Some (Z.to_int z).
Proof.
  apply NilZero.isi.
  - destruct z; simpl; try discriminate. intros N. injection N as N.
    apply (f_equal Pos.of_uint) in N. rewrite DecimalPos.Unsigned.of_to in N. discriminate.
  - destruct z; simpl; try discriminate. intros N. injection N as N.
    apply (f_equal Pos.of_uint) in N. rewrite DecimalPos.Unsigned.of_to in N. discriminate.
Qed.
Lemma parse_str n : parse_int (str_Z n) = Ok n.
Proof.
  unfold parse_int, str_Z. rewrite str_Z_round. rewrite DecimalZ.of_to. auto.
Qed.

Lemma key_syntax d pre n rest :
  without ":"%char pre -> without "["%char pre -> 0 <= n ->
  (rest = "" \/ exists r, rest = String ":" r) ->
  window_length d (pre +++ "windowed[" +++ str_Z n +++ "]" +++ rest) = Ok n.
Proof.
  intros W1 W2 Hn R. unfold window_length.
  replace (contains "windowed[" _) with true.
  2: { symmetry. apply contains_spec. eauto. }
  assert (E : fst (split_on ":"%char (pre +++ "windowed[" +++ str_Z n +++ "]" +++ rest))
          = pre +++ "windowed[" +++ str_Z n +++ "]").
  { rewrite <- !sapp_assoc. rewrite split_app.
    - destruct R as [->|[r ->]].
      + simpl. rewrite sapp_nil. rewrite !sapp_assoc. auto.
      + rewrite split_sep. destruct (split_on ":"%char r). cbn [fst]. rewrite sapp_nil. rewrite !sapp_assoc. auto.
    - rewrite !without_app. split; [|simpl; repeat split; discriminate]. split; [|apply str_without; auto; apply not_digit_colon].
      split; auto. simpl. repeat split; discriminate. }
  rewrite E. change "windowed[" with ("windowed" +++ String "[" ""). rewrite sapp_assoc.
  cbn [append]. change (pre +++ String "w" (String "i" (String "n" (String "d" (String "o" (String "w" (String "e" (String "d" (String "[" (str_Z n +++ "]"))))))))))
    with (pre +++ ("windowed" +++ String "[" (str_Z n +++ "]"))).
  rewrite <- sapp_assoc. rewrite split_app.
  2: { apply without_app. split; auto. simpl. repeat split; discriminate. }
  rewrite split_sep. rewrite split_whole.
  2: { apply without_app. split; [apply str_without; auto; apply not_digit_bracket|]. simpl. split; auto. discriminate. }
  cbn [snd]. rewrite drop_last_app. apply parse_str.
Qed.
Lemma key_default d key : (~ exists a b, key = a +++ "windowed[" +++ b) -> window_length d key = Ok d.
Proof.
  intros N. unfold window_length. destruct (contains "windowed[" key) eqn:E; auto.
  apply contains_spec in E. tauto.
Qed.

(** ** Windows *)
Section P.
Context {P : Type}.
Notation lg := (logs P).

Lemma last_of_extend n l w x : 0 <= n -> last_of n l w -> last_of n (l ++ x) (dq_extend w n x).
Proof.
  intros Hn [[b ->] L]. unfold dq_extend. set (a := w ++ x).
  split.
  - exists (b ++ firstn (List.length a - Z.to_nat n) a). rewrite <- !app_assoc. f_equal.
    symmetry. apply firstn_skipn.
  - unfold zlen in *. rewrite skipn_length. unfold a. rewrite !app_length in *. lia.
Qed.
Lemma last_of_nil n : 0 <= n -> last_of n [] [].
Proof. intros H. split; [exists []; auto|]. unfold zlen. simpl. lia. Qed.

Lemma log_all_app a b (s : lg) : log_all (a ++ b) s = log_all b (log_all a s).
Proof. revert s. induction a as [|[k v] r IH]; intros s; simpl; auto. Qed.
Lemma logged_app key a b : logged key (a ++ b) = logged key a ++ logged key b.
Proof. unfold logged. apply flat_map_app. Qed.

Definition bad_length (d : Z) (key : string) : Prop :=
  match window_length d key with Ok n => n < 0 | Err _ => True end.

(** One call *)
Lemma windowed_bad key v (s : lg) :
  bad_length (lg_default s) key -> dget (lg_windows s) key = None ->
  exists e, log_windowed key v s = (s, Err e).
Proof.
  intros B W. unfold log_windowed, ensure_window, dmem. rewrite W. unfold bad_length in B.
  destruct (window_length (lg_default s) key) as [n|e]; [|eauto].
  replace (n <? 0) with true by (symmetry; apply Z.ltb_lt; lia). eauto.
Qed.
Lemma windowed_good key v (s : lg) n w c :
  plain v -> window_length (lg_default s) key = Ok n -> 0 <= n ->
  (dget (lg_windows s) key = None /\ w = [] /\ c = 0
   \/ dget (lg_windows s) key = Some (w, n) /\ dget (lg_cumulative s) key = Some c) ->
  exists s', log_windowed key v s = (s', Ok tt)
  /\ dget (lg_windows s') key = Some (dq_extend w n (numbers v), n)
  /\ dget (lg_cumulative s') key = Some (c + zsum (numbers v))
  /\ (forall k, k <> key -> dget (lg_windows s') k = dget (lg_windows s) k
                         /\ dget (lg_cumulative s') k = dget (lg_cumulative s) k)
  /\ lg_default s' = lg_default s /\ lg_scalars s' = lg_scalars s /\ lg_other s' = lg_other s.
Proof.
  intros Pv WL Hn Cases.
  assert (E : exists s1, ensure_window key s = Ok s1
     /\ dget (lg_windows s1) key = Some (w, n) /\ dget (lg_cumulative s1) key = Some c
     /\ (forall k, k <> key -> dget (lg_windows s1) k = dget (lg_windows s) k
                            /\ dget (lg_cumulative s1) k = dget (lg_cumulative s) k)
     /\ lg_default s1 = lg_default s /\ lg_scalars s1 = lg_scalars s /\ lg_other s1 = lg_other s).
  { unfold ensure_window, dmem. destruct Cases as [(W & -> & ->)|[W C]]; rewrite W.
    - rewrite WL. replace (n <? 0) with false by (symmetry; apply Z.ltb_ge; lia).
      eexists. split; [reflexivity|]. cbn [lg_windows lg_cumulative lg_default lg_scalars lg_other].
      rewrite !dget_dset_eq. repeat (split; [auto; fail|]). split; auto.
      intros k Nk. rewrite !dget_dset_neq by auto. auto.
    - exists s. auto 10. }
  destruct E as (s1 & E & W1 & C1 & O1 & D1 & S1 & R1).
  unfold log_windowed. rewrite E.
  assert (Pu : forall l, exists s', push key l (zsum l) s1 = (s', Ok tt)
     /\ dget (lg_windows s') key = Some (dq_extend w n l, n)
     /\ dget (lg_cumulative s') key = Some (c + zsum l)
     /\ (forall k, k <> key -> dget (lg_windows s') k = dget (lg_windows s) k
                            /\ dget (lg_cumulative s') k = dget (lg_cumulative s) k)
     /\ lg_default s' = lg_default s /\ lg_scalars s' = lg_scalars s /\ lg_other s' = lg_other s).
  { intros l. unfold push. rewrite W1, C1. eexists. split; [reflexivity|].
    cbn [lg_windows lg_cumulative lg_default lg_scalars lg_other]. rewrite !dget_dset_eq.
    split; auto. split; auto. split; auto. intros k Nk. rewrite !dget_dset_neq by auto. apply O1. auto. }
  destruct v as [z|l|l|z]; simpl in Pv; try tauto; cbn [numbers]; [|apply Pu].
  destruct (Pu [z]) as (s' & E' & Q). exists s'. split; auto.
  rewrite <- E'. f_equal. unfold zsum. simpl. lia.
Qed.
Lemma windowed_default key v (s : lg) : lg_default (fst (log_windowed key v s)) = lg_default s.
Proof.
  unfold log_windowed, ensure_window. destruct (dmem (lg_windows s) key).
  - destruct v; unfold push; auto; destruct (dget (lg_windows s) key) as [[w n]|]; auto;
    destruct (dget (lg_cumulative s) key); auto.
  - destruct (window_length (lg_default s) key); auto. destruct (a <? 0); auto.
    destruct v; unfold push; auto; cbn [lg_windows lg_cumulative]; rewrite !dget_dset_eq; auto.
Qed.

(** A history from an object without windows *)
Lemma history ops (s0 : lg) :
  lg_windows s0 = [] -> Forall (fun kv => plain (snd kv)) ops ->
  let s := log_all ops s0 in
  lg_default s = lg_default s0 /\ lg_scalars s = lg_scalars s0 /\ lg_other s = lg_other s0
  /\ forall key,
    (forall n, mentioned key ops -> window_length (lg_default s0) key = Ok n -> 0 <= n ->
       window_is key n (logged key ops) s)
    /\ (~ mentioned key ops \/ bad_length (lg_default s0) key ->
          dget (lg_windows s) key = None /\ dget (lg_cumulative s) key = dget (lg_cumulative s0) key).
Proof.
  intros W0. induction ops as [|[k v] ops IH] using rev_ind; intros F.
  - simpl. split; auto. split; auto. split; auto. intros key. split; [intros n []|].
    intros _. rewrite W0. auto.
  - apply Forall_app in F. destruct F as [F1 F2]. inversion F2 as [|? ? Pv _]; subst. simpl in Pv.
    specialize (IH F1). cbv zeta in *. destruct IH as (D & Sc & Ot & K). rewrite log_all_app.
    set (s := log_all ops s0) in *. cbn [log_all]. rewrite windowed_default.
    assert (ML : forall key, mentioned key (ops ++ [(k, v)]) <-> mentioned key ops \/ key = k).
    { intros key. unfold mentioned. rewrite map_app, in_app_iff. simpl. intuition. }
    assert (LG : forall key, logged key (ops ++ [(k, v)]) = logged key ops ++ (if (k =? key)%string then numbers v else [])).
    { intros key. rewrite logged_app. unfold logged at 2. simpl. rewrite app_nil_r. auto. }
    assert (Cs : bad_length (lg_default s0) k \/ exists n, window_length (lg_default s0) k = Ok n /\ 0 <= n).
    { unfold bad_length. destruct (window_length (lg_default s0) k) as [n|e]; auto.
      destruct (Z_lt_ge_dec n 0); auto. right. exists n. split; auto. lia. }
    destruct Cs as [B|(n & WL & Hn)].
    + destruct (K k) as [_ K2]. destruct (K2 (or_intror B)) as [Wk _].
      destruct (@windowed_bad k v s) as [e ->]; auto; [rewrite D; auto|]. cbn [fst].
      split; auto. split; auto. split; auto. intros key. destruct (K key) as [K1 K3]. rewrite LG. split.
      * intros m Me WLm Hm. apply ML in Me.
        assert (N : key <> k). { intros ->. unfold bad_length in B. rewrite WLm in B. lia. }
        replace (k =? key)%string with false by (symmetry; apply String.eqb_neq; auto). rewrite app_nil_r.
        apply K1; auto. tauto.
      * rewrite ML. intros [Me|Bk]; apply K3; tauto.
    + assert (Q : exists w c, last_of n (logged k ops) w /\ c = zsum (logged k ops) /\
         (dget (lg_windows s) k = None /\ w = [] /\ c = 0
          \/ dget (lg_windows s) k = Some (w, n) /\ dget (lg_cumulative s) k = Some c)).
      { destruct (K k) as [K1 K2]. destruct (in_dec string_dec k (map fst ops)) as [I|I].
        - destruct (K1 n I WL Hn) as [(w & Ew & Lw) Ec]. exists w, (zsum (logged k ops)). auto.
        - destruct (K2 (or_introl I)) as [E1 _]. exists [], 0.
          assert (LN : logged k ops = []).
          { unfold logged. clear -I. induction ops as [|[a b] r IHr]; simpl in *; auto.
            destruct (String.eqb_spec a k); [subst; tauto|]. apply IHr. tauto. }
          rewrite LN. split; [apply last_of_nil; auto|]. auto. }
      destruct Q as (w & c & Lw & -> & Q).
      rewrite <- D in WL. destruct (windowed_good Pv WL Hn Q) as (s' & -> & W' & C' & O' & D' & S' & R').
      cbn [fst]. split; [rewrite <- D; auto|]. split; [congruence|]. split; [congruence|].
      intros key. rewrite LG. destruct (String.eqb_spec k key) as [<-|N].
      * split.
        -- intros m _ WLm _. rewrite <- D, WL in WLm. injection WLm as <-. split.
           ++ eexists. split; [exact W'|]. apply last_of_extend; auto.
           ++ rewrite C', zsum_app. auto.
        -- rewrite ML. intros [Me|Bk]; [tauto|]. unfold bad_length in Bk. rewrite <- D, WL in Bk. lia.
      * destruct (O' key) as [O1 O2]; auto. destruct (K key) as [K1 K2]. rewrite app_nil_r. split.
        -- intros m Me WLm Hm. apply ML in Me. destruct (K1 m) as [(w' & Ew & Lw') Ec]; auto; [destruct Me; congruence|].
           split; [exists w'; rewrite O1; auto|rewrite O2; auto].
        -- rewrite ML. intros [Me|Bk]; rewrite O1, O2; apply K2; tauto.
Qed.

Lemma windows_main ops default (p : P) key n :
  Forall (fun kv => plain (snd kv)) ops -> mentioned key ops ->
  window_length default key = Ok n -> 0 <= n ->
  window_is key n (logged key ops) (log_all ops (new_logs default p)).
Proof.
  intros F Me WL Hn. destruct (@history ops (new_logs default p) eq_refl F) as (_ & _ & _ & K).
  apply K; auto.
Qed.
Lemma windows_unused ops default (p : P) key :
  Forall (fun kv => plain (snd kv)) ops -> ~ mentioned key ops ->
  no_window key (log_all ops (new_logs default p)).
Proof.
  intros F Me. destruct (@history ops (new_logs default p) eq_refl F) as (_ & _ & _ & K).
  destruct (K key) as [_ K2]. apply K2. auto.
Qed.
Lemma call_succeeds ops default (p : P) key v n :
  Forall (fun kv => plain (snd kv)) ops -> plain v ->
  window_length default key = Ok n -> 0 <= n ->
  snd (log_windowed key v (log_all ops (new_logs default p))) = Ok tt.
Proof.
  intros F Pv WL Hn. destruct (@history ops (new_logs default p) eq_refl F) as (D & _ & _ & K).
  set (s := log_all ops (new_logs default p)) in *. cbn [lg_default new_logs] in *.
  destruct (K key) as [K1 K2]. rewrite <- D in WL.
  destruct (in_dec string_dec key (map fst ops)) as [I|I].
  - rewrite D in WL. destruct (K1 n I WL Hn) as [(w & Ew & Lw) Ec]. rewrite <- D in WL.
    destruct (@windowed_good key v s n w (zsum (logged key ops))) as (s' & -> & _); auto.
  - destruct (K2 (or_introl I)) as [E1 _].
    destruct (@windowed_good key v s n [] 0) as (s' & -> & _); auto.
Qed.
Lemma bad_key ops default (p : P) key v :
  Forall (fun kv => plain (snd kv)) ops -> bad_length default key ->
  let s := log_all ops (new_logs default p) in
  exists e, log_windowed key v s = (s, Err e).
Proof.
  intros F B. destruct (@history ops (new_logs default p) eq_refl F) as (D & _ & _ & K).
  cbv zeta. destruct (K key) as [_ K2]. destruct (K2 (or_intror B)) as [E1 _].
  apply windowed_bad; auto. rewrite D. auto.
Qed.

(** ** Checkpoints *)
Lemma load_fresh (sv : saved_logs P) default (p : P) :
  load_logs sv true (new_logs default p)
  = (mkLogs (sv_scalars sv) [] (sv_cumulative sv) (sv_other sv) default, Ok tt).
Proof. reflexivity. Qed.
Lemma load_used (sv : saved_logs P) (s : lg) : lg_windows s <> [] ->
  exists e, snd (load_logs sv true s) = Err e /\ (e = TypeError \/ e = IndexError).
Proof.
  intros N. unfold load_logs. destruct (lg_windows s) as [|[k [w n]] r] eqn:E; [congruence|].
  simpl. destruct w as [|x [|y w]]; simpl; eauto.
Qed.
Lemma after_load before after default (p p' : P) key n :
  Forall (fun kv => plain (snd kv)) after -> mentioned key after ->
  window_length default key = Ok n -> 0 <= n ->
  window_is key n (logged key after)
    (log_all after (fst (load_logs (save_logs (log_all before (new_logs default p))) true (new_logs default p')))).
Proof.
  intros F Me WL Hn. rewrite load_fresh. cbn [fst].
  match goal with |- window_is _ _ _ (log_all _ ?s0) => destruct (@history after s0 eq_refl F) as (_ & _ & _ & K) end.
  apply K; auto.
Qed.
Lemma after_load_wrong before after default (p p' : P) key n :
  Forall (fun kv => plain (snd kv)) after -> mentioned key after ->
  window_length default key = Ok n -> 0 <= n ->
  zsum (logged key before) <> 0 ->
  ~ window_is key n (logged key (before ++ after))
    (log_all after (fst (load_logs (save_logs (log_all before (new_logs default p))) true (new_logs default p')))).
Proof.
  intros F Me WL Hn Nz [_ C]. destruct (@after_load before after default p p' key n F Me WL Hn) as [_ C'].
  rewrite C' in C. injection C as C. rewrite logged_app, zsum_app in C. lia.
Qed.
Lemma load_values before sc default (p p' : P) :
  let s := fold_left (fun s kv => log_scalar (fst kv) (snd kv) s) sc (log_all before (new_logs default p)) in
  let s' := fst (load_logs (save_logs s) true (new_logs default p')) in
  snd (load_logs (save_logs s) true (new_logs default p')) = Ok tt
  /\ lg_scalars s' = lg_scalars s /\ lg_cumulative s' = lg_cumulative s /\ lg_other s' = lg_other s.
Proof. cbv zeta. rewrite load_fresh. auto. Qed.
Lemma scalar_last sc (s : lg) key :
  dget (lg_scalars (fold_left (fun s kv => log_scalar (fst kv) (snd kv) s) sc s)) key
  = match dget (rev sc) key with Some v => Some v | None => dget (lg_scalars s) key end.
Proof.
  induction sc as [|[k v] r IH] using rev_ind; auto.
  rewrite fold_left_app, rev_app_distr. cbn [fold_left rev app dget fst snd log_scalar lg_scalars].
  destruct (keqb key k) eqn:E.
  - apply keqb_eq in E. subst. apply dget_dset_eq.
  - rewrite dget_dset_neq; auto. intros ->. rewrite keqb_refl in E. discriminate.
Qed.

(** ** TensorboardLogger *)
Lemma write_windows_ok step ws : (forall k w n, In (k, (w, n)) ws -> w <> []) ->
  write_windows step ws = (map (fun kv => (tag (fst kv), WMean (zsum (fst (snd kv))) (zlen (fst (snd kv))), step)) ws, Ok tt).
Proof.
  induction ws as [|[k [w n]] r IH]; intros H; auto. cbn [write_windows].
  destruct w as [|x w]; [destruct (H k [] n); [left|]; auto|].
  rewrite IH; [auto|]. intros k' w' n' I. eapply H. right. eauto.
Qed.
Lemma write_one_ok step (s : lg) : (forall k w n, In (k, (w, n)) (lg_windows s) -> w <> []) ->
  exists ev, write_one step s = (ev, Ok tt)
  /\ forall t x st, In (t, x, st) ev <->
     st = step /\
     ((exists k v, In (k, v) (lg_scalars s) /\ t = tag k /\ x = WVal v)
      \/ (exists k w n, In (k, (w, n)) (lg_windows s) /\ t = tag k /\ x = WMean (zsum w) (zlen w))
      \/ (exists k v, In (k, v) (lg_cumulative s) /\ t = tag k +++ "/cumulative" /\ x = WVal v)).
Proof.
  intros H. unfold write_one. rewrite write_windows_ok by auto. eexists. split; [reflexivity|].
  intros t x st. rewrite !in_app_iff, !in_map_iff. split.
  - intros [([k v] & E & I)|[([k [w n]] & E & I)|([k v] & E & I)]]; simpl in E; injection E as <- <- <-; split; auto.
    + left. eauto.
    + right; left. exists k, w, n. auto.
    + right; right. eauto.
  - intros [-> [(k & v & I & -> & ->)|[(k & w & n & I & -> & ->)|(k & v & I & -> & ->)]]].
    + left. exists (k, v). auto.
    + right; left. exists (k, (w, n)). auto.
    + right; right. exists (k, v). auto.
Qed.
Lemma write_all_ok step (ls : list lg) :
  (forall s k w n, In s ls -> In (k, (w, n)) (lg_windows s) -> w <> []) ->
  exists ev, write_all step ls = (ev, Ok tt)
  /\ forall t x st, In (t, x, st) ev <->
     st = step /\ exists s, In s ls /\
     ((exists k v, In (k, v) (lg_scalars s) /\ t = tag k /\ x = WVal v)
      \/ (exists k w n, In (k, (w, n)) (lg_windows s) /\ t = tag k /\ x = WMean (zsum w) (zlen w))
      \/ (exists k v, In (k, v) (lg_cumulative s) /\ t = tag k +++ "/cumulative" /\ x = WVal v)).
Proof.
  induction ls as [|s r IH]; intros H.
  - exists []. split; auto. intros t x st. split; [intros []|]. intros (_ & s & [] & _).
  - cbn [write_all]. destruct (@write_one_ok step s) as (e1 & -> & E1); [intros k w n; apply H; left; auto|].
    destruct IH as (e2 & -> & E2); [intros s' k w n I; apply H; right; auto|].
    eexists. split; [reflexivity|]. intros t x st. rewrite in_app_iff, E1, E2. split.
    + intros [[-> Q]|[-> (s' & I & Q)]]; split; auto; [exists s; split; [left; auto|exact Q]|exists s'; split; [right; auto|exact Q]].
    + intros [-> (s' & [<-|I] & Q)]; [left; auto|right; split; auto; exists s'; auto].
Qed.
Lemma tensorboard_ok (ls : list lg) step0 samples0 elapsed step samples :
  (forall s k w n, In s ls -> In (k, (w, n)) (lg_windows s) -> w <> []) -> elapsed <> 0 ->
  exists ev, tensorboard_end_cycle ls step0 samples0 elapsed step samples = (ev, Ok tt)
  /\ forall t x st, In (t, x, st) ev <->
     st = step /\
     ((exists s k v, In s ls /\ In (k, v) (lg_scalars s) /\ t = tag k /\ x = WVal v)
      \/ (exists s k w n, In s ls /\ In (k, (w, n)) (lg_windows s) /\ t = tag k /\ x = WMean (zsum w) (zlen w))
      \/ (exists s k v, In s ls /\ In (k, v) (lg_cumulative s) /\ t = tag k +++ "/cumulative" /\ x = WVal v)
      \/ (t = "performance/bp_samples_per_sec" /\ x = WRate (samples - samples0) elapsed)
      \/ (t = "performance/bp_steps_per_sec" /\ x = WRate (step - step0) elapsed)).
Proof.
  intros H Ne. unfold tensorboard_end_cycle. destruct (@write_all_ok step ls H) as (ev & -> & E).
  replace (elapsed =? 0) with false by (symmetry; apply Z.eqb_neq; auto). eexists. split; [reflexivity|].
  intros t x st. rewrite in_app_iff, E. split.
  - intros [[-> (s & I & [(k & v & Q)|[(k & w & n & Q)|(k & v & Q)]])]|[Q|[Q|[]]]].
    + split; auto. left. exists s, k, v. auto.
    + split; auto. right; left. exists s, k, w, n. auto.
    + split; auto. right; right; left. exists s, k, v. auto.
    + injection Q as <- <- <-. auto 10.
    + injection Q as <- <- <-. auto 10.
  - intros [-> [(s & k & v & I & Q)|[(s & k & w & n & I & Q)|[(s & k & v & I & Q)|[[-> ->]|[-> ->]]]]]].
    + left. split; auto. exists s. split; auto. left. eauto.
    + left. split; auto. exists s. split; auto. right; left. eauto.
    + left. split; auto. exists s. split; auto. right; right. eauto.
    + right. left. auto.
    + right. right. left. auto.
Qed.
Lemma tensorboard_empty (s : lg) k n r step0 samples0 elapsed step samples :
  lg_windows s = (k, ([], n)) :: r ->
  snd (tensorboard_end_cycle [s] step0 samples0 elapsed step samples) = Err ZeroDivisionError.
Proof. intros E. unfold tensorboard_end_cycle, write_all, write_one. rewrite E. auto. Qed.

(** After a history of values into windows that can hold some, no window is
    empty. *)
Lemma windows_nodup ops (s : lg) : NoDup (dkeys (lg_windows s)) -> NoDup (dkeys (lg_windows (log_all ops s))).
Proof.
  revert s. induction ops as [|[k v] r IH]; simpl; intros s N; auto. apply IH.
  assert (G : forall (d : dict string (list Z * Z)) a b, NoDup (dkeys d) -> NoDup (dkeys (dset d a b))).
  { intros d a b Nd. change (dset d a b) with (dupdate d [(a, b)]). apply NoDup_dupdate. auto. }
  assert (Pu : forall l a (s1 : lg), NoDup (dkeys (lg_windows s1)) -> NoDup (dkeys (lg_windows (fst (push k l a s1))))).
  { intros l a s1 N1. unfold push. destruct (dget (lg_windows s1) k) as [[w n]|]; auto.
    destruct (dget (lg_cumulative s1) k); cbn [fst lg_windows]; auto. }
  unfold log_windowed. destruct (ensure_window k s) as [s1|e] eqn:En; auto.
  assert (N1 : NoDup (dkeys (lg_windows s1))).
  { unfold ensure_window in En. destruct (dmem (lg_windows s) k); [injection En as <-; auto|].
    destruct (window_length (lg_default s) k); [|discriminate]. destruct (a <? 0); [discriminate|].
    injection En as <-. cbn [lg_windows]. auto. }
  destruct v; auto.
Qed.
Lemma history_nonempty ops default (p : P) :
  Forall (fun kv => plain (snd kv) /\ numbers (snd kv) <> []) ops ->
  (forall key, mentioned key ops -> window_length default key <> Ok 0) ->
  forall k w n, In (k, (w, n)) (lg_windows (log_all ops (new_logs default p))) -> w <> [].
Proof.
  intros F Nz k w n I.
  assert (F1 : Forall (fun kv => plain (snd kv)) ops) by (eapply Forall_impl; [|exact F]; simpl; tauto).
  destruct (@history ops (new_logs default p) eq_refl F1) as (_ & _ & _ & K).
  set (s := log_all ops (new_logs default p)) in *.
  assert (G : dget (lg_windows s) k = Some (w, n)).
  { apply In_dget; auto. apply windows_nodup. constructor. }
  destruct (K k) as [K1 K2]. cbn [lg_default new_logs] in *.
  assert (Me : mentioned k ops).
  { destruct (in_dec string_dec k (map fst ops)) as [J|J]; auto. destruct (K2 (or_introl J)). congruence. }
  destruct (window_length default k) as [m|e] eqn:WL.
  2: { assert (B : bad_length default k) by (unfold bad_length; rewrite WL; auto). destruct (K2 (or_intror B)). congruence. }
  destruct (Z_lt_ge_dec m 0) as [L|L].
  { assert (B : bad_length default k) by (unfold bad_length; rewrite WL; auto). destruct (K2 (or_intror B)). congruence. }
  destruct (K1 m Me eq_refl) as [(w' & Ew & [_ Lw]) _]; [lia|].
  rewrite G in Ew. injection Ew as <- <-.
  assert (n <> 0) by (intros ->; destruct (Nz k Me); auto).
  assert (logged k ops <> []).
  { unfold mentioned in Me. apply in_map_iff in Me. destruct Me as ([a v] & Ea & Iv). simpl in Ea. subst a.
    rewrite Forall_forall in F. destruct (F _ Iv) as [_ Nv]. simpl in Nv.
    intros Z. destruct (numbers v) as [|z zs] eqn:En; [congruence|].
    assert (X : In z (logged k ops)).
    { unfold logged. apply in_flat_map. exists (k, v). split; auto. simpl. rewrite String.eqb_refl, En. left; auto. }
    rewrite Z in X. destruct X. }
  intros ->. unfold zlen in Lw. simpl in Lw. destruct (logged k ops); [congruence|]. simpl List.length in Lw. lia.
Qed.
End P.
