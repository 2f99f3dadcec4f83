(** * ProxyAlign: the columns of well-formed episodes (C28, C32). *)
From Verif Require Import Py PyLemmas MemModel MemSpec MemProofs MemRun ProxyModel ProxySpec ProxyProofs.
Open Scope string_scope.
Open Scope list_scope.
Open Scope Z_scope.
Set Implicit Arguments.

Section Align.
Context {S : Type} `{Scalar S}.
Notation moment := (@moment S).

Definition somes {A B} (f : A -> option B) (l : list A) : list B :=
  flat_map (fun m => match f m with Some v => [v] | None => [] end) l.
Lemma somes_all {A B} (f : A -> option B) l : Forall (fun m => f m <> None) l ->
  map Some (somes f l) = map f l.
Proof. induction 1 as [|x l Hx _ IH]; simpl; auto. destruct (f x); [|congruence]. simpl. rewrite IH. auto. Qed.
Lemma somes_none {A B} (f : A -> option B) l : Forall (fun m => f m = None) l -> somes f l = [].
Proof. induction 1 as [|x l Hx _ IH]; simpl; auto. rewrite Hx. auto. Qed.
Lemma somes_app {A B} (f : A -> option B) l l' : somes f (l ++ l') = somes f l ++ somes f l'.
Proof. unfold somes. apply flat_map_app. Qed.
Lemma somes_ext {A B} (f g : A -> option B) l : Forall (fun m => f m = g m) l -> somes f l = somes g l.
Proof. induction 1 as [|x l Hx _ IH]; simpl; auto. rewrite Hx, IH. auto. Qed.

Lemma NoDup_app_disj {A} (l l' : list A) x : NoDup (l ++ l') -> In x l -> ~ In x l'.
Proof.
  induction l as [|y r IH]; simpl; [tauto|]. intros N [->|I] I'; inversion N; subst; auto.
  - apply H2. apply in_or_app. auto.
  - eapply IH; eauto.
Qed.
Lemma NoDup_app_r {A} (l l' : list A) : NoDup (l ++ l') -> NoDup l'.
Proof. induction l; simpl; auto. intros N. inversion N; auto. Qed.

Lemma names_disjoint ut sch k : schema_ok ut sch ->
  (In k (sc_obs sch) -> ~ In k (sc_resp sch) /\ k <> "rewards" /\ (ut && (k =? "terminal")%string) = false) /\
  (In k (sc_resp sch) -> ~ In k (sc_obs sch) /\ k <> "rewards" /\ (ut && (k =? "terminal")%string) = false).
Proof.
  unfold schema_ok. intros N. split; intros I.
  - assert (N1 := NoDup_app_disj _ _ _ N I). split; [|split].
    + intros J. apply N1, in_or_app. auto.
    + intros ->. apply N1, in_or_app. right. simpl. auto.
    + destruct ut; auto. simpl. apply String.eqb_neq. intros ->. apply N1, in_or_app. right. simpl. auto.
  - assert (N1 := NoDup_app_disj _ _ _ (NoDup_app_r _ _ N) I). split; [|split].
    + intros J. apply (NoDup_app_disj _ _ _ N J). apply in_or_app. auto.
    + intros ->. apply N1. simpl. auto.
    + destruct ut; auto. simpl. apply String.eqb_neq. intros ->. apply N1. simpl. auto.
Qed.
Lemma names_rest ut sch : schema_ok ut sch ->
  ~ In "rewards" (sc_obs sch) /\ ~ In "rewards" (sc_resp sch) /\
  (ut = true -> ~ In "terminal" (sc_obs sch) /\ ~ In "terminal" (sc_resp sch)).
Proof.
  intros N. split; [|split].
  - intros I. destruct (proj1 (names_disjoint _ N) I) as (_ & E & _). congruence.
  - intros I. destruct (proj2 (names_disjoint _ N) I) as (_ & E & _). congruence.
  - intros ->. split; intros I.
    + destruct (proj1 (names_disjoint _ N) I) as (_ & _ & E). discriminate.
    + destruct (proj2 (names_disjoint _ N) I) as (_ & _ & E). discriminate.
Qed.

Lemma not_none {A} (x : option A) : ~ (x <> None) -> x = None.
Proof. destruct x; auto. intros E. exfalso. apply E. discriminate. Qed.

Lemma orelse_assoc {A} (a b c : option A) : orelse a (orelse b c) = orelse (orelse a b) c.
Proof. destruct a; auto. Qed.
Lemma orelse_none {A} (a : option A) : orelse a None = a.
Proof. destruct a; auto. Qed.

(** A contribution, by cases. *)
Lemma contribution_alt ut k (m : moment) :
  contribution ut k m =
  let base := orelse (if String.eqb k "rewards" then reward_of (fst m) else None) (saw m k) in
  if is_final (o_state (fst m)) then
    if ut && String.eqb k "terminal"
    then Some [match o_state (fst m) with INTERRUPTED => s_one | _ => s_zero end]
    else base
  else orelse (answered m k) base.
Proof.
  unfold contribution, saw, answered. cbv zeta. destruct (is_final (o_state (fst m))); auto.
  destruct (snd m) as [r|]; auto. rewrite orelse_assoc. auto.
Qed.

Section Names.
Context (ut : bool) (sch : schema) (SO : schema_ok ut sch).

Lemma contrib_obs k m : conforms sch m -> In k (sc_obs sch) -> contribution (S:=S) ut k m = saw m k.
Proof.
  intros (C1 & C2 & C3) I. rewrite contribution_alt. cbv zeta.
  destruct (names_disjoint k SO) as [D _]. destruct (D I) as (D1 & D2 & D3).
  rewrite D3. apply String.eqb_neq in D2. rewrite D2. cbn [orelse].
  destruct (is_final (o_state (fst m))) eqn:Ef; auto.
  rewrite (not_none (fun X => D1 (proj1 (C2 eq_refl k) X))). auto.
Qed.
Lemma contrib_resp k m : conforms sch m -> In k (sc_resp sch) ->
  contribution (S:=S) ut k m = if is_final (o_state (fst m)) then None else answered m k.
Proof.
  intros (C1 & C2 & C3) I. rewrite contribution_alt. cbv zeta.
  destruct (names_disjoint k SO) as [_ D]. destruct (D I) as (D1 & D2 & D3).
  rewrite D3. apply String.eqb_neq in D2. rewrite D2. cbn [orelse].
  rewrite (not_none (fun X => D1 (proj1 (C1 k) X))).
  destruct (is_final (o_state (fst m))) eqn:Ef; auto. apply orelse_none.
Qed.
Lemma contrib_rewards m : conforms sch m ->
  contribution (S:=S) ut "rewards" m = if is_initial (o_state (fst m)) then None else received m.
Proof.
  intros (C1 & C2 & C3). rewrite contribution_alt. cbv zeta.
  destruct (names_rest SO) as (D1 & D2 & _).
  replace (ut && ("rewards" =? "terminal")%string) with false by (destruct ut; auto).
  rewrite (not_none (fun X => D1 (proj1 (C1 _) X))). cbn [String.eqb Ascii.eqb Bool.eqb].
  change ("rewards" =? "rewards")%string with true. cbv iota. rewrite orelse_none. unfold reward_of.
  destruct (is_final (o_state (fst m))) eqn:Ef; auto.
  rewrite (not_none (fun X => D2 (proj1 (C2 eq_refl _) X))). auto.
Qed.
Lemma contrib_terminal m : conforms sch m -> ut = true ->
  contribution (S:=S) ut "terminal" m =
  if is_final (o_state (fst m))
  then Some [match o_state (fst m) with INTERRUPTED => s_one | _ => s_zero end] else None.
Proof.
  intros (C1 & C2 & C3) Hu. rewrite contribution_alt. cbv zeta.
  destruct (names_rest SO) as (_ & _ & D). destruct (D Hu) as [D1 D2]. rewrite Hu. cbn [andb].
  change ("terminal" =? "terminal")%string with true. change ("terminal" =? "rewards")%string with false. cbv iota.
  rewrite (not_none (fun X => D1 (proj1 (C1 _) X))).
  destruct (is_final (o_state (fst m))) eqn:Ef; auto.
  rewrite (not_none (fun X => D2 (proj1 (C2 eq_refl _) X))). auto.
Qed.
Lemma contrib_other k m : conforms sch m -> ~ In k (names ut sch) -> contribution (S:=S) ut k m = None.
Proof.
  intros (C1 & C2 & C3) I. rewrite contribution_alt. cbv zeta. unfold names in I.
  rewrite !in_app_iff in I. simpl in I.
  assert (E1 : (k =? "rewards")%string = false). { apply String.eqb_neq. intros ->. tauto. }
  assert (E2 : (ut && (k =? "terminal")%string) = false).
  { destruct ut; auto. simpl. apply String.eqb_neq. intros ->. simpl in I. tauto. }
  rewrite E1, E2. cbn [orelse]. assert (E3 : saw m k = None). { apply not_none. intros X. apply C1 in X. tauto. } rewrite E3.
  destruct (is_final (o_state (fst m))) eqn:Ef; auto.
  assert (E4 : answered m k = None). { apply not_none. intros X. apply (C2 eq_refl) in X. tauto. } rewrite E4. auto.
Qed.

Lemma records_some lk (s : sequence S) ms k l : records ut lk s ms -> column_of ut k ms = l -> l <> [] ->
  dget s k = Some l.
Proof. intros [_ R] E N. rewrite R, E. destruct l; congruence. Qed.

Lemma removelast_proper (a : moment) mid b : removelast (a :: mid ++ [b]) = a :: mid.
Proof. change (a :: mid ++ [b]) with ((a :: mid) ++ [b]). rewrite removelast_app by discriminate. simpl. rewrite app_nil_r. auto. Qed.

Lemma somes_nonnil {A B} (f : A -> option B) l : l <> [] -> Forall (fun m => f m <> None) l -> somes f l <> [].
Proof. intros N F. destruct F as [|x r Hx F]; [congruence|]. simpl. destruct (f x); simpl; congruence. Qed.

Lemma proper_aligned lk (s : sequence S) ms :
  records ut lk s ms -> proper ms -> Forall (conforms sch) ms ->
  In lk (names ut sch) -> aligned ut sch s ms.
Proof.
  intros R (f0 & mid & la & -> & P1 & P2 & P3) C Hlk.
  assert (Clast : conforms sch la). { rewrite Forall_forall in C. apply C. right. apply in_or_app. simpl; auto. }
  assert (Cf : conforms sch f0). { inversion C; auto. }
  assert (Cm : Forall (conforms sch) mid). { inversion C as [|? ? _ C']; subst. apply Forall_app in C'. tauto. }
  unfold aligned. rewrite removelast_proper. cbn [tl].
  split; [|split; [|split; [|split]]].
  - intros k Ik.
    assert (E : column_of ut k (f0 :: mid ++ [la]) = somes (fun m => saw m k) (f0 :: mid ++ [la])).
    { change (column_of ut k ?l) with (somes (contribution ut k) l).
      apply somes_ext. eapply Forall_impl; [|exact C]. intros m Cm'. apply contrib_obs; auto. }
    assert (Fn : Forall (fun m : moment => saw m k <> None) (f0 :: mid ++ [la])).
    { eapply Forall_impl; [|exact C]. intros m (C1 & _). apply C1. auto. }
    exists (somes (fun m => saw m k) (f0 :: mid ++ [la])). split.
    + apply (records_some _ R E). apply somes_nonnil; [discriminate|auto].
    + apply somes_all. auto.
  - intros k Ik.
    assert (Cn : Forall (fun m => conforms sch m /\ is_final (o_state (fst m)) = false) (f0 :: mid)).
    { constructor; [split; auto; rewrite P1; auto|]. rewrite Forall_forall in *. intros m Im. split; auto. rewrite (P2 m Im). auto. }
    assert (E : column_of ut k (f0 :: mid ++ [la]) = somes (fun m => answered m k) (f0 :: mid)).
    { change (column_of ut k (f0 :: mid ++ [la])) with (somes (contribution ut k) ((f0 :: mid) ++ [la])).
      rewrite somes_app, (@somes_none _ _ (contribution ut k) [la]), app_nil_r.
      2:{ constructor; auto. rewrite (contrib_resp k Clast Ik), P3. auto. }
      apply somes_ext. eapply Forall_impl; [|exact Cn]. intros m [C1 C2]. rewrite (contrib_resp k C1 Ik), C2. auto. }
    assert (Fn : Forall (fun m : moment => answered m k <> None) (f0 :: mid)).
    { eapply Forall_impl; [|exact Cn]. intros m [(_ & C1 & _) C2]. apply C1; auto. }
    exists (somes (fun m => answered m k) (f0 :: mid)). split.
    + apply (records_some _ R E). apply somes_nonnil; [discriminate|auto].
    + apply somes_all. auto.
  - assert (Cn : Forall (fun m => conforms sch m /\ is_initial (o_state (fst m)) = false) (mid ++ [la])).
    { apply Forall_app. split.
      - rewrite Forall_forall in *. intros m Im. split; auto. rewrite (P2 m Im). auto.
      - constructor; [|constructor]. split; auto. destruct (o_state (fst la)); auto; discriminate. }
    assert (E : column_of ut "rewards" (f0 :: mid ++ [la]) = somes received (mid ++ [la])).
    { unfold column_of. cbn [flat_map]. rewrite (contrib_rewards Cf), P1. cbn [is_initial app].
      apply (@somes_ext _ _ (contribution ut "rewards")). eapply Forall_impl; [|exact Cn]. intros m [C1 C2]. rewrite (contrib_rewards C1), C2. auto. }
    assert (Fn : Forall (fun m : moment => received m <> None) (mid ++ [la])).
    { eapply Forall_impl; [|exact Cn]. intros m [(_ & _ & C1) C2]. auto. }
    exists (somes received (mid ++ [la])). split.
    + apply (records_some _ R E). apply somes_nonnil; [destruct mid; discriminate|auto].
    + apply somes_all. auto.
  - intros Hu. exists la. split; [right; apply in_or_app; simpl; auto|]. split; auto.
    eapply records_some; [exact R| |discriminate].
    change (f0 :: mid ++ [la]) with ((f0 :: mid) ++ [la]). unfold column_of.
    rewrite flat_map_app. cbn [flat_map]. rewrite (contrib_terminal Clast Hu), P3.
    change (flat_map (fun m => match contribution ut "terminal" m with Some v => [v] | None => [] end) mid)
      with (somes (contribution ut "terminal") mid).
    rewrite somes_none.
    + rewrite (contrib_terminal Cf Hu), P1. auto.
    + rewrite Forall_forall in *. intros m Im. rewrite (contrib_terminal (Cm m Im) Hu), (P2 m Im). auto.
  - intros k N. destruct (in_dec string_dec k (names ut sch)) as [I|I]; auto. exfalso. apply N.
    destruct R as [_ R]. rewrite R.
    replace (column_of ut k (f0 :: mid ++ [la])) with (@nil (list S)).
    + destruct (String.eqb_spec k lk); auto. subst. tauto.
    + symmetry. change (somes (contribution ut k) (f0 :: mid ++ [la]) = []). apply somes_none. eapply Forall_impl; [|exact C]. intros m Cm'. apply contrib_other; auto.
Qed.
End Names.

Lemma column_is_length (s : sequence S) k ms f : column_is s k ms f -> seq_len k s = zlen ms.
Proof.
  intros (rows & E & M). unfold seq_len. rewrite E. unfold zlen. apply (f_equal (@List.length _)) in M.
  rewrite !map_length in M. lia.
Qed.
Lemma column_is_nth (s : sequence S) k ms f rows i : column_is s k ms f -> dget s k = Some rows ->
  nth_error rows i = match nth_error ms i with Some m => f m | None => None end.
Proof.
  intros (rows' & E & M) E'. rewrite E in E'. inversion E'; subst. clear E E'.
  revert i ms M. induction rows as [|x r IH]; intros i [|m ms] M; try discriminate.
  - destruct i; auto.
  - simpl in M. inversion M. destruct i; simpl; auto.
Qed.

(** C28 *)
Lemma episodes_aligned pc (t0 : table S) h p sch : batches_ok h -> schema_ok (pc_terminal pc) sch ->
  In (t_lenkey t0) (names (pc_terminal pc) sch) ->
  prun pc (px_new t0) h = (p, Ok tt) ->
  exists ops, px_table p = run t0 ops /\
    forall a, Forall2 (fun s ms => proper ms -> Forall (conforms sch) ms -> aligned (pc_terminal pc) sch s ms)
                (added_by a (additions ops)) (filter (kept pc (t_lenkey t0)) (episodes [] (stream a h))).
Proof.
  intros B SO Hlk E. destruct (builder_new _ _ B E) as (ops & R & _ & F). exists ops. split; auto.
  intros a. destruct (F a) as [Fa _]. revert Fa. generalize (added_by a (additions ops)).
  generalize (filter (kept pc (t_lenkey t0)) (episodes [] (stream a h))).
  induction 1; constructor; auto. intros P C. eapply proper_aligned; eauto.
Qed.
End Align.
