(** * CallbackProofs (C50, C51, C52) *)
From Verif Require Import Py PyLemmas CallbackModel CallbackSpec.
Set Implicit Arguments.
Unset Strict Implicit.
Open Scope string_scope.
Open Scope list_scope.
Open Scope Z_scope.

Section P.
Context {A : Type}.
Notation kw := (kwargs A).
Notation val := (pv A).

Lemma NoDup_dset (d : kw) k v : NoDup (dkeys d) -> NoDup (dkeys (dset d k v)).
Proof. intros N. change (dset d k v) with (dupdate d [(k, v)]). apply NoDup_dupdate. auto. Qed.

(** [pick] *)
Lemma pick_gen names (m acc : kw) p :
  dget (fold_left (fun acc v => match dget m v with Some x => dset acc v x | None => acc end) names acc) p
  = if inb p names then either (dget m p) (dget acc p) else dget acc p.
Proof.
  revert acc. induction names as [|n r IH]; intros acc; auto. cbn [fold_left].
  rewrite IH. replace (inb p (n :: r)) with (keqb p n || inb p r) by reflexivity. destruct (keqb p n) eqn:E; cbn [orb].
  - apply keqb_eq in E. subst n. unfold either. destruct (dget m p) eqn:G; auto.
    + rewrite dget_dset_eq. destruct (inb p r); auto.
    + destruct (inb p r); auto.
  - assert (N : p <> n) by (intros ->; rewrite keqb_refl in E; discriminate).
    destruct (dget m n) eqn:G; auto. rewrite dget_dset_neq by auto. auto.
Qed.
Lemma dget_pick names (m : kw) p : dget (pick names m) p = if inb p names then dget m p else None.
Proof. unfold pick. rewrite pick_gen. unfold either. destruct (inb p names); auto. destruct (dget m p); auto. Qed.
Lemma NoDup_pick names (m : kw) : NoDup (dkeys (pick names m)).
Proof.
  unfold pick. assert (G : forall acc : kw, NoDup (dkeys acc) ->
    NoDup (dkeys (fold_left (fun acc v => match dget m v with Some x => dset acc v x | None => acc end) names acc))).
  { induction names as [|n r IH]; simpl; intros acc N; auto. apply IH. destruct (dget m n); auto. apply NoDup_dset; auto. }
  apply G. constructor.
Qed.

(** Renaming *)
Lemma dget_rename_all keys (st acc : kw) p :
  NoDup (dkeys keys) ->
  dget (rename_all keys st acc) p
  = match dget keys p with Some key => either (dget st key) (dget acc p) | None => dget acc p end.
Proof.
  revert acc. induction keys as [|[a k] r IH]; intros acc ND; auto. inversion ND as [|? ? NI ND']; subst.
  cbn [rename_all]. rewrite IH by auto. cbn [dget]. destruct (keqb p a) eqn:E.
  - apply keqb_eq in E. subst a.
    assert (G : dget r p = None).
    { destruct (dget r p) eqn:G; auto. destruct NI. apply dget_Some_key in G. auto. }
    rewrite G. destruct (dget st k); simpl; auto. apply dget_dset_eq.
  - assert (N : p <> a) by (intros ->; rewrite keqb_refl in E; discriminate).
    destruct (dget r p); destruct (dget st k); auto; rewrite dget_dset_neq by auto; auto.
Qed.
Lemma NoDup_rename_all keys (st acc : kw) : NoDup (dkeys acc) -> NoDup (dkeys (rename_all keys st acc)).
Proof.
  revert acc. induction keys as [|[a k] r IH]; simpl; intros acc N; auto. apply IH.
  destruct (dget st k); auto. apply NoDup_dset; auto.
Qed.

(** Removing the renamed parameters *)
Lemma remove_one_facts x l : In x l -> NoDup l ->
  exists l', remove_one x l = Ok l' /\ NoDup l' /\ forall p, In p l' <-> In p l /\ p <> x.
Proof.
  induction l as [|y r IH]; simpl; intros I ND; [tauto|]. inversion ND; subst.
  destruct (String.eqb_spec x y) as [->|N].
  - exists r. split; auto. split; auto. intros p. split.
    + intros J. split; auto. intros ->. tauto.
    + intros [[->|J] Np]; tauto.
  - destruct I as [->|I]; [tauto|]. destruct (IH I H2) as (l' & -> & ND' & E).
    exists (y :: l'). split; auto. split.
    + constructor; auto. intros J. apply E in J. tauto.
    + intros p. simpl. rewrite E. intuition congruence.
Qed.
Lemma remove_renamed_facts ks l : NoDup ks -> incl ks l -> NoDup l ->
  exists l', remove_renamed ks l = Ok l' /\ NoDup l' /\ forall p, In p l' <-> In p l /\ ~ In p ks.
Proof.
  revert l. induction ks as [|k r IH]; simpl; intros l NDk I ND.
  - exists l. split; auto. split; auto. intros p. tauto.
  - inversion NDk; subst. destruct (@remove_one_facts k l) as (l1 & -> & ND1 & E1); auto; [apply I; left; auto|].
    destruct (IH l1) as (l' & -> & ND' & E'); auto.
    + intros p J. apply E1. split; [apply I; right; auto|]. intros ->. tauto.
    + exists l'. split; auto. split; auto. intros p. rewrite E', E1. intuition congruence.
Qed.
Lemma remove_one_head x y l l' : x <> y -> remove_one x (y :: l) = Ok l' -> exists r, l' = y :: r.
Proof.
  simpl. intros N H. destruct (String.eqb_spec x y); [congruence|]. destruct (remove_one x l); [|discriminate].
  injection H as <-. eauto.
Qed.
Lemma remove_renamed_head ks y l l' : ~ In y ks -> remove_renamed ks (y :: l) = Ok l' -> exists r, l' = y :: r.
Proof.
  revert l. induction ks as [|k r IH]; intros l N H.
  - injection H as <-. eauto.
  - cbn [remove_renamed] in H. destruct (remove_one k (y :: l)) as [l1|] eqn:R; [|discriminate].
    simpl in N. destruct (@remove_one_head k y l l1) as [r1 ->]; auto. eapply IH; eauto.
Qed.

(** Binding *)
Lemma dget_combine_None {B} (l : list string) (pos : list B) p :
  dget (combine l pos) p = None \/ In p (firstn (List.length pos) l).
Proof.
  revert pos. induction l as [|x r IH]; intros [|y pos]; auto. cbn [combine dget List.length firstn].
  destruct (keqb p x) eqn:E; [apply keqb_eq in E; subst; right; left; auto|].
  destruct (IH pos); auto. right; right; auto.
Qed.
Lemma dkeys_combine {B} (l : list string) (pos : list B) : (List.length pos <= List.length l)%nat ->
  dkeys (combine l pos) = firstn (List.length pos) l.
Proof.
  revert pos. induction l as [|x r IH]; intros [|y pos] L; simpl in *; auto; try lia.
  unfold dkeys in *. simpl. rewrite IH by lia. auto.
Qed.
Lemma dget_app (a b : kw) p : dget (a ++ b) p = either (dget a p) (dget b p).
Proof.
  induction a as [|[k v] r IH]; auto. cbn [app dget]. destruct (keqb p k); auto.
Qed.
Lemma dmem_dget (a : kw) p : dmem a p = true <-> dget a p <> None.
Proof. unfold dmem. destruct (dget a p); split; congruence. Qed.
Lemma dkeys_dget (a : kw) p : In p (dkeys a) <-> dget a p <> None.
Proof. rewrite <- dmem_dget. symmetry. apply dmem_In. Qed.
Lemma NoDup_app_intro {B} (l1 l2 : list B) :
  NoDup l1 -> NoDup l2 -> (forall x, In x l1 -> ~ In x l2) -> NoDup (l1 ++ l2).
Proof.
  induction 1 as [|x r NI ND IH]; simpl; intros N2 D; auto. constructor.
  - rewrite in_app_iff. intros [J|J]; [tauto|]. apply (D x); auto.
  - apply IH; auto.
Qed.
Lemma NoDup_firstn {B} n (l : list B) : NoDup l -> NoDup (firstn n l).
Proof.
  intros N. rewrite <- (firstn_skipn n) in N. clear -N.
  induction (firstn n l) as [|x r IH]; constructor; simpl in N; inversion N; subst.
  - intros I. apply H1. apply in_or_app; auto.
  - auto.
Qed.

Lemma bind_ok f (pos : list val) (k : kw) (value : string -> option val) :
  method f -> (List.length pos <= List.length (fn_args f))%nat -> NoDup (dkeys k) ->
  (forall p, dget k p <> None -> In p (fn_params f) /\ positional f pos p = None) ->
  (forall p, In p (fn_params f) -> value p = either (positional f pos p) (dget k p)) ->
  (callable f value -> exists b, bind f pos k = Ok b /\ exactly f value b)
  /\ (~ callable f value -> bind f pos k = Err TypeError).
Proof.
  intros (Fv & ND & Rq & _ & _) L NDk K V.
  assert (NDp : NoDup (fn_params f)) by (inversion ND; auto).
  unfold bind. replace (List.length (fn_args f) <? List.length pos)%nat with false
    by (symmetry; apply Nat.ltb_ge; auto).
  replace (forallb (fun k0 => inb k0 (fn_params f)) (dkeys k)) with true.
  2: { symmetry. apply forallb_forall. intros p I. apply inb_In. apply K. apply dkeys_dget. auto. }
  replace (existsb (fun k0 => dmem (combine (fn_args f) pos) k0) (dkeys k)) with false.
  2: { symmetry. apply not_true_is_false. intros X. apply existsb_exists in X. destruct X as (p & I & M).
       apply dkeys_dget in I. destruct (K _ I) as [_ Z]. unfold positional in Z. unfold dmem in M. rewrite Z in M. discriminate. }
  cbn [negb].
  assert (VV : forall p, In p (fn_params f) ->
     (dmem (combine (fn_args f) pos) p || dmem k p) = true <-> value p <> None).
  { intros p I. rewrite (V _ I), orb_true_iff, !dmem_dget. unfold positional, either.
    destruct (dget (combine (fn_args f) pos) p); destruct (dget k p); intuition congruence. }
  destruct (forallb (fun k0 => dmem (combine (fn_args f) pos) k0 || dmem k k0) (fn_required f)) eqn:Fb; cbn [negb].
  - rewrite forallb_forall in Fb. split.
    + intros _. eexists. split; [reflexivity|]. split.
      * unfold dkeys. rewrite map_app. change (NoDup (dkeys (combine (fn_args f) pos) ++ dkeys k)).
        rewrite dkeys_combine by auto. apply NoDup_app_intro; auto.
        -- apply NoDup_firstn. unfold fn_params in NDp. apply (NoDup_firstn (List.length (fn_args f))) in NDp.
           rewrite firstn_app, firstn_all, Nat.sub_diag, firstn_O, app_nil_r in NDp. auto.
        -- intros p I J. apply dkeys_dget in J. destruct (K _ J) as [_ Z].
           rewrite <- dkeys_combine in I by auto. apply dkeys_dget in I. tauto.
      * intros p. rewrite dget_app. destruct (inb p (fn_params f)) eqn:Ip.
        -- apply inb_In in Ip. rewrite (V _ Ip). auto.
        -- apply inb_false in Ip. unfold either.
           destruct (dget (combine (fn_args f) pos) p) eqn:G.
           ++ exfalso. apply Ip. unfold fn_params. apply in_or_app. left.
              apply dget_Some_key in G. rewrite dkeys_combine in G by auto.
              rewrite <- (firstn_skipn (List.length pos)). apply in_or_app. auto.
           ++ destruct (dget k p) eqn:G2; auto. destruct Ip. apply (K p). congruence.
    + intros N. exfalso. apply N. intros p I. apply VV; auto.
  - split; auto. intros C. exfalso.
    assert (Fb' : forallb (fun k0 => dmem (combine (fn_args f) pos) k0 || dmem k k0) (fn_required f) = true).
    { apply forallb_forall. intros p I. apply VV; auto. }
    congruence.
Qed.

(** The names looked up, for at most one positional argument. *)
Lemma names_facts (f : func A) (pos : list val) :
  method f -> (List.length pos <= 1)%nat ->
  exists arg_names, remove_renamed (dkeys (fn_keys f)) ("self" :: fn_params f) = Ok arg_names
  /\ forall p, p <> "self" ->
       inb p (skipn (List.length pos) arg_names)
       = inb p (fn_params f) && negb (inb p (dkeys (fn_keys f))).
Proof.
  intros (_ & ND & _ & NDk & Ik) L.
  destruct (@remove_renamed_facts (dkeys (fn_keys f)) ("self" :: fn_params f)) as (l & E & NDl & M); auto.
  { intros p I. right. auto. }
  exists l. split; auto.
  assert (Ns : ~ In "self" (dkeys (fn_keys f))).
  { intros I. inversion ND; subst. auto. }
  destruct (remove_renamed_head Ns E) as [r ->].
  assert (R : forall p, p <> "self" -> inb p ("self" :: r) = inb p (fn_params f) && negb (inb p (dkeys (fn_keys f)))).
  { intros p Np. specialize (M p). destruct (inb p ("self" :: r)) eqn:I1.
    - apply inb_In in I1. apply M in I1. destruct I1 as [[I1|I1] I2]; [congruence|].
      symmetry. apply andb_true_intro. split; [apply inb_In; auto|]. apply negb_true_iff. apply inb_false. auto.
    - apply inb_false in I1. symmetry. apply not_true_is_false. intros X. apply andb_prop in X.
      destruct X as [X1 X2]. apply inb_In in X1. apply negb_true_iff in X2. apply inb_false in X2.
      apply I1. apply M. split; [right; auto|auto]. }
  intros p Np. destruct pos as [|v [|]]; cbn [List.length skipn] in *; try lia; auto.
  rewrite <- R by auto. cbn [inb]. destruct (keqb p "self") eqn:E2; auto.
  apply keqb_eq in E2. congruence.
Qed.

Lemma dget_keys_In (f : func A) p : (exists key, dget (fn_keys f) p = Some key) <-> In p (dkeys (fn_keys f)).
Proof.
  split.
  - intros [key G]. eapply dget_Some_key; eauto.
  - intros I. apply dmem_In in I. unfold dmem in I. destruct (dget (fn_keys f) p); [eauto|discriminate].
Qed.

Lemma exactly_none f value : fn_params f = [] -> exactly f value ([] : kw).
Proof. intros E. split; [constructor|]. intros p. rewrite E. auto. Qed.
Lemma wrap_nil f g : method f -> fn_params f = [] -> @wrap A f g = Ok (fun _ st => (st, fn_body f [])).
Proof.
  intros (Fv & _ & Rq & _) E. unfold wrap. rewrite Fv, E. unfold call, bind. rewrite E in Rq. unfold fn_params in E.
  apply app_eq_nil in E. destruct E as [E1 E2]. rewrite E1. simpl.
  destruct (fn_required f) as [|q r]; [auto|]. destruct (Rq q). left; auto.
Qed.

(** Without a group *)
Lemma no_group_args f (h : hook A) pos st :
  method f -> wrap f None = Ok h -> fits f pos -> ~ In "self" (dkeys st) ->
  (forall p, positional f pos p <> None -> dget st (source f p) = None) ->
  let value := fun p => either (positional f pos p) (dget st (source f p)) in
  (callable f value -> exists b, exactly f value b /\ h pos st = (st, fn_body f b))
  /\ (~ callable f value -> h pos st = (st, Err TypeError)).
Proof.
  intros Me W [L1 L2] Ns Cf value. pose proof Me as (Fv & ND & Rq & NDk & Ik).
  destruct (fn_params f) as [|p0 ps] eqn:Ep.
  { rewrite (wrap_nil None Me Ep) in W. injection W as <-. split.
    - intros _. exists []. split; auto. apply exactly_none. auto.
    - intros N. exfalso. apply N. intros p I. apply Rq in I. destruct I. }
  destruct L2 as [L2|]; [|congruence]. rewrite <- Ep in *.
  assert (NDs : ~ In "self" (fn_params f)) by (inversion ND; auto).
  destruct (@names_facts f pos Me L1) as (names & R & In_names).
  unfold wrap in W. rewrite Fv, Ep in W. rewrite <- Ep in W. rewrite R in W. injection W as <-.
  unfold no_group. set (k := rename_all (fn_keys f) st (pick (skipn (List.length pos) names) st)).
  assert (Dk : forall p, dget k p = if inb p (fn_params f) then dget st (source f p) else None).
  { intros p. unfold k. rewrite dget_rename_all by auto. rewrite dget_pick. unfold source.
    destruct (dget (fn_keys f) p) as [key|] eqn:G.
    - assert (Ip : In p (dkeys (fn_keys f))) by (apply dget_keys_In; eauto).
      assert (Ip' : inb p (fn_params f) = true) by (apply inb_In; auto). rewrite Ip'.
      rewrite In_names by (intros ->; auto). apply inb_In in Ip. rewrite Ip, andb_false_r. unfold either.
      destruct (dget st key); auto.
    - assert (Ip : ~ In p (dkeys (fn_keys f))) by (rewrite <- dget_keys_In; intros [? ?]; congruence).
      destruct (string_dec p "self") as [->|Np].
      + assert (S0 : dget st "self" = None).
        { destruct (dget st "self") eqn:E; auto. destruct Ns. eapply dget_Some_key; eauto. }
        rewrite S0. destruct (inb "self" _); destruct (inb "self" _); auto.
      + rewrite In_names by auto. apply inb_false in Ip. rewrite Ip, andb_true_r. auto. }
  destruct (@bind_ok f pos k value Me L2) as [B1 B2].
  - apply NoDup_rename_all. apply NoDup_pick.
  - intros p X. rewrite Dk in X. destruct (inb p (fn_params f)) eqn:Ip; [|congruence].
    apply inb_In in Ip. split; auto. destruct (positional f pos p) eqn:G; auto.
    exfalso. apply X. apply Cf. congruence.
  - intros p Ip. apply inb_In in Ip. rewrite Dk, Ip. auto.
  - unfold call. split.
    + intros C. destruct (B1 C) as (b & -> & Ex). eauto.
    + intros C. rewrite (B2 C). auto.
Qed.

(** With a group *)
Lemma rename_group_ok keys (g st inner outer : kw) :
  NoDup (dkeys keys) ->
  (forall p key, dget keys p = Some key -> dget g key <> None -> dget st key <> None) ->
  NoDup (dkeys inner) -> NoDup (dkeys outer) ->
  exists inner' outer', rename_group keys g st inner outer = Ok (inner', outer')
  /\ NoDup (dkeys inner') /\ NoDup (dkeys outer')
  /\ forall p, (dget keys p = None -> dget inner' p = dget inner p /\ dget outer' p = dget outer p)
          /\ (forall key, dget keys p = Some key -> dget inner p = None -> dget outer p = None ->
                either (dget outer' p) (dget inner' p) = dget st key).
Proof.
  revert inner outer. induction keys as [|[a k] r IH]; intros inner outer ND Ex NDi NDo.
  - exists inner, outer. simpl. repeat split; auto. discriminate.
  - inversion ND as [|? ? NI ND']; subst. simpl in NI.
    assert (Na : dget r a = None).
    { destruct (dget r a) eqn:G; auto. destruct NI. apply dget_Some_key in G. auto. }
    assert (Ex' : forall p key, dget r p = Some key -> dget g key <> None -> dget st key <> None).
    { intros p key G. apply (Ex p). cbn [dget]. destruct (keqb p a) eqn:E; auto. apply keqb_eq in E. subst. congruence. }
    assert (Exa : dget g k <> None -> dget st k <> None).
    { apply (Ex a). cbn [dget]. rewrite keqb_refl. auto. }
    cbn [rename_group]. unfold dmem. destruct (dget g k) as [gv|] eqn:G.
    + destruct (dget st k) as [x|] eqn:Gs; [|destruct Exa; auto; congruence].
      destruct (IH (dset inner a x) outer ND' Ex') as (i' & o' & E & N1 & N2 & F); auto; [apply NoDup_dset; auto|].
      exists i', o'. split; auto. split; auto. split; auto. intros p. destruct (F p) as [F1 F2].
      cbn [dget]. destruct (keqb p a) eqn:Ea.
      * apply keqb_eq in Ea. subst a. split; [discriminate|]. intros key Ek Ni No. injection Ek as <-.
        destruct (F1 Na) as [E1 E2]. rewrite E1, E2, No, dget_dset_eq. simpl. auto.
      * assert (Np : p <> a) by (intros ->; rewrite keqb_refl in Ea; discriminate).
        rewrite dget_dset_neq in F1, F2 by auto. auto.
    + destruct (dget st k) as [x|] eqn:Gs.
      * destruct (IH inner (dset outer a x) ND' Ex') as (i' & o' & E & N1 & N2 & F); auto; [apply NoDup_dset; auto|].
        exists i', o'. split; auto. split; auto. split; auto. intros p. destruct (F p) as [F1 F2].
        cbn [dget]. destruct (keqb p a) eqn:Ea.
        -- apply keqb_eq in Ea. subst a. split; [discriminate|]. intros key Ek Ni No. injection Ek as <-.
           destruct (F1 Na) as [E1 E2]. rewrite E1, E2, dget_dset_eq. auto.
        -- assert (Np : p <> a) by (intros ->; rewrite keqb_refl in Ea; discriminate).
           rewrite dget_dset_neq in F1, F2 by auto. auto.
      * destruct (IH inner outer ND' Ex') as (i' & o' & E & N1 & N2 & F); auto.
        exists i', o'. split; auto. split; auto. split; auto. intros p. destruct (F p) as [F1 F2].
        cbn [dget]. destruct (keqb p a) eqn:Ea; auto.
        apply keqb_eq in Ea. subst a. split; [discriminate|]. intros key Ek Ni No. injection Ek as <-.
        destruct (F1 Na) as [E1 E2]. rewrite E1, E2, Ni, No. auto.
Qed.
Lemma rename_group_err keys (g st inner outer : kw) p key :
  dget keys p = Some key -> dget g key <> None -> dget st key = None ->
  rename_group keys g st inner outer = Err KeyError.
Proof.
  revert inner outer. induction keys as [|[a k] r IH]; intros inner outer G1 G2 G3; [discriminate|].
  cbn [rename_group]. cbn [dget] in G1. destruct (keqb p a) eqn:Ea.
  - injection G1 as ->. unfold dmem. destruct (dget g key); [|congruence]. rewrite G3. auto.
  - destruct (dmem g k); eauto. destruct (dget st k); eauto.
Qed.

(** What happens to what the method returns. *)
Definition delivered (group : string) (g st : kw) (r : res val) : kw * res val :=
  match r with
  | Ok (PDict d) =>
      match dget d group with
      | None => (st, r)
      | Some (PAtom _) => (st, Err TypeError)
      | Some (PDict u) => (dset st group (PDict (dupdate g u)), Ok (PDict (ddel d group)))
      end
  | _ => (st, r)
  end.

Lemma group_args f group (h : hook A) pos st g :
  method f -> fn_params f <> [] -> wrap f (Some group) = Ok h -> fits f pos ->
  dget st group = Some (PDict g) -> ~ In "self" (dkeys st) -> ~ In "self" (dkeys g) ->
  (forall p key, dget (fn_keys f) p = Some key -> dget g key <> None -> dget st key <> None) ->
  (forall p, positional f pos p <> None -> gvalue f g st p = None) ->
  let value := fun p => either (positional f pos p) (gvalue f g st p) in
  (callable f value -> exists b, exactly f value b /\ h pos st = delivered group g st (fn_body f b))
  /\ (~ callable f value -> h pos st = (st, Err TypeError)).
Proof.
  intros Me Ne W [L1 [L2|]] Gg Ns Ng Ex Cf value; [|congruence]. pose proof Me as (Fv & ND & Rq & NDk & Ik).
  assert (NDs : ~ In "self" (fn_params f)) by (inversion ND; auto).
  destruct (@names_facts f pos Me L1) as (names & R & In_names).
  unfold wrap in W. rewrite Fv in W. destruct (fn_params f) as [|p0 ps] eqn:Ep; [congruence|]. rewrite <- Ep in *.
  rewrite R in W. injection W as <-.
  unfold group_unpack. rewrite Gg.
  set (nm := skipn (List.length pos) names) in *.
  set (inner := pick nm g). set (outer := pick (filter (fun v => negb (dmem g v)) nm) st).
  destruct (@rename_group_ok (fn_keys f) g st inner outer NDk Ex (NoDup_pick _ _) (NoDup_pick _ _))
    as (i' & o' & -> & N1 & N2 & F).
  assert (S1 : dget st "self" = None).
  { destruct (dget st "self") eqn:E; auto. destruct Ns. eapply dget_Some_key; eauto. }
  assert (S2 : dget g "self" = None).
  { destruct (dget g "self") eqn:E; auto. destruct Ng. eapply dget_Some_key; eauto. }
  assert (Io : forall p, inb p (filter (fun v => negb (dmem g v)) nm) = inb p nm && negb (dmem g p)).
  { intros p. destruct (inb p (filter (fun v => negb (dmem g v)) nm)) eqn:I.
    - apply inb_In in I. apply filter_In in I. destruct I as [I1 I2]. apply inb_In in I1. rewrite I1, I2. auto.
    - apply inb_false in I. rewrite filter_In in I. symmetry. apply not_true_is_false. intros X. apply I.
      apply andb_prop in X. rewrite inb_In in X. auto. }
  assert (Dk : forall p, dget (dupdate i' o') p = if inb p (fn_params f) then gvalue f g st p else None).
  { intros p. rewrite dget_dupdate by auto. destruct (F p) as [F1 F2]. unfold gvalue.
    destruct (dget (fn_keys f) p) as [key|] eqn:G.
    - assert (Ip : In p (dkeys (fn_keys f))) by (apply dget_keys_In; eauto).
      assert (Ip' : inb p (fn_params f) = true) by (apply inb_In; auto). rewrite Ip'.
      assert (Nn : inb p nm = false).
      { rewrite In_names by (intros ->; auto). apply inb_In in Ip. rewrite Ip, andb_false_r. auto. }
      rewrite <- (F2 key eq_refl).
      + unfold either. destruct (dget o' p); auto.
      + unfold inner. rewrite dget_pick, Nn. auto.
      + unfold outer. rewrite dget_pick, Io, Nn. auto.
    - destruct (F1 eq_refl) as [-> ->]. unfold inner, outer. rewrite !dget_pick, Io.
      assert (Ip : ~ In p (dkeys (fn_keys f))) by (rewrite <- dget_keys_In; intros [? ?]; congruence).
      destruct (string_dec p "self") as [->|Np].
      + rewrite S1, S2. destruct (inb "self" nm); destruct (inb "self" _); destruct (negb _); auto.
      + rewrite In_names by auto. apply inb_false in Ip. rewrite Ip, andb_true_r. unfold either, dmem.
        destruct (inb p (fn_params f)); cbn [andb]; auto.
        destruct (dget g p); cbn [negb]; auto. destruct (dget st p); auto. }
  destruct (@bind_ok f pos (dupdate i' o') value Me L2) as [B1 B2].
  - apply NoDup_dupdate. auto.
  - intros p X. rewrite Dk in X. destruct (inb p (fn_params f)) eqn:Ip; [|congruence].
    apply inb_In in Ip. split; auto. destruct (positional f pos p) eqn:G; auto.
    exfalso. apply X. apply Cf. congruence.
  - intros p Ip. apply inb_In in Ip. rewrite Dk, Ip. auto.
  - unfold call. split.
    + intros C. destruct (B1 C) as (b & -> & Exb). exists b. split; auto. unfold delivered.
      destruct (fn_body f b) as [[a|d]|e]; auto.
    + intros C. rewrite (B2 C). auto.
Qed.

(** Mappings are mappings: no key twice, also inside. *)
Lemma delivered_routed group (g st : kw) (r : res val) :
  NoDup (dkeys g) ->
  (forall d u, r = Ok (PDict d) -> dget d group = Some (PDict u) -> NoDup (dkeys d) /\ NoDup (dkeys u)) ->
  routed group g st r (delivered group g st r).
Proof.
  intros Ng Nu. unfold delivered, routed. destruct r as [[a|d]|e]; auto. destruct (dget d group) as [[a|u]|] eqn:G; auto.
  destruct (Nu d u eq_refl G) as [Nd Nu']. cbn [fst snd]. split; [|split].
  - exists (dupdate g u). split; [apply dget_dset_eq|]. intros k. rewrite dget_dupdate by auto.
    unfold either. destruct (dget u k); auto.
  - intros k Nk. apply dget_dset_neq. auto.
  - exists (ddel d group). split; auto. split.
    + apply dget_ddel_eq. auto.
    + intros k Nk. apply dget_ddel_neq. auto.
Qed.

Lemma group_missing f group (h : hook A) pos st :
  method f -> fn_params f <> [] -> wrap f (Some group) = Ok h ->
  dget st group = None -> h pos st = (st, Err KeyError).
Proof.
  intros Me Ne W G. pose proof Me as (Fv & _).
  unfold wrap in W. rewrite Fv in W. destruct (fn_params f) as [|p0 ps] eqn:Ep; [congruence|].
  destruct (remove_renamed _ _); [|discriminate]. injection W as <-. unfold group_unpack. rewrite G. auto.
Qed.
Lemma renamed_missing f group (h : hook A) pos st g p key :
  method f -> wrap f (Some group) = Ok h -> dget st group = Some (PDict g) ->
  dget (fn_keys f) p = Some key -> dget g key <> None -> dget st key = None ->
  h pos st = (st, Err KeyError).
Proof.
  intros Me W G K1 K2 K3. pose proof Me as (Fv & _ & _ & _ & Ik).
  unfold wrap in W. rewrite Fv in W. destruct (fn_params f) as [|p0 ps] eqn:Ep.
  - destruct (Ik p). apply dget_keys_In. eauto.
  - destruct (remove_renamed _ _); [|discriminate]. injection W as <-. unfold group_unpack. rewrite G.
    rewrite (rename_group_err _ _ K1 K2 K3). auto.
Qed.
Lemma wrap_ok f g : method f -> exists h, @wrap A f g = Ok h.
Proof.
  intros Me. pose proof Me as (Fv & ND & _ & NDk & Ik). unfold wrap. rewrite Fv.
  destruct (fn_params f) as [|p0 ps] eqn:Ep; eauto. rewrite <- Ep in *.
  destruct (@remove_renamed_facts (dkeys (fn_keys f)) ("self" :: fn_params f)) as (l & -> & _); auto.
  { intros p I. right. auto. }
  destruct g; eauto.
Qed.

Lemma group_hook f group (h : hook A) pos st g :
  method f -> returns_mappings f group -> fn_params f <> [] -> wrap f (Some group) = Ok h -> fits f pos ->
  group_state st group g ->
  (forall p key, dget (fn_keys f) p = Some key -> dget g key <> None -> dget st key <> None) ->
  (forall p, positional f pos p <> None -> gvalue f g st p = None) ->
  let value := fun p => either (positional f pos p) (gvalue f g st p) in
  (callable f value -> exists b, exactly f value b /\ routed group g st (fn_body f b) (h pos st))
  /\ (~ callable f value -> h pos st = (st, Err TypeError)).
Proof.
  intros Me Rm Ne W Fi (G & Ng & S1 & S2) Ex Cf value. destruct (group_args Me Ne W Fi G S1 S2 Ex Cf) as [B1 B2].
  split; auto. intros C. destruct (B1 C) as (b & E & ->). exists b. split; auto. apply delivered_routed; eauto.
Qed.
Lemma group_call f group (h : hook A) pos st g :
  method f -> returns_mappings f group -> fn_params f <> [] -> wrap f (Some group) = Ok h -> fits f pos ->
  group_state st group g ->
  (forall p key, dget (fn_keys f) p = Some key -> dget g key <> None -> dget st key <> None) ->
  (forall p, positional f pos p <> None -> gvalue f g st p = None) ->
  callable f (fun p => either (positional f pos p) (gvalue f g st p)) ->
  exists b, exactly f (fun p => either (positional f pos p) (gvalue f g st p)) b
    /\ routed group g st (fn_body f b) (h pos st).
Proof.
  intros Me Rm Ne W Fi Gs Ex Cf C. destruct (group_hook Me Rm Ne W Fi Gs Ex Cf) as [B1 _].
  auto.
Qed.
Lemma params_of_keys (f : func A) p key : method f -> dget (fn_keys f) p = Some key -> In p (fn_params f).
Proof. intros (_ & _ & _ & _ & I) G. apply I. apply dget_keys_In. eauto. Qed.
Lemma renamed_both f group (h : hook A) pos st g p key :
  method f -> returns_mappings f group -> wrap f (Some group) = Ok h -> fits f pos ->
  group_state st group g ->
  (forall p, positional f pos p <> None -> gvalue f g st p = None) ->
  callable f (fun p => either (positional f pos p) (gvalue f g st p)) ->
  (forall p key, dget (fn_keys f) p = Some key -> dget g key <> None -> dget st key <> None) ->
  dget (fn_keys f) p = Some key -> positional f pos p = None ->
  exists b, routed group g st (fn_body f b) (h pos st) /\ dget b p = dget st key.
Proof.
  intros Me Rm W Fi Gs Cf C Ex K Po. pose proof (params_of_keys Me K) as I.
  assert (Ne : fn_params f <> []) by (intros E; rewrite E in I; destruct I).
  destruct (group_hook Me Rm Ne W Fi Gs Ex Cf) as [B1 _].
  destruct (B1 C) as (b & [_ E] & R). exists b. split; auto. rewrite E.
  apply inb_In in I. rewrite I, Po. unfold gvalue. rewrite K. auto.
Qed.
Lemma renamed_not_in_group f group (h : hook A) pos st g p key :
  method f -> returns_mappings f group -> wrap f (Some group) = Ok h -> fits f pos ->
  group_state st group g ->
  (forall p, positional f pos p <> None -> gvalue f g st p = None) ->
  callable f (fun p => either (positional f pos p) (gvalue f g st p)) ->
  (forall p key, dget (fn_keys f) p = Some key -> dget g key = None) ->
  dget (fn_keys f) p = Some key -> positional f pos p = None ->
  exists b, routed group g st (fn_body f b) (h pos st) /\ dget b p = either (dget g key) (dget st key).
Proof.
  intros Me Rm W Fi Gs Cf C Ex K Po. rewrite (Ex _ _ K). eapply renamed_both; eauto.
Qed.
Lemma renamed_without_group f (h : hook A) pos st :
  method f -> wrap f None = Ok h -> fits f pos -> ~ In "self" (dkeys st) ->
  (forall p, positional f pos p <> None -> dget st (source f p) = None) ->
  callable f (fun p => either (positional f pos p) (dget st (source f p))) ->
  exists b, snd (h pos st) = fn_body f b
    /\ forall p key, dget (fn_keys f) p = Some key -> positional f pos p = None -> dget b p = dget st key.
Proof.
  intros Me W Fi S1 Cf C. destruct (no_group_args Me W Fi S1 Cf) as [B1 _].
  destruct (B1 C) as (b & [_ E] & ->). exists b. split; auto. intros p key K Po. rewrite E.
  pose proof (params_of_keys Me K) as I. apply inb_In in I. rewrite I, Po. unfold source. rewrite K. auto.
Qed.
End P.

(** For the concrete cases: a value is a number; the method returns what it was
    given. *)
Definition n_ (z : Z) : pv Z := PAtom z.
Definition echo (args kwonly required : list string) (keys : dict string string) : func Z :=
  mkFunc args kwonly required false keys (fun b => Ok (PDict b)).
Definition run (f : func Z) (g : option string) (pos : list (pv Z)) (st : kwargs Z) : kwargs Z * res (pv Z) :=
  match wrap f g with Ok h => h pos st | Err e => (st, Err e) end.


Lemma clash_example :
  method (echo ["exc"] [] ["exc"] [])
  /\ run (echo ["exc"] [] ["exc"] []) None [n_ 1] [("exc", n_ 2)] = ([("exc", n_ 2)], Err TypeError)
  /\ run (echo ["exc"] [] ["exc"] []) None [n_ 1] [("other", n_ 2)]
     = ([("other", n_ 2)], Ok (PDict [("exc", n_ 1)])).
Proof.
  split; [|split; vm_compute; reflexivity].
  split; [reflexivity|]. split; [|split; [|split]].
  - cbn. repeat constructor; simpl; intuition discriminate.
  - intros p; cbn. tauto.
  - constructor.
  - intros p; cbn. tauto.
Qed.
Lemma no_parameters_example :
  let f := mkFunc [] [] [] false [] (fun _ => Ok (PDict [("default", PDict [("loss", n_ 1)])])) in
  let st := [("default", PDict [("batch_size", n_ 8)])] in
  method f /\ run f (Some "default") [] st = (st, Ok (PDict [("default", PDict [("loss", n_ 1)])])).
Proof.
  split; [|vm_compute; reflexivity].
  split; [reflexivity|]. split; [|split; [|split]].
  - cbn. repeat constructor; simpl; tauto.
  - intros p; cbn. tauto.
  - constructor.
  - intros p; cbn. tauto.
Qed.
