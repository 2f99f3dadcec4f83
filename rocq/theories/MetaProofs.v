(** * MetaProofs *)
From Verif Require Import Py PyLemmas CallbackModel LogProofs RepRun MetaModel MetaSpec.
Set Implicit Arguments.
Open Scope string_scope.
Open Scope list_scope.
Open Scope Z_scope.

(** A stronger induction for the tree of classes. *)
Lemma cls_ind2 (P : cls -> Prop) : (forall m n bs fs, Forall P bs -> P (mkCls m n bs fs)) -> forall c, P c.
Proof.
  intros H. fix IH 1. intros [m n bs fs]. apply H. induction bs as [|b r IHr]; constructor; auto.
Qed.

Lemma own_hooks_spec fields h f : NoDup (map fst fields) ->
  (dget (own_hooks fields) h = Some f <-> dget fields h = Some f /\ fd_function f = true /\ In h hook_names).
Proof.
  intros N. assert (N' : NoDup (map fst (own_hooks fields))).
  { unfold own_hooks. clear - N. induction fields as [|[k v] r IH]; cbn [filter]; [constructor|].
    inversion N; subst. destruct (fd_function _ && _)%bool; cbn [map]; auto. constructor; auto.
    intros I. apply H1. apply in_map_iff in I. destruct I as (x & E & I). apply filter_In in I. apply in_map_iff. exists x. tauto. }
  split.
  - intros G. apply dget_In in G. unfold own_hooks in G. apply filter_In in G. cbn [fst snd] in G. destruct G as [I B].
    apply andb_prop in B. destruct B as [B1 B2]. apply inb_In in B2. split; [apply In_dget; auto|auto].
  - intros (G & B & I). apply In_dget; auto. apply filter_In. split; [apply dget_In; auto|]. cbn [fst snd]. rewrite B.
    apply inb_In in I. rewrite I. auto.
Qed.

Lemma add_marked_spec fields : NoDup (map fst fields) -> forall acc h,
  dget (add_marked fields acc) h
  = match dget fields h with Some f => if fd_marked f then Some f else dget acc h | None => dget acc h end.
Proof.
  unfold add_marked. induction fields as [|[k v] r IH]; intros N acc h; [reflexivity|].
  inversion N; subst. cbn [fold_left fst snd]. rewrite IH by auto. cbn [dget].
  destruct (keqb_spec h k) as [->|Nk].
  - assert (E : dget r k = None).
    { apply dget_None. auto. }
    rewrite E. destruct (fd_marked v); auto. apply dget_dset_eq.
  - destruct (dget r h) as [f|]; [destruct (fd_marked f); auto|]; destruct (fd_marked v); auto; apply dget_dset_neq; auto.
Qed.

Lemma dget_update (d e : dict string field) k : NoDup (map fst e) ->
  dget (dupdate d e) k = match dget e k with Some v => Some v | None => dget d k end.
Proof.
  intros N. destruct (dget e k) as [v|] eqn:E.
  - apply RepRun.dget_dupdate_all; [apply dget_In; auto|]. intros v' I. apply In_dget in I; auto. congruence.
  - apply RepRun.dget_dupdate_out. apply dget_None in E. auto.
Qed.
Lemma NoDup_marked fields : forall acc, NoDup (map fst acc) -> NoDup (map fst (add_marked fields acc)).
Proof.
  unfold add_marked. induction fields as [|[k v] r IH]; intros acc N; auto. cbn [fold_left fst snd]. apply IH.
  destruct (fd_marked v); auto. apply NoDup_dset. auto.
Qed.
Lemma NoDup_own fields : NoDup (map fst fields) -> NoDup (map fst (own_hooks fields)).
Proof.
  unfold own_hooks. induction fields as [|[k v] r IH]; cbn [filter]; intros N; [constructor|].
  inversion N; subst. destruct (fd_function _ && _)%bool; cbn [map]; auto. constructor; auto.
  intros I. apply H1. apply in_map_iff in I. destruct I as (x & E & I). apply filter_In in I. apply in_map_iff. exists x. tauto.
Qed.
Lemma NoDup_fold bs : Forall (fun b => NoDup (map fst (callbacks b))) bs -> forall acc : dict string field, NoDup (map fst acc) ->
  NoDup (map fst (fold_left (fun acc b => dupdate acc (callbacks b)) bs acc)).
Proof. induction 1; intros acc N; auto. cbn [fold_left]. apply IHForall. apply NoDup_dupdate. auto. Qed.

Lemma in_bases c b : In b (cl_bases c) -> incl (ancestry b) (ancestry c).
Proof. destruct c as [m n bs fs]. cbn. intros I x J. right. apply in_flat_map. eauto. Qed.
Lemma in_self c : In c (ancestry c).
Proof. destruct c. left. auto. Qed.

Lemma NoDup_callbacks c : (forall x, In x (ancestry c) -> NoDup (map fst (cl_fields x))) -> NoDup (map fst (callbacks c)).
Proof.
  induction c as [m n bs fs IH] using cls_ind2. intros H. destruct m; [|constructor]. cbn [callbacks].
  apply NoDup_marked. destruct (n =? "Callback")%string.
  - apply NoDup_own. apply (H (mkCls true n bs fs)). apply in_self.
  - apply NoDup_fold; [|constructor]. rewrite Forall_forall in IH |- *. intros b I. apply IH; auto.
    intros x J. apply H. apply (@in_bases (mkCls true n bs fs) b); auto.
Qed.

(** Where an entry comes from. *)
Definition source (h : string) (f : field) (x : cls) : Prop :=
  dget (cl_fields x) h = Some f /\ (fd_marked f = true \/ cl_name x = "Callback" /\ In h hook_names).
Lemma fold_source (bs : list cls) h f : (forall b, In b bs -> NoDup (map fst (callbacks b))) -> forall acc,
  dget (fold_left (fun acc b => dupdate acc (callbacks b)) bs acc) h = Some f ->
  dget acc h = Some f \/ exists b, In b bs /\ dget (callbacks b) h = Some f.
Proof.
  induction bs as [|b r IH]; intros N acc G; auto. cbn [fold_left] in G. apply IH in G; [|intros; apply N; right; auto].
  destruct G as [G|(b' & I & G)].
  - rewrite dget_update in G by (apply N; left; auto). destruct (dget (callbacks b) h) as [v|] eqn:E; auto.
    right. exists b. split; [left; auto|]. congruence.
  - right. exists b'. split; [right|]; auto.
Qed.
Lemma callbacks_source c h f : (forall x, In x (ancestry c) -> NoDup (map fst (cl_fields x))) ->
  dget (callbacks c) h = Some f -> exists x, In x (ancestry c) /\ source h f x.
Proof.
  revert h f. induction c as [m n bs fs IH] using cls_ind2. intros h f H G. destruct m; [|discriminate G].
  cbn [callbacks] in G. rewrite add_marked_spec in G by (apply (H (mkCls true n bs fs)); apply in_self).
  assert (Here : forall g, dget fs h = Some g -> fd_marked g = true -> exists x, In x (ancestry (mkCls true n bs fs)) /\ source h g x).
  { intros g D M. exists (mkCls true n bs fs). split; [apply in_self|]. split; auto. }
  assert (K : dget (if (n =? "Callback")%string then own_hooks fs else fold_left (fun acc b => dupdate acc (callbacks b)) bs []) h = Some f ->
    exists x, In x (ancestry (mkCls true n bs fs)) /\ source h f x).
  { destruct (String.eqb_spec n "Callback") as [E|E]; intros K.
    - apply own_hooks_spec in K; [|apply (H (mkCls true n bs fs)); apply in_self]. destruct K as (K1 & K2 & K3).
      exists (mkCls true n bs fs). split; [apply in_self|]. split; auto.
    - apply fold_source in K.
      + destruct K as [K|(b & I & K)]; [discriminate|]. rewrite Forall_forall in IH.
        destruct (IH b I h f) as (x & Ix & Sx); auto.
        { intros x Ix. apply H. apply (@in_bases (mkCls true n bs fs) b); auto. }
        exists x. split; auto. apply (@in_bases (mkCls true n bs fs) b); auto.
      + intros b I. apply NoDup_callbacks. intros x Ix. apply H. apply (@in_bases (mkCls true n bs fs) b); auto. }
  destruct (dget fs h) as [g|] eqn:D; auto. destruct (fd_marked g) eqn:M; auto. injection G as ->. auto.
Qed.
(** What is there. *)
Lemma fold_present (bs : list cls) h : (forall b, In b bs -> NoDup (map fst (callbacks b))) -> forall acc,
  (dget acc h <> None \/ exists b, In b bs /\ dget (callbacks b) h <> None) ->
  dget (fold_left (fun acc b => dupdate acc (callbacks b)) bs acc) h <> None.
Proof.
  induction bs as [|b r IH]; intros N acc G.
  - destruct G as [G|(b & [] & _)]. auto.
  - cbn [fold_left]. apply IH; [intros; apply N; right; auto|].
    rewrite dget_update by (apply N; left; auto). destruct G as [G|(b' & [->|I] & G)].
    + left. destruct (dget (callbacks b) h); auto. discriminate.
    + left. destruct (dget (callbacks b') h); [discriminate|congruence].
    + right. eauto.
Qed.
Lemma callbacks_present root c h f x : ordinary root c -> In x (ancestry c) -> is_meta x -> source h f x ->
  (x = root -> fd_function f = true \/ fd_marked f = true) -> dget (callbacks c) h <> None /\ is_meta c.
Proof.
  intros (Ro & _ & O). revert O. induction c as [m n bs fs IH] using cls_ind2. intros O I Mx Sx Fx.
  assert (Nd : NoDup (map fst fs)) by (apply (O (mkCls m n bs fs)); apply in_self).
  cbn [ancestry] in I. destruct I as [<-|I].
  - cbn in Mx. subst m. split; [|reflexivity]. cbn [callbacks]. rewrite add_marked_spec by auto. destruct Sx as [D Sx]. cbn [cl_fields] in D.
    rewrite D. destruct (fd_marked f) eqn:M; [discriminate|]. destruct Sx as [Sx|[En Ih]]; [congruence|]. cbn [cl_name] in En. subst n.
    rewrite String.eqb_refl.
    assert (G : dget (own_hooks fs) h = Some f).
    { apply own_hooks_spec; auto. split; auto. split; auto. destruct Fx; auto; [|congruence].
      apply (O (mkCls true "Callback" bs fs)); auto. apply in_self. }
    rewrite G. discriminate.
  - apply in_flat_map in I. destruct I as (b & Ib & Ix). rewrite Forall_forall in IH.
    assert (Inc : incl (ancestry b) (ancestry (mkCls m n bs fs))) by (apply in_bases; auto).
    destruct (IH b Ib) as [G Mb]; auto.
    assert (Mc : is_meta (mkCls m n bs fs)).
    { destruct (O (mkCls m n bs fs) (in_self _)) as (_ & _ & _ & C). apply (C b); auto. }
    split; auto. cbn in Mc. subst m. cbn [callbacks]. rewrite add_marked_spec by auto.
    assert (Nc : (n =? "Callback")%string = false).
    { destruct (String.eqb_spec n "Callback") as [E|E]; auto. exfalso.
      destruct (O (mkCls true n bs fs) (in_self _)) as (_ & _ & C & _). specialize (C E). subst root.
      destruct Ro as (_ & _ & B & _). cbn in B. subst bs. destruct Ib. }
    rewrite Nc. assert (G' : dget (fold_left (fun acc b => dupdate acc (callbacks b)) bs []) h <> None).
    { apply fold_present; [|right; eauto]. intros b' Ib'. apply NoDup_callbacks. intros y Iy. apply O.
      apply (@in_bases (mkCls true n bs fs) b'); auto. }
    destruct (dget fs h) as [g|]; auto. destruct (fd_marked g); auto. discriminate.
Qed.

(** ** Instances *)
Lemma find_first mro h c f : find_method mro h = Some (c, f) -> first_definer h mro c /\ dget (cl_fields c) h = Some f.
Proof.
  induction mro as [|x r IH]; cbn [find_method]; [discriminate|]. destruct (dget (cl_fields x) h) as [g|] eqn:D.
  - intros E. injection E as -> ->. split; auto. exists [], r. split; auto. split; [intros y []|eauto].
  - intros E. destruct (IH E) as [(bf & af & -> & B & F) G]. split; auto. exists (x :: bf), af. split; auto. split; auto.
    intros y [<-|I]; auto.
Qed.
Lemma first_find mro h c : first_definer h mro c -> exists f, find_method mro h = Some (c, f) /\ dget (cl_fields c) h = Some f.
Proof.
  intros (bf & af & -> & B & f & D). exists f. split; auto. induction bf as [|x r IH]; cbn [app find_method].
  - rewrite D. auto.
  - rewrite (B x) by (left; auto). apply IH. intros y I. apply B. right. auto.
Qed.
Lemma find_exists mro h x f : In x mro -> dget (cl_fields x) h = Some f -> find_method mro h <> None.
Proof.
  induction mro as [|y r IH]; [intros []|]. intros [->|I] D; cbn [find_method].
  - rewrite D. discriminate.
  - destruct (dget (cl_fields y) h); [discriminate|auto].
Qed.
Lemma adapt_all_spec cbs mro group : NoDup (map fst cbs) -> (forall n f, In (n, f) cbs -> find_method mro n <> None) ->
  exists d, adapt_all cbs mro group = Ok d
  /\ forall n, dget d n = match dget cbs n, find_method mro n with
                          | Some f, Some (_, g) => if (fd_qual g =? fd_qual f)%string then None else Some group
                          | _, _ => None end.
Proof.
  induction cbs as [|[n f] r IH]; intros N H.
  - exists []. split; auto.
  - inversion N; subst. destruct IH as (d & E & S1); auto. { intros m g I. apply (H m g). right. auto. }
    cbn [adapt_all]. destruct (find_method mro n) as [[c g]|] eqn:F; [|destruct (H n f); [left|]; auto].
    rewrite E. cbn [rbind]. exists (if (fd_qual g =? fd_qual f)%string then d else dset d n group). split.
    { destruct (fd_qual g =? fd_qual f)%string; auto. }
    intros k. cbn [dget]. destruct (keqb_spec k n) as [->|Nk].
    + rewrite F. destruct (fd_qual g =? fd_qual f)%string; [|apply dget_dset_eq]. rewrite S1.
      assert (G : dget r n = None) by (apply dget_None; auto). rewrite G. auto.
    + destruct (fd_qual g =? fd_qual f)%string; [|rewrite dget_dset_neq by auto]; apply S1.
Qed.
Lemma used_pick dg cg g : used_group dg cg g -> pick_group dg cg = g.
Proof.
  intros [(s & -> & N & ->)|[[-> | ->] ->]]; auto. unfold pick_group. destruct (String.eqb_spec s ""); congruence.
Qed.
Lemma instance_spec root c mro dg cg g : ordinary root c -> resolution mro c -> used_group dg cg g ->
  exists d, instantiate c mro dg cg = Ok d
  /\ forall n, dget d n = match dget (callbacks c) n, find_method mro n with
                          | Some f, Some (_, f') => if (fd_qual f' =? fd_qual f)%string then None else Some g
                          | _, _ => None end.
Proof.
  intros Or Re U. apply used_pick in U. unfold instantiate. rewrite U. apply adapt_all_spec.
  - apply NoDup_callbacks. intros x I. apply Or. auto.
  - intros n f I. assert (Nd : NoDup (map fst (callbacks c))). { apply NoDup_callbacks. intros x J. apply Or. auto. }
    apply In_dget in I; auto. apply callbacks_source in I; [|intros x J; apply Or; auto].
    destruct I as (x & Ix & D & _). eapply find_exists; eauto. apply Re. auto.
Qed.
Lemma qual_inj a b n : a +++ "." +++ n = b +++ "." +++ n -> a = b.
Proof. intros E. apply sapp_inj_r in E. auto. Qed.

Lemma hooks_are h : is_hook h <-> In h hook_names.
Proof. unfold is_hook. cbn [hook_names In]. split; intros H; intuition auto. Qed.
(** The eight hooks. *)
Lemma hooks_adapted root c mro dg cg g h x : ordinary root c -> resolution mro c -> used_group dg cg g ->
  is_hook h -> (forall y, In y (ancestry c) -> ~ marks h y) -> first_definer h mro x ->
  exists d, instantiate c mro dg cg = Ok d /\ (x = root -> dget d h = None) /\ (x <> root -> dget d h = Some g).
Proof.
  intros Or Re U Hh Nm Fd. destruct (instance_spec Or Re U) as (d & E & S1). exists d. split; auto.
  destruct (first_find Fd) as (f & F & Df).
  assert (Ix : In x (ancestry c)). { apply Re. destruct Fd as (bf & af & -> & _). apply in_app_iff. right. left. auto. }
  destruct Or as (Ro & Ir & O). pose proof Ro as (Mr & Nr & Br & Hr). destruct (Hr h Hh) as (fr & Dr & Fr).
  assert (P : dget (callbacks c) h <> None).
  { apply (@callbacks_present root c h fr root); auto; [split; auto|]. split; auto. right. split; auto. apply hooks_are; auto. }
  destruct (dget (callbacks c) h) as [fc|] eqn:C; [|congruence].
  destruct (@callbacks_source c h fc) as (y & Iy & Dy & Sy); auto. { intros z Iz. apply O. auto. }
  destruct Sy as [Sy|[Sy _]]; [destruct (Nm y Iy); unfold marks; eauto|].
  assert (y = root) by (apply (O y Iy); auto). subst y. rewrite Dr in Dy. injection Dy as <-.
  pose proof (S1 h) as S2. rewrite F, C in S2. rewrite S2.
  destruct (O root Ir) as (Pr & _). destruct (O x Ix) as (Px & _ & Cx & _).
  rewrite (Pr _ _ Dr), (Px _ _ Df). split.
  - intros ->. rewrite String.eqb_refl. auto.
  - intros N. destruct (String.eqb_spec (cl_name x +++ "." +++ h) (cl_name root +++ "." +++ h)) as [Q|Q]; auto.
    apply qual_inj in Q. destruct N. apply Cx. congruence.
Qed.
(** Methods marked once. *)
Lemma marked_adapted root c mro dg cg g h D x : ordinary root c -> resolution mro c -> used_group dg cg g ->
  ~ is_hook h -> In D (ancestry c) -> is_meta D -> marks h D -> (forall y, In y (ancestry c) -> marks h y -> y = D) ->
  (forall y, In y (ancestry c) -> cl_name y = cl_name D -> y = D) -> first_definer h mro x ->
  exists d, instantiate c mro dg cg = Ok d /\ (x = D -> dget d h = None) /\ (x <> D -> dget d h = Some g).
Proof.
  intros Or Re U Hh Id Md (fD & DD & MD) Un Nm Fd. destruct (instance_spec Or Re U) as (d & E & S1). exists d. split; auto.
  destruct (first_find Fd) as (f & F & Df).
  assert (Ix : In x (ancestry c)). { apply Re. destruct Fd as (bf & af & -> & _). apply in_app_iff. right. left. auto. }
  assert (P : dget (callbacks c) h <> None).
  { apply (@callbacks_present root c h fD D); auto. split; auto. }
  destruct Or as (Ro & Ir & O).
  destruct (dget (callbacks c) h) as [fc|] eqn:C; [|congruence].
  destruct (@callbacks_source c h fc) as (y & Iy & Dy & Sy); auto. { intros z Iz. apply O. auto. }
  destruct Sy as [Sy|[_ Sy]]; [|apply hooks_are in Sy; contradiction]. assert (y = D) by (apply Un; auto; unfold marks; eauto). subst y.
  rewrite DD in Dy. injection Dy as <-.
  pose proof (S1 h) as S2. rewrite F, C in S2. rewrite S2.
  destruct (O D Id) as (Pr & _). destruct (O x Ix) as (Px & _).
  rewrite (Pr _ _ DD), (Px _ _ Df). split.
  - intros ->. rewrite String.eqb_refl. auto.
  - intros N. destruct (String.eqb_spec (cl_name x +++ "." +++ h) (cl_name D +++ "." +++ h)) as [Q|Q]; auto.
    apply qual_inj in Q. destruct N. apply Nm; auto.
Qed.
Lemma others_untouched root c mro dg cg g h : ordinary root c -> resolution mro c -> used_group dg cg g ->
  ~ is_hook h -> (forall y, In y (ancestry c) -> ~ marks h y) ->
  exists d, instantiate c mro dg cg = Ok d /\ dget d h = None.
Proof.
  intros Or Re U Hh Nm. destruct (instance_spec Or Re U) as (d & E & S1). exists d. split; auto. rewrite S1.
  destruct (dget (callbacks c) h) as [fc|] eqn:C; auto.
  destruct (@callbacks_source c h fc) as (y & Iy & Dy & Sy); auto. { intros z Iz. apply Or. auto. }
  destruct Sy as [Sy|[_ Sy]]; [|apply hooks_are in Sy; contradiction]. destruct (Nm y Iy). unfold marks. eauto.
Qed.

(** ** What is not adapted *)
Lemma adapt_all_same cbs mro group : forall d n f c, NoDup (map fst cbs) -> adapt_all cbs mro group = Ok d ->
  dget cbs n = Some f -> find_method mro n = Some (c, f) -> dget d n = None.
Proof.
  intros d n f c N A G F. destruct (@adapt_all_spec cbs mro group N) as (d' & E & S1).
  - clear - A. revert d A. induction cbs as [|[k v] r IH]; intros d A m g [].
    + inversion H; subst. cbn [adapt_all] in A. destruct (find_method mro m); [discriminate|congruence].
    + cbn [adapt_all] in A. destruct (find_method mro k) as [[? ?]|]; [|discriminate].
      destruct (adapt_all r mro group) as [d0|]; [|discriminate]. eapply IH; eauto.
  - rewrite A in E. injection E as <-. rewrite S1, G, F, String.eqb_refl. auto.
Qed.
Lemma marked_here_not_adapted c rest h dg cg d : is_meta c -> (forall x, In x (ancestry c) -> NoDup (map fst (cl_fields x))) ->
  marks h c -> instantiate c (c :: rest) dg cg = Ok d -> dget d h = None.
Proof.
  intros M N (f & D & Mk) E. eapply adapt_all_same; [| exact E | |].
  - apply NoDup_callbacks. auto.
  - destruct c as [m n bs fs]. cbn in M. subst m. cbn [callbacks]. rewrite add_marked_spec by (apply (N _ (in_self _))).
    cbn [cl_fields] in D. rewrite D, Mk. reflexivity.
  - cbn [find_method]. rewrite D. reflexivity.
Qed.
Lemma called_callback_not_adapted c rest h dg cg d : is_meta c -> (forall x, In x (ancestry c) -> NoDup (map fst (cl_fields x))) ->
  cl_name c = "Callback" -> dget (cl_fields c) h <> None ->
  instantiate c (c :: rest) dg cg = Ok d -> dget d h = None.
Proof.
  intros M N En D E. destruct (dget (cl_fields c) h) as [f|] eqn:Df; [|congruence].
  destruct (dget (callbacks c) h) as [g|] eqn:C.
  - eapply adapt_all_same; [| exact E | exact C |]; [apply NoDup_callbacks; auto|].
    cbn [find_method]. rewrite Df.
    destruct c as [m n bs fs]. cbn in M, En. subst m n. cbn [callbacks] in C. rewrite String.eqb_refl in C.
    rewrite add_marked_spec in C by (apply (N _ (in_self _))). cbn [cl_fields] in Df. rewrite Df in C.
    destruct (fd_marked f); [injection C as ->; reflexivity|]. apply own_hooks_spec in C; [|apply (N _ (in_self _))]. destruct C as [C _]. congruence.
  - unfold instantiate in E. clear - E C. revert d E. induction (callbacks c) as [|[k v] r IH]; intros d E.
    + injection E as <-. auto.
    + cbn [adapt_all] in E. destruct (find_method (c :: rest) k) as [[? ?]|]; [|discriminate].
      destruct (adapt_all r (c :: rest) (pick_group dg cg)) as [d0|]; [|discriminate]. cbn [rbind] in E.
      cbn [dget] in C. destruct (keqb_spec h k) as [->|Nk]; [discriminate|]. specialize (IH C d0 eq_refl).
      destruct (fd_qual f =? fd_qual v)%string; injection E as <-; auto. rewrite dget_dset_neq; auto.
Qed.
