(** * Lemmas about the Python vocabulary. *)
From Verif Require Import Py.
Set Implicit Arguments.

Lemma keqb_refl {K} `{EqK K} (k : K) : keqb k k = true.
Proof. destruct (keqb_spec k k); congruence. Qed.

Lemma keqb_neq {K} `{EqK K} (a b : K) : a <> b -> keqb a b = false.
Proof. intro N. destruct (keqb_spec a b); congruence. Qed.

Lemma keqb_eq {K} `{EqK K} (a b : K) : keqb a b = true <-> a = b.
Proof. destruct (keqb_spec a b); split; congruence. Qed.

Lemma keqb_false {K} `{EqK K} (a b : K) : keqb a b = false <-> a <> b.
Proof. destruct (keqb_spec a b); split; congruence. Qed.

Ltac keq a b :=
  let E := fresh "E" in
  destruct (keqb_spec a b) as [E|E]; [try (subst a || subst b)|].

Section DictLemmas.
  Context {K V : Type} `{EqK K}.
  Implicit Types (d e : dict K V) (k : K) (v : V).

  Lemma dget_In d k v : dget d k = Some v -> In (k, v) d.
  Proof.
    induction d as [|[k' v'] r IH]; simpl; [discriminate|].
    destruct (keqb_spec k k'); intros E.
    - inversion E; subst; auto.
    - right; auto.
  Qed.

  Lemma dget_None d k : dget d k = None <-> ~ In k (dkeys d).
  Proof.
    induction d as [|[k' v'] r IH]; simpl.
    - tauto.
    - destruct (keqb_spec k k') as [->|N].
      + split; [discriminate|]. intros C; exfalso; apply C; auto.
      + rewrite IH. split; intros; [intros [?|?]; [congruence|tauto]|tauto].
  Qed.

  Lemma dget_Some_key d k v : dget d k = Some v -> In k (dkeys d).
  Proof. intros E. apply dget_In in E. apply in_map_iff. exists (k, v); auto. Qed.

  Lemma dget_key d k : In k (dkeys d) -> exists v, dget d k = Some v.
  Proof.
    intros I. destruct (dget d k) eqn:E; eauto.
    apply dget_None in E; tauto.
  Qed.

  Lemma In_dget d k v : NoDup (dkeys d) -> In (k, v) d -> dget d k = Some v.
  Proof.
    induction d as [|[k' v'] r IH]; simpl; [tauto|].
    intros ND [E|I]; inversion ND; subst.
    - inversion E; subst. rewrite keqb_refl. auto.
    - rewrite keqb_neq; auto. intros ->.
      match goal with Hn : ~ In _ _ |- _ => apply Hn end.
      apply in_map_iff. exists (k', v); auto.
  Qed.

  Lemma dmem_In d k : dmem d k = true <-> In k (dkeys d).
  Proof.
    unfold dmem. destruct (dget d k) eqn:E.
    - apply dget_Some_key in E. tauto.
    - apply dget_None in E. split; [discriminate|tauto].
  Qed.

  Lemma dmem_false d k : dmem d k = false <-> ~ In k (dkeys d).
  Proof. rewrite <- dmem_In. destruct (dmem d k); split; congruence. Qed.

  Lemma dget_dset_eq d k v : dget (dset d k v) k = Some v.
  Proof.
    induction d as [|[k' v'] r IH]; simpl; [rewrite keqb_refl; auto|].
    destruct (keqb_spec k k') as [->|N]; simpl.
    - rewrite keqb_refl; auto.
    - rewrite keqb_neq; auto.
  Qed.

  Lemma dget_dset_neq d k k' v : k <> k' -> dget (dset d k v) k' = dget d k'.
  Proof.
    intros N. induction d as [|[k'' v''] r IH]; simpl.
    - rewrite keqb_neq; auto.
    - destruct (keqb_spec k k'') as [->|N']; simpl.
      + rewrite !(keqb_neq (a:=k')) by auto. auto.
      + destruct (keqb_spec k' k''); auto.
  Qed.

  Lemma dget_dset d k k' v :
    dget (dset d k v) k' = if keqb k' k then Some v else dget d k'.
  Proof.
    destruct (keqb_spec k' k) as [->|N].
    - apply dget_dset_eq.
    - apply dget_dset_neq; auto.
  Qed.

  Lemma dset_fresh d k v : ~ In k (dkeys d) -> dset d k v = d ++ [(k, v)].
  Proof.
    induction d as [|[k' v'] r IH]; simpl; auto.
    intros N. rewrite keqb_neq by (intros ->; tauto). rewrite IH; tauto.
  Qed.

  Lemma dkeys_dset_mem d k v : In k (dkeys d) -> dkeys (dset d k v) = dkeys d.
  Proof.
    induction d as [|[k' v'] r IH]; simpl; [tauto|].
    intros I. destruct (keqb_spec k k') as [->|N]; simpl; auto.
    f_equal. apply IH. destruct I; congruence.
  Qed.

  Lemma dkeys_dset_fresh d k v : ~ In k (dkeys d) -> dkeys (dset d k v) = dkeys d ++ [k].
  Proof. intros N. rewrite dset_fresh by auto. unfold dkeys. rewrite map_app. auto. Qed.

  Lemma In_dkeys_dset d k v k' : In k' (dkeys (dset d k v)) <-> k' = k \/ In k' (dkeys d).
  Proof.
    induction d as [|[k'' v''] r IH]; simpl; [intuition|].
    destruct (keqb_spec k k'') as [->|N]; simpl; intuition.
  Qed.

  Lemma NoDup_dset d k v : NoDup (dkeys d) -> NoDup (dkeys (dset d k v)).
  Proof.
    induction d as [|[k' v'] r IH]; simpl; intros ND.
    - constructor; [simpl; tauto | constructor].
    - inversion ND; subst. destruct (keqb_spec k k') as [->|N]; simpl; constructor; auto.
      rewrite In_dkeys_dset. intros [->|?]; tauto.
  Qed.

  Lemma ddel_absent d k : ~ In k (dkeys d) -> ddel d k = d.
  Proof.
    induction d as [|[k' v'] r IH]; simpl; auto.
    intros N. rewrite keqb_neq by (intros ->; tauto). rewrite IH; tauto.
  Qed.

  Lemma ddel_filter d k : NoDup (dkeys d) ->
    ddel d k = filter (fun kv => negb (keqb k (fst kv))) d.
  Proof.
    induction d as [|[k' v'] r IH]; simpl; auto.
    intros ND; inversion ND; subst.
    destruct (keqb_spec k k') as [->|N]; simpl; [|rewrite IH; auto].
    rewrite <- IH by auto. rewrite ddel_absent; auto.
  Qed.

  Lemma In_dkeys_ddel d k k' : NoDup (dkeys d) ->
    (In k' (dkeys (ddel d k)) <-> k' <> k /\ In k' (dkeys d)).
  Proof.
    induction d as [|[k'' v''] r IH]; simpl; [tauto|].
    intros ND; inversion ND; subst.
    destruct (keqb_spec k k'') as [->|N]; simpl.
    - split; [intros I; split; auto; congruence|]. intros [N [E|I]]; congruence.
    - rewrite IH by auto. split; [intros [<-|[? ?]]; auto|]. intros [? [?|?]]; auto.
  Qed.

  Lemma NoDup_ddel d k : NoDup (dkeys d) -> NoDup (dkeys (ddel d k)).
  Proof.
    induction d as [|[k' v'] r IH]; simpl; auto.
    intros ND; inversion ND; subst. destruct (keqb_spec k k'); simpl; auto.
    constructor; auto. rewrite In_dkeys_ddel by auto. tauto.
  Qed.

  Lemma dget_ddel_neq d k k' : k <> k' -> dget (ddel d k) k' = dget d k'.
  Proof.
    intros N. induction d as [|[k'' v''] r IH]; simpl; auto.
    destruct (keqb_spec k k'') as [->|N'].
    - rewrite keqb_neq; auto.
    - simpl. destruct (keqb_spec k' k''); auto.
  Qed.

  Lemma dget_ddel_eq d k : NoDup (dkeys d) -> dget (ddel d k) k = None.
  Proof. intros ND. apply dget_None. rewrite In_dkeys_ddel by auto. tauto. Qed.

  Lemma dkeys_app d e : dkeys (d ++ e) = dkeys d ++ dkeys e.
  Proof. apply map_app. Qed.

  Lemma dget_app d e k :
    dget (d ++ e) k = match dget d k with Some v => Some v | None => dget e k end.
  Proof.
    induction d as [|[k' v'] r IH]; simpl; auto.
    destruct (keqb_spec k k'); auto.
  Qed.

  Lemma ddel_head k v d : ddel ((k, v) :: d) k = d.
  Proof. simpl. rewrite keqb_refl. auto. Qed.

  Lemma dget_dupdate d e k :
    NoDup (dkeys e) ->
    dget (dupdate d e) k = match dget e k with Some v => Some v | None => dget d k end.
  Proof.
    unfold dupdate. revert d. induction e as [|[k' v'] r IH]; simpl; intros d ND; auto.
    inversion ND; subst. rewrite IH by auto. rewrite dget_dset.
    destruct (keqb_spec k k') as [->|N]; auto.
    destruct (dget r k') eqn:E; auto. apply dget_Some_key in E. tauto.
  Qed.

  Lemma In_dkeys_dupdate d e k :
    In k (dkeys (dupdate d e)) <-> In k (dkeys d) \/ In k (dkeys e).
  Proof.
    unfold dupdate. revert d. induction e as [|[k' v'] r IH]; simpl; intros d; [tauto|].
    rewrite IH, In_dkeys_dset. intuition.
  Qed.

  Lemma NoDup_dupdate d e : NoDup (dkeys d) -> NoDup (dkeys (dupdate d e)).
  Proof.
    unfold dupdate. revert d. induction e as [|[k' v'] r IH]; simpl; intros d ND; auto.
    apply IH, NoDup_dset; auto.
  Qed.
End DictLemmas.

Lemma inb_In {K} `{EqK K} (k : K) l : inb k l = true <-> In k l.
Proof.
  induction l as [|x r IH]; simpl; [split; [discriminate|tauto]|].
  rewrite orb_true_iff, IH, keqb_eq. intuition.
Qed.

Lemma inb_false {K} `{EqK K} (k : K) l : inb k l = false <-> ~ In k l.
Proof. rewrite <- inb_In. destruct (inb k l); split; congruence. Qed.

Lemma dget_map_val {K V W} `{EqK K} (f : V -> W) (d : dict K V) k :
  dget (map (fun kv => (fst kv, f (snd kv))) d) k = option_map f (dget d k).
Proof.
  induction d as [|[k' v'] r IH]; simpl; auto. destruct (keqb_spec k k'); auto.
Qed.

(** ** Slices *)

Lemma pyslice_inside {A} (l : list A) (a b : Z) :
  (0 <= a)%Z -> (a <= b)%Z -> (b <= zlen l)%Z ->
  pyslice l a b = firstn (Z.to_nat (b - a)) (skipn (Z.to_nat a) l).
Proof.
  unfold pyslice, slice_idx, zlen. intros.
  destruct (Z.ltb_spec a 0), (Z.ltb_spec b 0); try lia.
  rewrite !Z.min_l by lia. auto.
Qed.

Lemma pyslice_inside_length {A} (l : list A) (a b : Z) :
  (0 <= a)%Z -> (a <= b)%Z -> (b <= zlen l)%Z ->
  List.length (pyslice l a b) = Z.to_nat (b - a).
Proof.
  intros. rewrite pyslice_inside by auto.
  rewrite firstn_length, skipn_length. unfold zlen in *. lia.
Qed.

Lemma nth_error_pyslice {A} (l : list A) (a b : Z) (i : nat) :
  (0 <= a)%Z -> (a <= b)%Z -> (b <= zlen l)%Z -> (Z.of_nat i < b - a)%Z ->
  nth_error (pyslice l a b) i = nth_error l (Z.to_nat a + i).
Proof.
  intros. rewrite pyslice_inside by auto.
  rewrite <- (firstn_skipn (Z.to_nat a) l) at 2.
  rewrite nth_error_app2 by (rewrite firstn_length; lia).
  rewrite firstn_length, Nat.min_l by (unfold zlen in *; lia).
  replace (Z.to_nat a + i - Z.to_nat a)%nat with i by lia.
  generalize (skipn (Z.to_nat a) l) as m. intros m.
  assert (Hi : (i < Z.to_nat (b - a))%nat) by lia.
  revert Hi. generalize (Z.to_nat (b - a)) as n. clear.
  revert m. induction i as [|i IH]; intros [|x m] [|n] L; simpl; auto; try lia.
  apply IH; lia.
Qed.

Lemma pyslice_full {A} (l : list A) : pyslice l 0 (zlen l) = l.
Proof.
  rewrite pyslice_inside; unfold zlen; try lia.
  simpl. rewrite Z.sub_0_r, Nat2Z.id. apply firstn_all.
Qed.

Lemma zlen_app {A} (l m : list A) : zlen (l ++ m) = (zlen l + zlen m)%Z.
Proof. unfold zlen. rewrite app_length. lia. Qed.

Lemma zlen_nonneg {A} (l : list A) : (0 <= zlen l)%Z.
Proof. unfold zlen; lia. Qed.

Lemma zsum_app l m : zsum (l ++ m) = (zsum l + zsum m)%Z.
Proof. unfold zsum. induction l as [|x l IH]; cbn [fold_right app]; lia. Qed.

Lemma zsum_nonneg l : Forall (fun x => 0 <= x)%Z l -> (0 <= zsum l)%Z.
Proof. unfold zsum. induction 1; cbn [fold_right]; lia. Qed.
