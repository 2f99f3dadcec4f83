(** * BldProofs: the tables of the builders *)
From Coq Require Import Lia.
From Verif Require Import Py PyLemmas MemModel MemSpec MemProofs MemRun MemSample MemSample4 AdaptorModel AdaptorProofs BldModel BldSpec.
Set Implicit Arguments. Unset Strict Implicit.
Open Scope string_scope.
Open Scope list_scope.
Open Scope Z_scope.

Definition with_next_names (ks : list string) : list string := flat_map (fun k => [k; String.append "next_" k]) ks.

Lemma next_inj a b : String.append "next_" a = String.append "next_" b -> a = b.
Proof. cbn. intros H. injection H as H. auto. Qed.
Lemma next_not_reserved k : ~ In (String.append "next_" k) reserved.
Proof. cbn. intros H. repeat (destruct H as [H|H]; [discriminate|]). exact H. Qed.
Lemma in_names ks x : In x (with_next_names ks) <-> In x ks \/ exists k, In k ks /\ x = String.append "next_" k.
Proof.
  unfold with_next_names. rewrite in_flat_map. split.
  - intros [k [Hk [<-|[<-|[]]]]]; eauto.
  - intros [H|[k [H ->]]]; [exists x|exists k]; cbn; auto.
Qed.
Lemma names_nodup ks : NoDup ks -> (forall k, In k ks -> ~ In (String.append "next_" k) ks) -> NoDup (with_next_names ks).
Proof.
  induction ks as [|k ks IH]; intros N H; [constructor|]. inversion N as [|? ? N1 N2]; subst.
  assert (IH' : NoDup (with_next_names ks)). { apply IH; auto. intros x Hx C. apply (H x); cbn; auto. }
  change (with_next_names (k :: ks)) with (k :: String.append "next_" k :: with_next_names ks).
  constructor; [|constructor; auto].
  - intros [C|C]. { apply (H k); [left; auto|left; auto]. } apply in_names in C. destruct C as [C|[x [Hx ->]]]; [contradiction|].
    apply (H x); [right; auto|left; auto].
  - intros C. apply in_names in C. destruct C as [C|[x [Hx E]]].
    + apply (H k); [left; auto|right; auto].
    + apply next_inj in E. subst. contradiction.
Qed.

Section P.
Context {S : Type} {HS : Scalar S}.
Implicit Types m : mdp S.

Lemma state_names next (st : dict string (space S)) : map (@c_name S) (state_columns next st) = with_next_names (dkeys st).
Proof. unfold state_columns, with_next_names. induction st as [|[k s] st IH]; auto. cbn [flat_map map dkeys fst snd app]. unfold dkeys in IH. cbn in IH |- *. rewrite IH. auto. Qed.
Lemma in_state next (st : dict string (space S)) c : In c (state_columns next st) <->
  exists k s, In (k, s) st /\ (c = mkCol k (sp_size s) (sp_cast s) KBase \/ c = mkCol (String.append "next_" k) (sp_size s) (sp_cast s) (KVirt k next)).
Proof.
  unfold state_columns. rewrite in_flat_map. split.
  - intros [[k s] [H [<-|[<-|[]]]]]; eauto 10.
  - intros (k & s & H & E). exists (k, s). split; auto. cbn [fst snd]. destruct E as [-> | ->]; cbn; auto.
Qed.
Lemma NoDup_app_intro {A} (a b : list A) : NoDup a -> NoDup b -> (forall x, In x a -> ~ In x b) -> NoDup (a ++ b).
Proof.
  induction a as [|x a IH]; intros Na Nb D; auto. inversion Na; subst. cbn. constructor.
  - rewrite in_app_iff. intros [C|C]; [contradiction|]. apply (D x); cbn; auto.
  - apply IH; auto. intros y Hy. apply D. cbn; auto.
Qed.
Lemma builder_names next f d k term m : spaces_ok m -> NoDup (map (@c_name S) (builder_columns next f d k term m)).
Proof.
  intros O. unfold builder_columns. rewrite !map_app, state_names.
  assert (F : map (@c_name S) (fixed_columns f d k m) = ["actions"; "dones"; "masks"; "rewards"]) by (unfold fixed_columns; destruct (md_rewards m); reflexivity).
  rewrite F. assert (R : forall x, In x (with_next_names (dkeys (md_state m))) -> ~ In x reserved).
  { intros x Hx. apply in_names in Hx. destruct Hx as [Hx|[y [Hy ->]]]; [apply (so_reserved O); auto|apply next_not_reserved]. }
  apply NoDup_app_intro.
  - repeat constructor; cbn; intuition discriminate.
  - apply NoDup_app_intro.
    + apply names_nodup; [apply (so_keys O)|apply (so_next O)].
    + destruct term; cbn; repeat constructor; auto.
    + intros x Hx C. apply (R x Hx). destruct term; cbn in C; [|destruct C]. destruct C as [<- | []]. unfold reserved; cbn; auto 10.
  - intros x Hx C. apply in_app_iff in C. destruct C as [C|C].
    + apply (R x C). unfold reserved. cbn in Hx |- *. intuition.
    + destruct term; cbn in C; [|destruct C]. destruct C as [<- | []]. cbn in Hx. intuition discriminate.
Qed.
Lemma column_dict_from (cols : list (column S)) : forall d : dict string (column S), NoDup (dkeys d ++ map (@c_name S) cols) ->
  fold_left (fun d c => dset d (c_name c) c) cols d = d ++ map (fun c => (c_name c, c)) cols.
Proof.
  induction cols as [|c cols IH]; intros d N; cbn [fold_left map]; [rewrite app_nil_r; auto|].
  assert (F : ~ In (c_name c) (dkeys d)). { cbn [map] in N. apply NoDup_remove_2 in N. intros C. apply N. apply in_or_app; auto. }
  rewrite dset_fresh by auto. rewrite IH.
  - rewrite <- app_assoc. reflexivity.
  - unfold dkeys. rewrite map_app, <- app_assoc. exact N.
Qed.
Lemma column_dict_id (cols : list (column S)) : NoDup (map (@c_name S) cols) -> column_dict cols = cols.
Proof. intros N. unfold column_dict. rewrite column_dict_from by auto. cbn [app]. rewrite map_map. cbn [snd]. apply map_id. Qed.

Lemma builder_config next f d k term m : spaces_ok m -> config_ok (builder_columns next f d k term m) "actions".
Proof.
  intros O. set (cols := builder_columns next f d k term m).
  assert (A : In (mkCol "actions" (sp_size (md_actions m)) (sp_cast (md_actions m)) KBase) cols) by (left; auto).
  constructor.
  - apply builder_names; auto.
  - intros c Hc. apply filter_In in Hc. destruct Hc as [Hc V]. unfold cols, builder_columns in Hc. rewrite !in_app_iff in Hc. destruct Hc as [Hc|[Hc|Hc]].
    + unfold fixed_columns in Hc. cbn [In] in Hc. destruct Hc as [<- | [<- | [<- | [<- | []]]]]; cbn [c_rowsize]; try lia; [apply (so_actions O)|].
      destruct (md_rewards m) as [r|] eqn:E; cbn [c_rowsize]; [apply (so_rewards O); auto|lia].
    + apply in_state in Hc. destruct Hc as (x & s & Hx & [-> | ->]); [|discriminate]. cbn [c_rowsize]. apply (so_state O Hx).
    + destruct term; cbn in Hc; [|destruct Hc]. destruct Hc as [<- | []]. cbn. lia.
  - eexists. split; [exact A|]. split; reflexivity.
  - intros c tg mp Hc E. unfold cols, builder_columns in Hc. rewrite !in_app_iff in Hc. destruct Hc as [Hc|[Hc|Hc]].
    + unfold fixed_columns in Hc. cbn [In] in Hc. destruct Hc as [<- | [<- | [<- | [<- | []]]]]; cbn [c_kind] in E; try discriminate.
      * injection E as <- <-. eexists. split; [exact A|]. split; reflexivity.
      * injection E as <- <-. eexists. split; [exact A|]. split; reflexivity.
      * destruct (md_rewards m); discriminate.
    + apply in_state in Hc. destruct Hc as (x & s & Hx & [-> | ->]); cbn [c_kind] in E; [discriminate|]. injection E as <- <-.
      exists (mkCol x (sp_size s) (sp_cast s) KBase). split; [|split; reflexivity]. unfold cols, builder_columns. rewrite !in_app_iff. right. left. apply in_state. eauto 10.
    + destruct term; cbn in Hc; [|destruct Hc]. destruct Hc as [<- | []]. discriminate.
Qed.

Lemma gather_keys count n pts : forall cols (t : table S) out, snd (gather_cols t count n pts cols) = Ok out -> dkeys out = map (@c_name S) cols.
Proof.
  induction cols as [|c r IH]; intros t out E; cbn [gather_cols] in E.
  - injection E as <-. reflexivity.
  - destruct (gather_points t c _ 0 _ pts) as [o|e]; [|discriminate].
    match goal with E : context [gather_cols ?t1 count n pts r] |- _ =>
      destruct (gather_cols t1 count n pts r) as [t2 [res|e]] eqn:E2; [|discriminate];
      assert (E3 : snd (gather_cols t1 count n pts r) = Ok res) by (rewrite E2; auto) end.
    injection E as <-. cbn [dkeys map fst]. f_equal. apply (IH _ _ E3).
Qed.
Lemma sample_keys (t : table S) count L draws out : snd (t_sample t count L draws) = Ok out -> dkeys out = map (@c_name S) (t_cols t).
Proof.
  unfold t_sample. destruct (s_sample (t_sampler t) count (Z.of_nat L) draws) as [s [pts|e]]; [|discriminate]. apply gather_keys.
Qed.

(** ** The adaptor *)
Lemma move_ok ks : forall (result obs next : dict string (array S)), NoDup (dkeys result) -> NoDup (with_next_names ks) ->
  (forall x, In x (with_next_names ks) -> In x (dkeys result)) ->
  exists b, move_keys true (combine ks ks) result obs next = Ok b /\
    (forall k, dget (bt_obs b) k = if inb k ks then dget result k else dget obs k) /\
    (forall k, dget (bt_next b) k = if inb k ks then dget result (String.append "next_" k) else dget next k) /\
    (forall x, dget (bt_rows b) x = if inb x (with_next_names ks) then None else dget result x) /\
    NoDup (dkeys (bt_rows b)).
Proof.
  induction ks as [|k ks IH]; intros result obs next N Nn Sub.
  - eexists. split; [reflexivity|]. cbn. auto.
  - change (with_next_names (k :: ks)) with (k :: String.append "next_" k :: with_next_names ks) in *.
    cbn [combine move_keys]. unfold pop.
    inversion Nn as [|? ? N1 Nn']; subst. inversion Nn' as [|? ? N2 Nn2]; subst.
    assert (Kn : k <> String.append "next_" k). { intros C. apply N1. left. auto. }
    destruct (dget_key result k) as [v Hv]. { apply Sub. left; auto. }
    destruct (dget_key result (String.append "next_" k)) as [w Hw]. { apply Sub. right; left; auto. }
    rewrite Hv. cbn [rbind fst snd]. rewrite dget_ddel_neq by auto. rewrite Hw. cbn [rbind fst snd].
    set (r2 := ddel (ddel result k) (String.append "next_" k)).
    assert (Nr : NoDup (dkeys r2)) by (unfold r2; repeat apply NoDup_ddel; auto).
    assert (G : forall x, dget r2 x = if (String.eqb x k || String.eqb x (String.append "next_" k))%bool then None else dget result x).
    { intros x. unfold r2. destruct (String.eqb_spec x (String.append "next_" k)) as [-> | A].
      - rewrite Bool.orb_true_r. apply dget_ddel_eq. apply NoDup_ddel; auto.
      - rewrite dget_ddel_neq by auto. destruct (String.eqb_spec x k) as [-> | B]; cbn [orb]; [apply dget_ddel_eq; auto|apply dget_ddel_neq; auto]. }
    destruct (IH r2 (dset obs k v) (dset next k w) Nr Nn2) as (b & E & B1 & B2 & B3 & B4).
    { intros x Hx. destruct (dget r2 x) as [y|] eqn:Q; [apply dget_Some_key in Q; auto|]. exfalso. rewrite G in Q.
      destruct (String.eqb_spec x k) as [-> | A]; [apply N1; right; auto|]. destruct (String.eqb_spec x (String.append "next_" k)) as [-> | B]; [contradiction|].
      cbn [orb] in Q. apply dget_None in Q. apply Q. apply Sub. right; right; auto. }
    exists b. split; [exact E|]. split; [|split; [|split; [|exact B4]]].
    + intros x. rewrite B1. cbn [inb existsb]. destruct (keqb_spec x k) as [-> | A]; cbn [orb].
      * assert (I : inb k ks = false). { apply Bool.not_true_iff_false. intros C. apply inb_In in C. apply N1. right. apply in_names. auto. }
        rewrite I, dget_dset_eq. auto.
      * destruct (inb x ks) eqn:I; [|apply dget_dset_neq; auto]. apply inb_In in I. rewrite G.
        destruct (String.eqb_spec x k) as [C|_]; [congruence|]. destruct (String.eqb_spec x (String.append "next_" k)) as [-> | _]; auto.
        exfalso. apply N2. apply in_names. auto.
    + intros x. rewrite B2. cbn [inb existsb]. destruct (keqb_spec x k) as [-> | A]; cbn [orb].
      * assert (I : inb k ks = false). { apply Bool.not_true_iff_false. intros C. apply inb_In in C. apply N1. right. apply in_names. auto. }
        rewrite I, dget_dset_eq. auto.
      * destruct (inb x ks) eqn:I; [|apply dget_dset_neq; auto]. apply inb_In in I. rewrite G.
        destruct (String.eqb_spec (String.append "next_" x) k) as [C|_]. { exfalso. apply N1. right. apply in_names. right. exists x. auto. }
        destruct (String.eqb_spec (String.append "next_" x) (String.append "next_" k)) as [C| _]; auto. apply next_inj in C. congruence.
    + intros x. rewrite B3. cbn [inb existsb]. rewrite G. change (keqb x k) with (String.eqb x k). change (keqb x (String.append "next_" k)) with (String.eqb x (String.append "next_" k)).
      destruct (String.eqb x k); cbn [orb]; [destruct (inb x (with_next_names ks)); auto|].
      destruct (String.eqb x (String.append "next_" k)); cbn [orb]; [destruct (inb x (with_next_names ks)); auto|]. reflexivity.
Qed.
(** ... and with an observation called like the successor of another one it cannot work *)
Lemma move_twice ks : forall (result obs next : dict string (array S)) x, NoDup (dkeys result) ->
  ~ In x (dkeys result) -> In x (with_next_names ks) -> exists e, move_keys true (combine ks ks) result obs next = Err e.
Proof.
  induction ks as [|k ks IH]; intros result obs next x N Nx Hx; [destruct Hx|].
  change (with_next_names (k :: ks)) with (k :: String.append "next_" k :: with_next_names ks) in Hx.
  cbn [combine move_keys]. unfold pop. destruct (dget result k) as [v|] eqn:Ev; [|eexists; reflexivity]. cbn [rbind fst snd].
  destruct (dget (ddel result k) (String.append "next_" k)) as [w|] eqn:Ew; [|eexists; reflexivity]. cbn [rbind fst snd].
  destruct Hx as [<-|[<-|Hx]].
  - apply dget_Some_key in Ev. contradiction.
  - exfalso. apply Nx. apply dget_Some_key in Ew. apply In_dkeys_ddel in Ew; tauto.
  - apply (IH _ _ _ x); auto. { repeat apply NoDup_ddel; auto. }
    intros C. apply In_dkeys_ddel in C; [|apply NoDup_ddel; auto]. destruct C as [_ C]. apply In_dkeys_ddel in C; tauto.
Qed.
Lemma move_collision ks : forall (result obs next : dict string (array S)), NoDup (dkeys result) -> ~ NoDup (with_next_names ks) ->
  exists e, move_keys true (combine ks ks) result obs next = Err e.
Proof.
  induction ks as [|k ks IH]; intros result obs next N D; [exfalso; apply D; constructor|].
  change (with_next_names (k :: ks)) with (k :: String.append "next_" k :: with_next_names ks) in D.
  cbn [combine move_keys]. unfold pop. destruct (dget result k) as [v|] eqn:Ev; [|eexists; reflexivity]. cbn [rbind fst snd].
  destruct (dget (ddel result k) (String.append "next_" k)) as [w|] eqn:Ew; [|eexists; reflexivity]. cbn [rbind fst snd].
  assert (N' : NoDup (dkeys (ddel (ddel result k) (String.append "next_" k)))) by (repeat apply NoDup_ddel; auto).
  assert (Kn : k <> String.append "next_" k). { intros C. rewrite <- C in Ew. rewrite dget_ddel_eq in Ew by auto. discriminate. }
  destruct (in_dec string_dec k (with_next_names ks)) as [I1|I1].
  - apply (@move_twice ks _ _ _ k); auto. intros C. apply In_dkeys_ddel in C; [|apply NoDup_ddel; auto]. destruct C as [_ C]. apply In_dkeys_ddel in C; tauto.
  - destruct (in_dec string_dec (String.append "next_" k) (with_next_names ks)) as [I2|I2].
    + apply (@move_twice ks _ _ _ (String.append "next_" k)); auto. intros C. apply In_dkeys_ddel in C; [|apply NoDup_ddel; auto]. tauto.
    + apply IH; auto. intros C. apply D. constructor; [|constructor; auto]. intros [H|H]; [congruence|contradiction].
Qed.
End P.
