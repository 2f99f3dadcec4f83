(** * RepMore: histories of reports *)
From Coq Require Import Ascii.
From Verif Require Import Py PyLemmas CkptModel CkptProofs LogModel LogSpec LogProofs ProxyModel LoaderModel RepModel RepSpec RepProofs.
Set Implicit Arguments.
Open Scope string_scope.
Open Scope list_scope.
Open Scope Z_scope.

Definition rop : Type := (string * (Z + list Z))%type.
Definition rops (m : meta) : list rop :=
  map (fun kv => (fst kv, inl (snd kv))) (mt_info m) ++ map (fun kv => (fst kv, inr (snd kv))) (mt_lists m).
Definition do_op (o : rop) (s : mlogs) : mlogs * res unit :=
  match snd o with inl z => report_number (fst o) z s | inr l => report_list (fst o) l s end.
Fixpoint go (ops : list rop) (s : mlogs) : mlogs * res unit :=
  match ops with
  | [] => (s, Ok tt)
  | o :: r => match do_op o s with (s', Ok _) => go r s' | (s', Err e) => (s', Err e) end
  end.
Lemma go_app a b s : go (a ++ b) s = match go a s with (s', Ok _) => go b s' | (s', Err e) => (s', Err e) end.
Proof.
  revert s. induction a as [|o r IH]; intros s; simpl; auto.
  destruct (do_op o s) as [s' [u|e]]; auto.
Qed.
Lemma report_go m s : report m s = go (rops m) s.
Proof.
  unfold report, rops. rewrite go_app.
  assert (E : forall d s, each report_number d s = go (map (fun kv => (fst kv, inl (snd kv))) d) s).
  { induction d as [|[k v] r IH]; intros s'; simpl; auto. unfold do_op. simpl.
    destruct (report_number k v s') as [s1 [u|e]]; auto. }
  assert (F : forall d s, each report_list d s = go (map (fun kv => (fst kv, inr (snd kv))) d) s).
  { induction d as [|[k v] r IH]; intros s'; simpl; auto. unfold do_op. simpl.
    destruct (report_list k v s') as [s1 [u|e]]; auto. }
  rewrite E. destruct (go _ s) as [s' [u|e]]; auto.
Qed.

Definition wop (o : rop) : list (string * lval) :=
  match histogram_key (fst o) with
  | None => [(fst o, match snd o with inl z => LNum z | inr l => LMany l end)]
  | Some _ => []
  end.
Definition hop (o : rop) : list (string * hval) :=
  match histogram_key (fst o) with
  | Some k => [(k, match snd o with inl z => HNum z | inr l => HMany l end)]
  | None => []
  end.
Definition wops : list rop -> list (string * lval) := flat_map wop.
Definition hops : list rop -> list (string * hval) := flat_map hop.

Record Inv (done : list rop) (s : mlogs) : Prop := mkInv {
  inv_w : lg_windows s = lg_windows (log_all (wops done) (fresh 1000));
  inv_c : lg_cumulative s = lg_cumulative (log_all (wops done) (fresh 1000));
  inv_h : md_hists (lg_other s) = md_hists (lg_other (hist_all (hops done) (fresh 1000)));
  inv_d : lg_default s = 1000 }.

Lemma log_windowed_ext k v (s t : mlogs) :
  lg_windows s = lg_windows t -> lg_cumulative s = lg_cumulative t -> lg_default s = lg_default t ->
  snd (log_windowed k v s) = snd (log_windowed k v t)
  /\ lg_windows (fst (log_windowed k v s)) = lg_windows (fst (log_windowed k v t))
  /\ lg_cumulative (fst (log_windowed k v s)) = lg_cumulative (fst (log_windowed k v t))
  /\ lg_other (fst (log_windowed k v s)) = lg_other s.
Proof.
  intros W C D.
  assert (Pu : forall l a (x y : mlogs), lg_windows x = lg_windows y -> lg_cumulative x = lg_cumulative y ->
     snd (push k l a x) = snd (push k l a y) /\ lg_windows (fst (push k l a x)) = lg_windows (fst (push k l a y))
     /\ lg_cumulative (fst (push k l a x)) = lg_cumulative (fst (push k l a y)) /\ lg_other (fst (push k l a x)) = lg_other x).
  { intros l a x y Wx Cx. unfold push. rewrite Wx, Cx. destruct (dget (lg_windows y) k) as [[w n]|]; cbn [fst snd]; auto.
    destruct (dget (lg_cumulative y) k); cbn [fst snd lg_windows lg_cumulative lg_other]; rewrite ?Wx; auto. }
  unfold log_windowed, ensure_window. rewrite W, D. destruct (dmem (lg_windows t) k).
  - destruct v; cbn [fst snd]; auto.
  - destruct (window_length (lg_default t) k) as [n|e]; cbn [fst snd]; auto.
    destruct (n <? 0); cbn [fst snd]; auto.
    destruct v; cbn [fst snd lg_windows lg_cumulative lg_other]; rewrite ?C; auto;
      match goal with |- context [push k ?l ?a ?x] =>
        match goal with |- context [push k l a ?y] =>
          assert_fails (constr_eq x y); destruct (Pu l a x y eq_refl) as (E1 & E2 & E3 & E4); [cbn [lg_cumulative]; congruence|auto] end end.
Qed.
Lemma log_histogram_ext k v (s t : mlogs) :
  md_hists (lg_other s) = md_hists (lg_other t) -> lg_default s = lg_default t ->
  snd (log_histogram k v s) = snd (log_histogram k v t)
  /\ md_hists (lg_other (fst (log_histogram k v s))) = md_hists (lg_other (fst (log_histogram k v t))).
Proof.
  intros H D. unfold log_histogram, set_hist. destruct v as [z|l|l]; cbn [fst snd with_media lg_other md_hists]; rewrite ?H; auto.
  rewrite D. destruct (dget (md_hists (lg_other t)) k) as [[w n|l|l]|]; cbn [fst snd with_media lg_other md_hists]; rewrite ?H; auto.
  destruct (lg_default t <? 0); cbn [fst snd with_media lg_other md_hists]; rewrite ?H; auto.
Qed.
Lemma log_all_default ops (s : mlogs) : lg_default (log_all ops s) = lg_default s.
Proof. revert s. induction ops as [|[k v] r IH]; simpl; intros s; auto. rewrite IH, windowed_default. auto. Qed.
Lemma wops_plain done : Forall (fun kv => plain (snd kv)) (wops done).
Proof.
  apply Forall_forall. intros [k v] I. unfold wops in I. apply in_flat_map in I. destruct I as ([a x] & _ & I).
  unfold wop in I. cbn [fst snd] in *. destruct (histogram_key a); [destruct I|]. destruct I as [E|[]].
  injection E as <- <-. destruct x; simpl; auto.
Qed.

Definition good_op (o : rop) : Prop :=
  histogram_key (fst o) = None -> exists n, window_length 1000 (fst o) = Ok n /\ 0 <= n.

Lemma inv_step done s o : Inv done s -> good_op o ->
  exists s', do_op o s = (s', Ok tt) /\ Inv (done ++ [o]) s'
  /\ md_scalars (lg_other s') = md_scalars (lg_other s) /\ md_images (lg_other s') = md_images (lg_other s)
  /\ md_videos (lg_other s') = md_videos (lg_other s).
Proof.
  intros [Iw Ic Ih Id] G. destruct o as [key x].
  assert (WO : wops (@app rop done (@cons rop (key, x) nil)) = wops done ++ wop (key, x)).
  { unfold wops. rewrite flat_map_app. simpl. rewrite app_nil_r. auto. }
  assert (HO : hops (@app rop done (@cons rop (key, x) nil)) = hops done ++ hop (key, x)).
  { unfold hops. rewrite flat_map_app. simpl. rewrite app_nil_r. auto. }
  unfold good_op in G. cbn [fst] in G.
  destruct (histogram_key key) as [k|] eqn:Hk.
  - set (v := match x with inl z => HNum z | inr l => HMany l end).
    assert (E : do_op (key, x) s = log_histogram k v s).
    { unfold do_op, report_number, report_list. cbn [fst snd]. subst v. destruct x; rewrite Hk; auto. }
    rewrite E. exists (fst (log_histogram k v s)).
    destruct (@log_histogram_ext k v s (hist_all (hops done) (fresh 1000))) as [E1 E2]; auto.
    { destruct (hist_all_other (hops done) (fresh 1000)) as (_ & _ & ->). auto. }
    destruct (log_histogram_other k v s) as (W & C & D & X1 & X2 & X3).
    split.
    { rewrite (surjective_pairing (log_histogram k v s)) at 1. f_equal. rewrite E1.
      apply hist_ok; [lia|]. intros l I. unfold about in I. apply in_map_iff in I.
      destruct I as ([a b] & Eb & I). cbn [snd] in Eb. subst b. apply filter_In in I. destruct I as [I _].
      unfold hops in I. apply in_flat_map in I. destruct I as ([p q] & _ & I). unfold hop in I. cbn [fst snd] in I.
      destruct (histogram_key p); [|destruct I]. destruct I as [I|[]]. injection I as _ I. destruct q; discriminate. }
    split; [|auto]. constructor.
    + rewrite W, WO. unfold wop. cbn [fst]. rewrite Hk, app_nil_r. auto.
    + rewrite C, WO. unfold wop. cbn [fst]. rewrite Hk, app_nil_r. auto.
    + rewrite E2, HO, hist_all_app. unfold hop. cbn [fst snd]. rewrite Hk. reflexivity.
    + congruence.
  - set (v := match x with inl z => LNum z | inr l => LMany l end).
    assert (E : do_op (key, x) s = log_windowed key v s).
    { unfold do_op, report_number, report_list. cbn [fst snd]. subst v. destruct x; rewrite Hk; auto. }
    rewrite E. exists (fst (log_windowed key v s)).
    destruct (@log_windowed_ext key v s (log_all (wops done) (fresh 1000))) as (E1 & E2 & E3 & E4); auto.
    { rewrite log_all_default. auto. }
    destruct G as (n & WL & Hn); auto.
    split.
    { rewrite (surjective_pairing (log_windowed key v s)) at 1. f_equal. rewrite E1.
      apply call_succeeds with (n := n); auto; [apply wops_plain|]. subst v. destruct x; simpl; auto. }
    rewrite E4. split; [|auto]. constructor.
    + rewrite E2, WO, log_all_app. unfold wop. cbn [fst snd]. rewrite Hk. reflexivity.
    + rewrite E3, WO, log_all_app. unfold wop. cbn [fst snd]. rewrite Hk. reflexivity.
    + rewrite E4, Ih, HO. unfold hop. cbn [fst]. rewrite Hk, app_nil_r. auto.
    + rewrite windowed_default. auto.
Qed.
Lemma inv_go ops done s : Inv done s -> Forall good_op ops ->
  exists s', go ops s = (s', Ok tt) /\ Inv (done ++ ops) s'
  /\ md_scalars (lg_other s') = md_scalars (lg_other s) /\ md_images (lg_other s') = md_images (lg_other s)
  /\ md_videos (lg_other s') = md_videos (lg_other s).
Proof.
  revert done s. induction ops as [|o r IH]; intros done s I F.
  - exists s. rewrite app_nil_r. simpl. auto.
  - inversion F as [|? ? G F']; subst. destruct (inv_step I G) as (s1 & E1 & I1 & A1 & A2 & A3).
    destruct (IH _ _ I1 F') as (s2 & E2 & I2 & B1 & B2 & B3). exists s2. simpl. rewrite E1.
    rewrite <- app_assoc in I2. split; auto. split; auto. repeat split; congruence.
Qed.
Lemma inv_fresh : Inv [] (fresh 1000).
Proof. constructor; reflexivity. Qed.

(** ** Histogram keys *)
Lemma histogram_key_spec key k : histogram_key key = Some k <-> key = "histogram:" +++ k.
Proof.
  assert (S0 : forall s, substring 0 (String.length s) s = s).
  { induction s; simpl; congruence. }
  assert (D : forall p s, substring (String.length p) (String.length (p +++ s) - String.length p) (p +++ s) = s).
  { intros p s. rewrite append_length. replace (String.length p + String.length s - String.length p)%nat with (String.length s) by lia.
    induction p as [|c p IH]; [apply S0|exact IH]. }
  unfold histogram_key. split.
  - destruct (String.prefix "histogram:" key) eqn:P; [|discriminate]. apply prefix_spec in P. destruct P as [b ->].
    intros E. injection E as E. rewrite <- E. f_equal. symmetry. apply (D "histogram:" b).
  - intros ->. replace (String.prefix "histogram:" ("histogram:" +++ k)) with true
      by (symmetry; apply prefix_spec; eauto).
    f_equal. apply (D "histogram:" k).
Qed.
Lemma histogram_key_None key : histogram_key key = None <-> ~ is_histogram key.
Proof.
  unfold is_histogram. split.
  - intros E [k Ek]. apply histogram_key_spec in Ek. congruence.
  - intros N. destruct (histogram_key key) as [k|] eqn:E; auto. apply histogram_key_spec in E. destruct N. eauto.
Qed.
Lemma usable_good o : usable (fst o) -> good_op o.
Proof.
  intros U N. apply histogram_key_None in N. destruct (U N) as [(n & E & P) _]. exists n. split; auto. lia.
Qed.
Lemma sound_good m : sound_report m -> Forall good_op (rops m).
Proof.
  intros [A B]. apply Forall_forall. intros [k v] I. apply usable_good. cbn [fst]. unfold rops in I.
  apply in_app_iff in I. destruct I as [I|I]; apply in_map_iff in I; destruct I as ([a b] & E & I); injection E as <- <-.
  - eapply A; eauto.
  - eapply B; eauto.
Qed.
Lemma reports_inv h done s : Inv done s -> Forall sound_report h ->
  Inv (done ++ flat_map rops h) (reports h s).
Proof.
  revert done s. induction h as [|m r IH]; intros done s I F.
  - simpl. rewrite app_nil_r. auto.
  - inversion F as [|? ? G F']; subst. unfold reports in *. cbn [fold_left flat_map].
    destruct (inv_go I (sound_good G)) as (s' & E & I' & _). rewrite report_go, E. cbn [fst].
    rewrite app_assoc. apply IH; auto.
Qed.

(** ** What the operations amount to *)
Lemma logged_wops key ops : histogram_key key = None ->
  logged key (wops ops) = flat_map (fun o => if (fst o =? key)%string then match snd o with inl z => [z] | inr l => l end else []) ops.
Proof.
  intros Hk. induction ops as [|[k v] r IH]; simpl; auto. unfold wops in *. simpl. rewrite logged_app, IH. f_equal.
  unfold wop. cbn [fst snd]. destruct (String.eqb_spec k key) as [->|N].
  - rewrite Hk. unfold logged. simpl. rewrite String.eqb_refl, app_nil_r. destruct v; auto.
  - destruct (histogram_key k); auto. unfold logged. simpl.
    replace (k =? key)%string with false by (symmetry; apply String.eqb_neq; auto). auto.
Qed.
Lemma rops_flat {B} key (f : Z + list Z -> list B) m :
  flat_map (fun o => if (fst o =? key)%string then f (snd o) else []) (rops m)
  = flat_map (fun z => f (inl z)) (about key (mt_info m)) ++ flat_map (fun l => f (inr l)) (about key (mt_lists m)).
Proof.
  unfold rops. rewrite flat_map_app. f_equal; unfold about.
  - generalize (mt_info m) as d. induction d as [|[a b] r IH]; simpl; auto. rewrite IH.
    destruct (String.eqb_spec a key); auto.
  - generalize (mt_lists m) as d. induction d as [|[a b] r IH]; simpl; auto. rewrite IH.
    destruct (String.eqb_spec a key); auto.
Qed.
Lemma flat_map_flat_map {A B C} (f : A -> list B) (g : B -> list C) l :
  flat_map g (flat_map f l) = flat_map (fun x => flat_map g (f x)) l.
Proof. induction l as [|x r IH]; simpl; auto. rewrite flat_map_app, IH. auto. Qed.
Lemma logged_reports key h : ~ is_histogram key ->
  logged key (wops (flat_map rops h)) = reported key h.
Proof.
  intros N. rewrite logged_wops by (apply histogram_key_None; auto). rewrite flat_map_flat_map.
  unfold reported. induction h as [|m r IH]; simpl; auto. rewrite IH. f_equal.
  rewrite (rops_flat key (fun v => match v with inl z => [z] | inr l => l end)). f_equal.
  - generalize (about key (mt_info m)). intros l. induction l; simpl; congruence.
Qed.
Lemma mentioned_wops key ops : mentioned key (wops ops) <-> ~ is_histogram key /\ In key (map fst ops).
Proof.
  unfold mentioned, wops. rewrite in_map_iff. split.
  - intros ([a b] & E & I). cbn [fst] in E. subst a. apply in_flat_map in I. destruct I as ([p q] & I & J).
    unfold wop in J. cbn [fst snd] in J. destruct (histogram_key p) eqn:Hp; [destruct J|]. destruct J as [J|[]].
    injection J as -> _. split; [apply histogram_key_None; auto|]. apply in_map_iff. exists (key, q). auto.
  - intros [N I]. apply in_map_iff in I. destruct I as ([p q] & E & I). cbn [fst] in E. subst p.
    eexists. split; [|apply in_flat_map; exists (key, q); split; [exact I|]].
    2: { unfold wop. cbn [fst snd]. apply histogram_key_None in N. rewrite N. left. reflexivity. }
    reflexivity.
Qed.
Lemma keys_rops key h : In key (map fst (flat_map rops h)) <-> reported_at_all key h.
Proof.
  unfold reported_at_all. rewrite in_map_iff. split.
  - intros ([a b] & E & I). cbn [fst] in E. subst a. apply in_flat_map in I. destruct I as (m & Im & I).
    exists m. split; auto. unfold rops in I. apply in_app_iff in I.
    destruct I as [I|I]; apply in_map_iff in I; destruct I as ([p q] & E & I); injection E as <- <-; [left|right];
      apply in_map_iff; exists (p, q); auto.
  - intros (m & Im & [I|I]); apply in_map_iff in I; destruct I as ([p q] & E & I); cbn [fst] in E; subst p.
    + exists (key, inl q). split; auto. apply in_flat_map. exists m. split; auto. unfold rops. apply in_app_iff. left.
      apply in_map_iff. exists (key, q). auto.
    + exists (key, inr q). split; auto. apply in_flat_map. exists m. split; auto. unfold rops. apply in_app_iff. right.
      apply in_map_iff. exists (key, q). auto.
Qed.
Lemma about_hops k ops :
  about k (hops ops) = flat_map (fun o => if (fst o =? ("histogram:" +++ k))%string then match snd o with inl z => [HNum z] | inr l => [HMany l] end else []) ops.
Proof.
  induction ops as [|[a v] r IH]; [reflexivity|]. unfold hops in *. cbn [flat_map fst snd]. rewrite about_app, IH. f_equal.
  unfold hop. cbn [fst snd]. destruct (histogram_key a) as [b|] eqn:Ha.
  - apply histogram_key_spec in Ha. subst a. unfold about. cbn [filter fst].
    destruct (String.eqb_spec b k) as [->|N].
    + rewrite String.eqb_refl. destruct v; auto.
    + match goal with |- _ = if ?c then _ else _ => assert (Ec : c = false) end.
      { apply String.eqb_neq. intros E. apply N. simpl in E. congruence. }
      rewrite Ec. auto.
  - destruct (String.eqb_spec a ("histogram:" +++ k)) as [->|N]; auto.
    assert (X : histogram_key ("histogram:" +++ k) = Some k) by (apply histogram_key_spec; auto). congruence.
Qed.
