(** * RepRun: the answers of get_report *)
From Coq Require Import Ascii.
From Verif Require Import Py PyLemmas CkptModel CkptProofs LogModel LogSpec LogProofs ProxyModel LoaderModel RepModel RepSpec RepProofs RepMore.
Set Implicit Arguments.
Open Scope string_scope.
Open Scope list_scope.
Open Scope Z_scope.

(** ** Facts about a state reached by sound reports *)
Definition sound_op (o : rop) : Prop :=
  usable (fst o) /\ match snd o with inl _ => True | inr l => l <> [] end.
Lemma sound_ops m : sound_report m -> Forall sound_op (rops m).
Proof.
  intros [A B]. apply Forall_forall. intros [k v] I. unfold rops in I.
  apply in_app_iff in I. destruct I as [I|I]; apply in_map_iff in I; destruct I as ([a b] & E & I); injection E as <- <-; split; cbn [fst snd]; auto.
  - eapply A; eauto.
  - eapply B; eauto.
  - eapply B; eauto.
Qed.
Lemma sound_ops_all h : Forall sound_report h -> Forall sound_op (flat_map rops h).
Proof.
  intros F. apply Forall_forall. intros o I. apply in_flat_map in I. destruct I as (m & Im & I).
  rewrite Forall_forall in F. specialize (sound_ops (F _ Im)). rewrite Forall_forall. auto.
Qed.
Section State.
Variables (done : list rop) (s : mlogs).
Hypothesis II : Inv done s.
Hypothesis SO : Forall sound_op done.

Lemma wops_ok : Forall (fun kv => plain (snd kv) /\ numbers (snd kv) <> []) (wops done)
  /\ (forall key, mentioned key (wops done) -> (exists n, window_length 1000 key = Ok n /\ 0 < n) /\ exists t, window_tag key = Ok t).
Proof.
  split.
  - apply Forall_forall. intros [k v] I. split; [pose proof (wops_plain done) as F; rewrite Forall_forall in F; apply (F _ I)|].
    unfold wops in I. apply in_flat_map in I. destruct I as ([a x] & Ia & I). unfold wop in I. cbn [fst snd] in *.
    rewrite Forall_forall in SO. destruct (SO _ Ia) as [_ N]. cbn [snd] in N.
    destruct (histogram_key a); [destruct I|]. destruct I as [E|[]]. injection E as <- <-. destruct x; simpl; auto; discriminate.
  - intros key Me. apply mentioned_wops in Me. destruct Me as [N I]. apply in_map_iff in I. destruct I as (o & E & I).
    rewrite Forall_forall in SO. destruct (SO _ I) as [U _]. rewrite E in U. apply U. auto.
Qed.
Lemma st_reported key : ~ is_histogram key -> In key (map fst done) ->
  exists n w, window_length 1000 key = Ok n /\ dget (lg_windows s) key = Some (w, n)
  /\ last_of n (logged key (wops done)) w /\ w <> [] /\ dget (lg_cumulative s) key = Some (zsum (logged key (wops done))).
Proof.
  intros N I. assert (Me : mentioned key (wops done)) by (apply mentioned_wops; auto).
  destruct wops_ok as [F K]. destruct (K _ Me) as [(n & WL & Hn) _].
  destruct (@windows_main _ (wops done) 1000 no_media key n) as [(w & Ew & Lw) Ec]; auto; [apply wops_plain|lia|].
  exists n, w. rewrite (inv_w II), (inv_c II). split; auto. split; auto. split; auto. split; auto.
  eapply history_nonempty with (ops := wops done) (default := 1000) (p := no_media) (k := key) (n := n); auto.
  - intros k' Mk. destruct (K _ Mk) as [(n' & E & P) _]. intros X. rewrite X in E. injection E as <-. lia.
  - apply dget_In. exact Ew.
Qed.
Lemma st_unreported key : is_histogram key \/ ~ In key (map fst done) ->
  dget (lg_windows s) key = None /\ dget (lg_cumulative s) key = None.
Proof.
  intros C. rewrite (inv_w II), (inv_c II). apply windows_unused; [apply wops_plain|].
  rewrite mentioned_wops. tauto.
Qed.
Lemma st_window k w n : In (k, (w, n)) (lg_windows s) ->
  ~ is_histogram k /\ In k (map fst done) /\ dget (lg_windows s) k = Some (w, n) /\ w <> [] /\ exists t, window_tag k = Ok t.
Proof.
  intros I.
  assert (G : dget (lg_windows s) k = Some (w, n)).
  { apply In_dget; auto. rewrite (inv_w II). apply windows_nodup. constructor. }
  assert (J : ~ is_histogram k /\ In k (map fst done)).
  { destruct (histogram_key k) as [j|] eqn:Hk.
    - apply histogram_key_spec in Hk. destruct (@st_unreported k) as [E _]; [left; exists j; auto|congruence].
    - apply histogram_key_None in Hk. split; auto. destruct (in_dec string_dec k (map fst done)) as [J|J]; auto.
      destruct (@st_unreported k) as [E _]; auto. congruence. }
  destruct J as [J1 J2]. split; auto. split; auto. split; auto.
  destruct (st_reported J1 J2) as (n' & w' & _ & E & _ & Nw & _). rewrite G in E. injection E as <- <-. split; auto.
  apply wops_ok. apply mentioned_wops. auto.
Qed.
Lemma st_cumulative k v : In (k, v) (lg_cumulative s) -> exists t, window_tag k = Ok t.
Proof.
  intros I. apply wops_ok. apply mentioned_wops.
  assert (G : dget (lg_cumulative s) k <> None).
  { intros E. apply dget_None in E. apply E. apply in_map_iff. exists (k, v). auto. }
  destruct (histogram_key k) as [j|] eqn:Hk.
  - apply histogram_key_spec in Hk. destruct (@st_unreported k) as [_ E]; [left; exists j; auto|congruence].
  - apply histogram_key_None in Hk. split; auto. destruct (in_dec string_dec k (map fst done)) as [J|J]; auto.
    destruct (@st_unreported k) as [_ E]; auto. congruence.
Qed.
Lemma hops_hist k : dget (md_hists (lg_other s)) k = fold_left (hstep 1000) (about k (hops done)) None.
Proof. rewrite (inv_h II), hist_all_get. reflexivity. Qed.
Lemma hist_nodup ops (t : mlogs) : NoDup (dkeys (md_hists (lg_other t))) -> NoDup (dkeys (md_hists (lg_other (hist_all ops t)))).
Proof.
  revert t. induction ops as [|[k v] r IH]; intros t N; auto. unfold hist_all in *. cbn [fold_left fst snd]. apply IH.
  assert (G : forall (d : dict string hist) a b, NoDup (dkeys d) -> NoDup (dkeys (dset d a b))).
  { intros d a b Nd. change (dset d a b) with (dupdate d [(a, b)]). apply NoDup_dupdate. auto. }
  unfold log_histogram. destruct v as [z|l|l]; cbn [fst set_hist with_media lg_other md_hists]; auto.
  destruct (dget (md_hists (lg_other t)) k) as [[w n|l|l]|]; cbn [fst set_hist with_media lg_other md_hists]; auto.
  destruct (lg_default t <? 0); cbn [fst set_hist with_media lg_other md_hists]; auto.
Qed.
Lemma st_hist k h : In (k, h) (md_hists (lg_other s)) ->
  dget (md_hists (lg_other s)) k = Some h /\ hist_values h <> [].
Proof.
  intros I.
  assert (G : dget (md_hists (lg_other s)) k = Some h).
  { apply In_dget; auto. rewrite (inv_h II). apply hist_nodup. constructor. }
  split; auto. rewrite hops_hist in G.
  assert (NL : forall v, In v (about k (hops done)) -> match v with HMany l => l <> [] | HNum _ => True | HTensor _ => False end).
  { intros v J. rewrite about_hops in J. apply in_flat_map in J. destruct J as ([a x] & Ia & J). cbn [fst snd] in J.
    rewrite Forall_forall in SO. destruct (SO _ Ia) as [_ N]. cbn [snd] in N.
    destruct (a =? _)%string; [|destruct J]. destruct x; destruct J as [<-|[]]; auto. }
  clear I. assert (Q : match fold_left (hstep 1000) (about k (hops done)) None with
     | Some (HDeque w n) => w <> [] /\ 0 < n | Some h => hist_values h <> [] | None => True end).
  { revert NL. generalize (about k (hops done)). intros vs. clear G. induction vs as [|v r IH] using rev_ind; intros NL; [exact Logic.I|].
    rewrite fold_left_app. cbn [fold_left]. assert (NL' : forall v, In v r -> match v with HMany l => l <> [] | HNum _ => True | HTensor _ => False end).
    { intros x Ix. apply NL. apply in_app_iff. auto. }
    specialize (IH NL'). specialize (NL v ltac:(apply in_app_iff; right; left; reflexivity)).
    assert (DQ : forall w n z, 0 < n -> dq_extend w n [z] <> []).
    { intros w n z Hn E. apply (f_equal (@List.length Z)) in E. unfold dq_extend in E.
      rewrite skipn_length, app_length in E. simpl in E. lia. }
    destruct (fold_left (hstep 1000) r None) as [[w n|l|l]|]; destruct v as [z|l'|l']; simpl in NL |- *; auto; try tauto.
    - destruct IH. split; auto.
    - intros E. apply app_eq_nil in E. destruct E. discriminate.
    - split; [|lia]. apply (DQ [] 1000 z). lia. }
  rewrite G in Q. destruct h as [w n|l|l]; simpl; tauto.
Qed.

(** ** get_report *)
Variable infs : Z.
Definition window_sets (key : string) : list (string * rval) * list (string * list Z) :=
  match dget (lg_windows s) key, dget (lg_cumulative s) key with
  | Some (w, _), Some c => ([(key, RMean (zsum w) (zlen w)); (key +++ "/cumulative", RVal c)], [(key, w)])
  | _, _ => if (key =? "inf_step")%string then ([(key, RVal infs)], []) else ([], [])
  end.
Definition sets (key : string) : list (string * rval) * list (string * list Z) :=
  match histogram_key key with
  | Some k => match dget (md_hists (lg_other s)) k with
              | Some h => ([(key, RMean (zsum (hist_values h)) (zlen (hist_values h)))], [])
              | None => window_sets key
              end
  | None => window_sets key
  end.
Lemma mean_ok l : l <> [] -> mean_of l = Ok (RMean (zsum l) (zlen l)).
Proof. intros N. unfold mean_of. destruct l; [congruence|]. unfold zlen. simpl List.length. destruct (Z.eqb_spec (Z.of_nat (S (List.length l))) 0); auto. lia. Qed.
Lemma get_one_ok key out :
  get_one infs s key out = Ok (dupdate (fst out) (fst (sets key)), dupdate (snd out) (snd (sets key))).
Proof.
  assert (W : match dget (lg_windows s) key with
    | Some (w, _) =>
        rbind (mean_of w) (fun m =>
        match dget (lg_cumulative s) key with
        | None => Err KeyError
        | Some c => Ok (dset (dset (fst out) key m) (key +++ "/cumulative") (RVal c), dset (snd out) key w)
        end)
    | None => if (key =? "inf_step")%string then Ok (dset (fst out) key (RVal infs), snd out) else Ok out
    end = Ok (dupdate (fst out) (fst (window_sets key)), dupdate (snd out) (snd (window_sets key)))).
  { unfold window_sets. destruct (dget (lg_windows s) key) as [[w n]|] eqn:G.
    - destruct (st_window _ _ _ (dget_In _ _ G)) as (N & I & _ & Nw & _).
      destruct (st_reported N I) as (_ & _ & _ & _ & _ & _ & C). rewrite C. rewrite mean_ok by auto. reflexivity.
    - destruct (key =? "inf_step")%string; auto. simpl. destruct out; auto. }
  unfold get_one, sets. destruct (histogram_key key) as [k|]; auto.
  destruct (dget (md_hists (lg_other s)) k) as [h|] eqn:G; auto.
  destruct (st_hist _ _ (dget_In _ _ G)) as [_ N]. rewrite mean_ok by auto. reflexivity.
Qed.
Lemma get_report_ok order out :
  get_report infs s order out = Ok (dupdate (fst out) (flat_map (fun k => fst (sets k)) order),
                                    dupdate (snd out) (flat_map (fun k => snd (sets k)) order)).
Proof.
  revert out. induction order as [|k r IH]; intros out; [simpl; destruct out; auto|].
  cbn [get_report flat_map]. rewrite get_one_ok. cbn [rbind]. rewrite IH. cbn [fst snd].
  unfold dupdate. rewrite !fold_left_app. auto.
Qed.
Lemma dget_dupdate_all {V} (d e : dict string V) t v :
  In (t, v) e -> (forall v', In (t, v') e -> v' = v) -> dget (dupdate d e) t = Some v.
Proof.
  revert d. induction e as [|[k x] r IH] using rev_ind; intros d I U; [destruct I|].
  unfold dupdate in *. rewrite fold_left_app. cbn [fold_left fst snd].
  destruct (String.eqb_spec k t) as [->|N].
  - rewrite dget_dset_eq. f_equal. apply U. apply in_app_iff. right. left. auto.
  - rewrite dget_dset_neq by auto. apply IH.
    + apply in_app_iff in I. destruct I as [I|[E|[]]]; auto. congruence.
    + intros v' Iv. apply U. apply in_app_iff. auto.
Qed.
Lemma dget_dupdate_out {V} (d e : dict string V) t :
  ~ In t (map fst e) -> dget (dupdate d e) t = dget d t.
Proof.
  revert d. induction e as [|[k x] r IH]; intros d N; auto. unfold dupdate in *. cbn [fold_left fst snd map In] in *.
  rewrite IH by tauto. apply dget_dset_neq. tauto.
Qed.
Lemma sets_keys k t v : In (t, v) (fst (sets k)) -> t = k \/ t = k +++ "/cumulative" /\ ~ is_histogram k.
Proof.
  assert (W : histogram_key k = None \/ dget (lg_windows s) k = None -> In (t, v) (fst (window_sets k)) -> t = k \/ t = k +++ "/cumulative" /\ ~ is_histogram k).
  { unfold window_sets. intros Hk. destruct (dget (lg_windows s) k) as [[w n]|].
    - destruct Hk as [Hk|]; [|discriminate]. apply histogram_key_None in Hk.
      destruct (dget (lg_cumulative s) k); cbn [fst In].
      + intros [E|[E|[]]]; injection E as <- <-; auto.
      + destruct (k =? "inf_step")%string; cbn [fst In]; [|tauto]. intros [E|[]]; injection E as <- <-; auto.
    - destruct (k =? "inf_step")%string; cbn [fst In]; [|tauto]. intros [E|[]]; injection E as <- <-; auto. }
  unfold sets. destruct (histogram_key k) as [j|] eqn:Hk.
  - destruct (dget (md_hists (lg_other s)) j) as [h|]; cbn [fst In].
    + intros [E|[]]; injection E as <- <-; auto.
    + apply W. right. apply st_unreported. left. apply histogram_key_spec in Hk. exists j. auto.
  - apply W. auto.
Qed.
Lemma lsets_keys k t v : In (t, v) (snd (sets k)) -> t = k.
Proof.
  assert (W : In (t, v) (snd (window_sets k)) -> t = k).
  { unfold window_sets. destruct (dget (lg_windows s) k) as [[w n]|]; [destruct (dget (lg_cumulative s) k)|];
    try (destruct (k =? "inf_step")%string); cbn [snd In]; try tauto; intros [E|[]]; injection E as <- <-; auto. }
  unfold sets. destruct (histogram_key k) as [j|]; auto. destruct (dget (md_hists (lg_other s)) j) as [h|]; auto. intros [].
Qed.
Section Answers.
Variable order : list string.
Hypothesis NC : forall a, In a order -> ~ In (a +++ "/cumulative") order.
Let out := dupdate [] (flat_map (fun k => fst (sets k)) order) : dict string rval.
Let lists := dupdate [] (flat_map (fun k => snd (sets k)) order) : dict string (list Z).
Lemma no_self key : key +++ "/cumulative" <> key.
Proof. intros E. apply (f_equal String.length) in E. rewrite append_length in E. simpl in E. lia. Qed.
Lemma out_key key v : In key order -> In (key, v) (fst (sets key)) ->
  (forall v', In (key, v') (fst (sets key)) -> v' = v) -> dget out key = Some v.
Proof.
  intros I J U. apply dget_dupdate_all.
  - apply in_flat_map. exists key. auto.
  - intros v' K. apply in_flat_map in K. destruct K as (k & Ik & K).
    destruct (sets_keys _ _ _ K) as [E|[E _]]; [subst k; auto|]. exfalso. apply (NC _ Ik). rewrite <- E. auto.
Qed.
Lemma out_cumulative key v : In key order -> In (key +++ "/cumulative", v) (fst (sets key)) ->
  (forall v', In (key +++ "/cumulative", v') (fst (sets key)) -> v' = v) -> dget out (key +++ "/cumulative") = Some v.
Proof.
  intros I J U. apply dget_dupdate_all.
  - apply in_flat_map. exists key. auto.
  - intros v' K. apply in_flat_map in K. destruct K as (k & Ik & K).
    destruct (sets_keys _ _ _ K) as [E|[E _]]; [subst k; destruct (NC _ I); auto|].
    apply sapp_inj_r in E. subst k. auto.
Qed.
Lemma lists_key key v : In key order -> In (key, v) (snd (sets key)) ->
  (forall v', In (key, v') (snd (sets key)) -> v' = v) -> dget lists key = Some v.
Proof.
  intros I J U. apply dget_dupdate_all.
  - apply in_flat_map. exists key. auto.
  - intros v' K. apply in_flat_map in K. destruct K as (k & Ik & K). apply lsets_keys in K as E. subst k. auto.
Qed.
Lemma answers_window key : In key order -> ~ is_histogram key -> In key (map fst done) ->
  answered key (logged key (wops done)) out lists.
Proof.
  intros I N J. destruct (st_reported N J) as (n & w & WL & G & L & Nw & C). exists n, w.
  assert (E : sets key = ([(key, RMean (zsum w) (zlen w)); (key +++ "/cumulative", RVal (zsum (logged key (wops done))))], [(key, w)])).
  { unfold sets, window_sets. rewrite (proj2 (histogram_key_None key) N), G, C. auto. }
  pose proof (@no_self key) as NS.
  split; auto. split; auto. split; [|split].
  - apply out_key; auto; rewrite E; cbn [fst In]; auto. intros v' [X|[X|[]]]; congruence.
  - apply lists_key; auto; rewrite E; cbn [snd In]; auto. intros v' [X|[]]; congruence.
  - apply out_cumulative; auto; rewrite E; cbn [fst In]; auto. intros v' [X|[X|[]]]; congruence.
Qed.
Lemma answers_hist k h : In ("histogram:" +++ k) order -> dget (md_hists (lg_other s)) k = Some h ->
  dget out ("histogram:" +++ k) = Some (RMean (zsum (hist_values h)) (zlen (hist_values h))).
Proof.
  intros I G.
  assert (E : sets ("histogram:" +++ k) = ([("histogram:" +++ k, RMean (zsum (hist_values h)) (zlen (hist_values h)))], [])).
  { unfold sets. rewrite (proj2 (histogram_key_spec _ _) eq_refl), G. auto. }
  apply out_key; auto; rewrite E; cbn [fst In]; auto. intros v' [X|[]]. congruence.
Qed.
Lemma answers_inf : In "inf_step" order -> ~ In "inf_step" (map fst done) -> dget out "inf_step" = Some (RVal infs).
Proof.
  intros I J. destruct (@st_unreported "inf_step") as [G _]; auto.
  assert (E : sets "inf_step" = ([("inf_step", RVal infs)], [])).
  { unfold sets, window_sets. change (histogram_key "inf_step") with (@None string). rewrite G. auto. }
  apply out_key; auto; rewrite E; cbn [fst In]; auto. intros v' [X|[]]. congruence.
Qed.
Lemma answers_else key : ~ In key order -> (forall a, In a order -> key <> a +++ "/cumulative") ->
  dget out key = None /\ dget lists key = None.
Proof.
  intros N C. split.
  - unfold out. rewrite dget_dupdate_out; auto. intros I. apply in_map_iff in I. destruct I as ([t v] & E & I). cbn [fst] in E. subst t.
    apply in_flat_map in I. destruct I as (k & Ik & I). destruct (sets_keys _ _ _ I) as [E|[E _]]; [congruence|]. eapply C; eauto.
  - unfold lists. rewrite dget_dupdate_out; auto. intros I. apply in_map_iff in I. destruct I as ([t v] & E & I). cbn [fst] in E. subst t.
    apply in_flat_map in I. destruct I as (k & Ik & I). apply lsets_keys in I. congruence.
Qed.
Lemma hist_absent k : ~ In ("histogram:" +++ k) (map fst done) -> dget (md_hists (lg_other s)) k = None.
Proof.
  intros N. rewrite hops_hist, about_hops.
  replace (flat_map _ done) with (@nil hval); auto. symmetry. clear -N. induction done as [|[a v] r IH]; auto.
  cbn [flat_map map In fst snd] in *. rewrite IH by tauto.
  destruct (String.eqb_spec a ("histogram:" +++ k)); [tauto|auto].
Qed.
Lemma answers_unreported key : In key order -> ~ In key (map fst done) -> key <> "inf_step" ->
  dget out key = None /\ dget lists key = None.
Proof.
  intros I J Ni. destruct (@st_unreported key) as [G _]; auto.
  assert (E : sets key = ([], [])).
  { unfold sets, window_sets. rewrite G.
    replace (key =? "inf_step")%string with false by (symmetry; apply String.eqb_neq; auto).
    destruct (histogram_key key) as [k|] eqn:Hk; auto. apply histogram_key_spec in Hk. subst key. rewrite hist_absent; auto. }
  split.
  - unfold out. rewrite dget_dupdate_out; auto. intros K. apply in_map_iff in K. destruct K as ([t v] & Et & K). cbn [fst] in Et. subst t.
    apply in_flat_map in K. destruct K as (k & Ik & K). destruct (sets_keys _ _ _ K) as [Ek|[Ek _]].
    + subst k. rewrite E in K. destruct K.
    + subst key. apply (NC _ Ik). auto.
  - unfold lists. rewrite dget_dupdate_out; auto. intros K. apply in_map_iff in K. destruct K as ([t v] & Et & K). cbn [fst] in Et. subst t.
    apply in_flat_map in K. destruct K as (k & Ik & K). apply lsets_keys in K as Ek. subst k. rewrite E in K. destruct K.
Qed.
End Answers.
End State.

Lemma hops_numbers k h : numbers_only ("histogram:" +++ k) h ->
  about k (hops (flat_map rops h)) = map HNum (reported ("histogram:" +++ k) h).
Proof.
  intros N. rewrite about_hops, flat_map_flat_map. unfold reported.
  induction h as [|m r IH]; auto. cbn [flat_map]. rewrite IH by (intros x Ix; apply N; right; auto).
  rewrite map_app. f_equal.
  rewrite (rops_flat ("histogram:" +++ k) (fun v => match v with inl z => [HNum z] | inr l => [HMany l] end)).
  rewrite (N m) by (left; auto). cbn [flat_map List.concat]. rewrite !app_nil_r.
  generalize (about ("histogram:" +++ k) (mt_info m)). intros l. induction l; simpl; congruence.
Qed.
Lemma reported_nonempty key h : Forall sound_report h -> reported_at_all key h -> reported key h <> [].
Proof.
  intros F (m & Im & C) E. rewrite Forall_forall in F. destruct (F _ Im) as [_ B].
  assert (X : about key (mt_info m) ++ List.concat (about key (mt_lists m)) = []).
  { unfold reported in E. clear -Im E. induction h as [|x r IH]; [destruct Im|]. cbn [flat_map] in E. apply app_eq_nil in E.
    destruct E as [E1 E2]. destruct Im as [->|Im]; auto. }
  apply app_eq_nil in X. destruct X as [X1 X2].
  assert (A : forall V (d : list (string * V)), In key (map fst d) -> exists v, In (key, v) d /\ In v (about key d)).
  { intros V d I. apply in_map_iff in I. destruct I as ([a v] & Ea & I). cbn [fst] in Ea. subst a. exists v. split; auto.
    unfold about. apply in_map_iff. exists (key, v). split; auto. apply filter_In. cbn [fst]. rewrite String.eqb_refl. auto. }
  destruct C as [C|C].
  - destruct (A _ _ C) as (v & _ & I). rewrite X1 in I. destruct I.
  - destruct (A _ _ C) as (v & J & I). destruct (B _ _ J) as [_ Nv]. destruct v as [|z zs]; [congruence|].
    assert (Y : In z (List.concat (about key (mt_lists m)))) by (apply in_concat; exists (z :: zs); split; [auto|left; auto]).
    rewrite X2 in Y. destruct Y.
Qed.
Lemma report_main h infs order : Forall sound_report h ->
  (forall a, In a order -> ~ In (a +++ "/cumulative") order) ->
  exists out lists, get_report infs (reports h (fresh 1000)) order ([], []) = Ok (out, lists)
  /\ (forall key, In key order -> ~ is_histogram key -> reported_at_all key h -> answered key (reported key h) out lists)
  /\ (forall k w, In ("histogram:" +++ k) order -> shown k (reports h (fresh 1000)) = Some w ->
        dget out ("histogram:" +++ k) = Some (RMean (zsum w) (zlen w)))
  /\ (In "inf_step" order -> ~ reported_at_all "inf_step" h -> dget out "inf_step" = Some (RVal infs))
  /\ (forall key, In key order -> ~ reported_at_all key h -> key <> "inf_step" -> dget out key = None /\ dget lists key = None)
  /\ (forall key, ~ In key order -> (forall a, In a order -> key <> a +++ "/cumulative") -> dget out key = None /\ dget lists key = None).
Proof.
  intros F NC. pose proof (reports_inv inv_fresh F) as I. cbn [app] in I. pose proof (sound_ops_all F) as SO.
  eexists. eexists. split; [apply (get_report_ok I SO)|]. cbn [fst snd]. split; [|split; [|split; [|split]]].
  - intros key Ik N R. rewrite <- logged_reports by auto. apply answers_window; auto. apply keys_rops. auto.
  - intros k w Ik Sh. unfold shown in Sh. destruct (dget _ k) as [x|] eqn:G; [|discriminate]. injection Sh as <-.
    apply (answers_hist I); auto.
  - intros Ik N. apply answers_inf with (done := flat_map rops h); auto. rewrite keys_rops. auto.
  - intros key Ik N Ni. apply answers_unreported with (done := flat_map rops h); auto. rewrite keys_rops. auto.
  - intros key N C. apply answers_else with (done := flat_map rops h); auto.
Qed.
Lemma report_hist_numbers h k : Forall sound_report h ->
  numbers_only ("histogram:" +++ k) h -> reported_at_all ("histogram:" +++ k) h ->
  exists w, shown k (reports h (fresh 1000)) = Some w /\ last_of 1000 (reported ("histogram:" +++ k) h) w.
Proof.
  intros F N R. pose proof (reports_inv inv_fresh F) as I. cbn [app] in I.
  destruct (@hist_numbers 1000 (hops (flat_map rops h)) k (reported ("histogram:" +++ k) h)) as (w & E & L); auto; [lia|apply hops_numbers; auto|apply reported_nonempty; auto|].
  exists w. split; auto. unfold shown in *. rewrite (inv_h I). auto.
Qed.
