(** * RepWrap: the logging wrapper with metadata *)
From Coq Require Import Ascii.
From Verif Require Import Py PyLemmas CkptModel CkptProofs LogModel LogSpec LogProofs ProxyModel LoaderModel RepModel RepSpec RepProofs RepMore RepRun.
Set Implicit Arguments.
Open Scope string_scope.
Open Scope list_scope.
Open Scope Z_scope.

(** ** Writing *)
Lemma write_means_ok step ws : (forall k w n, In (k, (w, n)) ws -> w <> [] /\ exists t, window_tag k = Ok t) ->
  exists ev, write_means step ws = (ev, Ok tt)
  /\ (forall k w n t, In (k, (w, n)) ws -> window_tag k = Ok t -> In (EScalar t (RMean (zsum w) (zlen w)) step) ev)
  /\ (forall e, In e ev -> exists k w n t, In (k, (w, n)) ws /\ window_tag k = Ok t /\ e = EScalar t (RMean (zsum w) (zlen w)) step).
Proof.
  induction ws as [|[k [w n]] r IH]; intros K.
  - exists []. split; auto. split; [intros ? ? ? ? []|intros ? []].
  - destruct IH as (ev & E & A & B). { intros. eapply K. right. eauto. }
    destruct (K k w n) as [N [t T]]; [left; auto|]. exists (EScalar t (RMean (zsum w) (zlen w)) step :: ev).
    split; [|split].
    + cbn [write_means]. rewrite T. cbn [rbind]. rewrite mean_ok by auto. cbn [rbind]. rewrite E. auto.
    + intros k' w' n' t' [I|I] T'; [injection I as <- <- <-; left; congruence|right; eauto].
    + intros e [<-|I]; [exists k, w, n, t; split; auto; left; auto|].
      destruct (B _ I) as (k' & w' & n' & t' & I' & R). exists k', w', n', t'. split; auto. right. auto.
Qed.
Lemma write_cumulative_ok step cs : (forall k v, In (k, v) cs -> exists t, window_tag k = Ok t) ->
  exists ev, write_cumulative step cs = (ev, Ok tt)
  /\ (forall k v t, In (k, v) cs -> window_tag k = Ok t -> In (EScalar (t +++ "/cumulative") (RVal v) step) ev)
  /\ (forall e, In e ev -> exists k v t, In (k, v) cs /\ window_tag k = Ok t /\ e = EScalar (t +++ "/cumulative") (RVal v) step).
Proof.
  induction cs as [|[k v] r IH]; intros K.
  - exists []. split; auto. split; [intros ? ? ? []|intros ? []].
  - destruct IH as (ev & E & A & B). { intros. eapply K. right. eauto. }
    destruct (K k v) as [t T]; [left; auto|]. exists (EScalar (t +++ "/cumulative") (RVal v) step :: ev).
    split; [|split].
    + cbn [write_cumulative]. rewrite T, E. auto.
    + intros k' v' t' [I|I] T'; [injection I as <- <-; left; congruence|right; eauto].
    + intros e [<-|I]; [exists k, v, t; split; auto; left; auto|].
      destruct (B _ I) as (k' & v' & t' & I' & R). exists k', v', t'. split; auto. right. auto.
Qed.
Lemma write_hists_ok step hs : (forall k h, In (k, h) hs -> hist_values h <> []) ->
  write_hists step hs = (map (fun kh => EHist (fst kh) (hist_values (snd kh)) step) hs, Ok tt).
Proof.
  induction hs as [|[k h] r IH]; intros K; auto. cbn [write_hists map fst snd].
  rewrite IH by (intros; eapply K; right; eauto). specialize (K k h (or_introl eq_refl)).
  destruct (hist_values h); [congruence|auto].
Qed.
Lemma then_ok a b : then_write (a, Ok tt) (b, Ok tt) = (a ++ b, Ok tt).
Proof. auto. Qed.

(** What the scalars of a cycle are *)
Lemma cycle_scalars_other name ci eps rd s :
  lg_windows (cycle_scalars name ci eps rd s) = lg_windows s
  /\ lg_cumulative (cycle_scalars name ci eps rd s) = lg_cumulative s
  /\ lg_default (cycle_scalars name ci eps rd s) = lg_default s
  /\ md_hists (lg_other (cycle_scalars name ci eps rd s)) = md_hists (lg_other s)
  /\ md_images (lg_other (cycle_scalars name ci eps rd s)) = md_images (lg_other s)
  /\ md_videos (lg_other (cycle_scalars name ci eps rd s)) = md_videos (lg_other s).
Proof.
  unfold cycle_scalars. set (s2 := log_value _ _ (log_value _ _ s)).
  assert (E : forall ts (x : mlogs), lg_windows x = lg_windows s -> lg_cumulative x = lg_cumulative s ->
     lg_default x = lg_default s -> md_hists (lg_other x) = md_hists (lg_other s) ->
     md_images (lg_other x) = md_images (lg_other s) -> md_videos (lg_other x) = md_videos (lg_other s) ->
     let y := fold_left (fun s t =>
      let pre := "memory/" +++ name +++ "/" +++ fst t in
      log_value (pre +++ "/timing/var") (RVal (snd (snd t)))
        (log_value (pre +++ "/timing/mean") (RVal (fst (snd t))) s)) ts x in
     lg_windows y = lg_windows s /\ lg_cumulative y = lg_cumulative s /\ lg_default y = lg_default s
     /\ md_hists (lg_other y) = md_hists (lg_other s) /\ md_images (lg_other y) = md_images (lg_other s)
     /\ md_videos (lg_other y) = md_videos (lg_other s)).
  { induction ts as [|t r IH]; intros x X1 X2 X3 X4 X5 X6; [cbn; auto 10|]. cbn [fold_left]. apply IH; auto. }
  apply (E (rd_timers rd) s2); auto.
Qed.
Lemma timers_get name ts key v (x : mlogs) :
  dget (md_scalars (lg_other x)) key = Some v -> String.prefix "memory/" key = false ->
  dget (md_scalars (lg_other (fold_left (fun s t =>
      let pre := "memory/" +++ name +++ "/" +++ fst t in
      log_value (pre +++ "/timing/var") (RVal (snd (snd t)))
        (log_value (pre +++ "/timing/mean") (RVal (fst (snd t))) s)) ts x))) key = Some v.
Proof.
  revert x. induction ts as [|t r IH]; intros x G P; auto. cbn [fold_left]. apply IH; auto.
  cbn [log_value with_media lg_other md_scalars].
  assert (N : forall k, "memory/" +++ k <> key).
  { intros k <-. assert (X : String.prefix "memory/" ("memory/" +++ k) = true) by (apply prefix_spec; eauto). congruence. }
  rewrite !dget_dset_neq; auto; rewrite sapp_assoc; apply N.
Qed.
Lemma cycle_scalars_get name ci eps rd s :
  let m := md_scalars (lg_other (cycle_scalars name ci eps rd s)) in
  dget m "training/inf_per_sec" = Some (RRate ci (rd_cycle rd)) /\ dget m "episode/completed" = Some (RVal eps).
Proof.
  cbv zeta. unfold cycle_scalars. split; apply timers_get; auto; cbn [log_value with_media lg_other md_scalars].
  - rewrite dget_dset_neq by discriminate. apply dget_dset_eq.
  - apply dget_dset_eq.
Qed.

(** A cycle in a state reached by sound reports *)
Lemma write_cycle_ok done s infs eps start rd : Inv done s -> Forall sound_op done -> rd_start rd <> 0 ->
  exists ev, write_cycle infs eps start rd s = (ev, Ok tt)
  /\ (forall k v, In (k, v) (md_scalars (lg_other s)) -> In (EScalar k v infs) ev)
  /\ (forall k w n t, In (k, (w, n)) (lg_windows s) -> window_tag k = Ok t -> In (EScalar t (RMean (zsum w) (zlen w)) infs) ev)
  /\ (forall k v t, In (k, v) (lg_cumulative s) -> window_tag k = Ok t -> In (EScalar (t +++ "/cumulative") (RVal v) infs) ev)
  /\ (forall k i, In (k, i) (md_images (lg_other s)) -> In (EImage k i infs) ev)
  /\ (forall k v, In (k, v) (md_videos (lg_other s)) -> In (EVideo k v infs) ev)
  /\ (forall k h, In (k, h) (md_hists (lg_other s)) -> In (EHist k (hist_values h) infs) ev)
  /\ In (EScalar "performance/inf_steps_per_sec" (RRate (infs - start) (rd_start rd)) infs) ev
  /\ (forall w n, dget (lg_windows s) "episode/reward" = Some (w, n) ->
        In (EScalar "env_vs_episode/reward" (RMean (zsum w) (zlen w)) eps) ev
        /\ In (EHist "episode/reward_distribution" w infs) ev /\ In (EHist "env_vs_episode/reward_distribution" w eps) ev).
Proof.
  intros I SO Hs. unfold write_cycle.
  assert (RW : exists ev0, write_rewards infs eps s = (ev0, Ok tt) /\
     (forall w n, dget (lg_windows s) "episode/reward" = Some (w, n) ->
        In (EScalar "env_vs_episode/reward" (RMean (zsum w) (zlen w)) eps) ev0
        /\ In (EHist "episode/reward_distribution" w infs) ev0 /\ In (EHist "env_vs_episode/reward_distribution" w eps) ev0)).
  { unfold write_rewards. destruct (dget (lg_windows s) "episode/reward") as [[w n]|] eqn:G.
    - destruct (st_window I SO _ _ _ (dget_In _ _ G)) as (_ & _ & _ & Nw & _). rewrite mean_ok by auto.
      eexists. split; [reflexivity|]. intros w' n' E. injection E as <- <-. simpl. auto 10.
    - exists []. split; auto. intros ? ? E. discriminate. }
  destruct RW as (ev0 & E0 & P0).
  destruct (@write_means_ok infs (lg_windows s)) as (ev1 & E1 & P1 & _).
  { intros k w n J. destruct (st_window I SO _ _ _ J) as (_ & _ & _ & Nw & T). auto. }
  destruct (@write_cumulative_ok infs (lg_cumulative s)) as (ev2 & E2 & P2 & _).
  { intros k v J. eapply st_cumulative; eauto. }
  rewrite E0, E1, E2, write_hists_ok by (intros k h J; destruct (st_hist I SO _ _ J); auto).
  replace (rd_start rd =? 0) with false by (symmetry; apply Z.eqb_neq; auto).
  rewrite !then_ok. eexists. split; [reflexivity|].
  split; [|split; [|split; [|split; [|split; [|split; [|split]]]]]].
  - intros k v J. rewrite !in_app_iff. right. left. apply in_map_iff. exists (k, v). auto.
  - intros k w n t J T. rewrite !in_app_iff. right. right. left. eauto.
  - intros k v t J T. rewrite !in_app_iff. do 3 right. left. eauto.
  - intros k i J. rewrite !in_app_iff. do 4 right. left. apply in_map_iff. exists (k, i). auto.
  - intros k i J. rewrite !in_app_iff. do 5 right. left. apply in_map_iff. exists (k, i). auto.
  - intros k h J. rewrite !in_app_iff. do 6 right. left. apply in_map_iff. exists (k, h). auto.
  - rewrite !in_app_iff. do 7 right. left. auto.
  - intros w n G. destruct (P0 _ _ G) as (A & B & C). rewrite !in_app_iff. auto.
Qed.

(** ** The wrapper *)
Section Wrapper.
Context {S I : Type}.
Context (inner_add : I -> dict Z (obs S) -> dict Z (resp S) -> I * res unit).

Definition metas (os : dict Z (mobs S)) : list meta :=
  flat_map (fun kv => match snd (snd kv) with Some m => [m] | None => [] end) os.
Lemma report_all_ok os done s : Inv done s -> Forall sound_report (metas os) ->
  exists s', report_all os s = (s', Ok tt) /\ Inv (done ++ flat_map rops (metas os)) s'.
Proof.
  revert done s. induction os as [|[a [o [m|]]] r IH]; intros done s J F.
  - exists s. rewrite app_nil_r. auto.
  - unfold metas in *. cbn [flat_map snd app] in *. inversion F as [|? ? G F']; subst.
    destruct (inv_go J (sound_good G)) as (s1 & E1 & J1 & _).
    destruct (IH _ _ J1 F') as (s2 & E2 & J2). exists s2. cbn [report_all]. rewrite report_go, E1. split; auto.
    rewrite app_assoc. auto.
  - unfold metas in *. cbn [flat_map snd app] in *. cbn [report_all]. auto.
Qed.
Lemma Inv_ext done s s' : Inv done s -> lg_windows s' = lg_windows s -> lg_cumulative s' = lg_cumulative s ->
  lg_default s' = lg_default s -> md_hists (lg_other s') = md_hists (lg_other s) -> Inv done s'.
Proof. intros [A B C D] E1 E2 E3 E4. constructor; congruence. Qed.

Record WInv (interval : Z) (name : string) (h : list (acall S)) (w : rlogw I) : Prop := mkWInv {
  wi_logs : Inv (flat_map rops (metadata h)) (rw_logs w);
  wi_infs : lw_infs (rw_base w) = observations_of h;
  wi_eps : lw_eps (rw_base w) = zsum (map (fun c => zlen (ac_obs c) - zlen (ac_resp c)) h);
  wi_counter : lw_counter (rw_base w) = Z.of_nat (List.length h) mod interval;
  wi_interval : lw_interval (rw_base w) = interval;
  wi_start : lw_start (rw_base w) = 0;
  wi_name : rw_name w = name;
  wi_cycle : rw_cycle_infs w = observations_of (firstn (List.length h - Z.to_nat (Z.of_nat (List.length h) mod interval)) h) }.

Lemma metadata_app h1 h2 : metadata (S := S) (h1 ++ h2) = metadata h1 ++ metadata h2.
Proof. apply flat_map_app. Qed.
Lemma observations_app h1 h2 : observations_of (S := S) (h1 ++ h2) = observations_of h1 + observations_of h2.
Proof. unfold observations_of. rewrite map_app, zsum_app. auto. Qed.
Lemma mod_succ n k : 0 < k -> (n + 1) mod k = (if (n mod k + 1) mod k =? 0 then 0 else n mod k + 1).
Proof.
  intros Hk. rewrite <- (Z.add_mod_idemp_l n 1) by lia. pose proof (Z.mod_pos_bound n k Hk).
  destruct (Z.eqb_spec ((n mod k + 1) mod k) 0) as [E|N]; auto.
  destruct (Z.eq_dec (n mod k + 1) k) as [E|E]; [rewrite E, Z.mod_same in N by lia; lia|].
  apply Z.mod_small. lia.
Qed.

Lemma bare_plain (o : dict Z (mobs S)) : bare o = plain_obs o.
Proof. unfold bare, plain_obs. apply map_ext. intros [a [b c]]. reflexivity. Qed.

(** The events of a cycle *)
Definition cycle_events (name : string) (h : list (acall S)) (interval : Z) (rd : readings) (ev : list wevent) : Prop :=
  exists s, Inv (flat_map rops (metadata h)) s
  /\ let N := observations_of h in
     let eps := zsum (map (fun c => zlen (ac_obs c) - zlen (ac_resp c)) h) in
     let ci := observations_of (skipn (List.length h - Z.to_nat interval) h) in
     write_cycle N eps 0 rd (cycle_scalars name ci eps rd s) = (ev, Ok tt).

Lemma add_ok interval name h w c : 0 < interval -> WInv interval name h w ->
  Forall sound_report (metadata (h ++ [c])) -> clock_moves c ->
  exists w' ev, rlogw_add inner_add w (ac_readings c) (ac_obs c) (ac_resp c)
           = (w', snd (inner_add (lw_inner (rw_base w)) (plain_obs (ac_obs c)) (ac_resp c)))
  /\ WInv interval name (h ++ [c]) w'
  /\ lw_inner (rw_base w') = fst (inner_add (lw_inner (rw_base w)) (plain_obs (ac_obs c)) (ac_resp c))
  /\ rw_written w' = rw_written w ++ ev
  /\ (Z.of_nat (List.length (h ++ [c])) mod interval <> 0 -> ev = [])
  /\ (Z.of_nat (List.length (h ++ [c])) mod interval = 0 -> cycle_events name (h ++ [c]) interval (ac_readings c) ev).
Proof.
  intros Hi W F [Mc Ms]. destruct W as [Wl Wi We Wc Wv Ws Wn Wy].
  rewrite metadata_app in F. pose proof (proj1 (Forall_app _ _ _) F) as [F1 F2].
  assert (Mc1 : metadata [c] = metas (ac_obs c)) by (unfold metadata, metas; simpl; rewrite app_nil_r; auto).
  rewrite Mc1 in F2. destruct (report_all_ok (ac_obs c) Wl F2) as (s & Er & J).
  assert (J' : Inv (flat_map rops (metadata (h ++ [c]))) s) by (rewrite metadata_app, Mc1, flat_map_app; auto).
  assert (SO : Forall sound_op (flat_map rops (metadata (h ++ [c])))).
  { apply sound_ops_all. rewrite metadata_app, Mc1. apply Forall_app. auto. }
  unfold rlogw_add. rewrite Er, Wv, Wc.
  replace (interval =? 0) with false by (symmetry; apply Z.eqb_neq; lia).
  set (n := Z.of_nat (List.length h)) in *.
  assert (Hn : Z.of_nat (List.length (h ++ [c])) = n + 1) by (rewrite app_length; simpl; lia).
  rewrite Hn, (mod_succ n Hi).
  assert (EI : lw_infs (rw_base w) + zlen (ac_obs c) = observations_of (h ++ [c])).
  { rewrite Wi, observations_app. unfold observations_of at 3. simpl. unfold zsum. simpl. lia. }
  assert (EE : lw_eps (rw_base w) + (zlen (ac_obs c) - zlen (ac_resp c)) = zsum (map (fun c => zlen (ac_obs c) - zlen (ac_resp c)) (h ++ [c]))).
  { rewrite We, map_app, zsum_app. simpl. unfold zsum. simpl. lia. }
  rewrite EI, EE.
  destruct (inner_add (lw_inner (rw_base w)) (plain_obs (ac_obs c)) (ac_resp c)) as [i z] eqn:Ei.
  pose proof (Z.mod_pos_bound n interval Hi) as Bn.
  destruct (Z.eqb_spec ((n mod interval + 1) mod interval) 0) as [Ec|Nc].
  - assert (Last : n mod interval + 1 = interval).
    { destruct (Z.eq_dec (n mod interval + 1) interval); auto. rewrite Z.mod_small in Ec by lia. lia. }
    unfold end_cycle. cbn [rw_base rw_name rw_cycle_infs rw_logs rw_written lw_start].
    replace (rd_cycle (ac_readings c) =? 0) with false by (symmetry; apply Z.eqb_neq; auto).
    assert (CI : observations_of (h ++ [c]) - rw_cycle_infs w = observations_of (skipn (List.length (h ++ [c]) - Z.to_nat interval) (h ++ [c]))).
    { rewrite Wy. fold n.
      assert (EL : (List.length (h ++ [c]) - Z.to_nat interval = List.length h - Z.to_nat (n mod interval))%nat).
      { rewrite app_length. simpl. assert (Z.to_nat interval = Datatypes.S (Z.to_nat (n mod interval))) by lia. lia. }
      rewrite EL.
      assert (EF : firstn (List.length h - Z.to_nat (n mod interval)) h = firstn (List.length h - Z.to_nat (n mod interval)) (h ++ [c])).
      { rewrite firstn_app. replace (List.length h - Z.to_nat (n mod interval) - List.length h)%nat with 0%nat by lia. simpl. rewrite app_nil_r. auto. }
      rewrite EF. rewrite <- (firstn_skipn (List.length h - Z.to_nat (n mod interval)) (h ++ [c])) at 1.
      rewrite observations_app. lia. }
    rewrite CI, Ws, Wn.
    set (s' := cycle_scalars name _ _ (ac_readings c) s).
    destruct (cycle_scalars_other name (observations_of (skipn (List.length (h ++ [c]) - Z.to_nat interval) (h ++ [c])))
       (zsum (map (fun c => zlen (ac_obs c) - zlen (ac_resp c)) (h ++ [c]))) (ac_readings c) s) as (O1 & O2 & O3 & O4 & O5 & O6).
    fold s' in O1, O2, O3, O4, O5, O6.
    assert (J2 : Inv (flat_map rops (metadata (h ++ [c]))) s') by (eapply Inv_ext; eauto).
    destruct (@write_cycle_ok _ s' (observations_of (h ++ [c])) (zsum (map (fun c => zlen (ac_obs c) - zlen (ac_resp c)) (h ++ [c]))) 0 (ac_readings c) J2 SO Ms) as (ev & Ew & _).
    rewrite Ew. exists (mkRlogw (mkLogw (observations_of (h ++ [c])) (zsum (map (fun c => zlen (ac_obs c) - zlen (ac_resp c)) (h ++ [c]))) 0 interval 0
         (lw_cycles (rw_base w) ++ [observations_of (h ++ [c])]) i) s' (observations_of (h ++ [c])) name (rw_written w ++ ev)), ev.
    split; [reflexivity|]. split; [|split; [reflexivity|split; [reflexivity|split; [lia|]]]].
    + constructor; cbn [rw_logs rw_base rw_cycle_infs rw_name lw_infs lw_eps lw_counter lw_interval lw_start]; auto.
      * rewrite Hn, (mod_succ n Hi). rewrite Ec. auto.
      * rewrite Hn, (mod_succ n Hi). rewrite Ec. simpl Z.to_nat. rewrite Nat.sub_0_r, firstn_all. auto.
    + intros _. exists s. split; auto.
  - eexists. exists []. split; [reflexivity|].
    cbn [rw_logs rw_base rw_cycle_infs rw_name rw_written lw_infs lw_eps lw_counter lw_interval lw_start lw_inner].
    split; [|split; [reflexivity|split; [rewrite app_nil_r; reflexivity|split; [reflexivity|]]]].
    + assert (EM : (n + 1) mod interval = n mod interval + 1).
      { rewrite (mod_succ n Hi). destruct (Z.eqb_spec ((n mod interval + 1) mod interval) 0); auto. lia. }
      constructor; cbn [rw_logs rw_base rw_cycle_infs rw_name lw_infs lw_eps lw_counter lw_interval lw_start]; auto.
      * rewrite Hn, EM. auto.
      * rewrite Hn, EM, Wy. fold n. f_equal.
        replace (List.length (h ++ [c]) - Z.to_nat (n mod interval + 1))%nat with (List.length h - Z.to_nat (n mod interval))%nat.
        2: { rewrite app_length. simpl. lia. }
        rewrite firstn_app. replace (List.length h - Z.to_nat (n mod interval) - List.length h)%nat with 0%nat by lia.
        simpl. rewrite app_nil_r. auto.
    + lia.
Qed.
Lemma WInv_new name interval i : 0 < interval -> WInv interval name [] (rlogw_new name interval i).
Proof.
  intros Hi. constructor; simpl; auto.
  constructor; reflexivity.
Qed.
Lemma run_ok interval name h2 h1 w : 0 < interval -> WInv interval name h1 w ->
  Forall sound_report (metadata (h1 ++ h2)) -> Forall clock_moves h2 ->
  WInv interval name (h1 ++ h2) (fst (rlogw_run inner_add w h2))
  /\ snd (rlogw_run inner_add w h2) = snd (inner_run inner_add (lw_inner (rw_base w)) h2)
  /\ lw_inner (rw_base (fst (rlogw_run inner_add w h2))) = fst (inner_run inner_add (lw_inner (rw_base w)) h2).
Proof.
  revert h1 w. induction h2 as [|c r IH]; intros h1 w Hi W F C.
  - rewrite app_nil_r. auto.
  - inversion C as [|? ? C1 C2]; subst.
    destruct (@add_ok interval name h1 w c Hi W) as (w' & ev & E & W' & In' & _); auto.
    { rewrite !metadata_app in *. apply Forall_app in F. destruct F as [F1 F2]. apply Forall_app. split; auto.
      change (c :: r) with ([c] ++ r) in F2. rewrite metadata_app in F2. apply Forall_app in F2. tauto. }
    replace (h1 ++ c :: r) with ((h1 ++ [c]) ++ r) in * by (rewrite <- app_assoc; auto).
    destruct (IH _ _ Hi W' F C2) as (A & B & D). cbn [rlogw_run inner_run]. rewrite bare_plain, E.
    rewrite In' in B, D.
    destruct (inner_add (lw_inner (rw_base w)) (plain_obs (ac_obs c)) (ac_resp c)) as [i z]. cbn [fst snd] in *.
    destruct (rlogw_run inner_add w' r) as [w2 xs]. destruct (inner_run inner_add i r) as [i2 ys]. cbn [fst snd] in *.
    subst. auto.
Qed.
Lemma transparent name interval i h : 0 < interval -> Forall sound_report (metadata h) -> Forall clock_moves h ->
  let w := rlogw_run inner_add (rlogw_new name interval i) h in
  snd w = snd (inner_run inner_add i h)
  /\ lw_inner (rw_base (fst w)) = fst (inner_run inner_add i h)
  /\ lw_infs (rw_base (fst w)) = observations_of h.
Proof.
  intros Hi F C. destruct (@run_ok interval name h [] (rlogw_new name interval i) Hi (WInv_new _ _ Hi) F C) as (A & B & D).
  cbv zeta. split; auto. split; auto. destruct A. auto.
Qed.

(** What is written at the end of a cycle *)
Lemma written name interval i h c : 0 < interval ->
  Forall sound_report (metadata (h ++ [c])) -> Forall clock_moves (h ++ [c]) ->
  let w := fst (rlogw_run inner_add (rlogw_new name interval i) h) in
  let w' := fst (rlogw_add inner_add w (ac_readings c) (ac_obs c) (ac_resp c)) in
  let N := observations_of (h ++ [c]) in
  let rd := ac_readings c in
  exists ev, rw_written w' = rw_written w ++ ev
  /\ (Z.of_nat (List.length (h ++ [c])) mod interval <> 0 -> ev = [])
  /\ (Z.of_nat (List.length (h ++ [c])) mod interval = 0 ->
      (forall key, ~ is_histogram key -> reported_at_all key (metadata (h ++ [c])) ->
         exists n v t, window_length 1000 key = Ok n /\ last_of n (reported key (metadata (h ++ [c]))) v
         /\ window_tag key = Ok t
         /\ In (EScalar t (RMean (zsum v) (zlen v)) N) ev
         /\ In (EScalar (t +++ "/cumulative") (RVal (zsum (reported key (metadata (h ++ [c]))))) N) ev)
      /\ (forall k v, shown k (reports (metadata (h ++ [c])) (fresh 1000)) = Some v -> In (EHist k v N) ev)
      /\ In (EScalar "episode/completed" (RVal (zsum (map (fun c => zlen (ac_obs c) - zlen (ac_resp c)) (h ++ [c])))) N) ev
      /\ (forall earlier this, h ++ [c] = earlier ++ this -> zlen this = interval ->
            In (EScalar "training/inf_per_sec" (RRate (observations_of this) (rd_cycle rd)) N) ev)
      /\ In (EScalar "performance/inf_steps_per_sec" (RRate N (rd_start rd)) N) ev).
Proof.
  intros Hi F C. cbv zeta.
  pose proof (proj1 (Forall_app _ _ _) C) as [C1 C2]. inversion C2 as [|? ? Cc _]; subst.
  assert (F1 : Forall sound_report (metadata h)) by (rewrite metadata_app in F; apply Forall_app in F; tauto).
  destruct (@run_ok interval name h [] (rlogw_new name interval i) Hi (WInv_new _ _ Hi) F1 C1) as (W & _ & _).
  cbn [app] in W. set (w := fst (rlogw_run inner_add (rlogw_new name interval i) h)) in *.
  destruct (@add_ok interval name h w c Hi W F Cc) as (w' & ev & E & W' & _ & Wr & Ev0 & Ev1).
  rewrite E. cbn [fst]. exists ev. split; auto. split; auto. intros Hm. destruct (Ev1 Hm) as (s & J & Ew).
  cbv zeta in Ew. set (H := h ++ [c]) in *. set (N := observations_of H) in *.
  set (eps := zsum (map (fun c => zlen (ac_obs c) - zlen (ac_resp c)) H)) in *.
  set (ci := observations_of (skipn (List.length H - Z.to_nat interval) H)) in *.
  set (s' := cycle_scalars name ci eps (ac_readings c) s) in *.
  destruct (cycle_scalars_other name ci eps (ac_readings c) s) as (O1 & O2 & O3 & O4 & O5 & O6).
  fold s' in O1, O2, O3, O4, O5, O6.
  assert (J2 : Inv (flat_map rops (metadata H)) s') by (eapply Inv_ext; eauto).
  assert (SO : Forall sound_op (flat_map rops (metadata H))) by (apply sound_ops_all; auto).
  destruct Cc as [_ Ms].
  destruct (@write_cycle_ok _ s' N eps 0 (ac_readings c) J2 SO Ms) as (ev' & Ew' & Psc & Pw & Pc & _ & _ & Ph & Pf & _).
  rewrite Ew in Ew'. injection Ew' as <-.
  destruct (cycle_scalars_get name ci eps (ac_readings c) s) as [G1 G2]. fold s' in G1, G2.
  split; [|split; [|split; [|split]]].
  - intros key Nh R.
    assert (Ik : In key (map fst (flat_map rops (metadata H)))) by (apply keys_rops; auto).
    destruct (st_reported J2 SO Nh Ik) as (n & v & WL & G & L & Nv & Cu).
    rewrite logged_reports in L, Cu by auto.
    destruct (st_window J2 SO _ _ _ (dget_In _ _ G)) as (_ & _ & _ & _ & t & T).
    exists n, v, t. split; auto. split; auto. split; auto. split.
    + eapply Pw; eauto. apply dget_In. eauto.
    + eapply Pc; eauto. apply dget_In. eauto.
  - intros k v Sh. unfold shown in Sh.
    pose proof (reports_inv inv_fresh F) as Jr. cbn [app] in Jr. fold H in Jr.
    rewrite (inv_h Jr), <- (inv_h J2) in Sh.
    destruct (dget (md_hists (lg_other s')) k) as [x|] eqn:G; [|discriminate]. injection Sh as <-.
    apply Ph. apply dget_In. auto.
  - apply Psc. apply dget_In. auto.
  - intros earlier this EH EL. apply Psc.
    replace (observations_of this) with ci; [apply dget_In; auto|].
    unfold ci. f_equal. rewrite EH, app_length.
    replace (List.length earlier + List.length this - Z.to_nat interval)%nat with (List.length earlier)%nat by (unfold zlen in EL; lia).
    rewrite skipn_app, skipn_all, Nat.sub_diag. auto.
  - rewrite Z.sub_0_r in Pf. auto.
Qed.

(** One empty list and nothing is stored any more *)
Lemma stuck name i c h key :
  ~ is_histogram key -> window_length 1000 key = Ok 1000 -> window_tag key = Ok key ->
  metadata [c] = [mkMeta [] [(key, [])]] -> Forall (fun c => metadata [c] = []) h ->
  rd_cycle (ac_readings c) <> 0 -> Forall (fun c => rd_cycle (ac_readings c) <> 0) h ->
  let w := rlogw_run inner_add (rlogw_new name 1 i) (c :: h) in
  lw_inner (rw_base (fst w)) = i /\ Forall (fun x => x = Err ZeroDivisionError) (snd w).
Proof.
  intros Nh WL WT Mc Mh Rc Rh.
  assert (NoMeta : forall os s, metas os = [] -> report_all (S := S) os s = (s, Ok tt)).
  { induction os as [|[a [o [m|]]] r IH]; intros s E; auto; unfold metas in E; cbn [flat_map snd app] in E; [discriminate|].
    cbn [report_all]. auto. }
  assert (Fail : forall infs eps start rd s, lg_windows s = [(key, ([], 1000))] ->
     exists ev, write_cycle infs eps start rd s = (ev, Err ZeroDivisionError)).
  { intros infs eps start rd s W. unfold write_cycle, write_rewards. rewrite W. cbn [dget].
    destruct (keqb_spec "episode/reward" key) as [Ek|Nk]; [eexists; reflexivity|].
    cbn [write_means]. rewrite WT. cbn [rbind mean_of]. eexists. reflexivity. }
  assert (Step : forall w c, lg_windows (rw_logs w) = [(key, ([], 1000))] -> lw_interval (rw_base w) = 1 -> metadata [c] = [] ->
     rd_cycle (ac_readings c) <> 0 ->
     exists w', rlogw_add inner_add w (ac_readings c) (ac_obs c) (ac_resp c) = (w', Err ZeroDivisionError)
     /\ lg_windows (rw_logs w') = [(key, ([], 1000))] /\ lw_interval (rw_base w') = 1 /\ lw_inner (rw_base w') = lw_inner (rw_base w)).
  { intros w c0 W V M R. unfold rlogw_add. rewrite NoMeta.
    2: { unfold metadata, metas in *. simpl in M. rewrite app_nil_r in M. auto. }
    rewrite V, Z.mod_1_r. cbn [Z.eqb]. unfold end_cycle. cbn [rw_base rw_name rw_cycle_infs rw_logs rw_written lw_start].
    replace (rd_cycle (ac_readings c0) =? 0) with false by (symmetry; apply Z.eqb_neq; auto).
    match goal with |- context [cycle_scalars ?a ?b ?c ?d ?e] => set (s' := cycle_scalars a b c d e);
      destruct (cycle_scalars_other a b c d e) as (O1 & _); fold s' in O1 end.
    match goal with |- context [write_cycle ?a ?b ?c ?d s'] => destruct (Fail a b c d s') as [ev Ev]; [congruence|]; rewrite Ev end.
    eexists. split; [reflexivity|]. cbn [rw_logs rw_base lw_interval lw_inner]. split; [congruence|]. auto. }
  assert (First : exists w', rlogw_add inner_add (rlogw_new name 1 i) (ac_readings c) (ac_obs c) (ac_resp c) = (w', Err ZeroDivisionError)
     /\ lg_windows (rw_logs w') = [(key, ([], 1000))] /\ lw_interval (rw_base w') = 1 /\ lw_inner (rw_base w') = i).
  { assert (RA : exists s, report_all (ac_obs c) (rw_logs (rlogw_new name 1 i)) = (s, Ok tt) /\ lg_windows s = [(key, ([], 1000))]).
    { assert (M : metas (ac_obs c) = [mkMeta [] [(key, [])]]).
      { unfold metadata, metas in *. simpl in Mc. rewrite app_nil_r in Mc. auto. }
      generalize (ac_obs c) M. clear Mc M. intros os M. induction os as [|[a [o [m|]]] r IH]; [discriminate| |].
      - unfold metas in M. cbn [flat_map snd app] in M. injection M as -> Mr. cbn [report_all].
        assert (RR : report (mkMeta [] [(key, [])]) (rw_logs (rlogw_new name 1 i))
           = (mkLogs [] [(key, ([], 1000))] [(key, 0)] no_media 1000, Ok tt)).
        { unfold report. cbn [mt_info mt_lists each]. unfold report_list.
          rewrite (proj2 (histogram_key_None key) Nh). unfold log_windowed, ensure_window. cbn [rw_logs rlogw_new new_logs lg_windows lg_default dmem dget].
          rewrite WL. cbn [Z.ltb Z.compare]. unfold push.
          assert (Kk : keqb key key = true) by (destruct (keqb_spec key key); congruence).
          cbn -[keqb]. rewrite !Kk. cbn -[keqb]. rewrite ?Kk. cbn -[keqb]. reflexivity. }
        rewrite RR. rewrite NoMeta by auto. eexists. split; [reflexivity|]. auto.
      - unfold metas in M. cbn [flat_map snd app] in M. cbn [report_all]. auto. }
    destruct RA as (s & Er & W). unfold rlogw_add. rewrite Er. cbn [rw_base rlogw_new lw_interval logw_new lw_counter lw_infs lw_eps lw_cycles lw_start].
    cbn [Z.eqb]. rewrite Z.mod_1_r. cbn [Z.eqb]. unfold end_cycle. cbn [rw_base rw_name rw_cycle_infs rw_logs rw_written lw_start].
    replace (rd_cycle (ac_readings c) =? 0) with false by (symmetry; apply Z.eqb_neq; auto).
    match goal with |- context [cycle_scalars ?a ?b ?c ?d ?e] => set (s' := cycle_scalars a b c d e);
      destruct (cycle_scalars_other a b c d e) as (O1 & _); fold s' in O1 end.
    match goal with |- context [write_cycle ?a ?b ?c ?d s'] => destruct (Fail a b c d s') as [ev Ev]; [congruence|]; rewrite Ev end.
    eexists. split; [reflexivity|]. cbn [rw_logs rw_base lw_interval lw_inner]. split; [congruence|]. auto. }
  destruct First as (w1 & E1 & W1 & V1 & I1). cbn [rlogw_run]. rewrite E1.
  assert (Rest : lw_inner (rw_base (fst (rlogw_run inner_add w1 h))) = i /\ Forall (fun x => x = Err ZeroDivisionError) (snd (rlogw_run inner_add w1 h))).
  { clear E1 Mc Rc. revert w1 W1 V1 I1. induction h as [|d r IH]; intros w1 W1 V1 I1; [simpl; auto|].
    inversion Mh as [|? ? Md Mr]; subst. inversion Rh as [|? ? Rd Rr]; subst.
    destruct (Step w1 d W1 V1 Md Rd) as (w2 & E2 & W2 & V2 & I2).
    cbn [rlogw_run]. rewrite E2. destruct (IH Mr Rr w2 W2 V2 I2) as [A B].
    destruct (rlogw_run inner_add w2 r) as [w3 xs]. cbn [fst snd] in *. split; [congruence|]. constructor; auto. }
  destruct (rlogw_run inner_add w1 h) as [w3 xs]. cbn [fst snd] in *. cbv zeta. destruct Rest. split; auto. 
Qed.
End Wrapper.
