(** * BldLoad: legacy dumps, the importer, the other adaptors *)
From Coq Require Import Lia Ascii.
From Verif Require Import Py PyLemmas MemModel BldModel BldSpec BldProofs PathProofs.
Set Implicit Arguments. Unset Strict Implicit.
Open Scope string_scope.
Open Scope list_scope.
Open Scope nat_scope.

Section L.
Context {O A R : Type}.
Implicit Types d : dump O A R.

Lemma pairs_ok {X} : forall k (l : list X), List.length l = 2 * k -> exists acts, pairs l = Ok acts /\ concat acts = l /\ Forall (fun a => List.length a = 2) acts.
Proof.
  induction k as [|k IH]; intros l E.
  - destruct l; [|cbn in E; lia]. exists []. cbn. auto.
  - destruct l as [|a [|b l]]; cbn in E; try lia. destruct (IH l ltac:(lia)) as (acts & E1 & E2 & E3). exists ([a; b] :: acts). cbn [pairs]. rewrite E1. cbn. rewrite E2. auto.
Qed.
Lemma slice_len {X} (l : list X) a b : b <= List.length l -> List.length (slice l a b) = b - a.
Proof. intros H. unfold slice. rewrite firstn_length, skipn_length. lia. Qed.
Lemma nth_skipn_plus {X} : forall a (l : list X) i, nth_error (skipn a l) i = nth_error l (a + i).
Proof. induction a as [|a IH]; intros l i; [reflexivity|]. destruct l; cbn; [destruct i; reflexivity|apply IH]. Qed.
Lemma nth_firstn_lt {X} : forall n (l : list X) i, i < n -> nth_error (firstn n l) i = nth_error l i.
Proof. induction n as [|n IH]; intros l i H; [lia|]. destruct l; [reflexivity|]. destruct i; [reflexivity|]. cbn. apply IH. lia. Qed.
Lemma nth_slice {X} (l : list X) a b i : a + i < b -> nth_error (slice l a b) i = nth_error l (a + i).
Proof. intros H. unfold slice. rewrite nth_firstn_lt by lia. apply nth_skipn_plus. Qed.
Lemma last_nth {X} (l : list X) x : l <> [] -> nth_error l (List.length l - 1) = Some (last l x).
Proof.
  induction l as [|a l IH]; intros H; [congruence|]. destruct l as [|b l]; [reflexivity|].
  change (last (a :: b :: l) x) with (last (b :: l) x). rewrite <- IH by discriminate. cbn [List.length]. replace (S (S (List.length l)) - 1) with (S (S (List.length l) - 1)) by lia. reflexivity.
Qed.

(** One episode. *)
Lemma episode_ok ro ra rr n d s e : dump_of n d -> s + 10 <= e -> e < n -> nth_error (du_dones d) e = Some true -> (forall i, s <= i < e -> nth_error (du_dones d) i = Some false) ->
  match nth_error (du_next_obs d) (e + 1) with
  | None => e + 1 = n /\ load_episode ro ra rr d s e = Err IndexError
  | Some o => e + 1 < n /\ exists acts, concat acts = steps (2 * s) (2 * e + 1) (du_actions d) /\ Forall (fun a => List.length a = 2) acts /\
     load_episode ro ra rr d s e = Ok (mkOuts (if ro then Some (steps s e (du_obs d) ++ [o]) else None) (if ra then Some acts else None) (if rr then Some (steps s e (du_rewards d)) else None))
  end.
Proof.
  intros (L1 & L2 & L3 & L4 & L5) H He Te Fe. unfold load_episode.
  assert (Ls : List.length (slice (du_dones d) s (e + 1)) = e + 1 - s) by (apply slice_len; lia).
  pose proof (@nth_slice _ (du_dones d) s (e + 1) 0 ltac:(lia)) as N0. rewrite Nat.add_0_r, Fe in N0 by lia.
  pose proof (@nth_slice _ (du_dones d) s (e + 1) (e - s) ltac:(lia)) as N1. replace (s + (e - s)) with e in N1 by lia. rewrite Te in N1.
  cbn zeta. destruct (slice (du_dones d) s (e + 1)) as [|f r] eqn:Es; [discriminate|].
  injection N0 as ->. cbn [andb]. rewrite <- Es in *. clear Es.
  pose proof (@last_nth _ (slice (du_dones d) s (e + 1)) false) as Ln. rewrite Ls in Ln. replace (e + 1 - s - 1) with (e - s) in Ln by lia.
  assert (Ne : slice (du_dones d) s (e + 1) <> []) by (intros C; rewrite C in Ls; cbn in Ls; lia).
  rewrite N1 in Ln. specialize (Ln Ne). injection Ln as <-. cbn [negb].
  destruct (nth_error (du_next_obs d) (e + 1)) as [o|] eqn:Eo.
  - split; [rewrite <- L5; apply nth_error_Some; congruence|].
    destruct (@pairs_ok A (e + 1 - s) (slice (du_actions d) (s * 2) ((e + 1) * 2))) as (acts & P1 & P2 & P3). { rewrite slice_len; lia. }
    exists acts. split; [|split; [exact P3|]].
    + rewrite P2. unfold steps, slice. f_equal; [lia|]. f_equal; lia.
    + destruct ra; [rewrite P1; cbn [rmap rbind]|]; reflexivity.
  - apply nth_error_None in Eo. split; [lia|reflexivity].
Qed.

Lemma episodes_bound : forall dones start i, start <= i -> forall s e, In (s, e) (episodes start i dones) -> s <= e < i + List.length dones.
Proof.
  induction dones as [|b r IH]; intros start i H s e I; [destruct I|]. cbn [episodes List.length] in *. destruct b.
  - destruct I as [I|I]; [injection I as <- <-; lia|]. apply IH in I; lia.
  - apply IH in I; lia.
Qed.
Lemma long_iff j s e : long (j, (s, e)) = negb (Z.of_nat e - Z.of_nat s <? 10)%Z \/ e < s.
Proof.
  unfold long. cbn [fst snd]. destruct (Nat.le_gt_cases s e) as [H|H]; [left|auto].
  destruct (Nat.leb_spec 10 (e - s)), (Z.ltb_spec (Z.of_nat e - Z.of_nat s) 10)%Z; cbn; auto; lia.
Qed.
Lemma loop ro ra rr n d : dump_of n d -> forall dones start i j, start <= i -> skipn i (du_dones d) = dones ->
  (forall k, start <= k < i -> nth_error (du_dones d) k = Some false) ->
  let eps := filter long (combine (seq j (List.length (episodes start i dones))) (episodes start i dones)) in
  let r := load_loop ro ra rr d (done_indices i dones) start (Z.opp (Z.of_nat j)) in
  exists eps1 eps2, eps = eps1 ++ eps2 /\ Forall2 (call_of one_too_late ro ra rr d) eps1 (fst r) /\
    match eps2 with
    | [] => snd r = Ok tt
    | ep :: _ => snd r = Err IndexError /\ snd (snd ep) + 1 = n
    end.
Proof.
  intros Hd. induction dones as [|b r IH]; intros start i j H Sk Fl.
  - exists [], []. cbn. auto.
  - assert (Li : i < n). { destruct Hd as (L1 & _). assert (Q := f_equal (@List.length _) Sk). rewrite skipn_length in Q. cbn in Q. lia. }
    assert (Nb : nth_error (du_dones d) i = Some b). { pose proof (nth_skipn_plus i (du_dones d) 0) as Q. rewrite Sk, Nat.add_0_r in Q. cbn in Q. auto. }
    assert (Sk' : skipn (i + 1) (du_dones d) = r). { change r with (skipn 1 (b :: r)). rewrite <- Sk. clear. revert i. generalize (du_dones d). intros l. induction l as [|x l IH]; intros i; [rewrite !skipn_nil; auto|]. destruct i; [reflexivity|]. cbn. apply IH. }
    cbn [episodes done_indices]. destruct b.
    + cbn zeta. cbn [List.length seq combine filter load_loop]. destruct (long_iff j start i) as [Q|Q]; [|lia]. rewrite Q.
      replace (- Z.of_nat j - 1)%Z with (Z.opp (Z.of_nat (S j))) by lia. replace (1 + i) with (i + 1) by lia.
      destruct (IH (i + 1) (i + 1) (S j)) as (e1 & e2 & E & F & T); auto; [intros; lia|].
      destruct (Z.ltb_spec (Z.of_nat i - Z.of_nat start) 10)%Z as [Sh|Lg]; cbn [negb].
      * exists e1, e2. auto.
      * pose proof (@episode_ok ro ra rr n d start i Hd ltac:(lia) Li Nb Fl) as Ep.
        destruct (nth_error (du_next_obs d) (i + 1)) as [o|] eqn:Eo.
        -- destruct Ep as (Hi & acts & A1 & A2 & A3). rewrite A3. destruct (load_loop ro ra rr d (done_indices (i + 1) r) (i + 1) (Z.opp (Z.of_nat (S j)))) as [calls x]. cbn [fst snd] in *.
           exists ((j, (start, i)) :: e1), e2. split; [cbn; f_equal; auto|]. split; [|auto]. constructor; auto.
           unfold call_of, one_too_late. cbn [fst snd ou_obs ou_actions ou_rewards]. split; [reflexivity|]. split; [eauto|]. split; [|auto]. exists acts. auto.
        -- destruct Ep as (Hi & A3). rewrite A3. cbn [fst snd]. exists []. eexists. split; [reflexivity|]. split; [constructor|]. auto.
    + replace (1 + i) with (i + 1) by lia. apply IH; auto; try lia. intros k Hk. destruct (Nat.eq_dec k i) as [-> |]; auto. apply Fl. lia.
Qed.
Lemma ends_inc : forall dones start i, start <= i -> forall l1 s e l2, episodes start i dones = l1 ++ (s, e) :: l2 -> l2 <> [] -> e + 1 < i + List.length dones.
Proof.
  induction dones as [|b r IH]; intros start i H l1 s e l2 E N; [destruct l1; discriminate|]. cbn [episodes List.length] in *. destruct b.
  - destruct l1 as [|x l1]; cbn in E.
    + injection E as <- <- E2. destruct r; [cbn in E2; congruence|]. cbn [List.length]. lia.
    + injection E as E1 E2. pose proof (IH (i + 1) (i + 1) ltac:(lia) _ _ _ _ E2 N). lia.
  - pose proof (IH start (i + 1) ltac:(lia) _ _ _ _ E N). lia.
Qed.
Lemma fill_ok ro ra rr n d : dump_of n d -> (forall ep, In ep (numbered (du_dones d)) -> long ep = true -> snd (snd ep) + 1 < n) ->
  exists calls, fill_table ro ra rr d = (calls, Ok tt) /\ Forall2 (call_of one_too_late ro ra rr d) (filter long (numbered (du_dones d))) calls.
Proof.
  intros Hd He. destruct (@loop ro ra rr n d Hd (du_dones d) 0 0 1 ltac:(lia) eq_refl ltac:(intros; lia)) as (e1 & e2 & E & F & T).
  change (Z.opp (Z.of_nat 1)) with (-1)%Z in *. fold (fill_table ro ra rr d) in *. fold (numbered (du_dones d)) in E.
  destruct (fill_table ro ra rr d) as [calls x]. cbn [fst snd] in *. exists calls. destruct e2 as [|ep e2].
  - subst x. split; auto. rewrite E, app_nil_r. auto.
  - exfalso. destruct T as [_ T]. assert (I : In ep (filter long (numbered (du_dones d)))) by (rewrite E; apply in_or_app; right; left; auto).
    apply filter_In in I. destruct I as [I1 I2]. pose proof (He ep I1 I2). lia.
Qed.
Lemma fill_fails ro ra rr n d ep : dump_of n d -> In ep (numbered (du_dones d)) -> long ep = true -> snd (snd ep) + 1 = n -> snd (fill_table ro ra rr d) = Err IndexError.
Proof.
  intros Hd I Lg He. destruct (@loop ro ra rr n d Hd (du_dones d) 0 0 1 ltac:(lia) eq_refl ltac:(intros; lia)) as (e1 & e2 & E & F & T).
  change (Z.opp (Z.of_nat 1)) with (-1)%Z in *. fold (fill_table ro ra rr d) in *. fold (numbered (du_dones d)) in E.
  destruct e2 as [|q e2]; [|apply T]. exfalso. rewrite app_nil_r in E.
  assert (I2 : In ep e1). { rewrite <- E. apply filter_In. auto. }
  clear - F I2 He Hd. induction F as [|x y l l' Q F IH]; [destruct I2|]. destruct I2 as [-> |I2]; auto. destruct Q as (_ & (o & Q & _) & _).
  unfold one_too_late in Q. assert (W : snd (snd ep) + 1 < List.length (du_next_obs d)) by (apply nth_error_Some; congruence). destruct Hd as (_ & _ & _ & _ & L5). lia.
Qed.
End L.

(** ** The importer *)
Open Scope string_scope.
Lemma importer_spec ex dir tgt o : let name := match o with Some f => if (f =? "")%string then String.append tgt "_export" else f | None => String.append tgt "_export" end in
  importer_restore ex dir tgt o = if ex (String.append (path_join dir name) ".zip") then Ok (path_join dir name) else Err FileNotFoundError.
Proof. cbn zeta. unfold importer_restore. destruct o as [f|]; [|reflexivity]. destruct (f =? "")%string; reflexivity. Qed.
Lemma join_plain a b : a <> "" -> ends_slash a = false -> (forall r, b <> String "/"%char r) -> path_join a b = String.append a (String "/"%char b).
Proof.
  intros N E H. unfold path_join. destruct (String.eqb_spec a ""); [contradiction|]. rewrite E. cbn [orb].
  destruct b as [|c r]; [reflexivity|]. destruct (Ascii.eqb_spec c "/"%char) as [-> |Hc]; [exfalso; apply (H r); reflexivity|].
  destruct c as [[] [] [] [] [] [] [] []]; try reflexivity. exfalso; apply Hc; reflexivity.
Qed.
Lemma join_slash a b : ends_slash a = true -> (forall r, b <> String "/"%char r) -> path_join a b = String.append a b.
Proof.
  intros E H. unfold path_join. rewrite E, Bool.orb_true_r.
  destruct b as [|c r]; [reflexivity|]. destruct (Ascii.eqb_spec c "/"%char) as [-> |Hc]; [exfalso; apply (H r); reflexivity|].
  destruct c as [[] [] [] [] [] [] [] []]; try reflexivity. exfalso; apply Hc; reflexivity.
Qed.

(** ** Adaptors *)
Section T.
Context {D A : Type}.
Implicit Types r : dict string (tensor D A).
Lemma scale_ok mul key r t : dget r key = Some t -> exists r', key_scale mul key r = Ok r' /\
  (exists t', dget r' key = Some t' /\ tn_dtype t' = tn_dtype t /\ List.length (tn_data t') = List.length (tn_data t) /\ forall i x, nth_error (tn_data t) i = Some x -> nth_error (tn_data t') i = Some (mul x)) /\
  (forall k, k <> key -> dget r' k = dget r k).
Proof.
  intros E. unfold key_scale. rewrite E. eexists. split; [reflexivity|]. split.
  - eexists. split; [apply dget_dset_eq|]. cbn. split; auto. split; [apply map_length|]. intros i x H. rewrite nth_error_map, H. reflexivity.
  - intros k N. apply dget_dset_neq. auto.
Qed.
Lemma cast_same conv dt key r r' : key_cast conv dt key r = Ok r' -> r' = r.
Proof. unfold key_cast. destruct (dget r key); [|discriminate]. intros H. injection H as <-. auto. Qed.
Lemma missing mul conv dt key r : dget r key = None -> key_scale mul key r = Err KeyError /\ key_cast conv dt key r = Err KeyError.
Proof. intros E. unfold key_scale, key_cast. rewrite E. auto. Qed.
End T.

Section M.
Context {S : Type}.
Implicit Types result obs next : dict string (array S).
Lemma move_gen wn km : forall result obs next, NoDup (dkeys result) -> NoDup (flat_map (taken wn) (map fst km)) -> NoDup (map snd km) ->
  (forall x, In x (flat_map (taken wn) (map fst km)) -> In x (dkeys result)) ->
  exists b, move_keys wn km result obs next = Ok b /\
    (forall k o, In (k, o) km -> dget (bt_obs b) o = dget result k /\ dget (bt_next b) o = if wn then dget result (String.append "next_" k) else dget next o) /\
    (forall o, ~ In o (map snd km) -> dget (bt_obs b) o = dget obs o /\ dget (bt_next b) o = dget next o) /\
    (forall x, dget (bt_rows b) x = if inb x (flat_map (taken wn) (map fst km)) then None else dget result x).
Proof.
  induction km as [|[k o] km IH]; intros result obs next N Nt No Sub.
  - eexists. split; [reflexivity|]. cbn. split; [intros ? ? []|]. auto.
  - cbn [map fst snd flat_map] in *. inversion No as [|? ? O1 O2]; subst.
    destruct (dget_key result k) as [v Hv]. { apply Sub. apply in_or_app. left. destruct wn; cbn; auto. }
    cbn [move_keys]. unfold pop. rewrite Hv. cbn [rbind fst snd].
    destruct wn; cbn [taken app] in *.
    + inversion Nt as [|? ? T1 Nt']; subst. inversion Nt' as [|? ? T2 Nt2]; subst. assert (Kn : String.append "next_" k <> k). { intros C. apply T1. left. auto. }
      destruct (dget_key result (String.append "next_" k)) as [w Hw]. { apply Sub. right; left; auto. }
      rewrite dget_ddel_neq by auto. rewrite Hw. cbn [rbind fst snd].
      destruct (IH (ddel (ddel result k) (String.append "next_" k)) (dset obs o v) (dset next o w)) as (b & Eb & B1 & B2 & B3); auto.
      * repeat apply NoDup_ddel; auto.
      * intros x Hx. apply In_dkeys_ddel; [apply NoDup_ddel; auto|]. split; [intros ->; contradiction|]. apply In_dkeys_ddel; auto. split; [intros ->; apply T1; right; auto|]. apply Sub. right; right; auto.
      * exists b. split; auto. split; [|split].
        -- intros k' o' [E|I].
           ++ injection E as <- <-. destruct (B2 o O1) as [-> ->]. rewrite !dget_dset_eq. auto.
           ++ destruct (B1 k' o' I) as [-> ->]. assert (I1 : In k' (flat_map (taken true) (map fst km)) /\ In (String.append "next_" k') (flat_map (taken true) (map fst km))).
              { split; apply in_flat_map; exists k'; (split; [apply (in_map fst) in I; exact I|cbn; auto]). }
              destruct I1 as [I1 I2].
              assert (Q1 : k <> k') by (intros ->; apply T1; right; auto). assert (Q2 : String.append "next_" k <> k') by (intros Q; subst k'; apply T2; exact I1).
              assert (Q3 : k <> String.append "next_" k') by (intros Q; apply T1; right; subst k; exact I2). assert (Q4 : String.append "next_" k <> String.append "next_" k') by (intros Q; apply next_inj in Q; contradiction).
              rewrite (dget_ddel_neq _ Q2), (dget_ddel_neq _ Q1), (dget_ddel_neq _ Q4), (dget_ddel_neq _ Q3). auto.
        -- intros o' Ho. assert (o' <> o /\ ~ In o' (map snd km)) as [Q1 Q2] by (split; [intros ->; apply Ho; left; auto|intros C; apply Ho; right; auto]).
           destruct (B2 o' Q2) as [-> ->]. rewrite !dget_dset_neq; auto.
        -- intros x. rewrite B3. destruct (inb x (flat_map (taken true) (map fst km))) eqn:I.
           ++ apply inb_In in I. assert (I' : inb x (k :: String.append "next_" k :: flat_map (taken true) (map fst km)) = true) by (apply inb_In; right; right; auto). rewrite I'. auto.
           ++ apply inb_false in I. destruct (inb x (k :: String.append "next_" k :: flat_map (taken true) (map fst km))) eqn:J.
              ** apply inb_In in J. destruct J as [<-|[<-|J]]; [|apply dget_ddel_eq; apply NoDup_ddel; auto|contradiction]. rewrite dget_ddel_neq by auto. apply dget_ddel_eq; auto.
              ** apply inb_false in J. assert (J1 : k <> x) by (intros Q; apply J; left; exact Q). assert (J2 : String.append "next_" k <> x) by (intros Q; apply J; right; left; exact Q).
                 rewrite (dget_ddel_neq _ J2), (dget_ddel_neq _ J1). auto.
    + inversion Nt as [|? ? T1 Nt']; subst.
      destruct (IH (ddel result k) (dset obs o v) next) as (b & Eb & B1 & B2 & B3); auto.
      * apply NoDup_ddel; auto.
      * intros x Hx. apply In_dkeys_ddel; auto. split; [intros ->; contradiction|]. apply Sub. right; auto.
      * exists b. split; auto. split; [|split].
        -- intros k' o' [E|I].
           ++ injection E as <- <-. destruct (B2 o O1) as [-> ->]. rewrite dget_dset_eq. auto.
           ++ destruct (B1 k' o' I) as [-> ->]. split; auto. apply dget_ddel_neq. intros ->. apply T1. apply in_flat_map. exists k'. split; [apply (in_map fst) in I; exact I|cbn; auto].
        -- intros o' Ho. assert (o' <> o /\ ~ In o' (map snd km)) as [Q1 Q2] by (split; [intros ->; apply Ho; left; auto|intros C; apply Ho; right; auto]).
           destruct (B2 o' Q2) as [-> ->]. rewrite dget_dset_neq; auto.
        -- intros x. rewrite B3. destruct (inb x (flat_map (taken false) (map fst km))) eqn:I.
           ++ apply inb_In in I. assert (I' : inb x (k :: flat_map (taken false) (map fst km)) = true) by (apply inb_In; right; auto). rewrite I'. auto.
           ++ apply inb_false in I. destruct (inb x (k :: flat_map (taken false) (map fst km))) eqn:J.
              ** apply inb_In in J. destruct J as [<-|J]; [|contradiction]. apply dget_ddel_eq; auto.
              ** apply inb_false in J. rewrite dget_ddel_neq; auto. intros ->; apply J; cbn; auto.
Qed.
End M.
Lemma ends_slash_iff s : ends_slash s = true <-> exists r, s = String.append r "/".
Proof.
  induction s as [|c s IH].
  - split; [discriminate|]. intros [[|d r] E]; discriminate.
  - cbn [ends_slash]. destruct s as [|d s].
    + split.
      * intros E. apply Ascii.eqb_eq in E. subst. exists "". reflexivity.
      * intros [[|e r] E]; cbn [String.append] in E; [injection E as ->; reflexivity|destruct r; discriminate].
    + rewrite IH. split; intros [r E].
      * exists (String c r). cbn [String.append]. f_equal. exact E.
      * destruct r as [|e r]; cbn [String.append] in E; [discriminate|]. injection E as E1 E2. exists r. exact E2.
Qed.
Lemma importer_ok ex dir target override name :
  name = match override with Some f => if (f =? "")%string then String.append target "_export" else f | None => String.append target "_export" end ->
  dir <> "" -> (forall r, name <> String "/"%char r) ->
  forall path, ((forall r, dir <> String.append r "/") /\ path = String.append dir (String.append "/" name)
                \/ (exists r, dir = String.append r "/") /\ path = String.append dir name) ->
  importer_restore ex dir target override = if ex (String.append path ".zip") then Ok path else Err FileNotFoundError.
Proof.
  intros -> H1 H3 path H. rewrite importer_spec. cbn zeta. destruct H as [[H ->]|[H ->]].
  - rewrite join_plain; auto. destruct (ends_slash dir) eqn:E; auto. apply ends_slash_iff in E. destruct E as [r E]. exfalso. apply (H r E).
  - apply ends_slash_iff in H. rewrite join_slash; auto.
Qed.
Lemma legacy_file p : ((exists r, p = String.append r ".pickle") -> legacy_path p = p)
  /\ ((forall r, p <> String.append r ".pickle") -> legacy_path p = String.append p ".pickle").
Proof.
  unfold legacy_path. cbn zeta. change 7 with (String.length ".pickle").
  destruct (String.eqb_spec (String.substring (String.length p - String.length ".pickle") (String.length ".pickle") p) ".pickle") as [E|E].
  - split; auto. intros N. apply end_iff in E. destruct E as [r E]. exfalso. apply (N r E).
  - split; auto. intros H. apply end_iff in H. contradiction.
Qed.
Lemma key_map_bad keys out_keys : List.length keys <> List.length out_keys -> key_map keys (Some out_keys) = Err AssertionError.
Proof. intros H. unfold key_map. destruct (Nat.eqb_spec (List.length keys) (List.length out_keys)); [contradiction|auto]. Qed.
Lemma combine_fst {X Y} : forall (a : list X) (b : list Y), List.length a = List.length b -> map fst (combine a b) = a /\ map snd (combine a b) = b.
Proof. induction a as [|x a IH]; intros [|y b] H; try discriminate; auto. injection H as H. destruct (IH b H) as [E1 E2]. cbn. rewrite E1, E2. auto. Qed.
Lemma nth_combine {X Y} : forall (a : list X) (b : list Y) i x y, nth_error a i = Some x -> nth_error b i = Some y -> In (x, y) (combine a b).
Proof. induction a as [|x a IH]; intros [|y b] [|i] u v H1 H2; try discriminate; cbn in *; [injection H1 as <-; injection H2 as <-; auto|]. right. eapply IH; eauto. Qed.
Lemma dict_obs_ok {S} wn keys out_keys (result : dict string (array S)) : NoDup (dkeys result) ->
  NoDup (flat_map (taken wn) keys) -> NoDup out_keys -> List.length keys = List.length out_keys ->
  (forall x, In x (flat_map (taken wn) keys) -> In x (dkeys result)) ->
  exists km b, key_map keys (Some out_keys) = Ok km /\ dict_obs_adaptor wn km result = Ok b /\
    (forall i k o, nth_error keys i = Some k -> nth_error out_keys i = Some o ->
       dget (bt_obs b) o = dget result k /\ dget (bt_next b) o = if wn then dget result (String.append "next_" k) else None) /\
    (forall o, ~ In o out_keys -> dget (bt_obs b) o = None /\ dget (bt_next b) o = None) /\
    (forall x, ~ In x ["observation"; "next_observation"] -> dget (bt_rows b) x = if inb x (flat_map (taken wn) keys) then None else dget result x).
Proof.
  intros N Nt No E Sub. destruct (combine_fst E) as [E1 E2]. exists (combine keys out_keys).
  destruct (@move_gen S wn (combine keys out_keys) result [] []) as (b & Eb & B1 & B2 & B3); rewrite ?E1, ?E2; auto. rewrite E1, E2 in *.
  exists (mkBatch (ddel (ddel (bt_rows b) "observation") "next_observation") (bt_obs b) (bt_next b)).
  split; [unfold key_map; rewrite E, Nat.eqb_refl; auto|]. split; [unfold dict_obs_adaptor; rewrite Eb; auto|]. cbn [bt_rows bt_obs bt_next]. split; [|split].
  - intros i k o H1 H2. destruct (B1 k o (nth_combine H1 H2)) as [-> ->]. split; auto.
  - intros o H. apply (B2 o H).
  - intros x Hx. rewrite !dget_ddel_neq; auto; intros <-; apply Hx; cbn; auto.
Qed.
