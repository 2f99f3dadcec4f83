(** * AccProofs: which additions a memory accepts (C148) *)
From Coq Require Import Lia.
From Verif Require Import Py PyLemmas MemModel MemSpec MemProofs MemRun MemSample MemSample2.
Set Implicit Arguments. Unset Strict Implicit.
Open Scope Z_scope.

(** ** FIFO *)
Lemma fifo_eject_ok (D : dict Z Z) : forall ids count, (forall x, In x ids -> In x (dkeys D)) ->
  (exists l, fifo_eject_loop D ids count = Ok l) \/
  (fifo_eject_loop D ids count = Err IndexError /\ zsum (map (len_of D) ids) < count).
Proof.
  induction ids as [|id r IH]; intros count Sub; simpl; destruct (Z.ltb_spec 0 count) as [P|P]; eauto.
  - destruct (dget_key D id) as [len G]; [apply Sub; simpl; auto|]. rewrite G.
    destruct (IH (count - len)) as [[l E]|[E Hl]]; [intros x Ix; apply Sub; simpl; auto| |]; rewrite E; simpl; eauto.
    right. split; auto. unfold zsum in *. cbn [map fold_right]. unfold len_of at 1, dget_default. rewrite G. lia.
Qed.

(** ** Sums over identities *)
Lemma map_len_of_keys (D : dict Z Z) : NoDup (dkeys D) -> map (len_of D) (dkeys D) = dvals D.
Proof.
  induction D as [|[k v] r IH]; intros ND; auto. simpl in ND. inversion ND as [|? ? N1 N2]; subst. unfold dkeys, dvals in *. cbn [map fst snd]. f_equal.
  - unfold len_of, dget_default. simpl. rewrite Z.eqb_refl. auto.
  - rewrite <- IH by auto. apply map_ext_in. intros x Ix. unfold len_of, dget_default. simpl. destruct (Z.eqb_spec x k); auto. subst; tauto.
Qed.
Lemma sub_sum (D : dict Z Z) : NoDup (dkeys D) -> (forall id len, In (id, len) D -> 0 <= len) -> forall l, NoDup l ->
  (forall x, In x l -> In x (dkeys D)) -> zsum (map (len_of D) l) <= zsum (dvals D).
Proof.
  intros ND Pos. induction D as [|[k v] r IH]; intros l N1 N2.
  - destruct l as [|x l]; [cbn; lia|]. destruct (N2 x (or_introl eq_refl)).
  - simpl in ND. inversion ND as [|? ? M1 M2]; subst.
    assert (Pr : forall id len, In (id, len) r -> 0 <= len) by (intros; eapply Pos; simpl; eauto).
    assert (Hv : 0 <= v) by (eapply Pos; simpl; eauto).
    assert (Hs : forall l', ~ In k l' -> map (len_of ((k, v) :: r)) l' = map (len_of r) l').
    { intros l' Nk. apply map_ext_in. intros x Ix. unfold len_of, dget_default. simpl. destruct (Z.eqb_spec x k); auto. subst; tauto. }
    unfold zsum in *. cbn [dvals map snd fold_right].
    destruct (in_dec Z.eq_dec k l) as [Ik|Nk].
    + apply in_split in Ik as (l1 & l2 & ->). pose proof (NoDup_remove_1 _ _ _ N1) as Nl'. pose proof (NoDup_remove_2 _ _ _ N1) as Nk.
      assert (fold_right Z.add 0 (map (len_of r) (l1 ++ l2)) <= fold_right Z.add 0 (dvals r)).
      { apply IH; auto. intros x Ix. destruct (N2 x) as [I|I]; auto; [apply in_app_or in Ix; apply in_or_app; simpl; tauto|]. simpl in I. subst. tauto. }
      rewrite map_app in *. cbn [map]. rewrite !Hs by (intros I; apply Nk; apply in_or_app; auto).
      change (fold_right Z.add 0 (map (len_of r) l1 ++ map (len_of r) l2)) with (zsum (map (len_of r) l1 ++ map (len_of r) l2)) in H.
      change (fold_right Z.add 0 (map (len_of r) l1 ++ len_of ((k, v) :: r) k :: map (len_of r) l2)) with (zsum (map (len_of r) l1 ++ len_of ((k, v) :: r) k :: map (len_of r) l2)).
      rewrite zsum_app in *. unfold zsum in *. cbn [fold_right]. unfold len_of at 2, dget_default. simpl. rewrite Z.eqb_refl. unfold dvals in *. lia.
    + rewrite Hs by auto. assert (fold_right Z.add 0 (map (len_of r) l) <= fold_right Z.add 0 (dvals r)); [|unfold dvals in *; lia].
      apply IH; auto. intros x Ix. destruct (N2 x Ix) as [I|I]; auto. simpl in I. subst. tauto.
Qed.

(** ** Weighted ejectors *)
Lemma zsum_incl (D : dict Z Z) : NoDup (dkeys D) -> (forall id len, In (id, len) D -> 0 <= len) -> forall l, NoDup l ->
  (forall x len, dget D x = Some len -> 0 < len -> In x l) -> zsum (dvals D) <= zsum (map (len_of D) l).
Proof.
  induction D as [|[k v] r IH]; intros ND Pos l Nl Cov.
  - cbn. apply zsum_nonneg. apply Forall_forall. intros x Ix. apply in_map_iff in Ix as (y & <- & _). unfold len_of, dget_default. simpl. lia.
  - simpl in ND. inversion ND as [|? ? N1 N2]; subst.
    assert (Pr : forall id len, In (id, len) r -> 0 <= len) by (intros; eapply Pos; simpl; eauto).
    assert (Hs : forall l', ~ In k l' -> map (len_of ((k, v) :: r)) l' = map (len_of r) l').
    { intros l' Nk. apply map_ext_in. intros x Ix. unfold len_of, dget_default. simpl. destruct (Z.eqb_spec x k); auto. subst; tauto. }
    assert (Hv : 0 <= v) by (eapply Pos; simpl; eauto).
    destruct (in_dec Z.eq_dec k l) as [Ik|Nk].
    + apply in_split in Ik as (l1 & l2 & ->). pose proof (NoDup_remove_1 _ _ _ Nl) as Nl'. pose proof (NoDup_remove_2 _ _ _ Nl) as Nk.
      specialize (IH N2 Pr (l1 ++ l2) Nl'). rewrite map_app, zsum_app. cbn [map]. rewrite !Hs by (intros I; apply Nk; apply in_or_app; auto).
      rewrite map_app, zsum_app in IH. unfold zsum in *. cbn [fold_right dvals map snd]. unfold len_of at 2, dget_default. simpl. rewrite Z.eqb_refl.
      assert (fold_right Z.add 0 (dvals r) <= fold_right Z.add 0 (map (len_of r) l1) + fold_right Z.add 0 (map (len_of r) l2)); [|unfold dvals in *; lia].
      apply IH. intros x len G Hl.
      assert (In x (l1 ++ k :: l2)).
      { apply (Cov x len); auto. simpl. destruct (Z.eqb_spec x k); auto. subst. exfalso. apply N1. eapply dget_Some_key; eauto. }
      apply in_app_or in H as [I|[I|I]]; apply in_or_app; auto. subst. exfalso. apply N1. eapply dget_Some_key; eauto.
    + assert (v = 0). { destruct (Z.eq_dec v 0); auto. exfalso. apply Nk. apply (Cov k v); [|lia]. simpl. rewrite Z.eqb_refl. auto. }
      subst. rewrite Hs by auto. unfold zsum in *. cbn [fold_right dvals map snd].
      assert (fold_right Z.add 0 (dvals r) <= fold_right Z.add 0 (map (len_of r) l)); [|unfold dvals in *; lia].
      apply IH; auto. intros x len G Hl. apply (Cov x len); auto. simpl. destruct (Z.eqb_spec x k); auto. subst. exfalso. apply N1. eapply dget_Some_key; eauto.
Qed.

(** Every list of outcomes: the loop ends or goes on; it ends when everything that can be drawn was drawn and suffices. *)
Lemma w_eject_loop_end draws : forall w D count acc, w_lens w = D -> w_ids w = dkeys D -> w_prios w = dvals D ->
  (exists l, w_eject_loop w count acc draws = Ok l) \/ w_eject_loop w count acc draws = Err Diverges.
Proof.
  induction draws as [|[id k] ds IH]; intros w D count acc E1 E2 E3; simpl; destruct (Z.ltb_spec 0 count); eauto.
  destruct (can_draw w id) eqn:C; simpl; auto. destruct (inb id acc); eauto.
  destruct (dget_key D id) as [len G]. { eapply can_draw_In; eauto. } rewrite E1, G. eauto.
Qed.
Lemma w_eject_loop_never draws : forall w D count acc, w_lens w = D -> w_ids w = dkeys D -> w_prios w = dvals D -> NoDup (dkeys D) ->
  (forall id len, In (id, len) D -> 0 <= len) -> NoDup acc -> (forall x, In x acc -> In x (dkeys D)) -> zsum (dvals D) < count + zsum (map (len_of D) acc) ->
  w_eject_loop w count acc draws = Err Diverges.
Proof.
  intros w D count acc E1 E2 E3 ND Pos Na Sub Hc.
  destruct (@w_eject_loop_end draws w D count acc E1 E2 E3) as [[l E]|E]; auto. exfalso.
  destruct (@w_eject_loop_spec draws w D count acc l E1 Na Sub E) as (N1 & N2 & N3).
  assert (zsum (map (len_of D) l) <= zsum (dvals D)) by (apply sub_sum; auto). lia.
Qed.
Lemma w_eject_loop_enough draws : forall w D count acc, w_lens w = D -> w_ids w = dkeys D -> w_prios w = dvals D -> NoDup (dkeys D) ->
  (forall id len, In (id, len) D -> 0 <= len) -> NoDup acc -> (forall x, In x acc -> In x (dkeys D)) -> count + zsum (map (len_of D) acc) <= zsum (dvals D) ->
  Forall (fun d => can_draw w (fst d) = true) draws -> (forall x len, dget D x = Some len -> 0 < len -> In x acc \/ In x (map fst draws)) ->
  exists l, w_eject_loop w count acc draws = Ok l.
Proof.
  induction draws as [|[id k] ds IH]; intros w D count acc E1 E2 E3 ND Pos Na Sub Hc F Cov; simpl; destruct (Z.ltb_spec 0 count); eauto.
  - exfalso. assert (zsum (dvals D) <= zsum (map (len_of D) acc)); [|lia]. apply zsum_incl; auto. intros x len G Hl.
    destruct (Cov x len G Hl) as [I|[]]; auto.
  - inversion F as [|? ? F1 F2]; subst. cbn [fst] in F1. rewrite F1. cbn [negb]. destruct (inb id acc) eqn:Ein.
    + eapply IH; eauto. intros x len G Hl. destruct (Cov x len G Hl) as [I|[I|I]]; auto. simpl in I. subst. left. apply inb_In; auto.
    + destruct (dget_key (w_lens w) id) as [len G]. { eapply can_draw_In; eauto. } rewrite G. apply inb_false in Ein.
      eapply IH; eauto.
      * apply NoDup_Add with (a := id) (l := acc); [|split; auto]. replace acc with (acc ++ [])%list at 1 by apply app_nil_r. apply Add_app.
      * intros x I. apply in_app_or in I as [I|[<-|[]]]; auto. eapply dget_Some_key; eauto.
      * rewrite map_app, zsum_app. cbn. unfold len_of at 2, dget_default. rewrite G. lia.
      * intros x len' G' Hl. destruct (Cov x len' G' Hl) as [I|[I|I]]; auto; left; apply in_or_app; simpl; auto.
Qed.

(** ** The kind of the ejector *)
Section Kind.
Context {S : Type} `{Scalar S}.
Implicit Types (t : table S).
Definition e_fifo (e : ejector) : bool := match e with EFifo _ => true | EWeighted _ => false end.
Lemma e_fifo_track e id len : e_fifo (fst (e_track e id len)) = e_fifo e.
Proof. destruct e; auto. Qed.
Lemma e_fifo_forget e id : e_fifo (fst (e_forget e id)) = e_fifo e.
Proof. destruct e; auto. Qed.
Lemma e_fifo_sample e n dr : e_fifo (fst (e_sample e n dr)) = e_fifo e.
Proof. destruct e; auto. Qed.
Lemma e_fifo_one t id : e_fifo (t_ejector (fst (eject_one t id))) = e_fifo (t_ejector t).
Proof.
  unfold eject_one. destruct (del_all (t_data t) id) as [d [u|e]]; simpl; auto.
  destruct (dget (t_lengths t) id); simpl; auto.
  destruct (s_forget (t_sampler t) id) as [s [u'|e]]; simpl in *; auto.
  pose proof (e_fifo_forget (t_ejector t) id) as E. destruct (e_forget (t_ejector t) id); auto.
Qed.
Lemma e_fifo_all ids : forall t, e_fifo (t_ejector (fst (eject_all t ids))) = e_fifo (t_ejector t).
Proof.
  induction ids as [|id r IH]; intros t; simpl; auto.
  pose proof (e_fifo_one t id) as E. destruct (eject_one t id) as [t1 [u|e]]; simpl in *; auto. rewrite IH. auto.
Qed.
Lemma e_fifo_add t id sq draws : e_fifo (t_ejector (fst (add_sequence t id sq draws))) = e_fifo (t_ejector t).
Proof.
  unfold add_sequence. destruct (dget sq (t_lenkey t)) as [fr|]; auto.
  set (r := if t_maxlen t <? t_size t + zlen fr then _ else _).
  assert (E : e_fifo (t_ejector (fst r)) = e_fifo (t_ejector t)).
  { unfold r. destruct (t_maxlen t <? t_size t + zlen fr); auto. unfold eject_count. cbn [with_filled t_ejector].
    pose proof (e_fifo_sample (t_ejector t) (t_size t + zlen fr - t_maxlen t) draws) as E.
    destruct (e_sample (t_ejector t) (t_size t + zlen fr - t_maxlen t) draws) as [ej [ids|e]]; simpl in *; auto.
    rewrite e_fifo_all. auto. }
  destruct r as [t1 [u|e]]; simpl in *; auto.
  destruct (write_columns (t_cols t1) (t_data t1) (wrap_id id) sq) as [d [u'|e]]; simpl; auto.
  destruct (s_track (t_sampler t1) (wrap_id id) (zlen fr)) as [s [u2|e]]; simpl in *; try congruence.
  pose proof (e_fifo_track (t_ejector t1) (wrap_id id) (zlen fr)) as E2.
  destruct (e_track (t_ejector t1) (wrap_id id) (zlen fr)); simpl in *; congruence.
Qed.
Lemma e_fifo_run ops : forall t, e_fifo (t_ejector (run t ops)) = e_fifo (t_ejector t).
Proof.
  induction ops as [|o r IH]; intros t; auto.
  change (run t (o :: r)) with (run (step t o) r). rewrite IH. destruct o; simpl; auto.
  - apply e_fifo_add.
  - destruct (t_sample_frame t count n draws) as [d ->]. auto.
  - unfold t_resize. destruct (n <? t_maxlen t); auto.
Qed.
End Kind.

(** ** The table *)
Section T.
Context {S : Type} `{Scalar S}.
Implicit Types (t : table S) (B : buffer S).

Lemma seq_len_nonneg lk (s : sequence S) : 0 <= seq_len lk s.
Proof. unfold seq_len. destruct (dget s lk); unfold zlen; lia. Qed.
Lemma lens_pos lk B id len : In (id, len) (lens_of lk B) -> 0 <= len.
Proof. intros I. unfold lens_of in I. apply in_map_iff in I as (x & Ex & _). inversion Ex; subst. apply seq_len_nonneg. Qed.

Variables (cols : list (column S)) (lk : string) (maxlen : Z) (smp : sampler) (ej : ejector) (ops : list (op S)) (id : Z) (sq : sequence S) (draws : list draw).
Hypothesis C : config_ok cols lk.
Hypothesis Fs : fresh_sampler smp.
Hypothesis Co : client_ok cols (ops ++ [OAdd id sq draws]).
Notation t := (run (t_create cols lk maxlen smp ej) ops).

Lemma before : fresh_ejector ej -> exists B, Inv t B /\ sublist B (adds ops) /\ t_cols t = cols /\ t_lenkey t = lk /\ ~ In (wrap_id id) (map fst B) /\ seq_ok (t_cols t) sq.
Proof.
  intros Fe. destruct Co as (C1 & C2 & C3).
  rewrite adds_app in C2, C3. simpl in C2, C3.
  apply Forall_app in C1 as [C1 _]. apply Forall_app in C2 as [C2 C2'].
  assert (ND : NoDup (map fst (adds ops))).
  { eapply sublist_NoDup; [|exact C3]. apply sublist_map. rewrite <- (app_nil_r (adds ops)) at 1.
    apply sublist_app; [apply sublist_refl|repeat constructor]. }
  destruct (run_create maxlen C Fs Fe (conj C1 (conj C2 ND))) as (B & I & Sb & F1 & F2 & F3 & F4).
  exists B. split; auto. split; auto. split; auto. split; auto. split.
  - intros In1. rewrite map_app in C3. simpl in C3. apply NoDup_remove_2 in C3. apply C3.
    rewrite app_nil_r. eapply sublist_In; [apply sublist_map; exact Sb|auto].
  - rewrite F1. inversion C2'; auto.
Qed.
Lemma size_vals B : Inv t B -> t_size t = zsum (dvals (lens_of (t_lenkey t) B)).
Proof. intros I. unfold t_size. rewrite (inv_total I), dvals_lens_of. auto. Qed.

(** The buffer is what the table holds. *)
Lemma held_buffer B b : Inv t B -> t_cols t = cols -> t_lenkey t = lk -> holds t b ->
  map (fun e => (fst e, seq_len lk (snd e))) b = lens_of lk B.
Proof.
  intros I F1 F2 Hb. destruct (co_lenkey C) as (c & Ic & En & Bc).
  assert (Is : In c (storage_cols (t_cols t))). { apply storage_In. rewrite F1. split; auto. unfold is_virtual. rewrite Bc. auto. }
  pose proof (Hb c Is) as E1. pose proof (inv_holds I c Is) as E2. rewrite E1 in E2. inversion E2 as [E3].
  assert (L : forall e : Z * sequence S, seq_len lk (snd e) = zlen (column_data c (snd e))).
  { intros e. unfold seq_len, column_data. rewrite En. destruct (dget (snd e) lk); auto. unfold zlen. rewrite map_length. auto. }
  unfold lens_of. clear -E3 L. revert B E3. induction b as [|x r IH]; intros [|y B] E3; try discriminate; auto.
  simpl in E3. inversion E3 as [[Ef Ec Er]]. simpl. rewrite !L, Ec, Ef. f_equal. apply IH; auto.
Qed.

Lemma fifo_accepts : ej = EFifo fifo_init -> (snd (add_sequence t id sq draws) = Ok tt <-> seq_len lk sq <= t_maxlen t).
Proof.
  intros Ee. assert (Fe : fresh_ejector ej) by (subst; constructor).
  destruct (before Fe) as (B & I & Sb & F1 & F2 & Nid & So).
  assert (Ej : exists f, t_ejector t = EFifo f /\ f_inv f (lens_of (t_lenkey t) B)).
  { pose proof (inv_ejector I) as J. assert (K : e_fifo (t_ejector t) = true) by (rewrite e_fifo_run; subst ej; auto).
    destruct (t_ejector t); [|discriminate]. eauto. }
  destruct Ej as (f & Ef & (J1 & J2 & J3)).
  pose proof (size_vals I) as Hsz.
  assert (Hl : zsum (map (len_of (lens_of (t_lenkey t) B)) (dkeys (lens_of (t_lenkey t) B))) = t_size t).
  { rewrite Hsz. f_equal. assert (N : NoDup (dkeys (lens_of (t_lenkey t) B))) by (rewrite dkeys_lens_of; apply (inv_nodup I)).
    apply map_len_of_keys; auto. }
  assert (Hz : 0 <= t_size t).
  { rewrite Hsz. apply zsum_nonneg. apply Forall_forall. intros x Ix. unfold dvals in Ix. apply in_map_iff in Ix as ([k v] & <- & I1). eapply lens_pos; eauto. }
  destruct (@add_sequence_inv S t B id sq draws I Nid So) as
      [(t1 & er' & E & I' & Hn & Hs & _)|(t1 & ids & E & I' & Nd & Sub & Hs & Hn & _)]; rewrite E; cbn [snd].
  - split; [discriminate|]. intros Hle. exfalso. rewrite Ef in Hs. cbn [e_sample snd] in Hs. unfold fifo_eject in Hs. rewrite J1, J2 in Hs.
    destruct (@fifo_eject_ok (lens_of (t_lenkey t) B) (dkeys (lens_of (t_lenkey t) B)) (t_size t + seq_len (t_lenkey t) sq - t_maxlen t)) as [[l El]|[El Hlt]]; auto.
    + rewrite El in Hs. discriminate.
    + rewrite F2 in *. lia.
  - split; auto. intros _. rewrite F2 in *.
    destruct (Z.ltb_spec 0 (t_size t + seq_len lk sq - t_maxlen t)); [|lia].
    assert (zsum (map (len_of (lens_of lk B)) ids) <= t_size t); [|lia].
    rewrite Hsz. apply sub_sum; auto; [rewrite dkeys_lens_of; apply (inv_nodup I)|apply lens_pos|].
    intros x Ix. rewrite dkeys_lens_of. auto.
Qed.

Lemma weighted_case cov : ej = EWeighted (w_init cov) -> Forall (fun x => fst x < 2 ^ 63) (adds ops) -> Forall (fun x => - 2 ^ 63 <= fst x) (adds ops) ->
  exists B w, Inv t B /\ t_cols t = cols /\ t_lenkey t = lk /\ w_lens w = lens_of lk B /\ w_ids w = dkeys (lens_of lk B) /\ w_prios w = dvals (lens_of lk B) /\
    NoDup (dkeys (lens_of lk B)) /\ t_size t = zsum (dvals (lens_of lk B)) /\
    let need := t_size t + seq_len lk sq - t_maxlen t in
    snd (add_sequence t id sq draws) =
      if 0 <? need then if choice_ok w then match w_eject_loop w need [] draws with Ok _ => Ok tt | Err e => Err e end else Err ValueError else Ok tt.
Proof.
  intros Ee I1 I2. assert (Fe : fresh_ejector ej) by (subst; constructor).
  destruct (before Fe) as (B & I & Sb & F1 & F2 & Nid & So).
  assert (Ej : exists w, t_ejector t = EWeighted w /\ w_inv w (lens_of (t_lenkey t) B)).
  { pose proof (inv_ejector I) as J. assert (K : e_fifo (t_ejector t) = false) by (rewrite e_fifo_run; subst ej; auto).
    destruct (t_ejector t); [discriminate|]. eauto. }
  destruct Ej as (w0 & Ew & Iw).
  assert (Fi : forallb fits_int64 (dkeys (lens_of (t_lenkey t) B)) = true).
  { rewrite dkeys_lens_of. apply forallb_forall. intros x Ix. apply in_map_iff in Ix as (y & <- & Iy).
    pose proof (sublist_Forall Sb I1) as A1. pose proof (sublist_Forall Sb I2) as A2. rewrite Forall_forall in A1, A2.
    specialize (A1 y Iy). specialize (A2 y Iy). simpl in A1, A2. unfold fits_int64. apply andb_true_iff. split; [apply Z.leb_le|apply Z.ltb_lt]; auto. }
  destruct (@w_refresh_ok _ _ Iw Fi) as (w & Er & Iw1 & E1 & E2).
  exists B, w. split; auto. split; auto. split; auto. rewrite F2 in *. split; [destruct Iw1; auto|]. split; auto. split; auto.
  split; [rewrite dkeys_lens_of; apply (inv_nodup I)|]. split; [pose proof (size_vals I) as Q; rewrite F2 in Q; auto|].
  intros need.
  assert (Hs : snd (e_sample (t_ejector t) need draws) = if (0 <? need) && negb (choice_ok w) then Err ValueError else w_eject_loop w need [] draws).
  { rewrite Ew. cbn [e_sample snd]. unfold w_eject. rewrite Er. destruct ((0 <? need) && negb (choice_ok w)); auto. }
  destruct (@add_sequence_inv S t B id sq draws I Nid So) as
      [(t1 & er' & E & I' & Hn & Hs' & _)|(t1 & ids & E & I' & Nd & Sub & Hs' & Hn & _)]; rewrite E; cbn [snd]; rewrite F2 in *; fold need in Hs', Hn.
  - destruct (Z.ltb_spec 0 need); [|lia]. rewrite Hs in Hs'. destruct (choice_ok w); cbn [andb negb] in Hs'; [rewrite Hs'|]; congruence.
  - destruct (Z.ltb_spec 0 need); auto. rewrite Hs in Hs'. destruct (choice_ok w); cbn [andb negb] in Hs'; [rewrite Hs'|]; congruence.
Qed.

Lemma choice_pos B w : w_ids w = dkeys (lens_of lk B) -> w_prios w = dvals (lens_of lk B) -> 0 < zsum (dvals (lens_of lk B)) -> choice_ok w = true.
Proof.
  intros E1 E2 P. unfold choice_ok. rewrite E1, E2. unfold dkeys, dvals in *. rewrite !map_length, Nat.eqb_refl. simpl. apply Z.ltb_lt. auto.
Qed.

Lemma weighted_accepts cov b : ej = EWeighted (w_init cov) -> Forall (fun x => fst x < 2 ^ 63) (adds ops) -> Forall (fun x => - 2 ^ 63 <= fst x) (adds ops) ->
  holds t b -> Forall (fun d => exists s, In (fst d, s) b /\ 0 < seq_len lk s) draws ->
  (forall i s, In (i, s) b -> 0 < seq_len lk s -> In i (map fst draws)) ->
  seq_len lk sq <= t_maxlen t -> snd (add_sequence t id sq draws) = Ok tt.
Proof.
  intros Ee I1 I2 Hb Hd Cov Hle. destruct (weighted_case Ee I1 I2) as (B & w & I & F1 & F2 & E1 & E2 & E3 & ND & Hsz & Hadd).
  cbv zeta in Hadd. rewrite Hadd. destruct (Z.ltb_spec 0 (t_size t + seq_len lk sq - t_maxlen t)) as [Hn|Hn]; auto.
  pose proof (held_buffer I F1 F2 Hb) as HB.
  rewrite (@choice_pos B w E2 E3) by (rewrite <- Hsz; lia).
  destruct (@w_eject_loop_enough draws w (lens_of lk B) (t_size t + seq_len lk sq - t_maxlen t) [] E1 E2 E3 ND) as [l El]; try (rewrite El; reflexivity).
  - apply lens_pos.
  - constructor.
  - intros x [].
  - cbn. rewrite <- Hsz. lia.
  - apply Forall_forall. intros [x k] Ix. rewrite Forall_forall in Hd. destruct (Hd _ Ix) as (s & Is & Ps). cbn [fst] in *.
    eapply can_draw_intro; eauto. apply In_dget; auto. rewrite <- HB. apply in_map_iff. exists (x, s). auto.
  - intros x len G Pl. right. apply dget_In in G. rewrite <- HB in G. apply in_map_iff in G as ([i s] & Ex & Ii). cbn [fst snd] in Ex. inversion Ex; subst. eapply Cov; eauto.
Qed.

Lemma weighted_hangs cov b : ej = EWeighted (w_init cov) -> Forall (fun x => fst x < 2 ^ 63) (adds ops) -> Forall (fun x => - 2 ^ 63 <= fst x) (adds ops) ->
  holds t b -> (exists e, In e b /\ 0 < seq_len lk (snd e)) -> t_maxlen t < seq_len lk sq -> snd (add_sequence t id sq draws) = Err Diverges.
Proof.
  intros Ee I1 I2 Hb (e & Ie & Pe) Hlt. destruct (weighted_case Ee I1 I2) as (B & w & I & F1 & F2 & E1 & E2 & E3 & ND & Hsz & Hadd).
  cbv zeta in Hadd. rewrite Hadd. pose proof (held_buffer I F1 F2 Hb) as HB.
  assert (Pos : 0 < zsum (dvals (lens_of lk B))).
  { rewrite <- HB. unfold dvals. rewrite map_map. cbn [snd]. apply in_split in Ie as (b1 & b2 & ->). rewrite map_app, zsum_app. unfold zsum. cbn [map fold_right].
    assert (Q : forall l : buffer S, 0 <= fold_right Z.add 0 (map (fun x => seq_len lk (snd x)) l)).
    { intros l. induction l as [|y r IH]; cbn [map fold_right]; [lia|]. pose proof (@seq_len_nonneg lk (snd y)). lia. }
    pose proof (Q b1). pose proof (Q b2). lia. }
  destruct (Z.ltb_spec 0 (t_size t + seq_len lk sq - t_maxlen t)) as [Hn|Hn]; [|lia].
  rewrite (@choice_pos B w E2 E3 Pos).
  rewrite (@w_eject_loop_never draws w (lens_of lk B) (t_size t + seq_len lk sq - t_maxlen t) [] E1 E2 E3 ND); auto.
  - apply lens_pos.
  - constructor.
  - intros x [].
  - cbn. lia.
Qed.

Lemma only_endless : fresh_ejector ej -> Forall (fun x => fst x < 2 ^ 63) (adds ops) -> Forall (fun x => - 2 ^ 63 <= fst x) (adds ops) ->
  seq_len lk sq <= t_maxlen t -> snd (add_sequence t id sq draws) = Ok tt \/ snd (add_sequence t id sq draws) = Err Diverges.
Proof.
  intros Fe I1 I2 Hle. assert (Ee : ej = EFifo fifo_init \/ exists cov, ej = EWeighted (w_init cov)) by (inversion Fe; eauto). destruct Ee as [Ee|[cov Ee]].
  - left. apply fifo_accepts; auto.
  - destruct (weighted_case Ee I1 I2) as (B & w & I & F1 & F2 & E1 & E2 & E3 & ND & Hsz & Hadd).
    cbv zeta in Hadd. rewrite Hadd. destruct (Z.ltb_spec 0 (t_size t + seq_len lk sq - t_maxlen t)) as [Hn|Hn]; auto.
    rewrite (@choice_pos B w E2 E3) by (rewrite <- Hsz; lia).
    destruct (@w_eject_loop_end draws w (lens_of lk B) (t_size t + seq_len lk sq - t_maxlen t) [] E1 E2 E3) as [[l ->]| ->]; auto.
Qed.

Lemma too_long_refused : fresh_ejector ej -> Forall (fun x => fst x < 2 ^ 63) (adds ops) -> Forall (fun x => - 2 ^ 63 <= fst x) (adds ops) ->
  t_maxlen t < seq_len lk sq -> exists e, snd (add_sequence t id sq draws) = Err e.
Proof.
  intros Fe I1 I2 Hlt. assert (Ee : ej = EFifo fifo_init \/ exists cov, ej = EWeighted (w_init cov)) by (inversion Fe; eauto). destruct Ee as [Ee|[cov Ee]].
  - destruct (snd (add_sequence _ _ _ _)) as [[]|e] eqn:Q; eauto. apply fifo_accepts in Q; auto. lia.
  - destruct (weighted_case Ee I1 I2) as (B & w & I & F1 & F2 & E1 & E2 & E3 & ND & Hsz & Hadd).
    cbv zeta in Hadd. rewrite Hadd.
    assert (0 <= zsum (dvals (lens_of lk B))).
    { apply zsum_nonneg. apply Forall_forall. intros x Ix. unfold dvals in Ix. apply in_map_iff in Ix as ([k v] & <- & J). eapply lens_pos; eauto. }
    destruct (Z.ltb_spec 0 (t_size t + seq_len lk sq - t_maxlen t)) as [Hn|Hn]; [|lia].
    destruct (choice_ok w); eauto.
    rewrite (@w_eject_loop_never draws w (lens_of lk B) (t_size t + seq_len lk sq - t_maxlen t) [] E1 E2 E3 ND); eauto.
    + apply lens_pos.
    + constructor.
    + intros x [].
    + cbn. lia.
Qed.
End T.

(** ** The statements *)
Section F.
Context {S : Type} {HS : Scalar S}.
Lemma ids_split (l : list (Z * sequence S)) : Forall (fun x => - 2 ^ 63 <= fst x < 2 ^ 63) l ->
  Forall (fun x => fst x < 2 ^ 63) l /\ Forall (fun x => - 2 ^ 63 <= fst x) l.
Proof. intros F. split; (eapply Forall_impl; [|exact F]); simpl; intros; lia. Qed.
Lemma acc_fifo cols lk maxlen smp ops id (sq : sequence S) draws : config_ok cols lk -> fresh_sampler smp -> client_ok cols (ops ++ [OAdd id sq draws]) ->
  let t := run (t_create cols lk maxlen smp (EFifo fifo_init)) ops in
  snd (add_sequence t id sq draws) = Ok tt <-> seq_len lk sq <= t_maxlen t.
Proof. intros C Fs Co. exact (@fifo_accepts S HS cols lk maxlen smp _ ops id sq draws C Fs Co eq_refl). Qed.
Lemma acc_weighted cols lk maxlen smp cov ops id (sq : sequence S) draws b : config_ok cols lk -> fresh_sampler smp -> client_ok cols (ops ++ [OAdd id sq draws]) ->
  Forall (fun x => - 2 ^ 63 <= fst x < 2 ^ 63) (adds ops) ->
  let t := run (t_create cols lk maxlen smp (EWeighted (w_init cov))) ops in
  holds t b -> Forall (fun d => exists s, In (fst d, s) b /\ 0 < seq_len lk s) draws ->
  (forall i s, In (i, s) b -> 0 < seq_len lk s -> In i (map fst draws)) ->
  seq_len lk sq <= t_maxlen t -> snd (add_sequence t id sq draws) = Ok tt.
Proof. intros C Fs Co F. apply ids_split in F as [F1 F2]. exact (@weighted_accepts S HS cols lk maxlen smp _ ops id sq draws C Fs Co cov b eq_refl F1 F2). Qed.
Lemma acc_hangs cols lk maxlen smp cov ops id (sq : sequence S) draws b : config_ok cols lk -> fresh_sampler smp -> client_ok cols (ops ++ [OAdd id sq draws]) ->
  Forall (fun x => - 2 ^ 63 <= fst x < 2 ^ 63) (adds ops) ->
  let t := run (t_create cols lk maxlen smp (EWeighted (w_init cov))) ops in
  holds t b -> (exists e, In e b /\ 0 < seq_len lk (snd e)) -> t_maxlen t < seq_len lk sq -> snd (add_sequence t id sq draws) = Err Diverges.
Proof. intros C Fs Co F. apply ids_split in F as [F1 F2]. exact (@weighted_hangs S HS cols lk maxlen smp _ ops id sq draws C Fs Co cov b eq_refl F1 F2). Qed.
Lemma acc_any cols lk maxlen smp ej ops id (sq : sequence S) draws : config_ok cols lk -> fresh_sampler smp -> fresh_ejector ej -> client_ok cols (ops ++ [OAdd id sq draws]) ->
  Forall (fun x => - 2 ^ 63 <= fst x < 2 ^ 63) (adds ops) ->
  let t := run (t_create cols lk maxlen smp ej) ops in
  (seq_len lk sq <= t_maxlen t -> snd (add_sequence t id sq draws) = Ok tt \/ snd (add_sequence t id sq draws) = Err Diverges) /\
  (t_maxlen t < seq_len lk sq -> exists e, snd (add_sequence t id sq draws) = Err e).
Proof.
  intros C Fs Fe Co F. apply ids_split in F as [F1 F2]. split; [exact (@only_endless S HS cols lk maxlen smp ej ops id sq draws C Fs Co Fe F1 F2)|].
  exact (@too_long_refused S HS cols lk maxlen smp ej ops id sq draws C Fs Co Fe F1 F2).
Qed.
End F.
