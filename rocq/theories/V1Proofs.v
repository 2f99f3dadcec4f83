(** * V1Proofs: exporting and importing the table (C19 - C22, C24). *)
From Verif Require Import Py PyLemmas MemModel MemSpec MemProofs MemRun MemSample MemSample2 V1Spec.
Open Scope Z_scope.
Set Implicit Arguments.

(** ** Importing is adding: strategies in import mode

    While a file is imported a FIFO strategy already knows the pending sequences
    [R]; otherwise it equals the strategy that has tracked what was added. *)
Definition pend_f (R : list (Z * Z)) (f fn : fifo) : Prop :=
  f = mkFifo (f_lens fn ++ R) (f_ids fn ++ dkeys R) true /\ f_imp fn = false.
Definition s_pend R (s sn : sampler) : Prop :=
  match s, sn with
  | SFifo f b1 b2, SFifo fn c1 c2 => pend_f R f fn /\ b1 = c1 /\ b2 = c2
  | SWeighted w, SWeighted wn => w = w_set_imp wn true
  | _, _ => False
  end.
Definition e_pend R (e en : ejector) : Prop :=
  match e, en with
  | EFifo f, EFifo fn => pend_f R f fn
  | EWeighted w, EWeighted wn => w = w_set_imp wn true
  | _, _ => False
  end.

Lemma remove1_app id l m : In id l -> remove1 id (l ++ m) = remove1 id l ++ m.
Proof.
  induction l as [|x r IH]; simpl; [tauto|]. intros [->|I]; [rewrite Z.eqb_refl; auto|].
  destruct (id =? x); auto. simpl. f_equal; auto.
Qed.
Lemma ddel_app (d e : dict Z Z) id : In id (dkeys d) -> ddel (d ++ e) id = ddel d id ++ e.
Proof.
  induction d as [|[k v] r IH]; simpl; [tauto|]. intros [->|I]; [rewrite Z.eqb_refl; auto|].
  destruct (id =? k); auto. simpl. f_equal; auto.
Qed.

Lemma pend_forget_f R f fn D id : pend_f R f fn -> f_inv fn D -> In id (dkeys D) ->
  exists f' fn', fifo_forget f id = (f', Ok tt) /\ fifo_forget fn id = (fn', Ok tt) /\ pend_f R f' fn'.
Proof.
  intros [-> Hi] (E1 & E2 & E3) I. unfold fifo_forget. cbn [f_lens f_ids f_imp].
  rewrite E1, E2.
  assert (A1 : inb id (dkeys D ++ dkeys R) = true) by (apply inb_In, in_or_app; auto).
  assert (A2 : inb id (dkeys D) = true) by (apply inb_In; auto).
  assert (A3 : dmem (D ++ R) id = true) by (apply dmem_In; rewrite dkeys_app; apply in_or_app; auto).
  assert (A4 : dmem D id = true) by (apply dmem_In; auto).
  rewrite A1, A2, A3, A4. eexists _, _. split; [reflexivity|]. split; [reflexivity|].
  split; cbn [f_lens f_ids f_imp]; auto. rewrite remove1_app, ddel_app by auto. auto.
Qed.

Lemma w_forget_imp w id b : w_forget (w_set_imp w b) id =
  (w_set_imp (fst (w_forget w id)) b, snd (w_forget w id)).
Proof.
  unfold w_forget, w_set_imp; simpl. destruct (dmem (w_lens w) id); simpl; auto.
  destruct (w_cov w); simpl; auto. destruct (dmem (w_counts w) id); simpl; auto.
Qed.

Lemma pend_forget_s R s sn D id : s_pend R s sn -> s_inv sn D -> In id (dkeys D) ->
  exists s' sn', s_forget s id = (s', Ok tt) /\ s_forget sn id = (sn', Ok tt) /\ s_pend R s' sn'.
Proof.
  destruct s as [f b1 b2|w], sn as [fn c1 c2|wn]; simpl; try tauto.
  - intros (P & -> & ->) I Hi. destruct (pend_forget_f id P I Hi) as (f' & fn' & E1 & E2 & P').
    rewrite E1, E2. simpl. eexists _, _. split; [reflexivity|]. split; [reflexivity|]. simpl. auto.
  - intros -> I Hi. destruct (w_inv_forget id I Hi) as (w' & E & _). rewrite w_forget_imp, E. simpl.
    eexists _, _. split; [reflexivity|]. split; [reflexivity|]. simpl. auto.
Qed.
Lemma pend_forget_e R s sn D id : e_pend R s sn -> e_inv sn D -> In id (dkeys D) ->
  exists s' sn', e_forget s id = (s', Ok tt) /\ e_forget sn id = (sn', Ok tt) /\ e_pend R s' sn'.
Proof.
  destruct s as [f|w], sn as [fn|wn]; simpl; try tauto.
  - intros P I Hi. destruct (pend_forget_f id P I Hi) as (f' & fn' & E1 & E2 & P').
    rewrite E1, E2. simpl. eexists _, _. split; [reflexivity|]. split; [reflexivity|]. simpl. auto.
  - intros -> I Hi. destruct (w_inv_forget id I Hi) as (w' & E & _). rewrite w_forget_imp, E. simpl.
    eexists _, _. split; [reflexivity|]. split; [reflexivity|]. simpl. auto.
Qed.

Lemma pend_track_f R f fn D id len : pend_f ((id, len) :: R) f fn -> f_inv fn D -> ~ In id (dkeys D) ->
  exists fn', fifo_track f id len = (f, Ok tt) /\ fifo_track fn id len = (fn', Ok tt) /\ pend_f R f fn'.
Proof.
  intros [-> Hi] (E1 & E2 & E3) N. unfold fifo_track. rewrite Hi. cbn [f_imp].
  assert (A : dmem (f_lens fn) id = false) by (apply dmem_false; rewrite E1; auto).
  rewrite A. eexists. split; [reflexivity|]. split; [reflexivity|].
  split; cbn [f_lens f_ids f_imp]; auto. rewrite dset_fresh by (rewrite E1; auto).
  unfold dkeys. simpl map. rewrite <- !app_assoc. auto.
Qed.
Lemma pend_track_s R s sn D id len : s_pend ((id, len) :: R) s sn -> s_inv sn D -> ~ In id (dkeys D) ->
  exists s' sn', s_track s id len = (s', Ok tt) /\ s_track sn id len = (sn', Ok tt) /\ s_pend R s' sn'.
Proof.
  destruct s as [f b1 b2|w], sn as [fn c1 c2|wn]; simpl; try tauto.
  - intros (P & -> & ->) I Hi. destruct (pend_track_f P I Hi) as (fn' & E1 & E2 & P').
    rewrite E1, E2. simpl. eexists _, _. split; [reflexivity|]. split; [reflexivity|]. simpl. auto.
  - intros -> I Hi. eexists _, _. split; [reflexivity|]. split; [reflexivity|]. simpl. auto.
Qed.
Lemma pend_track_e R s sn D id len : e_pend ((id, len) :: R) s sn -> e_inv sn D -> ~ In id (dkeys D) ->
  exists s' sn', e_track s id len = (s', Ok tt) /\ e_track sn id len = (sn', Ok tt) /\ e_pend R s' sn'.
Proof.
  destruct s as [f|w], sn as [fn|wn]; simpl; try tauto.
  - intros P I Hi. destruct (pend_track_f P I Hi) as (fn' & E1 & E2 & P').
    rewrite E1, E2. simpl. eexists _, _. split; [reflexivity|]. split; [reflexivity|]. simpl. auto.
  - intros -> I Hi. eexists _, _. split; [reflexivity|]. split; [reflexivity|]. simpl. auto.
Qed.

Lemma eject_loop_app D R : forall ids ids2 count l,
  fifo_eject_loop D ids count = Ok l -> fifo_eject_loop (D ++ R) (ids ++ ids2) count = Ok l.
Proof.
  induction ids as [|i r IH]; intros ids2 count l.
  - simpl. destruct (0 <? count) eqn:E; [discriminate|]. intros E1; inversion E1; subst.
    destruct ids2; simpl; rewrite E; auto.
  - simpl. destruct (0 <? count); auto. rewrite dget_app.
    destruct (dget D i) as [len|]; [|discriminate].
    destruct (fifo_eject_loop D r (count - len)) as [l'|e] eqn:El; [|discriminate].
    intros E1. rewrite (IH ids2 _ _ El). auto.
Qed.

Lemma w_eject_loop_imp w b : forall draws count acc,
  w_eject_loop (w_set_imp w b) count acc draws = w_eject_loop w count acc draws.
Proof.
  induction draws as [|[i k] ds IH]; intros count acc; simpl; auto.
  destruct (0 <? count); auto.
  change (can_draw (w_set_imp w b) i) with (can_draw w i).
  destruct (can_draw w i); simpl; auto. destruct (inb i acc); auto.
  destruct (dget (w_lens w) i); auto.
Qed.

Lemma w_refresh_imp w b : w_refresh (w_set_imp w b) =
  (w_set_imp (fst (w_refresh w)) b, snd (w_refresh w)).
Proof.
  unfold w_refresh, w_rebalance. simpl. destruct (w_dirty w); auto. destruct (forallb _ _); auto.
Qed.

Lemma w_eject_imp w b count draws : w_eject (w_set_imp w b) count draws =
  (w_set_imp (fst (w_eject w count draws)) b, snd (w_eject w count draws)).
Proof.
  unfold w_eject. rewrite w_refresh_imp. destruct (w_refresh w) as [w1 [u|e]]; simpl; auto.
  change (choice_ok (w_set_imp w1 b)) with (choice_ok w1).
  destruct ((0 <? count) && negb (choice_ok w1)); simpl; auto.
  rewrite w_eject_loop_imp. auto.
Qed.

Lemma pend_sample_e R e en count draws ids :
  e_pend R e en -> snd (e_sample en count draws) = Ok ids ->
  snd (e_sample e count draws) = Ok ids /\ e_pend R (fst (e_sample e count draws)) (fst (e_sample en count draws)).
Proof.
  destruct e as [f|w], en as [fn|wn]; simpl; try tauto.
  - intros [-> Hi]. unfold fifo_eject. simpl. intros E. split.
    + apply eject_loop_app; auto.
    + split; auto.
  - intros -> E. rewrite w_eject_imp. simpl. auto.
Qed.

Section Imp.
Context {S : Type} `{Scalar S}.
Implicit Types (t : table S) (B : buffer S).

Definition t_pend R t tn : Prop :=
  exists s e, t = with_ejector (with_sampler tn s) e /\
    s_pend R s (t_sampler tn) /\ e_pend R e (t_ejector tn).

Lemma pend_eject_one R t tn B id : t_pend R t tn -> Inv tn B -> In id (map fst B) ->
  exists t' tn', eject_one t id = (t', Ok tt) /\ eject_one tn id = (tn', Ok tt) /\ t_pend R t' tn'.
Proof.
  intros (s & e & -> & Ps & Pe) I Hid.
  destruct (@eject_one_inv S tn B id I Hid) as (tn' & En & _).
  assert (Hid' : In id (dkeys (lens_of (t_lenkey tn) B))) by (rewrite dkeys_lens_of; auto).
  destruct (@pend_forget_s R _ _ _ id Ps (inv_sampler I) Hid') as (s' & sn' & E1 & E2 & Ps').
  destruct (@pend_forget_e R _ _ _ id Pe (inv_ejector I) Hid') as (e' & en' & F1 & F2 & Pe').
  revert En. unfold eject_one. cbn [t_data with_ejector with_sampler].
  destruct (del_all (t_data tn) id) as [d [u|er]]; [|discriminate].
  cbn [t_lengths with_data with_ejector with_sampler].
  destruct (dget (t_lengths tn) id) as [len|]; [|discriminate].
  cbn [t_sampler t_ejector with_data with_lengths with_ejector with_sampler t_total t_lengths].
  rewrite E1, E2. cbn [t_sampler t_ejector with_data with_lengths with_ejector with_sampler].
  rewrite F1, F2. intros En. eexists _, _. split; [reflexivity|]. split; [reflexivity|].
  exists s', e'. split; [reflexivity|]. simpl. auto.
Qed.

Lemma pend_eject_all R ids : forall t tn B, t_pend R t tn -> Inv tn B -> NoDup ids ->
  (forall x, In x ids -> In x (map fst B)) ->
  exists t' tn', eject_all t ids = (t', Ok tt) /\ eject_all tn ids = (tn', Ok tt) /\ t_pend R t' tn'.
Proof.
  induction ids as [|i r IH]; intros t tn B P I ND Sub; simpl.
  - eexists _, _. split; [reflexivity|]. split; [reflexivity|]. auto.
  - inversion ND; subst.
    destruct (@pend_eject_one R t tn B i P I) as (t1 & tn1 & E1 & E2 & P1). { apply Sub; simpl; auto. }
    destruct (@eject_one_inv S tn B i I) as (tn1' & E2' & I1 & _). { apply Sub; simpl; auto. }
    rewrite E2 in E2'. inversion E2'; subst tn1'. rewrite E1, E2.
    apply (IH t1 tn1 (drop i B)); auto.
    intros x Ix. specialize (Sub x (or_intror Ix)).
    apply in_map_iff in Sub as ([k s] & <- & Ie). apply in_map_iff. exists (k, s); split; auto.
    apply filter_In. split; auto. simpl. apply negb_true_iff, Z.eqb_neq. simpl in Ix. congruence.
Qed.

Lemma pend_add R t tn B id s draws tn' :
  let len := seq_len (t_lenkey tn) s in
  t_pend ((wrap_id id, len) :: R) t tn -> Inv tn B -> ~ In (wrap_id id) (map fst B) ->
  seq_ok (t_cols tn) s -> add_sequence tn id s draws = (tn', Ok tt) ->
  exists t', add_sequence t id s draws = (t', Ok tt) /\ t_pend R t' tn'.
Proof.
  intros len P I Nid So En.
  destruct (seq_ok_frames (inv_cfg I) So) as (fr & Ef & El).
  assert (Hlen : len = zlen fr) by exact El.
  (* the state after a possible ejection *)
  assert (Step : exists t1 tn1 B1,
    (if t_maxlen t <? t_size t + len then eject_count t (t_size t + len - t_maxlen t) draws else (t, Ok tt)) = (t1, Ok tt) /\
    (if t_maxlen tn <? t_size tn + len then eject_count tn (t_size tn + len - t_maxlen tn) draws else (tn, Ok tt)) = (tn1, Ok tt) /\
    t_pend ((wrap_id id, len) :: R) t1 tn1 /\ Inv tn1 B1 /\ ~ In (wrap_id id) (map fst B1) /\
    t_cols tn1 = t_cols tn /\ t_lenkey tn1 = t_lenkey tn).
  { pose proof P as (s0 & e0 & Et & Ps & Pe).
    assert (Em : t_maxlen t = t_maxlen tn) by (rewrite Et; auto).
    assert (Es : t_size t = t_size tn) by (rewrite Et; auto). rewrite Em, Es.
    destruct (t_maxlen tn <? t_size tn + len) eqn:Hlt.
    2:{ exists t, tn, B. auto 10. }
    destruct (@eject_count_inv S tn B (t_size tn + len - t_maxlen tn) draws I) as
      [(t1 & e & E & I1 & Hs & _)|(t1 & ids & E & I1 & Hs & N1 & N2 & N3 & F1 & F2 & F3 & F4)].
    { exfalso. revert En. unfold add_sequence. rewrite Ef, <- Hlen, Hlt, E. discriminate. }
    destruct (@pend_sample_e _ _ _ (t_size tn + len - t_maxlen tn) draws ids Pe Hs) as [Hs2 Pe2].
    unfold eject_count in *. rewrite Et.
    cbn [t_ejector with_filled with_ejector with_sampler t_sampler] in *.
    destruct (e_sample e0 (t_size tn + len - t_maxlen tn) draws) as [e1 x1]; cbn [fst snd] in *. subst x1.
    destruct (e_sample (t_ejector tn) (t_size tn + len - t_maxlen tn) draws) as [en1 x2] eqn:Een; cbn [fst snd] in *. subst x2.
    destruct (@pend_eject_all ((wrap_id id, len) :: R) ids
       (with_ejector (with_filled (with_ejector (with_sampler tn s0) e0) true) e1)
       (with_ejector (with_filled tn true) en1) B) as (t' & tn1 & A1 & A2 & A3); auto.
    - exists s0, e1. split; [reflexivity|]. simpl. auto.
    - apply Inv_with_ejector; [apply Inv_with_filled; auto|].
      pose proof (@e_sample_spec (t_ejector tn) (lens_of (t_lenkey tn) B) (t_size tn + len - t_maxlen tn) draws) as [Ie _].
      { apply (inv_ejector I). } { rewrite dkeys_lens_of. apply (inv_nodup I). }
      rewrite Een in Ie. exact Ie.
    - rewrite A1, A2. rewrite A2 in E. inversion E; subst t1.
      exists t', tn1, (drop_all ids B). split; auto. split; auto. split; auto. split; auto. split; auto.
      intros Hin. apply Nid. apply in_map_iff in Hin as (x & Ex & Ix).
      apply filter_In in Ix as [Ix _]. rewrite <- Ex. apply in_map; auto. }
  destruct Step as (t1 & tn1 & B1 & E1 & E2 & P1 & I1 & N1 & C1 & L1).
  assert (Elk : t_lenkey t = t_lenkey tn) by (destruct P as (? & ? & -> & _); auto).
  revert En. unfold add_sequence. rewrite Elk, Ef. rewrite <- Hlen.
  rewrite E1, E2.
  destruct P1 as (s1 & e1 & -> & Ps1 & Pe1).
  cbn [t_cols t_data with_ejector with_sampler].
  destruct (write_columns (t_cols tn1) (t_data tn1) (wrap_id id) s) as [d [u|er]]; [|discriminate].
  cbn [t_sampler t_ejector with_data with_lengths with_ejector with_sampler t_total t_lengths].
  assert (Nd : ~ In (wrap_id id) (dkeys (lens_of (t_lenkey tn1) B1))) by (rewrite dkeys_lens_of; auto).
  destruct (@pend_track_s _ _ _ _ _ _ Ps1 (inv_sampler I1) Nd) as (s' & sn' & A1 & A2 & Ps').
  destruct (@pend_track_e _ _ _ _ _ _ Pe1 (inv_ejector I1) Nd) as (e' & en' & A3 & A4 & Pe').
  rewrite A1, A2. cbn [t_sampler t_ejector with_data with_lengths with_ejector with_sampler].
  rewrite A3, A4. intros En. inversion En; subst tn'. clear En.
  eexists. split; [reflexivity|]. exists s', e'. split; [reflexivity|]. simpl. auto.
Qed.
End Imp.

(** ** What the exported file contains *)
Section File.
Context {S : Type} `{Scalar S}.
Implicit Types (t : table S) (B : buffer S).

Definition store_of B (c : column S) : dict Z (array S) :=
  map (fun e => (fst e, column_data c (snd e))) B.

Lemma dict_shape {V} (cs : list (column S)) (F : column S -> V) : forall (d : dict string V),
  dkeys d = map c_name cs -> NoDup (map c_name cs) ->
  (forall c, In c cs -> dget d (c_name c) = Some (F c)) ->
  d = map (fun c => (c_name c, F c)) cs.
Proof.
  induction cs as [|c r IH]; intros [|[k v] d] Hk Nd Hg; simpl in *; try discriminate; auto.
  inversion Hk as [[Ek Er]]. subst k. inversion Nd; subst. f_equal.
  - pose proof (Hg c (or_introl eq_refl)) as E. rewrite String.eqb_refl in E. congruence.
  - apply IH; auto. intros c' Ic. specialize (Hg c' (or_intror Ic)).
    rewrite (proj2 (String.eqb_neq _ _)) in Hg; auto. intros E. apply H2. rewrite <- E. apply in_map; auto.
Qed.

Lemma NoDup_storage (cols : list (column S)) : NoDup (map c_name cols) -> NoDup (map c_name (storage_cols cols)).
Proof.
  unfold storage_cols. induction cols as [|c r IH]; simpl; auto. intros Nd; inversion Nd; subst.
  destruct (negb (is_virtual c)); simpl; auto. constructor; auto.
  intros I. apply H2. apply in_map_iff in I as (x & E & Ix). apply filter_In in Ix as [Ix _].
  rewrite <- E. apply in_map; auto.
Qed.

Lemma data_shape t B : Inv t B ->
  t_data t = map (fun c => (c_name c, store_of B c)) (storage_cols (t_cols t)).
Proof.
  intros I. apply dict_shape.
  - apply (inv_names I).
  - apply NoDup_storage, (co_names (inv_cfg I)).
  - intros c Ic. apply (inv_holds I c Ic).
Qed.

Definition part_of B (c : column S) : string * (npy_ranges * array S) :=
  (c_name c, (save_ranges (ranges_of 0 (store_of B c)), concat (dvals (store_of B c)))).

Lemma parts_of_ok B cs :
  (forall c, In c cs -> concat (dvals (store_of B c)) <> []) ->
  parts_of (map (fun c => (c_name c, store_of B c)) cs) = Ok (map (part_of B) cs).
Proof.
  induction cs as [|c r IH]; intros Hn; simpl; auto.
  pose proof (Hn c (or_introl eq_refl)) as E. destruct (concat (dvals (store_of B c))) as [|x l] eqn:Ec; [congruence|].
  rewrite IH by (intros; apply Hn; simpl; auto). simpl. unfold part_of at 2. rewrite Ec. auto.
Qed.
Lemma parts_of_err B cs c : In c cs -> concat (dvals (store_of B c)) = [] ->
  parts_of (map (fun c => (c_name c, store_of B c)) cs) = Err ValueError.
Proof.
  induction cs as [|x r IH]; intros Ic Ec; simpl in *; [tauto|].
  destruct (concat (dvals (store_of B x))) as [|y l] eqn:E; auto.
  destruct Ic as [->|Ic]; [congruence|]. rewrite IH; auto.
Qed.

Lemma ranges_ids B c off : map (fun r => fst (fst r)) (ranges_of off (store_of B c)) = map fst B.
Proof. revert off. induction B as [|[k s] r IH]; intros off; simpl; auto. f_equal. apply IH. Qed.

Lemma save_ranges_ok B c off : (forall x, In x (map fst B) -> - 2 ^ 63 <= x < 2 ^ 63) ->
  save_ranges (ranges_of off (store_of B c)) = RInt (ranges_of off (store_of B c)).
Proof.
  intros Hb. unfold save_ranges. rewrite (proj2 (forallb_forall _ _)); auto.
  intros r Ir. apply (in_map (fun r => fst (fst r))) in Ir. rewrite ranges_ids in Ir.
  apply Hb in Ir. unfold fits_int64. apply andb_true_iff. split; [apply Z.leb_le|apply Z.ltb_lt]; lia.
Qed.

Lemma range_lookup_ok (store : dict Z (array S)) : forall (pre post : array S) id arr,
  dget store id = Some arr ->
  exists off, range_lookup (ranges_of (zlen pre) store) id = Some (off, zlen arr) /\
    pyslice (pre ++ concat (dvals store) ++ post) off (off + zlen arr) = arr.
Proof.
  induction store as [|[k a] r IH]; intros pre post id arr; [discriminate|].
  cbn [dget ranges_of map range_lookup dvals concat fst snd]. unfold range_lookup. cbn [map dget fst snd].
  destruct (keqb_spec id k) as [->|Hne].
  - intros E; inversion E; subst a. exists (zlen pre). split; auto.
    pose proof (zlen_nonneg pre). pose proof (zlen_nonneg arr).
    rewrite pyslice_inside; try lia.
    + replace (zlen pre + zlen arr - zlen pre) with (zlen arr) by lia. unfold zlen. rewrite !Nat2Z.id.
      rewrite skipn_app, skipn_all, Nat.sub_diag. simpl. rewrite <- app_assoc, firstn_app, Nat.sub_diag. simpl.
      rewrite app_nil_r. apply firstn_all.
    + rewrite !zlen_app. pose proof (zlen_nonneg (concat (map snd r))). pose proof (zlen_nonneg post). lia.
  - intros E. destruct (IH (pre ++ a) post id arr E) as (off & E1 & E2).
    exists off. rewrite zlen_app in E1. split; [exact E1|].
    rewrite <- E2 at 2. f_equal. rewrite <- !app_assoc. auto.
Qed.

Definition reseq (cols : list (column S)) (s : sequence S) : sequence S :=
  map (fun c => (c_name c, column_data c s)) (storage_cols cols).

Lemma dget_store_of B c e : NoDup (map fst B) -> In e B -> dget (store_of B c) (fst e) = Some (column_data c (snd e)).
Proof.
  unfold store_of. induction B as [|x r IH]; intros Nd I; simpl in *; [tauto|]. inversion Nd; subst.
  destruct I as [->|I]; [rewrite Z.eqb_refl; auto|].
  destruct (Z.eqb_spec (fst e) (fst x)) as [E|E]; auto.
  exfalso. apply H2. rewrite <- E. apply in_map; auto.
Qed.

Lemma reassemble_ok B cs e : (forall x, In x (map fst B) -> - 2 ^ 63 <= x < 2 ^ 63) ->
  NoDup (map fst B) -> In e B ->
  reassemble (map (part_of B) cs) (fst e) = Ok (map (fun c => (c_name c, column_data c (snd e))) cs).
Proof.
  intros Hb Nd Ie. induction cs as [|c r IH]; simpl; auto.
  rewrite save_ranges_ok by auto.
  destruct (@range_lookup_ok (store_of B c) [] [] (fst e) (column_data c (snd e)) (@dget_store_of B c e Nd Ie)) as (off & E1 & E2).
  change (zlen (@nil (row (S:=S)))) with 0 in E1. rewrite E1, IH. simpl in *. rewrite app_nil_r in E2. rewrite E2. auto.
Qed.

(** The sequences of the file, as they are added again. *)
Definition rebuf (cols : list (column S)) B : buffer S := map (fun e => (fst e, reseq cols (snd e))) B.

Lemma dget_reseq cols (s : sequence S) c : NoDup (map c_name cols) -> In c (storage_cols cols) ->
  dget (reseq cols s) (c_name c) = Some (column_data c s).
Proof.
  intros Nd Ic. apply NoDup_storage in Nd. unfold reseq. revert Nd Ic.
  generalize (storage_cols cols) as cs. induction cs as [|x r IH]; intros Nd I; cbn [map dget] in *; [destruct I|].
  inversion Nd; subst. destruct I as [->|I]; [rewrite keqb_refl; auto|].
  rewrite keqb_neq; auto. intros E. apply H2. rewrite <- E. apply in_map; auto.
Qed.

Lemma column_data_reseq cols (s : sequence S) c : NoDup (map c_name cols) -> In c (storage_cols cols) ->
  idempotent (c_cast c) -> column_data c (reseq cols s) = column_data c s.
Proof.
  intros Nd Ic Id. unfold column_data at 1. rewrite dget_reseq by auto.
  unfold column_data. destruct (dget s (c_name c)) as [fr|]; auto.
  rewrite map_map. apply map_ext. intros r. rewrite map_map. apply map_ext. auto.
Qed.

Lemma seq_len_reseq cols lk (s : sequence S) : config_ok cols lk -> seq_len lk (reseq cols s) = seq_len lk s.
Proof.
  intros C. destruct (co_lenkey C) as (c & Ic & <- & Bc).
  assert (Is : In c (storage_cols cols)) by (apply storage_In; split; auto; unfold is_virtual; rewrite Bc; auto).
  unfold seq_len at 1. rewrite dget_reseq; auto. apply column_data_seq_len. apply (co_names C).
Qed.

Lemma seq_ok_reseq cols lk (s : sequence S) : config_ok cols lk -> seq_ok cols s -> seq_ok cols (reseq cols s).
Proof.
  intros C (H1 & H2 & H3).
  assert (Ek : dkeys (reseq cols s) = map c_name (storage_cols cols)).
  { unfold reseq, dkeys. rewrite map_map. auto. }
  split; [rewrite Ek; apply NoDup_storage, (co_names C)|]. split; [intros n; rewrite Ek; tauto|].
  intros c frames Ic. rewrite dget_reseq by (auto; apply (co_names C)). intros E; inversion E; subst.
  unfold column_data. destruct (dget s (c_name c)) as [fr|] eqn:Es; [|constructor].
  specialize (H3 c fr Ic Es). rewrite Forall_map. eapply Forall_impl; [|exact H3].
  intros f Hf. simpl in *. rewrite map_length. auto.
Qed.

Lemma lens_of_rebuf cols lk B : config_ok cols lk -> lens_of lk (rebuf cols B) = lens_of lk B.
Proof.
  intros C. unfold lens_of, rebuf. rewrite map_map. apply map_ext. intros e. simpl. rewrite seq_len_reseq; auto.
Qed.
Lemma total_len_rebuf cols lk B : config_ok cols lk -> total_len lk (rebuf cols B) = total_len lk B.
Proof. intros C. rewrite <- !dvals_lens_of, lens_of_rebuf; auto. Qed.
Lemma fst_rebuf cols B : map fst (rebuf cols B) = map fst B.
Proof. unfold rebuf. rewrite map_map. auto. Qed.

Lemma Inv_rebuf t B : Inv t (rebuf (t_cols t) B) ->
  (forall c, In c (t_cols t) -> idempotent (c_cast c)) -> Inv t B.
Proof.
  intros I Id. pose proof (inv_cfg I) as C. constructor; auto.
  - rewrite <- (fst_rebuf (t_cols t)). apply (inv_nodup I).
  - apply (inv_names I).
  - intros c Ic. rewrite (inv_holds I c Ic). unfold rebuf. rewrite map_map. f_equal. apply map_ext.
    intros e. simpl. f_equal. apply column_data_reseq; auto. apply (co_names C).
    apply Id. unfold storage_cols in Ic. apply filter_In in Ic. tauto.
  - rewrite (inv_lengths I). apply lens_of_rebuf; auto.
  - rewrite (inv_total I). apply total_len_rebuf; auto.
  - rewrite <- (lens_of_rebuf B C). apply (inv_sampler I).
  - rewrite <- (lens_of_rebuf B C). apply (inv_ejector I).
Qed.

(** Adding the sequences of [L] one after the other, all successfully. *)
Fixpoint add_list t (L : buffer S) (draws : list (list draw)) : table S * res unit :=
  match L with
  | [] => (t, Ok tt)
  | e :: r => match add_sequence t (fst e) (snd e) (hd [] draws) with
              | (t1, Err x) => (t1, Err x)
              | (t1, Ok _) => add_list t1 r (tl draws)
              end
  end.

Lemma wrap_id_nonneg (id : Z) : 0 <= id -> wrap_id id = id.
Proof. intros P. unfold wrap_id. destruct (Z.ltb_spec id 0); auto; lia. Qed.

Lemma drop_all_nil B : drop_all [] B = B.
Proof.
  unfold drop_all. induction B as [|e r IH]; simpl; auto. f_equal; auto.
Qed.

Definition stored_id (B : buffer S) : Prop := forall x, In x (map fst B) -> 0 <= x < 2 ^ 63.

(** Importing behaves like adding to the table that is not in import mode. *)
Lemma import_sim parts cols : forall L t tn Bn draws tn',
  t_cols tn = cols ->
  t_pend (lens_of (t_lenkey tn) L) t tn -> Inv tn Bn ->
  NoDup (map fst (Bn ++ L)) -> stored_id L ->
  (forall e, In e L -> seq_ok cols (snd e) /\ reassemble parts (fst e) = Ok (snd e)) ->
  add_list tn L draws = (tn', Ok tt) ->
  exists t', add_all t parts (map fst L) draws = (t', Ok tt) /\ t_pend [] t' tn'.
Proof.
  induction L as [|e r IH]; intros t tn Bn draws tn' Ec P I Nd Hid Hs; simpl.
  - intros E; inversion E; subst. eauto.
  - destruct (Hs e (or_introl eq_refl)) as [So Er]. rewrite Er.
    destruct (add_sequence tn (fst e) (snd e) (hd [] draws)) as [tn1 [u|x]] eqn:Ea; [|discriminate].
    destruct u. intros El.
    assert (Hw : wrap_id (fst e) = fst e) by (apply wrap_id_nonneg, Hid; simpl; auto).
    assert (Nin : ~ In (fst e) (map fst Bn)).
    { rewrite map_app in Nd. simpl in Nd. apply NoDup_remove_2 in Nd. intros Hi. apply Nd, in_or_app; auto. }
    destruct (@pend_add S (lens_of (t_lenkey tn) r) t tn Bn (fst e) (snd e) (hd [] draws) tn1) as (t1 & E1 & P1); auto.
    { rewrite Hw. exact P. } { rewrite Hw; auto. } { rewrite Ec; auto. }
    rewrite E1.
    destruct (@add_sequence_inv S tn Bn (fst e) (snd e) (hd [] draws) I) as
      [(t' & e' & E & _)|(t' & ids & E & I' & N1 & N2 & _ & _ & F1 & F2 & _)].
    { rewrite Hw; auto. } { rewrite Ec; auto. } { congruence. }
    rewrite Ea in E. inversion E; subst t'. rewrite Hw in I'.
    apply (IH t1 tn1 (drop_all ids Bn ++ [(fst e, snd e)]) (tl draws) tn'); auto.
    + congruence.
    + rewrite F2. auto.
    + rewrite map_app in *. simpl in *. rewrite map_app. simpl. rewrite <- app_assoc. simpl.
      apply NoDup_remove in Nd as [Nd Nd2].
      assert (Sub : forall x, In x (map fst (drop_all ids Bn)) -> In x (map fst Bn)).
      { intros x Ix. apply in_map_iff in Ix as (y & <- & Iy). apply filter_In in Iy as [Iy _]. apply in_map; auto. }
      pose proof (inv_nodup I') as N'. rewrite map_app in N'. simpl in N'.
      clear - Nd Nd2 Sub N'. 
      apply NoDup_remove in N' as [N' N2']. rewrite app_nil_r in *.
      assert (A : NoDup (map fst (drop_all ids Bn) ++ map fst r)).
      { revert Sub N'. generalize (map fst (drop_all ids Bn)) as l. induction l as [|y l IHl]; intros Sub N'; simpl.
        - clear - Nd. induction (map fst Bn); simpl in *; auto. inversion Nd; auto.
        - inversion N'; subst. constructor; [|apply IHl; auto; intros; apply Sub; simpl; auto].
          intros Hi. apply in_app_or in Hi as [Hi|Hi]; auto.
          pose proof (Sub y (or_introl eq_refl)) as Hy.
          clear - Nd Hi Hy. induction (map fst Bn) as [|z m IHm]; simpl in *; auto.
          inversion Nd; subst. destruct Hy as [->|Hy]; auto. apply H1, in_or_app; auto. }
      apply NoDup_Add with (a := fst e) (l := map fst (drop_all ids Bn) ++ map fst r).
      { apply Add_app. }
      split; auto. intros Hi. apply Nd2. apply in_or_app. apply in_app_or in Hi as [Hi|Hi]; auto.
    + intros x Ix. apply Hid. simpl; auto.
    + intros e' Ie. apply Hs. simpl; auto.
Qed.
End File.

(** ** Restoring *)
Section Restore.
Context {S : Type} `{Scalar S}.
Implicit Types (t : table S) (B : buffer S).

Lemma dupdate_fresh {V} (e : dict Z V) : forall d, NoDup (dkeys (d ++ e)) -> dupdate d e = d ++ e.
Proof.
  unfold dupdate. induction e as [|[k v] r IH]; intros d Nd; simpl; [rewrite app_nil_r; auto|].
  rewrite dset_fresh.
  - rewrite IH; rewrite <- app_assoc; auto.
  - rewrite dkeys_app in Nd. simpl in Nd. apply NoDup_remove_2 in Nd. intros I. apply Nd, in_or_app; auto.
Qed.

Lemma col_load_same (cols : list (column S)) : NoDup (map c_name cols) -> map (col_load cols) cols = cols.
Proof.
  intros Nd. assert (A : forall c, In c cols -> col_load cols c = c).
  { intros c Ic. unfold col_load. rewrite find_col_In by auto. destruct c as [n r f k]; simpl.
    destruct k; simpl; auto. }
  revert A. generalize (col_load cols). clear. induction cols as [|c r IH]; intros g A; simpl; auto.
  rewrite A by (simpl; auto). f_equal. apply IH. intros; apply A; simpl; auto.
Qed.

Definition s_compat (target source : sampler) : Prop :=
  match target, source with SFifo _ _ _, SWeighted _ => False | _, _ => True end.
Definition e_compat (target source : ejector) : Prop :=
  match target, source with EFifo _, EWeighted _ => False | _, _ => True end.

Lemma serialize_ok t B : Inv t B ->
  (forall c, In c (storage_cols (t_cols t)) -> concat (dvals (store_of B c)) <> []) ->
  serialize t = Ok (mkV1 (map fst B) (e_state (t_ejector t)) (s_state (t_sampler t)) (t_lenkey t)
                        (t_maxlen t) (t_cols t) (map (part_of B) (storage_cols (t_cols t)))).
Proof.
  intros I Hd. unfold serialize. rewrite (data_shape I), parts_of_ok by auto. cbn [rbind].
  rewrite (inv_lengths I), dkeys_lens_of. auto.
Qed.

Lemma s_pend_done s sn D : s_pend [] s sn -> s_inv sn D -> s_inv (s_set_imp s false) D /\ s_kind (s_set_imp s false) = s_kind sn.
Proof.
  destruct s as [f b1 b2|w], sn as [fn c1 c2|wn]; simpl; try tauto.
  - intros ([-> Hi] & -> & ->) (E1 & E2 & E3). simpl. rewrite !app_nil_r. split; auto. split; auto.
  - intros -> I. split; auto.
Qed.
Lemma e_pend_done s sn D : e_pend [] s sn -> e_inv sn D -> e_inv (e_set_imp s false) D.
Proof.
  destruct s as [f|w], sn as [fn|wn]; simpl; try tauto.
  - intros [-> Hi] (E1 & E2 & E3). simpl. rewrite !app_nil_r. split; auto.
  - intros -> I. auto.
Qed.

Lemma e_pend_fifo R s sn : e_pend R s sn -> is_fifo sn -> is_fifo s.
Proof. destruct s, sn; simpl; tauto. Qed.

Lemma restore_sim t B maxlen' smp ej draws tn' B' f :
  Inv t B -> (forall e, In e B -> seq_ok (t_cols t) (snd e)) -> stored_id B ->
  fresh_sampler smp -> fresh_ejector ej ->
  s_compat smp (t_sampler t) -> e_compat ej (t_ejector t) ->
  serialize t = Ok f ->
  add_list (t_create (t_cols t) (t_lenkey t) maxlen' smp ej) (rebuf (t_cols t) B) draws = (tn', Ok tt) ->
  Inv tn' B' ->
  exists t', deserialize (t_create (t_cols t) (t_lenkey t) maxlen' smp ej) f None draws = (t', Ok tt) /\
    Inv t' B' /\ t_cols t' = t_cols tn' /\ t_lenkey t' = t_lenkey tn' /\ t_maxlen t' = t_maxlen tn' /\
    s_kind (t_sampler t') = s_kind (t_sampler tn') /\ (is_fifo (t_ejector tn') -> is_fifo (t_ejector t')).
Proof.
  intros I So Hid Fs Fe Cs Ce Es Ea I'.
  set (cols := t_cols t) in *. set (lk := t_lenkey t) in *.
  pose proof (inv_cfg I) as C. fold cols lk in C.
  set (t5 := with_cols (with_sampler (with_ejector (t_create cols lk maxlen' smp ej)
               (load_opt e_load_state (e_set_imp ej true) (e_state (t_ejector t))))
               (load_opt s_load_state (s_set_imp smp true) (s_state (t_sampler t)))) (map (col_load cols) cols)).
  assert (Ef : v_ids f = map fst B /\ v_ejector_state f = e_state (t_ejector t) /\
               v_sampler_state f = s_state (t_sampler t) /\ v_columns f = cols /\
               v_parts f = map (part_of B) (storage_cols cols)).
  { revert Es. unfold serialize. rewrite (data_shape I).
    destruct (parts_of _) as [ps|e] eqn:Ep; [|discriminate]. cbn [rbind]. intros Es; inversion Es; subst f; simpl.
    rewrite (inv_lengths I), dkeys_lens_of. repeat split; auto.
    clear Es. fold cols in Ep. revert ps Ep. generalize (storage_cols cols) as cs.
    induction cs as [|c r IH]; simpl; intros ps Ep; [congruence|].
    destruct (concat (dvals (store_of B c))) eqn:Ec; [discriminate|].
    destruct (parts_of _) as [ps'|e]; [|discriminate]. cbn [rbind] in Ep. inversion Ep; subst.
    unfold part_of at 1. rewrite Ec. f_equal. apply IH; auto. }
  destruct Ef as (F1 & F2 & F3 & F4 & F5).
  assert (Nd : NoDup (dkeys (lens_of lk B))) by (rewrite dkeys_lens_of; apply (inv_nodup I)).
  assert (P5 : t_pend (lens_of lk (rebuf cols B)) t5 (t_create cols lk maxlen' smp ej)).
  { rewrite lens_of_rebuf by auto.
    exists (load_opt s_load_state (s_set_imp smp true) (s_state (t_sampler t))),
           (load_opt e_load_state (e_set_imp ej true) (e_state (t_ejector t))).
    split; [|split].
    - unfold t5. rewrite col_load_same by apply (co_names C). reflexivity.
    - simpl. pose proof (inv_sampler I) as Is. destruct Fs, (t_sampler t); simpl in *; try tauto.
      destruct Is as (E1 & E2 & E3). split; [|auto]. split; auto. unfold fifo_load_state. simpl.
      rewrite E1, E2. fold lk. rewrite dupdate_fresh by auto. auto.
    - simpl. pose proof (inv_ejector I) as Is. destruct Fe, (t_ejector t); simpl in *; try tauto.
      destruct Is as (E1 & E2 & E3). split; [|auto]. unfold fifo_load_state. simpl.
      rewrite E1, E2. fold lk. rewrite dupdate_fresh by auto. auto. }
  destruct (@import_sim S (v_parts f) cols (rebuf cols B) t5 (t_create cols lk maxlen' smp ej) [] draws tn')
    as (t6 & E6 & P6); auto.
  { apply (Inv_create maxlen' C Fs Fe). }
  { simpl. rewrite fst_rebuf. apply (inv_nodup I). }
  { intros x Ix. apply Hid. rewrite <- (fst_rebuf cols). auto. }
  { intros e Ie. unfold rebuf in Ie. apply in_map_iff in Ie as (e0 & <- & Ie0). simpl. split.
    - eapply seq_ok_reseq; eauto.
    - rewrite F5. unfold reseq. apply reassemble_ok; auto; [|apply (inv_nodup I)].
      intros x Ix. apply Hid in Ix. lia. }
  unfold deserialize. cbv zeta.
  change (t_clear (t_create cols lk maxlen' smp ej)) with (t_create cols lk maxlen' smp ej).
  assert (E5 : with_cols (with_sampler (with_ejector (with_sampler (with_ejector (t_create cols lk maxlen' smp ej)
       (e_set_imp (t_ejector (t_create cols lk maxlen' smp ej)) true))
       (s_set_imp (t_sampler (with_ejector (t_create cols lk maxlen' smp ej)
          (e_set_imp (t_ejector (t_create cols lk maxlen' smp ej)) true))) true))
       (load_opt e_load_state (e_set_imp ej true) (v_ejector_state f)))
       (load_opt s_load_state (s_set_imp smp true) (v_sampler_state f)))
       (map (col_load (v_columns f)) cols) = t5).
  { rewrite F2, F3, F4. reflexivity. }
  cbn [t_ejector t_sampler t_cols with_sampler with_ejector t_create t_clear] in *.
  rewrite E5, F1. rewrite fst_rebuf in E6. rewrite E6.
  destruct P6 as (s6 & e6 & -> & Ps & Pe).
  eexists. split; [reflexivity|].
  destruct (@s_pend_done _ _ _ Ps (inv_sampler I')) as [Is Ks].
  split; [|split; [|split; [|split; [|split]]]]; auto.
  - destruct I' as [H1 H2 H3 H4 H5 H6 H7 H8]. constructor; auto.
    simpl. apply (@e_pend_done _ _ _ Pe H8).
  - simpl. intros Fi. pose proof (@e_pend_fifo _ _ _ Pe Fi). destruct e6; simpl in *; auto.
Qed.

(** Sequences that fit without ejection. *)
Lemma add_list_fits L : forall t B draws, Inv t B ->
  (forall e, In e L -> seq_ok (t_cols t) (snd e)) -> stored_id L -> NoDup (map fst (B ++ L)) ->
  total_len (t_lenkey t) (B ++ L) <= t_maxlen t ->
  exists t', add_list t L draws = (t', Ok tt) /\ Inv t' (B ++ L) /\
    t_cols t' = t_cols t /\ t_lenkey t' = t_lenkey t /\ t_maxlen t' = t_maxlen t.
Proof.
  induction L as [|e r IH]; intros t B draws I So Hid Nd Ht; simpl.
  - rewrite app_nil_r. exists t. auto.
  - assert (Hw : wrap_id (fst e) = fst e) by (apply wrap_id_nonneg, Hid; simpl; auto).
    assert (Nin : ~ In (fst e) (map fst B)).
    { rewrite map_app in Nd. simpl in Nd. apply NoDup_remove_2 in Nd. intros Hi. apply Nd, in_or_app; auto. }
    assert (Hne : t_size t + seq_len (t_lenkey t) (snd e) - t_maxlen t <= 0).
    { unfold t_size. rewrite (inv_total I). rewrite total_len_app, total_len_cons in Ht.
      pose proof (total_len_nonneg (t_lenkey t) r). lia. }
    destruct (@add_sequence_inv S t B (fst e) (snd e) (hd [] draws) I) as
      [(t' & e' & E & _ & Hn & _)|(t' & ids & E & I' & N1 & N2 & Hids & _ & F1 & F2 & F3 & _)].
    { rewrite Hw; auto. } { apply So; simpl; auto. } { lia. }
    rewrite E. destruct (Z.ltb_spec 0 (t_size t + seq_len (t_lenkey t) (snd e) - t_maxlen t)); [lia|].
    subst ids. rewrite drop_all_nil, Hw in I'. rewrite <- surjective_pairing in I'.
    destruct (IH t' (B ++ [e]) (tl draws) I') as (t2 & E2 & I2 & G1 & G2 & G3).
    + intros e' Ie. rewrite F1. apply So. simpl; auto.
    + intros x Ix. apply Hid. simpl; auto.
    + rewrite <- app_assoc. auto.
    + rewrite F2, F3, <- app_assoc. auto.
    + exists t2. rewrite <- app_assoc in I2. split; [auto|]. split; [exact I2|]. split; [congruence|]. split; [congruence|]. first [congruence | split; [congruence|auto]].
Qed.

(** A FIFO table accepts every sequence that can fit at all. *)
Lemma fifo_add_ok t B id s draws : Inv t B -> is_fifo (t_ejector t) -> seq_ok (t_cols t) s ->
  ~ In (wrap_id id) (map fst B) -> seq_len (t_lenkey t) s <= t_maxlen t ->
  exists t', add_sequence t id s draws = (t', Ok tt).
Proof.
  intros I F So Nid Hl.
  destruct (@add_sequence_inv S t B id s draws I Nid So) as
    [(t' & e & E & _ & Hn & Hs & _)|(t' & ids & E & _)]; [|eauto].
  exfalso. pose proof (inv_ejector I) as Ie. destruct (t_ejector t) as [f|w]; simpl in *; [|tauto].
  destruct Ie as (E1 & E2 & _). unfold fifo_eject in Hs. rewrite E1, E2, dkeys_lens_of in Hs.
  destruct (@fifo_loop_longest S (t_lenkey t) (t_maxlen t) (id, s) (lens_of (t_lenkey t) B) Hl B) as (l & rest & _ & El & _).
  { intros e' Ie. apply dget_lens_of; auto. apply (inv_nodup I). }
  rewrite total_len_app in El. unfold t_size in Hs. rewrite (inv_total I) in Hs.
  assert (Et : total_len (t_lenkey t) [(id, s)] = seq_len (t_lenkey t) s) by (unfold total_len; cbn; lia).
  rewrite Et in El. congruence.
Qed.

Lemma add_list_fifo L : forall t B h draws, Inv t B -> is_fifo (t_ejector t) ->
  (forall e, In e L -> seq_ok (t_cols t) (snd e)) -> stored_id L -> NoDup (map fst (h ++ L)) ->
  (forall e, In e L -> seq_len (t_lenkey t) (snd e) <= t_maxlen t) ->
  B = longest_suffix (t_lenkey t) (t_maxlen t) h ->
  exists t', add_list t L draws = (t', Ok tt) /\
    Inv t' (longest_suffix (t_lenkey t) (t_maxlen t) (h ++ L)) /\
    t_cols t' = t_cols t /\ t_lenkey t' = t_lenkey t /\ t_maxlen t' = t_maxlen t /\ is_fifo (t_ejector t').
Proof.
  induction L as [|e r IH]; intros t B h draws I F So Hid Nd Hf EB; simpl.
  - rewrite app_nil_r. subst B. exists t. auto 10.
  - assert (Hw : wrap_id (fst e) = fst e) by (apply wrap_id_nonneg, Hid; simpl; auto).
    destruct (longest_suffix_spec (t_lenkey t) (t_maxlen t) h) as [d Ed].
    assert (Nin : ~ In (fst e) (map fst B)).
    { rewrite map_app in Nd. simpl in Nd. apply NoDup_remove_2 in Nd. intros Hi. apply Nd, in_or_app. left.
      rewrite Ed, map_app. apply in_or_app. right. rewrite <- EB. auto. }
    destruct (@fifo_add_ok t B (fst e) (snd e) (hd [] draws) I F) as (t1 & E1).
    { apply So; simpl; auto. } { rewrite Hw; auto. } { apply Hf; simpl; auto. }
    rewrite E1.
    assert (Ho : op_ok (t_cols t) B (OAdd (fst e) (snd e) (hd [] draws))).
    { simpl. rewrite Hw. split; auto. apply So; simpl; auto. }
    destruct (@fifo_step S _ t B (OAdd (fst e) (snd e) (hd [] draws)) I Ho F) as (I1 & M1 & C1 & L1).
    pose proof (is_fifo_add t (fst e) (snd e) (hd [] draws) F) as F1.
    cbn [step] in *. rewrite E1 in *. cbn [fst fifo_spec_step] in *.
    destruct (Z.leb_spec (seq_len (t_lenkey t) (snd e)) (t_maxlen t)) as [Hle|Hgt].
    2:{ specialize (Hf e (or_introl eq_refl)). lia. }
    cbn [snd fst] in *. rewrite Hw in I1. rewrite <- surjective_pairing in I1. subst B.
    rewrite longest_suffix_step in I1 by auto.
    destruct (IH t1 (longest_suffix (t_lenkey t) (t_maxlen t) (h ++ [e])) (h ++ [e]) (tl draws) I1) as (t2 & E2 & I2 & G1 & G2 & G3 & G4); auto.
    + intros e' Ie. rewrite C1. apply So. simpl; auto.
    + intros x Ix. apply Hid. simpl; auto.
    + rewrite <- app_assoc. auto.
    + intros e' Ie. rewrite L1, M1. apply Hf. simpl; auto.
    + congruence.
    + exists t2. rewrite L1, M1, <- app_assoc in I2. split; [auto|]. split; [exact I2|]. split; [congruence|]. split; [congruence|]. first [congruence | split; [congruence|auto]].
Qed.
End Restore.

(** ** C19 - C21 *)
Section Top.
Context {S : Type} `{Scalar S}.
Implicit Types (t : table S) (B : buffer S).

Lemma is_fifo_run ops : forall t, is_fifo (t_ejector t) -> is_fifo (t_ejector (run t ops)).
Proof.
  induction ops as [|o r IH]; intros t F; auto. change (run t (o :: r)) with (run (step t o) r).
  apply IH, is_fifo_step; auto.
Qed.

Lemma longest_suffix_all lk m (b : buffer S) : total_len lk b <= m -> longest_suffix lk m b = b.
Proof. destruct b; simpl; auto. intros E. apply Z.leb_le in E. rewrite E. auto. Qed.

Lemma reachable cols lk smp ej ops maxlen : export_ok cols lk smp ej ops ->
  let t := run (t_create cols lk maxlen smp ej) ops in
  exists B, Inv t B /\ sublist B (adds ops) /\ t_cols t = cols /\ t_lenkey t = lk /\
    s_kind (t_sampler t) = s_kind smp /\ (is_fifo ej -> is_fifo (t_ejector t)) /\
    (forall e, In e B -> seq_ok cols (snd e)) /\ stored_id B /\
    (B <> [] -> forall c, In c (storage_cols cols) -> concat (dvals (store_of B c)) <> []).
Proof.
  intros (C & Id & Fs & Fe & Co & Ex) t.
  destruct (run_create_kind maxlen C Fs Fe Co) as (B & I & Sb & F1 & F2 & Fk). fold t in I, F1, F2, Fk.
  pose proof (sublist_Forall Sb Ex) as ExB. rewrite Forall_forall in ExB.
  pose proof (sublist_Forall Sb (proj1 (proj2 Co))) as SoB. rewrite Forall_forall in SoB.
  exists B. split; auto. split; auto. split; auto. split; auto. split; auto. split.
  { intros F. apply is_fifo_run. auto. }
  split; auto. split.
  { intros x Ix. apply in_map_iff in Ix as (e & <- & Ie). apply ExB; auto. }
  intros Hne c Ic. destruct B as [|e r]; [congruence|]. simpl.
  destruct (ExB e (or_introl eq_refl)) as [_ Hd]. specialize (Hd c Ic).
  rewrite <- column_data_seq_len in Hd. destruct (column_data c (snd e)); [|discriminate].
  unfold zlen in Hd. simpl in Hd. lia.
Qed.

Lemma compat_of_kind (s s' : sampler) : s_kind s = s_kind s' -> s_compat s' s.
Proof. destruct s, s'; simpl; auto; discriminate. Qed.
Lemma compat_of_fifo (e e' : ejector) : fresh_ejector e' -> (is_fifo e' -> is_fifo e) -> e_compat e' e.
Proof. destruct 1; simpl; auto. destruct e; simpl; auto. Qed.

Lemma same_state t t' B : Inv t B -> Inv t' B -> t_cols t' = t_cols t -> t_lenkey t' = t_lenkey t ->
  t_data t' = t_data t /\ t_size t' = t_size t /\ t_lengths t' = t_lengths t /\
  sampler_ids (t_sampler t') = sampler_ids (t_sampler t) /\
  ejector_ids (t_ejector t') = ejector_ids (t_ejector t).
Proof.
  intros I I' Ec El. split; [rewrite (data_shape I), (data_shape I'), Ec; auto|].
  split; [unfold t_size; rewrite (inv_total I), (inv_total I'), El; auto|].
  split; [rewrite (inv_lengths I), (inv_lengths I'), El; auto|].
  rewrite (@s_inv_ids _ _ (inv_sampler I)), (@s_inv_ids _ _ (inv_sampler I')).
  rewrite (@e_inv_ids _ _ (inv_ejector I)), (@e_inv_ids _ _ (inv_ejector I')), El. auto.
Qed.

Lemma fifo_same t t' B : Inv t B -> Inv t' B -> is_fifo (t_ejector t) -> is_fifo (t_ejector t') ->
  t_cols t' = t_cols t -> t_lenkey t' = t_lenkey t -> t_maxlen t' = t_maxlen t ->
  forall ops, Forall no_clear ops -> Forall (fun e => seq_ok (t_cols t) (snd e)) (adds ops) ->
  NoDup (map fst (B ++ adds ops)) ->
  t_data (run t' ops) = t_data (run t ops) /\ t_size (run t' ops) = t_size (run t ops).
Proof.
  intros I I' F F' Ec El Em ops N1 N2 N3.
  destruct (@fifo_run S _ ops t B I F N1 N2 N3) as (J1 & _ & J3 & J4).
  destruct (@fifo_run S _ ops t' B I' F' N1) as (K1 & _ & K3 & K4); auto.
  { rewrite Ec; auto. }
  rewrite El, Em in K1. rewrite Ec in K3. rewrite El in K4.
  destruct (same_state J1 K1) as (A1 & A2 & _); auto; congruence.
Qed.

Lemma NoDup_sub_app {A} (b a l : list A) : sublist b a -> NoDup (a ++ l) -> NoDup (b ++ l).
Proof.
  induction 1; simpl; intros Nd; auto; inversion Nd; subst; auto. constructor; auto.
  intros Hi. apply H3. apply in_app_or in Hi as [Hi|Hi]; apply in_or_app; auto. left.
  clear - H0 Hi. induction H0; simpl in *; tauto.
Qed.
Lemma sublist_map {A C} (f : A -> C) b a : sublist b a -> sublist (map f b) (map f a).
Proof. induction 1; simpl; constructor; auto. Qed.

Lemma roundtrip cols lk smp ej ops maxlen maxlen' :
  export_ok cols lk smp ej ops ->
  let t := run (t_create cols lk maxlen smp ej) ops in
  0 < t_size t -> t_size t <= maxlen' ->
  exists f, serialize t = Ok f /\ forall draws,
  exists t', deserialize (t_create cols lk maxlen' smp ej) f None draws = (t', Ok tt) /\
    t_data t' = t_data t /\ t_size t' = t_size t /\ t_lengths t' = t_lengths t /\
    sampler_ids (t_sampler t') = sampler_ids (t_sampler t) /\
    ejector_ids (t_ejector t') = ejector_ids (t_ejector t) /\
    (ej = EFifo fifo_init -> maxlen' = t_maxlen t -> forall ops2, client_ok cols (ops ++ ops2) ->
       t_data (run t' ops2) = t_data (run t ops2) /\ t_size (run t' ops2) = t_size (run t ops2)).
Proof.
  intros Ok1 t Hs Hm. pose proof (reachable maxlen Ok1) as R. fold t in R.
  destruct R as (B & I & Sb & Ec & El & Ek & Ef & So & Hid & Hd).
  destruct Ok1 as (C & Id & Fs & Fe & Co & Ex).
  assert (Hne : B <> []).
  { intros ->. unfold t_size in Hs. rewrite (inv_total I) in Hs. unfold total_len in Hs. simpl in Hs. discriminate. }
  pose proof (@serialize_ok S t B I) as Es. rewrite Ec, El in Es. specialize (Es (Hd Hne)).
  destruct (serialize t) as [f|] eqn:Esf; [|discriminate]. clear Es.
  exists f. split; auto. intros draws.
  assert (Tot : total_len lk (rebuf cols B) <= maxlen').
  { rewrite total_len_rebuf by auto. unfold t_size in Hm. rewrite (inv_total I), El in Hm. auto. }
  destruct (@add_list_fits S (rebuf cols B) (t_create cols lk maxlen' smp ej) [] draws) as (tn' & A1 & A2 & A3 & A4 & A5); auto.
  { apply Inv_create; auto. }
  { intros e Ie. unfold rebuf in Ie. apply in_map_iff in Ie as (e0 & <- & Ie0). simpl.
    eapply seq_ok_reseq; eauto. }
  { intros x Ix. rewrite fst_rebuf in Ix. auto. }
  { simpl. rewrite fst_rebuf. apply (inv_nodup I). }
  simpl in A2, A3, A4, A5.
  destruct (@restore_sim S t B maxlen' smp ej draws tn' (rebuf cols B) f I) with (7 := Esf)
    as (t' & R1 & R2 & R3 & R4 & R5 & R6 & R7); auto.
  { rewrite Ec. auto. } { apply compat_of_kind; auto. } { apply compat_of_fifo; auto. }
  { rewrite Ec, El. auto. }
  assert (I' : Inv t' B).
  { apply Inv_rebuf; [|rewrite R3, A3; auto]. rewrite R3, A3. auto. }
  rewrite Ec, El in R1. exists t'. split; [exact R1|].
  assert (Ec' : t_cols t' = t_cols t) by congruence.
  assert (El' : t_lenkey t' = t_lenkey t) by congruence.
  destruct (same_state I I' Ec' El') as (S1 & S2 & S3 & S4 & S5). split; auto. split; auto. split; auto. split; auto. split; auto.
  intros Hej Hmx ops2 Co2. destruct Co2 as (D1 & D2 & D3).
  apply Forall_app in D1 as [_ D1]. rewrite adds_app in D2, D3. apply Forall_app in D2 as [_ D2].
  apply (@fifo_same t t' B I I'); auto.
  - apply Ef. rewrite Hej. simpl. auto.
  - apply R7. clear R7. pose proof (inv_ejector A2). assert (F : is_fifo (t_ejector (t_create cols lk maxlen' smp ej))) by (subst ej; simpl; auto).
    clear - A1 F. revert A1 F. generalize (t_create cols lk maxlen' smp ej) as t0, draws. generalize (rebuf cols B) as L.
    induction L as [|e r IH]; intros t0 dr E F; simpl in E; [inversion E; subst; auto|].
    pose proof (is_fifo_add t0 (fst e) (snd e) (hd [] dr) F) as F1.
    destruct (add_sequence t0 (fst e) (snd e) (hd [] dr)) as [t1 [u|x]]; [|discriminate]. eauto.
  - congruence.
  - rewrite Ec; auto.
  - rewrite map_app in *. eapply NoDup_sub_app; [apply sublist_map; exact Sb|auto].
Qed.

Lemma restore_smaller cols lk smp ops maxlen maxlen' :
  let ej := EFifo fifo_init in
  export_ok cols lk smp ej ops ->
  let t := run (t_create cols lk maxlen smp ej) ops in
  0 < t_size t -> 0 <= maxlen' ->
  exists f b, serialize t = Ok f /\ holds t b /\ sublist b (adds ops) /\
  (Forall (fun e => seq_len lk (snd e) <= maxlen') b ->
   forall draws, exists t', deserialize (t_create cols lk maxlen' smp ej) f None draws = (t', Ok tt) /\
     holds t' (longest_suffix lk maxlen' b) /\
     t_size t' = total_len lk (longest_suffix lk maxlen' b)).
Proof.
  intros ej Ok1 t Hs Hm. pose proof (reachable maxlen Ok1) as R. fold t in R.
  destruct R as (B & I & Sb & Ec & El & Ek & Ef & So & Hid & Hd).
  destruct Ok1 as (C & Id & Fs & Fe & Co & Ex).
  assert (Hne : B <> []).
  { intros ->. unfold t_size in Hs. rewrite (inv_total I) in Hs. unfold total_len in Hs. simpl in Hs. discriminate. }
  pose proof (@serialize_ok S t B I) as Es. rewrite Ec, El in Es. specialize (Es (Hd Hne)).
  destruct (serialize t) as [f|] eqn:Esf; [|discriminate]. clear Es.
  exists f, B. split; auto. split; [apply (inv_holds I)|]. split; auto.
  intros Hfit draws.
  destruct (@add_list_fifo S _ (rebuf cols B) (t_create cols lk maxlen' smp ej) [] [] draws) as (tn' & A1 & A2 & A3 & A4 & A5 & A6); auto.
  { apply Inv_create; auto. }
  { simpl; auto. }
  { intros e Ie. unfold rebuf in Ie. apply in_map_iff in Ie as (e0 & <- & Ie0). simpl.
    eapply seq_ok_reseq; eauto. }
  { intros x Ix. rewrite fst_rebuf in Ix. auto. }
  { simpl. rewrite fst_rebuf. apply (inv_nodup I). }
  { intros e Ie. unfold rebuf in Ie. apply in_map_iff in Ie as (e0 & <- & Ie0). simpl.
    rewrite seq_len_reseq by auto. rewrite Forall_forall in Hfit. auto. }
  simpl in A2, A3, A4, A5.
  assert (Els : longest_suffix lk maxlen' (rebuf cols B) = rebuf cols (longest_suffix lk maxlen' B)).
  { clear - C. induction B as [|e r IH]; simpl; auto.
    change (total_len lk ((fst e, reseq cols (snd e)) :: rebuf cols r)) with (total_len lk (rebuf cols (e :: r))).
    rewrite total_len_rebuf by auto. destruct (total_len lk (e :: r) <=? maxlen'); auto. }
  rewrite Els in A2.
  destruct (@restore_sim S t B maxlen' smp ej draws tn' (rebuf cols (longest_suffix lk maxlen' B)) f I) with (7 := Esf)
    as (t' & R1 & R2 & R3 & R4 & R5 & R6 & R7); auto.
  { rewrite Ec. auto. } { apply compat_of_kind; auto. } { apply compat_of_fifo; auto. }
  { rewrite Ec, El. auto. }
  assert (I' : Inv t' (longest_suffix lk maxlen' B)).
  { apply Inv_rebuf; [|rewrite R3, A3; auto]. rewrite R3, A3. auto. }
  rewrite Ec, El in R1. exists t'. split; [exact R1|]. split; [apply (inv_holds I')|].
  unfold t_size. rewrite (inv_total I'). rewrite R4, A4. auto.
Qed.

(** Exporting succeeds exactly when every column holds at least one row. *)
Lemma export_iff cols lk smp ej ops maxlen :
  config_ok cols lk -> fresh_sampler smp -> fresh_ejector ej -> client_ok cols ops ->
  let t := run (t_create cols lk maxlen smp ej) ops in
  (exists f, serialize t = Ok f) <->
  (forall c, In c (storage_cols cols) -> exists store, dget (t_data t) (c_name c) = Some store /\ concat (dvals store) <> []).
Proof.
  intros C Fs Fe Co t. destruct (run_create maxlen C Fs Fe Co) as (B & I & Sb & F1 & F2 & _). fold t in I, F1, F2.
  assert (Hg : forall c, In c (storage_cols cols) -> dget (t_data t) (c_name c) = Some (store_of B c)).
  { intros c Ic. rewrite <- F1 in Ic. apply (inv_holds I c Ic). }
  split.
  - intros (f & Ef) c Ic. exists (store_of B c). split; auto. intros En.
    unfold serialize in Ef. rewrite (data_shape I), F1, (@parts_of_err S B (storage_cols cols) c Ic En) in Ef. discriminate.
  - intros Hd. eexists. eapply serialize_ok; eauto. rewrite F1. intros c Ic.
    destruct (Hd c Ic) as (st & E1 & E2). rewrite (Hg c Ic) in E1. injection E1 as E1. rewrite E1. auto.
Qed.
End Top.
