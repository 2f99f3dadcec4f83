(** * LegacyProofs: clear, failed imports and the legacy format (C22, C24, C25). *)
From Verif Require Import Py PyLemmas MemModel MemSpec MemProofs MemRun MemSample MemSample2 V1Spec V1Proofs.
Open Scope Z_scope.
Set Implicit Arguments.

Lemma neg_id_neg (k : Z) : neg_id k < 0.
Proof. unfold neg_id. lia. Qed.
Lemma neg_id_inj (a b : Z) : 0 <= a -> 0 <= b -> neg_id a = neg_id b -> a = b.
Proof. unfold neg_id. lia. Qed.

Lemma NoDup_app_intro {A} (a b : list A) : NoDup a -> NoDup b -> (forall x, In x a -> In x b -> False) -> NoDup (a ++ b).
Proof.
  induction 1 as [|x l N1 N2 IH]; simpl; intros Nb D; auto. constructor.
  - intros I. apply in_app_or in I as [I|I]; auto. apply (D x); auto.
  - apply IH; auto. intros y I1 I2. apply (D y); auto.
Qed.

(** Renaming the keys of a dictionary. *)
Definition ren {V} (kv : Z * V) : Z * V := (neg_id (fst kv), snd kv).
Definition all_neg (l : list Z) : Prop := Forall (fun k => k < 0) l.
Definition all_pos (l : list Z) : Prop := Forall (fun k => 0 <= k) l.

Lemma dkeys_ren {V} (d : dict Z V) : dkeys (map ren d) = map neg_id (dkeys d).
Proof. unfold dkeys. rewrite !map_map. auto. Qed.
Lemma NoDup_neg l : NoDup l -> all_pos l -> NoDup (map neg_id l).
Proof.
  induction 1; simpl; intros P; constructor; inversion P; subst; auto.
  intros I. apply in_map_iff in I as (y & E & Iy). apply neg_id_inj in E; auto; [subst; auto|].
  unfold all_pos in *. rewrite Forall_forall in *. auto.
Qed.
Lemma all_neg_map l : all_neg (map neg_id l).
Proof. apply Forall_forall. intros x I. apply in_map_iff in I as (y & <- & _). apply neg_id_neg. Qed.

Lemma neg_not_in k l : all_neg l -> 0 <= k -> ~ In k l.
Proof. unfold all_neg. rewrite Forall_forall. intros A P I. apply A in I. lia. Qed.

Section Data.
Context {S : Type} `{Scalar S}.

Lemma rename_loop_spec (D2 : dict Z (array S)) : forall D1,
  NoDup (dkeys D2) -> all_pos (dkeys D2) -> all_neg (dkeys D1) ->
  NoDup (dkeys D1 ++ map neg_id (dkeys D2)) ->
  rename_loop (D2 ++ D1) (dkeys D2) = D1 ++ map ren D2.
Proof.
  induction D2 as [|[k v] r IH]; intros D1 Nd P N Nd1; simpl; [rewrite app_nil_r; auto|].
  rewrite Z.eqb_refl. cbn [dkeys map fst] in *. inversion Nd as [|? ? Nk Nr]; inversion P as [|? ? Pk Pr]; subst.
  destruct (Z.eqb_spec (neg_id k) k) as [E|_]; [pose proof (neg_id_neg k); lia|].
  change (dset (r ++ D1) (neg_id k) v) with (dset (r ++ D1) (neg_id k) v).
  rewrite dset_fresh.
  2:{ rewrite dkeys_app. intros I. apply in_app_or in I as [I|I].
      - assert (A : neg_id k < 0) by apply neg_id_neg. unfold all_pos in *. rewrite Forall_forall in *.
        apply Pr in I. lia.
      - apply NoDup_remove_2 in Nd1. apply Nd1, in_or_app; auto. }
  cbn [ddel fst]. rewrite ?Z.eqb_refl. rewrite <- app_assoc.
  rewrite IH; auto.
  - rewrite <- app_assoc. auto.
  - rewrite dkeys_app. apply Forall_app. split; auto. constructor; [apply neg_id_neg|constructor].
  - rewrite dkeys_app, <- app_assoc. simpl. auto.
Qed.

Lemma storage_post_import_spec (N P : dict Z (array S)) :
  all_neg (dkeys N) -> all_pos (dkeys P) -> NoDup (dkeys P) ->
  storage_post_import (N ++ P) = map ren P.
Proof.
  intros HN HP Nd. unfold storage_post_import. rewrite filter_app.
  assert (E1 : filter (fun kv : Z * array S => 0 <=? fst kv) N = []).
  { clear - HN. induction N as [|[k v] r IH]; simpl; auto. inversion HN; subst.
    destruct (Z.leb_spec 0 k); [lia|auto]. }
  assert (E2 : filter (fun kv : Z * array S => 0 <=? fst kv) P = P).
  { clear - HP. induction P as [|[k v] r IH]; simpl; auto. inversion HP; subst.
    destruct (Z.leb_spec 0 k); [|lia]. f_equal; auto. }
  rewrite E1, E2. simpl.
  pose proof (@rename_loop_spec P []) as R. rewrite app_nil_r in R. simpl in R. apply R; auto.
  - constructor.
  - apply NoDup_neg; auto.
Qed.
End Data.

Lemma legacy_lengths_spec (N P : dict Z Z) :
  all_neg (dkeys N) -> all_pos (dkeys P) -> NoDup (dkeys P) ->
  legacy_lengths (N ++ P) = map ren P.
Proof.
  intros HN HP Nd. unfold legacy_lengths. rewrite fold_left_app.
  assert (E1 : forall acc, fold_left (fun (acc : dict Z Z) kv => if 0 <=? fst kv then dset acc (neg_id (fst kv)) (snd kv) else acc) N acc = acc).
  { clear - HN. induction N as [|[k v] r IH]; intros acc; simpl; auto. inversion HN; subst.
    destruct (Z.leb_spec 0 k); [lia|auto]. }
  rewrite E1.
  assert (E2 : forall acc, NoDup (dkeys acc ++ map neg_id (dkeys P)) ->
    fold_left (fun (acc : dict Z Z) kv => if 0 <=? fst kv then dset acc (neg_id (fst kv)) (snd kv) else acc) P acc = acc ++ map ren P).
  { clear - HP. induction P as [|[k v] r IH]; intros acc Na; simpl; [rewrite app_nil_r; auto|]. inversion HP; subst.
    destruct (Z.leb_spec 0 k); [|lia]. simpl in Na. rewrite dset_fresh.
    - rewrite IH; auto; [rewrite <- app_assoc; auto|]. rewrite dkeys_app, <- app_assoc. auto.
    - apply NoDup_remove_2 in Na. intros I. apply Na, in_or_app; auto. }
  rewrite E2; auto. simpl. apply NoDup_neg; auto.
Qed.

(** *** FIFO strategies *)
Lemma fifo_forget_head k len D D1 b :
  fifo_forget (mkFifo ((k, len) :: D ++ D1) (k :: dkeys D ++ dkeys D1) b) k =
  (mkFifo (D ++ D1) (dkeys D ++ dkeys D1) b, Ok tt).
Proof. unfold fifo_forget, dmem. cbn. rewrite Z.eqb_refl. cbn. auto. Qed.

Lemma fifo_loop_neg (N D1 : dict Z Z) r : all_neg (dkeys N) ->
  fifo_post_import_loop (mkFifo (N ++ D1) (dkeys N ++ dkeys D1) false) (dkeys N ++ r) =
  fifo_post_import_loop (mkFifo D1 (dkeys D1) false) r.
Proof.
  induction N as [|[k len] N IH]; intros HN; auto. inversion HN; subst.
  cbn [app dkeys map fst fifo_post_import_loop f_lens dget keqb EqK_Z]. rewrite Z.eqb_refl.
  rewrite fifo_forget_head. destruct (Z.leb_spec 0 k); [lia|]. apply IH; auto.
Qed.

Lemma fifo_loop_pos (P : dict Z Z) : forall (D1 : dict Z Z),
  NoDup (dkeys P) -> all_pos (dkeys P) -> all_neg (dkeys D1) -> NoDup (dkeys D1 ++ map neg_id (dkeys P)) ->
  fifo_post_import_loop (mkFifo (P ++ D1) (dkeys P ++ dkeys D1) false) (dkeys P) =
  (mkFifo (D1 ++ map ren P) (dkeys D1 ++ map neg_id (dkeys P)) false, Ok tt).
Proof.
  induction P as [|[k len] r IH]; intros D1 Nd HP HN Nd1.
  - simpl. rewrite !app_nil_r. auto.
  - inversion HP as [|? ? Pk Pr]; inversion Nd as [|? ? Nk Nr]; subst. cbn [app dkeys map fst fifo_post_import_loop f_lens dget keqb EqK_Z].
    rewrite Z.eqb_refl. rewrite fifo_forget_head. destruct (Z.leb_spec 0 k); [|lia].
    change (- Z.abs k - 1) with (neg_id k).
    assert (Fr : ~ In (neg_id k) (dkeys (r ++ D1))).
    { rewrite dkeys_app. intros I. apply in_app_or in I as [I|I].
      - assert (A : neg_id k < 0) by apply neg_id_neg. unfold all_pos in *. rewrite Forall_forall in *.
        apply Pr in I. lia.
      - cbn [dkeys map fst] in Nd1. apply NoDup_remove_2 in Nd1. apply Nd1, in_or_app; auto. }
    unfold fifo_track. cbn [f_lens f_ids f_imp].
    rewrite (proj2 (dmem_false _ _) Fr). rewrite dset_fresh by auto.
    rewrite <- !app_assoc.
    specialize (IH (D1 ++ [(neg_id k, len)])). rewrite dkeys_app in IH. cbn [dkeys map fst] in IH.
    fold (dkeys r) in *. fold (dkeys D1) in *.
    rewrite IH; auto.
    + rewrite <- !app_assoc. auto.
    + apply Forall_app. split; auto. constructor; [apply neg_id_neg|constructor].
    + rewrite <- app_assoc. exact Nd1.
Qed.

Lemma fifo_post_import_spec f (N P : dict Z Z) : f_inv f (N ++ P) ->
  all_neg (dkeys N) -> all_pos (dkeys P) -> NoDup (dkeys P) ->
  exists f', fifo_post_import f = (f', Ok tt) /\ f_inv f' (map ren P).
Proof.
  intros (E1 & E2 & E3) HN HP Nd. destruct f as [l i b]; simpl in *; subst.
  unfold fifo_post_import. cbn [f_ids]. rewrite dkeys_app. rewrite fifo_loop_neg by auto.
  pose proof (@fifo_loop_pos P [] Nd HP) as E. rewrite !app_nil_r in E. cbn [app dkeys map] in E.
  fold (dkeys P) in E. rewrite E.
  - eexists. split; [reflexivity|]. split; auto. split; auto. simpl. rewrite dkeys_ren. auto.
  - constructor.
  - apply NoDup_neg; auto.
Qed.

(** *** Uniform strategies *)
Lemma w_forget_head w k len D : w_cov w = false -> w_lens w = (k, len) :: D ->
  exists w', w_forget w k = (w', Ok tt) /\ w_lens w' = D /\ w_cov w' = false /\ w_dirty w' = true.
Proof.
  intros Hc El. unfold w_forget, dmem. rewrite El. cbn. rewrite Z.eqb_refl, Hc. eexists. split; [reflexivity|]. auto.
Qed.

Lemma w_loop_neg (N D1 : dict Z Z) r : forall w, all_neg (dkeys N) -> w_cov w = false -> w_lens w = N ++ D1 ->

  exists w', w_post_import_loop w (N ++ r) = w_post_import_loop w' r /\ w_lens w' = D1 /\ w_cov w' = false /\
    (N <> [] -> w_dirty w' = true) /\ (N = [] -> w' = w).
Proof.
  induction N as [|[k len] N IH]; intros w HN Hc El.
  - exists w. repeat split; auto.
  - inversion HN; subst. destruct (@w_forget_head w k len (N ++ D1) Hc El) as (w1 & E1 & L1 & C1 & D).
    cbn [app w_post_import_loop]. rewrite E1. destruct (Z.leb_spec 0 k); [lia|].
    destruct (IH w1) as (w' & E & L & C & Dd & Ee); auto.
    exists w'. split; auto. split; auto. split; auto. split; [|discriminate].
    intros _. destruct N; [rewrite Ee by auto; auto|]. apply Dd. discriminate.
Qed.

Lemma w_loop_pos (P : dict Z Z) : forall (D1 : dict Z Z) w,
  NoDup (dkeys P) -> all_pos (dkeys P) -> all_neg (dkeys D1) -> NoDup (dkeys D1 ++ map neg_id (dkeys P)) ->
  w_cov w = false -> w_lens w = P ++ D1 -> 
  exists w', w_post_import_loop w P = (w', Ok tt) /\ w_lens w' = D1 ++ map ren P /\ w_cov w' = false /\
    (P <> [] -> w_dirty w' = true) /\ (P = [] -> w' = w).
Proof.
  induction P as [|[k len] r IH]; intros D1 w Nd HP HN Nd1 Hc El.
  - exists w. simpl in *. rewrite app_nil_r. repeat split; auto.
  - inversion HP as [|? ? Pk Pr]; inversion Nd as [|? ? Nk Nr]; subst. destruct (@w_forget_head w k len (r ++ D1) Hc El) as (w1 & E1 & L1 & C1 & D).
    cbn [w_post_import_loop]. rewrite E1. destruct (Z.leb_spec 0 k); [|lia].
    change (- Z.abs k - 1) with (neg_id k).
    assert (Fr : ~ In (neg_id k) (dkeys (r ++ D1))).
    { rewrite dkeys_app. intros I. apply in_app_or in I as [I|I].
      - assert (A : neg_id k < 0) by apply neg_id_neg. unfold all_pos in *. rewrite Forall_forall in *.
        apply Pr in I. lia.
      - cbn [dkeys map fst] in Nd1. apply NoDup_remove_2 in Nd1. apply Nd1, in_or_app; auto. }
    assert (Lt : w_lens (w_track w1 (neg_id k) len) = r ++ (D1 ++ [(neg_id k, len)]) /\
                 w_cov (w_track w1 (neg_id k) len) = false /\ w_dirty (w_track w1 (neg_id k) len) = true).
    { unfold w_track. rewrite C1. cbn [w_lens w_cov w_dirty]. rewrite L1, dset_fresh by auto.
      rewrite <- app_assoc. auto. }
    destruct Lt as (T1 & T2 & T3).
    destruct (IH (D1 ++ [(neg_id k, len)]) (w_track w1 (neg_id k) len)) as (w' & E & L & C & Dd & Ee); auto.
    + rewrite dkeys_app. apply Forall_app. split; auto. constructor; [apply neg_id_neg|constructor].
    + rewrite dkeys_app, <- app_assoc. exact Nd1.
    + exists w'. split; auto. split; [rewrite L, <- app_assoc; auto|]. split; auto. split; [|discriminate].
      intros _. destruct r; [rewrite Ee by auto; auto|]. apply Dd. discriminate.
Qed.

Lemma w_post_import_spec w (N P : dict Z Z) : w_inv w (N ++ P) -> w_cov w = false ->
  all_neg (dkeys N) -> all_pos (dkeys P) -> NoDup (dkeys P) -> forallb fits_int64 (map neg_id (dkeys P)) = true ->
  exists w', w_post_import w = (w', Ok tt) /\ w_inv w' (map ren P).
Proof.
  intros (E1 & E2 & E3) Hc HN HP Nd Hf. unfold w_post_import. rewrite Hc, E1.
  destruct (@w_loop_neg N P P w HN Hc E1) as (w1 & L1 & A1 & A2 & A3 & A4); auto.
  rewrite L1. rewrite <- (app_nil_r P) in A1.
  destruct (@w_loop_pos P [] w1 Nd HP) as (w2 & L2 & B1 & B2 & B3 & B4); auto.
  { constructor. } { apply NoDup_neg; auto. }
  rewrite L2. simpl in B1. unfold w_refresh.
  destruct (w_dirty w2) eqn:Dw.
  - unfold w_rebalance. rewrite B1, dkeys_ren, Hf. eexists. split; [reflexivity|].
    split; [simpl; auto|]. split; [simpl; congruence|]. simpl. rewrite dkeys_ren. auto.
  - eexists. split; [reflexivity|]. split; auto. split; [congruence|]. intros _ _.
    destruct P as [|p P]; [|exfalso; assert (X : false = true) by (apply B3; discriminate); discriminate].
    destruct N as [|n N]; [|exfalso; assert (X : w_dirty w1 = true) by (apply A3; discriminate); rewrite (B4 eq_refl) in Dw; congruence].
    rewrite (B4 eq_refl), (A4 eq_refl) in *. simpl in *. apply E3; auto.
Qed.

Definition not_cov_s (s : sampler) : Prop := match s with SWeighted w => w_cov w = false | _ => True end.
Definition not_cov_e (e : ejector) : Prop := match e with EWeighted w => w_cov w = false | _ => True end.

Section Legacy.
Context {S : Type} `{Scalar S}.
Implicit Types (t : table S) (B : buffer S).

Definition legacy_ids_ok (B : buffer S) : Prop := Forall (fun x => 0 <= fst x < 2 ^ 63) B.

Lemma ren_lens lk B : map ren (lens_of lk B) = lens_of lk (map ren B).
Proof. unfold lens_of. rewrite !map_map. auto. Qed.
Lemma ren_store B c : map ren (store_of (S:=S) B c) = store_of (map ren B) c.
Proof. unfold store_of. rewrite !map_map. auto. Qed.
Lemma dkeys_store B c : dkeys (store_of (S:=S) B c) = map fst B.
Proof. unfold store_of, dkeys. rewrite map_map. auto. Qed.

Lemma legacy_load_empty (cs : list (column S)) (F : column S -> dict Z (array S)) :
  forall (file : dict string (dict Z (array S))),
  (forall c, In c cs -> dget file (c_name c) = Some (F c) /\ NoDup (dkeys (F c))) ->
  legacy_load_data (map (fun c => (c_name c, [])) cs) file =
  (map (fun c => (c_name c, F c)) cs, Ok tt).
Proof.
  induction cs as [|c r IH]; intros file Hf; simpl; auto.
  destruct (Hf c (or_introl eq_refl)) as [E Nd]. rewrite E.
  rewrite IH by (intros; apply Hf; simpl; auto).
  rewrite dupdate_fresh by auto. auto.
Qed.

Lemma legacy_core t N P t0 lk0 m0 s0 e0 :
  Inv t (N ++ P) -> all_neg (map fst N) -> Forall (fun x => 0 <= fst x < 2 ^ 63) P ->
  not_cov_s (t_sampler t) -> not_cov_e (t_ejector t) ->
  t0 = t_create (t_cols t) lk0 m0 s0 e0 ->
  exists t', restore_legacy t0 (store_legacy t) = (t', Ok tt) /\ Inv t' (map ren P) /\
    t_cols t' = t_cols t /\ t_lenkey t' = t_lenkey t /\ t_maxlen t' = t_maxlen t /\
    (is_fifo (t_ejector t) -> is_fifo (t_ejector t')).
Proof.
  intros I HN HP Hs He ->.
  assert (Nd : NoDup (map fst N ++ map fst P)) by (rewrite <- map_app; apply (inv_nodup I)).
  assert (NdP : NoDup (map fst P)).
  { clear - Nd. induction (map fst N); simpl in *; auto. inversion Nd; auto. }
  assert (HPp : all_pos (map fst P)).
  { apply Forall_forall. intros x Ix. apply in_map_iff in Ix as (e & <- & Ie). rewrite Forall_forall in HP. apply HP; auto. }
  assert (Hfit : forallb fits_int64 (map neg_id (map fst P)) = true).
  { apply forallb_forall. intros x Ix. apply in_map_iff in Ix as (y & <- & Iy). apply in_map_iff in Iy as (e & <- & Ie).
    rewrite Forall_forall in HP. specialize (HP e Ie). unfold fits_int64, neg_id. rewrite Z.abs_eq by lia.
    apply andb_true_iff. split; [apply Z.leb_le|apply Z.ltb_lt]; lia. }
  unfold restore_legacy, legacy_head, store_legacy. cbn [l_data l_cols l_lenkey l_maxlen l_lengths l_filled l_sampler l_ejector].
  assert (E0 : t_data (t_create (t_cols t) lk0 m0 s0 e0) = map (fun c => (c_name c, [])) (storage_cols (t_cols t))).
  { simpl. pose proof (@empty_data_keys S (t_cols t)) as Ek.
    apply (@dict_shape S _ (storage_cols (t_cols t)) (fun _ => [])); auto.
    - apply NoDup_storage, (co_names (inv_cfg I)).
    - intros c Ic. apply empty_data_get; auto. }
  rewrite E0.
  rewrite (@legacy_load_empty (storage_cols (t_cols t)) (store_of (N ++ P))).
  2:{ intros c Ic. split; [apply (inv_holds I c Ic)|]. rewrite dkeys_store. apply (inv_nodup I). }
  unfold legacy_tail. cbn [t_lengths t_sampler t_ejector t_data with_lengths with_sampler with_ejector].
  pose proof (inv_sampler I) as Is. pose proof (inv_ejector I) as Ie.
  assert (El : lens_of (t_lenkey t) (N ++ P) = lens_of (t_lenkey t) N ++ lens_of (t_lenkey t) P).
  { unfold lens_of. apply map_app. }
  rewrite El in Is, Ie. rewrite (inv_lengths I), El.
  rewrite legacy_lengths_spec; rewrite ?dkeys_lens_of; auto.
  assert (As : exists s', s_post_import (t_sampler t) = (s', Ok tt) /\ s_inv s' (map ren (lens_of (t_lenkey t) P))).
  { destruct (t_sampler t) as [f b1 b2|w]; simpl in *.
    - destruct (fifo_post_import_spec _ _ Is) as (f' & E & F); rewrite ?dkeys_lens_of; auto. rewrite E. eexists; split; [reflexivity|simpl; auto].
    - destruct (w_post_import_spec _ _ Is Hs) as (f' & E & F); rewrite ?dkeys_lens_of; auto. rewrite E. eexists; split; [reflexivity|simpl; auto]. }
  assert (Ae : exists s', e_post_import (t_ejector t) = (s', Ok tt) /\ e_inv s' (map ren (lens_of (t_lenkey t) P)) /\
     (is_fifo (t_ejector t) -> is_fifo s')).
  { destruct (t_ejector t) as [f|w]; simpl in *.
    - destruct (fifo_post_import_spec _ _ Ie) as (f' & E & F); rewrite ?dkeys_lens_of; auto. rewrite E. eexists; split; [reflexivity|simpl; auto].
    - destruct (w_post_import_spec _ _ Ie He) as (f' & E & F); rewrite ?dkeys_lens_of; auto. rewrite E.
      eexists. split; [reflexivity|simpl; auto]. }
  destruct As as (s' & Es & Iss). destruct Ae as (e' & Ee & Iee & Fi). rewrite Es, Ee.
  eexists. split; [reflexivity|]. split; [|auto].
  assert (Ed : map (fun kv => (fst kv, storage_post_import (snd kv))) (map (fun c => (c_name c, store_of (N ++ P) c)) (storage_cols (t_cols t)))
             = map (fun c => (c_name c, store_of (map ren P) c)) (storage_cols (t_cols t))).
  { rewrite map_map. apply map_ext. intros c. simpl. f_equal. unfold store_of at 1. rewrite map_app.
    fold (store_of N c) (store_of P c). rewrite storage_post_import_spec; rewrite ?dkeys_store; auto. apply ren_store. }
  constructor; cbn.
  - apply (inv_cfg I).
  - rewrite map_map. simpl. rewrite <- (map_map fst neg_id). apply NoDup_neg; auto.
  - rewrite map_map. unfold dkeys. rewrite map_map. auto.
  - intros c Ic. cbn [t_data with_data with_ejector with_sampler with_lengths].
    change (In c (storage_cols (t_cols t))) in Ic. rewrite Ed.
    pose proof (NoDup_storage _ (co_names (inv_cfg I))) as Ns. clear - Ns Ic.
    induction (storage_cols (t_cols t)) as [|x r IH]; cbn [map dget fst] in *; [destruct Ic|].
    inversion Ns; subst. destruct Ic as [->|Ic]; [rewrite keqb_refl; auto|].
    rewrite keqb_neq; auto. intros E. apply H1. rewrite <- E. apply in_map; auto.
  - apply ren_lens.
  - rewrite ren_lens. apply dvals_lens_of.
  - rewrite <- ren_lens. auto.
  - rewrite <- ren_lens. auto.
Qed.
End Legacy.

(** ** Top-level statements *)
Section Top.
Context {S : Type} `{Scalar S}.
Implicit Types (t : table S) (B : buffer S).

Lemma not_cov_kind (s : sampler) : s_kind s <> inr true -> not_cov_s s.
Proof. destruct s as [|w]; simpl; auto. destruct (w_cov w); auto. congruence. Qed.

(** The kind of the ejector never changes either. *)
Definition e_kind (e : ejector) : unit + bool :=
  match e with EFifo _ => inl tt | EWeighted w => inr (w_cov w) end.
Lemma e_kind_track e id len : e_kind (fst (e_track e id len)) = e_kind e.
Proof. destruct e; auto. Qed.
Lemma e_kind_forget e id : e_kind (fst (e_forget e id)) = e_kind e.
Proof. destruct e as [f|w]; simpl; auto. pose proof (w_forget_cov w id). destruct (w_forget w id); simpl in *; congruence. Qed.
Lemma e_kind_sample e n dr : e_kind (fst (e_sample e n dr)) = e_kind e.
Proof.
  destruct e as [f|w]; simpl; auto. unfold w_eject, w_refresh, w_rebalance.
  destruct (w_dirty w); [destruct (forallb _ _)|]; simpl; auto; destruct (_ && _); auto.
Qed.
Lemma e_kind_eject_one t id : e_kind (t_ejector (fst (eject_one t id))) = e_kind (t_ejector t).
Proof.
  unfold eject_one. destruct (del_all (t_data t) id) as [d [u|e]]; simpl; auto.
  destruct (dget (t_lengths t) id); simpl; auto.
  destruct (s_forget (t_sampler t) id) as [s [u'|e]]; simpl; auto.
  pose proof (e_kind_forget (t_ejector t) id) as E. destruct (e_forget (t_ejector t) id) as [e [x|x]]; simpl in *; auto.
Qed.
Lemma e_kind_eject_all ids : forall t, e_kind (t_ejector (fst (eject_all t ids))) = e_kind (t_ejector t).
Proof.
  induction ids as [|id r IH]; intros t; simpl; auto.
  pose proof (e_kind_eject_one t id) as F1. destruct (eject_one t id) as [t1 [u|e]]; simpl in *; auto.
  rewrite IH. auto.
Qed.
Lemma e_kind_eject_count t n dr : e_kind (t_ejector (fst (eject_count t n dr))) = e_kind (t_ejector t).
Proof.
  unfold eject_count. cbn [t_ejector with_filled]. pose proof (e_kind_sample (t_ejector t) n dr) as E.
  destruct (e_sample (t_ejector t) n dr) as [e [ids|x]]; simpl in *; auto. rewrite e_kind_eject_all. simpl. auto.
Qed.
Lemma e_kind_step t o : e_kind (t_ejector (step t o)) = e_kind (t_ejector t).
Proof.
  destruct o; simpl; auto.
  - unfold add_sequence. destruct (dget seq (t_lenkey t)) as [fr|]; simpl; auto.
    assert (F1 : e_kind (t_ejector (fst (if t_maxlen t <? t_size t + zlen fr
       then eject_count t (t_size t + zlen fr - t_maxlen t) draws else (t, Ok tt)))) = e_kind (t_ejector t)).
    { destruct (t_maxlen t <? t_size t + zlen fr); simpl; auto. apply e_kind_eject_count; auto. }
    destruct (if t_maxlen t <? t_size t + zlen fr then _ else _) as [t1 [u|e]]; simpl in *; auto.
    destruct (write_columns _ _ _ _) as [d [u'|e]]; simpl; auto.
    destruct (s_track _ _ _) as [s' [u''|e]]; simpl; auto.
    pose proof (e_kind_track (t_ejector t1) (wrap_id id) (zlen fr)) as E.
    destruct (e_track (t_ejector t1) (wrap_id id) (zlen fr)) as [e [x|x]]; simpl in *; congruence.
  - destruct (t_sample_frame t count n draws) as [d ->]. auto.
  - unfold t_resize. destruct (n <? t_maxlen t); auto.
Qed.
Lemma e_kind_run ops : forall t, e_kind (t_ejector (run t ops)) = e_kind (t_ejector t).
Proof.
  induction ops as [|o r IH]; intros t; auto. change (run t (o :: r)) with (run (step t o) r).
  rewrite IH. apply e_kind_step.
Qed.

(** C22: what clear() does forget. *)
Lemma clear_data t : config_ok (t_cols t) (t_lenkey t) ->
  holds (t_clear t) [] /\ t_size (t_clear t) = 0 /\ t_full (t_clear t) = false.
Proof.
  intros C. split; auto. intros c Ic. simpl in *. apply empty_data_get; auto.
Qed.

Definition both_fifo t : Prop :=
  (exists f b1 b2, t_sampler t = SFifo f b1 b2) /\ (exists f, t_ejector t = EFifo f).

(** C22: restoring into a table with FIFO strategies does not depend on what it
    held before. *)
Lemma restore_forgets t (f : v1file S) draws smp ej b1 b2 :
  (exists fs, t_sampler t = SFifo fs b1 b2) -> (exists fe, t_ejector t = EFifo fe) ->
  v_sampler_state f <> None -> v_ejector_state f <> None ->
  smp = SFifo fifo_init b1 b2 -> ej = EFifo fifo_init ->
  deserialize t f None draws = deserialize (t_create (t_cols t) (t_lenkey t) (t_maxlen t) smp ej) f None draws.
Proof.
  intros (fs & Es) (fe & Ee) Hs He -> ->.
  destruct (v_sampler_state f) as [ss|] eqn:E1; [|congruence].
  destruct (v_ejector_state f) as [se|] eqn:E2; [|congruence].
  unfold deserialize. rewrite E1, E2. simpl. rewrite Es, Ee. simpl. reflexivity.
Qed.

(** C24: strategies that do not defer tracking keep working after a failed import. *)
Lemma failed_restore_weighted cols lk maxlen sc ec (f : v1file S) k draws :
  config_ok cols lk -> v_columns f = cols ->
  let t := t_create cols lk maxlen (SWeighted (w_init sc)) (EWeighted (w_init ec)) in
  exists t' e, deserialize t f (Some k) draws = (t', Err e) /\
  forall ops, client_ok cols ops -> exists b,
    holds (run t' ops) b /\ sublist b (adds ops) /\ t_size (run t' ops) = total_len lk b /\
    sampler_ids (t_sampler (run t' ops)) = map fst b /\ ejector_ids (t_ejector (run t' ops)) = map fst b /\
    (0 <= maxlen -> t_size (run t' ops) <= t_maxlen (run t' ops)).
Proof.
  intros C Ef t.
  set (t' := with_sampler (with_ejector t (EWeighted (w_set_imp (w_init ec) true))) (SWeighted (w_set_imp (w_init sc) true))).
  assert (Ed : deserialize t f (Some k) draws = (t', Err ValueError)).
  { unfold deserialize. destruct k; simpl; auto. rewrite Ef, col_load_same by apply (co_names C).
    destruct (v_ejector_state f), (v_sampler_state f); reflexivity. }
  exists t', ValueError. split; auto. intros ops (C1 & C2 & C3).
  assert (I : Inv t' []).
  { pose proof (Inv_create maxlen C (fresh_SWeighted sc) (fresh_EWeighted ec)) as [H1 H2 H3 H4 H5 H6 H7 H8].
    constructor; auto. }
  destruct (@run_inv S _ ops t' [] I C1 C2 C3) as (B & IB & Sb & F1 & F2 & F3 & F4).
  exists B. split; [apply (inv_holds IB)|]. split; auto.
  assert (El : t_lenkey (run t' ops) = lk) by auto.
  split; [unfold t_size; rewrite (inv_total IB), El; auto|].
  rewrite (@s_inv_ids _ _ (inv_sampler IB)), (@e_inv_ids _ _ (inv_ejector IB)), dkeys_lens_of. auto.
Qed.

Lemma sublist_app_inv {A} (a b : list A) : forall l, sublist l (a ++ b) ->
  exists l1 l2, l = l1 ++ l2 /\ sublist l1 a /\ sublist l2 b.
Proof.
  induction a as [|x a IH]; intros l Hl; simpl in *.
  - exists [], l. repeat split; auto. constructor.
  - inversion Hl; subst.
    + destruct (IH _ H2) as (l1 & l2 & -> & S1 & S2). exists (x :: l1), l2. repeat split; auto. constructor; auto.
    + destruct (IH _ H2) as (l1 & l2 & -> & S1 & S2). exists l1, l2. repeat split; auto. constructor; auto.
Qed.

(** A legacy restore takes the strategies, hence their kinds, from the file. *)
Lemma w_loop_cov items : forall w, w_cov (fst (w_post_import_loop w items)) = w_cov w.
Proof.
  induction items as [|[k len] r IH]; intros w; simpl; auto.
  pose proof (w_forget_cov w k) as E. destruct (w_forget w k) as [w1 [u|x]]; simpl in *; auto.
  rewrite IH. destruct (0 <=? k); auto.
Qed.
Lemma w_post_cov w : w_cov (fst (w_post_import w)) = w_cov w.
Proof.
  unfold w_post_import. destruct (w_cov w) eqn:E; auto.
  pose proof (w_loop_cov (w_lens w) w) as E1. destruct (w_post_import_loop w (w_lens w)) as [w1 [u|x]]; simpl in *; [|congruence].
  unfold w_refresh, w_rebalance. destruct (w_dirty w1); simpl; [destruct (forallb _ _)|]; simpl; congruence.
Qed.
Lemma legacy_kinds t t0 t' : restore_legacy t0 (store_legacy t) = (t', Ok tt) ->
  s_kind (t_sampler t') = s_kind (t_sampler t) /\ e_kind (t_ejector t') = e_kind (t_ejector t).
Proof.
  unfold restore_legacy, legacy_head, store_legacy. cbn.
  destruct (legacy_load_data (t_data t0) (t_data t)) as [d [u|x]]; [|discriminate].
  unfold legacy_tail. cbn [t_sampler t_ejector with_lengths with_sampler].
  assert (A1 : s_kind (fst (s_post_import (t_sampler t))) = s_kind (t_sampler t)).
  { destruct (t_sampler t) as [f b1 b2|w]; simpl.
    - destruct (fifo_post_import f); auto.
    - pose proof (w_post_cov w). destruct (w_post_import w); simpl in *; congruence. }
  assert (A2 : e_kind (fst (e_post_import (t_ejector t))) = e_kind (t_ejector t)).
  { destruct (t_ejector t) as [f|w]; simpl.
    - destruct (fifo_post_import f); auto.
    - pose proof (w_post_cov w). destruct (w_post_import w); simpl in *; congruence. }
  destruct (s_post_import (t_sampler t)) as [s' [u1|x1]]; [|discriminate].
  destruct (e_post_import (t_ejector t)) as [e' [u2|x2]]; [|discriminate].
  intros E; inversion E; subst t'. simpl in *. auto.
Qed.

(** C25 *)
Lemma legacy_rename cols lk maxlen smp ej ops lk0 m0 s0 e0 :
  config_ok cols lk -> fresh_sampler smp -> fresh_ejector ej -> client_ok cols ops ->
  smp <> SWeighted (w_init true) -> ej <> EWeighted (w_init true) ->
  Forall (fun e => 0 <= fst e < 2 ^ 63) (adds ops) ->
  let t := run (t_create cols lk maxlen smp ej) ops in
  exists b t', holds t b /\ sublist b (adds ops) /\
    restore_legacy (t_create cols lk0 m0 s0 e0) (store_legacy t) = (t', Ok tt) /\
    (let b' := map (fun e => (- fst e - 1, snd e)) b in
     holds t' b' /\ t_size t' = t_size t /\ dkeys (t_lengths t') = map fst b' /\
     sampler_ids (t_sampler t') = map fst b' /\ ejector_ids (t_ejector t') = map fst b' /\
     forall ops2, client_ok cols ops2 -> Forall (fun e => 0 <= fst e < 2 ^ 63) (adds ops2) ->
       exists b2, holds (run t' ops2) b2 /\ sublist b2 (b' ++ adds ops2) /\
         NoDup (map fst b2) /\ t_size (run t' ops2) = total_len lk b2 /\
         exists t'', restore_legacy (t_create cols lk0 m0 s0 e0) (store_legacy (run t' ops2)) = (t'', Ok tt) /\
           (let b3 := map (fun e => (- fst e - 1, snd e)) (filter (fun e => 0 <=? fst e) b2) in
            holds t'' b3 /\ dkeys (t_lengths t'') = map fst b3 /\
            sampler_ids (t_sampler t'') = map fst b3 /\ ejector_ids (t_ejector t'') = map fst b3)).
Proof.
  intros C Fs Fe Co Ns Ne Hid t.
  destruct (run_create_kind maxlen C Fs Fe Co) as (B & I & Sb & F1 & F2 & Fk). fold t in I, F1, F2, Fk.
  pose proof (sublist_Forall Sb Hid) as HidB.
  assert (Ke : e_kind (t_ejector t) = e_kind ej) by apply e_kind_run.
  destruct (@legacy_core S t [] B (t_create (t_cols t) lk0 m0 s0 e0) lk0 m0 s0 e0 I)
    as (t' & R1 & R2 & R3 & R4 & R5 & R6); auto.
  { constructor. }
  { apply not_cov_kind. rewrite Fk. destruct Fs as [|[|]]; simpl; congruence. }
  { clear - Ke Fe Ne. destruct (t_ejector t); simpl in *; auto. destruct Fe as [|[|]]; simpl in *; congruence. }
  assert (Eb : map (fun e => (- fst e - 1, snd e)) B = map ren B).
  { apply map_ext_in. intros e Ie. unfold ren, neg_id. rewrite Forall_forall in HidB. specialize (HidB e Ie).
    rewrite Z.abs_eq by lia. auto. }
  exists B, t'. split; [apply (inv_holds I)|]. split; auto. rewrite F1 in R1. split; auto.
  cbv zeta. rewrite Eb.
  split; [apply (inv_holds R2)|].
  assert (Et : total_len (t_lenkey t) (map ren B) = total_len (t_lenkey t) B).
  { unfold total_len. rewrite map_map. auto. }
  split. { unfold t_size. rewrite (inv_total I), (inv_total R2), R4. auto. }
  split. { rewrite (inv_lengths R2), dkeys_lens_of. auto. }
  split. { rewrite (@s_inv_ids _ _ (inv_sampler R2)), dkeys_lens_of. auto. }
  split. { rewrite (@e_inv_ids _ _ (inv_ejector R2)), dkeys_lens_of. auto. }
  intros ops2 (D1 & D2 & D3) Hp.
  destruct (@run_inv S _ ops2 t' (map ren B) R2 D1) as (B2 & IB & Sb2 & G1 & G2 & _).
  { rewrite R3, F1. auto. }
  { rewrite map_app. apply NoDup_app_intro.
    - apply (inv_nodup R2).
    - auto.
    - intros x I1 I2. apply in_map_iff in I1 as (e & <- & Ie). apply in_map_iff in Ie as (e1 & <- & _).
      apply in_map_iff in I2 as (e2 & E2 & I2). rewrite Forall_forall in Hp. apply Hp in I2.
      simpl in E2. pose proof (neg_id_neg (fst e1)). lia. }
  exists B2. split; [apply (inv_holds IB)|]. split; auto. split; [apply (inv_nodup IB)|].
  split; [unfold t_size; rewrite (inv_total IB), G2, R4, F2; auto|].
  destruct (sublist_app_inv _ _ Sb2) as (N2 & P2 & E2 & Sn & Sp).
  pose proof (sublist_Forall Sp Hp) as HpP.
  assert (HnN : all_neg (map fst N2)).
  { apply Forall_forall. intros x Ix. apply in_map_iff in Ix as (e & <- & Ie).
    apply (sublist_In _ Sn) in Ie. apply in_map_iff in Ie as (e1 & <- & _). apply neg_id_neg. }
  assert (Ef : filter (fun e : Z * sequence S => 0 <=? fst e) B2 = P2).
  { subst B2. rewrite filter_app.
    assert (X1 : filter (fun e : Z * sequence S => 0 <=? fst e) N2 = []).
    { clear - HnN. induction N2 as [|e r IH]; simpl; auto. inversion HnN; subst.
      destruct (Z.leb_spec 0 (fst e)); [lia|auto]. }
    assert (X2 : filter (fun e : Z * sequence S => 0 <=? fst e) P2 = P2).
    { clear - HpP. induction P2 as [|e r IH]; simpl; auto. inversion HpP; subst.
      destruct (Z.leb_spec 0 (fst e)); [|lia]. f_equal; auto. }
    rewrite X1, X2. auto. }
  rewrite Ef.
  assert (Eb3 : map (fun e => (- fst e - 1, snd e)) P2 = map ren P2).
  { apply map_ext_in. intros e Ie. unfold ren, neg_id. rewrite Forall_forall in HpP. specialize (HpP e Ie).
    rewrite Z.abs_eq by lia. auto. }
  subst B2.
  assert (Ks : s_kind (t_sampler (run t' ops2)) = s_kind (t_sampler t')) by apply kind_run.
  assert (Kt : s_kind (t_sampler t') = s_kind (t_sampler t) /\ e_kind (t_ejector t') = e_kind (t_ejector t)) by (apply (legacy_kinds _ _ R1)).
  assert (Ke2 : e_kind (t_ejector (run t' ops2)) = e_kind (t_ejector t')) by apply e_kind_run.
  destruct Kt as [Kt1 Kt2].
  destruct (@legacy_core S (run t' ops2) N2 P2 (t_create (t_cols (run t' ops2)) lk0 m0 s0 e0) lk0 m0 s0 e0 IB)
    as (t4 & Q1 & Q2 & Q3 & Q4 & Q5 & Q6); auto.
  { apply not_cov_kind. rewrite Ks, Kt1, Fk. destruct Fs as [|[|]]; simpl; congruence. }
  { rewrite <- Ke2 in Kt2. rewrite Ke in Kt2. clear - Kt2 Fe Ne. destruct (t_ejector (run t' ops2)); simpl in *; auto.
    destruct Fe as [|[|]]; simpl in *; congruence. }
  exists t4. rewrite G1, R3, F1 in Q1. split; auto. cbv zeta. rewrite Eb3.
  split; [apply (inv_holds Q2)|]. split. { rewrite (inv_lengths Q2), dkeys_lens_of. auto. }
  split. { rewrite (@s_inv_ids _ _ (inv_sampler Q2)), dkeys_lens_of. auto. }
  rewrite (@e_inv_ids _ _ (inv_ejector Q2)), dkeys_lens_of. auto.
Qed.
End Top.
