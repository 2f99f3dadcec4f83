(** * MemProofs: the table refines a list of sequences. *)
From Verif Require Import Py PyLemmas MemModel MemSpec.
Open Scope Z_scope.
Set Implicit Arguments.
Arguments co_names {S cols lenkey}.
Arguments co_rows {S cols lenkey}.
Arguments co_lenkey {S cols lenkey}.
Arguments co_targets {S cols lenkey}.

(** ** Generic list facts *)

Lemma filter_all {A} (f : A -> bool) l : (forall x, In x l -> f x = true) -> filter f l = l.
Proof.
  induction l as [|x r IH]; simpl; auto. intros Hf.
  rewrite Hf by auto. rewrite IH; auto.
Qed.

Lemma map_filter_fst {A B C} (f : A * B -> C) (g : A -> bool) (l : list (A * B)) :
  filter (fun x => g (fst x)) (map (fun e => (fst e, f e)) l) =
  map (fun e => (fst e, f e)) (filter (fun e => g (fst e)) l).
Proof.
  induction l as [|[a b] r IH]; simpl; auto. destruct (g a); simpl; rewrite IH; auto.
Qed.

Lemma NoDup_map_filter {A B} (f : A -> B) (g : A -> bool) l :
  NoDup (map f l) -> NoDup (map f (filter g l)).
Proof.
  induction l as [|x r IH]; simpl; auto. intros ND; inversion ND; subst.
  destruct (g x); simpl; auto. constructor; auto.
  intros I. apply in_map_iff in I as (y & E & I). apply filter_In in I as [I _].
  match goal with Hn : ~ In _ _ |- _ => apply Hn end.
  rewrite <- E. apply in_map; auto.
Qed.

Lemma sublist_refl {A} (l : list A) : sublist l l.
Proof. induction l; constructor; auto. Qed.

Lemma sublist_filter {A} (f : A -> bool) l : sublist (filter f l) l.
Proof. induction l as [|x r IH]; simpl; [constructor|]. destruct (f x); constructor; auto. Qed.

Lemma sublist_trans {A} (a b c : list A) : sublist a b -> sublist b c -> sublist a c.
Proof.
  intros H1 H2. revert a H1. induction H2; intros a H1; auto.
  - inversion H1; subst; constructor; auto.
  - constructor; auto.
Qed.

Lemma sublist_app {A} (a b c d : list A) : sublist a b -> sublist c d -> sublist (a ++ c) (b ++ d).
Proof. induction 1; simpl; intros; auto; constructor; auto. Qed.

Lemma sublist_In {A} (a b : list A) x : sublist a b -> In x a -> In x b.
Proof. induction 1; simpl; intuition. Qed.

Lemma sublist_map {A B} (f : A -> B) a b : sublist a b -> sublist (map f a) (map f b).
Proof. induction 1; simpl; constructor; auto. Qed.

Lemma sublist_NoDup {A} (a b : list A) : sublist a b -> NoDup b -> NoDup a.
Proof.
  induction 1; intros ND; auto; inversion ND; subst; auto.
  constructor; auto. intros I. eapply sublist_In in I; eauto.
Qed.

Lemma sublist_Forall {A} (P : A -> Prop) a b : sublist a b -> Forall P b -> Forall P a.
Proof. rewrite !Forall_forall. intros Hs Hp x I. apply Hp. eapply sublist_In; eauto. Qed.

(** ** Strategies as ordered dictionaries *)

Definition w_inv (w : weighted) (D : dict Z Z) : Prop :=
  w_lens w = D /\
  (w_cov w = true -> dkeys (w_counts w) = dkeys D) /\
  (w_dirty w = false -> forallb fits_int64 (dkeys D) = true ->
   w_ids w = dkeys D /\ w_prios w = dvals D).

Definition f_inv (f : fifo) (D : dict Z Z) : Prop :=
  f_lens f = D /\ f_ids f = dkeys D /\ f_imp f = false.

Definition s_inv (s : sampler) (D : dict Z Z) : Prop :=
  match s with SFifo f _ _ => f_inv f D | SWeighted w => w_inv w D end.
Definition e_inv (e : ejector) (D : dict Z Z) : Prop :=
  match e with EFifo f => f_inv f D | EWeighted w => w_inv w D end.

Lemma fresh_s_inv s : fresh_sampler s -> s_inv s [].
Proof. destruct 1; simpl; unfold f_inv, w_inv; simpl; auto. Qed.
Lemma fresh_e_inv s : fresh_ejector s -> e_inv s [].
Proof. destruct 1; simpl; unfold f_inv, w_inv; simpl; auto. Qed.

Lemma remove1_keys (D : dict Z Z) id : remove1 id (dkeys D) = dkeys (ddel D id).
Proof.
  induction D as [|[k v] r IH]; simpl; auto.
  destruct (id =? k) eqn:E; simpl; auto. f_equal; auto.
Qed.

Lemma f_inv_track f D id len :
  f_inv f D -> ~ In id (dkeys D) ->
  exists f', fifo_track f id len = (f', Ok tt) /\ f_inv f' (D ++ [(id, len)]).
Proof.
  intros (H1 & H2 & H3) N. unfold fifo_track. rewrite H3, H1.
  rewrite (proj2 (dmem_false D id)) by auto.
  eexists; split; [reflexivity|]. unfold f_inv; simpl.
  rewrite dset_fresh by auto. rewrite H2, dkeys_app. auto.
Qed.

Lemma f_inv_forget f D id :
  f_inv f D -> In id (dkeys D) ->
  exists f', fifo_forget f id = (f', Ok tt) /\ f_inv f' (ddel D id).
Proof.
  intros (H1 & H2 & H3) I. unfold fifo_forget. rewrite H2.
  rewrite (proj2 (inb_In id (dkeys D)) I), H1, (proj2 (dmem_In D id) I).
  eexists; split; [reflexivity|]. unfold f_inv; simpl. rewrite remove1_keys. auto.
Qed.

Lemma dkeys_dset_same (d D : dict Z Z) id v len :
  dkeys d = dkeys D -> ~ In id (dkeys D) ->
  dkeys (dset d id v) = dkeys (D ++ [(id, len)]).
Proof.
  intros E N. rewrite dkeys_dset_fresh by (rewrite E; auto). rewrite dkeys_app, E. auto.
Qed.

Lemma dkeys_ddel_same (d D : dict Z Z) id :
  dkeys d = dkeys D -> dkeys (ddel d id) = dkeys (ddel D id).
Proof.
  intros E. rewrite <- !remove1_keys, E. auto.
Qed.

Lemma w_inv_track w D id len :
  w_inv w D -> ~ In id (dkeys D) -> w_inv (w_track w id len) (D ++ [(id, len)]).
Proof.
  intros (H1 & H2 & H3) N. unfold w_inv, w_track; simpl. rewrite H1.
  split; [apply dset_fresh; auto|]. split; [|discriminate].
  intros C. rewrite C. apply dkeys_dset_same; auto.
Qed.

Lemma w_inv_forget w D id :
  w_inv w D -> In id (dkeys D) ->
  exists w', w_forget w id = (w', Ok tt) /\ w_inv w' (ddel D id).
Proof.
  intros (H1 & H2 & H3) I. unfold w_forget. rewrite H1, (proj2 (dmem_In D id) I).
  destruct (w_cov w) eqn:C.
  - rewrite (proj2 (dmem_In (w_counts w) id)) by (rewrite H2; auto).
    eexists; split; [reflexivity|]. unfold w_inv; simpl. split; auto.
    split; [|discriminate]. intros _. apply dkeys_ddel_same; auto.
  - eexists; split; [reflexivity|]. unfold w_inv; simpl. split; auto.
    split; [|discriminate]. congruence.
Qed.

Lemma s_inv_track s D id len :
  s_inv s D -> ~ In id (dkeys D) ->
  exists s', s_track s id len = (s', Ok tt) /\ s_inv s' (D ++ [(id, len)]).
Proof.
  destruct s as [f b1 b2|w]; simpl; intros I N.
  - destruct (@f_inv_track f D id len I N) as (f' & -> & I'). eexists; split; [reflexivity|]. auto.
  - eexists; split; [reflexivity|]. apply w_inv_track; auto.
Qed.

Lemma e_inv_track s D id len :
  e_inv s D -> ~ In id (dkeys D) ->
  exists s', e_track s id len = (s', Ok tt) /\ e_inv s' (D ++ [(id, len)]).
Proof.
  destruct s as [f|w]; simpl; intros I N.
  - destruct (@f_inv_track f D id len I N) as (f' & -> & I'). eexists; split; [reflexivity|]. auto.
  - eexists; split; [reflexivity|]. apply w_inv_track; auto.
Qed.

Lemma s_inv_forget s D id :
  s_inv s D -> In id (dkeys D) ->
  exists s', s_forget s id = (s', Ok tt) /\ s_inv s' (ddel D id).
Proof.
  destruct s as [f b1 b2|w]; simpl; intros I N.
  - destruct (@f_inv_forget f D id I N) as (f' & -> & I'). eexists; split; [reflexivity|]. auto.
  - destruct (@w_inv_forget w D id I N) as (f' & -> & I'). eexists; split; [reflexivity|]. auto.
Qed.

Lemma e_inv_forget s D id :
  e_inv s D -> In id (dkeys D) ->
  exists s', e_forget s id = (s', Ok tt) /\ e_inv s' (ddel D id).
Proof.
  destruct s as [f|w]; simpl; intros I N.
  - destruct (@f_inv_forget f D id I N) as (f' & -> & I'). eexists; split; [reflexivity|]. auto.
  - destruct (@w_inv_forget w D id I N) as (f' & -> & I'). eexists; split; [reflexivity|]. auto.
Qed.

(** Rebalancing does not change what is tracked. *)
Lemma w_inv_refresh w D :
  w_inv w D -> w_inv (fst (w_refresh w)) D /\
  (snd (w_refresh w) = Ok tt -> forallb fits_int64 (dkeys D) = true ->
   w_ids (fst (w_refresh w)) = dkeys D /\ w_prios (fst (w_refresh w)) = dvals D).
Proof.
  intros (H1 & H2 & H3). unfold w_refresh.
  destruct (w_dirty w) eqn:Ed.
  - unfold w_rebalance. rewrite H1. destruct (forallb fits_int64 (dkeys D)) eqn:F; simpl.
    + split; auto. unfold w_inv; simpl. auto.
    + split; [|discriminate]. unfold w_inv; simpl. split; auto. split; auto. congruence.
  - simpl. split; [unfold w_inv; auto|]. auto.
Qed.

Lemma w_refresh_frame w : w_lens (fst (w_refresh w)) = w_lens w /\
  w_counts (fst (w_refresh w)) = w_counts w /\ w_cov (fst (w_refresh w)) = w_cov w.
Proof.
  unfold w_refresh, w_rebalance. destruct (w_dirty w); simpl; auto.
  destruct (forallb fits_int64 (dkeys (w_lens w))); simpl; auto.
Qed.

Lemma dkeys_dset_in (d : dict Z Z) id v x : dget d id = Some x -> dkeys (dset d id v) = dkeys d.
Proof. intros E. apply dkeys_dset_mem. eapply dget_Some_key; eauto. Qed.

Lemma w_inv_sample_loop draws : forall w D tc, w_inv w D ->
  w_inv (fst (w_sample_loop w tc draws)) D.
Proof.
  induction draws as [|[id k] ds IH]; intros w D tc I; simpl; auto.
  destruct (w_cov w) eqn:C.
  - destruct (dget (w_counts w) id) as [c|] eqn:G; [|auto]. simpl.
    set (w1 := mkW _ _ _ _ _ _ _ _).
    assert (I1 : w_inv w1 D).
    { destruct I as (H1 & H2 & H3). unfold w_inv, w1; simpl. split; auto. split; auto.
      intros _. erewrite dkeys_dset_in by eauto. auto. }
    destruct (dget (w_lens w) id); [|auto].
    specialize (IH w1 D tc I1). destruct (w_sample_loop w1 tc ds) as [w2 [ps|e]]; auto.
  - destruct (dget (w_lens w) id); [|auto].
    specialize (IH w D tc I). destruct (w_sample_loop w tc ds) as [w2 [ps|e]]; auto.
Qed.

Lemma s_inv_sample s D c n draws : s_inv s D -> s_inv (fst (s_sample s c n draws)) D.
Proof.
  destruct s as [f b1 b2|w]; simpl; auto. intros I.
  unfold w_sample. pose proof (w_inv_refresh I) as [I1 _].
  destruct (w_refresh w) as [w1 [u|e]]; simpl in *; auto.
  destruct (Nat.eqb c 0); auto. destruct (negb (choice_ok w1)); auto.
  destruct (draws_ok w1 c draws); auto. apply w_inv_sample_loop; auto.
Qed.

(** ** What ejectors return *)

Definition len_of (D : dict Z Z) (id : Z) : Z := dget_default D id 0.

Lemma fifo_eject_loop_spec ids : forall lens count l,
  fifo_eject_loop lens ids count = Ok l ->
  (exists rest, ids = l ++ rest) /\ count <= zsum (map (len_of lens) l).
Proof.
  induction ids as [|id r IH]; intros lens count l; simpl;
    destruct (Z.ltb_spec 0 count) as [P|P]; try discriminate.
  - intros E; inversion E; subst. simpl. split; [exists []; auto|]. cbn. lia.
  - destruct (dget lens id) as [len|] eqn:G; [|discriminate].
    destruct (fifo_eject_loop lens r (count - len)) as [l'|e] eqn:Er; [|discriminate].
    simpl. intros E; inversion E; subst. apply IH in Er as [[rest ->] Hs].
    split; [exists rest; auto|]. unfold zsum in *. cbn [map fold_right].
    unfold len_of at 1, dget_default. rewrite G. lia.
  - intros E; inversion E; subst. simpl. split; [eexists; reflexivity|]. cbn. lia.
Qed.

Lemma w_eject_loop_spec draws : forall w D count acc l,
  w_lens w = D -> NoDup acc -> (forall x, In x acc -> In x (dkeys D)) ->
  w_eject_loop w count acc draws = Ok l ->
  NoDup l /\ (forall x, In x l -> In x (dkeys D)) /\
  count + zsum (map (len_of D) acc) <= zsum (map (len_of D) l).
Proof.
  induction draws as [|[id k] ds IH]; intros w D count acc l Ew ND Sub; simpl;
    destruct (Z.ltb_spec 0 count) as [P|P]; try discriminate.
  - intros E; inversion E; subst. auto with zarith.
  - destruct (negb (can_draw w id)); [discriminate|].
    destruct (inb id acc) eqn:Ein.
    + intros E. eapply IH; eauto.
    + destruct (dget (w_lens w) id) as [len|] eqn:G; [|discriminate].
      intros E. rewrite Ew in G.
      apply inb_false in Ein.
      assert (ND' : NoDup (acc ++ [id])).
      { apply NoDup_Add with (a := id) (l := acc); [|split; auto].
        replace acc with (acc ++ []) at 1 by apply app_nil_r. apply Add_app. }
      eapply IH in E; eauto.
      * destruct E as (N1 & N2 & N3). split; [|split]; auto.
        rewrite map_app, zsum_app in N3. cbn in N3.
        unfold len_of at 2, dget_default in N3. rewrite G in N3. lia.
      * intros x I. apply in_app_or in I as [I|[<-|[]]]; auto.
        eapply dget_Some_key; eauto.
  - intros E; inversion E; subst. split; [|split]; auto. lia.
Qed.

Lemma e_sample_spec e D count draws :
  e_inv e D -> NoDup (dkeys D) ->
  e_inv (fst (e_sample e count draws)) D /\
  (forall l, snd (e_sample e count draws) = Ok l ->
     NoDup l /\ (forall x, In x l -> In x (dkeys D)) /\
     count <= zsum (map (len_of D) l)).
Proof.
  destruct e as [f|w]; simpl; intros I ND.
  - split; auto. intros l E. destruct I as (H1 & H2 & H3).
    unfold fifo_eject in E. apply fifo_eject_loop_spec in E as [[rest E] Hs].
    rewrite H1 in Hs. rewrite H2 in E.
    split; [|split]; auto.
    + rewrite E in ND. clear -ND. induction l as [|x l IH]; [constructor|].
      inversion ND; subst. constructor; auto.
      intros I. apply H1. apply in_or_app; auto.
    + intros x I. rewrite E. apply in_or_app; auto.
  - unfold w_eject. pose proof (w_inv_refresh I) as [I1 _].
    destruct (w_refresh w) as [w1 [u|e]]; simpl in *.
    + destruct ((0 <? count) && negb (choice_ok w1)); simpl; split; auto; try discriminate.
      intros l E. apply w_eject_loop_spec with (D := D) in E; auto.
      * destruct E as (N1 & N2 & N3). cbn in N3. split; [|split]; auto. lia.
      * destruct I1; auto.
      * constructor.
      * intros x [].
    + split; auto. discriminate.
Qed.

(** ** The table invariant *)

Section Inv.
Context {S : Type} `{Scalar S}.
Implicit Types (t : table S) (B : buffer S) (c : column S).

Definition lens_of (lk : string) (B : buffer S) : dict Z Z :=
  map (fun e => (fst e, seq_len lk (snd e))) B.

Record Inv (t : table S) (B : buffer S) : Prop :=
  { inv_cfg : config_ok (t_cols t) (t_lenkey t);
    inv_nodup : NoDup (map fst B);
    inv_names : dkeys (t_data t) = map c_name (storage_cols (t_cols t));
    inv_holds : holds t B;
    inv_lengths : t_lengths t = lens_of (t_lenkey t) B;
    inv_total : t_total t = total_len (t_lenkey t) B;
    inv_sampler : s_inv (t_sampler t) (lens_of (t_lenkey t) B);
    inv_ejector : e_inv (t_ejector t) (lens_of (t_lenkey t) B) }.

Lemma dkeys_lens_of lk B : dkeys (lens_of lk B) = map fst B.
Proof. unfold dkeys, lens_of. rewrite map_map. auto. Qed.

Lemma dvals_lens_of lk B : zsum (dvals (lens_of lk B)) = total_len lk B.
Proof. unfold dvals, lens_of, total_len. rewrite map_map. auto. Qed.

Lemma storage_nodup cols : NoDup (map (@c_name S) cols) -> NoDup (map c_name (storage_cols cols)).
Proof. apply NoDup_map_filter. Qed.

Lemma storage_In cols c : In c (storage_cols cols) <-> In c cols /\ is_virtual c = false.
Proof.
  unfold storage_cols. rewrite filter_In. rewrite negb_true_iff. tauto.
Qed.

Lemma find_col_In cols c : NoDup (map (@c_name S) cols) -> In c cols ->
  find_col cols (c_name c) = Some c.
Proof.
  induction cols as [|d r IH]; simpl; [tauto|].
  intros ND; inversion ND; subst. intros [->|I].
  - rewrite String.eqb_refl; auto.
  - destruct (String.eqb_spec (c_name c) (c_name d)) as [E|E]; auto.
    exfalso. match goal with Hn : ~ In _ _ |- _ => apply Hn end. rewrite <- E. apply in_map; auto.
Qed.

(** *** Creation *)

Lemma empty_data_keys cols : dkeys (empty_data cols) = map (@c_name S) (storage_cols cols).
Proof. unfold dkeys, empty_data, storage_cols. rewrite map_map. auto. Qed.

Lemma empty_data_get cols c : In c (storage_cols cols) ->
  dget (empty_data cols) (@c_name S c) = Some [].
Proof.
  unfold empty_data. fold (storage_cols cols). induction (storage_cols cols) as [|d r IH]; simpl; [tauto|].
  intros [->|I].
  - rewrite String.eqb_refl; auto.
  - destruct (String.eqb (c_name c) (c_name d)); auto.
Qed.

Lemma Inv_create cols lk maxlen s e :
  config_ok cols lk -> fresh_sampler s -> fresh_ejector e ->
  Inv (t_create cols lk maxlen s e) [].
Proof.
  intros C Fs Fe. constructor; simpl; auto.
  - constructor.
  - apply empty_data_keys.
  - intros c I. simpl in *. apply empty_data_get; auto.
  - apply fresh_s_inv; auto.
  - apply fresh_e_inv; auto.
Qed.

(** *** Ingestion *)

Lemma chunk_concat n : (0 < n)%nat -> forall (frames : list (row (S:=S))) fuel,
  Forall (fun f => List.length f = n) frames ->
  (List.length (concat frames) <= fuel)%nat ->
  chunk fuel n (concat frames) = frames.
Proof.
  intros Hn frames. induction frames as [|f r IH]; intros fuel F L.
  - simpl. destruct fuel; auto.
  - inversion F as [|? ? Hf Fr]; subst. simpl in *. rewrite app_length in L.
    destruct fuel as [|fuel]; [lia|].
    destruct f as [|x f]; [simpl in *; lia|]. cbn [app].
    change (chunk (Datatypes.S fuel) (List.length (x :: f)) (x :: f ++ concat r)) with
      (firstn (List.length (x :: f)) ((x :: f) ++ concat r)
        :: chunk fuel (List.length (x :: f)) (skipn (List.length (x :: f)) ((x :: f) ++ concat r))).
    rewrite firstn_app, firstn_all, Nat.sub_diag, app_nil_r.
    rewrite skipn_app, skipn_all, Nat.sub_diag, app_nil_l.
    simpl skipn. f_equal. apply IH; auto. simpl in L. lia.
Qed.

Lemma concat_length_uniform n (frames : list (row (S:=S))) :
  Forall (fun f => List.length f = n) frames ->
  List.length (concat frames) = (List.length frames * n)%nat.
Proof. induction 1; simpl; auto. rewrite app_length. lia. Qed.

Lemma ingest_ok c (frames : list row) :
  (0 < c_rowsize c)%nat -> Forall (fun f => List.length f = c_rowsize c) frames ->
  ingest c frames = Ok (map (map (c_cast c)) frames).
Proof.
  intros Hn F. unfold ingest.
  replace (forallb _ frames) with true.
  2:{ symmetry. apply forallb_forall. intros f I. apply Nat.eqb_eq.
      rewrite Forall_forall in F. rewrite (F f I).
      destruct frames as [|g r]; [destruct I|]. simpl. rewrite (F g); simpl; auto. }
  simpl. destruct (Nat.eqb_spec (c_rowsize c) 0) as [E|_]; [lia|].
  rewrite map_length, (concat_length_uniform F).
  rewrite Nat.mod_mul by lia. simpl. f_equal.
  rewrite concat_map. apply chunk_concat; auto.
  - apply Forall_forall. intros f I. apply in_map_iff in I as (g & <- & I).
    rewrite map_length. rewrite Forall_forall in F. auto.
  - rewrite <- concat_map, map_length, (concat_length_uniform F). lia.
Qed.

(** *** Writing the columns of a sequence *)

Lemma write_columns_spec cols seq : forall data id,
  NoDup (map (@c_name S) cols) ->
  (forall c, In c (storage_cols cols) -> (0 < c_rowsize c)%nat) ->
  NoDup (dkeys seq) ->
  (forall n, In n (dkeys seq) -> In n (map c_name (storage_cols cols))) ->
  (forall c frames, In c (storage_cols cols) -> dget seq (c_name c) = Some frames ->
     Forall (fun f => List.length f = c_rowsize c) frames) ->
  (forall n, In n (map c_name (storage_cols cols)) -> In n (dkeys data)) ->
  exists data', write_columns cols data id seq = (data', Ok tt) /\
    dkeys data' = dkeys data /\
    (forall c store, In c (storage_cols cols) -> dget data (c_name c) = Some store ->
       dget data' (c_name c) =
         Some (match dget seq (c_name c) with
               | Some frames => dset store id (map (map (c_cast c)) frames)
               | None => store end)).
Proof.
  induction seq as [|[name frames] r IH]; intros data id ND Hr NDs Hk Hf Hd.
  - eexists; split; [reflexivity|]. split; auto.
  - simpl in *. inversion NDs as [|? ? Hn NDr]; subst.
    assert (Hin : In name (map c_name (storage_cols cols))) by (apply Hk; auto).
    apply in_map_iff in Hin as (c & Ec & Ic). subst name.
    apply storage_In in Ic as Ic'. destruct Ic' as [Ic1 Ic2].
    rewrite (find_col_In cols _ ND Ic1).
    rewrite ingest_ok; [|apply Hr; auto|apply Hf; auto; rewrite String.eqb_refl; auto].
    rewrite Ic2.
    destruct (dget_key data (c_name c)) as [st Est].
    { apply Hd. apply in_map; auto. }
    rewrite Est.
    destruct (IH (dset data (c_name c) (dset st id (map (map (c_cast c)) frames))) id)
      as (data' & E & K & G); auto.
    { intros d fr Id Gd. apply Hf; auto.
      destruct (String.eqb_spec (c_name d) (c_name c)) as [Edc|N]; auto.
      exfalso. apply Hn. rewrite <- Edc. eapply dget_Some_key; eauto. }
    { intros n I. apply In_dkeys_dset. right; auto. }
    exists data'. split; auto. split.
    + rewrite K. apply dkeys_dset_mem. eapply dget_Some_key; eauto.
    + intros d store Id Gd.
      destruct (String.eqb_spec (c_name d) (c_name c)) as [Edc|N].
      * rewrite Edc in *. rewrite Est in Gd. inversion Gd; subst store.
        assert (d = c) as ->.
        { apply storage_In in Id as [Id _].
          pose proof (find_col_In cols _ ND Id) as F1. pose proof (find_col_In cols _ ND Ic1) as F2.
          rewrite Edc in F1. congruence. }
        rewrite (G c (dset st id (map (map (c_cast c)) frames))); auto.
        -- destruct (dget r (c_name c)) eqn:Er; auto.
           exfalso. apply Hn. eapply dget_Some_key; eauto.
        -- apply dget_dset_eq.
      * apply G; auto. rewrite dget_dset_neq; auto.
Qed.

(** *** Deleting a sequence everywhere *)

Lemma del_all_spec data id :
  Forall (fun kv => In id (dkeys (snd kv))) data ->
  del_all (S:=S) data id = (map (fun kv => (fst kv, ddel (snd kv) id)) data, Ok tt).
Proof.
  induction 1 as [|[n st] r Hx Hr IH]; simpl; auto.
  rewrite (proj2 (dmem_In st id) Hx), IH. auto.
Qed.

Lemma dkeys_of_holds t B c st : holds t B -> In c (storage_cols (t_cols t)) ->
  dget (t_data t) (c_name c) = Some st -> dkeys st = map fst B.
Proof.
  intros Hh I G. rewrite (Hh c I) in G. inversion G; subst.
  unfold dkeys. rewrite map_map. auto.
Qed.

Lemma Inv_stores t B : Inv t B ->
  Forall (fun kv => dkeys (snd kv) = map fst B) (t_data t).
Proof.
  intros I. apply Forall_forall. intros [n st] In1. simpl.
  assert (ND : NoDup (dkeys (t_data t))).
  { rewrite (inv_names I). apply storage_nodup, (co_names (inv_cfg I)). }
  pose proof (In_dget _ _ _ ND In1) as G.
  assert (In n (map c_name (storage_cols (t_cols t)))) as Hn.
  { rewrite <- (inv_names I). eapply dget_Some_key; eauto. }
  apply in_map_iff in Hn as (c & <- & Ic).
  eapply dkeys_of_holds; eauto. apply (inv_holds I).
Qed.

Definition drop (id : Z) (B : buffer S) : buffer S :=
  filter (fun e => negb (id =? fst e)) B.

Lemma ddel_map_drop {V} (f : sequence S -> V) id B : NoDup (map fst B) ->
  ddel (map (fun e => (fst e, f (snd e))) B) id =
  map (fun e => (fst e, f (snd e))) (drop id B).
Proof.
  intros ND. rewrite ddel_filter by (unfold dkeys; rewrite map_map; auto).
  unfold drop. apply map_filter_fst with (f := fun e => f (snd e)) (g := fun k => negb (id =? k)).
Qed.

Lemma total_drop lk id B len : NoDup (map fst B) ->
  dget (lens_of lk B) id = Some len -> total_len lk (drop id B) = total_len lk B - len.
Proof.
  unfold total_len, drop. induction B as [|[k s] r IH]; simpl; [discriminate|].
  intros ND; inversion ND; subst.
  destruct (Z.eqb_spec id k) as [->|N]; simpl.
  - intros E; inversion E; subst.
    rewrite filter_all; [lia|].
    intros [k' s'] I. simpl. apply negb_true_iff, Z.eqb_neq. intros ->.
    match goal with Hn : ~ In _ _ |- _ => apply Hn end.
    apply in_map_iff. exists (k', s'); auto.
  - intros E. rewrite IH by auto. lia.
Qed.

Lemma eject_one_inv t B id : Inv t B -> In id (map fst B) ->
  exists t', eject_one t id = (t', Ok tt) /\ Inv t' (drop id B) /\
    t_cols t' = t_cols t /\ t_lenkey t' = t_lenkey t /\ t_maxlen t' = t_maxlen t /\
    t_filled t' = t_filled t.
Proof.
  intros I Hid. unfold eject_one.
  rewrite del_all_spec.
  2:{ eapply Forall_impl; [|apply (Inv_stores I)]. intros kv E. simpl in E. rewrite E. auto. }
  simpl. rewrite (inv_lengths I).
  destruct (dget_key (lens_of (t_lenkey t) B) id) as [len Gl].
  { rewrite dkeys_lens_of; auto. }
  rewrite Gl.
  destruct (@s_inv_forget (t_sampler t) (lens_of (t_lenkey t) B) id) as (s' & Es & Is).
  { apply (inv_sampler I). } { rewrite dkeys_lens_of; auto. }
  rewrite Es. simpl.
  destruct (@e_inv_forget (t_ejector t) (lens_of (t_lenkey t) B) id) as (e' & Ee & Ie).
  { apply (inv_ejector I). } { rewrite dkeys_lens_of; auto. }
  rewrite Ee.
  eexists; split; [reflexivity|].
  assert (ND := inv_nodup I).
  assert (Ed : ddel (lens_of (t_lenkey t) B) id = lens_of (t_lenkey t) (drop id B)).
  { unfold lens_of. apply ddel_map_drop; auto. }
  split; [|simpl; auto 10].
  constructor; simpl.
  - apply (inv_cfg I).
  - apply NoDup_map_filter; auto.
  - unfold dkeys. rewrite map_map. simpl. apply (inv_names I).
  - intros c Ic. simpl in *. rewrite (dget_map_val (fun st => ddel st id)), (inv_holds I c Ic). simpl. f_equal.
    apply ddel_map_drop; auto.
  - auto.
  - rewrite (inv_total I). symmetry. apply total_drop; auto.
  - rewrite <- Ed; auto.
  - rewrite <- Ed; auto.
Qed.

Definition drop_all (ids : list Z) (B : buffer S) : buffer S :=
  filter (fun e => negb (inb (fst e) ids)) B.

Lemma drop_all_cons id r B : drop_all r (drop id B) = drop_all (id :: r) B.
Proof.
  unfold drop_all, drop. induction B as [|[k s] B IH]; simpl; auto.
  rewrite (Z.eqb_sym id k). destruct (Z.eqb_spec k id); simpl; [|destruct (inb k r)]; simpl; rewrite ?IH; auto.
Qed.

Lemma eject_all_inv ids : forall t B, Inv t B -> NoDup ids ->
  (forall x, In x ids -> In x (map fst B)) ->
  exists t', eject_all t ids = (t', Ok tt) /\ Inv t' (drop_all ids B) /\
    t_cols t' = t_cols t /\ t_lenkey t' = t_lenkey t /\ t_maxlen t' = t_maxlen t /\
    t_filled t' = t_filled t.
Proof.
  induction ids as [|id r IH]; intros t B I ND Sub; simpl.
  - eexists; split; [reflexivity|]. split; auto 10.
    unfold drop_all. rewrite filter_all; auto.
  - inversion ND; subst.
    destruct (@eject_one_inv t B id I) as (t1 & -> & I1 & E1 & E2 & E3 & E4);
      [apply Sub; simpl; auto|].
    destruct (IH t1 (drop id B)) as (t' & -> & I' & F1 & F2 & F3 & F4); auto.
    { intros x Ix. specialize (Sub x (or_intror Ix)).
      apply in_map_iff in Sub as ([k s] & <- & Ie). apply in_map_iff. exists (k, s); split; auto.
      apply filter_In. split; auto. simpl. apply negb_true_iff, Z.eqb_neq. simpl in Ix. congruence. }
    rewrite drop_all_cons in I'.
    eexists; split; [reflexivity|]. split; auto. rewrite F1, F2, F3, F4; auto.
Qed.

Lemma total_drop_all lk ids : forall B, NoDup (map fst B) -> NoDup ids ->
  (forall x, In x ids -> In x (map fst B)) ->
  total_len lk (drop_all ids B) = total_len lk B - zsum (map (len_of (lens_of lk B)) ids).
Proof.
  induction ids as [|id r IH]; intros B ND NDi Sub.
  - unfold drop_all. rewrite filter_all by auto. cbn. lia.
  - inversion NDi; subst. rewrite <- drop_all_cons.
    destruct (dget_key (lens_of lk B) id) as [len G].
    { rewrite dkeys_lens_of. apply Sub; simpl; auto. }
    rewrite IH; auto.
    + rewrite (total_drop lk id B ND G).
      cbn [map]. unfold zsum at 2. cbn [fold_right].
      unfold len_of at 2, dget_default. rewrite G.
      replace (map (len_of (lens_of lk (drop id B))) r) with (map (len_of (lens_of lk B)) r).
      { unfold zsum. lia. }
      apply map_ext_in. intros x Ix. unfold len_of, dget_default.
      replace (lens_of lk (drop id B)) with (ddel (lens_of lk B) id)
        by (unfold lens_of; apply ddel_map_drop; auto).
      rewrite dget_ddel_neq; auto. intros ->; auto.
    + apply NoDup_map_filter; auto.
    + intros x Ix. specialize (Sub x (or_intror Ix)).
      apply in_map_iff in Sub as ([k s] & <- & Ie). apply in_map_iff. exists (k, s); split; auto.
      apply filter_In. split; auto. simpl. apply negb_true_iff, Z.eqb_neq. simpl in Ix. congruence.
Qed.

(** *** Adding *)

Lemma Inv_with_filled t B b : Inv t B -> Inv (with_filled t b) B.
Proof. intros [H1 H2 H3 H4 H5 H6 H7 H8]. constructor; auto. Qed.
Lemma Inv_with_ejector t B e : Inv t B -> e_inv e (lens_of (t_lenkey t) B) ->
  Inv (with_ejector t e) B.
Proof. intros [H1 H2 H3 H4 H5 H6 H7 H8] Ie. constructor; auto. Qed.
Lemma Inv_with_sampler t B s : Inv t B -> s_inv s (lens_of (t_lenkey t) B) ->
  Inv (with_sampler t s) B.
Proof. intros [H1 H2 H3 H4 H5 H6 H7 H8] Ie. constructor; auto. Qed.
Lemma Inv_with_temp t B d : Inv t B -> Inv (with_temp t d) B.
Proof. intros [H1 H2 H3 H4 H5 H6 H7 H8]. constructor; auto. Qed.
Lemma Inv_with_maxlen t B d : Inv t B -> Inv (with_maxlen t d) B.
Proof. intros [H1 H2 H3 H4 H5 H6 H7 H8]. constructor; auto. Qed.

Lemma eject_count_inv t B count draws : Inv t B ->
  (exists t' e, eject_count t count draws = (t', Err e) /\ Inv t' B /\
     snd (e_sample (t_ejector t) count draws) = Err e /\
     t_cols t' = t_cols t /\ t_lenkey t' = t_lenkey t /\ t_maxlen t' = t_maxlen t /\
     t_filled t' = true) \/
  (exists t' ids, eject_count t count draws = (t', Ok tt) /\ Inv t' (drop_all ids B) /\
     snd (e_sample (t_ejector t) count draws) = Ok ids /\
     NoDup ids /\ (forall x, In x ids -> In x (map fst B)) /\
     count <= zsum (map (len_of (lens_of (t_lenkey t) B)) ids) /\
     t_cols t' = t_cols t /\ t_lenkey t' = t_lenkey t /\ t_maxlen t' = t_maxlen t /\
     t_filled t' = true).
Proof.
  intros I. unfold eject_count. simpl.
  destruct (@e_sample_spec (t_ejector t) (lens_of (t_lenkey t) B) count draws) as [Ie Hl].
  { apply (inv_ejector I). } { rewrite dkeys_lens_of. apply (inv_nodup I). }
  destruct (e_sample (t_ejector t) count draws) as [ej [ids|e]] eqn:Es; simpl in *.
  - right. destruct (Hl ids eq_refl) as (N1 & N2 & N3).
    rewrite dkeys_lens_of in N2.
    destruct (@eject_all_inv ids (with_ejector (with_filled t true) ej) B)
      as (t' & -> & I' & F1 & F2 & F3 & F4); auto.
    { apply Inv_with_ejector; auto. apply Inv_with_filled; auto. }
    exists t', ids. simpl in *. auto 15.
  - left. eexists _, e. split; [reflexivity|]. split.
    { apply Inv_with_ejector; auto. apply Inv_with_filled; auto. }
    simpl. auto 10.
Qed.

Lemma seq_ok_frames cols lk (s : sequence S) : config_ok cols lk -> seq_ok cols s ->
  exists frames, dget s lk = Some frames /\ seq_len lk s = zlen frames.
Proof.
  intros C (_ & Hk & _). destruct (co_lenkey C) as (c & Ic & <- & Bc).
  destruct (dget_key s (c_name c)) as [fr E].
  { apply Hk. apply in_map. apply storage_In. split; auto.
    unfold is_virtual. rewrite Bc. auto. }
  exists fr. split; auto. unfold seq_len. rewrite E. auto.
Qed.

(** The part of add_sequence after a possible ejection. *)
Lemma add_tail_inv t B id s : Inv t B -> ~ In id (map fst B) -> seq_ok (t_cols t) s ->
  exists d s' e',
    write_columns (t_cols t) (t_data t) id s = (d, Ok tt) /\
    s_track (t_sampler t) id (seq_len (t_lenkey t) s) = (s', Ok tt) /\
    e_track (t_ejector t) id (seq_len (t_lenkey t) s) = (e', Ok tt) /\
    Inv (with_ejector (with_sampler
          (with_lengths (with_data t d) (dset (t_lengths t) id (seq_len (t_lenkey t) s))
                        (t_total t + seq_len (t_lenkey t) s)) s') e') (B ++ [(id, s)]).
Proof.
  intros I Nid (Sd & Sk & Sf).
  destruct (@write_columns_spec (t_cols t) s (t_data t) id) as (d & Ed & Kd & Gd); auto.
  { apply (co_names (inv_cfg I)). } { apply (co_rows (inv_cfg I)). }
  { intros n. apply Sk. } { intros n Hn. rewrite (inv_names I). auto. }
  destruct (@s_inv_track (t_sampler t) (lens_of (t_lenkey t) B) id (seq_len (t_lenkey t) s))
    as (s' & Es & Is). { apply (inv_sampler I). } { rewrite dkeys_lens_of; auto. }
  destruct (@e_inv_track (t_ejector t) (lens_of (t_lenkey t) B) id (seq_len (t_lenkey t) s))
    as (e' & Ee & Ie). { apply (inv_ejector I). } { rewrite dkeys_lens_of; auto. }
  exists d, s', e'. split; auto. split; auto. split; auto.
  assert (El : lens_of (t_lenkey t) (B ++ [(id, s)]) =
               lens_of (t_lenkey t) B ++ [(id, seq_len (t_lenkey t) s)]).
  { unfold lens_of. rewrite map_app. auto. }
  constructor; simpl.
  - apply (inv_cfg I).
  - rewrite map_app. simpl. apply NoDup_Add with (a := id) (l := map fst B).
    + replace (map fst B) with (map fst B ++ []) at 1 by apply app_nil_r. apply Add_app.
    + split; auto. apply (inv_nodup I).
  - rewrite Kd. apply (inv_names I).
  - intros c Ic. simpl in *. rewrite (Gd c _ Ic (inv_holds I c Ic)). f_equal.
    rewrite map_app. simpl.
    destruct (dget_key s (c_name c)) as [fr Ef]. { apply Sk. apply in_map; auto. }
    replace (column_data c s) with (map (map (c_cast c)) fr)
      by (unfold column_data; unfold row in *; rewrite Ef; auto).
    unfold row in *; rewrite Ef. apply dset_fresh. unfold dkeys. rewrite map_map. auto.
  - rewrite El, (inv_lengths I). apply dset_fresh. rewrite dkeys_lens_of. auto.
  - unfold total_len. rewrite map_app, zsum_app. cbn. rewrite (inv_total I). unfold total_len. lia.
  - rewrite El. auto.
  - rewrite El. auto.
Qed.

Lemma add_sequence_inv t B id s draws :
  Inv t B -> ~ In (wrap_id id) (map fst B) -> seq_ok (t_cols t) s ->
  let need := t_size t + seq_len (t_lenkey t) s - t_maxlen t in
  (exists t' e, add_sequence t id s draws = (t', Err e) /\ Inv t' B /\ 0 < need /\
     snd (e_sample (t_ejector t) need draws) = Err e /\
     t_cols t' = t_cols t /\ t_lenkey t' = t_lenkey t /\ t_maxlen t' = t_maxlen t /\
     t_filled t' = true) \/
  (exists t' ids, add_sequence t id s draws = (t', Ok tt) /\
     Inv t' (drop_all ids B ++ [(wrap_id id, s)]) /\
     NoDup ids /\ (forall x, In x ids -> In x (map fst B)) /\
     (if 0 <? need then snd (e_sample (t_ejector t) need draws) = Ok ids else ids = []) /\
     need <= zsum (map (len_of (lens_of (t_lenkey t) B)) ids) /\
     t_cols t' = t_cols t /\ t_lenkey t' = t_lenkey t /\ t_maxlen t' = t_maxlen t /\
     t_filled t' = (0 <? need) || t_filled t).
Proof.
  intros I Nid So need. unfold add_sequence.
  destruct (seq_ok_frames (inv_cfg I) So) as (fr & Ef & El). rewrite Ef, <- El.
  destruct (Z.ltb_spec (t_maxlen t) (t_size t + seq_len (t_lenkey t) s)) as [Hlt|Hge].
  - replace (t_size t + seq_len (t_lenkey t) s - t_maxlen t) with need by reflexivity.
    destruct (Z.ltb_spec 0 need) as [Hn|Hn]; [|unfold need in Hn; lia].
    destruct (@eject_count_inv t B need draws I) as
      [(t1 & e & E & I1 & Hs & F1 & F2 & F3 & F4)|
       (t1 & ids & E & I1 & Hs & N1 & N2 & N3 & F1 & F2 & F3 & F4)]; rewrite E.
    + left. exists t1, e. auto 15.
    + right.
      destruct (@add_tail_inv t1 (drop_all ids B) (wrap_id id) s I1) as (d & s' & e' & A1 & A2 & A3 & A4).
      { intros Hin. apply Nid. apply in_map_iff in Hin as (x & Ex & Ix).
        apply filter_In in Ix as [Ix _]. rewrite <- Ex. apply in_map; auto. }
      { rewrite F1; auto. }
      rewrite A1. simpl. rewrite F2 in A2, A3, A4. rewrite A2. simpl. rewrite A3.
      eexists _, ids. split; [reflexivity|]. split; [exact A4|]. simpl.
      rewrite F4. auto 15.
  - right.
    destruct (Z.ltb_spec 0 need) as [Hn|Hn]; [unfold need in Hn; lia|].
    destruct (@add_tail_inv t B (wrap_id id) s I Nid So) as (d & s' & e' & A1 & A2 & A3 & A4).
    rewrite A1. simpl. rewrite A2. simpl. rewrite A3.
    eexists _, []. split; [reflexivity|]. split.
    { unfold drop_all. rewrite filter_all by auto. exact A4. }
    split; [constructor|]. split; [intros x []|]. split; auto 10.
Qed.

(** *** The other operations keep everything *)

Lemma gather_cols_frame cols : forall t count n pts,
  exists d, fst (gather_cols t count n pts cols) = with_temp t d.
Proof.
  induction cols as [|c r IH]; intros t count n pts; simpl.
  - exists (t_temp t). destruct t; auto.
  - destruct (gather_points _ _ _ _ _ _) as [out|e]; simpl.
    + match goal with |- context [gather_cols ?t1 count n pts r] =>
        destruct (IH t1 count n pts) as [d Ed]; destruct (gather_cols t1 count n pts r) as [t2 [x|e]] end;
      simpl in *; subst; exists d; auto.
    + exists (t_temp t). destruct t; auto.
Qed.

Lemma t_sample_frame t count n draws :
  exists d, fst (t_sample t count n draws) =
    with_temp (with_sampler t (fst (s_sample (t_sampler t) count (Z.of_nat n) draws))) d.
Proof.
  unfold t_sample. destruct (s_sample (t_sampler t) count (Z.of_nat n) draws) as [s [pts|e]]; simpl.
  - apply gather_cols_frame.
  - exists (t_temp t). auto.
Qed.

Lemma t_sample_inv t B count n draws : Inv t B -> Inv (fst (t_sample t count n draws)) B.
Proof.
  intros I. destruct (t_sample_frame t count n draws) as [d ->].
  apply Inv_with_temp, Inv_with_sampler; auto. apply s_inv_sample, (inv_sampler I).
Qed.
End Inv.
