(** * MemRun: histories of operations (C01 - C07). *)
From Verif Require Import Py PyLemmas MemModel MemSpec MemProofs.
Open Scope Z_scope.
Set Implicit Arguments.

Section Run.
Context {S : Type} `{Scalar S}.
Implicit Types (t : table S) (B b : buffer S) (c : column S) (ops : list (op S)).

Lemma seq_len_nonneg lk (s : sequence S) : 0 <= seq_len lk s.
Proof. unfold seq_len. destruct (dget s lk); [apply zlen_nonneg|lia]. Qed.

Lemma total_len_app lk B B' : total_len (S:=S) lk (B ++ B') = total_len lk B + total_len lk B'.
Proof. unfold total_len. rewrite map_app, zsum_app. auto. Qed.

Lemma total_len_cons lk e B : total_len (S:=S) lk (e :: B) = seq_len lk (snd e) + total_len lk B.
Proof. reflexivity. Qed.

Lemma total_len_nonneg lk B : 0 <= total_len (S:=S) lk B.
Proof.
  unfold total_len. apply zsum_nonneg. apply Forall_forall. intros x I.
  apply in_map_iff in I as (e & <- & _). apply seq_len_nonneg.
Qed.

Lemma total_len_sublist lk B B' : sublist B B' -> total_len (S:=S) lk B <= total_len lk B'.
Proof.
  induction 1; rewrite ?total_len_cons; try lia.
  pose proof (seq_len_nonneg lk (snd x)). lia.
Qed.

Lemma column_data_seq_len c (s : sequence S) : zlen (column_data c s) = seq_len (c_name c) s.
Proof.
  unfold column_data, seq_len, zlen.
  destruct (dget s (c_name c)); cbn; auto. rewrite map_length. auto.
Qed.

Lemma Inv_stored_rows t B : Inv t B -> t_size t = stored_rows t.
Proof.
  intros I. unfold t_size, stored_rows. rewrite (inv_total I).
  destruct (co_lenkey (inv_cfg I)) as (c & Ic & En & Bc).
  assert (Is : In c (storage_cols (t_cols t))).
  { apply storage_In. split; auto. unfold is_virtual. rewrite Bc. auto. }
  rewrite <- En, (inv_holds I c Is). unfold total_len. rewrite map_map. simpl.
  f_equal. apply map_ext. intros e. symmetry. apply column_data_seq_len.
Qed.

(** One well-behaved operation. *)
Definition op_ok (cols : list (column S)) (B : buffer S) (o : op S) : Prop :=
  match o with
  | OAdd id s _ => seq_ok cols s /\ ~ In (wrap_id id) (map fst B)
  | OClear => False
  | _ => True
  end.

Lemma step_inv t B o : Inv t B -> op_ok (t_cols t) B o ->
  exists B', Inv (step t o) B' /\ sublist B' (B ++ adds [o]) /\
    t_cols (step t o) = t_cols t /\ t_lenkey (step t o) = t_lenkey t /\
    t_maxlen t <= t_maxlen (step t o) /\
    (t_size t <= t_maxlen t -> t_size (step t o) <= t_maxlen (step t o)).
Proof.
  intros I Ho. destruct o as [id s dr|c n dr|n| | |]; simpl in Ho; try tauto.
  - destruct Ho as [So Nid].
    destruct (@add_sequence_inv S t B id s dr I Nid So) as
      [(t' & e & E & I' & _ & _ & F1 & F2 & F3 & _)|
       (t' & ids & E & I' & N1 & N2 & _ & N3 & F1 & F2 & F3 & _)]; simpl; rewrite E; simpl.
    + exists B. split; auto. split.
      { rewrite <- (app_nil_r B) at 1. apply sublist_app; [apply sublist_refl|]. repeat constructor. }
      repeat split; auto; try lia.
      unfold t_size. rewrite (inv_total I), (inv_total I'), F2, F3. auto.
    + exists (drop_all ids B ++ [(wrap_id id, s)]). split; auto. split.
      { apply sublist_app; [apply sublist_filter|apply sublist_refl]. }
      repeat split; auto; try lia. intros _.
      unfold t_size. rewrite (inv_total I'), F2, F3, total_len_app.
      rewrite total_drop_all; auto; [|apply (inv_nodup I)].
      unfold t_size in N3. rewrite (inv_total I) in N3.
      unfold total_len at 2. cbn. lia.
  - exists B. simpl. destruct (t_sample_frame t c n dr) as [d Ed].
    pose proof (t_sample_inv c n dr I) as I'. simpl in Ed. rewrite app_nil_r.
    split; auto. split; [apply sublist_refl|].
    rewrite Ed. simpl. unfold t_size. simpl. repeat split; auto; lia.
  - exists B. simpl. unfold t_resize. rewrite app_nil_r.
    destruct (Z.ltb_spec n (t_maxlen t)); simpl.
    + split; auto. split; [apply sublist_refl|]. repeat split; auto; lia.
    + split; [apply Inv_with_maxlen; auto|]. split; [apply sublist_refl|].
      unfold t_size; simpl. repeat split; auto; lia.
  - exists B. simpl. rewrite app_nil_r. split; auto. split; [apply sublist_refl|].
    repeat split; auto; lia.
  - exists B. simpl. rewrite app_nil_r. split; auto. split; [apply sublist_refl|].
    repeat split; auto; lia.
Qed.

Lemma adds_app ops ops' : adds (ops ++ ops') = adds ops ++ adds ops'.
Proof.
  induction ops as [|o r IH]; simpl; auto.
  destruct o; simpl; rewrite ?IH; auto.
Qed.

Lemma run_inv ops : forall t B, Inv t B ->
  Forall no_clear ops ->
  Forall (fun e => seq_ok (t_cols t) (snd e)) (adds ops) ->
  NoDup (map fst (B ++ adds ops)) ->
  exists B', Inv (run t ops) B' /\ sublist B' (B ++ adds ops) /\
    t_cols (run t ops) = t_cols t /\ t_lenkey (run t ops) = t_lenkey t /\
    t_maxlen t <= t_maxlen (run t ops) /\
    (t_size t <= t_maxlen t -> t_size (run t ops) <= t_maxlen (run t ops)).
Proof.
  induction ops as [|o r IH]; intros t B I Nc So ND.
  - exists B. simpl. rewrite app_nil_r. split; auto. split; [apply sublist_refl|].
    repeat split; auto; lia.
  - inversion Nc as [|? ? Nc1 Nc2]; subst.
    assert (Ea : adds (o :: r) = adds [o] ++ adds r) by (apply (adds_app [o] r)).
    rewrite Ea in So, ND. apply Forall_app in So as [So1 So2].
    assert (Ho : op_ok (t_cols t) B o).
    { destruct o; simpl; auto.
      split; [inversion So1; auto|]. simpl in ND. rewrite map_app in ND.
      intros In1. apply NoDup_remove_2 in ND. apply ND. apply in_or_app; auto. }
    destruct (@step_inv t B o I Ho) as (B1 & I1 & S1 & F1 & F2 & F3 & F4).
    destruct (IH (step t o) B1 I1 Nc2) as (B2 & I2 & S2 & G1 & G2 & G3 & G4).
    { rewrite F1; auto. }
    { eapply sublist_NoDup; [|exact ND]. apply sublist_map. rewrite app_assoc.
      apply sublist_app; [auto|apply sublist_refl]. }
    exists B2. change (run t (o :: r)) with (run (step t o) r). split; auto. split.
    { eapply sublist_trans; [exact S2|]. rewrite Ea, app_assoc. apply sublist_app; auto.
      apply sublist_refl. }
    rewrite G1, G2, F1, F2. repeat split; auto; lia.
Qed.

Lemma run_create cols lk maxlen s e ops :
  config_ok cols lk -> fresh_sampler s -> fresh_ejector e -> client_ok cols ops ->
  exists B, Inv (run (t_create cols lk maxlen s e) ops) B /\ sublist B (adds ops) /\
    t_cols (run (t_create cols lk maxlen s e) ops) = cols /\
    t_lenkey (run (t_create cols lk maxlen s e) ops) = lk /\
    maxlen <= t_maxlen (run (t_create cols lk maxlen s e) ops) /\
    (0 <= maxlen -> t_size (run (t_create cols lk maxlen s e) ops) <=
                    t_maxlen (run (t_create cols lk maxlen s e) ops)).
Proof.
  intros C Fs Fe (C1 & C2 & C3).
  destruct (@run_inv ops (t_create cols lk maxlen s e) [] (Inv_create maxlen C Fs Fe) C1 C2 C3)
    as (B & I & Sb & F1 & F2 & F3 & F4).
  exists B. simpl in *. auto 10.
Qed.

(** ** C01 *)
Lemma size_exact cols lk maxlen s e ops :
  config_ok cols lk -> fresh_sampler s -> fresh_ejector e -> 0 <= maxlen ->
  client_ok cols ops ->
  let t := run (t_create cols lk maxlen s e) ops in
  exists b, holds t b /\ sublist b (adds ops) /\ t_size t = total_len lk b /\
    t_size t = stored_rows t /\ 0 <= t_size t <= t_maxlen t.
Proof.
  intros C Fs Fe Hm Co t.
  destruct (run_create maxlen C Fs Fe Co) as (B & I & Sb & F1 & F2 & F3 & F4). fold t in I, F1, F2, F3, F4.
  exists B. split; [apply (inv_holds I)|]. split; auto. split.
  { unfold t_size. rewrite (inv_total I), F2; auto. }
  split; [apply (Inv_stored_rows I)|]. split; [|apply F4; auto].
  unfold t_size. rewrite (inv_total I). apply total_len_nonneg.
Qed.

(** ** C03 *)
Lemma add_frame cols lk maxlen s e ops id sq dr :
  config_ok cols lk -> fresh_sampler s -> fresh_ejector e ->
  client_ok cols (ops ++ [OAdd id sq dr]) ->
  let t := run (t_create cols lk maxlen s e) ops in
  let t' := fst (add_sequence t id sq dr) in
  exists b, holds t b /\ t_size t = total_len lk b /\
    match snd (add_sequence t id sq dr) with
    | Err _ => holds t' b /\ t_size t' = t_size t
    | Ok _ => exists kept, sublist kept b /\ holds t' (kept ++ [(wrap_id id, sq)]) /\
                t_size t' = total_len lk kept + seq_len lk sq /\
                t_size t' <= t_maxlen t /\
                (t_size t + seq_len lk sq <= t_maxlen t -> kept = b)
    end.
Proof.
  intros C Fs Fe (C1 & C2 & C3) t t'.
  rewrite adds_app in C2, C3. simpl in C2, C3.
  apply Forall_app in C1 as [C1 _]. apply Forall_app in C2 as [C2 C2'].
  assert (ND : NoDup (map fst (adds ops))).
  { eapply sublist_NoDup; [|exact C3]. apply sublist_map. rewrite <- (app_nil_r (adds ops)) at 1.
    apply sublist_app; [apply sublist_refl|repeat constructor]. }
  destruct (run_create maxlen C Fs Fe (conj C1 (conj C2 ND))) as (B & I & Sb & F1 & F2 & F3 & F4).
  fold t in I, F1, F2, F3, F4.
  exists B. split; [apply (inv_holds I)|]. split. { unfold t_size. rewrite (inv_total I), F2; auto. }
  assert (Nid : ~ In (wrap_id id) (map fst B)).
  { intros In1. rewrite map_app in C3. simpl in C3. apply NoDup_remove_2 in C3. apply C3.
    rewrite app_nil_r. eapply sublist_In; [apply sublist_map; exact Sb|auto]. }
  assert (So : seq_ok (t_cols t) sq). { rewrite F1. inversion C2'; auto. }
  unfold t'.
  destruct (@add_sequence_inv S t B id sq dr I Nid So) as
      [(t1 & er & E & I' & _ & _ & G1 & G2 & G3 & _)|
       (t1 & ids & E & I' & N1 & N2 & Nk & N3 & G1 & G2 & G3 & _)]; rewrite E; simpl.
  - split; [apply (inv_holds I')|]. unfold t_size. rewrite (inv_total I), (inv_total I'), G2. auto.
  - exists (drop_all ids B). split; [apply sublist_filter|]. split; [apply (inv_holds I')|].
    assert (Et : t_size t1 = total_len lk (drop_all ids B) + seq_len lk sq).
    { unfold t_size. rewrite (inv_total I'), G2, F2, total_len_app. unfold total_len at 2. cbn. lia. }
    split; auto. split.
    + rewrite Et. rewrite total_drop_all; auto; [|apply (inv_nodup I)].
      unfold t_size in N3. rewrite (inv_total I), F2 in N3. lia.
    + intros Hfit. rewrite F2 in Nk.
      destruct (Z.ltb_spec 0 (t_size t + seq_len lk sq - t_maxlen t)); [lia|]. subst ids.
      unfold drop_all. apply filter_all. auto.
Qed.

(** ** C02: FIFO *)
Definition is_fifo (e : ejector) : Prop := match e with EFifo _ => True | _ => False end.

Lemma drop_all_prefix (l r : buffer S) : NoDup (map fst (l ++ r)) ->
  drop_all (map fst l) (l ++ r) = r.
Proof.
  intros ND. unfold drop_all. rewrite filter_app.
  replace (filter _ l) with (@nil (Z * sequence S)).
  - simpl. apply filter_all. intros [k s] I. apply negb_true_iff, inb_false. simpl. intros I2.
    rewrite map_app in ND. revert ND I I2. clear. induction (map fst l) as [|x xs IH]; simpl; [tauto|].
    intros ND I [->|I2]; inversion ND; subst; auto.
    match goal with Hn : ~ In _ _ |- _ => apply Hn end. apply in_or_app. right.
    apply in_map_iff. exists (k, s); auto.
  - symmetry.
    assert (G : forall l', (forall e, In e l' -> In (fst e) (map fst l)) ->
             filter (fun e => negb (inb (fst e) (map fst l))) l' = @nil (Z * sequence S)).
    { induction l' as [|x l' IH]; simpl; auto. intros Hs.
      rewrite (proj2 (inb_In (fst x) (map fst l))) by (apply Hs; auto). simpl. apply IH; auto. }
    apply G. intros e I. apply in_map; auto.
Qed.

Lemma fifo_loop_longest lk maxlen (x : Z * sequence S) (D : dict Z Z) :
  seq_len lk (snd x) <= maxlen ->
  forall B, (forall e, In e B -> dget D (fst e) = Some (seq_len lk (snd e))) ->
  exists l rest, B = l ++ rest /\
    fifo_eject_loop D (map fst B) (total_len lk (B ++ [x]) - maxlen) = Ok (map fst l) /\
    rest ++ [x] = longest_suffix lk maxlen (B ++ [x]).
Proof.
  intros Hx. induction B as [|e B IH]; intros Hd.
  - exists [], []. split; auto. cbn [app map fifo_eject_loop].
    assert (Et : total_len lk [x] = seq_len lk (snd x)) by (unfold total_len; cbn; lia).
    rewrite Et. destruct (Z.ltb_spec 0 (seq_len lk (snd x) - maxlen)); [lia|]. split; auto.
    cbn [longest_suffix]. rewrite Et. destruct (Z.leb_spec (seq_len lk (snd x)) maxlen); [auto|lia].
  - cbn [app map fifo_eject_loop longest_suffix].
    destruct (Z.ltb_spec 0 (total_len lk (e :: B ++ [x]) - maxlen)) as [Hlt|Hle].
    + rewrite Hd by (simpl; auto).
      destruct IH as (l & rest & -> & El & Er). { intros e' I'. apply Hd; simpl; auto. }
      exists (e :: l), rest. split; auto. split.
      * rewrite total_len_cons.
        replace (seq_len lk (snd e) + total_len lk ((l ++ rest) ++ [x]) - maxlen - seq_len lk (snd e))
          with (total_len lk ((l ++ rest) ++ [x]) - maxlen) by lia.
        rewrite El. auto.
      * destruct (Z.leb_spec (total_len lk (e :: (l ++ rest) ++ [x])) maxlen); [lia|]. auto.
    + exists [], (e :: B). split; auto. split; auto.
      destruct (Z.leb_spec (total_len lk (e :: B ++ [x])) maxlen); [auto|lia].
Qed.

Lemma fifo_loop_too_big lk (D : dict Z Z) : forall B count,
  (forall e, In e B -> dget D (fst e) = Some (seq_len lk (snd e))) ->
  total_len (S:=S) lk B < count -> fifo_eject_loop D (map fst B) count = Err IndexError.
Proof.
  induction B as [|e B IH]; intros count Hd Hc.
  - cbn. unfold total_len in Hc. cbn in Hc. destruct (Z.ltb_spec 0 count); [auto|lia].
  - cbn [map fifo_eject_loop]. rewrite total_len_cons in Hc.
    pose proof (seq_len_nonneg lk (snd e)). pose proof (total_len_nonneg lk B).
    destruct (Z.ltb_spec 0 count); [|lia]. rewrite Hd by (simpl; auto).
    rewrite IH; auto; [|lia]. intros e' I'. apply Hd; simpl; auto.
Qed.

Lemma dget_lens_of lk B e : NoDup (map fst B) -> In e B ->
  dget (lens_of (S:=S) lk B) (fst e) = Some (seq_len lk (snd e)).
Proof.
  intros ND I. apply In_dget; [rewrite dkeys_lens_of; auto|].
  unfold lens_of. apply in_map_iff. exists e; auto.
Qed.

Lemma is_fifo_eject_one t id : is_fifo (t_ejector t) -> is_fifo (t_ejector (fst (eject_one t id))).
Proof.
  intros F. unfold eject_one. destruct (del_all (t_data t) id) as [d [u|e]]; simpl; auto.
  destruct (dget (t_lengths t) id); simpl; auto.
  destruct (s_forget (t_sampler t) id) as [s [u'|e]]; simpl; auto.
  destruct (t_ejector t); simpl in *; tauto.
Qed.

Lemma is_fifo_eject_all ids : forall t, is_fifo (t_ejector t) ->
  is_fifo (t_ejector (fst (eject_all t ids))).
Proof.
  induction ids as [|id r IH]; intros t F; simpl; auto.
  pose proof (is_fifo_eject_one t id F) as F1. destruct (eject_one t id) as [t1 [u|e]]; simpl in *; auto.
Qed.

Lemma is_fifo_eject_count t n dr : is_fifo (t_ejector t) ->
  is_fifo (t_ejector (fst (eject_count t n dr))).
Proof.
  intros F. unfold eject_count. simpl. destruct (t_ejector t) as [f|w]; simpl in *; [|tauto].
  destruct (fifo_eject f n); simpl; auto. apply is_fifo_eject_all. simpl. auto.
Qed.

Lemma is_fifo_add t id s dr : is_fifo (t_ejector t) ->
  is_fifo (t_ejector (fst (add_sequence t id s dr))).
Proof.
  intros F. unfold add_sequence. destruct (dget s (t_lenkey t)) as [fr|]; simpl; auto.
  assert (F1 : is_fifo (t_ejector (fst (if t_maxlen t <? t_size t + zlen fr
     then eject_count t (t_size t + zlen fr - t_maxlen t) dr else (t, Ok tt))))).
  { destruct (t_maxlen t <? t_size t + zlen fr); simpl; auto. apply is_fifo_eject_count; auto. }
  destruct (if t_maxlen t <? t_size t + zlen fr then _ else _) as [t1 [u|e]]; simpl in *; auto.
  destruct (write_columns _ _ _ _) as [d [u'|e]]; simpl; auto.
  destruct (s_track _ _ _) as [s' [u''|e]]; simpl; auto.
  destruct (t_ejector t1); simpl in *; tauto.
Qed.

Lemma is_fifo_step t o : is_fifo (t_ejector t) -> is_fifo (t_ejector (step t o)).
Proof.
  intros F. destruct o; simpl; auto.
  - apply is_fifo_add; auto.
  - destruct (t_sample_frame t count n draws) as [d ->]. auto.
  - unfold t_resize. destruct (n <? t_maxlen t); auto.
Qed.

Lemma fifo_step t B o : Inv t B -> op_ok (t_cols t) B o -> is_fifo (t_ejector t) ->
  let sp := fifo_spec_step (t_lenkey t) (t_maxlen t, B) o in
  Inv (step t o) (snd sp) /\ t_maxlen (step t o) = fst sp /\
  t_cols (step t o) = t_cols t /\ t_lenkey (step t o) = t_lenkey t.
Proof.
  intros I Ho F. destruct o as [id s dr|c n dr|n| | |]; simpl in Ho; try tauto; simpl.
  - destruct Ho as [So Nid].
    assert (Hd : forall e, In e B -> dget (lens_of (t_lenkey t) B) (fst e) =
                                    Some (seq_len (t_lenkey t) (snd e))).
    { intros e Ie. apply dget_lens_of; auto. apply (inv_nodup I). }
    assert (Hsz : t_size t = total_len (t_lenkey t) B) by (apply (inv_total I)).
    assert (Hes : forall need, snd (e_sample (t_ejector t) need dr) =
                  fifo_eject_loop (lens_of (t_lenkey t) B) (map fst B) need).
    { intros need. pose proof (inv_ejector I) as Ie. destruct (t_ejector t) as [f|w]; simpl in *; [|tauto].
      destruct Ie as (E1 & E2 & _). unfold fifo_eject. rewrite E1, E2, dkeys_lens_of. auto. }
    assert (Happ : total_len (t_lenkey t) (B ++ [(wrap_id id, s)]) = total_len (t_lenkey t) B + seq_len (t_lenkey t) s).
    { rewrite total_len_app. unfold total_len at 2. cbn. lia. }
    destruct (@add_sequence_inv S t B id s dr I Nid So) as
      [(t' & e & E & I' & Hn & Hs & F1 & F2 & F3 & _)|
       (t' & ids & E & I' & N1 & N2 & Nk & N3 & F1 & F2 & F3 & _)]; rewrite E; simpl.
    + destruct (Z.leb_spec (seq_len (t_lenkey t) s) (t_maxlen t)) as [Hle|Hgt]; simpl; auto.
      exfalso. rewrite Hes in Hs.
      destruct (@fifo_loop_longest (t_lenkey t) (t_maxlen t) (wrap_id id, s) (lens_of (t_lenkey t) B) Hle B Hd) as (l & r & _ & El & _).
      rewrite Happ, <- Hsz in El. congruence.
    + rewrite Hes in Nk.
      destruct (Z.leb_spec (seq_len (t_lenkey t) s) (t_maxlen t)) as [Hle|Hgt]; simpl.
      * destruct (@fifo_loop_longest (t_lenkey t) (t_maxlen t) (wrap_id id, s) (lens_of (t_lenkey t) B) Hle B Hd) as (l & r & EB & El & Er).
        rewrite Happ, <- Hsz in El.
        rewrite <- Er. split; auto.
        replace r with (drop_all ids B); auto.
        destruct (Z.ltb_spec 0 (t_size t + seq_len (t_lenkey t) s - (t_maxlen t))) as [Hp|Hp].
        -- rewrite El in Nk. inversion Nk; subst ids. rewrite EB. apply drop_all_prefix.
           rewrite <- EB. apply (inv_nodup I).
        -- subst ids.
           assert (map fst l = []) as El'.
           { destruct (map fst B); simpl in El;
               destruct (Z.ltb_spec 0 (t_size t + seq_len (t_lenkey t) s - (t_maxlen t))); try lia; congruence. }
           apply map_eq_nil in El'. subst l. simpl in EB. subst r.
           unfold drop_all. apply filter_all; auto.
      * exfalso. destruct (Z.ltb_spec 0 (t_size t + seq_len (t_lenkey t) s - (t_maxlen t))) as [Hp|Hp].
        -- rewrite (@fifo_loop_too_big (t_lenkey t) (lens_of (t_lenkey t) B) B) in Nk; auto; [discriminate|lia].
        -- pose proof (total_len_nonneg (t_lenkey t) B). lia.
  - destruct (t_sample_frame t c n dr) as [d Ed].
    split; [apply t_sample_inv; auto|]. rewrite Ed. auto.
  - unfold t_resize. destruct (Z.ltb_spec n (t_maxlen t)); simpl.
    + split; auto. split; auto. lia.
    + split; [apply Inv_with_maxlen; auto|]. split; auto. lia.
  - auto.
  - auto.
Qed.

Lemma longest_suffix_spec lk maxlen (h : buffer S) :
  exists dropped, h = dropped ++ longest_suffix lk maxlen h.
Proof.
  induction h as [|e r IH]; simpl; [exists []; auto|].
  destruct (total_len lk (e :: r) <=? maxlen); [exists []; auto|].
  destruct IH as [d E]. exists (e :: d). simpl. f_equal. auto.
Qed.

Lemma longest_suffix_fits lk maxlen (h : buffer S) : 0 <= maxlen ->
  total_len lk (longest_suffix lk maxlen h) <= maxlen.
Proof.
  intros Hm. induction h as [|e r IH]; simpl; [unfold total_len; cbn; lia|].
  destruct (Z.leb_spec (total_len lk (e :: r)) maxlen); auto.
Qed.

Lemma longest_suffix_max lk maxlen (h a s : buffer S) : h = a ++ s ->
  total_len lk s <= maxlen -> exists x, longest_suffix lk maxlen h = x ++ s.
Proof.
  revert h. induction a as [|e a IH]; intros h -> Hs; simpl.
  - exists []. destruct s as [|e s]; simpl; auto.
    destruct (Z.leb_spec (total_len lk (e :: s)) maxlen); [auto|lia].
  - destruct (total_len lk (e :: a ++ s) <=? maxlen); [exists (e :: a); auto|].
    apply IH; auto.
Qed.

Lemma sublist_suffix {A} (d s h : list A) : h = d ++ s -> sublist s h.
Proof.
  intros ->. induction d; simpl; [apply sublist_refl|constructor; auto].
Qed.

Lemma fifo_spec_step_sub lk m B o :
  sublist (snd (fifo_spec_step lk (m, B) o)) (B ++ adds [o]).
Proof.
  destruct o; simpl; rewrite ?app_nil_r; try apply sublist_refl.
  destruct (seq_len lk seq <=? m); simpl.
  - destruct (longest_suffix_spec lk m (B ++ [(wrap_id id, seq)])) as [d E].
    eapply sublist_suffix; eauto.
  - rewrite <- (app_nil_r B) at 1. apply sublist_app; [apply sublist_refl|]. repeat constructor.
Qed.

Lemma fifo_run ops : forall t B, Inv t B -> is_fifo (t_ejector t) ->
  Forall no_clear ops ->
  Forall (fun e => seq_ok (t_cols t) (snd e)) (adds ops) ->
  NoDup (map fst (B ++ adds ops)) ->
  let sp := fold_left (fifo_spec_step (t_lenkey t)) ops (t_maxlen t, B) in
  Inv (run t ops) (snd sp) /\ t_maxlen (run t ops) = fst sp /\
  t_cols (run t ops) = t_cols t /\ t_lenkey (run t ops) = t_lenkey t.
Proof.
  induction ops as [|o r IH]; intros t B I F Nc So ND.
  - simpl. auto.
  - inversion Nc as [|? ? Nc1 Nc2]; subst.
    assert (Ea : adds (o :: r) = adds [o] ++ adds r) by (apply (adds_app [o] r)).
    rewrite Ea in So, ND. apply Forall_app in So as [So1 So2].
    assert (Ho : op_ok (t_cols t) B o).
    { destruct o; simpl; auto.
      split; [inversion So1; auto|]. simpl in ND. rewrite map_app in ND.
      intros In1. apply NoDup_remove_2 in ND. apply ND. apply in_or_app; auto. }
    destruct (@fifo_step t B o I Ho F) as (I1 & F1 & F2 & F3).
    pose proof (fifo_spec_step_sub (t_lenkey t) (t_maxlen t) B o) as Sb.
    cbn [fold_left run].
    destruct (fifo_spec_step (t_lenkey t) (t_maxlen t, B) o) as [m1 B1] eqn:E1. simpl in *.
    destruct (IH (step t o) B1) as (I2 & G1 & G2 & G3); auto.
    { apply is_fifo_step; auto. }
    { rewrite F2; auto. }
    { eapply sublist_NoDup; [|exact ND]. apply sublist_map. rewrite app_assoc.
      apply sublist_app; [auto|apply sublist_refl]. }
    rewrite F1, F3 in *. rewrite F2 in *. auto.
Qed.

(** The specification machine without resizing computes the longest suffix. *)
Lemma longest_suffix_step lk m (h : buffer S) x : seq_len lk (snd x) <= m ->
  longest_suffix lk m (longest_suffix lk m h ++ [x]) = longest_suffix lk m (h ++ [x]).
Proof.
  intros Hx. induction h as [|e r IH]; simpl; auto.
  destruct (Z.leb_spec (total_len lk (e :: r)) m) as [Hle|Hgt].
  - simpl. auto.
  - rewrite IH. destruct (Z.leb_spec (total_len lk (e :: r ++ [x])) m) as [Hle|]; auto.
    exfalso. change (e :: r ++ [x]) with ((e :: r) ++ [x]) in Hle. rewrite total_len_app in Hle.
    pose proof (total_len_nonneg lk [x]). lia.
Qed.

Lemma fifo_spec_no_resize lk m ops : forall h,
  Forall no_resize ops -> Forall (fun e => seq_len lk (snd e) <= m) (adds ops) ->
  fold_left (fifo_spec_step (S:=S) lk) ops (m, longest_suffix lk m h) =
  (m, longest_suffix lk m (h ++ adds ops)).
Proof.
  induction ops as [|o r IH]; intros h Nr Hl.
  - simpl. rewrite app_nil_r. auto.
  - inversion Nr as [|? ? N1 N2]; subst. cbn [fold_left].
    destruct o as [id s dr| | | | |]; simpl in *; try tauto; auto.
    inversion Hl; subst. simpl in *.
    destruct (Z.leb_spec (seq_len lk s) m); [|lia].
    rewrite longest_suffix_step by auto. rewrite IH by auto. rewrite <- app_assoc. auto.
Qed.

Lemma fifo_contents cols lk maxlen s ops :
  config_ok cols lk -> fresh_sampler s -> client_ok cols ops ->
  let t := run (t_create cols lk maxlen s (EFifo fifo_init)) ops in
  holds t (snd (fifo_spec lk maxlen ops)) /\ t_maxlen t = fst (fifo_spec lk maxlen ops) /\
  t_size t = total_len lk (snd (fifo_spec lk maxlen ops)).
Proof.
  intros C Fs (C1 & C2 & C3) t.
  destruct (@fifo_run ops (t_create cols lk maxlen s (EFifo fifo_init)) []
              (Inv_create maxlen C Fs fresh_EFifo)) as (I & E1 & E2 & E3); auto.
  { simpl. auto. }
  fold t in I, E1, E2, E3. simpl in I, E1, E3. split; [apply (inv_holds I)|]. split; auto.
  unfold t_size. rewrite (inv_total I), E3. auto.
Qed.

Lemma fifo_longest_suffix cols lk maxlen s ops :
  config_ok cols lk -> fresh_sampler s -> client_ok cols ops -> Forall no_resize ops ->
  Forall (fun e => seq_len lk (snd e) <= maxlen) (adds ops) ->
  let t := run (t_create cols lk maxlen s (EFifo fifo_init)) ops in
  holds t (longest_suffix lk maxlen (adds ops)).
Proof.
  intros C Fs Co Nr Hl t. destruct (fifo_contents maxlen C Fs Co) as (Hh & _).
  fold t in Hh.
  assert (E : fifo_spec lk maxlen ops = (maxlen, longest_suffix lk maxlen (adds ops))).
  { exact (@fifo_spec_no_resize lk maxlen ops [] Nr Hl). }
  rewrite E in Hh. auto.
Qed.

(** ** C04 *)
Lemma filled_eject_one t i : t_filled (fst (eject_one t i)) = t_filled t.
Proof.
  unfold eject_one. destruct (del_all _ _) as [d [u|e]]; simpl; auto.
  destruct (dget _ _); simpl; auto. destruct (s_forget _ _) as [s [u'|e]]; simpl; auto.
  destruct (e_forget _ _); simpl; auto.
Qed.

Lemma filled_eject_all ids : forall t, t_filled (fst (eject_all t ids)) = t_filled t.
Proof.
  induction ids as [|i ids IH]; intros t; simpl; auto.
  pose proof (filled_eject_one t i) as E.
  destruct (eject_one t i) as [t1 [u|e]]; simpl in *; auto. rewrite IH; auto.
Qed.

Lemma filled_add t id s dr : t_filled (fst (add_sequence t id s dr)) =
  t_filled t || (match dget s (t_lenkey t) with
                 | Some fr => t_maxlen t <? t_size t + zlen fr | None => false end).
Proof.
  unfold add_sequence. destruct (dget s (t_lenkey t)) as [fr|]; simpl; [|rewrite orb_false_r; auto].
  set (big := t_maxlen t <? t_size t + zlen fr).
  assert (E : t_filled (fst (if big then eject_count t (t_size t + zlen fr - t_maxlen t) dr
                             else (t, Ok tt))) = t_filled t || big).
  { destruct big; simpl; [|rewrite orb_false_r; auto].
    unfold eject_count. destruct (e_sample _ _ _) as [ej [ids|e]]; simpl; rewrite orb_true_r; auto.
    rewrite filled_eject_all. auto. }
  destruct (if big then _ else _) as [t1 [u|e]]; simpl in *; auto.
  destruct (write_columns _ _ _ _) as [d [u'|e]]; simpl; auto.
  destruct (s_track _ _ _) as [s' [u''|e]]; simpl; auto.
  destruct (e_track _ _ _); simpl; auto.
Qed.

Lemma filled_step t o : o <> OClear -> t_filled t = true -> t_filled (step t o) = true.
Proof.
  intros Nc Ht. destruct o; simpl; auto; try congruence.
  - rewrite filled_add, Ht. auto.
  - destruct (t_sample_frame t count n draws) as [d ->]. auto.
  - unfold t_resize. destruct (n <? t_maxlen t); auto.
Qed.

Lemma filled_run ops : forall t, Forall no_clear ops -> t_filled t = true ->
  t_filled (run t ops) = true.
Proof.
  induction ops as [|o r IH]; intros t Nc Ht; simpl; auto. inversion Nc; subst.
  apply IH; auto. apply filled_step; auto.
Qed.

Lemma full_run ops : forall t B, Inv t B -> Forall no_clear ops -> Forall no_resize ops ->
  Forall (fun e => seq_ok (t_cols t) (snd e)) (adds ops) ->
  NoDup (map fst (B ++ adds ops)) ->
  t_filled t = false -> total_len (t_lenkey t) B <= t_maxlen t ->
  (total_len (t_lenkey t) (B ++ adds ops) <= t_maxlen t /\ t_filled (run t ops) = false /\
   Inv (run t ops) (B ++ adds ops))
  \/ (t_maxlen t < total_len (t_lenkey t) (B ++ adds ops) /\ t_filled (run t ops) = true).
Proof.
  induction ops as [|o r IH]; intros t B I Nc Nr So ND Hf Hfit.
  - simpl. rewrite app_nil_r in *. left; auto.
  - inversion Nc as [|? ? Nc1 Nc2]; subst. inversion Nr as [|? ? Nr1 Nr2]; subst.
    destruct o as [id s dr|c n dr|n| | |]; simpl in Nr1; try tauto.
    + cbn [adds] in *. inversion So as [|? ? So1 So2]; subst. simpl in So1.
      assert (Nid : ~ In (wrap_id id) (map fst B)).
      { rewrite map_app in ND. simpl in ND.
        intros In1. apply NoDup_remove_2 in ND. apply ND. apply in_or_app; auto. }
      destruct (@seq_ok_frames S _ _ s (inv_cfg I) So1) as (fr & Ef & El).
      pose proof (filled_add t id s dr) as Efl. rewrite Ef, <- El, Hf in Efl. simpl in Efl.
      assert (Happ : total_len (t_lenkey t) (B ++ [(wrap_id id, s)]) =
                     total_len (t_lenkey t) B + seq_len (t_lenkey t) s).
      { rewrite total_len_app. unfold total_len at 2. cbn. lia. }
      assert (Hsz : t_size t = total_len (t_lenkey t) B) by (apply (inv_total I)).
      destruct (Z.ltb_spec (t_maxlen t) (t_size t + seq_len (t_lenkey t) s)) as [Hlt|Hle].
      * right. split.
        -- change ((wrap_id id, s) :: adds r) with ([(wrap_id id, s)] ++ adds r).
           rewrite app_assoc, total_len_app. pose proof (total_len_nonneg (t_lenkey t) (adds r)). lia.
        -- simpl. apply filled_run; auto.
      * destruct (@add_sequence_inv S t B id s dr I Nid So1) as
          [(t' & e & E & I' & Hn & _)|
           (t' & ids & E & I' & _ & _ & Nk & _ & F1 & F2 & F3 & _)]; [lia|].
        destruct (Z.ltb_spec 0 (t_size t + seq_len (t_lenkey t) s - t_maxlen t)); [lia|]. subst ids.
        unfold drop_all in I'. rewrite filter_all in I' by auto.
        rewrite E in Efl. simpl in Efl.
        destruct (IH t' (B ++ [(wrap_id id, s)])) as [D|D]; rewrite ?F1, ?F2, ?F3; auto; try lia.
        -- rewrite <- app_assoc. auto.
        -- left. rewrite <- app_assoc, F2, F3 in D. simpl in *. rewrite E. auto.
        -- right. rewrite <- app_assoc, F2, F3 in D. simpl in *. rewrite E. auto.
    + destruct (t_sample_frame t c n dr) as [d Ed].
      pose proof (t_sample_inv c n dr I) as I1.
      simpl. destruct (IH (fst (t_sample t c n dr)) B) as [D|D]; rewrite ?Ed in *; auto.
    + simpl. apply IH; auto.
    + simpl. apply IH; auto.
    + exfalso. apply Nc1; auto.
Qed.

Lemma full_spec cols lk maxlen s e ops :
  config_ok cols lk -> fresh_sampler s -> fresh_ejector e -> 0 <= maxlen ->
  client_ok cols ops -> Forall no_resize ops ->
  let t := run (t_create cols lk maxlen s e) ops in
  (t_full t = true <-> maxlen < total_len lk (adds ops)) /\
  (t_full t = false -> holds t (adds ops)).
Proof.
  intros C Fs Fe Hm (C1 & C2 & C3) Nr t.
  destruct (@full_run ops (t_create cols lk maxlen s e) [] (Inv_create maxlen C Fs Fe))
    as [(D1 & D2 & D3)|(D1 & D2)]; auto; unfold t_full.
  - fold t in D2, D3. simpl in D1, D3. rewrite D2. split; [split; [discriminate|lia]|]. intros _. apply (inv_holds D3).
  - fold t in D2. simpl in D1. rewrite D2. split; [split; auto|discriminate].
Qed.

(** ** C05 *)
Lemma gather_cols_maxlen m cols : forall t count n pts,
  gather_cols (with_maxlen t m) count n pts cols =
  (with_maxlen (fst (gather_cols t count n pts cols)) m, snd (gather_cols t count n pts cols)).
Proof.
  induction cols as [|c r IH]; intros t count n pts; simpl; auto.
  assert (E : forall buf pts k idx, gather_points (with_maxlen t m) c k idx buf pts =
              gather_points t c k idx buf pts).
  { clear. intros buf pts. revert buf. induction pts as [|[[id a] b] r IH]; intros; simpl; auto.
    change (read_slice (with_maxlen t m) c id a b) with (read_slice t c id a b).
    destruct (rbind _ _) as [x|[]]; auto. }
  rewrite E. change (temp_for (with_maxlen t m) c) with (temp_for t c).
  destruct (gather_points _ _ _ _ _ _) as [out|e]; simpl; auto.
  match goal with |- context [gather_cols (with_temp (with_maxlen t m) ?d) _ _ _ _] =>
    change (with_temp (with_maxlen t m) d) with (with_maxlen (with_temp t d) m) end.
  rewrite IH. destruct (gather_cols _ _ _ _ _) as [t2 [x|e]]; simpl; auto.
Qed.

Lemma sample_maxlen t m cnt n dr :
  snd (t_sample (with_maxlen t m) cnt n dr) = snd (t_sample t cnt n dr).
Proof.
  unfold t_sample. simpl. destruct (s_sample _ _ _ _) as [s [pts|e]]; simpl; auto.
  change (with_sampler (with_maxlen t m) s) with (with_maxlen (with_sampler t s) m).
  rewrite gather_cols_maxlen. auto.
Qed.

Lemma resize_spec t n :
  let t' := fst (t_resize t n) in
  (n < t_maxlen t -> snd (t_resize t n) = Err ValueError /\ t' = t) /\
  (t_maxlen t <= n -> snd (t_resize t n) = Ok tt /\ t_maxlen t' = n) /\
  t_size t' = t_size t /\ t_full t' = t_full t /\ t_cols t' = t_cols t /\
  (forall b, holds t' b <-> holds t b) /\
  sampler_ids (t_sampler t') = sampler_ids (t_sampler t) /\
  ejector_ids (t_ejector t') = ejector_ids (t_ejector t) /\
  (forall count len draws, snd (t_sample t' count len draws) = snd (t_sample t count len draws)).
Proof.
  unfold t_resize. destruct (Z.ltb_spec n (t_maxlen t)); simpl.
  - repeat split; auto; lia.
  - repeat split; auto; try lia; try (intros; apply sample_maxlen).
Qed.

(** ** C06 *)
Lemma s_inv_ids s D : s_inv s D -> sampler_ids s = dkeys D.
Proof. destruct s; simpl; intros (E1 & E2 & _); subst; auto. Qed.
Lemma e_inv_ids s D : e_inv s D -> ejector_ids s = dkeys D.
Proof. destruct s; simpl; intros (E1 & E2 & _); subst; auto. Qed.

Lemma failed_add cols lk maxlen s e ops id sq dr er :
  config_ok cols lk -> fresh_sampler s -> fresh_ejector e ->
  client_ok cols (ops ++ [OAdd id sq dr]) ->
  let t := run (t_create cols lk maxlen s e) ops in
  snd (add_sequence t id sq dr) = Err er ->
  let t' := fst (add_sequence t id sq dr) in
  (forall b, holds t b <-> holds t' b) /\ t_size t' = t_size t /\ t_maxlen t' = t_maxlen t /\
  sampler_ids (t_sampler t') = sampler_ids (t_sampler t) /\
  ejector_ids (t_ejector t') = ejector_ids (t_ejector t).
Proof.
  intros C Fs Fe (C1 & C2 & C3) t Her t'.
  rewrite adds_app in C2, C3. simpl in C2, C3.
  apply Forall_app in C1 as [C1 _]. apply Forall_app in C2 as [C2 C2'].
  assert (ND : NoDup (map fst (adds ops))).
  { eapply sublist_NoDup; [|exact C3]. apply sublist_map. rewrite <- (app_nil_r (adds ops)) at 1.
    apply sublist_app; [apply sublist_refl|repeat constructor]. }
  destruct (run_create maxlen C Fs Fe (conj C1 (conj C2 ND))) as (B & I & Sb & F1 & F2 & F3 & F4).
  fold t in I, F1, F2, F3, F4.
  assert (Nid : ~ In (wrap_id id) (map fst B)).
  { intros In1. rewrite map_app in C3. simpl in C3. apply NoDup_remove_2 in C3. apply C3.
    rewrite app_nil_r. eapply sublist_In; [apply sublist_map; exact Sb|auto]. }
  assert (So : seq_ok (t_cols t) sq). { rewrite F1. inversion C2'; auto. }
  unfold t'.
  destruct (@add_sequence_inv S t B id sq dr I Nid So) as
      [(t1 & er' & E & I' & _ & _ & G1 & G2 & G3 & _)|
       (t1 & ids & E & I' & _)]; rewrite E in *; simpl in *; [|discriminate].
  split; [|split; [|split; [|split]]].
  - assert (Hd : forall c, In c (storage_cols (t_cols t)) ->
                 dget (t_data t1) (c_name c) = dget (t_data t) (c_name c)).
    { intros c Ic. rewrite (inv_holds I c Ic). apply (inv_holds I'). rewrite G1. auto. }
    intros b. unfold holds. rewrite G1. split; intros Hb c Ic; specialize (Hb c Ic); specialize (Hd c Ic);
      congruence.
  - unfold t_size. rewrite (inv_total I), (inv_total I'), G2. auto.
  - auto.
  - rewrite (s_inv_ids _ _ (inv_sampler I)), (s_inv_ids _ _ (inv_sampler I')), G2. auto.
  - rewrite (e_inv_ids _ _ (inv_ejector I)), (e_inv_ids _ _ (inv_ejector I')), G2. auto.
Qed.

Lemma missing_length_key t id sq dr :
  ~ In (t_lenkey t) (map fst sq) -> add_sequence t id sq dr = (t, Err KeyError).
Proof.
  intros N. unfold add_sequence. rewrite (proj2 (dget_None sq (t_lenkey t))); auto.
Qed.

(** ** C07 *)
Lemma wrap_injective (a b : Z) : - 2 ^ 63 <= a < 2 ^ 63 -> - 2 ^ 63 <= b < 2 ^ 63 ->
  (wrap_id a = wrap_id b -> a = b) /\ 0 <= wrap_id a < 2 ^ 64.
Proof.
  unfold wrap_id. intros Ha Hb.
  destruct (Z.ltb_spec a 0), (Z.ltb_spec b 0); lia.
Qed.

Lemma stored_ids_nonneg cols lk maxlen s e ops c (store : dict Z (array S)) id :
  config_ok cols lk -> fresh_sampler s -> fresh_ejector e -> client_ok cols ops ->
  Forall (fun o => match o with OAdd id _ _ => - 2 ^ 63 <= id < 2 ^ 63 | _ => True end) ops ->
  let t := run (t_create cols lk maxlen s e) ops in
  In c (storage_cols cols) -> dget (t_data t) (c_name c) = Some store -> In id (map fst store) ->
  0 <= id.
Proof.
  intros C Fs Fe Co Hi t Ic G In1.
  destruct (run_create maxlen C Fs Fe Co) as (B & I & Sb & F1 & F2 & F3 & F4). fold t in I, F1.
  rewrite <- F1 in Ic. rewrite (inv_holds I c Ic) in G. inversion G; subst store.
  rewrite map_map in In1. simpl in In1.
  assert (In2 : In id (map fst (adds ops))).
  { eapply sublist_In; [apply sublist_map; exact Sb|auto]. }
  clear - Hi In2. induction ops as [|o r IH]; simpl in *; [tauto|].
  inversion Hi; subst. destruct o; simpl in *; auto.
  destruct In2 as [<-|In2]; auto. unfold wrap_id. destruct (Z.ltb_spec id0 0); lia.
Qed.
End Run.
