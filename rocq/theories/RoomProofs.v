(** * RoomProofs: memories with room for a batch and an episode never run low (proofs for C160) *)
From Coq Require Import Lia.
From Verif Require Import Py PyLemmas MemModel MemSpec MemProofs MemRun ProxyModel ProxySpec ProxyProofs ProxyE2E LoaderModel LoaderProofs ExpMem AmidProofs
  GapModel GapSpec GapProofs JgapModel JgapSpec JgapProofs RoomSpec.
Set Implicit Arguments. Unset Strict Implicit.
Open Scope list_scope.
Open Scope Z_scope.

(** Ejectors take no sequence more than they need. *)
Lemma fifo_upper E ids : forall lens count l, (forall id len, dget lens id = Some len -> len <= E) ->
  fifo_eject_loop lens ids count = Ok l -> zsum (map (len_of lens) l) <= Z.max 0 (count - 1 + E).
Proof.
  induction ids as [|id r IH]; intros lens count l HE; simpl; destruct (Z.ltb_spec 0 count) as [P|P]; try discriminate.
  - intros Q; inversion Q; subst. cbn. lia.
  - destruct (dget lens id) as [len|] eqn:G; [|discriminate]. destruct (fifo_eject_loop lens r (count - len)) as [l'|e] eqn:Er; [|discriminate].
    simpl. intros Q; inversion Q; subst. pose proof (IH _ _ _ HE Er) as I. pose proof (HE _ _ G). unfold zsum in *. cbn [map fold_right]. unfold len_of at 1, dget_default. rewrite G. lia.
  - intros Q; inversion Q; subst. cbn. lia.
Qed.
Lemma w_upper E draws : forall w D count acc l, w_lens w = D -> (forall id len, dget D id = Some len -> len <= E) ->
  w_eject_loop w count acc draws = Ok l -> zsum (map (len_of D) l) <= zsum (map (len_of D) acc) + Z.max 0 (count - 1 + E).
Proof.
  induction draws as [|[id k] ds IH]; intros w D count acc l Ew HE; simpl; destruct (Z.ltb_spec 0 count) as [P|P]; try discriminate.
  - intros Q; inversion Q; subst. lia.
  - destruct (negb (can_draw w id)); [discriminate|]. destruct (inb id acc); [eauto|].
    destruct (dget (w_lens w) id) as [len|] eqn:G; [|discriminate]. intros Q. rewrite Ew in G. pose proof (IH _ _ _ _ _ Ew HE Q) as I. pose proof (HE _ _ G).
    rewrite map_app, zsum_app in I. cbn [map] in I. unfold zsum at 3 in I. cbn [fold_right] in I. unfold len_of at 3, dget_default in I. rewrite G in I. lia.
  - intros Q; inversion Q; subst. lia.
Qed.
Lemma e_upper E e D count draws l : e_inv e D -> (forall id len, dget D id = Some len -> len <= E) ->
  snd (e_sample e count draws) = Ok l -> zsum (map (len_of D) l) <= Z.max 0 (count - 1 + E).
Proof.
  destruct e as [f|w]; simpl; intros I HE Q.
  - destruct I as (H1 & H2 & H3). unfold fifo_eject in Q. rewrite H1 in Q. eapply fifo_upper; eauto.
  - unfold w_eject in Q. pose proof (w_inv_refresh I) as [I1 _]. destruct (w_refresh w) as [w1 [u|e]]; simpl in *; [|discriminate].
    destruct ((0 <? count) && negb (choice_ok w1)); simpl in Q; [discriminate|]. assert (Ew : w_lens w1 = D) by (destruct I1; auto). exact (w_upper Ew HE Q).
Qed.

Section P.
Context {S : Type} {HS : Scalar S}.
Lemma lens_short lk E (B : buffer S) id len : Forall (fun e => seq_len lk (snd e) <= E) B -> dget (lens_of lk B) id = Some len -> len <= E.
Proof.
  intros F. induction F as [|[k s] B H F IH]; cbn; [discriminate|]. cbn [fst snd] in *. destruct (id =? k); [|exact IH]. intros Q. injection Q as <-. exact H.
Qed.
Lemma step_room (t : table S) B o E w : Inv t B -> op_ok (t_cols t) B o -> Forall (fun e => seq_len (t_lenkey t) (snd e) <= E) B ->
  w + E - 1 <= t_maxlen t -> w <= t_size t -> w <= t_size (step t o).
Proof.
  intros I Ho HE Hm Hw. destruct o as [id s dr|c n dr|n| | |]; simpl in Ho; try tauto; try exact Hw.
  - destruct Ho as [So Nid]. destruct (@add_sequence_inv S t B id s dr I Nid So) as
      [(t' & e & Q & I' & _ & _ & F1 & F2 & F3 & _)|(t' & ids & Q & I' & N1 & N2 & N4 & N3 & F1 & F2 & F3 & _)]; simpl; rewrite Q; simpl.
    + unfold t_size in *. rewrite (inv_total I'), F2, <- (inv_total I). exact Hw.
    + unfold t_size in *. rewrite (inv_total I'), F2, total_len_app. rewrite total_drop_all; auto; [|apply (inv_nodup I)]. rewrite (inv_total I) in *.
      unfold total_len at 2. cbn [map snd]. unfold zsum at 2. cbn [fold_right].
      assert (0 <= seq_len (t_lenkey t) s) by (unfold seq_len; destruct (dget s (t_lenkey t)); unfold zlen; lia).
      destruct (Z.ltb_spec 0 (total_len (t_lenkey t) B + seq_len (t_lenkey t) s - t_maxlen t)) as [P|P].
      * pose proof (e_upper (inv_ejector I) (fun id len => @lens_short _ _ B id len HE) N4). lia.
      * subst ids. cbn. lia.
  - simpl. destruct (t_sample_frame t c n dr) as [d Ed]. simpl in Ed. rewrite Ed. exact Hw.
  - simpl. unfold t_resize. destruct (n <? t_maxlen t); exact Hw.
Qed.
Lemma run_room ops : forall (t : table S) B E w, Inv t B -> Forall no_clear ops -> Forall (fun e => seq_ok (t_cols t) (snd e)) (adds ops) -> NoDup (map fst (B ++ adds ops)) ->
  Forall (fun e => seq_len (t_lenkey t) (snd e) <= E) (B ++ adds ops) -> w + E - 1 <= t_maxlen t -> w <= t_size t -> w <= t_size (run t ops).
Proof.
  induction ops as [|o r IH]; intros t B E w I Nc So ND HE Hm Hw; [exact Hw|].
  inversion Nc as [|? ? Nc1 Nc2]; subst. assert (Ea : adds (o :: r) = adds [o] ++ adds r) by (apply (adds_app [o] r)).
  rewrite Ea in So, ND, HE. apply Forall_app in So as [So1 So2].
  assert (Ho : op_ok (t_cols t) B o).
  { destruct o; simpl; auto. split; [inversion So1; auto|]. simpl in ND. rewrite map_app in ND. intros In1. apply NoDup_remove_2 in ND. apply ND. apply in_or_app; auto. }
  destruct (@step_inv S HS t B o I Ho) as (B1 & I1 & S1 & F1 & F2 & F3 & F4).
  assert (Sb : sublist (B1 ++ adds r) (B ++ adds [o] ++ adds r)) by (rewrite app_assoc; apply sublist_app; [auto|apply sublist_refl]).
  change (run t (o :: r)) with (run (step t o) r). apply (IH _ B1 E w); auto.
  - rewrite F1; auto.
  - eapply sublist_NoDup; [|exact ND]. apply sublist_map. exact Sb.
  - rewrite F2. apply Forall_forall. intros x Ix. rewrite Forall_forall in HE. apply HE. exact (sublist_In _ Sb Ix).
  - lia.
  - apply (@step_room t B o E w); auto. apply Forall_app in HE as [HE _]. exact HE.
Qed.
Lemma never_low (cols : list (column S)) lk maxlen smp ej ops more longest n : config_ok cols lk -> fresh_sampler smp -> fresh_ejector ej -> client_ok cols (ops ++ more) ->
  none_longer lk (ops ++ more) longest -> n + longest - 1 <= maxlen ->
  n <= t_size (run (t_create cols lk maxlen smp ej) ops) -> n <= t_size (run (t_create cols lk maxlen smp ej) (ops ++ more)).
Proof.
  intros CO Fs Fe Co NL Hm Hn. destruct (run_create maxlen CO Fs Fe (client_app Co)) as (B & I & Sb & F1 & F2 & F3 & _).
  destruct Co as (C1 & C2 & C3). unfold none_longer in NL. rewrite adds_app in C2, C3, NL. apply Forall_app in C1 as [_ C1]. apply Forall_app in C2 as [_ C2].
  assert (Er : run (t_create cols lk maxlen smp ej) (ops ++ more) = run (run (t_create cols lk maxlen smp ej) ops) more) by (unfold run; apply fold_left_app). rewrite Er.
  assert (Sb2 : sublist (B ++ adds more) (adds ops ++ adds more)) by (apply sublist_app; [auto|apply sublist_refl]).
  apply (@run_room more _ B longest n); auto; [rewrite F1; auto| | |lia].
  - eapply sublist_NoDup; [|exact C3]. apply sublist_map. exact Sb2.
  - rewrite F2. apply Forall_forall. intros x Ix. rewrite Forall_forall in NL. apply NL. exact (sublist_In _ Sb2 Ix).
Qed.

(** A memory that has overflowed. *)
Lemma full_room ops : forall (t : table S) B E, Inv t B -> Forall no_clear ops -> Forall no_resize ops -> Forall (fun e => seq_ok (t_cols t) (snd e)) (adds ops) -> NoDup (map fst (B ++ adds ops)) ->
  Forall (fun e => seq_len (t_lenkey t) (snd e) <= E) (B ++ adds ops) -> (t_filled t = true -> t_maxlen t - E < t_size t) ->
  t_filled (run t ops) = true -> t_maxlen t - E < t_size (run t ops).
Proof.
  induction ops as [|o r IH]; intros t B E I Nc Nr So ND HE Hf; [exact Hf|].
  inversion Nc as [|? ? Nc1 Nc2]; subst. inversion Nr as [|? ? Nr1 Nr2]; subst. assert (Ea : adds (o :: r) = adds [o] ++ adds r) by (apply (adds_app [o] r)).
  rewrite Ea in So, ND, HE. apply Forall_app in So as [So1 So2].
  assert (Ho : op_ok (t_cols t) B o).
  { destruct o; simpl; auto. split; [inversion So1; auto|]. simpl in ND. rewrite map_app in ND. intros In1. apply NoDup_remove_2 in ND. apply ND. apply in_or_app; auto. }
  destruct (@step_inv S HS t B o I Ho) as (B1 & I1 & S1 & F1 & F2 & F3 & F4).
  assert (Sb : sublist (B1 ++ adds r) (B ++ adds [o] ++ adds r)) by (rewrite app_assoc; apply sublist_app; [auto|apply sublist_refl]).
  change (run t (o :: r)) with (run (step t o) r).
  assert (Hm : t_maxlen (step t o) = t_maxlen t /\ (t_filled (step t o) = true -> t_maxlen t - E < t_size (step t o))).
  { clear IH. apply Forall_app in HE as [HB HE]. apply Forall_app in HE as [HE _]. destruct o as [id s dr|c n dr|n| | |]; simpl in Nr1; try tauto; try (split; [reflexivity|exact Hf]).
    - destruct Ho as [So Nid]. simpl in HE. inversion HE as [|? ? Hs _]; subst. cbn [snd] in Hs.
      destruct (@add_sequence_inv S t B id s dr I Nid So) as
        [(t' & e & Q & I' & Hn & _ & G1 & G2 & G3 & G4)|(t' & ids & Q & I' & N1 & N2 & N4 & N3 & G1 & G2 & G3 & G4)]; simpl; rewrite Q; simpl; (split; [exact G3|]); intros Hf'.
      + unfold t_size in *. rewrite (inv_total I'), G2, <- (inv_total I). lia.
      + unfold t_size in *. rewrite (inv_total I'), G2, total_len_app. rewrite total_drop_all; auto; [|apply (inv_nodup I)]. rewrite (inv_total I) in *.
        unfold total_len at 2. cbn [map snd]. unfold zsum at 2. cbn [fold_right].
        assert (0 <= seq_len (t_lenkey t) s) by (unfold seq_len; destruct (dget s (t_lenkey t)); unfold zlen; lia).
        destruct (Z.ltb_spec 0 (total_len (t_lenkey t) B + seq_len (t_lenkey t) s - t_maxlen t)) as [P|P].
        * pose proof (e_upper (inv_ejector I) (fun id len => @lens_short _ _ B id len HB) N4). lia.
        * subst ids. cbn [orb] in G4. rewrite G4 in Hf'. specialize (Hf Hf'). cbn. lia.
    - simpl. destruct (t_sample_frame t c n dr) as [d Ed]. simpl in Ed. rewrite Ed. split; [reflexivity|exact Hf]. }
  destruct Hm as [Hm1 Hm2]. rewrite <- Hm1. apply (IH _ B1 E); auto.
  - rewrite F1; auto.
  - eapply sublist_NoDup; [|exact ND]. apply sublist_map. exact Sb.
  - rewrite F2. apply Forall_forall. intros x Ix. rewrite Forall_forall in HE. apply HE. exact (sublist_In _ Sb Ix).
  - rewrite Hm1. exact Hm2.
Qed.
Lemma nearly_full (cols : list (column S)) lk maxlen smp ej ops longest : config_ok cols lk -> fresh_sampler smp -> fresh_ejector ej -> client_ok cols ops -> Forall no_resize ops ->
  none_longer lk ops longest -> let t := run (t_create cols lk maxlen smp ej) ops in t_full t = true -> maxlen - longest < t_size t.
Proof.
  intros CO Fs Fe (C1 & C2 & C3) Nr NL t. exact (@full_room ops (t_create cols lk maxlen smp ej) [] longest (Inv_create maxlen CO Fs Fe) C1 Nr C2 C3 NL (fun Q => False_ind _ (Bool.diff_false_true Q))).
Qed.

(** Through the proxy. *)
Lemma stays (m : memory S) rounds longest h' tail : fits m rounds -> roomy m rounds longest -> doings (m_loader m) rounds = h' ++ tail ->
  holds_enough m (m_done m) -> holds_enough m (m_done m ++ h').
Proof.
  intros (CO & Fs & Fe & SO & LA & L1 & N1 & Ng & BO & AO & Hid & Ok0) [R1 R2] Ed He. unfold holds_enough, proxy_of in *.
  rewrite Ed, app_assoc in BO, AO, Ok0, R1. set (P0 := px_new _) in *.
  destruct (prun (m_pc m) P0 ((m_done m ++ h') ++ tail)) as [q r] eqn:Eq. cbn [snd] in Ok0. subst r.
  destruct (prun_ok Eq) as [p' E']. destruct (prun_ok E') as [p E]. rewrite E in He. rewrite E'. cbn [fst] in *. rewrite (prun_join h' E) in E'.
  apply Forall_app in BO as [BO _]. apply agents_app in AO. pose proof BO as BO'. apply Forall_app in BO' as [B1 B2]. pose proof AO as [A1 _].
  assert (Nc : forall o, In (PUse o) (m_done m ++ h') -> o <> OClear) by (intros o Io; rewrite Forall_forall in A1; apply (A1 _ Io)).
  assert (Nc1 : forall o, In (PUse o) (m_done m) -> o <> OClear) by (intros o Io; apply Nc, in_or_app; auto).
  destruct (history_ops B1 E Nc1) as (ops & Et & No & F & SR).
  assert (Ek : t_lenkey (px_table p) = m_lenkey m).
  { destruct (sampling_of CO Fs Fe SO LA (agents_app AO) L1 No F) as [(_ & _ & _ & Co & _) _]. destruct (run_create (m_maxlen m) CO Fs Fe Co) as (B & _ & _ & _ & F2 & _). rewrite Et. exact F2. }
  destruct (@builder S HS (m_pc m) (m_lenkey m) h' B2 p p' (fun a => running [] (stream a (m_done m))) Ek SR E') as (more & A2 & A3 & A4 & _).
  assert (No2 : Forall no_clear more).
  { apply Forall_forall. intros o Io. destruct (is_add o) eqn:Ea; [destruct o; discriminate|].
    assert (In o (uses h')) as Iu by (rewrite <- A3; apply filter_In; rewrite Ea; auto).
    unfold uses in Iu. apply in_flat_map in Iu as (x & Ix & Ox). destruct x as [|o']; [destruct Ox|]. destruct Ox as [->|[]]. apply Nc. apply in_or_app. auto. }
  assert (F2 : forall a, Forall2 (records (pc_terminal (m_pc m)) (m_lenkey m)) (added_by a (additions (ops ++ more))) (filter (kept (m_pc m) (m_lenkey m)) (episodes [] (stream a (m_done m ++ h'))))).
  { intros a. rewrite stream_join, episodes_more, filter_app, additions_app. unfold added_by. rewrite filter_app, map_app. apply Forall2_app; [exact (F a)|exact (A4 a)]. }
  destruct (sampling_of CO Fs Fe SO LA AO L1 (proj2 (Forall_app _ _ _) (conj No No2)) F2) as [(_ & _ & _ & Co & _) Hx].
  rewrite A2. rewrite Et in *. replace (run (run (t_create (m_cols m) (m_lenkey m) (m_maxlen m) (m_sampler m) (m_ejector m)) ops) more) with (run (t_create (m_cols m) (m_lenkey m) (m_maxlen m) (m_sampler m) (m_ejector m)) (ops ++ more)) by (unfold run; apply fold_left_app).
  apply (@never_low _ _ _ _ _ ops more longest (wanted m) CO Fs Fe Co); auto.
  unfold none_longer. rewrite adds_additions. apply Forall_map. apply Forall_forall. intros [[a s] dr] I. cbn [fst snd].
  destruct (Hx a s dr I) as (_ & _ & ms & Im & ->). apply (R1 a). rewrite stream_join, episodes_more. apply in_or_app. left. exact Im.
Qed.
Lemma before_prefix (l : loader) : forall (rounds : list (list (pop S) * list draw)) i, exists tail, doings l rounds = before_draw l rounds i ++ tail.
Proof.
  intros rounds i. unfold before_draw. destruct (nth_error rounds i) as [r|] eqn:En.
  - destruct (nth_error_split _ _ En) as (l1 & l2 & -> & <-). rewrite firstn_app, firstn_all, Nat.sub_diag. cbn [firstn]. rewrite app_nil_r. unfold doings. rewrite flat_map_app. cbn [flat_map].
    rewrite <- !app_assoc. eexists. rewrite <- app_assoc. reflexivity.
  - apply nth_error_None in En. rewrite firstn_all2 by lia. exists []. rewrite !app_nil_r. reflexivity.
Qed.
End P.

Lemma joint_roomy : forall (S : Type) (HS : Scalar S) (sk : string) (ms : list (memory S)) ls rounds,
  ls = map (fun m => mkSource (m_pc m) (m_loader m) (fst (proxy_of m (m_done m)))) ms ->
  NoDup (map (fun m => ld_group (m_loader m)) ms) -> ~ In sk (map (fun m => ld_group (m_loader m)) ms) ->
  (forall k m, nth_error ms k = Some m -> fits m (for_memory k rounds) /\ exists longest, roomy m (for_memory k rounds) longest) ->
  (forall m, In m ms -> holds_enough m (m_done m)) ->
  forall i, (i < List.length rounds)%nat -> (forall j, (j < i)%nat -> exists b, nth_error (joint_amid sk ls rounds) j = Some (Ok b)) ->
  nth_error (joint_amid sk ls rounds) i = Some (Err Diverges) \/
  exists b, nth_error (joint_amid sk ls rounds) i = Some (Ok b) /\ dget b sk = Some (ENum (zsum (map wanted ms))) /\
    forall k m, nth_error ms k = Some m -> shows_rollouts m (history k m rounds i) b.
Proof.
  intros S HS sk ms ls rounds El Nd Ns F He i Hi Ha.
  destruct (joint_amid_ok El Nd Ns (fun k m E => proj1 (F k m E)) He Hi Ha) as [Q|[(_ & k & m & Q1 & Q2)|(b & Q1 & Q2 & Q3)]].
  - left. exact Q.
  - exfalso. apply Q2. destruct (F k m Q1) as [F1 [longest F2]]. destruct (before_prefix (m_loader m) (for_memory k rounds) i) as [tail Et].
    exact (stays F1 F2 Et (He m (nth_error_In _ _ Q1))).
  - right. exists b. split; auto. split; auto. intros k m E. exact (proj2 (Q3 k m E)).
Qed.
