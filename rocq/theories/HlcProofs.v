(** * HlcProofs: from agents to the loss of an HL-Gauss critic (C138) *)
From Coq Require Import Reals Lra Lia.
From Verif Require Import Py PyLemmas MemModel MemSpec ProxyModel ProxySpec ProxyE2E NumModel NumSpec NumTarget E2ESpec E2EProofs
  PolModel PolSpec PolMain AlgoModel AlgoSpec AlgoProofs AlgoMore HlgModel HlgSpec HlgProofs CriticModel CriticSpec CriticProofs
  ActorSpec HlcModel HlcSpec.
Open Scope list_scope.
Open Scope R_scope.

Lemma nth_seq_id {A} (d : A) l : map (fun k => nth k l d) (seq 0 (List.length l)) = l.
Proof.
  induction l as [|x t IH]; [reflexivity|]. cbn [List.length seq map nth]. f_equal.
  rewrite <- seq_shift, map_map. exact IH.
Qed.
Lemma within_clamp lo hi x : lo < hi -> clamp lo hi x = within lo hi x.
Proof. intros L. unfold clamp, within, Rmin, Rmax. destruct (Rle_dec x lo), (Rle_dec _ hi), (Rle_dec hi x); lra. Qed.
Lemma target_shares erf ratio lo hi bins q : saturating erf -> lo < hi -> (0 < bins)%nat -> 0 < ratio ->
  qloss_target erf ratio lo hi bins q = map Some (map (share erf ratio lo hi bins (within lo hi q)) (seq 0 bins)).
Proof.
  intros Se L B Rp. destruct (qloss_distribution q Se L B Rp) as (t & Et & _).
  unfold qloss_target in *. rewrite transform_eq in *. cbv zeta in *. rewrite within_clamp in * by auto.
  assert (Es : hl_sigma ratio lo hi bins = ratio * ((hi - lo) / INR bins)) by (unfold hl_sigma, Rdiv; ring).
  rewrite Es in *. set (x := within lo hi q) in *. set (sg := ratio * ((hi - lo) / INR bins)) in *.
  assert (P : 0 < INR bins) by (apply lt_0_INR; lia).
  assert (T0 : tick lo hi bins 0 = lo) by (unfold tick; cbn [INR]; lra).
  assert (Tb : tick lo hi bins bins = hi) by (unfold tick; field; lra).
  rewrite T0, Tb in *.
  set (z := erf ((hi - x) / (sqrt 2 * sg)) - erf ((lo - x) / (sqrt 2 * sg))) in *.
  assert (Z0 : z <> 0).
  { intros Z0. destruct bins as [|n]; [lia|]. cbn [seq map] in Et. unfold vdiv in Et. destruct (Req_EM_T z 0); [|contradiction].
    destruct t; discriminate. }
  rewrite map_map. apply map_ext. intros i. unfold vdiv. destruct (Req_EM_T z 0); [contradiction|]. f_equal.
  unfold share. fold sg. cbv zeta. change (edge lo hi bins) with (tick lo hi bins). fold z.
  field. auto.
Qed.
Lemma row_chances bins row : List.length row = bins -> softmax row = map (chance bins row) (seq 0 bins).
Proof.
  intros E. unfold softmax. subst bins. cbv zeta.
  transitivity (map (fun x => exp x / rsum (map exp row)) (map (fun k => nth k row 0) (seq 0 (List.length row)))).
  - rewrite nth_seq_id. reflexivity.
  - rewrite map_map. apply map_ext. intros i. unfold chance.
    rewrite <- (map_map (fun k => nth k row 0) exp (seq 0 (List.length row))), nth_seq_id. reflexivity.
Qed.
Lemma rsum_neg l : - rsum l = rsum (map Ropp l).
Proof. induction l as [|x t IH]; cbn; [lra|]. unfold rsum in *. rewrite <- IH. lra. Qed.
Lemma cross_surprise n s c : cross (map s (seq 0 n)) (map c (seq 0 n)) = surprise n s c.
Proof.
  unfold cross, surprise. rewrite combine_maps, map_map. cbn [fst snd]. rewrite rsum_neg, map_map. f_equal. apply map_ext.
  intros i. ring.
Qed.
Lemma row_valued lo hi bins row : List.length row = bins -> q_from_logit lo hi bins row = valued lo hi bins row.
Proof.
  intros E. unfold q_from_logit, valued. rewrite (row_chances bins) by auto. rewrite centers_eq, map2_map. reflexivity.
Qed.

Section T.
Context {S : Type} {HS : Scalar S}.
Variable num : S -> R.
Hypothesis num0 : num s_zero = 0.
Hypothesis num1 : num s_one = 1.

Lemma hl_critic_ok erf ratio lo hi bins pc cols lk maxlen smp ej sch (h : list (pop S)) p count L draws out gamma scale masking reward nexts mask
    obs action policy logit_net q1t q2t ln_alpha :
  saturating erf -> lo < hi -> (0 < bins)%nat -> 0 < ratio -> (forall a o, List.length (logit_net a o) = bins) ->
  config_ok cols lk -> fresh_sampler smp -> fresh_ejector ej ->
  schema_ok (pc_terminal pc) sch -> layout cols lk (pc_terminal pc) sch ->
  batches_ok h -> agents_ok pc cols lk sch L h -> (1 <= L)%nat -> (1 <= count)%nat ->
  prun pc (px_new (t_create cols lk maxlen smp ej)) h = (p, Ok tt) ->
  snd (t_sample (px_table p) count L draws) = Ok out ->
  In reward cols -> is_base reward -> c_name reward = "rewards"%string ->
  Forall (fun q => In (fst q) cols /\ (c_kind (fst q) = KVirt (c_name (snd q)) MNextLast \/ c_kind (fst q) = KVirt (c_name (snd q)) MNext /\ L = 1%nat)
                   /\ In (snd q) cols) nexts ->
  In mask cols -> (exists tg, c_kind mask = KVirt tg MMask) ->
  Forall (fun c => In c cols /\ is_base c /\ In (c_name c) (sc_obs sch)) obs ->
  In action cols -> is_base action -> In (c_name action) (sc_resp sch) ->
  exists from, origin h count L from /\
    let answer j t := logit_net (did num action (fst (from j)) (snd (from j) + t)) (seen_at obs (fst (from j)) (snd (from j) + t)) in
    let wanted j t := experienced_target num gamma scale L masking reward (map snd nexts)
                (soft_value policy q1t q2t (exp ln_alpha)) j (fst (from j)) (snd (from j)) t in
    hl_critic erf ratio lo hi bins gamma scale L masking policy logit_net q1t q2t ln_alpha
         (observations out (map (@c_name S) obs) (count * L)) (observations out (map (fun q => c_name (fst q)) nexts) count)
         (map (map num) (dget_default out (c_name action) []))
         (numbers num out (c_name reward)) (numbers num out (c_name mask)) =
    Ok (Some (average count L (fun _ j t => valued lo hi bins (answer j t))),
        Some (average count L (fun _ j t =>
          surprise bins (share erf ratio lo hi bins (within lo hi (wanted j t))) (chance bins (answer j t))))).
Proof.
  intros Se Hlh HB Rp Ln CO Fs Fe SO LA BO AG HL HC E Eo Ir Br Nr Nx Imk Km OB Ia Ba Na.
  destruct (@batch_origin S HS num num0 num1 pc cols lk maxlen smp ej sch h p count L draws out gamma scale masking reward nexts mask
    (soft_value policy q1t q2t (exp ln_alpha)) obs action CO Fs Fe SO LA BO AG HL E Eo Ir Br Nr Nx Imk Km OB Ia Ba Na)
    as (qt & from & Ho & Eq & Eqt & Eob & Eac & _).
  exists from. split; auto. cbv zeta. unfold hl_critic, sac_begin_batch.
  rewrite (@q_target_ext _ gamma scale L masking (sac_next_values policy q1t q2t ln_alpha) (row_by_row (soft_value policy q1t q2t (exp ln_alpha)))) by apply sac_values.
  rewrite Eq. cbn [rbind]. rewrite Eob, Eac, Eqt. rewrite combine_maps, map_map. cbn [fst snd].
  set (N := (count * L)%nat) in *.
  assert (NP : (0 < N)%nat) by (unfold N; apply Nat.mul_pos_pos; lia).
  assert (Ne : seq 0 N <> []) by (destruct N; [lia|discriminate]).
  edestruct (@qloss_minimum erf ratio lo hi bins) as (ts & v & F & -> & -> & _); [auto|auto|auto|auto| | | |].
  4:{ f_equal. f_equal.
    - f_equal. unfold mean, average. rewrite !map_length, seq_length, map_map. fold N. f_equal. f_equal. apply map_ext. intros k.
      apply row_valued. auto.
    - f_equal.
      assert (Ets : ts = map (fun k => map (share erf ratio lo hi bins (within lo hi
           (experienced_target num gamma scale L masking reward (map snd nexts) (soft_value policy q1t q2t (exp ln_alpha))
              (k / L) (fst (from (k / L)%nat)) (snd (from (k / L)%nat)) (k mod L)))) (seq 0 bins)) (seq 0 N)).
      { clear - F Se Hlh HB Rp. revert ts F. generalize (seq 0 N). intros ks. induction ks as [|k ks IH]; intros ts F; inversion F; subst; [reflexivity|].
        cbn [map]. f_equal; [|apply IH; auto]. rewrite target_shares in * by auto.
        match goal with X : map Some _ = map Some _ |- _ => revert X end. clear. intros X.
        apply (f_equal (map (fun o => match o with Some x => x | None => 0 end))) in X. rewrite !map_map, !map_id in X. symmetry. exact X. }
      rewrite Ets. unfold mean, average. rewrite map_length, combine_length, !map_length, seq_length, Nat.min_id. fold N.
      f_equal. f_equal. rewrite combine_maps, map_map. cbn [fst snd]. apply map_ext. intros k.
      rewrite (row_chances bins) by auto. apply cross_surprise. }
  - destruct (seq 0 N); [congruence|discriminate].
  - rewrite !map_length. reflexivity.
  - apply Forall_forall. intros r I. apply in_map_iff in I as (k & <- & _). auto.
Qed.
End T.
