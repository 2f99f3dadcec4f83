(** * VisCut: lemmas for C87 *)
From Coq Require Import QArith Qround Lqa.
From Verif Require Import Py PyLemmas VisModel VisSpec.
Set Implicit Arguments.
Unset Strict Implicit.
Open Scope list_scope.
Open Scope Z_scope.

Lemma on_slice_len {B} a b (f : B -> B) l : (a <= b)%nat -> (b <= List.length l)%nat -> List.length (on_slice a b f l) = List.length l.
Proof.
  intros. unfold on_slice. rewrite !app_length, map_length, !firstn_length, !skipn_length. lia.
Qed.
Lemma nth_firstn_lt {B} (d : B) : forall n i l, (i < n)%nat -> nth i (firstn n l) d = nth i l d.
Proof. induction n; intros i l H; [lia|]. destruct l, i; cbn; auto. apply IHn. lia. Qed.
Lemma nth_skipn' {B} (d : B) : forall n i l, nth i (skipn n l) d = nth (n + i) l d.
Proof. induction n; intros i l; [reflexivity|]. destruct l; cbn; [destruct i; auto|]. apply IHn. Qed.
Lemma on_slice_nth {B} a b (f : B -> B) l (d : B) i : (a <= b)%nat -> (b <= List.length l)%nat ->
  nth i (on_slice a b f l) d = if ((a <=? i) && (i <? b))%nat then f (nth i l d) else nth i l d.
Proof.
  intros Hab Hb. unfold on_slice. rewrite Nat.max_r by auto.
  destruct (Nat.leb_spec a i) as [H1|H1]; cbn [andb].
  - rewrite app_nth2 by (rewrite firstn_length; lia). rewrite firstn_length, Nat.min_l by lia.
    destruct (Nat.ltb_spec i b) as [H2|H2].
    + rewrite app_nth1 by (rewrite map_length, firstn_length, skipn_length; lia).
      rewrite (nth_indep _ d (f d)) by (rewrite map_length, firstn_length, skipn_length; lia).
      rewrite map_nth. f_equal. rewrite nth_firstn_lt by lia. rewrite nth_skipn'. f_equal. lia.
    + rewrite app_nth2 by (rewrite map_length, firstn_length, skipn_length; lia).
      rewrite map_length, firstn_length, skipn_length, Nat.min_l by lia.
      rewrite nth_skipn'. f_equal. lia.
  - rewrite app_nth1 by (rewrite firstn_length; lia). apply nth_firstn_lt; auto.
Qed.

Section Cut.
Context {V : Type} (zero : V).
Notation image := (list (list (list V))).

Lemma blank_cut si sj mx my h w ch (img : image) : is_image h w ch img ->
  0 <= si -> 0 <= sj -> 0 <= mx -> 0 <= my -> si + mx <= Z.of_nat h -> sj + my <= Z.of_nat w ->
  cut_out zero si sj mx my img (blank zero (si, sj, si + mx, sj + my) img).
Proof.
  intros [Hl Hf] A1 A2 A3 A4 A5 A6. unfold blank. cbv beta iota.
  set (f := on_slice (Z.to_nat sj) (Z.to_nat (sj + my)) (map (fun _ => zero))).
  assert (B1 : (Z.to_nat si <= Z.to_nat (si + mx))%nat) by lia.
  assert (B2 : (Z.to_nat (si + mx) <= List.length img)%nat) by lia.
  split; [apply on_slice_len; auto|]. intros i.
  rewrite (on_slice_nth f [] i B1 B2).
  destruct (Nat.leb_spec (Z.to_nat si) i) as [C1|C1]; destruct (Nat.ltb_spec i (Z.to_nat (si + mx))) as [C2|C2]; cbn [andb];
    destruct (Z.leb_spec si (Z.of_nat i)); destruct (Z.ltb_spec (Z.of_nat i) (si + mx)); try lia; cbn [andb]; auto.
  assert (Hw : List.length (nth i img []) = w).
  { rewrite Forall_forall in Hf. apply (Hf (nth i img [])), nth_In. lia. }
  assert (B3 : (Z.to_nat sj <= Z.to_nat (sj + my))%nat) by lia.
  assert (B4 : (Z.to_nat (sj + my) <= List.length (nth i img []))%nat) by lia.
  split; [apply on_slice_len; auto|]. intros j. unfold f. rewrite (on_slice_nth _ [] j B3 B4).
  destruct (Nat.leb_spec (Z.to_nat sj) j) as [D1|D1]; destruct (Nat.ltb_spec j (Z.to_nat (sj + my))) as [D2|D2]; cbn [andb];
    destruct (Z.leb_spec sj (Z.of_nat j)); destruct (Z.ltb_spec (Z.of_nat j) (sj + my)); try lia; cbn [andb]; auto.
Qed.

(** ** Sizes *)
Lemma qint_share (n : Z) (q : Q) : (0 <= inject_Z n * q)%Q -> share_of n q (qint (inject_Z n * q)) /\ 0 <= qint (inject_Z n * q).
Proof.
  intros H. set (x := (inject_Z n * q)%Q) in *. unfold share_of. fold x. clearbody x. destruct x as [a b].
  unfold Qle in H. cbn in H. unfold qint. cbn [Qnum Qden].
  assert (Ha : 0 <= a) by lia. rewrite Z.quot_div_nonneg by lia.
  pose proof (Z.div_mod a (Zpos b) ltac:(lia)) as D. pose proof (Z.mod_pos_bound a (Zpos b) ltac:(lia)) as M.
  split; [|apply Z.div_pos; lia].
  unfold Qle, Qlt, inject_Z. cbn [Qnum Qden]. nia.
Qed.
Lemma share_lt n q m : 1 <= n -> (q < 1)%Q -> share_of n q m -> m < n.
Proof.
  intros Hn Hq [H1 _].
  assert (inject_Z n * q < inject_Z n)%Q as H2.
  { rewrite <- (Qmult_1_r (inject_Z n)) at 2. apply Qmult_lt_l; auto.
    unfold Qlt, inject_Z. cbn. lia. }
  assert (inject_Z m < inject_Z n)%Q as H3 by (eapply Qle_lt_trans; eauto).
  rewrite <- Zlt_Qlt in H3. exact H3.
Qed.
Lemma uniform_range lo hi d d' q : (lo <= hi)%Q -> Forall unit_interval (dr_rand d) -> rand_uniform (V := V) lo hi d = (d', q) ->
  (lo <= q /\ q <= hi)%Q /\ Forall unit_interval (dr_rand d') /\ dr_noise d' = dr_noise d.
Proof.
  intros L F E. unfold rand_uniform, next_rand in E. destruct (dr_rand d) as [|r rs] eqn:Er.
  - injection E as <- <-. split; [split; nra|]. rewrite Er. auto.
  - injection E as <- <-. inversion F as [|? ? [F1 F2] F3]; subst. split; [|cbn; auto].
    split; nra.
Qed.
Lemma next_ints_spec n high : forall d d' xs, next_ints (V := V) n high d = (d', xs) ->
  List.length xs = n /\ dr_rand d' = dr_rand d /\ dr_noise d' = dr_noise d /\ (0 < high -> Forall (fun x => 0 <= x < high) xs).
Proof.
  induction n as [|n IH]; intros d d' xs E; cbn [next_ints] in E.
  - injection E as <- <-. auto.
  - destruct (dr_int d) as [|x r] eqn:Ei.
    + destruct (next_ints n high d) as [d2 ys] eqn:E2. injection E as <- <-.
      destruct (IH _ _ _ E2) as [A [B [C D]]]. cbn [List.length]. split; [lia|]. split; [auto|]. split; [auto|].
      intros Hh. constructor; auto. apply Z.mod_pos_bound; auto.
    + destruct (next_ints n high (mkDraws (dr_rand d) r (dr_noise d))) as [d2 ys] eqn:E2. injection E as <- <-.
      destruct (IH _ _ _ E2) as [A [B [C D]]]. cbn [List.length]. split; [lia|]. split; [auto|]. split; [auto|].
      intros Hh. constructor; auto. apply Z.mod_pos_bound; auto.
Qed.


(** The rectangles drawn for one size. *)
Definition inside (im_x im_y mx my : Z) (r : Z * Z * Z * Z) : Prop :=
  let '(si, sj, ei, ej) := r in ei = si + mx /\ ej = sj + my /\ 0 <= si /\ si + mx < im_x /\ 0 <= sj /\ sj + my < im_y.
Lemma mask_indices_ok c im_x im_y n d : sane c -> 1 <= im_x -> 1 <= im_y -> Forall unit_interval (dr_rand d) ->
  exists d' rs mx my size, mask_indices (V := V) c im_x im_y n d = (d', Ok rs) /\ List.length rs = n /\
   Forall unit_interval (dr_rand d') /\ dr_noise d' = dr_noise d /\
   (au_min c <= size /\ size <= au_max c)%Q /\ share_of im_x size mx /\ share_of im_y size my /\ 0 <= mx /\ 0 <= my /\
   Forall (inside im_x im_y mx my) rs.
Proof.
  intros [S1 [S2 S3]] Hx Hy F. unfold mask_indices.
  destruct (rand_uniform (au_min c) (au_max c) d) as [d1 size] eqn:E1.
  destruct (uniform_range S2 F E1) as [R1 [F1 N1]].
  assert (Hs : (0 <= size)%Q) by (eapply Qle_trans; [exact S1|apply R1]).
  assert (Hs1 : (size < 1)%Q) by (eapply Qle_lt_trans; [apply R1|exact S3]).
  assert (P : forall m, 1 <= m -> (0 <= inject_Z m * size)%Q).
  { intros m Hm. apply Qmult_le_0_compat; auto. unfold Qle, inject_Z. cbn. lia. }
  destruct (@qint_share im_x size (P _ Hx)) as [Sx Mx]. destruct (@qint_share im_y size (P _ Hy)) as [Sy My].
  set (mx := qint (inject_Z im_x * size)) in *. set (my := qint (inject_Z im_y * size)) in *.
  pose proof (share_lt Hx Hs1 Sx) as Lx. pose proof (share_lt Hy Hs1 Sy) as Ly.
  destruct (Z.leb_spec (im_x - mx) 0); [lia|].
  destruct (next_ints n (im_x - mx) d1) as [d2 si] eqn:E2.
  destruct (Z.leb_spec (im_y - my) 0); [lia|].
  destruct (next_ints n (im_y - my) d2) as [d3 sj] eqn:E3.
  destruct (next_ints_spec E2) as [A2 [B2 [C2 D2]]]. destruct (next_ints_spec E3) as [A3 [B3 [C3 D3]]].
  eexists _, _, mx, my, size. split; [reflexivity|].
  split; [rewrite map_length, combine_length; lia|].
  split; [rewrite B3, B2; auto|]. split; [congruence|]. split; [auto|]. split; [auto|]. split; [auto|]. split; [auto|]. split; [auto|].
  specialize (D2 ltac:(lia)). specialize (D3 ltac:(lia)). rewrite Forall_forall in D2, D3.
  apply Forall_forall. intros r Hr. apply in_map_iff in Hr. destruct Hr as [[i j] [<- Hi]].
  pose proof (D2 _ (in_combine_l _ _ _ _ Hi)). pose proof (D3 _ (in_combine_r _ _ _ _ Hi)). cbn [fst snd inside]. lia.
Qed.

(** A rectangle and its size. *)
Definition short (h w : nat) (r : Z * Z * Z * Z) : Prop := let '(si, sj, mx, my) := r in si + mx < Z.of_nat h /\ sj + my < Z.of_nat w.
Definition rect (mx my : Z) (r : Z * Z * Z * Z) : Z * Z * Z * Z := (fst (fst (fst r)), snd (fst (fst r)), mx, my).
Lemma blank_by c h w ch r mx my size (img : image) : is_image h w ch img ->
  (au_min c <= size /\ size <= au_max c)%Q -> share_of (Z.of_nat h) size mx -> share_of (Z.of_nat w) size my -> 0 <= mx -> 0 <= my ->
  inside (Z.of_nat h) (Z.of_nat w) mx my r ->
  cut_by zero (Z.of_nat h) (Z.of_nat w) (au_min c) (au_max c) (rect mx my r) img (blank zero r img).
Proof.
  intros Hi Hs Sx Sy Mx My. destruct r as [[[si sj] ei] ej]. intros [-> [-> [A1 [A2 [A3 A4]]]]].
  unfold rect. cbn [fst snd cut_by].
  split; [eapply blank_cut; eauto; lia|]. split; [lia|]. split; [lia|]. split; [lia|]. split; [lia|]. exists size. auto.
Qed.

Lemma all_cut_cons c h w r rs i images o out :
  cut_by zero (Z.of_nat h) (Z.of_nat w) (au_min c) (au_max c) r i o -> all_cut zero c h w rs images out -> all_cut zero c h w (r :: rs) (i :: images) (o :: out).
Proof. intros H [A [B C]]. split; [constructor; auto|]. cbn [List.length]. lia. Qed.

Lemma inside_short h w mx my r : inside (Z.of_nat h) (Z.of_nat w) mx my r -> short h w (rect mx my r).
Proof. destruct r as [[[si sj] ei] ej]. cbn. lia. Qed.
Lemma cut_each_ok c h w ch : sane c -> (1 <= h)%nat -> (1 <= w)%nat -> forall images d, Forall (is_image h w ch) images ->
  Forall unit_interval (dr_rand d) ->
  exists d' out rs, cut_each zero c (Z.of_nat h) (Z.of_nat w) d images = (d', (out, Ok tt)) /\ all_cut zero c h w rs images out /\ Forall (short h w) rs.
Proof.
  intros Hs Hh Hw. induction images as [|img images IH]; intros d Hi F.
  - eexists _, [], []. split; [reflexivity|]. split; [split; [constructor|]; auto|constructor].
  - inversion Hi as [|? ? H0 Hi']; subst.
    destruct (@mask_indices_ok c (Z.of_nat h) (Z.of_nat w) 1 d Hs ltac:(lia) ltac:(lia) F) as [d1 [rs [mx [my [size [E [L [F1 [N1 [R [Sx [Sy [Mx [My In]]]]]]]]]]]]]].
    destruct rs as [|r [|? ?]]; try discriminate L. inversion In as [|? ? I0 _]; subst.
    destruct (IH d1 Hi' F1) as [d2 [out [rs' [E2 [A Sh]]]]].
    eexists d2, (blank zero r img :: out), (rect mx my r :: rs'). cbn [cut_each]. rewrite E, E2. cbn [nth].
    split; [reflexivity|]. split; [apply all_cut_cons; auto; eapply blank_by; eauto|].
    constructor; auto. apply (inside_short I0).
Qed.
Lemma cut_same c h w ch mx my size : (au_min c <= size /\ size <= au_max c)%Q ->
  share_of (Z.of_nat h) size mx -> share_of (Z.of_nat w) size my -> 0 <= mx -> 0 <= my ->
  forall images rs, Forall (is_image h w ch) images -> List.length rs = List.length images -> Forall (inside (Z.of_nat h) (Z.of_nat w) mx my) rs ->
  all_cut zero c h w (map (rect mx my) rs) images (map (fun ri => blank zero (fst ri) (snd ri)) (combine rs images)).
Proof.
  intros R Sx Sy Mx My. induction images as [|img images IH]; intros rs Hi L In.
  - destruct rs; [|discriminate L]. split; [constructor|auto].
  - destruct rs as [|r rs]; [discriminate L|]. inversion Hi; subst. inversion In; subst. cbn [map combine fst snd].
    apply all_cut_cons; [eapply blank_by; eauto|]. apply IH; auto.
Qed.
Lemma cut_all c h w ch mx my size r : (au_min c <= size /\ size <= au_max c)%Q ->
  share_of (Z.of_nat h) size mx -> share_of (Z.of_nat w) size my -> 0 <= mx -> 0 <= my -> inside (Z.of_nat h) (Z.of_nat w) mx my r ->
  forall images, Forall (is_image h w ch) images ->
  all_cut zero c h w (map (fun _ => rect mx my r) images) images (map (blank zero r) images).
Proof.
  intros R Sx Sy Mx My In. induction images as [|img images IH]; intros Hi.
  - split; [constructor|auto].
  - inversion Hi; subst. cbn [map]. apply all_cut_cons; [eapply blank_by; eauto|]. apply IH; auto.
Qed.

Lemma fresh_spec c d : exists d1 fresh,
  (if au_noise c then let '(d', p) := rand_uniform (V := V) 0 1 d in (d', negb (Qle_bool (1 # 4) p)) else (d, false)) = (d1, fresh)
  /\ dr_noise d1 = dr_noise d /\ (noisy c d -> fresh = true) /\ (noise_free c d -> fresh = false).
Proof.
  unfold noisy, noise_free. destruct (au_noise c).
  - unfold rand_uniform, next_rand. destruct (dr_rand d) as [|p r].
    + eexists _, _. split; [reflexivity|]. split; [reflexivity|]. split; [intros [_ [? [? [? _]]]]|intros [?|[? [? [? _]]]]]; discriminate.
    + eexists _, _. split; [reflexivity|]. split; [reflexivity|].
      assert (P : ((1 - 0) * p + 0 == p)%Q) by ring.
      split.
      * intros [_ [? [? [E L]]]]. injection E as <- <-. destruct (Qle_bool _ _) eqn:B; [|reflexivity].
        apply Qle_bool_iff in B. rewrite P in B. exfalso. apply (Qlt_not_le _ _ L B).
      * intros [?|[? [? [E L]]]]; [discriminate|]. injection E as <- <-.
        replace (Qle_bool _ _) with true; [reflexivity|]. symmetry. apply Qle_bool_iff. rewrite P. exact L.
  - eexists _, _. split; [reflexivity|]. split; [reflexivity|]. split; [intros [? _]; discriminate|reflexivity].
Qed.
Theorem augment_cuts c h w ch d images : sane c -> (1 <= h)%nat -> (1 <= w)%nat -> Forall unit_interval (dr_rand d) ->
  Forall (is_image h w ch) images -> Forall (is_image h w ch) (dr_noise d images) ->
  exists base out rs, snd (augment zero c (Z.of_nat h) (Z.of_nat w) d images) = Ok out /\
    ((noisy c d -> base = dr_noise d images) /\ (noise_free c d -> base = images)) /\
    all_cut zero c h w rs base out /\ Forall (short h w) rs /\
    (au_fast c = true -> exists r, rs = map (fun _ => r) base) /\
    (au_fast c = false -> au_per_image c = false -> exists mx my, Forall (fun r => snd (fst r) = mx /\ snd r = my) rs).
Proof.
  intros Hs Hh Hw F Hi Hn. unfold augment.
  assert (exists d1 fresh, (if au_noise c then let '(d', p) := rand_uniform 0 1 d in (d', negb (Qle_bool (1 # 4) p)) else (d, false)) = (d1, fresh)
            /\ Forall unit_interval (dr_rand d1) /\ dr_noise d1 = dr_noise d /\ (noisy c d -> fresh = true) /\ (noise_free c d -> fresh = false)) as H.
  { destruct (fresh_spec c d) as [d1 [fresh [E [N [A B]]]]]. exists d1, fresh. split; [exact E|]. split; [|auto].
    destruct (au_noise c).
    - destruct (rand_uniform 0 1 d) as [d' p] eqn:E1. destruct (@uniform_range 0 1 d d' p ltac:(discriminate) F E1) as [_ [F' N']].
      injection E as <- _. auto.
    - injection E as <- _. auto. }
  destruct H as [d1 [fresh [E [F1 [N1 [Fr1 Fr2]]]]]]. rewrite E.
  set (base := if fresh then dr_noise d1 images else images).
  assert (Hb : Forall (is_image h w ch) base) by (subst base; destruct fresh; [rewrite N1|]; auto).
  assert (Ob : (noisy c d -> base = dr_noise d images) /\ (noise_free c d -> base = images)).
  { subst base. rewrite N1. split; intros Q; [rewrite (Fr1 Q)|rewrite (Fr2 Q)]; reflexivity. }
  exists base. clearbody base.
  destruct (au_fast c) eqn:Ef.
  - destruct (@mask_indices_ok c (Z.of_nat h) (Z.of_nat w) 1 d1 Hs ltac:(lia) ltac:(lia) F1) as [d2 [rs [mx [my [size [E2 [L [F2 [N2 [R [Sx [Sy [Mx [My In]]]]]]]]]]]]]].
    rewrite E2. destruct rs as [|r [|? ?]]; try discriminate L. inversion In as [|? ? I0 _]; subst. cbn [nth].
    eexists _, (map (fun _ => rect mx my r) base). cbn [snd]. split; [reflexivity|]. split; [auto|].
    split; [eapply cut_all; eauto|].
    split; [apply Forall_forall; intros q Hq; apply in_map_iff in Hq; destruct Hq as [? [<- _]]; apply (inside_short I0)|].
    split; [eauto|discriminate].
  - destruct (au_per_image c) eqn:Ep.
    + destruct (@cut_each_ok c h w ch Hs Hh Hw base d1 Hb F1) as [d2 [out [rs [E2 [A Sh]]]]]. rewrite E2. cbn [snd].
      exists out, rs. split; [reflexivity|]. split; [auto|]. split; [auto|]. split; [auto|]. split; discriminate.
    + destruct (@mask_indices_ok c (Z.of_nat h) (Z.of_nat w) (List.length base) d1 Hs ltac:(lia) ltac:(lia) F1) as [d2 [rs [mx [my [size [E2 [L [F2 [N2 [R [Sx [Sy [Mx [My In]]]]]]]]]]]]]].
      rewrite E2. cbn [snd]. eexists _, (map (rect mx my) rs). split; [reflexivity|]. split; [auto|].
      split; [eapply cut_same; eauto|].
      split; [apply Forall_forall; intros q Hq; apply in_map_iff in Hq; destruct Hq as [r [<- Hr]]; rewrite Forall_forall in In; apply (inside_short (In _ Hr))|].
      split; [discriminate|]. intros _ _. exists mx, my.
      apply Forall_forall. intros q Hq. apply in_map_iff in Hq. destruct Hq as [r [<- _]]. auto.
Qed.

Lemma nth_same {B} (d : B) : forall l l', List.length l = List.length l' -> (forall i, nth i l d = nth i l' d) -> l = l'.
Proof.
  induction l as [|a l IH]; intros [|b l'] H N; try discriminate H; auto.
  f_equal; [apply (N 0%nat)|]. apply IH; [cbn in H; lia|]. intros i. apply (N (S i)).
Qed.
Lemma cut_spares lo hi h w r i o : (1 <= h)%nat -> (1 <= w)%nat -> cut_by zero (Z.of_nat h) (Z.of_nat w) lo hi r i o -> short h w r -> spared h w i o.
Proof.
  intros Hh Hw. destruct r as [[[si sj] mx] my]. intros [[_ C] _] [S1 S2]. split.
  - destruct (C (h - 1)%nat) as [L N]. apply nth_same with (d := []); auto. intros j. rewrite N.
    destruct (Z.ltb_spec (Z.of_nat (h - 1)) (si + mx)); [lia|]. rewrite andb_false_r. reflexivity.
  - intros x. destruct (C x) as [_ N]. rewrite N.
    destruct (Z.ltb_spec (Z.of_nat (w - 1)) (sj + my)); [lia|]. rewrite andb_false_r. reflexivity.
Qed.
Lemma all_spared c h w : (1 <= h)%nat -> (1 <= w)%nat -> forall images rs out, all_cut zero c h w rs images out -> Forall (short h w) rs ->
  Forall2 (spared h w) images out.
Proof.
  intros Hh Hw. induction images as [|i images IH]; intros rs out [A [B C]] S.
  - destruct out; [constructor|discriminate B].
  - destruct out as [|o out]; [discriminate B|]. destruct rs as [|r rs]; [discriminate C|].
    cbn [combine] in A. inversion A; subst. inversion S; subst. constructor; [eapply cut_spares; eauto|].
    apply (IH rs). { split; [auto|]. cbn [List.length] in B, C. lia. } auto.
Qed.
Theorem augment_result c h w ch d images : sane c -> (1 <= h)%nat -> (1 <= w)%nat -> Forall unit_interval (dr_rand d) ->
  Forall (is_image h w ch) images -> Forall (is_image h w ch) (dr_noise d images) ->
  exists base out rs, snd (augment zero c (Z.of_nat h) (Z.of_nat w) d images) = Ok out /\
    ((noisy c d -> base = dr_noise d images) /\ (noise_free c d -> base = images)) /\
    all_cut zero c h w rs base out /\
    (au_fast c = true -> exists r, rs = map (fun _ => r) base) /\
    (au_fast c = false -> au_per_image c = false -> exists mx my, Forall (fun r => snd (fst r) = mx /\ snd r = my) rs).
Proof.
  intros A1 A2 A3 A4 A5 A6. destruct (augment_cuts A1 A2 A3 A4 A5 A6) as [base [out [rs [E [B [C [_ D]]]]]]].
  exists base, out, rs. auto.
Qed.
Theorem augment_spares c h w ch d images : sane c -> (1 <= h)%nat -> (1 <= w)%nat -> Forall unit_interval (dr_rand d) ->
  Forall (is_image h w ch) images -> Forall (is_image h w ch) (dr_noise d images) ->
  exists base out, snd (augment zero c (Z.of_nat h) (Z.of_nat w) d images) = Ok out /\
    ((noisy c d -> base = dr_noise d images) /\ (noise_free c d -> base = images)) /\ Forall2 (spared h w) base out.
Proof.
  intros A1 A2 A3 A4 A5 A6. destruct (augment_cuts A1 A2 A3 A4 A5 A6) as [base [out [rs [E [B [C [S _]]]]]]].
  exists base, out. split; [auto|]. split; [auto|]. eapply all_spared; eauto.
Qed.
(** Without noise the tensor that was passed in is the result. *)
Theorem augment_argument c h w d images :
  (noisy c d -> fst (augment zero c h w d images) = images) /\
  (noise_free c d -> forall out, snd (augment zero c h w d images) = Ok out -> fst (augment zero c h w d images) = out).
Proof.
  unfold augment. destruct (fresh_spec c d) as [d1 [fresh [E [_ [A B]]]]]. rewrite E. split; intros Q.
  - rewrite (A Q). match goal with |- fst (let '(_, _) := ?t in _) = _ => destruct t end. reflexivity.
  - rewrite (B Q). destruct (au_fast c).
    + destruct (mask_indices c h w 1 d1) as [d' [rs|e]]; cbn; intros out H; congruence.
    + destruct (au_per_image c).
      * destruct (cut_each zero c h w d1 images) as [d' [w' [u|e]]]; cbn; intros out H; congruence.
      * destruct (mask_indices c h w _ d1) as [d' [rs|e]]; cbn; intros out H; congruence.
Qed.
End Cut.
