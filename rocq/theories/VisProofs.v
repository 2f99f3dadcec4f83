(** * VisProofs: lemmas for C84 *)
From Verif Require Import Py PyLemmas VisModel VisSpec.
Set Implicit Arguments.
Unset Strict Implicit.
Open Scope list_scope.
Open Scope Z_scope.

(** ** Windows *)
Definition count (n k s : Z) : Z := if k <=? n then (n - k) / s + 1 else 0.

Lemma windows_from_len {B} k s : (1 <= k)%nat -> (1 <= s)%nat -> forall f (l : list B), (List.length l <= f)%nat ->
  zlen (windows_from f k s l) = count (zlen l) (Z.of_nat k) (Z.of_nat s).
Proof.
  intros Hk Hs. induction f as [|f IH]; intros l Hl; cbn [windows_from].
  - destruct l; [|cbn in Hl; lia]. unfold count, zlen. cbn [List.length].
    destruct (Z.leb_spec (Z.of_nat k) (Z.of_nat 0)); [lia|]. reflexivity.
  - unfold count. unfold zlen at 2 3. destruct (Nat.leb_spec k (List.length l)) as [Hle|Hgt].
    + destruct (Z.leb_spec (Z.of_nat k) (Z.of_nat (List.length l))); [|lia].
      unfold zlen. cbn [List.length]. rewrite Nat2Z.inj_succ. fold (zlen (windows_from f k s (skipn s l))).
      rewrite IH by (rewrite skipn_length; lia). unfold count, zlen. rewrite skipn_length.
      destruct (Z.leb_spec (Z.of_nat k) (Z.of_nat (List.length l - s))) as [H1|H1].
      * rewrite Nat2Z.inj_sub by lia.
        replace (Z.of_nat (List.length l) - Z.of_nat k) with (Z.of_nat (List.length l) - Z.of_nat s - Z.of_nat k + 1 * Z.of_nat s) by lia.
        rewrite Z.div_add by lia. lia.
      * assert ((Z.of_nat (List.length l) - Z.of_nat k) / Z.of_nat s = 0) by (apply Z.div_small; lia). lia.
    + destruct (Z.leb_spec (Z.of_nat k) (Z.of_nat (List.length l))); [lia|]. reflexivity.
Qed.
Lemma windows_len {B} k s (l : list B) : (1 <= k)%nat -> (1 <= s)%nat ->
  zlen (windows k s l) = count (zlen l) (Z.of_nat k) (Z.of_nat s).
Proof. intros. apply windows_from_len; auto. Qed.
Lemma windows_from_each {B} k s : forall f (l : list B), Forall (fun w => List.length w = k /\ incl w l) (windows_from f k s l).
Proof.
  induction f as [|f IH]; intros l; cbn [windows_from]; [constructor|].
  destruct (Nat.leb_spec k (List.length l)); [|constructor].
  constructor.
  - split; [apply firstn_length_le; auto|].
    intros x Hx. rewrite <- (firstn_skipn k l). apply in_or_app; auto.
  - eapply Forall_impl; [|apply IH]. intros w [E I]. split; auto.
    intros x Hx. rewrite <- (firstn_skipn s l). apply in_or_app; right. apply I, Hx.
Qed.
Lemma windows_each {B} k s (l : list B) : Forall (fun w => List.length w = k /\ incl w l) (windows k s l).
Proof. apply windows_from_each. Qed.

Lemma places_count n k s p m : 1 <= s -> 1 <= m -> places n k s p m -> m = count (n + 2 * p) k s.
Proof.
  intros Hs Hm Hp. unfold count.
  pose proof (proj1 (Hp 0 ltac:(lia)) ltac:(lia)) as H0.
  destruct (Z.leb_spec k (n + 2 * p)); [|lia].
  pose proof (proj1 (Hp (m - 1) ltac:(lia)) ltac:(lia)) as H1.
  assert (H2 : ~ m * s + k <= n + 2 * p) by (intros C; pose proof (proj2 (Hp m ltac:(lia)) C); lia).
  assert ((n + 2 * p - k) / s = m - 1); [|lia].
  symmetry. apply Z.div_unique with (n + 2 * p - k - s * (m - 1)); nia.
Qed.
Lemma count_places n k s p : 1 <= s -> k <= n + 2 * p -> places n k s p (count (n + 2 * p) k s).
Proof.
  intros Hs Hk i Hi. unfold count. destruct (Z.leb_spec k (n + 2 * p)); [|lia].
  pose proof (Z.div_mod (n + 2 * p - k) s ltac:(lia)).
  pose proof (Z.mod_pos_bound (n + 2 * p - k) s ltac:(lia)). nia.
Qed.
Lemma count_pos n k s : 1 <= s -> k <= n -> 1 <= count n k s.
Proof.
  intros. unfold count. destruct (Z.leb_spec k n); [|lia].
  pose proof (Z.div_pos (n - k) s ltac:(lia) ltac:(lia)). lia.
Qed.

Lemma zlen_map {X Y} (f : X -> Y) l : zlen (map f l) = zlen l.
Proof. unfold zlen. rewrite map_length. auto. Qed.
Lemma zlen_seq a n : zlen (seq a n) = Z.of_nat n.
Proof. unfold zlen. rewrite seq_length. auto. Qed.
Lemma pad_len {B} (z : B) p l : zlen (pad z p l) = zlen l + 2 * Z.of_nat p.
Proof. unfold pad, zlen. rewrite !app_length, !repeat_length. lia. Qed.
Lemma zlen_nil_inv {B} (l : list B) : zlen l = 0 -> l = [].
Proof. destruct l; auto. unfold zlen; cbn [List.length]; lia. Qed.

(** ** One layer *)
Section Conv.
Context {A : Type} (zero : A).

Lemma is1_nth c x (m : list (list A)) i : is1 c x m -> Z.of_nat i < c -> zlen (nth i m []) = x.
Proof.
  intros [Hc Hf] Hi. rewrite Forall_forall in Hf. apply Hf, nth_In. unfold zlen in *. lia.
Qed.
Lemma is2_nth c x y (m : list (list (list A))) i : is2 c x y m -> Z.of_nat i < c -> is1 x y (nth i m []).
Proof.
  intros [Hc Hf] Hi. rewrite Forall_forall in Hf. apply Hf, nth_In. unfold zlen in *. lia.
Qed.

Definition conv_ok (c_in k s p n : Z) (c : Z) : bool :=
  negb (negb (c =? c_in) || (k <? 1) || (s <? 1) || (p <? 0) || (n + 2 * p <? k)).

Lemma size1_map_windows k s (m : list (list A)) c x : (1 <= k)%nat -> (1 <= s)%nat -> 1 <= c -> is1 c x m ->
  Z.of_nat (size1 (map (windows k s) m)) = count x (Z.of_nat k) (Z.of_nat s).
Proof.
  intros Hk Hs Hc [Hl Hf]. destruct m as [|r m]; [unfold zlen in Hl; cbn in Hl; lia|].
  cbn [map size1]. inversion Hf; subst. fold (zlen (windows k s r)). apply windows_len; auto.
Qed.
Lemma size1_is c x (m : list (list A)) : 1 <= c -> is1 c x m -> Z.of_nat (size1 m) = x.
Proof. intros Hc [Hl Hf]. destruct m; [unfold zlen in Hl; cbn in Hl; lia|]. inversion Hf; subst. reflexivity. Qed.

Lemma run_conv1_spec l (m : list (list A)) c x : 1 <= c -> is1 c x m ->
  (c = c1_in l /\ 1 <= c1_k l /\ 1 <= c1_s l /\ 0 <= c1_p l /\ c1_k l <= x + 2 * c1_p l /\
   exists o, run_conv1 zero l m = Ok o /\ is1 (zlen (c1_units l)) (count (x + 2 * c1_p l) (c1_k l) (c1_s l)) o)
  \/ (~ (c = c1_in l /\ 1 <= c1_k l /\ 1 <= c1_s l /\ 0 <= c1_p l /\ c1_k l <= x + 2 * c1_p l) /\ run_conv1 zero l m = Err RuntimeError).
Proof.
  intros Hc Hm. unfold run_conv1. rewrite (is1_nth (i := 0%nat) Hm) by (cbn; lia). rewrite (proj1 Hm).
  destruct (Z.eqb_spec c (c1_in l)) as [E1|E1]; [|right; split; [intuition|reflexivity]].
  destruct (Z.ltb_spec (c1_k l) 1); [right; split; [lia|reflexivity]|].
  destruct (Z.ltb_spec (c1_s l) 1); [right; split; [lia|reflexivity]|].
  destruct (Z.ltb_spec (c1_p l) 0); [right; split; [lia|reflexivity]|].
  destruct (Z.ltb_spec (x + 2 * c1_p l) (c1_k l)); [right; split; [lia|reflexivity]|].
  cbn [negb orb]. left. split; [auto|]. split; [lia|]. split; [lia|]. split; [lia|]. split; [lia|].
  eexists. split; [reflexivity|].
  split; [apply zlen_map|].
  apply Forall_forall. intros r Hr. apply in_map_iff in Hr. destruct Hr as [u [<- _]].
  rewrite !zlen_map, zlen_seq.
  rewrite (@size1_map_windows _ _ _ c (x + 2 * c1_p l)); try lia.
  - rewrite !Z2Nat.id by lia. reflexivity.
  - split; [rewrite zlen_map; apply Hm|].
    apply Forall_forall. intros q Hq. apply in_map_iff in Hq. destruct Hq as [q' [<- Hq']].
    rewrite pad_len, Z2Nat.id by lia. f_equal. destruct Hm as [_ Hf]. rewrite Forall_forall in Hf. auto.
Qed.

Lemma pad2_is p (m : list (list A)) x y : 1 <= x -> is1 x y m -> is1 (x + 2 * Z.of_nat p) (y + 2 * Z.of_nat p) (pad2 zero p m).
Proof.
  intros Hx Hm. unfold pad2. split; [rewrite pad_len, zlen_map, (proj1 Hm); reflexivity|].
  pose proof (size1_is Hx Hm) as Hs.
  assert (zlen (repeat zero (size1 m + 2 * p)) = y + 2 * Z.of_nat p) as Hr.
  { unfold zlen. rewrite repeat_length. lia. }
  apply Forall_forall. intros q Hq. unfold pad in Hq. rewrite !in_app_iff in Hq.
  destruct Hq as [Hq|[Hq|Hq]].
  - apply repeat_spec in Hq. subst q. auto.
  - apply in_map_iff in Hq. destruct Hq as [q' [<- Hq']].
    fold (pad zero p q'). rewrite pad_len. f_equal. destruct Hm as [_ Hf]. rewrite Forall_forall in Hf. auto.
  - apply repeat_spec in Hq. subst q. auto.
Qed.
Lemma windows2_is k s (m : list (list A)) x y : (1 <= k)%nat -> (1 <= s)%nat -> is1 x y m ->
  zlen (windows2 k s m) = count x (Z.of_nat k) (Z.of_nat s) /\
  Forall (fun r => zlen r = count y (Z.of_nat k) (Z.of_nat s)) (windows2 k s m).
Proof.
  intros Hk Hs Hm. unfold windows2. split.
  - rewrite zlen_map, windows_len by auto. rewrite (proj1 Hm). auto.
  - apply Forall_forall. intros r Hr. apply in_map_iff in Hr. destruct Hr as [w [<- Hw]].
    pose proof (windows_each k s m) as He. rewrite Forall_forall in He. destruct (He _ Hw) as [Hl Hi].
    rewrite zlen_map, zlen_seq. apply (@size1_map_windows k s w (Z.of_nat k) y); auto; try lia.
    split; [unfold zlen; lia|]. apply Forall_forall. intros q Hq. destruct Hm as [_ Hf]. rewrite Forall_forall in Hf. auto.
Qed.

Lemma run_conv2_spec l (m : list (list (list A))) c x y : 1 <= c -> 1 <= x -> 1 <= y -> is2 c x y m ->
  (c = c2_in l /\ 1 <= c2_k l /\ 1 <= c2_s l /\ 0 <= c2_p l /\ c2_k l <= x + 2 * c2_p l /\ c2_k l <= y + 2 * c2_p l /\
   exists o, run_conv2 zero l m = Ok o /\
     is2 (zlen (c2_units l)) (count (x + 2 * c2_p l) (c2_k l) (c2_s l)) (count (y + 2 * c2_p l) (c2_k l) (c2_s l)) o)
  \/ (~ (c = c2_in l /\ 1 <= c2_k l /\ 1 <= c2_s l /\ 0 <= c2_p l /\ c2_k l <= x + 2 * c2_p l /\ c2_k l <= y + 2 * c2_p l)
      /\ run_conv2 zero l m = Err RuntimeError).
Proof.
  intros Hc Hx Hy Hm. unfold run_conv2. pose proof (is2_nth (i := 0%nat) Hm ltac:(cbn; lia)) as H0.
  rewrite (is1_nth (i := 0%nat) H0) by (cbn; lia). rewrite (proj1 Hm), (proj1 H0).
  destruct (Z.eqb_spec c (c2_in l)) as [E1|E1]; [|right; split; [intuition|reflexivity]].
  destruct (Z.ltb_spec (c2_k l) 1); [right; split; [lia|reflexivity]|].
  destruct (Z.ltb_spec (c2_s l) 1); [right; split; [lia|reflexivity]|].
  destruct (Z.ltb_spec (c2_p l) 0); [right; split; [lia|reflexivity]|].
  destruct (Z.ltb_spec (x + 2 * c2_p l) (c2_k l)); [right; split; [lia|reflexivity]|].
  destruct (Z.ltb_spec (y + 2 * c2_p l) (c2_k l)); [right; split; [lia|reflexivity]|].
  cbn [negb orb]. left. do 6 (split; [first [assumption|lia]|]).
  eexists. split; [reflexivity|].
  split; [apply zlen_map|].
  apply Forall_forall. intros r Hr. apply in_map_iff in Hr. destruct Hr as [u [<- _]].
  destruct m as [|m0 m']; [unfold is2, zlen in Hm; cbn in Hm; lia|].
  cbn [map nth] in *.
  destruct (@windows2_is (Z.to_nat (c2_k l)) (Z.to_nat (c2_s l)) (pad2 zero (Z.to_nat (c2_p l)) m0) (x + 2 * c2_p l) (y + 2 * c2_p l)) as [W1 W2]; try lia.
  { pose proof (pad2_is (Z.to_nat (c2_p l)) Hx H0) as Hp. rewrite Z2Nat.id in Hp by lia. exact Hp. }
  rewrite !Z2Nat.id in W1, W2 by lia.
  split.
  - rewrite !zlen_map, zlen_seq. exact W1.
  - apply Forall_forall. intros q Hq. apply in_map_iff in Hq. destruct Hq as [q' [<- Hq']].
    apply in_map_iff in Hq'. destruct Hq' as [i [<- Hi]].
    rewrite !zlen_map, zlen_seq.
    set (ww := windows2 _ _ _) in *. destruct ww as [|w0 ww'] eqn:Eww.
    + pose proof (@count_pos (x + 2 * c2_p l) (c2_k l) (c2_s l) ltac:(lia) ltac:(lia)) as Hpos. rewrite <- W1 in Hpos. unfold zlen in Hpos. cbn in Hpos. lia.
    + cbn [size1]. inversion W2; subst. auto.
Qed.

(** ** All layers *)
Lemma last_cons_default (l : list Z) a b : l <> [] -> last l a = last l b.
Proof. induction l as [|x l IH]; [congruence|]. intros _. destruct l; [reflexivity|]. cbn [last] in *. apply IH. discriminate. Qed.

Lemma out_size_step cur k s p ks ss ps : s <> 0 -> out_size cur (k :: ks) (s :: ss) (p :: ps) = out_size ((cur - k + 2 * p) / s + 1) ks ss ps.
Proof. intros. cbn [out_size]. destruct (Z.eqb_spec s 0); [lia|auto]. Qed.
Lemma count_eq cur k s p : k <= cur + 2 * p -> count (cur + 2 * p) k s = (cur - k + 2 * p) / s + 1.
Proof. intros. unfold count. destruct (Z.leb_spec k (cur + 2 * p)); [|lia]. do 2 f_equal. lia. Qed.

Lemma units_len {W} (w : nat -> W) c : 1 <= c -> zlen (map w (seq 0 (Z.to_nat c))) = c.
Proof. intros. rewrite zlen_map, zlen_seq, Z2Nat.id; lia. Qed.

Lemma out_size_stop : forall channels ks ss ps (n : nat), 
  Nat.min (Nat.min (List.length ks) (List.length ss)) (List.length ps) = List.length (channels : list Z) ->
  channels = [] -> forall cur, out_size cur ks ss ps = Ok cur.
Proof.
  intros channels ks ss ps _ H -> cur. destruct ks; [reflexivity|]. destruct ss; [reflexivity|]. destruct ps; [reflexivity|].
  cbn in H. lia.
Qed.

Lemma build2_run (w : nat -> nat -> unit2 (A := A)) : forall channels i c_in ks ss ps ls m x y,
  build2 w i c_in channels ks ss ps = Ok ls ->
  Forall (fun c => 1 <= c) channels -> 1 <= c_in -> 1 <= x -> 1 <= y -> is2 c_in x y m ->
  Nat.min (Nat.min (List.length ks) (List.length ss)) (List.length ps) = List.length channels ->
  forall o, run_layers2 zero ls m = Ok o ->
  exists x' y', 1 <= x' /\ 1 <= y' /\ out_size x ks ss ps = Ok x' /\ out_size y ks ss ps = Ok y' /\ is2 (last channels c_in) x' y' o /\
   fits x (settings ks ss ps) /\ fits y (settings ks ss ps).
Proof.
  induction channels as [|c channels IH]; intros i c_in ks ss ps ls m x y Hb Hc Hin Hx Hy Hm Hlen o Ho.
  - cbn in Hb. injection Hb as <-. cbn in Ho. injection Ho as <-.
    exists x, y. rewrite !(@out_size_stop [] ks ss ps 0%nat Hlen eq_refl). cbn [last].
    assert (Es : settings ks ss ps = []).
    { unfold settings. destruct ks; [reflexivity|]. destruct ss; [reflexivity|]. destruct ps; [reflexivity|]. cbn in Hlen; lia. }
    rewrite Es. cbn [fits]. auto 10.
  - destruct ks as [|k ks]; [discriminate Hb|]. destruct ss as [|s ss]; [discriminate Hb|]. destruct ps as [|p ps]; [discriminate Hb|].
    cbn [build2] in Hb. destruct (build2 w (S i) c channels ks ss ps) as [ls'|] eqn:Hb'; [|discriminate Hb].
    cbn [rbind] in Hb. injection Hb as <-. cbn [run_layers2] in Ho.
    inversion Hc as [|? ? Hc1 Hc2]; subst.
    set (l := mkConv2 c_in k s p (map (w i) (seq 0 (Z.to_nat c)))) in *.
    destruct (@run_conv2_spec l m c_in x y Hin Hx Hy Hm) as [[_ [Hk [Hs [Hp [Kx [Ky [o1 [E1 I1]]]]]]]]|[_ E1]]; rewrite E1 in Ho; cbn [rbind] in Ho; [|discriminate Ho].
    cbn [c2_in c2_k c2_s c2_p c2_units l] in *.
    rewrite units_len in I1 by auto.
    destruct (IH _ _ _ _ _ _ _ _ _ Hb' Hc2 Hc1 (count_pos Hs Kx) (count_pos Hs Ky) I1 ltac:(cbn [List.length] in Hlen; lia) _ Ho)
      as [x' [y' [P1 [P2 [O1 [O2 [I [F1 F2]]]]]]]].
    exists x', y'. rewrite !out_size_step by lia. rewrite <- !count_eq by lia.
    split; [auto|]. split; [auto|]. split; [auto|]. split; [auto|].
    split; [destruct channels as [|z channels]; [exact I|]; rewrite (@last_cons_default (z :: channels) c c_in) in I by discriminate; exact I|].
    unfold settings in *. cbn [combine fits].
    split; split; auto; split; auto; split; auto.
    + exists (count (x + 2 * p) k s). split; [apply count_pos; auto|]. split; [apply count_places; auto|auto].
    + exists (count (y + 2 * p) k s). split; [apply count_pos; auto|]. split; [apply count_places; auto|auto].
Qed.

Lemma build2_fits (w : nat -> nat -> unit2 (A := A)) : forall channels i c_in ks ss ps ls m x y,
  build2 w i c_in channels ks ss ps = Ok ls ->
  Forall (fun c => 1 <= c) channels -> 1 <= c_in -> 1 <= x -> 1 <= y -> is2 c_in x y m ->
  fits x (settings ks ss ps) -> fits y (settings ks ss ps) ->
  exists o, run_layers2 zero ls m = Ok o.
Proof.
  induction channels as [|c channels IH]; intros i c_in ks ss ps ls m x y Hb Hc Hin Hx Hy Hm F1 F2.
  - cbn in Hb. injection Hb as <-. cbn. eauto.
  - destruct ks as [|k ks]; [discriminate Hb|]. destruct ss as [|s ss]; [discriminate Hb|]. destruct ps as [|p ps]; [discriminate Hb|].
    cbn [build2] in Hb. destruct (build2 w (S i) c channels ks ss ps) as [ls'|] eqn:Hb'; [|discriminate Hb].
    cbn [rbind] in Hb. injection Hb as <-. cbn [run_layers2].
    inversion Hc as [|? ? Hc1 Hc2]; subst.
    unfold settings in F1, F2. cbn [combine fits] in F1, F2.
    destruct F1 as [Hk [Hs [Hp [mx [Mx [Px Fx]]]]]]. destruct F2 as [_ [_ [_ [my [My [Py Fy]]]]]].
    pose proof (proj1 (Px 0 ltac:(lia)) ltac:(lia)) as Kx. pose proof (proj1 (Py 0 ltac:(lia)) ltac:(lia)) as Ky.
    pose proof (places_count Hs Mx Px) as Ex. pose proof (places_count Hs My Py) as Ey. subst mx my.
    set (l := mkConv2 c_in k s p (map (w i) (seq 0 (Z.to_nat c)))) in *.
    destruct (@run_conv2_spec l m c_in x y Hin Hx Hy Hm) as [[_ [_ [_ [_ [_ [_ [o1 [E1 I1]]]]]]]]|[C _]].
    + rewrite E1. cbn [rbind]. cbn [c2_in c2_k c2_s c2_p c2_units l] in *. rewrite units_len in I1 by auto.
      apply (IH _ _ _ _ _ _ _ _ _ Hb' Hc2 Hc1 Mx My I1 Fx Fy).
    + exfalso. apply C. cbn [c2_in c2_k c2_s c2_p l]. repeat split; lia.
Qed.

Lemma build1_run (w : nat -> nat -> unit1 (A := A)) : forall channels i c_in ks ss ps ls m x,
  build1 w i c_in channels ks ss ps = Ok ls ->
  Forall (fun c => 1 <= c) channels -> 1 <= c_in -> 1 <= x -> is1 c_in x m ->
  Nat.min (Nat.min (List.length ks) (List.length ss)) (List.length ps) = List.length channels ->
  forall o, run_layers1 zero ls m = Ok o ->
  exists x', 1 <= x' /\ out_size x ks ss ps = Ok x' /\ is1 (last channels c_in) x' o /\ fits x (settings ks ss ps).
Proof.
  induction channels as [|c channels IH]; intros i c_in ks ss ps ls m x Hb Hc Hin Hx Hm Hlen o Ho.
  - cbn in Hb. injection Hb as <-. cbn in Ho. injection Ho as <-.
    exists x. rewrite !(@out_size_stop [] ks ss ps 0%nat Hlen eq_refl). cbn [last].
    assert (Es : settings ks ss ps = []).
    { unfold settings. destruct ks; [reflexivity|]. destruct ss; [reflexivity|]. destruct ps; [reflexivity|]. cbn in Hlen; lia. }
    rewrite Es. cbn [fits]. auto 10.
  - destruct ks as [|k ks]; [discriminate Hb|]. destruct ss as [|s ss]; [discriminate Hb|]. destruct ps as [|p ps]; [discriminate Hb|].
    cbn [build1] in Hb. destruct (build1 w (S i) c channels ks ss ps) as [ls'|] eqn:Hb'; [|discriminate Hb].
    cbn [rbind] in Hb. injection Hb as <-. cbn [run_layers1] in Ho.
    inversion Hc as [|? ? Hc1 Hc2]; subst.
    set (l := mkConv1 c_in k s p (map (w i) (seq 0 (Z.to_nat c)))) in *.
    destruct (@run_conv1_spec l m c_in x Hin Hm) as [[_ [Hk [Hs [Hp [Kx [o1 [E1 I1]]]]]]]|[_ E1]]; rewrite E1 in Ho; cbn [rbind] in Ho; [|discriminate Ho].
    cbn [c1_in c1_k c1_s c1_p c1_units l] in *.
    rewrite units_len in I1 by auto.
    destruct (IH _ _ _ _ _ _ _ _ Hb' Hc2 Hc1 (count_pos Hs Kx) I1 ltac:(cbn [List.length] in Hlen; lia) _ Ho)
      as [x' [P1 [O1 [I F1]]]].
    exists x'. rewrite !out_size_step by lia. rewrite <- !count_eq by lia.
    split; [auto|]. split; [auto|].
    split; [destruct channels as [|z channels]; [exact I|]; rewrite (@last_cons_default (z :: channels) c c_in) in I by discriminate; exact I|].
    unfold settings in *. cbn [combine fits]. split; auto; split; auto; split; auto.
    exists (count (x + 2 * p) k s). split; [apply count_pos; auto|]. split; [apply count_places; auto|auto].
Qed.
Lemma build1_fits (w : nat -> nat -> unit1 (A := A)) : forall channels i c_in ks ss ps ls m x,
  build1 w i c_in channels ks ss ps = Ok ls ->
  Forall (fun c => 1 <= c) channels -> 1 <= c_in -> 1 <= x -> is1 c_in x m ->
  fits x (settings ks ss ps) ->
  exists o, run_layers1 zero ls m = Ok o.
Proof.
  induction channels as [|c channels IH]; intros i c_in ks ss ps ls m x Hb Hc Hin Hx Hm F1.
  - cbn in Hb. injection Hb as <-. cbn. eauto.
  - destruct ks as [|k ks]; [discriminate Hb|]. destruct ss as [|s ss]; [discriminate Hb|]. destruct ps as [|p ps]; [discriminate Hb|].
    cbn [build1] in Hb. destruct (build1 w (S i) c channels ks ss ps) as [ls'|] eqn:Hb'; [|discriminate Hb].
    cbn [rbind] in Hb. injection Hb as <-. cbn [run_layers1].
    inversion Hc as [|? ? Hc1 Hc2]; subst.
    unfold settings in F1. cbn [combine fits] in F1.
    destruct F1 as [Hk [Hs [Hp [mx [Mx [Px Fx]]]]]].
    pose proof (proj1 (Px 0 ltac:(lia)) ltac:(lia)) as Kx.
    pose proof (places_count Hs Mx Px) as Ex. subst mx.
    set (l := mkConv1 c_in k s p (map (w i) (seq 0 (Z.to_nat c)))) in *.
    destruct (@run_conv1_spec l m c_in x Hin Hm) as [[_ [_ [_ [_ [_ [o1 [E1 I1]]]]]]]|[C _]].
    + rewrite E1. cbn [rbind]. cbn [c1_in c1_k c1_s c1_p c1_units l] in *. rewrite units_len in I1 by auto.
      apply (IH _ _ _ _ _ _ _ _ Hb' Hc2 Hc1 Mx I1 Fx).
    + exfalso. apply C. cbn [c1_in c1_k c1_s c1_p l]. repeat split; lia.
Qed.

(** ** Layout *)
Lemma channels_first1_is a b (x : list (list A)) : 1 <= a -> is1 a b x -> is1 b a (channels_first1 zero x).
Proof.
  intros Ha Hx. unfold channels_first1. split.
  - rewrite zlen_map, zlen_seq. apply (size1_is Ha Hx).
  - apply Forall_forall. intros r Hr. apply in_map_iff in Hr. destruct Hr as [i [<- _]]. rewrite zlen_map. apply Hx.
Qed.
Lemma channels_first2_is a b c (x : list (list (list A))) : 1 <= a -> 1 <= b -> is2 a b c x -> is2 c a b (channels_first2 zero x).
Proof.
  intros Ha Hb Hx. unfold channels_first2.
  pose proof (is2_nth (i := 0%nat) Hx ltac:(cbn; lia)) as H0. split.
  - rewrite zlen_map, zlen_seq. apply (size1_is Hb H0).
  - apply Forall_forall. intros r Hr. apply in_map_iff in Hr. destruct Hr as [i [<- _]]. split.
    + rewrite zlen_map. apply Hx.
    + apply Forall_forall. intros q Hq. apply in_map_iff in Hq. destruct Hq as [q' [<- Hq']].
      rewrite zlen_map. destruct Hx as [_ Hf]. rewrite Forall_forall in Hf. apply (Hf _ Hq').
Qed.

Lemma concat_len c x (m : list (list A)) : is1 c x m -> zlen (concat m) = c * x.
Proof.
  intros [Hc Hf]. subst c. induction Hf as [|r m Hr Hm IH]; [reflexivity|].
  cbn [concat]. rewrite zlen_app, IH, Hr. unfold zlen. cbn [List.length]. lia.
Qed.
Lemma concat2_len c x y (m : list (list (list A))) : is2 c x y m -> zlen (concat (map (@concat A) m)) = c * (x * y).
Proof.
  intros [Hc Hf]. apply concat_len. split; [rewrite zlen_map; auto|].
  apply Forall_forall. intros r Hr. apply in_map_iff in Hr. destruct Hr as [q [<- Hq]].
  rewrite Forall_forall in Hf. apply concat_len, Hf, Hq.
Qed.

Lemma pyindex_last (l : list Z) d : l <> [] -> pyindex l (-1) = Ok (last l d).
Proof.
  intros Hl. unfold pyindex. destruct (exists_last Hl) as [l' [z ->]].
  rewrite app_length. cbn [List.length]. cbn [Z.ltb Z.compare].
  replace (-1 + Z.of_nat (List.length l' + 1)) with (Z.of_nat (List.length l')) by lia.
  destruct (Z.leb_spec 0 (Z.of_nat (List.length l'))); [|lia].
  destruct (Z.ltb_spec (Z.of_nat (List.length l')) (Z.of_nat (List.length l' + 1))); [|lia].
  cbn [andb]. rewrite Nat2Z.id, nth_error_app2, Nat.sub_diag by lia. cbn. rewrite last_last. reflexivity.
Qed.

(** ** The encoders *)
Lemma make2 w shape channels ks ss ps last flatten e :
  make_enc2 (A := A) w shape channels ks ss ps last flatten = Ok e ->
  let '(a, b, c) := shape in
  exists ls, build2 w 0 (if last then c else a) channels ks ss ps = Ok ls /\
   e = mkEnc2 (if last then (c, a, b) else (a, b, c)) channels ks ss ps last flatten ls.
Proof.
  destruct shape as [[a b] c]. unfold make_enc2. destruct last.
  - destruct (build2 w 0 c channels ks ss ps) as [ls|] eqn:E; [|discriminate]. cbn. intros H; injection H as <-. eauto.
  - destruct (build2 w 0 a channels ks ss ps) as [ls|] eqn:E; [|discriminate]. cbn. intros H; injection H as <-. eauto.
Qed.
Lemma make1 w shape channels ks ss ps last flatten e :
  make_enc1 (A := A) w shape channels ks ss ps last flatten = Ok e ->
  let '(a, b) := shape in
  exists ls, build1 w 0 (if last then b else a) channels ks ss ps = Ok ls /\
   e = mkEnc1 (if last then (b, a) else (a, b)) channels ks ss ps last flatten ls.
Proof.
  destruct shape as [a b]. unfold make_enc1. destruct last; cbn [fst].
  - destruct (build1 w 0 b channels ks ss ps) as [ls|] eqn:E; [|discriminate]. cbn. intros H; injection H as <-. eauto.
  - destruct (build1 w 0 a channels ks ss ps) as [ls|] eqn:E; [|discriminate]. cbn. intros H; injection H as <-. eauto.
Qed.

Theorem output_size2_exact w shape channels ks ss ps last flatten e x :
  make_enc2 w shape channels ks ss ps last flatten = Ok e ->
  channels <> [] -> Forall (fun c => 1 <= c) channels -> zipped channels ks ss ps -> input2 shape x ->
  forall out, forward2 zero e x = Ok out -> exists sh, output_size2 e = Ok sh /\ has_shape2 out sh.
Proof.
  intros Hm Hn Hc Hz Hi out Ho. pose proof (make2 Hm) as H. destruct shape as [[a b] c]. destruct H as [ls [Hb ->]].
  destruct Hi as [Ha [Hb' [Hc' Hx]]].
  unfold forward2 in Ho. unfold output_size2. cbn [e2_last e2_layers e2_flatten e2_shape e2_kernels e2_strides e2_padding e2_channels] in *.
  set (x0 := if last then channels_first2 zero x else x) in *.
  destruct (run_layers2 zero ls x0) as [o|] eqn:Er; [|discriminate Ho]. cbn [rbind] in Ho.
  assert (exists c0 sx sy, (if last then (c, a, b) else (a, b, c)) = (c0, sx, sy) /\ 1 <= c0 /\ 1 <= sx /\ 1 <= sy /\ is2 c0 sx sy x0 /\ c0 = (if last then c else a)) as H.
  { destruct last; do 3 eexists; (split; [reflexivity|]); subst x0; cbn in *; repeat (split; [lia|]).
    - split; [apply channels_first2_is; auto|auto].
    - split; auto. }
  destruct H as [c0 [sx [sy [-> [P1 [P2 [P3 [I0 Ec]]]]]]]]. rewrite <- Ec in Hb.
  destruct (build2_run Hb Hc P1 P2 P3 I0 Hz Er) as [x' [y' [_ [_ [O1 [O2 [I [_ _]]]]]]]].
  rewrite O1, O2. cbn [rbind]. rewrite (pyindex_last c0) by auto. cbn [rbind].
  eexists. split; [reflexivity|]. destruct flatten; injection Ho as <-; cbn [has_shape2]; auto.
  rewrite (concat2_len I). lia.
Qed.
Theorem forward2_iff w shape channels ks ss ps last flatten e x :
  make_enc2 w shape channels ks ss ps last flatten = Ok e ->
  Forall (fun c => 1 <= c) channels -> zipped channels ks ss ps -> input2 shape x ->
  let '(a, b, c) := shape in
  let '(sx, sy) := if last then (a, b) else (b, c) in
  (exists out, forward2 zero e x = Ok out) <-> (fits sx (settings ks ss ps) /\ fits sy (settings ks ss ps)).
Proof.
  intros Hm Hc Hz Hi. pose proof (make2 Hm) as H. destruct shape as [[a b] c]. destruct H as [ls [Hb ->]].
  destruct Hi as [Ha [Hb' [Hc' Hx]]].
  unfold forward2. cbn [e2_last e2_layers e2_flatten].
  set (x0 := if last then channels_first2 zero x else x) in *.
  assert (exists c0 sx sy, (if last then (a, b) else (b, c)) = (sx, sy) /\ 1 <= c0 /\ 1 <= sx /\ 1 <= sy /\ is2 c0 sx sy x0 /\ c0 = (if last then c else a)) as H.
  { destruct last; do 3 eexists; (split; [reflexivity|]); subst x0; cbn in *.
    - split; [exact Hc'|]. repeat (split; [lia|]). split; [apply channels_first2_is; auto|auto].
    - split; [exact Ha|]. repeat (split; [lia|]). split; auto. }
  destruct H as [c0 [sx [sy [-> [P1 [P2 [P3 [I0 Ec]]]]]]]]. rewrite <- Ec in Hb.
  split.
  - intros [out Ho]. destruct (run_layers2 zero ls x0) as [o|] eqn:Er; [|discriminate Ho].
    destruct (build2_run Hb Hc P1 P2 P3 I0 Hz Er) as [x' [y' [_ [_ [_ [_ [_ F]]]]]]]. exact F.
  - intros [F1 F2]. destruct (build2_fits Hb Hc P1 P2 P3 I0 F1 F2) as [o ->]. cbn [rbind]. eauto.
Qed.
Theorem output_size1_exact w shape channels ks ss ps last flatten e x :
  make_enc1 w shape channels ks ss ps last flatten = Ok e ->
  channels <> [] -> Forall (fun c => 1 <= c) channels -> zipped channels ks ss ps -> input1 shape x ->
  forall out, forward1 zero e x = Ok out -> exists sh, output_size1 e = Ok sh /\ has_shape1 out sh.
Proof.
  intros Hm Hn Hc Hz Hi out Ho. pose proof (make1 Hm) as H. destruct shape as [a b]. destruct H as [ls [Hb ->]].
  destruct Hi as [Ha [Hb' Hx]].
  unfold forward1 in Ho. unfold output_size1. cbn [e1_last e1_layers e1_flatten e1_shape e1_kernels e1_strides e1_padding e1_channels] in *.
  set (x0 := if last then channels_first1 zero x else x) in *.
  destruct (run_layers1 zero ls x0) as [o|] eqn:Er; [|discriminate Ho]. cbn [rbind] in Ho.
  assert (exists c0 sx, (if last then (b, a) else (a, b)) = (c0, sx) /\ 1 <= c0 /\ 1 <= sx /\ is1 c0 sx x0 /\ c0 = (if last then b else a)) as H.
  { destruct last; do 2 eexists; (split; [reflexivity|]); subst x0; cbn in *; repeat (split; [lia|]).
    - split; [apply channels_first1_is; auto|auto].
    - split; auto. }
  destruct H as [c0 [sx [-> [P1 [P2 [I0 Ec]]]]]]. rewrite <- Ec in Hb. cbn [snd].
  destruct (build1_run Hb Hc P1 P2 I0 Hz Er) as [x' [_ [O1 [I _]]]].
  rewrite O1. cbn [rbind]. rewrite (pyindex_last c0) by auto. cbn [rbind].
  eexists. split; [reflexivity|]. destruct flatten; injection Ho as <-; cbn [has_shape1]; auto.
  apply (concat_len I).
Qed.
Theorem forward1_iff w shape channels ks ss ps last flatten e x :
  make_enc1 w shape channels ks ss ps last flatten = Ok e ->
  Forall (fun c => 1 <= c) channels -> zipped channels ks ss ps -> input1 shape x ->
  (exists out, forward1 zero e x = Ok out) <-> fits (if last then fst shape else snd shape) (settings ks ss ps).
Proof.
  intros Hm Hc Hz Hi. pose proof (make1 Hm) as H. destruct shape as [a b]. destruct H as [ls [Hb ->]].
  destruct Hi as [Ha [Hb' Hx]].
  unfold forward1. cbn [e1_last e1_layers e1_flatten fst snd].
  set (x0 := if last then channels_first1 zero x else x) in *.
  assert (exists c0 sx, (if last then a else b) = sx /\ 1 <= c0 /\ 1 <= sx /\ is1 c0 sx x0 /\ c0 = (if last then b else a)) as H.
  { destruct last; do 2 eexists; (split; [reflexivity|]); subst x0; cbn in *.
    - split; [exact Hb'|]. repeat (split; [lia|]). split; [apply channels_first1_is; auto|auto].
    - split; [exact Ha|]. repeat (split; [lia|]). split; auto. }
  destruct H as [c0 [sx [-> [P1 [P2 [I0 Ec]]]]]]. rewrite <- Ec in Hb.
  split.
  - intros [out Ho]. destruct (run_layers1 zero ls x0) as [o|] eqn:Er; [|discriminate Ho].
    destruct (build1_run Hb Hc P1 P2 I0 Hz Er) as [x' [_ [_ [_ F]]]]. exact F.
  - intros F1. destruct (build1_fits Hb Hc P1 P2 I0 F1) as [o ->]. cbn [rbind]. eauto.
Qed.
End Conv.
