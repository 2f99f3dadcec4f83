(** * BoxProofs: proofs for BoxProps *)
From Coq Require Import QArith Lqa Lia.
From Verif Require Import Py VisModel VisSpec BoxModel BoxSpec.
Open Scope list_scope.
Open Scope Z_scope.

Lemma between_scaled px : (0 <= px /\ px <= 255)%Q -> (-(1) <= ((px / 255) - (1 # 2)) * 2 /\ ((px / 255) - (1 # 2)) * 2 <= 1)%Q.
Proof. intros [A B]. unfold Qdiv. change (/ 255)%Q with (1 # 255)%Q. split; lra. Qed.
Lemma scaled_value px : (((px / 255) - (1 # 2)) * 2 == 2 * px / 255 - 1)%Q.
Proof. unfold Qdiv. change (/ 255)%Q with (1 # 255)%Q. ring. Qed.

(** The picture made of rows of numbers *)
Definition onech (r : list (list Q)) : frame := map (map (fun px => [px])) r.
Definition rescale (f : frame) : frame := map (map (map (fun px => ((px / 255) - (1 # 2)) * 2)%Q)) f.

Lemma onech_image h w low high r : grey_between h w low high r -> image_between h w 1 low high (onech r).
Proof.
  intros [L F]. split; [split|].
  - unfold onech. rewrite map_length. exact L.
  - unfold onech. rewrite Forall_map. eapply Forall_impl; [|exact F]. intros l [Ll _]. rewrite map_length. split; auto.
    rewrite Forall_map. apply Forall_forall. auto.
  - unfold onech. rewrite Forall_map. eapply Forall_impl; [|exact F]. intros l [_ Fl]. rewrite Forall_map.
    eapply Forall_impl; [|exact Fl]. cbn. intros px B. apply Forall_cons; auto.
Qed.
Lemma rescale_image h w c f : image_between h w c 0 255 f -> image_between h w c (-(1)) 1 (rescale f).
Proof.
  intros [[L F] B]. split; [split|].
  - unfold rescale. rewrite map_length. exact L.
  - unfold rescale. rewrite Forall_map. eapply Forall_impl; [|exact F]. intros l [Ll Fl]. rewrite map_length. split; auto.
    rewrite Forall_map. eapply Forall_impl; [|exact Fl]. cbn. intros px P. rewrite map_length. exact P.
  - unfold rescale. rewrite Forall_map. eapply Forall_impl; [|exact B]. intros l Bl. rewrite Forall_map.
    eapply Forall_impl; [|exact Bl]. cbn. intros px P. rewrite Forall_map. eapply Forall_impl; [|exact P].
    cbn. intros q. apply between_scaled.
Qed.

Lemma nth_map_lt {A B} (f : A -> B) l d' d x : (x < List.length l)%nat -> nth x (map f l) d' = f (nth x l d).
Proof. intros H. rewrite (nth_indep _ d' (f d)) by (rewrite map_length; exact H). apply map_nth. Qed.

Lemma forall2_weaken {A B} (P Q : A -> B -> Prop) l l' : (forall a b, P a b -> Q a b) -> Forall2 P l l' -> Forall2 Q l l'.
Proof. intros I F. induction F; constructor; auto. Qed.

Section Box.
Context {E Act : Type}.
Context (cvt_color : frame -> res (list (list Q))) (resize : list (list Q) -> Z * Z -> res (list (list Q))).

Definition pipeline (scaling : bool) (made : env E Act) : env E Act :=
  if scaling then scaled_float_frame (warp_frame cvt_color resize 84 84 made) else warp_frame cvt_color resize 84 84 made.
Definition view (scaling : bool) (r : list (list Q)) : frame := if scaling then rescale (onech r) else onech r.

Lemma view_seen scaling f g r : cvt_color f = Ok g -> resize g (84, 84) = Ok r -> seen cvt_color resize scaling f (view scaling r).
Proof.
  intros Eg Er. exists g, r. split; [exact Eg|]. split; [exact Er|].
  assert (L1 : forall x, (x < List.length r)%nat -> nth x (onech r) [] = map (fun px => [px]) (nth x r [])).
  { intros x Hx. unfold onech. apply nth_map_lt. exact Hx. }
  unfold view. destruct scaling; unfold pixel.
  - unfold rescale at 1. rewrite map_length. unfold onech at 1. rewrite map_length. split; [reflexivity|]. intros x Hx.
    assert (L2 : nth x (rescale (onech r)) [] = map (map (fun px => ((px / 255) - (1 # 2)) * 2)%Q) (map (fun px => [px]) (nth x r []))).
    { unfold rescale. rewrite (nth_map_lt _ _ [] []) by (unfold onech; rewrite map_length; exact Hx). rewrite L1 by exact Hx. reflexivity. }
    rewrite L2, !map_length. split; [reflexivity|]. intros y Hy.
    exists (((nth y (nth x r []) 0 / 255) - (1 # 2)) * 2)%Q. split; [|apply scaled_value].
    rewrite (nth_map_lt _ _ [] []) by (rewrite map_length; exact Hy). rewrite (nth_map_lt _ _ [] 0%Q) by exact Hy. reflexivity.
  - unfold onech at 1. rewrite map_length. split; [reflexivity|]. intros x Hx. rewrite L1, map_length by exact Hx.
    split; [reflexivity|]. intros y Hy. eexists. split; [|reflexivity]. exact (nth_map_lt (fun px : Q => [px]) _ [] 0%Q y Hy).
Qed.

Lemma reset_shows scaling made h w s : open_cv cvt_color resize -> speaks_gymnasium h w made ->
  exists f o g r, snd (ev_reset made s) = Ok (VTup [VFrame f; VOther])
    /\ ev_reset (pipeline scaling made) s = (fst (ev_reset made s), Ok (VTup [VFrame o; VOther]))
    /\ cvt_color f = Ok g /\ resize g (84, 84) = Ok r /\ grey_between 84 84 0 255 r /\ o = view scaling r.
Proof.
  intros [Cc Cr] [R _]. destruct (R s) as (f & Ef & If). destruct (Cc _ _ _ If) as (g & Eg & Bg).
  destruct (Cr _ _ _ Bg 84 84 ltac:(lia) ltac:(lia)) as (r & Er & Br).
  exists f, (view scaling r), g, r. split; auto. split; [|split; [|split; [|split]]]; auto.
  destruct (ev_reset made s) as [s1 x] eqn:X. cbn [snd] in Ef. subst x.
  unfold pipeline, view. destruct scaling; cbn; rewrite X; cbn; rewrite Eg; cbn; rewrite Er; cbn; reflexivity.
Qed.
Lemma step_shows scaling made h w s a : open_cv cvt_color resize -> speaks_gymnasium h w made ->
  exists f o g r, snd (ev_step made s a) = Ok (VTup [VFrame f; VOther; VOther; VOther; VOther])
    /\ ev_step (pipeline scaling made) s a = (fst (ev_step made s a), Ok (VTup [VFrame o; VOther; VOther; VOther; VOther]))
    /\ cvt_color f = Ok g /\ resize g (84, 84) = Ok r /\ grey_between 84 84 0 255 r /\ o = view scaling r.
Proof.
  intros [Cc Cr] [_ R]. destruct (R s a) as (f & Ef & If). destruct (Cc _ _ _ If) as (g & Eg & Bg).
  destruct (Cr _ _ _ Bg 84 84 ltac:(lia) ltac:(lia)) as (r & Er & Br).
  exists f, (view scaling r), g, r. split; auto. split; [|split; [|split; [|split]]]; auto.
  destruct (ev_step made s a) as [s1 x] eqn:X. cbn [snd] in Ef. subst x.
  unfold pipeline, view. destruct scaling; cbn; rewrite X; cbn; rewrite Eg; cbn; rewrite Er; cbn; reflexivity.
Qed.
Lemma view_between (scaling : bool) r : grey_between 84 84 0 255 r ->
  image_between 84 84 1 (if scaling then -(1) else 0) (if scaling then 1 else 255) (view scaling r).
Proof. intros B. destruct scaling; cbn; [apply rescale_image|]; apply onech_image; exact B. Qed.

Lemma pipeline_space (scaling : bool) made : bx_shape (ev_space (pipeline scaling made)) = [84; 84; 1]
  /\ bx_low (ev_space (pipeline scaling made)) = 0%Q /\ bx_high (ev_space (pipeline scaling made)) = (if scaling then 1 else 255)%Q.
Proof. destruct scaling; cbn; auto. Qed.

Lemma run_shows (scaling : bool) made h w : open_cv cvt_color resize -> speaks_gymnasium h w made -> forall ops s fr,
  Forall2 (fun r0 r => exists f o, shows r0 (VFrame f) /\ shows r (VFrame o) /\ seen cvt_color resize scaling f o
              /\ image_between 84 84 1 (if scaling then -(1) else 0) (if scaling then 1 else 255) o)
    (snd (env_run made s ops)) (snd (env_run (unstacked (pipeline scaling made)) (s, fr) ops)).
Proof.
  intros C G. induction ops as [|op r IH]; intros s fr; [apply Forall2_nil|].
  cbn [env_run]. destruct op as [|a]; cbn [unstacked ev_reset ev_step fst snd].
  - destruct (@reset_shows scaling made h w s C G) as (f & o & g & q & E1 & E2 & Eg & Er & B & ->). rewrite E2.
    destruct (ev_reset made s) as [s1 x] eqn:X. cbn [snd fst] in *. subst x. specialize (IH s1 fr).
    destruct (env_run made s1 r) as [s2 xs]. destruct (env_run (unstacked (pipeline scaling made)) (s1, fr) r) as [s3 ys]. cbn [snd] in *.
    apply Forall2_cons; auto. exists f, (view scaling q). split; [left; auto|]. split; [left; auto|].
    split; [eapply view_seen; eauto|]. apply view_between. exact B.
  - destruct (@step_shows scaling made h w s a C G) as (f & o & g & q & E1 & E2 & Eg & Er & B & ->). rewrite E2.
    destruct (ev_step made s a) as [s1 x] eqn:X. cbn [snd fst] in *. subst x. specialize (IH s1 fr).
    destruct (env_run made s1 r) as [s2 xs]. destruct (env_run (unstacked (pipeline scaling made)) (s1, fr) r) as [s3 ys]. cbn [snd] in *.
    apply Forall2_cons; auto. exists f, (view scaling q). split; [right; auto|]. split; [right; auto|].
    split; [eapply view_seen; eauto|]. apply view_between. exact B.
Qed.

Lemma thunk_unstacked (made : env E Act) h w (s : E) rank seed n (scaling : bool) f v : open_cv cvt_color resize -> speaks_gymnasium h w made ->
  ev_seed made = Some f -> snd (f s (seed + rank)) = Ok v -> n <= 1 ->
  exists e s1, vision_thunk cvt_color resize made s rank seed n scaling = Ok (e, s1)
  /\ forall ops,
     Forall2 (fun r0 r => exists f o, shows r0 (VFrame f) /\ shows r (VFrame o) /\ seen cvt_color resize scaling f o
                /\ image_between 84 84 1 (if scaling then -(1) else 0) (if scaling then 1 else 255) o
                /\ (scaling = false -> in_box (ev_space e) o))
       (snd (env_run made (fst (f s (seed + rank))) ops)) (snd (env_run e s1 ops)).
Proof.
  intros C G S Ok1 N. unfold vision_thunk. rewrite S. destruct (f s (seed + rank)) as [s1 x]. cbn [snd fst] in *. subst x.
  cbn [rbind]. replace (n >? 1) with false by (symmetry; rewrite Z.gtb_ltb; apply Z.ltb_ge; lia).
  eexists _, _. split; [reflexivity|]. intros ops.
  change (if scaling then scaled_float_frame (warp_frame cvt_color resize 84 84 made) else warp_frame cvt_color resize 84 84 made)
    with (pipeline scaling made).
  pose proof (@run_shows scaling made h w C G ops s1 []) as R. eapply forall2_weaken; [|exact R].
  intros r0 r (f0 & o & A1 & A2 & A3 & A4). exists f0, o. do 4 (split; [assumption|]). intros ->.
  unfold in_box. cbn [unstacked ev_space]. destruct (@pipeline_space false made) as (-> & -> & ->). exact A4.
Qed.

Lemma thunk_no_seed (made : env E Act) s rank seed n scaling : no_seed made ->
  vision_thunk cvt_color resize made s rank seed n scaling = Err AttributeError.
Proof. unfold no_seed, vision_thunk. intros ->. reflexivity. Qed.

(** Stacking *)
Lemma wrapped_step_five space ob (e : env E Act) s a v :
  snd (ev_step (observation_wrapper space ob e) s a) = Ok v -> exists l, v = VTup l /\ List.length l = 5%nat.
Proof.
  cbn. destruct (ev_step e s a) as [s1 [x|er]]; cbn; [|discriminate].
  destruct (unpack 5 x) as [l|er]; cbn; [|discriminate]. destruct (ob (nth 0 l VOther)) as [o|er]; cbn; [|discriminate].
  intros X. injection X as <-. eexists. split; reflexivity.
Qed.
Lemma pipeline_five scaling (made : env E Act) s a v :
  snd (ev_step (pipeline scaling made) s a) = Ok v -> exists l, v = VTup l /\ List.length l = 5%nat.
Proof. destruct scaling; apply wrapped_step_five. Qed.
Lemma stacked_step n scaling (made : env E Act) st a :
  exists er, snd (ev_step (frame_stack_env n (pipeline scaling made)) st a) = Err er.
Proof.
  cbn [frame_stack_env ev_step]. pose proof (@pipeline_five scaling made (fst st) a) as P.
  destruct (ev_step (pipeline scaling made) (fst st) a) as [s1 [v|er]]; cbn in *; [|eauto].
  destruct (P v eq_refl) as (l & -> & L). cbn. rewrite L. cbn. eauto.
Qed.
Lemma thunk_stacked (made : env E Act) s rank seed n scaling e s1 : 1 < n ->
  vision_thunk cvt_color resize made s rank seed n scaling = Ok (e, s1) ->
  e = frame_stack_env (Z.to_nat n) (pipeline scaling made).
Proof.
  intros N. unfold vision_thunk. destruct (ev_seed made) as [f|]; [|discriminate]. destruct (f s (seed + rank)) as [x [v|er]]; cbn; [|discriminate].
  replace (n >? 1) with true by (symmetry; rewrite Z.gtb_ltb; apply Z.ltb_lt; lia). intros X. injection X as <- _. reflexivity.
Qed.
Lemma step_fails (made : env E Act) s rank seed n scaling e s1 : 1 < n ->
  vision_thunk cvt_color resize made s rank seed n scaling = Ok (e, s1) ->
  forall st a, exists er, snd (ev_step e st a) = Err er.
Proof. intros N T. rewrite (@thunk_stacked made s rank seed n scaling e s1 N T). intros st a. apply stacked_step. Qed.

Lemma appends n x k l : (1 <= k)%nat -> exists pre, fold_left (fun l _ => deque_append n l x) (seq 0 k) l = pre ++ repeat x (Nat.min k n).
Proof.
  intros K. assert (G : forall k j l m, (m <= n)%nat -> (exists pre, l = pre ++ repeat x m) ->
    exists pre, fold_left (fun l _ => deque_append n l x) (seq j k) l = pre ++ repeat x (Nat.min (m + k) n)).
  { clear. induction k as [|k IH]; intros j l m M (pre & ->); cbn [seq fold_left].
    - exists pre. rewrite Nat.add_0_r, Nat.min_l by lia. reflexivity.
    - replace (m + Datatypes.S k)%nat with (Datatypes.S m + k)%nat by lia.
      assert (Q : exists p, deque_append n (pre ++ repeat x m) x = p ++ repeat x (Nat.min (Datatypes.S m) n)).
      { unfold deque_append. rewrite <- app_assoc. replace (repeat x m ++ [x]) with (repeat x (Datatypes.S m))
          by (replace (Datatypes.S m) with (m + 1)%nat by lia; rewrite repeat_app; reflexivity).
        rewrite app_length, repeat_length, skipn_app. destruct (Nat.le_gt_cases (Datatypes.S m) n).
        - rewrite Nat.min_l by lia. replace (List.length pre + Datatypes.S m - n - List.length pre)%nat with 0%nat by lia.
          cbn [skipn]. eexists. reflexivity.
        - assert (m = n) by lia. subst m. rewrite Nat.min_r by lia.
          replace (List.length pre + Datatypes.S n - n - List.length pre)%nat with 1%nat by lia.
          cbn [skipn repeat]. eexists. reflexivity. }
      destruct Q as (p & ->). destruct (IH (Datatypes.S j) (p ++ repeat x (Nat.min (Datatypes.S m) n)) (Nat.min (Datatypes.S m) n)) as (q & Eq); [lia|eauto|].
      exists q. rewrite Eq. f_equal. f_equal. lia. }
  destruct (G k 0%nat l 0%nat) as (p & Ep); [lia|exists l; cbn; rewrite app_nil_r; reflexivity|].
  exists p. rewrite Ep. reflexivity.
Qed.
Lemma deque_bound n l x : (List.length (deque_append n l x) <= n)%nat.
Proof. unfold deque_append. rewrite skipn_length. lia. Qed.
Lemma appends_all n x l : (1 <= n)%nat -> fold_left (fun l _ => deque_append n l x) (seq 0 n) l = repeat x n.
Proof.
  intros N. destruct (@appends n x n l N) as (p & Ep). rewrite Nat.min_id in Ep.
  assert (B : (List.length (fold_left (fun l _ => deque_append n l x) (seq 0 n) l) <= n)%nat).
  { destruct n as [|n]; [lia|]. rewrite seq_S, fold_left_app. cbn [fold_left]. apply deque_bound. }
  rewrite Ep in *. rewrite app_length, repeat_length in B. destruct p; [reflexivity|cbn in B; lia].
Qed.

Lemma reset_useless (made : env E Act) h w s rank seed n scaling e s1 : open_cv cvt_color resize -> speaks_gymnasium h w made -> 1 < n ->
  vision_thunk cvt_color resize made s rank seed n scaling = Ok (e, s1) ->
  forall st, exists o, snd (ev_reset e st) = Ok o /\ as_array o = Err ValueError.
Proof.
  intros C G N T. rewrite (@thunk_stacked made s rank seed n scaling e s1 N T). intros st. cbn [frame_stack_env ev_reset].
  destruct (@reset_shows scaling made h w (fst st) C G) as (f & o & g & r & _ & -> & _).
  rewrite appends_all by lia. unfold get_ob. rewrite repeat_length, Nat.eqb_refl. cbn [snd].
  eexists. split; [reflexivity|]. destruct (Z.to_nat n) as [|m] eqn:M; [lia|]. cbn. reflexivity.
Qed.

(** The declared space *)
Lemma dark_outside (made : env E Act) s rank seed n e s1 f o g r : n <= 1 ->
  vision_thunk cvt_color resize made s rank seed n true = Ok (e, s1) ->
  seen cvt_color resize true f o -> cvt_color f = Ok g -> resize g (84, 84) = Ok r ->
  (exists x y, (x < List.length r)%nat /\ (y < List.length (nth x r []))%nat /\ (nth y (nth x r []) 0 < 255 / 2)%Q) ->
  ~ in_box (ev_space e) o.
Proof.
  intros N T (g' & r' & Eg & Er & L & P) Eg' Er' (x & y & Hx & Hy & D). rewrite Eg' in Eg. injection Eg as <-.
  rewrite Er' in Er. injection Er as <-.
  assert (Es : ev_space e = mkBox 0 1 [84; 84; 1]).
  { unfold vision_thunk in T. destruct (ev_seed made) as [k|]; [|discriminate]. destruct (k s (seed + rank)) as [z [v|er]]; cbn in T; [|discriminate].
    replace (n >? 1) with false in T by (symmetry; rewrite Z.gtb_ltb; apply Z.ltb_ge; lia). injection T as <- _. reflexivity. }
  rewrite Es. unfold in_box. cbn [bx_shape bx_low bx_high]. intros [_ B].
  destruct (P x Hx) as [Lx Py]. destruct (Py y Hy) as (px & Ep & Ev).
  assert (In px (pixel o x y)) as I by (rewrite Ep; left; reflexivity).
  assert (Bx : (0 <= px)%Q).
  { rewrite Forall_forall in B. assert (I1 : In (nth x o []) o) by (apply nth_In; lia). specialize (B _ I1).
    rewrite Forall_forall in B. assert (I2 : In (nth y (nth x o []) []) (nth x o [])) by (apply nth_In; lia). specialize (B _ I2).
    rewrite Forall_forall in B. apply B. exact I. }
  rewrite Ev in Bx. unfold Qdiv in *. change (/ 255)%Q with (1 # 255)%Q in Bx. change (/ 2)%Q with (1 # 2)%Q in D. lra.
Qed.
End Box.
