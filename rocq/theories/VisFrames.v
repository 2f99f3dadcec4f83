(** * VisFrames: lemmas for C85 and C86 *)
From Coq Require Import QArith.
From Verif Require Import Py PyLemmas VisModel VisSpec.
Set Implicit Arguments.
Unset Strict Implicit.
Open Scope list_scope.
Open Scope nat_scope.

Section Frames.
Context {P : Type}.
Notation frame := (list (list (list P))).

Definition lastn {B} (n : nat) (l : list B) : list B := skipn (List.length l - n) l.
Lemma lastn_app_drop {B} n (l m : list B) : n <= List.length m -> lastn n (l ++ m) = lastn n m.
Proof.
  intros H. unfold lastn. rewrite app_length, skipn_app.
  replace (List.length l + List.length m - n - List.length l) with (List.length m - n) by lia.
  rewrite skipn_all2 by lia. reflexivity.
Qed.
Lemma lastn_len {B} n (l : list B) : n <= List.length l -> List.length (lastn n l) = n.
Proof. intros. unfold lastn. rewrite skipn_length. lia. Qed.
Lemma lastn_all {B} n (l : list B) : List.length l <= n -> lastn n l = l.
Proof. intros. unfold lastn. replace (List.length l - n) with 0 by lia. reflexivity. Qed.
Lemma push_lastn n (l : list frame) x : push n (lastn n l) x = lastn n (l ++ [x]).
Proof.
  unfold push. fold (lastn n (lastn n l ++ [x])).
  destruct (Nat.le_gt_cases (List.length l) n) as [H|H]; [rewrite (lastn_all H); auto|].
  rewrite <- (firstn_skipn (List.length l - n) l) at 2. fold (lastn n l). rewrite <- app_assoc.
  symmetry. apply lastn_app_drop. rewrite app_length, lastn_len by lia. lia.
Qed.
Lemma push_many n x : forall k a (l : list frame), fold_left (fun l _ => push n l x) (seq a k) (lastn n l) = lastn n (l ++ repeat x k).
Proof.
  induction k as [|k IH]; intros a l; cbn [seq fold_left repeat]; [rewrite app_nil_r; auto|].
  rewrite push_lastn, IH, <- app_assoc. reflexivity.
Qed.
Lemma last_frames_lastn {F} n (f : F) later : last_frames n f later = lastn n (repeat f n ++ later).
Proof. unfold last_frames, lastn. rewrite app_length, repeat_length. f_equal. lia. Qed.
Lemma last_frames_len {F} n (f : F) later : List.length (last_frames n f later) = n.
Proof. unfold last_frames. rewrite skipn_length, app_length, repeat_length. lia. Qed.

Lemma cons_app {B} (l : list B) x m : l ++ x :: m = (l ++ [x]) ++ m.
Proof. rewrite <- app_assoc. reflexivity. Qed.

(** A lazy object stands for a stack. *)
Definition stands (z : lazy) (fs : list frame) : Prop :=
  (lz_frames z = Some fs /\ lz_out z = None) \/ (exists o, concat2 fs = Ok o /\ lz_out z = Some o).
Lemma stands_force z fs : stands z fs -> snd (force z) = concat2 fs /\ stands (fst (force z)) fs.
Proof.
  intros [[E1 E2]|[o [E1 E2]]]; unfold force; rewrite E2.
  - rewrite E1. destruct (concat2 fs) as [o|e] eqn:Ec.
    + cbn [snd fst]. split; [auto|]. right. exists o. auto.
    + cbn [snd fst]. split; [auto|]. left. auto.
  - cbn [snd fst]. split; [auto|]. right. eauto.
Qed.
Lemma set_nth_stands i zs fss z : Forall2 stands zs fss -> nth_error zs i = Some z ->
  Forall2 stands (set_nth i (fst (force z)) zs) fss.
Proof.
  intros H. revert i. induction H as [|a b zs fss Hab H IH]; intros i Hi; [destruct i; discriminate|].
  destruct i as [|i]; cbn [set_nth nth_error] in *.
  - injection Hi as ->. constructor; auto. apply stands_force; auto.
  - constructor; auto.
Qed.

Section Run.
Context {E Act : Type} (g : genv (P := P) E Act) (n : nat).

Lemma get_ob_ok (s : stack (P := P) E) : List.length (fs_frames s) = n ->
  get_ob n s = (mkStack (fs_env s) (fs_frames s) (fs_seen s ++ [mkLazy (Some (fs_frames s)) None]), Ok (List.length (fs_seen s))).
Proof. intros H. unfold get_ob. rewrite H, Nat.eqb_refl. reflexivity. Qed.

Lemma reset_frames (l : list frame) x : List.length l <= n -> fold_left (fun l _ => push n l x) (seq 0 n) l = repeat x n.
Proof.
  intros Hl. rewrite <- (lastn_all Hl), push_many, lastn_app_drop by (rewrite repeat_length; lia).
  apply lastn_all. rewrite repeat_length. lia.
Qed.
Lemma fs_reset_eq (s : stack (P := P) E) : List.length (fs_frames s) <= n ->
  fs_reset g n s = (mkStack (fst (g_reset g (fs_env s))) (repeat (snd (g_reset g (fs_env s))) n)
                      (fs_seen s ++ [mkLazy (Some (repeat (snd (g_reset g (fs_env s))) n)) None]),
                    Ok (List.length (fs_seen s))).
Proof.
  intros Hl. unfold fs_reset. destruct (g_reset g (fs_env s)) as [e f]. cbn [fst snd].
  rewrite (reset_frames f Hl). rewrite get_ob_ok by (cbn; apply repeat_length). reflexivity.
Qed.
Lemma fs_step_eq (s : stack (P := P) E) a first later : 1 <= n -> fs_frames s = last_frames n first later ->
  let f := snd (g_step g (fs_env s) a) in
  fs_step g n s a = (mkStack (fst (g_step g (fs_env s) a)) (last_frames n first (later ++ [f]))
                      (fs_seen s ++ [mkLazy (Some (last_frames n first (later ++ [f]))) None]),
                    Ok (List.length (fs_seen s))).
Proof.
  intros Hn Hf. unfold fs_step. destruct (g_step g (fs_env s) a) as [e f]. cbn [fst snd].
  rewrite Hf, last_frames_lastn, push_lastn, <- app_assoc, <- last_frames_lastn.
  rewrite get_ob_ok by (cbn; apply last_frames_len). reflexivity.
Qed.

Lemma fs_run_shown : 1 <= n -> forall ops (s : stack (P := P) E) first later fss,
  fs_frames s = last_frames n first later -> Forall2 stands (fs_seen s) fss ->
  Forall2 stands (fs_seen (fs_run g n s ops)) (fss ++ shown g n (fs_env s) first later ops) /\
  exists first' later', fs_frames (fs_run g n s ops) = last_frames n first' later'.
Proof.
  intros Hn. induction ops as [|o ops IH]; intros s first later fss Hf Hs.
  - cbn. rewrite app_nil_r. split; eauto.
  - unfold fs_run. cbn [fold_left]. fold (fs_run g n (fs_op g n s o) ops). destruct o as [|a|i].
    + cbn [fs_op shown]. rewrite fs_reset_eq by (rewrite Hf, last_frames_len; lia).
      destruct (g_reset g (fs_env s)) as [e f]. cbn [fst snd].
      assert (El : repeat f n = last_frames n f []) by (unfold last_frames; cbn; rewrite app_nil_r; auto).
      rewrite El. rewrite (cons_app fss).
      match goal with |- context [fs_run g n ?s' ops] => set (s2 := s') end.
      change e with (fs_env s2).
      apply (IH s2 f [] (fss ++ [last_frames n f []])); cbn [s2 fs_frames fs_seen]; [reflexivity|].
      apply Forall2_app; auto. constructor; [|constructor]. left. auto.
    + cbn [fs_op shown]. rewrite (fs_step_eq a Hn Hf).
      destruct (g_step g (fs_env s) a) as [e f]. cbn [fst snd].
      rewrite (cons_app fss).
      match goal with |- context [fs_run g n ?s' ops] => set (s2 := s') end.
      change e with (fs_env s2).
      apply (IH s2 first (later ++ [f]) (fss ++ [last_frames n first (later ++ [f])])); cbn [s2 fs_frames fs_seen]; [reflexivity|].
      apply Forall2_app; auto. constructor; [|constructor]. left. auto.
    + cbn [fs_op shown]. destruct (nth_error (fs_seen s) i) as [z|] eqn:Ei.
      * match goal with |- context [fs_run g n ?s' ops] => set (s2 := s') end.
        replace (fs_env s) with (fs_env s2) by reflexivity.
        apply IH; auto. cbn [s2 fs_seen]. apply set_nth_stands; auto.
      * apply IH; auto.
Qed.
Lemma fs_run_from : 1 <= n -> forall e ops,
  Forall2 stands (fs_seen (fs_run g n (mkStack e [] []) (FReset :: ops))) (shown_from g n e ops) /\
  exists first later, fs_frames (fs_run g n (mkStack e [] []) (FReset :: ops)) = last_frames n first later.
Proof.
  intros Hn e ops. unfold fs_run. cbn [fold_left fs_op]. rewrite fs_reset_eq by (cbn; lia). unfold shown_from.
  cbn [fst fs_env]. destruct (g_reset g e) as [e' f]. cbn [fst snd fs_seen app].
  match goal with |- context [fold_left _ ops ?s'] => set (s2 := s') end.
  fold (fs_run g n s2 ops).
  assert (El : repeat f n = last_frames n f []) by (unfold last_frames; cbn; rewrite app_nil_r; auto).
  replace e' with (fs_env s2) by reflexivity.
  change (last_frames n f [] :: shown g n (fs_env s2) f [] ops) with ([last_frames n f []] ++ shown g n (fs_env s2) f [] ops).
  apply (fs_run_shown Hn); [cbn [s2 fs_frames]; exact El|].
  cbn [s2 fs_seen]. constructor; [|constructor]. left. cbn [lz_frames lz_out]. rewrite El. auto.
Qed.
End Run.

(** ** The pixels of a stack *)
Lemma glue_len (f k : frame) : List.length f = List.length k -> List.length (glue f k) = List.length f.
Proof. intros. unfold glue. rewrite map_length, combine_length. lia. Qed.
Lemma glue_image h w c c' (f k : frame) : is_image h w c f -> is_image h w c' k -> is_image h w (c + c') (glue f k).
Proof.
  intros [L1 F1] [L2 F2]. split; [rewrite glue_len; congruence|].
  unfold glue. apply Forall_forall. intros r Hr. apply in_map_iff in Hr. destruct Hr as [[r1 r2] [<- Hi]].
  pose proof (in_combine_l _ _ _ _ Hi) as I1. pose proof (in_combine_r _ _ _ _ Hi) as I2.
  rewrite Forall_forall in F1, F2. destruct (F1 _ I1) as [A1 B1]. destruct (F2 _ I2) as [A2 B2]. cbn [fst snd].
  split; [rewrite map_length, combine_length; lia|].
  apply Forall_forall. intros p Hp. apply in_map_iff in Hp. destruct Hp as [[p1 p2] [<- Hj]].
  pose proof (in_combine_l _ _ _ _ Hj) as J1. pose proof (in_combine_r _ _ _ _ Hj) as J2.
  rewrite Forall_forall in B1, B2. cbn [fst snd]. rewrite app_length, (B1 _ J1), (B2 _ J2). auto.
Qed.
Lemma image_row h w c (f : frame) x : is_image h w c f -> x < h -> List.length (nth x f []) = w.
Proof. intros [L F] Hx. rewrite Forall_forall in F. apply (F (nth x f [])). apply nth_In. lia. Qed.
Lemma glue_pixel h w c c' (f k : frame) x y : is_image h w c f -> is_image h w c' k -> x < h -> y < w ->
  pixel (glue f k) x y = pixel f x y ++ pixel k x y.
Proof.
  intros I1 I2 Hx Hy. unfold pixel, glue.
  pose proof (image_row I1 Hx) as R1. pose proof (image_row I2 Hx) as R2.
  set (F := fun rr : list (list P) * list (list P) => map (fun pp => fst pp ++ snd pp) (combine (fst rr) (snd rr))).
  assert (E1 : nth x (map F (combine f k)) [] = F (nth x f [], nth x k [])).
  { rewrite <- combine_nth by (destruct I1, I2; lia).
    rewrite (nth_indep _ [] (F ([], []))) by (rewrite map_length, combine_length; destruct I1, I2; lia).
    apply map_nth. }
  rewrite E1. subst F. cbn [fst snd].
  set (G := fun pp : list P * list P => fst pp ++ snd pp).
  rewrite (nth_indep _ [] (G ([], []))) by (rewrite map_length, combine_length; lia).
  rewrite map_nth, combine_nth by lia. reflexivity.
Qed.
Lemma glue_all h w c : forall (r : list frame) f c0, is_image h w c0 f -> Forall (is_image h w c) r ->
  is_image h w (c0 + c * List.length r) (fold_left glue r f) /\
  forall x y, x < h -> y < w -> pixel (fold_left glue r f) x y = pixel f x y ++ concat (map (fun k => pixel k x y) r).
Proof.
  induction r as [|k r IH]; intros f c0 Hf Hr.
  - cbn. rewrite Nat.mul_0_r, Nat.add_0_r. split; auto. intros. rewrite app_nil_r. auto.
  - inversion Hr as [|? ? Hk Hr']; subst. cbn [fold_left List.length map concat].
    destruct (IH _ _ (glue_image Hf Hk) Hr') as [I J]. split.
    + replace (c0 + c * S (List.length r)) with (c0 + c + c * List.length r) by lia. exact I.
    + intros x y Hx Hy. rewrite (J x y Hx Hy), (glue_pixel Hf Hk Hx Hy), <- app_assoc. reflexivity.
Qed.
Lemma dims_of h w c (f k : frame) : is_image h w c f -> is_image h w c k -> dims_eqb (frame_dims f) (frame_dims k) = true.
Proof.
  intros [L1 F1] [L2 F2]. unfold dims_eqb, frame_dims. rewrite L1, L2, Nat.eqb_refl. cbn [andb].
  assert (forall f : frame, List.length f = h -> Forall (fun r => List.length r = w /\ Forall (fun px => List.length px = c) r) f ->
    size1 f = (if h =? 0 then 0 else w) /\ size1 (nth 0 f []) = (if h =? 0 then 0 else if w =? 0 then 0 else c)) as H.
  { clear. intros f0 L F. destruct f0 as [|r f0]; cbn in L; subst h; [split; reflexivity|].
    inversion F as [|? ? [A B] _]; subst. cbn [size1 nth Nat.eqb]. split; auto.
    destruct r as [|px r]; [reflexivity|]. inversion B; subst. reflexivity. }
  destruct (H f L1 F1) as [-> ->]. destruct (H k L2 F2) as [-> ->]. rewrite !Nat.eqb_refl. reflexivity.
Qed.
Lemma concat2_images h w c (fs : list frame) : fs <> [] -> Forall (is_image h w c) fs ->
  exists o, concat2 fs = Ok o /\ is_image h w (c * List.length fs) o /\
   forall x y, x < h -> y < w -> pixel o x y = concat (map (fun k => pixel k x y) fs).
Proof.
  intros Hn Hf. destruct fs as [|f r]; [congruence|]. inversion Hf as [|? ? H0 Hr]; subst.
  unfold concat2.
  replace (forallb (fun k => dims_eqb (frame_dims f) (frame_dims k)) r) with true.
  - eexists. split; [reflexivity|]. destruct (glue_all H0 Hr) as [I J]. split.
    + cbn [List.length]. replace (c * S (List.length r)) with (c + c * List.length r) by lia. exact I.
    + intros x y Hx Hy. rewrite (J x y Hx Hy). reflexivity.
  - symmetry. apply forallb_forall. intros k Hk. rewrite Forall_forall in Hr. apply (dims_of H0 (Hr _ Hk)).
Qed.

Lemma last_frames_Forall (Q : frame -> Prop) n f later : Q f -> Forall Q later -> Forall Q (last_frames n f later).
Proof.
  intros H0 Hl. unfold last_frames.
  assert (Forall Q (repeat f n ++ later)) as H.
  { apply Forall_app. split; auto. apply Forall_forall. intros x Hx. apply repeat_spec in Hx. subst; auto. }
  rewrite <- (firstn_skipn (List.length later) (repeat f n ++ later)) in H. apply Forall_app in H. apply H.
Qed.
Lemma shown_Forall {E Act} (g : genv (P := P) E Act) (Q : frame -> Prop) n :
  (forall e, Q (snd (g_reset g e))) -> (forall e a, Q (snd (g_step g e a))) ->
  forall ops e first later, Q first -> Forall Q later -> Forall (Forall Q) (shown g n e first later ops).
Proof.
  intros Hr Hs. induction ops as [|o ops IH]; intros e first later H1 H2; [constructor|].
  destruct o as [|a|i]; cbn [shown].
  - pose proof (Hr e) as H. destruct (g_reset g e) as [e' f]. cbn [snd] in H. constructor; [apply last_frames_Forall; auto|]. apply IH; auto.
  - pose proof (Hs e a) as H. destruct (g_step g e a) as [e' f]. cbn [snd] in H.
    assert (Forall Q (later ++ [f])) by (apply Forall_app; split; auto).
    constructor; [apply last_frames_Forall; auto|]. apply IH; auto.
  - apply IH; auto.
Qed.
Lemma shown_lens {E Act} (g : genv (P := P) E Act) n : forall ops e first later,
  Forall (fun fs => List.length fs = n) (shown g n e first later ops).
Proof.
  induction ops as [|o ops IH]; intros e first later; [constructor|]. destruct o as [|a|i]; cbn [shown].
  - destruct (g_reset g e). constructor; [apply last_frames_len|]. apply IH.
  - destruct (g_step g e a). constructor; [apply last_frames_len|]. apply IH.
  - apply IH.
Qed.

Theorem stacks_shown {E Act} (g : genv (P := P) E Act) n h w c : 1 <= n -> images_of g h w c -> forall e ops,
  let s := fs_run g n (mkStack e [] []) (FReset :: ops) in
  Forall2 (fun z fs => List.length fs = n /\ exists o, snd (force z) = Ok o /\ is_image h w (c * n) o /\
             forall x y, x < h -> y < w -> pixel o x y = concat (map (fun f => pixel f x y) fs))
          (fs_seen s) (shown_from g n e ops).
Proof.
  intros Hn [G1 G2] e ops s. destruct (fs_run_from g Hn e ops) as [H _]. fold s in H.
  assert (F : Forall (fun fs => List.length fs = n /\ Forall (is_image h w c) fs) (shown_from g n e ops)).
  { unfold shown_from. pose proof (G1 e) as H0. destruct (g_reset g e) as [e' f]. cbn [snd] in H0.
    constructor; [split; [apply last_frames_len|apply last_frames_Forall; auto]|].
    pose proof (shown_Forall n G1 G2 ops e' H0 (Forall_nil _)) as A. pose proof (shown_lens g n ops e' f []) as B.
    rewrite Forall_forall in *. intros fs Hi. split; auto. }
  revert F. induction H as [|z fs zs fss Hz H IH]; intros F; [constructor|].
  inversion F as [|? ? [Fl Ff] F']; subst. constructor; [|auto]. split; [auto|].
  destruct (@concat2_images h w c fs) as [o [E1 [E2 E3]]]; auto.
  { intros Ez. rewrite Ez in Hn. cbn in Hn. lia. }
  exists o. rewrite (proj1 (stands_force Hz)). auto.
Qed.
Theorem stack_always_answers {E Act} (g : genv (P := P) E Act) n : 1 <= n -> forall e ops a,
  let s := fs_run g n (mkStack e [] []) (FReset :: ops) in
  snd (fs_step g n s a) = Ok (List.length (fs_seen s)) /\ snd (fs_reset g n s) = Ok (List.length (fs_seen s)).
Proof.
  intros Hn e ops a s. destruct (fs_run_from g Hn e ops) as [_ [f [l Hf]]]. fold s in Hf.
  split; [rewrite (fs_step_eq g a Hn Hf)|rewrite fs_reset_eq by (rewrite Hf, last_frames_len; lia)]; reflexivity.
Qed.
End Frames.

(** ** C86 *)
Open Scope Q_scope.
Lemma scaled_range px : (0 <= px <= 255)%Z -> -(1) <= scaled px /\ scaled px <= 1.
Proof.
  intros H. unfold scaled.
  assert (E : ((inject_Z px / 255) - (1 # 2)) * 2 == inject_Z px * (2 # 255) - 1) by field.
  rewrite E. unfold Qle, Qminus, Qplus, Qmult, Qopp, inject_Z. cbn. lia.
Qed.
Lemma scaled_below px : (px < 128)%Z -> scaled px < scaled_low.
Proof.
  intros H. unfold scaled, scaled_low.
  assert (E : ((inject_Z px / 255) - (1 # 2)) * 2 == inject_Z px * (2 # 255) - 1) by field.
  rewrite E. unfold Qlt, Qminus, Qplus, Qmult, Qopp, inject_Z. cbn. lia.
Qed.
Lemma scaled_above px : (128 <= px <= 255)%Z -> scaled_low <= scaled px /\ scaled px <= scaled_high.
Proof.
  intros H. unfold scaled, scaled_low, scaled_high.
  assert (E : ((inject_Z px / 255) - (1 # 2)) * 2 == inject_Z px * (2 # 255) - 1) by field.
  rewrite E. unfold Qle, Qminus, Qplus, Qmult, Qopp, inject_Z. cbn. lia.
Qed.
