(** * BoxProps: C139 *)
From Coq Require Import QArith Lqa Lia.
From Verif Require Import Py VisModel VisSpec BoxModel BoxSpec BoxProofs.
Open Scope list_scope.
Open Scope Z_scope.

(** An environment that speaks gymnasium's interface and has a method [seed], without frame
    stacking: it is seeded with [seed + rank], and after any calls of reset and step every
    observation shows the frame that the environment itself would have shown, as a grey
    picture of 84 rows of 84 pixels; without scaling it lies in the declared space. *)
Theorem C139_unstacked_partial : forall (E Act : Type) cvt_color resize (made : env E Act) h w (s : E) rank seed n (scaling : bool) f v,
  open_cv cvt_color resize -> speaks_gymnasium h w made ->
  ev_seed made = Some f -> snd (f s (seed + rank)) = Ok v -> n <= 1 ->
  exists e s1, vision_thunk cvt_color resize made s rank seed n scaling = Ok (e, s1)
  /\ forall ops,
     Forall2 (fun r0 r => exists f o, shows r0 (VFrame f) /\ shows r (VFrame o) /\ seen cvt_color resize scaling f o
                /\ image_between 84 84 1 (if scaling then -(1) else 0) (if scaling then 1 else 255) o
                /\ (scaling = false -> in_box (ev_space e) o))
       (snd (env_run made (fst (f s (seed + rank))) ops)) (snd (env_run e s1 ops)).
Proof. exact @thunk_unstacked. Qed.
Print Assumptions C139_unstacked_partial.

(** No environment of gymnasium itself can be made, whatever the settings. *)
Theorem C139_created_refuted : forall (E Act : Type) cvt_color resize (made : env E Act) s rank seed n scaling, no_seed made ->
  vision_thunk cvt_color resize made s rank seed n scaling = Err AttributeError.
Proof. exact @thunk_no_seed. Qed.
Print Assumptions C139_created_refuted.

(** With frame stacking (the default), [step] raises: for every environment, whatever its
    interface, in every state and for every action. *)
Theorem C139_step_refuted : forall (E Act : Type) cvt_color resize (made : env E Act) s rank seed n scaling e s1, 1 < n ->
  vision_thunk cvt_color resize made s rank seed n scaling = Ok (e, s1) ->
  forall st a, exists er, snd (ev_step e st a) = Err er.
Proof. exact @step_fails. Qed.
Print Assumptions C139_step_refuted.

(** And what [reset] returns cannot be looked at. *)
Theorem C139_reset_refuted : forall (E Act : Type) cvt_color resize (made : env E Act) h w s rank seed n scaling e s1,
  open_cv cvt_color resize -> speaks_gymnasium h w made -> 1 < n ->
  vision_thunk cvt_color resize made s rank seed n scaling = Ok (e, s1) ->
  forall st, exists o, snd (ev_reset e st) = Ok o /\ as_array o = Err ValueError.
Proof. exact @reset_useless. Qed.
Print Assumptions C139_reset_refuted.

(** With scaling, a picture with a pixel in the darker half is not in the declared space. *)
Theorem C139_space_refuted : forall (E Act : Type) cvt_color resize (made : env E Act) s rank seed n e s1 f o g r, n <= 1 ->
  vision_thunk cvt_color resize made s rank seed n true = Ok (e, s1) ->
  seen cvt_color resize true f o -> cvt_color f = Ok g -> resize g (84, 84) = Ok r ->
  (exists x y, (x < List.length r)%nat /\ (y < List.length (nth x r []))%nat /\ (nth y (nth x r []) 0 < 255 / 2)%Q) ->
  ~ in_box (ev_space e) o.
Proof. exact @dark_outside. Qed.
Print Assumptions C139_space_refuted.

(** An environment of one pixel, which steps make brighter; a conversion that takes the red
    channel and a resizing that repeats the first pixel. *)
Definition bx_cvt (f : frame) : res (list (list Q)) := Ok (map (map (fun px => nth 0 px 0%Q)) f).
Definition bx_resize (g : list (list Q)) (wh : Z * Z) : res (list (list Q)) :=
  Ok (repeat (repeat (nth 0 (nth 0 g []) 0%Q) (Z.to_nat (fst wh))) (Z.to_nat (snd wh))).
Definition bx_frame (b : bool) : frame := [[[if b then 255 else 51; 0; 0]%Q]].
Definition bx_made : env bool Z :=
  mkEnv (mkBox 0 255 [1; 1; 3]) (Some (fun b _ => (b, Ok VOther)))
    (fun _ => (false, Ok (VTup [VFrame (bx_frame false); VOther])))
    (fun _ _ => (true, Ok (VTup [VFrame (bx_frame true); VOther; VOther; VOther; VOther]))).
Example C139_case :
  open_cv bx_cvt bx_resize /\ speaks_gymnasium 1 1 bx_made
  /\ (exists f v, ev_seed bx_made = Some f /\ snd (f false (3 + 4)) = Ok v)
  /\ (exists e s, vision_thunk bx_cvt bx_resize bx_made false 3 4 1 true = Ok (e, s)
        /\ map (fun r => match r with Ok (VTup (VFrame o :: _)) => map Qred (pixel o 5 6) | _ => [] end)
             (snd (env_run e s [EReset; EStep 1])) = [[-3 # 5]%Q; [1%Q]])
  /\ (exists e s, vision_thunk bx_cvt bx_resize bx_made false 3 4 3 true = Ok (e, s)
        /\ snd (ev_step e s 0) = Err ValueError)
  /\ seen bx_cvt bx_resize true (bx_frame false) (view true (repeat (repeat 51%Q 84) 84))
  /\ (51 < 255 / 2)%Q.
Proof.
  split; [|split; [|split; [|split; [|split; [|split]]]]].
  - split.
    + intros h w f [[L F] B]. eexists. split; [reflexivity|]. split; [rewrite map_length; exact L|].
      rewrite Forall_map. rewrite Forall_forall in F, B |- *. intros l I. destruct (F l I) as [Ll Fl]. specialize (B l I).
      split; [rewrite map_length; exact Ll|]. rewrite Forall_map. rewrite Forall_forall in B |- *. intros px Ip.
      rewrite Forall_forall in Fl. specialize (Fl px Ip). specialize (B px Ip). destruct px as [|q px]; [discriminate|].
      cbn. inversion B; auto.
    + intros h w g [L F] width height Hw Hh. eexists. split; [reflexivity|]. cbn [fst snd]. split; [apply repeat_length|].
      apply Forall_forall. intros l I. apply repeat_spec in I. subst l. split; [apply repeat_length|].
      apply Forall_forall. intros q I. apply repeat_spec in I. subst q.
      destruct g as [|r g]; [cbn; lra|]. inversion F as [|? ? [_ Fr] ?]; subst. destruct r as [|q r]; [cbn; lra|].
      inversion Fr; auto.
  - assert (I : forall b, image_between 1 1 3 0 255 (bx_frame b)).
    { intros b. split; [split; [reflexivity|]|].
      - apply Forall_cons; [|apply Forall_nil]. split; [reflexivity|]. apply Forall_cons; [reflexivity|apply Forall_nil].
      - apply Forall_cons; [|apply Forall_nil]. apply Forall_cons; [|apply Forall_nil].
        destruct b; repeat (apply Forall_cons; [lra|]); apply Forall_nil. }
    split; intros; eexists; (split; [reflexivity|apply I]).
  - eexists _, _. split; reflexivity.
  - eexists _, _. split; [reflexivity|]. vm_compute. reflexivity.
  - eexists _, _. split; [reflexivity|]. vm_compute. reflexivity.
  - apply (@view_seen bx_cvt bx_resize true (bx_frame false) [[51%Q]]); reflexivity.
  - unfold Qlt. cbn. lia.
Qed.
