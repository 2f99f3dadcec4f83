(** * RepApart: the kinds of logs do not interfere (C118) *)
From Verif Require Import Py LogModel RepModel RepSpec.
Open Scope string_scope.
Open Scope list_scope.
Open Scope Z_scope.

Lemma apart {X : Type} (proj : mlogs -> X) (kind : call -> bool) :
  (forall s c, kind c = false -> proj (one_call s c) = proj s) ->
  (forall s t c, kind c = true -> proj s = proj t -> proj (one_call s c) = proj (one_call t c)) ->
  forall h s t, proj s = proj t -> proj (calls h s) = proj (calls (filter kind h) t).
Proof.
  intros A B. induction h as [|c r IH]; intros s t E; [exact E|]. cbn [filter]. destruct (kind c) eqn:K.
  - apply IH. apply B; auto.
  - apply IH. rewrite A; auto.
Qed.
Definition windows_of (s : mlogs) := (lg_windows s, lg_cumulative s, lg_default s).
Definition hists_of (s : mlogs) := (md_hists (lg_other s), lg_default s).

Lemma push_rest {P} k l a (s : @logs P) :
  lg_scalars (fst (push k l a s)) = lg_scalars s /\ lg_other (fst (push k l a s)) = lg_other s
  /\ lg_default (fst (push k l a s)) = lg_default s.
Proof. unfold push. destruct (dget (lg_windows s) k) as [[w n]|]; auto. destruct (dget (lg_cumulative s) k); auto. Qed.
Lemma windowed_rest {P} k v (s : @logs P) :
  lg_scalars (fst (log_windowed k v s)) = lg_scalars s /\ lg_other (fst (log_windowed k v s)) = lg_other s
  /\ lg_default (fst (log_windowed k v s)) = lg_default s.
Proof.
  unfold log_windowed, ensure_window. destruct (dmem (lg_windows s) k).
  - destruct v; auto; apply push_rest.
  - destruct (window_length (lg_default s) k) as [n|e]; auto. destruct (n <? 0); auto.
    destruct v; auto; (match goal with |- context [push ?k ?l ?a ?s] => pose proof (push_rest k l a s) as H end); exact H.
Qed.
Lemma hist_rest k v (s : mlogs) :
  lg_scalars (fst (log_histogram k v s)) = lg_scalars s /\ windows_of (fst (log_histogram k v s)) = windows_of s
  /\ md_images (lg_other (fst (log_histogram k v s))) = md_images (lg_other s)
  /\ md_videos (lg_other (fst (log_histogram k v s))) = md_videos (lg_other s).
Proof.
  unfold log_histogram. destruct v as [z|l|l]; auto.
  destruct (dget (md_hists (lg_other s)) k) as [[w n|l|l]|]; auto. destruct (lg_default s <? 0); auto.
Qed.
Lemma image_rest k v (s : mlogs) :
  lg_scalars (log_image k v s) = lg_scalars s /\ windows_of (log_image k v s) = windows_of s
  /\ hists_of (log_image k v s) = hists_of s /\ md_videos (lg_other (log_image k v s)) = md_videos (lg_other s).
Proof. unfold log_image. destruct (List.length (im_shape v) =? 3)%nat; auto. Qed.

Lemma windowed_of k v s t : windows_of s = windows_of t -> windows_of (fst (log_windowed k v s)) = windows_of (fst (log_windowed k v t)).
Proof.
  unfold windows_of. destruct s as [a1 b1 c1 d1 e1], t as [a2 b2 c2 d2 e2]. cbn. intros E. injection E as -> -> ->.
  unfold log_windowed, ensure_window. cbn.
  destruct (dmem b2 k).
  - destruct v; cbn; auto; unfold push; cbn; destruct (dget b2 k) as [[w n]|]; cbn; auto; destruct (dget c2 k); cbn; auto.
  - destruct (window_length e2 k) as [n|e]; cbn; auto. destruct (n <? 0); cbn; auto.
    destruct v; cbn; auto; unfold push; cbn; destruct (dget (dset b2 k ([], n)) k) as [[w m]|]; cbn; auto;
      destruct (dget (dset c2 k 0) k); cbn; auto.
Qed.
Lemma hist_of k v s t : hists_of s = hists_of t -> hists_of (fst (log_histogram k v s)) = hists_of (fst (log_histogram k v t)).
Proof.
  unfold hists_of. intros E. injection E as E1 E2. unfold log_histogram, set_hist. rewrite E1, E2.
  destruct v as [z|l|l]; cbn; rewrite ?E1, ?E2; auto.
  destruct (dget (md_hists (lg_other t)) k) as [[w n|l|l]|]; cbn; rewrite ?E1, ?E2; auto.
  destruct (lg_default t <? 0); cbn; rewrite ?E1, ?E2; auto.
Qed.

Lemma kinds_apart h s :
  lg_scalars (calls h s) = lg_scalars (calls (filter scalar_call h) s)
  /\ lg_windows (calls h s) = lg_windows (calls (filter windowed_call h) s)
  /\ lg_cumulative (calls h s) = lg_cumulative (calls (filter windowed_call h) s)
  /\ md_hists (lg_other (calls h s)) = md_hists (lg_other (calls (filter histogram_call h) s))
  /\ md_images (lg_other (calls h s)) = md_images (lg_other (calls (filter image_call h) s))
  /\ md_videos (lg_other (calls h s)) = md_videos (lg_other (calls (filter video_call h) s)).
Proof.
  assert (W : windows_of (calls h s) = windows_of (calls (filter windowed_call h) s)).
  { apply apart; auto.
    - intros u [k v|k v|k v|k v|k v] Hk; try discriminate; cbn; auto; [apply hist_rest|apply image_rest].
    - intros u t [k v|k v|k v|k v|k v] Hk; try discriminate. apply windowed_of. }
  assert (H : hists_of (calls h s) = hists_of (calls (filter histogram_call h) s)).
  { apply apart; auto.
    - intros u [k v|k v|k v|k v|k v] Hk; try discriminate; cbn; auto; [|apply image_rest].
      unfold hists_of. destruct (windowed_rest k v u) as (_ & -> & ->). reflexivity.
    - intros u t [k v|k v|k v|k v|k v] Hk; try discriminate. apply hist_of. }
  split; [|split; [|split; [|split; [|split]]]].
  - apply apart; auto.
    + intros u [k v|k v|k v|k v|k v] Hk; try discriminate; cbn; auto; [apply windowed_rest|apply hist_rest|apply image_rest].
    + intros u t [k v|k v|k v|k v|k v] Hk E; try discriminate. cbn. rewrite E. reflexivity.
  - exact (f_equal (fun x => fst (fst x)) W).
  - exact (f_equal (fun x => snd (fst x)) W).
  - exact (f_equal fst H).
  - apply (@apart _ (fun s => md_images (lg_other s))); auto.
    + intros u [k v|k v|k v|k v|k v] Hk; try discriminate; cbn; auto; [|apply hist_rest].
      destruct (windowed_rest k v u) as (_ & -> & _). reflexivity.
    + intros u t [k v|k v|k v|k v|k v] Hk E; try discriminate. cbn. unfold log_image.
      destruct (List.length (im_shape v) =? 3)%nat; cbn; rewrite ?E; auto.
  - apply (@apart _ (fun s => md_videos (lg_other s))); auto.
    + intros u [k v|k v|k v|k v|k v] Hk; try discriminate; cbn; auto; [|apply hist_rest|apply image_rest].
      destruct (windowed_rest k v u) as (_ & -> & _). reflexivity.
    + intros u t [k v|k v|k v|k v|k v] Hk E; try discriminate. cbn. rewrite ?E; auto.
Qed.
