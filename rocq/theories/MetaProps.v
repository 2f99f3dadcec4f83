(** * MetaProps: C127 *)
From Verif Require Import Py CallbackModel MetaModel MetaSpec MetaProofs.
Open Scope string_scope.
Open Scope list_scope.
Open Scope Z_scope.

(** C127: a hook is adapted to named arguments and the data group exactly when some class of the
    hierarchy overrides emote's, however deep and with however many mixins. *)
Theorem C127_hooks_partial : forall root c mro data_group class_group used h x,
  ordinary root c -> resolution mro c -> used_group data_group class_group used ->
  is_hook h -> (forall y, In y (ancestry c) -> ~ marks h y) -> first_definer h mro x ->
  exists d, instantiate c mro data_group class_group = Ok d
  /\ (x = root -> dget d h = None) /\ (x <> root -> dget d h = Some used).
Proof. exact hooks_adapted. Qed.
Print Assumptions C127_hooks_partial.
(** The same for a method that one class marks with Callback.extend, if no other class of the
    hierarchy marks it too or has the same name. *)
Theorem C127_marked_partial : forall root c mro data_group class_group used h D x,
  ordinary root c -> resolution mro c -> used_group data_group class_group used ->
  ~ is_hook h -> In D (ancestry c) -> is_meta D -> marks h D ->
  (forall y, In y (ancestry c) -> marks h y -> y = D) ->
  (forall y, In y (ancestry c) -> cl_name y = cl_name D -> y = D) -> first_definer h mro x ->
  exists d, instantiate c mro data_group class_group = Ok d
  /\ (x = D -> dget d h = None) /\ (x <> D -> dget d h = Some used).
Proof. exact marked_adapted. Qed.
Print Assumptions C127_marked_partial.
(** Any other method is left as it is. *)
Theorem C127_others : forall root c mro data_group class_group used h,
  ordinary root c -> resolution mro c -> used_group data_group class_group used ->
  ~ is_hook h -> (forall y, In y (ancestry c) -> ~ marks h y) ->
  exists d, instantiate c mro data_group class_group = Ok d /\ dget d h = None.
Proof. exact others_untouched. Qed.
Print Assumptions C127_others.
(** But a method that the instance's own class marks is not adapted, even if it overrides one
    that a base class marks... *)
Theorem C127_marked_here_refuted : forall c rest h data_group class_group d,
  is_meta c -> (forall x, In x (ancestry c) -> NoDup (map fst (cl_fields x))) ->
  marks h c -> instantiate c (c :: rest) data_group class_group = Ok d -> dget d h = None.
Proof. exact marked_here_not_adapted. Qed.
Print Assumptions C127_marked_here_refuted.
(** ... and nothing is in a class that is itself called Callback. *)
Theorem C127_called_callback_refuted : forall c rest h data_group class_group d,
  is_meta c -> (forall x, In x (ancestry c) -> NoDup (map fst (cl_fields x))) ->
  cl_name c = "Callback" -> dget (cl_fields c) h <> None ->
  instantiate c (c :: rest) data_group class_group = Ok d -> dget d h = None.
Proof. exact called_callback_not_adapted. Qed.
Print Assumptions C127_called_callback_refuted.

(** emote's Callback, a loss callback that marks [loss], a mixin, and a loss. *)
Definition ex_root : cls := mkCls true "Callback" []
  (map (fun h => (h, mkField ("Callback." ++ h) false true)) hook_names ++ [("state_dict", mkField "Callback.state_dict" false true)]).
Definition ex_loss : cls := mkCls true "LossCallback" [ex_root]
  [("backward", mkField "LossCallback.backward" false true); ("loss", mkField "LossCallback.loss" true true)].
Definition ex_mixin : cls := mkCls false "LoggingMixin" [] [("log_scalar", mkField "LoggingMixin.log_scalar" false true)].
Definition ex_qloss : cls := mkCls true "QLoss" [ex_mixin; ex_loss]
  [("loss", mkField "QLoss.loss" false true); ("begin_batch", mkField "QLoss.begin_batch" false true)].
Definition ex_mro : list cls := [ex_qloss; ex_mixin; ex_loss; ex_root].
(** [loss] and [begin_batch] are QLoss's own, [backward] is LossCallback's. *)
Example C127_run : instantiate ex_qloss ex_mro (Some "default") None
  = Ok [("loss", Some "default"); ("backward", Some "default"); ("begin_batch", Some "default")].
Proof. vm_compute. reflexivity. Qed.
(** The override marked once more: not adapted. *)
Definition ex_again : cls := mkCls true "QLoss2" [ex_mixin; ex_loss] [("loss", mkField "QLoss2.loss" true true)].
Example C127_again : instantiate ex_again [ex_again; ex_mixin; ex_loss; ex_root] (Some "default") None
  = Ok [("backward", Some "default")] /\ marks "loss" ex_again /\ marks "loss" ex_loss.
Proof. split; [vm_compute; reflexivity|]. split; eexists; split; reflexivity. Qed.
(** A user's subclass that is called Callback: its begin_batch is not adapted. *)
Definition ex_shadow : cls := mkCls true "Callback" [ex_root] [("begin_batch", mkField "Callback.begin_batch" false true)].
Example C127_shadow : instantiate ex_shadow [ex_shadow; ex_root] (Some "default") None = Ok [].
Proof. vm_compute. reflexivity. Qed.
(** A user's LossCallback that overrides [loss]: neither. *)
Definition ex_same_name : cls := mkCls true "LossCallback" [ex_loss] [("loss", mkField "LossCallback.loss" false true)].
Example C127_same_name : instantiate ex_same_name [ex_same_name; ex_loss; ex_root] (Some "default") None
  = Ok [("backward", Some "default")].
Proof. vm_compute. reflexivity. Qed.

Lemma In_dec_solve (l : dict string field) n f : dget l n = Some f -> In (n, f) l.
Proof. apply PyLemmas.dget_In. Qed.
Example C127_case : ordinary ex_root ex_qloss /\ resolution ex_mro ex_qloss
  /\ used_group (Some "default") None (Some "default")
  /\ is_hook "backward" /\ (forall y, In y (ancestry ex_qloss) -> ~ marks "backward" y)
  /\ first_definer "backward" ex_mro ex_loss /\ ex_loss <> ex_root
  /\ ~ is_hook "loss" /\ In ex_loss (ancestry ex_qloss) /\ marks "loss" ex_loss
  /\ (forall y, In y (ancestry ex_qloss) -> marks "loss" y -> y = ex_loss)
  /\ (forall y, In y (ancestry ex_qloss) -> cl_name y = cl_name ex_loss -> y = ex_loss)
  /\ first_definer "loss" ex_mro ex_qloss /\ ex_qloss <> ex_loss
  /\ ~ is_hook "log_scalar" /\ (forall y, In y (ancestry ex_qloss) -> ~ marks "log_scalar" y).
Proof.
  assert (A : forall y, In y (ancestry ex_qloss) <-> y = ex_qloss \/ y = ex_mixin \/ y = ex_loss \/ y = ex_root).
  { intros y. change (ancestry ex_qloss) with [ex_qloss; ex_mixin; ex_loss; ex_root]. cbn [In]. intuition auto. }
  assert (Pl : forall y, In y (ancestry ex_qloss) -> plain_bodies y /\ NoDup (map fst (cl_fields y))).
  { intros y I. apply A in I.
    assert (K : forall l n0 (N : dict string field), N = l ->
              forallb (fun nf => (fd_qual (snd nf) =? String.append n0 (String.append "." (fst nf)))%string) l = true ->
              forall n f, dget N n = Some f -> fd_qual f = String.append n0 (String.append "." n)).
    { intros l n0 N -> F n f G. apply In_dec_solve in G. rewrite forallb_forall in F. apply F in G. apply String.eqb_eq in G. exact G. }
    destruct I as [-> | [-> | [-> | ->]]]; (split; [unfold plain_bodies; eapply K; [reflexivity|vm_compute; reflexivity]|]);
      vm_compute; repeat (constructor; [cbn; intuition discriminate|]); constructor. }
  assert (Mk : forall h y, In y (ancestry ex_qloss) -> marks h y -> h = "loss" /\ y = ex_loss).
  { intros h y I (f & D & M). apply A in I. apply In_dec_solve in D.
    destruct I as [-> | [-> | [-> | ->]]]; vm_compute in D; repeat (destruct D as [D|D]; [injection D as <- <-; try discriminate M; auto|]); destruct D. }
  split.
  { split. { split; [reflexivity|]. split; [reflexivity|]. split; [reflexivity|]. intros h I. apply hooks_are in I.
             repeat (destruct I as [<-|I]; [eexists; split; reflexivity|]). destruct I. }
    split; [apply A; auto|]. intros x I. destruct (Pl x I) as [P1 P2]. split; [exact P1|]. split; [exact P2|].
    apply A in I. split.
    - destruct I as [-> | [-> | [-> | ->]]]; intros E; try discriminate E. reflexivity.
    - destruct I as [-> | [-> | [-> | ->]]]; intros b Ib Mb; try reflexivity. destruct Ib. }
  split; [intros x; rewrite A; cbn [ex_mro In]; intuition auto|].
  split; [left; exists "default"; repeat split; discriminate|].
  split; [unfold is_hook; tauto|].
  split; [intros y I M; destruct (Mk _ y I M); discriminate|].
  split. { exists [ex_qloss; ex_mixin], [ex_root]. split; [reflexivity|]. split; [|eexists; reflexivity].
           intros y [<-|[<-|[]]]; reflexivity. }
  split; [discriminate|].
  split; [unfold is_hook; intuition discriminate|].
  split; [apply A; auto|]. split; [eexists; split; reflexivity|].
  split; [intros y I M; apply (Mk _ y I M)|].
  split; [intros y I; apply A in I; destruct I as [-> | [-> | [-> | ->]]]; intros E; try discriminate E; reflexivity|].
  split. { exists [], [ex_mixin; ex_loss; ex_root]. split; [reflexivity|]. split; [intros y []|eexists; reflexivity]. }
  split; [discriminate|].
  split; [unfold is_hook; intuition discriminate|].
  intros y I M. destruct (Mk _ y I M). discriminate.
Qed.
