(** * CtorProofs *)
From Coq Require Import Reals Lra Lia.
From Verif Require Import Py PyLemmas NumModel SchedModel LossModel LossSpec LossProofs CtorModel CtorSpec.
Open Scope list_scope.
Open Scope R_scope.

Section Ctor.
Context {OS : Type}.
Implicit Type x : library_loss OS.

Lemma build_params x : ls_params (cb_loss (build x)) = trained x.
Proof. destruct x; try reflexivity. cbn. destruct use_projection_layer; cbn; [rewrite app_assoc|]; reflexivity. Qed.
Lemma build_max x : ls_max (cb_loss (build x)) = bound x.
Proof. destruct x; reflexivity. Qed.
Lemma build_saves x h : ck_net (cb_state_dict (build x) h) =
  match x with Curl _ _ _ _ _ _ _ => None | _ => Some (map (fun p => nth p (h_val h) 0) (subject x)) end.
Proof. destruct x; reflexivity. Qed.

Lemma trains (ostep : OS -> R -> list R -> list (option R) -> OS * list R) lrstep x gradient h d :
  List.length (h_grad h) = List.length (h_val h) ->
  NoDup (trained x) -> Forall (fun p => (p < List.length (h_val h))%nat) (trained x) ->
  (forall p, In p (trained x) -> gradient (h_val h) p = Some (d p)) ->
  let h' := snd (fst (backward ostep lrstep gradient (cb_loss (build x)) h)) in
  exists os new,
    ostep (fst (optimizer_of (build x))) (snd (optimizer_of (build x)))
          (map (fun p => nth p (h_val h) 0) (trained x))
          (map Some (clipped (bound x) (map d (trained x)))) = (os, new) /\
    assigned (trained x) new (h_val h) (h_val h').
Proof.
  intros LG ND F G h'. rewrite <- build_params in ND, F, G.
  assert (SL : sound_loss (List.length (h_val h)) (cb_loss (build x))) by (split; auto).
  pose proof (@backward_clean OS ostep lrstep gradient (cb_loss (build x)) h d LG SL G) as B.
  unfold h'. destruct (backward ostep lrstep gradient (cb_loss (build x)) h) as ((l', h1), lg). cbn.
  destruct B as ((os & new & E & _ & A) & _). exists os, new.
  rewrite build_params in *. rewrite build_max in E. auto.
Qed.

Lemma later_save x c h : later x c -> cb_state_dict c h =
  mkCkpt (Some (optimizer_of c)) (match x with Curl _ _ _ _ _ _ _ => None
    | _ => Some (map (fun p => nth p (h_val h) 0) (subject x)) end).
Proof. intros (os & lr & ep & ->). destruct x; reflexivity. Qed.

Lemma load_one x c c2 h h2 : later x c -> later x c2 -> usual (List.length (h_val h2)) x ->
  exists c', exists h', cb_load_state_dict true true (cb_state_dict c h) c2 h2 = Ok (c', h') /\
    List.length (h_val h') = List.length (h_val h2) /\ h_grad h' = h_grad h2 /\ optimizer_of c' = optimizer_of c /\ later x c' /\
    forall p, nth p (h_val h') 0 = if inb p (subject x) then nth p (h_val h) 0 else nth p (h_val h2) 0.
Proof.
  intros L L2 (ND & F & _). rewrite (@later_save _ _ h L). destruct L2 as (os & lr & ep & ->).
  destruct c as [l n a]. unfold optimizer_of; cbn [cb_loss].
  destruct x; cbn [build sac_q_loss dqn_q_loss hlgauss_q_loss policy_loss alpha_callback model_loss vae_loss
     amp_discriminator_loss symmetry_discriminator_loss curl_callback loss_callback cb_loss cb_network cb_ln_alpha
     ls_params ls_network ls_max ls_epoch op_params] in *;
  cbn [cb_load_state_dict cb_ln_alpha cb_network cb_loss rbind ck_net ck_opt map subject h_val h_grad ls_params ls_network ls_max ls_epoch] in *;
  (eexists; eexists; split; [reflexivity|]; cbn [h_val h_grad cb_loss ls_opt ls_lr];
   split; [rewrite ?write_length; reflexivity|]; split; [reflexivity|]; split; [reflexivity|];
   split; [eexists; eexists; eexists; reflexivity|]);
  try (intros p; apply write_back; auto).
  - intros p. apply (@write_back [ln_alpha] (h_val h)); auto.
  - intros p. reflexivity.
Qed.

Lemma inb_app_or (p : nat) a b : inb p (a ++ b) = inb p a || inb p b.
Proof. induction a as [|y a IH]; cbn; [reflexivity|]. rewrite IH. apply orb_assoc. Qed.

Definition owned (xs : list (library_loss OS)) : list nat := flat_map (@subject OS) xs.

Lemma restore_same xs : forall cs cs2 h h2, Forall2 later xs cs -> Forall2 later xs cs2 ->
  Forall (usual (List.length (h_val h2))) xs ->
  exists cs', exists h', restore_all true true (checkpoint cs h) cs2 h2 = Ok (cs', h') /\
    List.length (h_val h') = List.length (h_val h2) /\
    map (@optimizer_of OS) cs' = map (@optimizer_of OS) cs /\ Forall2 later xs cs' /\
    forall p, nth p (h_val h') 0 = if inb p (owned xs) then nth p (h_val h) 0 else nth p (h_val h2) 0.
Proof.
  induction xs as [|x xs IH]; intros cs cs2 h h2 L1 L2 U; inversion L1; inversion L2; inversion U; subst.
  - exists [], h2. cbn. repeat split; auto.
  - destruct (@load_one x y y0 h h2) as (c' & h1 & E1 & LN & _ & O1 & LT & P1); auto.
    destruct (IH l' l'0 h h1) as (cs' & h' & E2 & LN2 & O2 & LT2 & P2); auto.
    { rewrite LN. auto. }
    exists (c' :: cs'), h'. cbn [restore_all checkpoint map]. rewrite E1. cbn [rbind snd fst].
    change (map (fun c => cb_state_dict c h) l') with (checkpoint l' h). rewrite E2. cbn [rbind fst snd].
    split; [reflexivity|]. split; [congruence|]. split; [cbn; congruence|]. split; [constructor; auto|].
    intros p. rewrite P2, P1. unfold owned. cbn [flat_map].
    rewrite inb_app_or. destruct (inb p (subject x)), (inb p (flat_map (@subject OS) xs)); reflexivity.
Qed.

Lemma whole xs cs cs2 h h2 : Forall2 later xs cs -> Forall2 later xs cs2 ->
  Forall (usual (List.length (h_val h2))) xs ->
  exists cs', exists h', restore_all true true (checkpoint cs h) cs2 h2 = Ok (cs', h') /\
    map (@optimizer_of OS) cs' = map (@optimizer_of OS) cs /\
    (forall x p, In x xs -> ~ is_curl x -> In p (trained x) -> nth p (h_val h') 0 = nth p (h_val h) 0) /\
    (forall p, (forall x, In x xs -> ~ In p (subject x)) -> nth p (h_val h') 0 = nth p (h_val h2) 0).
Proof.
  intros L1 L2 U. destruct (@restore_same xs cs cs2 h h2 L1 L2 U) as (cs' & h' & E & _ & O & _ & P).
  exists cs', h'. repeat split; auto.
  - intros x p I NC IT. rewrite P. rewrite Forall_forall in U. destruct (U x I) as (_ & _ & S3).
    assert (IO : In p (owned xs)) by (unfold owned; apply in_flat_map; eauto).
    apply inb_In in IO. rewrite IO. auto.
  - intros p N. rewrite P. destruct (inb p (owned xs)) eqn:IO; auto.
    apply inb_In in IO. unfold owned in IO. apply in_flat_map in IO as (x & I1 & I2). destruct (N x I1 I2).
Qed.

Lemma weights_only x c c2 h h2 lo : later x c -> later x c2 -> usual (List.length (h_val h2)) x -> ~ is_alpha x ->
  exists c', cb_load_state_dict false lo (cb_state_dict c h) c2 h2 = Ok (c', h2).
Proof.
  intros L L2 U NA. rewrite (@later_save _ _ h L). destruct L2 as (os & lr & ep & ->). destruct c as [l n a].
  destruct x; cbn in NA; try tauto; destruct lo; cbn; eexists; reflexivity.
Qed.
Lemma curl_lost encoder projection w b adam lr m c c2 h h2 :
  let x := Curl encoder projection w b adam lr m : library_loss OS in
  later x c -> later x c2 ->
  exists c', exists h', cb_load_state_dict true true (cb_state_dict c h) c2 h2 = Ok (c', h') /\
    optimizer_of c' = optimizer_of c /\ h_val h' = h_val h2.
Proof.
  intros x L (os & lr' & ep & ->). rewrite (@later_save _ _ h L). destruct c as [l n a].
  eexists; eexists. split; [reflexivity|]. split; reflexivity.
Qed.

Lemma curl_counter encoder projection w b (adam : list nat -> OS) lr m h h2 p :
  let x := Curl encoder projection w b adam lr m : library_loss OS in
  In p (trained x) -> nth p (h_val h2) 0 <> nth p (h_val h) 0 ->
  exists cs', exists h', restore_all true true (checkpoint [build x] h) [build x] h2 = Ok (cs', h') /\
    In p (trained x) /\ nth p (h_val h') 0 <> nth p (h_val h) 0.
Proof. intros x I N. eexists; eexists. split; [reflexivity|]. split; [exact I|exact N]. Qed.
Lemma build_later x : later x (build x).
Proof. exists (ls_opt (cb_loss (build x))), (ls_lr (cb_loss (build x))), 0%Z. destruct x; reflexivity. Qed.
End Ctor.
