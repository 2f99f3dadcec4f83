(** * CtorProps: C137 *)
From Coq Require Import Reals Lra Lia.
From Verif Require Import Py NumModel SchedModel LossModel LossSpec CtorModel CtorSpec CtorProofs.
Open Scope list_scope.
Open Scope R_scope.

(** C137.  Whatever loss of the library is built with whatever arguments: a batch makes one
    step of the optimizer that was passed in, on the parameters of that optimizer and no
    others, with the gradient cut to the norm that was asked for. *)
Theorem C137_trains :
  forall OS (ostep : OS -> R -> list R -> list (option R) -> OS * list R) lrstep (x : library_loss OS) gradient h d,
  List.length (h_grad h) = List.length (h_val h) ->
  NoDup (trained x) -> Forall (fun p => (p < List.length (h_val h))%nat) (trained x) ->
  (forall p, In p (trained x) -> gradient (h_val h) p = Some (d p)) ->
  let h' := snd (fst (backward ostep lrstep gradient (cb_loss (build x)) h)) in
  exists os new,
    ostep (fst (optimizer_of (build x))) (snd (optimizer_of (build x)))
          (map (fun p => nth p (h_val h) 0) (trained x))
          (map Some (clipped (bound x) (map d (trained x)))) = (os, new) /\
    assigned (trained x) new (h_val h) (h_val h').
Proof. intros OS ostep lrstep x gradient h d. exact (@trains OS ostep lrstep x gradient h d). Qed.
Print Assumptions C137_trains.

(** Any number of losses, at any time of the training (values [h]), saved together and loaded
    into a new process with the same losses (values [h2]): loading succeeds, every optimizer
    is as it was, every parameter trained by a loss other than CurlLoss has its saved value,
    and parameters that belong to no loss's network are not touched. *)
Theorem C137_checkpoint_partial :
  forall OS (xs : list (library_loss OS)) cs cs2 h h2,
  Forall2 later xs cs -> Forall2 later xs cs2 ->
  Forall (usual (List.length (h_val h2))) xs ->
  exists cs', exists h', restore_all true true (checkpoint cs h) cs2 h2 = Ok (cs', h') /\
    map optimizer_of cs' = map optimizer_of cs /\
    (forall x p, In x xs -> ~ is_curl x -> In p (trained x) -> nth p (h_val h') 0 = nth p (h_val h) 0) /\
    (forall p, (forall x, In x xs -> ~ In p (subject x)) -> nth p (h_val h') 0 = nth p (h_val h2) 0).
Proof. intros OS xs cs cs2 h h2. exact (@whole OS xs cs cs2 h h2). Qed.
Print Assumptions C137_checkpoint_partial.

(** Without load_weights no parameter is touched (AlphaLoss apart, see C93). *)
Theorem C137_weights_left_alone :
  forall OS (x : library_loss OS) c c2 h h2 lo, later x c -> later x c2 ->
  usual (List.length (h_val h2)) x -> ~ is_alpha x ->
  exists c', cb_load_state_dict false lo (cb_state_dict c h) c2 h2 = Ok (c', h2).
Proof. intros OS x c c2 h h2 lo. exact (@weights_only OS x c c2 h h2 lo). Qed.
Print Assumptions C137_weights_left_alone.

(** Refuted: not one of the parameters a CurlLoss trains is in its checkpoint.  Its optimizer
    comes back with the moments of the old parameters, the parameters are those of the new
    process... *)
Theorem C137_curl_finding :
  forall OS encoder projection w b (adam : list nat -> OS) lr m c c2 h h2,
  let x := Curl encoder projection w b adam lr m in
  later x c -> later x c2 ->
  exists c', exists h', cb_load_state_dict true true (cb_state_dict c h) c2 h2 = Ok (c', h') /\
    optimizer_of c' = optimizer_of c /\ h_val h' = h_val h2.
Proof. intros OS encoder projection w b adam lr m c c2 h h2. exact (@curl_lost OS encoder projection w b adam lr m c c2 h h2). Qed.
Print Assumptions C137_curl_finding.
(** ... so wherever the new process's random W (or projection layer) differs, it is not the
    saved one. *)
Theorem C137_checkpoint_refuted :
  forall OS encoder projection w b (adam : list nat -> OS) lr m h h2 p,
  let x := Curl encoder projection w b adam lr m in
  In p (trained x) -> nth p (h_val h2) 0 <> nth p (h_val h) 0 ->
  exists cs', exists h', restore_all true true (checkpoint [build x] h) [build x] h2 = Ok (cs', h') /\
    In p (trained x) /\ nth p (h_val h') 0 <> nth p (h_val h) 0.
Proof. intros OS encoder projection w b adam lr m h h2 p. exact (@curl_counter OS encoder projection w b adam lr m h h2 p). Qed.
Print Assumptions C137_checkpoint_refuted.

(** A soft actor critic with a shared encoder and CURL: value network 0 1, policy 2 3, the
    logarithm of alpha 4, CURL's projection layer 5 and W 6 over the encoder 2. *)
Example c137_case :
  let xs := [SacQ [0; 1] (mkOpt [1; 0] tt 1) 10; Policy [2; 3] [0; 1] [] (mkOpt [3] tt 1) 10;
             Alpha [2; 3] 4 (mkOpt [4] tt 1) 10; Curl [2] [5] [6] true (fun _ => tt) 1 1]%nat in
  Forall (usual 7) xs /\ Forall2 later xs (map build xs) /\
  trained (Curl [2%nat] [5%nat] [6%nat] true (fun _ => tt) 1 1) = [2; 5; 6]%nat /\
  match restore_all true true (checkpoint (map build xs) (mkHeap [1; 2; 3; 4; 5; 6; 7] (repeat None 7)))
          (map build xs) (mkHeap [0; 0; 0; 0; 0; 0; 0] (repeat None 7)) with
  | Ok (_, h') => h_val h' = [1; 2; 3; 4; 5; 0; 0]
  | Err _ => False
  end.
Proof.
  split.
  { assert (N2 : forall a b : nat, a <> b -> NoDup [a; b]).
    { intros a b N. apply NoDup_cons; [intros [E|[]]; auto|]. apply NoDup_cons; [intros []|apply NoDup_nil]. }
    repeat (apply Forall_cons || apply Forall_nil); unfold usual; cbn;
      (split; [try (apply N2; lia); repeat (apply NoDup_cons; [intros []|]); apply NoDup_nil|]);
      (split; [repeat (apply Forall_cons; [lia|]); apply Forall_nil|]); intros; cbn in *; tauto. }
  split; [repeat (apply Forall2_cons; [apply build_later|]); apply Forall2_nil|].
  split; reflexivity.
Qed.
