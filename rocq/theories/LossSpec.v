(** * LossSpec: what training a loss, saving it and loading it have to do *)
From Coq Require Import Reals.
From Verif Require Import Py NumModel SchedModel LossModel.
Open Scope list_scope.
Open Scope R_scope.

(** The Euclidean norm. *)
Definition euclid (g : list R) : R := sqrt (rsum (map (fun x => x * x) g)).
(** PyTorch's margin against division by zero. *)
Definition margin : R := / 10 ^ 6.
(** A gradient, shortened if it is longer than [bound]. *)
Definition clipped (bound : R) (g : list R) : list R :=
  if Rle_dec (euclid g + margin) bound then g else map (Rmult (bound / (euclid g + margin))) g.
(** [vals'] is [vals] with the parameters [ps] set to [new]. *)
Definition assigned (ps : list nat) (new vals vals' : list R) : Prop :=
  List.length vals' = List.length vals /\
  (forall k p x, nth_error ps k = Some p -> nth_error new k = Some x -> nth p vals' 0 = x) /\
  (forall i, ~ In i ps -> nth i vals' 0 = nth i vals 0).

Section Loss.
Context {OS : Type}.
Variable ostep : OS -> R -> list R -> list (option R) -> OS * list R.
Variable lrstep : Z -> R -> R.

(** One backward pass of loss [l] at the values [vals], where [d] is the derivative of
    the batch's loss: one step of the optimizer with that derivative, clipped, for the
    loss's own parameters; one step of the learning rate.  No gradient of any earlier
    batch is mentioned. *)
Definition clean_step (d : nat -> R) (l l' : loss OS) (vals vals' : list R) : Prop :=
  exists os new,
    ostep (ls_opt l) (ls_lr l) (map (fun p => nth p vals 0) (ls_params l))
          (map Some (clipped (ls_max l) (map d (ls_params l)))) = (os, new) /\
    l' = mkLoss (ls_params l) (ls_network l) (ls_max l) os (lrstep (ls_epoch l + 1)%Z (ls_lr l)) (ls_epoch l + 1)%Z /\
    assigned (ls_params l) new vals vals'.
(** A run: at each call one of the losses makes such a step, the others stay as they
    are. *)
Inductive clean_run : list (nat * (list R -> nat -> option R)) ->
    list (loss OS) -> list R -> list (loss OS) -> list R -> Prop :=
| clean_nil ls vals : clean_run [] ls vals ls vals
| clean_call k gradient calls ls vals l d l' vals1 ls1 ls' vals' :
    nth_error ls k = Some l ->
    (forall p, In p (ls_params l) -> gradient vals p = Some (d p)) ->
    clean_step d l l' vals vals1 ->
    (forall j, nth_error ls1 j = if Nat.eqb j k then Some l' else nth_error ls j) ->
    clean_run calls ls1 vals1 ls' vals' ->
    clean_run ((k, gradient) :: calls) ls vals ls' vals'.

(** Losses and calls that make sense: parameters exist and are different, the optimizer
    gives each a new value, calls name a loss, and the loss of a batch depends on all
    parameters of its optimizer. *)
Definition sound_loss (n : nat) (l : loss OS) : Prop :=
  NoDup (ls_params l) /\ Forall (fun p => (p < n)%nat) (ls_params l).
Definition sound_optimizer : Prop := forall os lr vals gs, List.length (snd (ostep os lr vals gs)) = List.length vals.
Definition sound_call (ls : list (loss OS)) (call : nat * (list R -> nat -> option R)) : Prop :=
  exists l, nth_error ls (fst call) = Some l /\
    forall vals p, In p (ls_params l) -> exists x, snd call vals p = Some x.
(** Saved networks exist, have different parameters, and together are all parameters. *)
Definition sound_networks (n : nat) (ls : list (loss OS)) : Prop :=
  Forall (fun l => NoDup (ls_network l) /\ Forall (fun p => (p < n)%nat) (ls_network l)) ls.
Definition cover (n : nat) (ls : list (loss OS)) : Prop :=
  forall p, (p < n)%nat -> exists l, In l ls /\ In p (ls_network l).
(** Losses built the same way, in another process. *)
Definition same_build (ls ls2 : list (loss OS)) : Prop :=
  Forall2 (fun l l2 => ls_params l2 = ls_params l /\ ls_network l2 = ls_network l /\ ls_max l2 = ls_max l) ls ls2.
End Loss.
