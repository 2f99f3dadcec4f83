(** * ImagSpec: what imagined experience has to be *)
From Verif Require Import Py MemModel ProxyModel ProxySpec EnvModel.
Open Scope list_scope.

Section Spec.
Context {S : Type} {HS : Scalar S}.
Notation row := (list S).
Notation moment := (@moment S).

(** After observing [o] and doing what it did at [m], an agent sees and receives at [m'] what
    the model predicts for [o] and that action; its episode has ended with it if the
    termination function says so. *)
Definition model_says (dy : dyn row (resp S) row) (key : string) (o : row) (m m' : moment) : Prop :=
  exists action call i o' w, snd m = Some action
    /\ dy_model dy call i o action = (o', w)
    /\ saw m' key = Some o'
    /\ received m' = Some (match dy_reward dy with None => w | Some f => f call i action o' end)
    /\ (o_state (fst m') = TERMINAL <-> dy_done dy call i o' = true).
(** ... where [o] is what it observed at [m]. *)
Definition foreseen (dy : dyn row (resp S) row) (key : string) (m m' : moment) : Prop :=
  exists o, saw m key = Some o /\ model_says dy key o m m'.
(** The episode starts with one of the observations [starts]. *)
Definition starts_in (key : string) (starts : list row) (ms : list moment) : Prop :=
  forall m, nth_error ms 0 = Some m -> exists o, saw m key = Some o /\ In o starts.
(** Imagined experience: it starts with one of the given observations, and every step goes
    where the model predicts. *)
Definition imagined (dy : dyn row (resp S) row) (key : string) (starts : list row) (ms : list moment) : Prop :=
  starts_in key starts ms /\
  forall k m m', nth_error ms k = Some m -> nth_error ms (k + 1) = Some m' -> foreseen dy key m m'.
(** Almost: the first step goes where the model predicts for some observation. *)
Definition imagined_but_first (dy : dyn row (resp S) row) (key : string) (starts : list row) (ms : list moment) : Prop :=
  starts_in key starts ms /\
  forall k m m', nth_error ms k = Some m -> nth_error ms (k + 1) = Some m' ->
    match k with O => exists o, model_says dy key o m m' | _ => foreseen dy key m m' end.
(** No episode ends but by its length. *)
Definition never_ends (dy : dyn row (resp S) row) : Prop := forall call i o, dy_done dy call i o = false.
End Spec.
