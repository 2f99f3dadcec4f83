(** * CallbackSpec: what a hook has to be called with *)
From Verif Require Import Py CallbackModel.
Open Scope string_scope.
Open Scope list_scope.
Open Scope Z_scope.

Section Spec.
Context {A : Type}.

(** A method that can be written: its parameters are different and not called
    self, those without default are among them; renamed parameters are
    parameters, each renamed once. *)
Definition method (f : func A) : Prop :=
  fn_var f = false /\ NoDup ("self" :: fn_params f) /\ incl (fn_required f) (fn_params f)
  /\ NoDup (dkeys (fn_keys f)) /\ incl (dkeys (fn_keys f)) (fn_params f).

(** [args] has exactly those of the parameters of [f] for which [value] gives
    one, with that value. *)
Definition exactly (f : func A) (value : string -> option (pv A)) (args : kwargs A) : Prop :=
  NoDup (dkeys args) /\ forall p, dget args p = if inb p (fn_params f) then value p else None.
(** Can it be called with that? *)
Definition callable (f : func A) (value : string -> option (pv A)) : Prop :=
  forall p, In p (fn_required f) -> value p <> None.

(** Positional arguments, then a mapping. *)
Definition positional (f : func A) (pos : list (pv A)) (p : string) : option (pv A) :=
  dget (combine (fn_args f) pos) p.
Definition either (a b : option (pv A)) : option (pv A) := match a with Some x => Some x | None => b end.

(** Where the value of a parameter comes from: itself, or the key it is renamed
    to. *)
Definition source (f : func A) (p : string) : string :=
  match dget (fn_keys f) p with Some key => key | None => p end.

(** A state with group [g] that can be handed over: neither has the key "self". *)
Definition group_state (st : kwargs A) (group : string) (g : kwargs A) : Prop :=
  dget st group = Some (PDict g) /\ NoDup (dkeys g) /\ ~ In "self" (dkeys st) /\ ~ In "self" (dkeys g).

(** With a data group: the group first and then the state, except that what is
    renamed is in the state. *)
Definition gvalue (f : func A) (g st : kwargs A) (p : string) : option (pv A) :=
  match dget (fn_keys f) p with
  | Some key => dget st key
  | None => either (dget g p) (dget st p)
  end.

(** The trainer gives at most one positional argument (end_training: the
    exception), and [f] has a place for it or no parameters at all. *)
Definition fits (f : func A) (pos : list (pv A)) : Prop :=
  (List.length pos <= 1)%nat /\ ((List.length pos <= List.length (fn_args f))%nat \/ fn_params f = []).

(** The mappings the method returns are mappings: no key twice. *)
Definition returns_mappings (f : func A) (group : string) : Prop :=
  forall b d u, fn_body f b = Ok (PDict d) -> dget d group = Some (PDict u) -> NoDup (dkeys d) /\ NoDup (dkeys u).
(** What becomes of the state and of the result [r] of a method with a group. *)
Definition routed (group : string) (g st : kwargs A) (r : res (pv A)) (after : kwargs A * res (pv A)) : Prop :=
  match r with
  | Ok (PDict d) =>
      match dget d group with
      | Some (PDict u) =>
          (exists g', dget (fst after) group = Some (PDict g')
             /\ forall k, dget g' k = either (dget u k) (dget g k))
          /\ (forall k, k <> group -> dget (fst after) k = dget st k)
          /\ exists d', snd after = Ok (PDict d') /\ dget d' group = None
             /\ forall k, k <> group -> dget d' k = dget d k
      | Some (PAtom _) => after = (st, Err TypeError)
      | None => after = (st, r)
      end
  | _ => after = (st, r)
  end.
End Spec.
