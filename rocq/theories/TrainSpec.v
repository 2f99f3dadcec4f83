(** * TrainSpec: the specification of a training run *)
From Coq Require Import Permutation Sorted.
From Verif Require Import Py TrainModel.
Open Scope string_scope.
Open Scope list_scope.
Open Scope Z_scope.

(** [l] is [callbacks] in ascending order value, ties in list order. *)
Definition in_order (callbacks l : list callback) : Prop :=
  Permutation callbacks l
  /\ StronglySorted (fun a b => cb_order a <= cb_order b) l
  /\ forall o, filter (fun c => cb_order c =? o) l = filter (fun c => cb_order c =? o) callbacks.

(** Step k (from 1) is the first, the last of a cycle of c. *)
Definition first_of_cycle (k : Z) (c : callback) : bool :=
  match cb_cycle c with Some p => (0 <? p) && ((k - 1) mod p =? 0) | None => false end.
Definition last_of_cycle (k : Z) (c : callback) : bool :=
  match cb_cycle c with Some p => (0 <? p) && (k mod p =? 0) | None => false end.

(** The hooks in the order in which they have to be called. *)
Definition all_of (ph : phase) (l : list callback) : list (phase * callback) := map (pair ph) l.
Definition opening (l : list callback) : list (phase * callback) :=
  all_of PRestore l ++ all_of PBeginTraining l.
Definition step_calls (l : list callback) (k : Z) : list (phase * callback) :=
  all_of PBeginCycle (filter (first_of_cycle k) l) ++ all_of PBeginBatch l ++ all_of PBackward l
  ++ all_of PEndBatch l ++ all_of PEndCycle (filter (last_of_cycle k) l).
Definition steps_calls (l : list callback) (k0 : Z) (n : nat) : list (phase * callback) :=
  flat_map (fun i => step_calls l (k0 + Z.of_nat i)) (seq 0 n).
Definition closing (l : list callback) : list (phase * callback) := all_of PEndTraining l.

Section Spec.
Context {O : Type}.
Notation entry := (entry O).

(** The hooks that were called, the batches that were merged. *)
Definition calls (tr : list entry) : list (phase * callback) :=
  flat_map (fun e => match e with TCall ph c _ _ _ => [(ph, c)] | TBatch _ _ => [] end) tr.
Definition batches (tr : list entry) : list (Z * tstate O) :=
  flat_map (fun e => match e with TBatch k b => [(k, b)] | TCall _ _ _ _ _ => [] end) tr.
Definition raises (e : entry) : option exn :=
  match e with TCall _ _ _ _ (Err x) => Some x | _ => None end.
Definition quiet (tr : list entry) : Prop := Forall (fun e => raises e = None) tr.

(** An item at which training stops: the data loader raises, the shutdown signal
    raises or says so, or the sample count cannot be computed. *)
Definition item_raises (it : item O) (e : exn) : Prop :=
  it_batch it = Err e \/ it_stop it = Err e \/ (it_stop it = Ok true /\ e = Shutdown).
Definition miscounts (e : exn) : Prop := e = KeyError \/ e = TypeError.

(** Why a run stops with exception [e] after [tr]: the last hook raised it; or
    one of the items did, all the hooks of the steps before it having been
    called. *)
Definition stops (why : item O -> exn -> Prop) (l : list callback) (k0 : Z) (items : list (item O))
  (tr : list entry) (e : exn) : Prop :=
  (exists tr0 x, tr = tr0 ++ [x] /\ quiet tr0 /\ raises x = Some e)
  \/ (quiet tr /\ exists n it, nth_error items n = Some it /\ why it e
                          /\ calls tr = opening l ++ steps_calls l k0 n).

(** end_training is called with [e] on each of [l], until one of these calls
    raises; how train() ends then. *)
Definition closes (l : list callback) (e : exn) (tr : list entry) (out : outcome) : Prop :=
  Forall (fun en => match en with TCall _ _ x _ _ => x = Some e | TBatch _ _ => False end) tr
  /\ ((quiet tr /\ calls tr = closing l
       /\ out = match e with Shutdown => Returned | _ => Raised e end)
      \/ (exists tr0 x e' rest, tr = tr0 ++ [x] /\ quiet tr0 /\ raises x = Some e'
                           /\ calls tr ++ rest = closing l /\ out = Raised e')).

(** The state as a function from names to values; what an entry does to it. *)
Definition lookup : Type := string -> option (value O).
Definition merged (f : lookup) (u : tstate O) : lookup :=
  fun key => match dget u key with Some v => Some v | None => f key end.
Definition plus (a b : option (value O)) : option (value O) :=
  match a, b with Some (VNum x), Some (VNum y) => Some (VNum (x + y)) | _, _ => None end.
Definition written (f : lookup) (key : string) (v : option (value O)) : lookup :=
  fun key' => if (key' =? key)%string then v else f key'.
Definition after (size_key : string) (f : lookup) (e : entry) : lookup :=
  match e with
  | TCall _ _ _ _ (Ok u) => merged f u
  | TCall _ _ _ _ (Err _) => f
  | TBatch k b =>
      let g := written (merged f b) "bp_step" (Some (VNum k)) in
      written g "bp_samples" (plus (g "bp_samples") (g size_key))
  end.
Definition visible (size_key : string) (f : lookup) (tr : list entry) : lookup :=
  fold_left (after size_key) tr f.

(** What the trainer puts in the state before anything runs. *)
Definition initial (st0 : tstate O) : lookup :=
  written (written (fun key => dget st0 key) "bp_samples" (Some (VNum 0))) "bp_step" (Some (VNum 1)).

(** Mappings have each key once. *)
Definition proper {W} (act : behaviour O W) (items : list (item O)) : Prop :=
  (forall c ph x st w u, snd (act c ph x st w) = Ok u -> NoDup (dkeys u))
  /\ Forall (fun it => forall b, it_batch it = Ok b -> NoDup (dkeys b)) items.

(** The callbacks [cbs] leave [key] alone in the phases [phs]. *)
Definition leaves {W} (act : behaviour O W) (cbs : list callback) (phs : phase -> Prop) (key : string)
  : Prop :=
  forall c ph x st w u, In c cbs -> phs ph -> snd (act c ph x st w) = Ok u -> ~ In key (dkeys u).
Definition before_training (ph : phase) : Prop := ph = PRestore \/ ph = PBeginTraining.

(** Never raises. *)
Definition total {W} (act : behaviour O W) (cbs : list callback) (phs : phase -> Prop) : Prop :=
  forall c ph x st w, In c cbs -> phs ph -> exists u, snd (act c ph x st w) = Ok u.

(** An item that brings a batch of [n] samples and leaves bp_samples alone, or
    raises. *)
Definition sized (size_key : string) (it : item O) (n : Z) : Prop :=
  forall b, it_batch it = Ok b ->
    NoDup (dkeys b) /\ dget b size_key = Some (VNum n) /\ ~ In "bp_samples" (dkeys b).
Definition countable (size_key : string) (it : item O) : Prop := exists n, sized size_key it n.

(** How often a hook of a callback was called. *)
Definition phase_eqb (a b : phase) : bool :=
  match a, b with
  | PRestore, PRestore | PBeginTraining, PBeginTraining | PBeginCycle, PBeginCycle
  | PBeginBatch, PBeginBatch | PBackward, PBackward | PEndBatch, PEndBatch
  | PEndCycle, PEndCycle | PEndTraining, PEndTraining => true
  | _, _ => false
  end.
Definition count (ph : phase) (id : nat) (l : list (phase * callback)) : nat :=
  List.length (filter (fun p => phase_eqb (fst p) ph && Nat.eqb (cb_id (snd p)) id) l).
End Spec.
