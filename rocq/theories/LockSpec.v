(** * LockSpec: what locking has to guarantee *)
From Verif Require Import Py LockModel.
Open Scope list_scope.
Open Scope Z_scope.

Section Spec.
Context {S L : Type}.

(** A call on its own, with nobody else around. *)
Definition alone (c : call S L) (d : S) : L * S :=
  fold_left (fun ld m => m (fst ld) (snd ld)) (ca_body c) (ca_init c, d).
(** One call after the other: what each gives, and the data at the end. *)
Fixpoint one_by_one (d : S) (h : list (nat * call S L)) : list (nat * L) * S :=
  match h with
  | [] => ([], d)
  | (i, c) :: r =>
      let '(l, d1) := alone c d in
      let '(res, d2) := one_by_one d1 r in ((i, l) :: res, d2)
  end.
(** What belongs to thread [i]. *)
Definition of_thread {A} (i : nat) (h : list (nat * A)) : list A :=
  map snd (filter (fun p => Nat.eqb (fst p) i) h).

(** The threads' results are those of some order of the finished calls in which
    they run one after the other, and so is the data whenever the lock is free. *)
Definition as_if_alone (d : S) (programs : list (list (call S L))) (s : system S L) : Prop :=
  exists h : list (nat * call S L),
    (forall i t, nth_error (sy_threads s) i = Some t ->
       exists program rest, nth_error programs i = Some program
         /\ program = of_thread i h ++ rest ++ th_todo t
         /\ (th_in t = None -> rest = []) /\ (List.length rest <= 1)%nat
         /\ th_done t = of_thread i (fst (one_by_one d h)))
    /\ (forall p, In p h -> (fst p < List.length programs)%nat)
    /\ (sy_lock s = None -> sy_data s = snd (one_by_one d h)).

Definition finished (s : system S L) : Prop :=
  Forall (fun t => th_todo t = [] /\ th_in t = None) (sy_threads s).
End Spec.

(** Everything returned to the threads, in any order. *)
Definition returned (s : system Z regs) : list Z := flat_map (fun t => map rg_result (th_done t)) (sy_threads s).

(** The values among what calls of [take] gave. *)
Definition taken {A} (l : list (option A)) : list A :=
  flat_map (fun r => match r with Some x => [x] | None => [] end) l.

(** ** TracedLock: the moments that count, added up over a run *)
Inductive moment : Type := Asks | Enters | Leaves.
(** What a thread does with its next step, seen from outside. *)
Definition moment_of (s : traced) (i : nat) : option moment :=
  match nth_error (tl_threads s) i with
  | Some (n, Outside) => match n with O => None | _ => Some Asks end   (* reads the clock, then waits for the lock *)
  | Some (_, Acquired _) => Some Enters                 (* has the lock, reads the clock *)
  | Some (_, ExecLoaded _ _) => Some Leaves             (* has released the lock, reads the clock *)
  | _ => None
  end.
(** The sum of the clock's values at all moments of one kind. *)
Fixpoint clock_at (m : moment) (es : list event) (s : traced) : Z :=
  match es with
  | [] => 0
  | e :: r =>
      (match e with
       | Step i => match moment_of s i, m with
                   | Some Asks, Asks | Some Enters, Enters | Some Leaves, Leaves => tl_clock s
                   | _, _ => 0
                   end
       | Advance _ => 0
       end) + clock_at m r (traced_event e s)
  end.
Definition all_outside (s : traced) : Prop := Forall (fun t => snd t = Outside) (tl_threads s).

(** After the release: the rest of [__exit__]. *)
Definition leaving (p : place) : bool :=
  match p with Released _ | ExecLoaded _ _ | ExecTimed _ _ _ | ExecStart _ _ _ _ => true | _ => false end.
(** Nobody gets the lock while another thread is still in [__exit__]. *)
Definition calm (s : traced) : Prop :=
  tl_lock s <> None -> Forall (fun t => leaving (snd t) = false) (tl_threads s).
Fixpoint always (P : traced -> Prop) (es : list event) (s : traced) : Prop :=
  P s /\ match es with [] => True | e :: r => always P r (traced_event e s) end.
Definition forward (es : list event) : Prop :=
  Forall (fun e => match e with Advance d => 0 <= d | Step _ => True end) es.
