(** * LockModel: emote/utils/threading.py

    Threads run in small steps: acquiring a lock, one load or store of the shared
    data, releasing the lock.  A schedule says which thread makes the next step. *)
From Verif Require Import Py.
Open Scope list_scope.
Open Scope Z_scope.

(** ** Objects whose methods run under one lock *)
Section Locked.
(** The shared data; the local variables of a method. *)
Context {S L : Type}.
(** One load or store.  emote/utils/threading.py:62-63, 77, 82, 86, 96, 101, 106-107, 113-114 *)
Definition micro : Type := L -> S -> L * S.
(** A call: the local variables at the start (the arguments), what is done between
    acquire and release.  The caller gets the local variables back.  a call of emote/utils/threading.py:54-65, 75-86, 94-115 *)
Record call : Type := mkCall { ca_init : L; ca_body : list micro }.

(** A thread: the calls it will make, what the finished ones gave, and if it is
    inside one, the local variables and what is left to do.  a caller of the methods of emote/utils/threading.py:14-115 *)
Record thread : Type := mkThread { th_todo : list call; th_done : list L; th_in : option (L * list micro) }.
(** one object of emote/utils/threading.py:14-115 (its data and its lock) and the threads using it *)
Record system : Type := mkSys { sy_data : S; sy_lock : option nat; sy_threads : list thread }.

(** replacing one thread; no code in emote/utils/threading.py:1-135 *)
Fixpoint set_nth {A} (n : nat) (x : A) (l : list A) : list A :=
  match n, l with
  | _, [] => []
  | O, _ :: r => x :: r
  | Datatypes.S m, y :: r => y :: set_nth m x r
  end.

(** emote/utils/threading.py:61, 76, 81, 85, 95, 100, 105, 112: [with self._lock: body]. A step of thread
    [i]; nothing happens if it has to wait for the lock or has nothing to do. *)
Definition tick (i : nat) (s : system) : system :=
  match nth_error (sy_threads s) i with
  | None => s
  | Some t =>
      match th_in t with
      | None =>
          match th_todo t, sy_lock s with
          | c :: r, None =>
              mkSys (sy_data s) (Some i)
                (set_nth i (mkThread r (th_done t) (Some (ca_init c, ca_body c))) (sy_threads s))
          | _, _ => s
          end
      | Some (l, m :: r) =>
          let '(l', d) := m l (sy_data s) in
          mkSys d (sy_lock s) (set_nth i (mkThread (th_todo t) (th_done t) (Some (l', r))) (sy_threads s))
      | Some (l, []) =>
          mkSys (sy_data s) None
            (set_nth i (mkThread (th_todo t) (th_done t ++ [l]) None) (sy_threads s))
      end
  end.
(** a schedule of steps of the methods in emote/utils/threading.py:14-115 *)
Fixpoint ticks (sched : list nat) (s : system) : system :=
  match sched with [] => s | i :: r => ticks r (tick i s) end.
(** a new object (emote/utils/threading.py:29-35, 71-73, 90-92), no thread inside a call *)
Definition start (d : S) (programs : list (list call)) : system :=
  mkSys d None (map (fun p => mkThread p [] None) programs).
End Locked.
Arguments micro S L : clear implicits.
Arguments call S L : clear implicits.
Arguments thread S L : clear implicits.
Arguments system S L : clear implicits.

(** ** AtomicInt: emote/utils/threading.py:89-115.  Local variables: [original] /
    [current_value], and the value on the stack while [+=] is evaluated. *)
Record regs : Type := mkRegs { rg_result : Z; rg_tmp : Z }.
(** emote/utils/threading.py:106, 113 *)
Definition load_result : micro Z regs := fun l d => (mkRegs d (rg_tmp l), d).
(** emote/utils/threading.py:96, 101, 114, the load *)
Definition load_tmp : micro Z regs := fun l d => (mkRegs (rg_result l) d, d).
(** emote/utils/threading.py:96, 101, 107, 114, the store *)
Definition store (f : Z -> Z) : micro Z regs := fun l d => (l, f (rg_tmp l)).
(** emote/utils/threading.py:110-115 *)
Definition ai_increment (v : Z) : call Z regs :=
  mkCall (mkRegs 0 0) [load_result; load_tmp; store (fun x => x + v)].
(** emote/utils/threading.py:94-97 *)
Definition ai_iadd (v : Z) : call Z regs := mkCall (mkRegs 0 0) [load_tmp; store (fun x => x + v)].
(** emote/utils/threading.py:99-102 *)
Definition ai_isub (v : Z) : call Z regs := mkCall (mkRegs 0 0) [load_tmp; store (fun x => x - v)].
(** emote/utils/threading.py:104-108 *)
Definition ai_swap (v : Z) : call Z regs := mkCall (mkRegs 0 0) [load_result; store (fun _ => v)].

(** ** AtomicContainer: emote/utils/threading.py:68-86; LockedResource.swap: emote/utils/threading.py:54-65 *)
Section Container.
Context {A : Type}.
(** emote/utils/threading.py:35, 72; None is Python's None *)
Definition cell : Type := option A.
(** emote/utils/threading.py:62, 77, 82 *)
Definition load_cell : micro cell cell := fun _ d => (d, d).
(** emote/utils/threading.py:63, 77, 86 *)
Definition store_cell (x : cell) : micro cell cell := fun l _ => (l, x).
(** emote/utils/threading.py:75-78 *)
Definition ac_take : call cell cell := mkCall None [load_cell; store_cell None].
(** emote/utils/threading.py:80-82 *)
Definition ac_read : call cell cell := mkCall None [load_cell].
(** emote/utils/threading.py:84-86 *)
Definition ac_set (x : A) : call cell cell := mkCall None [store_cell (Some x)].
(** emote/utils/threading.py:54-65 *)
Definition lr_swap (x : A) : call cell cell := mkCall None [load_cell; store_cell (Some x)].
End Container.

(** ** TracedLock: emote/utils/threading.py:118-135

    Time: the clock can go on at any moment.  A thread goes through the lock a
    number of times; where it is: *)
Inductive place : Type :=
| Outside
| Waiting (t0 : Z)                     (* line 126 done *)
| Acquired (t0 : Z)                    (* line 127 done *)
| Timed (t0 now : Z)                   (* line 128 done *)
| BlockLoaded (t0 now acc : Z)         (* line 129: accumulated time loaded *)
| BlockStored (now : Z)                (* line 129 done *)
| Inside (now : Z)                     (* line 130 done: the scope runs *)
| Released (now : Z)                   (* line 134 done *)
| ExecLoaded (now acc : Z)             (* line 135: accumulated time loaded *)
| ExecTimed (now acc t1 : Z)           (* perf_counter() read *)
| ExecStart (now acc t1 start : Z).    (* the start of the scope read *)

(** emote/utils/threading.py:118-123 *)
Record traced : Type := mkTraced {
  tl_clock : Z; tl_lock : option nat;
  tl_start : Z; tl_block : Z; tl_exec : Z;
  tl_threads : list (nat * place)      (* how often still, where *) }.

(** What happens next: the clock goes on, or a thread makes a step.  emote/utils/threading.py:125-135 *)
Inductive event : Type := Advance (d : Z) | Step (i : nat).

(** emote/utils/threading.py:125-135, one step of thread i *)
Definition traced_step (i : nat) (s : traced) : traced :=
  let with_thread t lk st bl ex :=
    mkTraced (tl_clock s) lk st bl ex (set_nth i t (tl_threads s)) in
  let lk := tl_lock s in let st := tl_start s in let bl := tl_block s in let ex := tl_exec s in
  match nth_error (tl_threads s) i with
  | None => s
  | Some (n, p) =>
      match p with
      | Outside => match n with
                   | O => s
                   | Datatypes.S m => with_thread (m, Waiting (tl_clock s)) lk st bl ex
                   end
      | Waiting t0 => match lk with
                      | None => with_thread (n, Acquired t0) (Some i) st bl ex
                      | Some _ => s
                      end
      | Acquired t0 => with_thread (n, Timed t0 (tl_clock s)) lk st bl ex
      | Timed t0 now => with_thread (n, BlockLoaded t0 now bl) lk st bl ex
      | BlockLoaded t0 now acc => with_thread (n, BlockStored now) lk st (acc + (now - t0)) ex
      | BlockStored now => with_thread (n, Inside now) lk now bl ex
      | Inside now => with_thread (n, Released now) None st bl ex
      | Released now => with_thread (n, ExecLoaded now ex) lk st bl ex
      | ExecLoaded now acc => with_thread (n, ExecTimed now acc (tl_clock s)) lk st bl ex
      | ExecTimed now acc t1 => with_thread (n, ExecStart now acc t1 st) lk st bl ex
      | ExecStart now acc t1 s0 => with_thread (n, Outside) lk st bl (acc + (t1 - s0))
      end
  end.
(** a step of emote/utils/threading.py:125-135 or of the clock *)
Definition traced_event (e : event) (s : traced) : traced :=
  match e with
  | Advance d => mkTraced (tl_clock s + d) (tl_lock s) (tl_start s) (tl_block s) (tl_exec s) (tl_threads s)
  | Step i => traced_step i s
  end.
(** a schedule through emote/utils/threading.py:125-135 *)
Fixpoint traced_run (es : list event) (s : traced) : traced :=
  match es with [] => s | e :: r => traced_run r (traced_event e s) end.
(** emote/utils/threading.py:119-123, with threads that will go through the lock that often *)
Definition traced_start (counts : list nat) : traced :=
  mkTraced 0 None 0 0 0 (map (fun n => (n, Outside)) counts).
