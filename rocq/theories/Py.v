(** * Py: the Python vocabulary shared by all models.

    Python exceptions as values, insertion-ordered dictionaries, slices and
    floor division.  This file contains no model of repository code; it fixes
    the meaning of the language constructs the repository uses. *)
From Coq Require Export String ZArith Lia Bool List.
Export ListNotations.

(** ** Exceptions *)

(** The exception classes the repository raises or lets escape.  for example emote/memory/segment_tree.py:24, emote/trainer.py:79, emote/memory/memory.py:211, 592 *)
Inductive exn : Type :=
| KeyError | IndexError | ValueError | AssertionError | TypeError
| OverflowError | ZeroDivisionError | RecursionError | AttributeError
| FileNotFoundError | StopIteration
| RuntimeError (* torch: sizes that do not fit *)
| OtherError  (* a bare Exception(...) *)
| Shutdown    (* emote/trainer.py:22-23 TrainingShutdownException *)
| Diverges    (* the Python loop does not terminate / the oracle ran dry *).

(** a call that returns, or raises as in emote/trainer.py:71-79 *)
Inductive res (A : Type) : Type :=
| Ok (a : A)
| Err (e : exn).
Arguments Ok {A} a.
Arguments Err {A} e.

(** one statement after another, for example emote/trainer.py:71-72 *)
Definition rbind {A B} (r : res A) (f : A -> res B) : res B :=
  match r with Ok a => f a | Err e => Err e end.

(** a return value used in an expression, for example emote/memory/memory.py:277 *)
Definition rmap {A B} (f : A -> B) (r : res A) : res B :=
  match r with Ok a => Ok (f a) | Err e => Err e end.

(** whether a call returned, for example emote/trainer.py:70-79 *)
Definition is_ok {A} (r : res A) : bool :=
  match r with Ok _ => true | Err _ => false end.

(** Run [f] on every element, stop at the first exception.  for example emote/models/model_env.py:134-136 *)
Fixpoint rmapM {A B} (f : A -> res B) (l : list A) : res (list B) :=
  match l with
  | [] => Ok []
  | x :: r => rbind (f x) (fun y => rbind (rmapM f r) (fun ys => Ok (y :: ys)))
  end.

(** ** Keys with decidable equality *)

Class EqK (K : Type) : Type :=
  { keqb : K -> K -> bool;
    keqb_spec : forall a b, reflect (a = b) (keqb a b) }.

#[export] Instance EqK_Z : EqK Z := { keqb := Z.eqb; keqb_spec := Z.eqb_spec }.
#[export] Instance EqK_nat : EqK nat := { keqb := Nat.eqb; keqb_spec := Nat.eqb_spec }.
#[export] Instance EqK_string : EqK string :=
  { keqb := String.eqb; keqb_spec := String.eqb_spec }.

(** ** Insertion-ordered dictionaries *)

(** for example emote/memory/memory.py:79 *)
Definition dict (K V : Type) : Type := list (K * V).

Section Dict.
  Context {K V : Type} `{EqK K}.

  (** for example emote/memory/uniform_strategy.py:39 *)
  Definition dkeys (d : dict K V) : list K := map fst d.
  (** for example emote/memory/uniform_strategy.py:38 *)
  Definition dvals (d : dict K V) : list V := map snd d.

  (** [d[k]], [None] standing for KeyError.  for example emote/memory/memory.py:159 *)
  Fixpoint dget (d : dict K V) (k : K) : option V :=
    match d with
    | [] => None
    | (k', v) :: r => if keqb k k' then Some v else dget r k
    end.

  (** for example emote/memory/memory.py:163 *)
  Definition dmem (d : dict K V) (k : K) : bool :=
    match dget d k with Some _ => true | None => false end.

  (** [d[k] = v]: an existing key keeps its position.  for example emote/memory/memory.py:164 *)
  Fixpoint dset (d : dict K V) (k : K) (v : V) : dict K V :=
    match d with
    | [] => [(k, v)]
    | (k', v') :: r => if keqb k k' then (k', v) :: r else (k', v') :: dset r k v
    end.

  (** [del d[k]] for a present key; the identity on an absent one (callers
      check membership and raise KeyError themselves).  for example emote/memory/uniform_strategy.py:34 *)
  Fixpoint ddel (d : dict K V) (k : K) : dict K V :=
    match d with
    | [] => []
    | (k', v') :: r => if keqb k k' then r else (k', v') :: ddel r k
    end.

  (** [d.update(e)].  for example emote/memory/memory.py:160 *)
  Definition dupdate (d e : dict K V) : dict K V :=
    fold_left (fun acc kv => dset acc (fst kv) (snd kv)) e d.

  (** [d.get(k, default)].  for example emote/memory/memory.py:273 *)
  Definition dget_default (d : dict K V) (k : K) (v : V) : V :=
    match dget d k with Some x => x | None => v end.
End Dict.

(** [k in list].  for example emote/memory/memory.py:128 *)
Fixpoint inb {K} `{EqK K} (k : K) (l : list K) : bool :=
  match l with [] => false | x :: r => keqb k x || inb k r end.

(** ** Sequences *)

(** Python's normalisation of a slice bound against length [n].  for example emote/utils/gamma_matrix.py:30 *)
Definition slice_idx (n i : Z) : Z :=
  if (i <? 0)%Z then Z.max 0 (i + n) else Z.min i n.

(** [l[start:stop]] (step 1).  for example emote/utils/gamma_matrix.py:30 *)
Definition pyslice {A} (l : list A) (start stop : Z) : list A :=
  let n := Z.of_nat (List.length l) in
  let a := slice_idx n start in
  let b := slice_idx n stop in
  firstn (Z.to_nat (b - a)) (skipn (Z.to_nat a) l).

(** [l[i]] on a list or deque (negative indices count from the end).  for example emote/memory/segment_tree.py:33 *)
Definition pyindex {A} (l : list A) (i : Z) : res A :=
  let n := Z.of_nat (List.length l) in
  let j := if (i <? 0)%Z then (i + n)%Z else i in
  if ((0 <=? j) && (j <? n))%Z
  then match nth_error l (Z.to_nat j) with Some x => Ok x | None => Err IndexError end
  else Err IndexError.

(** len(l), for example emote/memory/memory.py:85 *)
Definition zlen {A} (l : list A) : Z := Z.of_nat (List.length l).

(** [sum(l)].  for example emote/memory/uniform_strategy.py:38 *)
Definition zsum (l : list Z) : Z := fold_right Z.add 0%Z l.
