(** * SegModel: emote/memory/segment_tree.py *)
From Verif Require Import Py.
Open Scope Z_scope.

(** [l[i] = x] on a Python list; negative indices count from the end.  as in emote/memory/segment_tree.py:66, 69 *)
Definition pyset {A} (l : list A) (i : Z) (x : A) : res (list A) :=
  let n := zlen l in
  let j := if i <? 0 then i + n else i in
  if (0 <=? j) && (j <? n)
  then Ok (firstn (Z.to_nat j) l ++ x :: skipn (S (Z.to_nat j)) l)
  else Err IndexError.

Section Seg.
Context {A : Type}.

(** The operation is a total function here; an operation that raises is not
    modelled.  emote/memory/segment_tree.py:27-29 *)
Record seg : Type := mkSeg { sg_cap : Z; sg_val : list A; sg_op : A -> A -> A }.

(** emote/memory/segment_tree.py:5-29 *)
Definition seg_new (capacity : Z) (op : A -> A -> A) (neutral : A) : res seg :=
  if (0 <? capacity) && (Z.land capacity (capacity - 1) =? 0)
  then Ok (mkSeg capacity (repeat neutral (Z.to_nat (2 * capacity))) op)
  else Err AssertionError.

(** emote/memory/segment_tree.py:31-44.  [limit] is the interpreter's recursion limit. *)
Fixpoint reduce_helper (limit : nat) (t : seg) (start stop node ns ne : Z) : res A :=
  match limit with
  | O => Err RecursionError
  | S r =>
      if (start =? ns) && (stop =? ne) then pyindex (sg_val t) node
      else
        let mid := (ns + ne) / 2 in
        if stop <=? mid then reduce_helper r t start stop (2 * node) ns mid
        else if mid + 1 <=? start then reduce_helper r t start stop (2 * node + 1) (mid + 1) ne
        else
          rbind (reduce_helper r t start mid (2 * node) ns mid) (fun a =>
          rbind (reduce_helper r t (mid + 1) stop (2 * node + 1) (mid + 1) ne) (fun b =>
          Ok (sg_op t a b)))
  end.

(** emote/memory/segment_tree.py:46-61 *)
Definition seg_reduce (limit : nat) (t : seg) (start : Z) (stop : option Z) : res A :=
  let stop := match stop with None => sg_cap t | Some e => e end in
  let stop := if stop <? 0 then stop + sg_cap t else stop in
  reduce_helper limit t start (stop - 1) 1 0 (sg_cap t - 1).

(** emote/memory/segment_tree.py:67-70: [idx //= 2] drops the last binary digit, the loop ends
    after node 1. *)
Fixpoint seg_up (op : A -> A -> A) (vs : list A) (i : positive) : res (list A) :=
  rbind (pyindex vs (2 * Z.pos i)) (fun a =>
  rbind (pyindex vs (2 * Z.pos i + 1)) (fun b =>
  rbind (pyset vs (Z.pos i) (op a b)) (fun vs' =>
  match i with
  | xH => Ok vs'
  | xO j | xI j => seg_up op vs' j
  end))).

(** emote/memory/segment_tree.py:63-70.  No check of the index. *)
Definition seg_set (t : seg) (idx : Z) (v : A) : seg * res unit :=
  let i := idx + sg_cap t in
  match pyset (sg_val t) i v with
  | Err e => (t, Err e)
  | Ok vs =>
      match i / 2 with
      | Z.pos p =>
          match seg_up (sg_op t) vs p with
          | Ok vs' => (mkSeg (sg_cap t) vs' (sg_op t), Ok tt)
          | Err e => (mkSeg (sg_cap t) vs (sg_op t), Err e)
          end
      | _ => (mkSeg (sg_cap t) vs (sg_op t), Ok tt)
      end
  end.

(** emote/memory/segment_tree.py:72-74 *)
Definition seg_get (t : seg) (idx : Z) : res A :=
  if (0 <=? idx) && (idx <? sg_cap t) then pyindex (sg_val t) (sg_cap t + idx)
  else Err AssertionError.

(** A history of assignments.  calls of emote/memory/segment_tree.py:63-70 *)
Definition seg_sets (t : seg) (h : list (Z * A)) : seg :=
  fold_left (fun t iv => fst (seg_set t (fst iv) (snd iv))) h t.
End Seg.
Arguments seg A : clear implicits.

(** ** SumSegmentTree: emote/memory/segment_tree.py:77-112

    Numbers are integers: every finite set of floating point numbers consists of
    multiples of one unit (2^-1074), so that integers in that unit lose no generality
    as long as additions are exact.  Rounding of the additions is not modelled. *)
Definition sum_new (capacity : Z) : res (seg Z) := seg_new capacity Z.add 0.

(** emote/memory/segment_tree.py:105-111; [cap] turns suffice, as idx grows in every turn. *)
Fixpoint find_loop (fuel : nat) (t : seg Z) (idx p : Z) : res Z :=
  match fuel with
  | O => Err Diverges
  | S r =>
      if idx <? sg_cap t then
        rbind (pyindex (sg_val t) (2 * idx)) (fun left =>
        if p <? left then find_loop r t (2 * idx) p
        else find_loop r t (2 * idx + 1) (p - left))
      else Ok (idx - sg_cap t)
  end.

(** emote/memory/segment_tree.py:92-112; [tol] is the 1e-5 of the assertion. *)
Definition find_prefixsum_idx (limit : nat) (tol : Z) (t : seg Z) (p : Z) : res Z :=
  rbind (seg_reduce limit t 0 None) (fun total =>
  if (0 <=? p) && (p <=? total + tol) then find_loop (Z.to_nat (sg_cap t) + 1) t 1 p
  else Err AssertionError).
