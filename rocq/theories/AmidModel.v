(** * AmidModel: an add that other threads see in progress, emote/memory/memory.py

    The table has a lock (emote/memory/table.py:112-237, ConcModel), the proxy has none: between two sequences of one
    add, other threads may use the table. *)
From Verif Require Import Py MemModel ProxyModel.
Open Scope list_scope.
Open Scope Z_scope.

Section Amid.
Context {S : Type} `{Scalar S}.

(** Uses of the table by other threads (complete calls of emote/memory/table.py:111-262); with each, the table it found. *)
Fixpoint use_all (t : table S) (us : list (op S)) : table S * list (table S * op S) :=
  match us with
  | [] => (t, [])
  | u :: r => let '(t', found) := use_all (step t u) r in (t', (t, u) :: found)
  end.

(** emote/memory/memory.py:169-170: [plan] is, for each sequence, what the ejector draws and what other threads do
    after its addition. *)
Fixpoint submit_amid (t : table S) (eps : dict Z (episode S)) (plan : list (list draw * list (op S)))
  : table S * list (table S * op S) * res unit :=
  match eps with
  | [] => (t, [], Ok tt)
  | (aid, e) :: r =>
      let '(draws, us) := hd ([], []) plan in
      match add_sequence t aid (touch e (t_lenkey t)) draws with
      | (t', Err x) => (t', [], Err x)
      | (t', Ok _) =>
          let '(t1, found) := use_all t' us in
          let '(t2, found', x) := submit_amid t1 r (tl plan) in
          (t2, found ++ found', x)
      end
  end.

(** emote/memory/memory.py:113-170: [us] is what other threads do before the first addition (the loop of
    emote/memory/memory.py:119-167 does not touch the table). *)
Definition add_amid (pc : pconf) (p : proxy S) (observations : dict Z (obs S)) (responses : dict Z (resp S))
    (us : list (op S)) (plan : list (list draw * list (op S))) : proxy S * list (table S * op S) * res unit :=
  let '(t0, found) := use_all (px_table p) us in
  match collect pc (t_lenkey (px_table p)) responses (px_store p, px_done p, []) observations with
  | ((store, seen, _), Err e) => (mkPx store seen t0, found, Err e)
  | ((store, seen, completed), Ok _) =>
      let '(t', found', x) := submit_amid t0 completed plan in
      (mkPx store seen t', found ++ found', x)
  end.
End Amid.
