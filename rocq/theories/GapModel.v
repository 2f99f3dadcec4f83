(** * GapModel: a MemoryLoader whose memory is used by other threads, emote/memory/memory.py *)
From Verif Require Import Py MemModel ProxyModel LoaderModel.
Open Scope list_scope.
Open Scope Z_scope.

Section Gap.
Context {S : Type} `{Scalar S}.
Variable pc : pconf.
Variable l : loader.

(** emote/memory/memory.py:499-504: the loop.  In each round others use the memory (calls of the proxy and of the table),
    then a batch is drawn; an exception ends the generator.  That an exception in the others' calls ends them, too, is
    not modelled (prun stops there, the loader goes on). *)
Fixpoint batches_amid (p : proxy S) (rounds : list (list (pop S) * list draw)) : list (res (batch S)) :=
  match rounds with
  | [] => []
  | (h, draws) :: r =>
      let '(p1, _) := prun pc p h in
      match load_one l (px_table p1) draws with
      | (_, Err e) => [Err e]
      | (t', Ok b) => Ok b :: batches_amid (mkPx (px_store p1) (px_done p1) t') r
      end
  end.

(** emote/memory/memory.py:492-504: the check, then the loop; the others go on between the check and the first batch. *)
Definition iterate_amid (p : proxy S) (rounds : list (list (pop S) * list draw)) : list (res (batch S)) :=
  if is_ready l (px_table p) then batches_amid p rounds else [Err OtherError].
End Gap.
