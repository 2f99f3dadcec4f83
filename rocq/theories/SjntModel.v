(** * SjntModel: a JointMemoryLoader whose loaders share one memory, emote/memory/memory.py *)
From Verif Require Import Py MemModel ProxyModel LoaderModel.
Open Scope list_scope.
Open Scope Z_scope.

Section Sjnt.
Context {S : Type} `{Scalar S}.

(** emote/memory/memory.py:533-542: one batch, as [joint_turns] of JgapModel, but every loader draws from the memory the
    loaders before it have drawn from.  Before each loader's turn others use the memory (through its proxy, with settings
    [pc]). *)
Fixpoint shared_turns (pc : pconf) (size_key : string) (ls : list loader) (p : proxy S) (acts : list (list (pop S) * list draw)) (out : batch S)
  : proxy S * res (batch S) :=
  match ls with
  | [] => (p, Ok out)
  | l :: r =>
      let a := hd ([], []) acts in
      let p1 := fst (prun pc p (fst a)) in
      let '(_, t, b) := loader_next l GNew (px_table p1) (snd a) in
      let p2 := mkPx (px_store p1) (px_done p1) t in
      match b with
      | Err e => (p2, Err e)
      | Ok data =>
          match dget data (ld_group l), dget data (ld_size_key l) with
          | Some g, Some n =>
              match add_num (dset out (ld_group l) g) size_key n with
              | Err e => (p2, Err e)
              | Ok out' => shared_turns pc size_key r p2 (tl acts) out'
              end
          | _, _ => (p2, Err KeyError)
          end
      end
  end.

(** emote/memory/memory.py:533-542: the loop; an exception ends the generator. *)
Fixpoint shared_rounds (pc : pconf) (size_key : string) (ls : list loader) (p : proxy S) (rounds : list (list (list (pop S) * list draw))) : list (res (batch S)) :=
  match rounds with
  | [] => []
  | acts :: r =>
      match shared_turns pc size_key ls p acts [(size_key, ENum 0)] with
      | (_, Err e) => [Err e]
      | (p', Ok b) => Ok b :: shared_rounds pc size_key ls p' r
      end
  end.

(** emote/memory/memory.py:523-542 *)
Definition shared_amid (pc : pconf) (size_key : string) (ls : list loader) (p : proxy S) (rounds : list (list (list (pop S) * list draw))) : list (res (batch S)) :=
  if forallb (fun l => is_ready l (px_table p)) ls then shared_rounds pc size_key ls p rounds else [Err OtherError].
End Sjnt.
