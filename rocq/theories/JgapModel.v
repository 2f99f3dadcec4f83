(** * JgapModel: a JointMemoryLoader whose memories are used by other threads, emote/memory/memory.py *)
From Verif Require Import Py MemModel ProxyModel LoaderModel.
Open Scope list_scope.
Open Scope Z_scope.

Section Jgap.
Context {S : Type} `{Scalar S}.

(** A loader with the proxy of its memory (and the proxy's settings); emote/memory/memory.py:509-511.  Loaders that share
    one memory: SjntModel. *)
Record source : Type := mkSource { so_pc : pconf; so_loader : loader; so_px : proxy S }.

(** emote/memory/memory.py:533-542: one batch.  Before each loader's turn others use its memory; for every batch the
    loader gets a new generator, which checks the size again (emote/memory/memory.py:492-498). *)
Fixpoint joint_turns (size_key : string) (ls : list source) (acts : list (list (pop S) * list draw)) (out : batch S)
  : list source * res (batch S) :=
  match ls with
  | [] => ([], Ok out)
  | s :: r =>
      let a := hd ([], []) acts in
      let p := fst (prun (so_pc s) (so_px s) (fst a)) in
      let '(_, t, b) := loader_next (so_loader s) GNew (px_table p) (snd a) in
      let s' := mkSource (so_pc s) (so_loader s) (mkPx (px_store p) (px_done p) t) in
      match b with
      | Err e => (s' :: r, Err e)
      | Ok data =>
          match dget data (ld_group (so_loader s)), dget data (ld_size_key (so_loader s)) with
          | Some g, Some n =>
              match add_num (dset out (ld_group (so_loader s)) g) size_key n with
              | Err e => (s' :: r, Err e)
              | Ok out' => let '(r', x) := joint_turns size_key r (tl acts) out' in (s' :: r', x)
              end
          | _, _ => (s' :: r, Err KeyError)
          end
      end
  end.

(** emote/memory/memory.py:533-542: the loop; an exception ends the generator. *)
Fixpoint joint_rounds (size_key : string) (ls : list source) (rounds : list (list (list (pop S) * list draw))) : list (res (batch S)) :=
  match rounds with
  | [] => []
  | acts :: r =>
      match joint_turns size_key ls acts [(size_key, ENum 0)] with
      | (_, Err e) => [Err e]
      | (ls', Ok b) => Ok b :: joint_rounds size_key ls' r
      end
  end.

(** emote/memory/memory.py:523-542 *)
Definition joint_amid (size_key : string) (ls : list source) (rounds : list (list (list (pop S) * list draw))) : list (res (batch S)) :=
  if forallb (fun s => is_ready (so_loader s) (px_table (so_px s))) ls then joint_rounds size_key ls rounds else [Err OtherError].
End Jgap.
Arguments source S : clear implicits.
