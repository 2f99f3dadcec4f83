(** * RoomSpec: memories with room for a batch and an episode (for C160) *)
From Verif Require Import Py MemModel MemSpec ProxyModel ProxySpec LoaderModel GapSpec JgapSpec.
Open Scope list_scope.
Open Scope Z_scope.

Section Spec.
Context {S : Type} {HS : Scalar S}.
(** No sequence that is added has more than [longest] rows. *)
Definition none_longer (lenkey : string) (ops : list (op S)) (longest : Z) : Prop :=
  Forall (fun e => seq_len lenkey (snd e) <= longest) (adds ops).
(** Given these rounds, no agent's episode has more than [longest] steps, and the capacity is at least a batch and the
    longest episode, less one. *)
Definition roomy (m : memory S) (rounds : list (list (pop S) * list draw)) (longest : Z) : Prop :=
  (forall a ms, In ms (episodes [] (stream a (m_done m ++ doings (m_loader m) rounds))) -> zlen ms - 1 <= longest) /\
  wanted m + longest - 1 <= m_maxlen m.
End Spec.
