(** * SjntSpec: what has been done to a shared memory at each loader's turn (for C162) *)
From Verif Require Import Py MemModel MemSpec ProxyModel ProxySpec LoaderModel GapSpec JgapSpec.
Open Scope list_scope.
Open Scope Z_scope.

Section Spec.
Context {S : Type} {HS : Scalar S}.
(** The memory [m] as one of its loaders, [l], sees it, after [h]. *)
Definition seen_by (m : memory S) (l : loader) (h : list (pop S)) : memory S :=
  mkMem (m_pc m) l (m_cols m) (m_lenkey m) (m_maxlen m) (m_sampler m) (m_ejector m) (m_schema m) h.
(** All that is done to the memory for one batch: for every loader, what others do before its turn, then its draw. *)
Fixpoint told (ls : list loader) (acts : list (list (pop S) * list draw)) : list (pop S) :=
  match ls with
  | [] => []
  | l :: r => (fst (hd ([], []) acts) ++ [drawing l (snd (hd ([], []) acts))]) ++ told r (tl acts)
  end.
Definition all_told (ls : list loader) (rounds : list (list (list (pop S) * list draw))) : list (pop S) := flat_map (told ls) rounds.
(** What has been done when loader [k] draws for batch [i]. *)
Definition at_turn (m : memory S) (ls : list loader) (rounds : list (list (list (pop S) * list draw))) (i k : nat) : list (pop S) :=
  let acts := nth i rounds [] in
  m_done m ++ all_told ls (firstn i rounds) ++ told (firstn k ls) acts ++ fst (nth k acts ([], [])).
(** Loader [l] would find enough after [h]; [b] shows what it should. *)
Definition enough_for (m : memory S) (l : loader) (h : list (pop S)) : Prop := holds_enough (seen_by m l h) h.
Definition shows_for (m : memory S) (l : loader) (h : list (pop S)) (b : batch S) : Prop := shows_rollouts (seen_by m l h) h b.
End Spec.
