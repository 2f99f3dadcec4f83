(** * TargModel: target networks during training, emote/algorithms/sac.py and emote/algorithms/dqn.py *)
From Coq Require Import Reals.
From Verif Require Import Py NumModel AlgoModel.
Open Scope list_scope.
Open Scope R_scope.

(** A module is referred to by its number; its parameters are tensors, here lists of their
    numbers.  The objects of emote/algorithms/sac.py:129-145. *)
Definition modules : Type := list (list (list R)).
(** [module.parameters()], emote/algorithms/sac.py:22 *)
Definition read (h : modules) (m : nat) : list (list R) := nth m h [].
(** [param.data.copy_(...)] for all parameters of a module, emote/algorithms/sac.py:23 *)
Fixpoint write (h : modules) (m : nat) (v : list (list R)) : modules :=
  match h, m with
  | [], _ => []
  | _ :: t, 0%nat => v :: t
  | x :: t, S m' => x :: write t m' v
  end.
(** [copy.deepcopy(q) if given is None else given], emote/algorithms/sac.py:134-135 and
    emote/algorithms/dqn.py:48 *)
Definition own_or_given (h : modules) (q : nat) (given : option nat) : modules * nat :=
  match given with Some t => (h, t) | None => (h ++ [read h q], List.length h) end.

(** The networks with their targets, and tau: emote/algorithms/sac.py:129-145 and
    emote/algorithms/dqn.py:43-52. *)
Record qtarget : Type := mkQt { qt_pairs : list (nat * nat); qt_tau : R }.
(** emote/algorithms/sac.py:114-145 QTarget.__init__ *)
Definition sac_qtarget (h : modules) (q1 q2 : nat) (q1t q2t : option nat) (tau : R) : modules * qtarget :=
  let '(h, t1) := own_or_given h q1 q1t in
  let '(h, t2) := own_or_given h q2 q2t in
  (h, mkQt [(q1, t1); (q2, t2)] tau).
(** emote/algorithms/dqn.py:19-52 QTarget.__init__ *)
Definition dqn_qtarget (h : modules) (q : nat) (target : option nat) (tau : R) : modules * qtarget :=
  let '(h, t) := own_or_given h q target in
  (h, mkQt [(q, t)] tau).

(** emote/algorithms/sac.py:173-176 QTarget.end_batch, emote/algorithms/dqn.py:67-69: one
    soft update after another *)
Fixpoint update_targets (tau : R) (pairs : list (nat * nat)) (h : modules) : modules :=
  match pairs with
  | [] => h
  | (q, t) :: rest => update_targets tau rest (write h t (soft_update tau (read h q) (read h t)))
  end.
(** What can be seen of one batch: the parameters the Q-targets are computed with
    (emote/algorithms/sac.py:148-149, emote/algorithms/dqn.py:55) and those of the networks when
    the optimizers are done. *)
Record seen : Type := mkSeen { used : list (list (list R)); trained : list (list (list R)) }.
(** One batch, emote/trainer.py:86-96: begin_batch, backward, end_batch.  [step] is what the
    optimizers do in backward. *)
Definition train_batch (qt : qtarget) (h : modules) (step : modules -> modules) : modules * seen :=
  let used := map (fun p => read h (snd p)) (qt_pairs qt) in
  let h := step h in
  (update_targets (qt_tau qt) (qt_pairs qt) h, mkSeen used (map (fun p => read h (fst p)) (qt_pairs qt))).
(** emote/trainer.py:75-103 one batch after another *)
Fixpoint train (qt : qtarget) (h : modules) (steps : list (modules -> modules)) : modules * list seen :=
  match steps with
  | [] => (h, [])
  | s :: rest => let '(h', x) := train_batch qt h s in
                 let '(h'', xs) := train qt h' rest in (h'', x :: xs)
  end.
