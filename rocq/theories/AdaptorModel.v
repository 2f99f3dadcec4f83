(** * Model of emote/memory/adaptors.py. *)
From Verif Require Import Py MemModel.
Open Scope string_scope.
Open Scope list_scope.
Open Scope Z_scope.

Section Adaptors.
Context {S : Type} `{Scalar S}.

(** torch.where on one element, emote/memory/adaptors.py:109-117. *)
Definition where_one (target value : list S) : list S :=
  match target with
  | x :: _ => if s_is_one x then target else value
  | [] => value
  end.

(** The element-wise operations of tensors at emote/memory/adaptors.py:109-117. *)
Fixpoint map2 {A B C} (f : A -> B -> C) (l : list A) (m : list B) : list C :=
  match l, m with
  | a :: l', b :: m' => f a b :: map2 f l' m'
  | _, _ => []
  end.

(** emote/memory/adaptors.py:93-121 TerminalAdaptor.__call__.  Tensors are lists of rows; the
    target has one scalar per window, the value column [L] rows per window;
    [value_reshaped[:, -1]] is the last row of each group.  A value column
    that does not divide into windows makes torch.reshape raise; a target of
    a different batch size makes torch.where raise (both RuntimeError, here
    ValueError). *)
Definition terminal_adaptor (L : nat) (target_key value_key : string)
    (out : dict string (array S)) : res (dict string (array S)) :=
  match dget out target_key, dget out value_key with
  | Some tg, Some v =>
      if Nat.eqb L 0 then Err ValueError
      else if negb (Nat.eqb (List.length v) (List.length tg * L)) then Err ValueError
      else
        let groups := chunk (List.length v) L v in
        Ok (dset out target_key (map2 (fun t g => where_one t (last g [])) tg groups))
  | _, _ => Err KeyError
  end.

(** ArrayMemoryTable.sample with the adaptor of DictMemoryTable,
    emote/memory/builder.py:34-53 (TerminalAdaptor("terminal", "masks")) and emote/memory/table.py:208-211.
    DictObsAdaptor only moves the observation columns and is left out. *)
Definition sample_terminal (t : table S) (count L : nat) (draws : list draw)
  : res (dict string (array S)) :=
  rbind (snd (t_sample t count L draws)) (terminal_adaptor L "terminal" "masks").
End Adaptors.
