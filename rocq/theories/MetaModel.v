(** * MetaModel: which methods of a callback are adapted (emote/callback.py, CallbackMeta)

    What adapting does is [wrap] of CallbackModel; here is when it is done.  Simplification: a
    method is looked up in the classes of the MRO (attributes that [__init__] puts on the
    instance under the name of a hook are left out). *)
From Verif Require Import Py CallbackModel.
Open Scope string_scope.
Open Scope list_scope.
Open Scope Z_scope.

(** What a class body defines under a name: [__qualname__], whether it is marked with
    [Callback.extend], whether it is a function.  emote/callback.py:108-126, 157-159 *)
Record field : Type := mkField { fd_qual : string; fd_marked : bool; fd_function : bool }.
(** A class: with CallbackMeta as metaclass or not, its name, its bases, what its body defines.
    emote/callback.py:102 *)
Inductive cls : Type := mkCls (meta : bool) (name : string) (bases : list cls) (fields : dict string field).
(** emote/callback.py:102 *)
Definition cl_name (c : cls) : string := let '(mkCls _ n _ _) := c in n.
(** emote/callback.py:102 *)
Definition cl_bases (c : cls) : list cls := let '(mkCls _ _ b _) := c in b.
(** emote/callback.py:102 *)
Definition cl_fields (c : cls) : dict string field := let '(mkCls _ _ _ f) := c in f.

(** emote/callback.py:111-120 *)
Definition hook_names : list string :=
  ["restore_state"; "begin_training"; "begin_cycle"; "begin_batch"; "backward"; "end_batch"; "end_cycle"; "end_training"].

(** emote/callback.py:105-122: the dict comprehension for the class called Callback *)
Definition own_hooks (fields : dict string field) : dict string field :=
  filter (fun nf => fd_function (snd nf) && inb (fst nf) hook_names) fields.
(** emote/callback.py:127-129 *)
Definition add_marked (fields acc : dict string field) : dict string field :=
  fold_left (fun acc nf => if fd_marked (snd nf) then dset acc (fst nf) (snd nf) else acc) fields acc.
(** [_callbacks] of a class: emote/callback.py:102-131.  A class without the metaclass has none
    (line 125). *)
Fixpoint callbacks (c : cls) : dict string field :=
  match c with
  | mkCls false _ _ _ => []
  | mkCls true name bases fields =>
      let start :=
        if (name =? "Callback")%string then own_hooks fields
        else fold_left (fun acc b => dupdate acc (callbacks b)) bases [] in
      add_marked fields start
  end.

(** [getattr(instance, name)]: the first class of the MRO whose body defines it.
    emote/callback.py:137 *)
Fixpoint find_method (mro : list cls) (name : string) : option (cls * field) :=
  match mro with
  | [] => None
  | c :: r => match dget (cl_fields c) name with Some f => Some (c, f) | None => find_method r name end
  end.

(** emote/callback.py:136-153, the loop: the methods that are replaced, with the data group *)
Fixpoint adapt_all (cbs : dict string field) (mro : list cls) (group : option string)
  : res (dict string (option string)) :=
  match cbs with
  | [] => Ok []
  | (name, f) :: r =>
      match find_method mro name with
      | None => Err AttributeError
      | Some (_, g) =>
          rbind (adapt_all r mro group) (fun d =>
          if (fd_qual g =? fd_qual f)%string then Ok d else Ok (dset d name group))
      end
  end.
(** emote/callback.py:133-155 CallbackMeta.__call__: which methods of a new instance are
    adapted, and to which group *)
Definition instantiate (c : cls) (mro : list cls) (data_group class_group : option string)
  : res (dict string (option string)) :=
  adapt_all (callbacks c) mro (pick_group data_group class_group).
