(** * MetaSpec: words for hierarchies of callback classes *)
From Verif Require Import Py MetaModel.
Open Scope string_scope.
Open Scope list_scope.
Open Scope Z_scope.

(** The hooks of a callback, in the order of a training run. *)
Definition is_hook (h : string) : Prop :=
  h = "restore_state" \/ h = "begin_training" \/ h = "begin_cycle" \/ h = "begin_batch" \/ h = "backward"
  \/ h = "end_batch" \/ h = "end_cycle" \/ h = "end_training".
(** A class and all its ancestors. *)
Fixpoint ancestry (c : cls) : list cls :=
  match c with mkCls _ _ bases _ => c :: flat_map ancestry bases end.
(** The classes with CallbackMeta as metaclass. *)
Definition is_meta (c : cls) : Prop := let '(mkCls m _ _ _) := c in m = true.
(** emote's Callback: no bases, and the eight hooks. *)
Definition is_root (c : cls) : Prop :=
  is_meta c /\ cl_name c = "Callback" /\ cl_bases c = []
  /\ (forall h, is_hook h -> exists f, dget (cl_fields c) h = Some f /\ fd_function f = true).
(** [h] is marked with Callback.extend in the body of [c]. *)
Definition marks (h : string) (c : cls) : Prop := exists f, dget (cl_fields c) h = Some f /\ fd_marked f = true.
(** Methods are defined by [def] in the class body, so that their qualified name is that of the
    class and the method. *)
Definition plain_bodies (c : cls) : Prop :=
  forall n f, dget (cl_fields c) n = Some f -> fd_qual f = String.append (cl_name c) (String.append "." n).
(** An ordinary hierarchy: one class called Callback in it, emote's; a subclass of a class with
    the metaclass has it too; a body defines a name once. *)
Definition ordinary (root c : cls) : Prop :=
  is_root root /\ In root (ancestry c)
  /\ (forall x, In x (ancestry c) ->
        plain_bodies x /\ NoDup (map fst (cl_fields x))
        /\ (cl_name x = "Callback" -> x = root)
        /\ (forall b, In b (cl_bases x) -> is_meta b -> is_meta x)).
(** Python's method resolution order: the class and its ancestors, in whatever order. *)
Definition resolution (mro : list cls) (c : cls) : Prop := forall x, In x mro <-> In x (ancestry c).
(** The first class of the resolution order that defines a method. *)
Definition first_definer (h : string) (mro : list cls) (x : cls) : Prop :=
  exists before after, mro = before ++ x :: after
  /\ (forall y, In y before -> dget (cl_fields y) h = None) /\ exists f, dget (cl_fields x) h = Some f.
(** The data group: the instance's if it has one that is not empty, else the class's. *)
Definition used_group (data_group class_group used : option string) : Prop :=
  (exists g, data_group = Some g /\ g <> "" /\ used = Some g)
  \/ ((data_group = None \/ data_group = Some "") /\ used = class_group).
