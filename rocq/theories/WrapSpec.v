(** * WrapSpec: words for wrapped memory proxies *)
From Verif Require Import Py WrapModel.
Open Scope string_scope.
Open Scope list_scope.
Open Scope Z_scope.

(** An object that has nothing under a name, neither itself nor in its class. *)
Definition lacks (name : string) (o : obj) : Prop := dget (ob_class o) name = None /\ dget (ob_inst o) name = None.
(** [c] wrapped into [ws], the outermost first. *)
Definition around (ws : list obj) (c : chain) : chain := fold_right Wrapper c ws.
(** All objects of a chain, from the outside. *)
Fixpoint layers (c : chain) : list obj :=
  match c with Proxy o => [o] | Blank o => [o] | Wrapper o i => o :: layers i end.
(** No wrapper in it is uninitialised. *)
Fixpoint whole (c : chain) : Prop :=
  match c with Proxy _ => True | Blank _ => False | Wrapper _ i => whole i end.
(** The class of an object has a property of that name. *)
Definition has_property (name : string) (o : obj) : Prop := exists r, dget (ob_class o) name = Some (CProperty r).
(** A method in the class, not hidden by an attribute of the instance. *)
Definition has_method (name : string) (o : obj) : Prop :=
  (dget (ob_class o) name = Some CMethod \/ dget (ob_class o) name = Some CClassMethod) /\ dget (ob_inst o) name = None.
(** Something that is neither a method nor a property. *)
Definition has_other (name : string) (o : obj) : Prop :=
  (exists v, dget (ob_inst o) name = Some (IValue v)) /\ ~ has_property name o
  \/ dget (ob_inst o) name = None /\
     (dget (ob_class o) name = Some CStatic \/ (exists v, dget (ob_class o) name = Some (CValue v)) \/ dget (ob_class o) name = Some CNone).
(** The wrappers in the code. *)
Definition emote_wrapper (o : obj) : Prop := (exists id, o = logging_wrapper id) \/ (exists id, o = exporter_wrapper id).
