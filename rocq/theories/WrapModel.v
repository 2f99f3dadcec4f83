(** * WrapModel: attribute access through MemoryProxyWrapper (emote/memory/memory.py)

    Simplification: attribute lookup is CPython's ([object.__getattribute__], then
    [__getattr__]) for the kinds of attributes below; class attributes are those found along
    the class's MRO; user-defined descriptors and metaclasses are left out. *)
From Verif Require Import Py.
Open Scope string_scope.
Open Scope list_scope.
Open Scope Z_scope.

(** What a class can have under a name: a function, a property (with what its getter returns or
    raises), a staticmethod, a classmethod, any other object, None.
    Looked up at emote/memory/memory.py:188 and 203. *)
Inductive cattr : Type :=
| CMethod | CProperty (outcome : res Z) | CStatic | CClassMethod | CValue (v : Z) | CNone.
(** What an instance can have under a name: a bound method of some object, or anything else.
    emote/memory/memory.py:203, 207 *)
Inductive iattr : Type := IMethod (owner : Z) | IValue (v : Z).
(** An object: which one it is, its class's attributes, its own.  emote/memory/memory.py:71-92, 183-185 *)
Record obj : Type := mkObj { ob_id : Z; ob_class : dict string cattr; ob_inst : dict string iattr }.

(** What one gets: a method bound to an object, a function that is not bound, a value.
    emote/memory/memory.py:203, 215 *)
Inductive attr : Type :=
| ABound (owner : Z) (name : string) | AFunction (owner : Z) (name : string) | AValue (v : Z) | ANone.
(** [inspect.ismethod].  emote/memory/memory.py:207 *)
Definition ismethod (a : attr) : bool := match a with ABound _ _ => true | _ => false end.

(** A proxy in its wrappers: a proxy, a wrapper around a chain, or a wrapper of which [__init__]
    has not run (as copy and pickle make them).  emote/memory/memory.py:183-185 *)
Inductive chain : Type := Proxy (o : obj) | Wrapper (o : obj) (inner : chain) | Blank (o : obj).
(** emote/memory/memory.py:183-185 *)
Definition outer (c : chain) : obj := match c with Proxy o => o | Wrapper o _ => o | Blank o => o end.

(** [object.__getattribute__]: properties, then the instance, then the class.
    as used by emote/memory/memory.py:203 *)
Definition getattribute (o : obj) (name : string) : res attr :=
  let from_class :=
    match dget (ob_class o) name with
    | Some CMethod | Some CClassMethod => Ok (ABound (ob_id o) name)
    | Some CStatic => Ok (AFunction (ob_id o) name)
    | Some (CValue v) => Ok (AValue v)
    | Some CNone => Ok ANone
    | Some (CProperty r) => rmap AValue r
    | None => Err AttributeError
    end in
  match dget (ob_class o) name with
  | Some (CProperty _) => from_class
  | _ =>
      match dget (ob_inst o) name with
      | Some (IMethod w) => Ok (ABound w name)
      | Some (IValue v) => Ok (AValue v)
      | None => from_class
      end
  end.

(** [getattr(inner.__class__, name, None)] where None and nothing are the same.
    emote/memory/memory.py:188-189 *)
Definition class_attr (o : obj) (name : string) : option cattr :=
  match dget (ob_class o) name with Some CNone => None | x => x end.
(** [inner._lookup_class_attr(name)] and the line before: the first class in the chain with
    something under the name.  emote/memory/memory.py:187-195.  [None]: a wrapper without
    [_inner] was reached (see [get]). *)
Fixpoint lookup_class_attr (inner : chain) (name : string) : res (option cattr) :=
  match class_attr (outer inner) name with
  | Some a => Ok (Some a)
  | None =>
      match inner with
      | Proxy _ => Ok None
      | Wrapper _ c => lookup_class_attr c name
      | Blank _ => Err RecursionError
      end
  end.
(** emote/memory/memory.py:207 *)
Definition allowed (a : attr) (c : option cattr) : bool :=
  ismethod a || match c with Some (CProperty _) => true | _ => false end.

(** [getattr(x, name)] for the outermost object of a chain: [object.__getattribute__], and if
    that raises AttributeError, [__getattr__] (emote/memory/memory.py:197-215).  In a wrapper
    without [_inner], [self._inner] calls [__getattr__("_inner")], which begins with
    [self._inner]: a RecursionError (unless the class has an [_inner]). *)
Fixpoint get (c : chain) (name : string) : res attr :=
  match getattribute (outer c) name with
  | Err AttributeError =>
      match c with
      | Proxy _ => Err AttributeError
      | Blank _ => Err RecursionError
      | Wrapper _ inner =>
          rbind (lookup_class_attr inner name) (fun ca =>
          rbind (get inner name) (fun a =>
          if allowed a ca then Ok a else Err AttributeError))
      end
  | r => r
  end.

(** The attributes of the memory proxy, emote/memory/memory.py:71-173 (the instance attributes
    without their values) *)
Definition memory_table_proxy (id name : Z) : obj :=
  mkObj id
    [("__init__", CMethod); ("name", CProperty (Ok name)); ("size", CMethod); ("resize", CMethod); ("store", CMethod);
     ("is_initial", CMethod); ("add", CMethod); ("timers", CMethod)]
    [("_store", IValue 0); ("_table", IValue 0); ("_min_length_filter", IValue 0); ("_completed_episodes", IValue 0);
     ("_term_states", IValue 0); ("_use_terminal", IValue 0); ("_name", IValue name)].
(** emote/memory/memory.py:176-235: what every wrapper class has *)
Definition wrapper_class : dict string cattr :=
  [("__init__", CMethod); ("_lookup_class_attr", CMethod); ("__getattr__", CMethod); ("state_dict", CMethod);
   ("load_state_dict", CMethod); ("store", CMethod)].
(** emote/mixins/logging.py:17-120: what the mixin adds *)
Definition mixin_class : dict string cattr :=
  [("log_scalar", CMethod); ("log_windowed_scalar", CMethod); ("log_image", CMethod); ("log_video", CMethod);
   ("log_histogram", CMethod)].
(** emote/mixins/logging.py:20-27 *)
Definition mixin_inst : dict string iattr :=
  [("scalar_logs", IValue 0); ("windowed_scalar", IValue 0); ("windowed_scalar_cumulative", IValue 0);
   ("image_logs", IValue 0); ("hist_logs", IValue 0); ("video_logs", IValue 0); ("_default_window_length", IValue 0)].
(** emote/memory/memory.py:238-402 LoggingProxyWrapper *)
Definition logging_wrapper (id : Z) : obj :=
  mkObj id (wrapper_class ++ mixin_class ++ [("add", CMethod); ("report", CMethod); ("get_report", CMethod); ("_end_cycle", CMethod)])
    (mixin_inst ++ [("_inner", IValue 0); ("completed_inferences", IValue 0); ("completed_episodes", IValue 0); ("_writer", IValue 0);
       ("_log_interval", IValue 0); ("_counter", IValue 0); ("_start_time", IValue 0); ("_cycle_start_infs", IValue 0);
       ("_cycle_start_time", IValue 0); ("_infs_at_start", IValue 0)]).
(** emote/memory/memory.py:405-469 MemoryExporterProxyWrapper *)
Definition exporter_wrapper (id : Z) : obj :=
  mkObj id (wrapper_class ++ mixin_class ++ [("add", CMethod)])
    (mixin_inst ++ [("_inner", IValue 0); ("_inf_step", IValue 0); ("experiment_root_path", IValue 0); ("_target_memory_name", IValue 0);
       ("_inf_steps_per_memory_export", IValue 0); ("_min_time_per_export", IValue 0); ("_next_export", IValue 0);
       ("_next_export_time", IValue 0); ("_scopes", IValue 0)]).
(** ** AgentProxyWrapper (emote/algorithms/sac.py) *)
(** An agent proxy: what a call answers (None if it returns nothing), and its properties.
    emote/proxies.py, as used at emote/algorithms/sac.py:361-380 *)
Record agent (I O P : Type) : Type := mkAgent
  { ag_call : I -> option O; ag_inputs : list string; ag_outputs : list string; ag_policy : P }.
Arguments mkAgent {I O P}.
Arguments ag_call {I O P}.
Arguments ag_inputs {I O P}.
Arguments ag_outputs {I O P}.
Arguments ag_policy {I O P}.
(** emote/algorithms/sac.py:361-380 AgentProxyWrapper.  [__call__] has no return statement. *)
Definition agent_wrapper {I O P} (inner : agent I O P) : agent I O P :=
  mkAgent (fun x => let _ := ag_call inner x in None) (ag_inputs inner) (ag_outputs inner) (ag_policy inner).
