(** * CallbackModel: emote/callback.py, how hooks get their arguments *)
From Verif Require Import Py.
Open Scope string_scope.
Open Scope list_scope.
Open Scope Z_scope.

Section Callback.
(** Values other than mappings with string keys. *)
Context {A : Type}.
(** A Python value that a hook passes on: an atom or a mapping (emote/callback.py:51-69). *)
Inductive pv : Type := PAtom (a : A) | PDict (d : list (string * pv)).
(** Keyword arguments and the state, emote/callback.py:33-46. *)
Definition kwargs : Type := dict string pv.

(** A method as written in the class, without [self]: positional-or-keyword
    parameters, keyword-only parameters, those of both without a default, whether
    it has *args or **kwargs, the mapping of keys_from_member with the members
    looked up (emote/callback.py:161-166, 18), and what it does with what its parameters
    are bound to. *)
Record func : Type := mkFunc {
  fn_args : list string; fn_kwonly : list string; fn_required : list string;
  fn_var : bool; fn_keys : dict string string; fn_body : kwargs -> res pv }.
(** The named parameters of a hook, emote/callback.py:86. *)
Definition fn_params (f : func) : list string := fn_args f ++ fn_kwonly f.

(** Python's binding of a call to a bound method; [fn_var] is false.  The calls at emote/callback.py:28, 44 and 64. *)
Definition bind (f : func) (pos : list pv) (kw : kwargs) : res kwargs :=
  if (List.length (fn_args f) <? List.length pos)%nat then Err TypeError
  else
    let given := combine (fn_args f) pos in
    if negb (forallb (fun k => inb k (fn_params f)) (dkeys kw)) then Err TypeError
    else if existsb (fun k => dmem given k) (dkeys kw) then Err TypeError
    else if negb (forallb (fun k => dmem given k || dmem kw k) (fn_required f)) then Err TypeError
    else Ok (given ++ kw).
(** Calling a hook with positional and keyword arguments, emote/callback.py:28, 44, 64. *)
Definition call (f : func) (pos : list pv) (kw : kwargs) : res pv :=
  match bind f pos kw with Err e => Err e | Ok b => fn_body f b end.

(** emote/callback.py:17-20: [del arg_names[arg_names.index(arg_name)]] *)
Fixpoint remove_one (x : string) (l : list string) : res (list string) :=
  match l with
  | [] => Err ValueError
  | y :: r => if (x =? y)%string then Ok r
              else match remove_one x r with Ok r' => Ok (y :: r') | Err e => Err e end
  end.
(** emote/callback.py:17-20, the loop *)
Fixpoint remove_renamed (keys : list string) (arg_names : list string) : res (list string) :=
  match keys with
  | [] => Ok arg_names
  | k :: r => match remove_one k arg_names with Ok l => remove_renamed r l | Err e => Err e end
  end.

(** [{v: m[v] for v in names if v in m}].  emote/callback.py:37 and 55-56. *)
Definition pick (names : list string) (m : kwargs) : kwargs :=
  fold_left (fun acc v => match dget m v with Some x => dset acc v x | None => acc end) names [].

(** emote/callback.py:33-46 *)
Fixpoint rename_all (keys : dict string string) (st acc : kwargs) : kwargs :=
  match keys with
  | [] => acc
  | (arg, key) :: r =>
      rename_all r st (match dget st key with Some x => dset acc arg x | None => acc end)
  end.
(** emote/callback.py:33-46 _make_no_group *)
Definition no_group (f : func) (arg_names : list string) (pos : list pv) (st : kwargs) : kwargs * res pv :=
  let names := skipn (List.length pos) arg_names in
  (st, call f pos (rename_all (fn_keys f) st (pick names st))).

(** emote/callback.py:57-62 *)
Fixpoint rename_group (keys : dict string string) (g st inner outer : kwargs) : res (kwargs * kwargs) :=
  match keys with
  | [] => Ok (inner, outer)
  | (arg, key) :: r =>
      if dmem g key then
        match dget st key with
        | None => Err KeyError
        | Some x => rename_group r g st (dset inner arg x) outer
        end
      else
        rename_group r g st inner (match dget st key with Some x => dset outer arg x | None => outer end)
  end.
(** emote/callback.py:49-71.  The first component is the state afterwards: the group is
    changed in place.  What the method itself does to the objects it is given is
    not modelled. *)
Definition group_unpack (f : func) (group : string) (arg_names : list string) (pos : list pv) (st : kwargs)
  : kwargs * res pv :=
  let names := skipn (List.length pos) arg_names in
  match dget st group with
  | None => (st, Err KeyError)
  | Some (PAtom _) => (st, Err TypeError)
  | Some (PDict g) =>
      let inner := pick names g in
      let outer := pick (filter (fun v => negb (dmem g v)) names) st in
      match rename_group (fn_keys f) g st inner outer with
      | Err e => (st, Err e)
      | Ok (inner, outer) =>
          match call f pos (dupdate inner outer) with
          | Err e => (st, Err e)
          | Ok (PDict r) =>
              match dget r group with
              | None => (st, Ok (PDict r))
              | Some (PAtom _) => (st, Err TypeError)
              | Some (PDict u) => (dset st group (PDict (dupdate g u)), Ok (PDict (ddel r group)))
              end
          | Ok v => (st, Ok v)
          end
      end
  end.

(** What calling a hook does.  emote/callback.py:74-95. *)
Definition hook : Type := list pv -> kwargs -> kwargs * res pv.

(** emote/callback.py:74-95.  A method with *args or **kwargs is left as it is (what it
    gets is not modelled further: [fn_body] gets everything). *)
Definition wrap (f : func) (group : option string) : res hook :=
  if fn_var f then Ok (fun pos st => (st, fn_body f (combine (fn_args f) pos ++ st)))
  else
    match fn_params f with
    | [] => Ok (fun _ st => (st, call f [] []))
    | _ =>
        match remove_renamed (dkeys (fn_keys f)) ("self" :: fn_params f) with
        | Err e => Err e
        | Ok arg_names =>
            match group with
            | None => Ok (no_group f arg_names)
            | Some g => Ok (group_unpack f g arg_names)
            end
        end
    end.

(** emote/callback.py:143-145, 151: the group of an instance *)
Definition pick_group (data_group class_group : option string) : option string :=
  match data_group with
  | Some g => if (g =? "")%string then class_group else Some g
  | None => class_group
  end.
End Callback.
Arguments pv A : clear implicits.
Arguments kwargs A : clear implicits.
Arguments func A : clear implicits.
Arguments hook A : clear implicits.
