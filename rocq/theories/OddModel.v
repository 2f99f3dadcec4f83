(** * OddModel: MinSegmentTree (emote/memory/segment_tree.py), weight initialisation
    (emote/utils/math.py, emote/utils/model.py, emote/nn/initialization.py,
    emote/models/ensemble.py), tag columns after a legacy import (emote/memory/storage.py) *)
From Coq Require Import Reals.
From Verif Require Import Py SegModel.
Open Scope string_scope.
Open Scope list_scope.
Open Scope Z_scope.

(** ** MinSegmentTree *)
(** Numbers and [float("inf")] ([None]); NaN is left out.  emote/memory/segment_tree.py:118 *)
Definition num : Type := option Z.
(** [x < y]; emote/memory/segment_tree.py:118 *)
Definition num_ltb (x y : num) : bool :=
  match x, y with Some a, Some b => a <? b | Some _, None => true | None, _ => false end.
(** Python's [min(x, y)]: the first unless the second is smaller; emote/memory/segment_tree.py:118 *)
Definition py_min (x y : num) : num := if num_ltb y x then y else x.
(** emote/memory/segment_tree.py:115-119 *)
Definition min_new (capacity : Z) : res (seg num) := seg_new capacity py_min None.
(** emote/memory/segment_tree.py:121-128 *)
Definition min_min (limit : nat) (t : seg num) (start : Z) (stop : option Z) : res num :=
  seg_reduce limit t start stop.

(** ** truncated_normal_ *)
(** [tensor < mean - 2 * std or tensor > mean + 2 * std]; emote/utils/math.py:45 *)
Definition violates (mean std v : R) : bool :=
  if Rlt_dec v (mean - 2 * std)%R then true else if Rlt_dec (mean + 2 * std)%R v then true else false.
(** emote/utils/math.py:46 *)
Definition violations (mean std : R) (t : list R) : nat := List.length (filter (violates mean std) t).
(** [tensor[cond] = draws]; emote/utils/math.py:49 *)
Fixpoint refill (mean std : R) (t draws : list R) : list R :=
  match t with
  | [] => []
  | v :: r =>
      if violates mean std v
      then match draws with [] => v :: r | d :: ds => d :: refill mean std r ds end
      else v :: refill mean std r draws
  end.
(** The loop; [draw k i] is the [i]th number drawn in round [k].  emote/utils/math.py:44-50 *)
Fixpoint trunc_loop (fuel : nat) (draw : nat -> nat -> R) (mean std : R) (k : nat) (t : list R) : res (list R) :=
  match fuel with
  | O => Err Diverges
  | S fuel =>
      let n := violations mean std t in
      if (n =? 0)%nat then Ok t
      else trunc_loop fuel draw mean std (S k) (refill mean std t (map (draw k) (seq 0 n)))
  end.
(** emote/utils/math.py:31-50 on a tensor with [size] elements; normal_ does not take a
    negative std. *)
Definition truncated_normal (fuel : nat) (draw : nat -> nat -> R) (mean std : R) (size : nat) : res (list R) :=
  if Rlt_dec std 0 then Err RuntimeError
  else trunc_loop fuel draw mean std 1 (map (draw 0%nat) (seq 0 size)).

(** ** Initialisation of modules *)
(** The classes the initialisers look for; emote/nn/initialization.py:8-34,
    emote/models/ensemble.py:17-27 *)
Inductive kind : Type := KLinear | KConv1 | KConv2 | KNorm | KEnsemble | KOther.
(** What was last written to a parameter: what it was made with, a constant, or random numbers
    with the name and the parameter of their distribution.  emote/nn/initialization.py:7-34 *)
Inductive content : Type :=
| Made | Const (c : R) | Orthogonal (gain : R) | Xavier (gain : R) | Normal (std : R) | Truncated (std : R).
(** A module: its class, the shape of its weight, its weight and bias (None if it has none), and
    its children; emote/nn/initialization.py:7-34 *)
Inductive module : Type := mkModule (k : kind) (shape : list nat) (weight bias : option content) (children : list module).
(** An initialiser on one module: the new weight and bias; emote/nn/initialization.py:7-34 *)
Definition init : Type := kind -> list nat -> option content -> option content -> res (option content * option content).

(** [nn.init.xxx_(t)]: of None it is an AttributeError; emote/nn/initialization.py:10 *)
Definition write (c : content) (t : option content) : res (option content) :=
  match t with None => Err AttributeError | Some _ => Ok (Some c) end.
(** [if m.bias is not None: constant_(m.bias, 0.0)]; emote/nn/initialization.py:13-14 *)
Definition write_if (c : content) (t : option content) : option content :=
  match t with None => None | Some _ => Some c end.

(** emote/nn/initialization.py:7-14 *)
Definition ortho_init (gain : R) : init := fun k _ w b =>
  match k with
  | KLinear => rbind (write (Orthogonal gain) w) (fun w => rbind (write (Const 0) b) (fun b => Ok (w, b)))
  | KConv2 => rbind (write (Orthogonal gain) w) (fun w => Ok (w, write_if (Const 0) b))
  | _ => Ok (w, b)
  end.
(** emote/nn/initialization.py:17-20 *)
Definition xavier_init (gain : R) : init := fun k _ w b =>
  match k with
  | KLinear => rbind (write (Xavier gain) w) (fun w => rbind (write (Const 0) b) (fun b => Ok (w, b)))
  | _ => Ok (w, b)
  end.
(** emote/nn/initialization.py:23-34, and emote/utils/model.py:10-21, which has the same text *)
Definition normal_init : init := fun k _ w b =>
  match k with
  | KConv1 => rbind (write (Normal (1 / 100)) w) (fun w => Ok (w, write_if (Const 0) b))
  | KNorm => rbind (write (Const 1) w) (fun w => rbind (write (Const 0) b) (fun b => Ok (w, b)))
  | KLinear => rbind (write (Normal (1 / 1000)) w) (fun w => Ok (w, write_if (Const 0) b))
  | _ => Ok (w, b)
  end.
(** [1 / (2 * np.sqrt(input_dim))]; emote/models/ensemble.py:19, 24 *)
Definition stddev (input_dim : nat) : R := (1 / (2 * sqrt (INR input_dim)))%R.
(** emote/models/ensemble.py:14-27 truncated_normal_init.  The members of an ensemble layer are
    filled one after the other, all with the same parameter. *)
Definition truncated_init : init := fun k shape w b =>
  match k, shape with
  | KLinear, d :: _ => rbind (write (Truncated (stddev d)) w) (fun w => rbind (write (Const 0) b) (fun b => Ok (w, b)))
  | KEnsemble, [_; d; _] => rbind (write (Truncated (stddev d)) w) (fun w => rbind (write (Const 0) b) (fun b => Ok (w, b)))
  | KEnsemble, _ => Err ValueError
  | _, _ => Ok (w, b)
  end.
(** [module.apply(f)]: the children, then the module.  used at emote/models/ensemble.py:97,
    emote/nn/layers.py:70, 157, emote/nn/action_value_mlp.py:22-25, emote/nn/gaussian_policy.py:86-87 *)
Fixpoint apply_init (f : init) (m : module) : res module :=
  match m with
  | mkModule k shape w b children =>
      rbind ((fix all (ms : list module) : res (list module) :=
                match ms with
                | [] => Ok []
                | x :: r => rbind (apply_init f x) (fun x => rbind (all r) (fun r => Ok (x :: r)))
                end) children) (fun children =>
      rbind (f k shape w b) (fun wb => Ok (mkModule k shape (fst wb) (snd wb) children)))
  end.

(** emote/models/ensemble.py:72-86, 97: the layers of an EnsembleOfGaussian *)
Definition ensemble_layer (members n_in n_out : nat) : module :=
  mkModule KEnsemble [members; n_in; n_out] (Some Made) (Some Made) [].
(** emote/models/ensemble.py:72-86, 97: EnsembleOfGaussian.__init__ *)
Definition ensemble_new (in_size out_size num_layers members hidden : nat) : res module :=
  let relu := mkModule KOther [] None None [] in
  let seq_ n_in := mkModule KOther [] None None [ensemble_layer members n_in hidden; relu] in
  apply_init truncated_init
    (mkModule KOther [] None None
       [mkModule KOther [] None None (seq_ in_size :: repeat (seq_ hidden) (num_layers - 1));
        ensemble_layer members hidden (2 * out_size)]).

(** ** Tag columns *)
(** What a TagStorage holds: an array, or the proxy its own [__getitem__] makes.
    emote/memory/storage.py:50-59, 96-100 *)
Inductive tagval : Type := TArr (rows : list (list Z)) | TProxy (value : tagval).
(** TagStorage, a dict; emote/memory/storage.py:50-64 *)
Definition tags : Type := dict Z tagval.
(** emote/memory/storage.py:96-100 TagStorage.__getitem__ *)
Definition tag_get (s : tags) (id : Z) : res tagval :=
  match dget s id with None => Err KeyError | Some v => Ok (TProxy v) end.
(** [value[0]]: of an array its first row, of a proxy emote/memory/storage.py:54-55 *)
Fixpoint tag_first (v : tagval) : res (list Z) :=
  match v with
  | TArr [] => Err IndexError
  | TArr (r :: _) => Ok r
  | TProxy v => tag_first v
  end.
(** [store[identity][start:end]] at emote/memory/table.py:181 with emote/memory/storage.py:54-55 *)
Definition tag_read (s : tags) (id : Z) : res (list Z) := rbind (tag_get s id) tag_first.
(** [self[-abs(id) - 1] = self[id]; del self[id]]; emote/memory/storage.py:91-94 *)
Fixpoint tag_rename (s : tags) (ids : list Z) : res tags :=
  match ids with
  | [] => Ok s
  | id :: r => rbind (tag_get s id) (fun v => tag_rename (ddel (dset s (- Z.abs id - 1) v) id) r)
  end.
(** emote/memory/storage.py:82-94 TagStorage.post_import *)
Definition tag_post_import (s : tags) : res tags :=
  let s := filter (fun kv => 0 <=? fst kv) s in tag_rename s (dkeys s).
(** [len(data)] and the rows of [data] at emote/memory/table.py:323-331: a TagProxy has no length *)
Definition tag_rows (v : tagval) : res (list (list Z)) :=
  match v with TArr rows => Ok rows | TProxy _ => Err TypeError end.
(** The tag column in _serialize: the ranges and the rows.  emote/memory/table.py:316-334;
    np.stack of nothing is a ValueError. *)
Definition tag_serialize (s : tags) : res (list (Z * Z * Z) * list (list Z)) :=
  rbind (fold_left (fun acc kv =>
           rbind acc (fun '(ranges, merged) =>
           rbind (tag_rows (snd kv)) (fun rows =>
           Ok (ranges ++ [(fst kv, zlen merged, zlen rows)], merged ++ rows)))) s (Ok ([], [])))
    (fun rm => if (Nat.eqb (List.length (snd rm)) 0) then Err ValueError else Ok rm).
