(** * BldModel: emote/memory/builder.py, emote/memory/adaptors.py (the other adaptors),
    emote/memory/loading.py, emote/memory/callbacks.py *)
From Coq Require Import Ascii.
From Verif Require Import Py MemModel AdaptorModel.
Open Scope string_scope.
Open Scope list_scope.
Open Scope Z_scope.

Section Bld.
Context {S : Type} `{Scalar S}.

(** ** Builders *)
(** emote/utils/spaces.py:8-11 BoxSpace: the product of the shape and the conversion to the dtype *)
Record space : Type := mkSpace { sp_size : nat; sp_cast : S -> S }.
(** emote/utils/spaces.py:14-23 MDPSpace, DictSpace *)
Record mdp : Type := mkMdp { md_rewards : option space; md_actions : space; md_state : dict string space }.

(** emote/memory/builder.py:72-102, 147-177: the columns that do not depend on the observations;
    [float32] is the conversion to float32 *)
Definition fixed_columns (float32 dones_cast masks_cast : S -> S) (m : mdp) : list (column S) :=
  [ mkCol "actions" (sp_size (md_actions m)) (sp_cast (md_actions m)) KBase;
    mkCol "dones" 1 dones_cast (KVirt "actions" MDones);
    mkCol "masks" 1 masks_cast (KVirt "actions" MMask);
    match md_rewards m with
    | Some r => mkCol "rewards" (sp_size r) (sp_cast r) KBase
    | None => mkCol "rewards" 1 float32 KBase
    end ].
(** emote/memory/builder.py:104-118, 179-193: the columns of the observations; [next] is
    NextElementMapper or NextElementMapper.with_only_last *)
Definition state_columns (next : mapper) (state : dict string space) : list (column S) :=
  flat_map (fun ks => [ mkCol (fst ks) (sp_size (snd ks)) (sp_cast (snd ks)) KBase;
                        mkCol (String.append "next_" (fst ks)) (sp_size (snd ks)) (sp_cast (snd ks)) (KVirt (fst ks) next) ]) state.
(** emote/memory/builder.py:35-42 *)
Definition terminal_columns (float32 : S -> S) (use_terminal_column : bool) : list (column S) :=
  if use_terminal_column then [mkCol "terminal" 1 float32 KTag] else [].
(** all columns handed to ArrayMemoryTable, emote/memory/builder.py:45-53 *)
Definition builder_columns (next : mapper) (float32 dones_cast masks_cast : S -> S) (use_terminal_column : bool) (m : mdp) : list (column S) :=
  fixed_columns float32 dones_cast masks_cast m ++ state_columns next (md_state m) ++ terminal_columns float32 use_terminal_column.
(** the dictionary of the columns, emote/memory/table.py:104: a later column replaces an earlier one of its name *)
Definition column_dict (cols : list (column S)) : list (column S) :=
  map snd (fold_left (fun d c => dset d (c_name c) c) cols []).
(** emote/memory/builder.py:19-53, 56-130 DictObsMemoryTable, 133-205 DictObsNStepMemoryTable: the table *)
Definition builder_table (next : mapper) (float32 dones_cast masks_cast : S -> S) (use_terminal_column : bool) (m : mdp)
    (maxlen : Z) (smp : sampler) : table S :=
  t_create (column_dict (builder_columns next float32 dones_cast masks_cast use_terminal_column m)) "actions" maxlen smp (EFifo fifo_init).

(** ** DictObsAdaptor *)
(** The batch after emote/memory/adaptors.py:44-46: the remaining columns, the two dictionaries *)
Record batch : Type := mkBatch { bt_rows : dict string (array S); bt_obs : dict string (array S); bt_next : dict string (array S) }.
(** emote/memory/adaptors.py:29-33 __init__: the pairs of keys *)
Definition key_map (keys : list string) (output_keys : option (list string)) : res (list (string * string)) :=
  match output_keys with
  | None => Ok (combine keys keys)
  | Some o => if Nat.eqb (List.length keys) (List.length o) then Ok (combine keys o) else Err AssertionError
  end.
(** [result.pop(key)], emote/memory/adaptors.py:40, 42 *)
Definition pop (result : dict string (array S)) (key : string) : res (array S * dict string (array S)) :=
  match dget result key with
  | None => Err KeyError
  | Some v => Ok (v, ddel result key)
  end.
(** emote/memory/adaptors.py:39-42, the loop *)
Fixpoint move_keys (with_next : bool) (km : list (string * string)) (result obs next : dict string (array S)) : res batch :=
  match km with
  | [] => Ok (mkBatch result obs next)
  | (key, out_key) :: r =>
      rbind (pop result key) (fun vr =>
      let obs' := dset obs out_key (fst vr) in
      if with_next
      then rbind (pop (snd vr) (String.append "next_" key)) (fun wr => move_keys with_next r (snd wr) obs' (dset next out_key (fst wr)))
      else move_keys with_next r (snd vr) obs' next)
  end.
(** emote/memory/adaptors.py:36-46 DictObsAdaptor.__call__: columns called "observation" or
    "next_observation" would be overwritten by the dictionaries *)
Definition dict_obs_adaptor (with_next : bool) (km : list (string * string)) (result : dict string (array S)) : res batch :=
  rbind (move_keys with_next km result [] []) (fun b =>
  Ok (mkBatch (ddel (ddel (bt_rows b) "observation") "next_observation") (bt_obs b) (bt_next b))).
(** emote/memory/table.py:196-211 with the adaptors of emote/memory/builder.py:34-43 *)
Definition builder_sample (t : table S) (obs_keys : list string) (use_terminal_column : bool) (count L : nat) (draws : list draw) : res batch :=
  rbind (snd (t_sample t count L draws)) (fun out =>
  rbind (key_map obs_keys None) (fun km =>
  rbind (dict_obs_adaptor true km out) (fun b =>
  if use_terminal_column
  then rbind (terminal_adaptor L "terminal" "masks" (bt_rows b)) (fun r => Ok (mkBatch r (bt_obs b) (bt_next b)))
  else Ok b))).
End Bld.
Arguments space S : clear implicits.
Arguments mdp S : clear implicits.
Arguments batch S : clear implicits.

(** ** KeyScaleAdaptor, KeyCastAdaptor *)
Section Tens.
Context {D A : Type}.
(** a tensor: its dtype and its elements; emote/memory/adaptors.py:61, 77 *)
Record tensor : Type := mkTensor { tn_dtype : D; tn_data : list A }.
(** emote/memory/adaptors.py:60-62 KeyScaleAdaptor.__call__; [mul] multiplies by the scale *)
Definition key_scale (mul : A -> A) (key : string) (result : dict string tensor) : res (dict string tensor) :=
  match dget result key with
  | None => Err KeyError
  | Some t => Ok (dset result key (mkTensor (tn_dtype t) (map mul (tn_data t))))
  end.
(** [tensor.to(dtype)]: a new tensor; emote/memory/adaptors.py:77 *)
Definition tensor_to (conv : D -> A -> A) (dtype : D) (t : tensor) : tensor := mkTensor dtype (map (conv dtype) (tn_data t)).
(** emote/memory/adaptors.py:76-78 KeyCastAdaptor.__call__: the converted tensor is not kept *)
Definition key_cast (conv : D -> A -> A) (dtype : D) (key : string) (result : dict string tensor) : res (dict string tensor) :=
  match dget result key with
  | None => Err KeyError
  | Some t => let _ := tensor_to conv dtype t in Ok result
  end.
End Tens.
Arguments tensor D A : clear implicits.

(** ** emote/memory/loading.py *)
Section Legacy.
Context {O A R : Type}.
(** The dump after the reshaping of emote/memory/loading.py:33-35: one entry per step, except for the
    actions, of which a step has two *)
Record dump : Type := mkDump { du_dones : list bool; du_actions : list A; du_rewards : list R; du_next_obs : list O; du_obs : list O }.
(** The argument [outs] of add_sequence, emote/memory/loading.py:56-64 *)
Record outs : Type := mkOuts { ou_obs : option (list O); ou_actions : option (list (list A)); ou_rewards : option (list R) }.
(** [l[a:b]] for non-negative bounds, emote/memory/loading.py:46-52 *)
Definition slice {X} (l : list X) (a b : nat) : list X := firstn (b - a) (skipn a l).
(** [reshape(-1, 2)], emote/memory/loading.py:61 *)
Fixpoint pairs {X} (l : list X) : res (list (list X)) :=
  match l with
  | [] => Ok []
  | [_] => Err ValueError
  | a :: b :: r => rmap (cons [a; b]) (pairs r)
  end.
(** emote/memory/loading.py:37: the indices of the true entries, from [i] on *)
Fixpoint done_indices (i : nat) (dones : list bool) : list nat :=
  match dones with
  | [] => []
  | d :: r => if d then i :: done_indices (1 + i) r else done_indices (1 + i) r
  end.
(** emote/memory/loading.py:46-64: one episode *)
Definition load_episode (read_obs read_actions read_rewards : bool) (d : dump) (previous_idx done_idx : nat) : res outs :=
  let rewards := slice (du_rewards d) previous_idx (done_idx + 1) in
  let actions := slice (du_actions d) (previous_idx * 2) ((done_idx + 1) * 2) in
  let dones := slice (du_dones d) previous_idx (done_idx + 1) in
  match dones with
  | [] => Err IndexError
  | first :: _ =>
      if first && negb (Nat.eqb (List.length dones) 1) then Err AssertionError
      else if negb (last dones false) then Err AssertionError
      else
        match nth_error (du_next_obs d) (done_idx + 1) with
        | None => Err IndexError
        | Some o =>
            let obs := slice (du_obs d) previous_idx (done_idx + 1) ++ [o] in
            rbind (if read_actions then rmap Some (pairs actions) else Ok None) (fun acts =>
            Ok (mkOuts (if read_obs then Some obs else None) acts (if read_rewards then Some rewards else None)))
        end
  end.
(** emote/memory/loading.py:38-69: the calls of add_sequence, and how it ends (that those calls
    succeed is assumed) *)
Fixpoint load_loop (ro ra rr : bool) (d : dump) (done_idxs : list nat) (previous_idx : nat) (agent_idx : Z) : list (Z * outs) * res unit :=
  match done_idxs with
  | [] => ([], Ok tt)
  | done_idx :: r =>
      if Z.of_nat done_idx - Z.of_nat previous_idx <? 10
      then load_loop ro ra rr d r (done_idx + 1) (agent_idx - 1)
      else
        match load_episode ro ra rr d previous_idx done_idx with
        | Err e => ([], Err e)
        | Ok o => let '(calls, x) := load_loop ro ra rr d r (done_idx + 1) (agent_idx - 1) in ((agent_idx, o) :: calls, x)
        end
  end.
(** emote/memory/loading.py:10-69 fill_table_from_legacy_file *)
Definition fill_table (ro ra rr : bool) (d : dump) : list (Z * outs) * res unit :=
  load_loop ro ra rr d (done_indices 0 (du_dones d)) 0 (-1).
End Legacy.
Arguments dump O A R : clear implicits.
Arguments outs O A R : clear implicits.
(** emote/memory/loading.py:27-28: the file that is opened *)
Definition legacy_path (path : string) : string :=
  let n := String.length path in
  if (String.substring (n - 7) 7 path =? ".pickle")%string then path else String.append path ".pickle".

(** ** emote/memory/callbacks.py *)
(** The last character is a slash.  for os.path.join, emote/memory/callbacks.py:27, 29 *)
Fixpoint ends_slash (s : string) : bool :=
  match s with
  | EmptyString => false
  | String c EmptyString => Ascii.eqb c "/"%char
  | String _ r => ends_slash r
  end.
(** os.path.join of two parts (POSIX), emote/memory/callbacks.py:27, 29 *)
Definition path_join (a b : string) : string :=
  match b with
  | String "/"%char _ => b
  | _ => if (a =? "")%string || ends_slash a then String.append a b else String.append a (String "/"%char b)
  end.
(** emote/memory/callbacks.py:25-35 restore_state: the result is the path handed to the table's restore, which
    opens that path with ".zip" (emote/memory/table.py:559) *)
Definition importer_restore (exists_file : string -> bool) (load_dir target_name : string) (fname_override : option string) : res string :=
  let restore_path :=
    match fname_override with
    | Some f => if (f =? "")%string then path_join load_dir (String.append target_name "_export") else path_join load_dir f
    | None => path_join load_dir (String.append target_name "_export")
    end in
  if exists_file (String.append restore_path ".zip") then Ok restore_path else Err FileNotFoundError.
