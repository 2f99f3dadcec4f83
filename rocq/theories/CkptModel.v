(** * CkptModel: emote/callbacks/checkpointing.py *)
From Coq Require Import DecimalString Ascii.
From Verif Require Import Py TrainModel.
Open Scope string_scope.
Open Scope list_scope.
Open Scope Z_scope.

(** [f"{i}"] of an integer.  emote/callbacks/checkpointing.py:75. *)
Definition str_Z (i : Z) : string := NilZero.string_of_int (Z.to_int i).

(** The last character of a path, for os.path.join at emote/callbacks/checkpointing.py:75. *)
Fixpoint last_char (s : string) : option Ascii.ascii :=
  match s with
  | EmptyString => None
  | String c EmptyString => Some c
  | String _ r => last_char r
  end.
(** [os.path.join(a, b)] for a [b] that is not absolute (posixpath).  emote/callbacks/checkpointing.py:75 and 158. *)
Definition path_join (a b : string) : string :=
  match last_char a with
  | None => b
  | Some c => if Ascii.eqb c "/"%char then String.append a b else String.append a (String "/" b)
  end.

(** emote/callbacks/checkpointing.py:74-75, 157-158 *)
Definition ckpt_name (i : Z) : string := String.append "checkpoint_" (String.append (str_Z i) ".tar").

Section Ckpt.
(** Objects in the training state; states of restorees and what their state_dict
    gives; everything else. *)
Context {O X D E : Type}.
(** A string as a value in the training state. *)
Context (path_obj : string -> O).
(** [r.state_dict()] and [r.load_state_dict(d, weights, optimizers, hparams)] of
    the restoree with a given name. *)
Context (state_dict : string -> X -> D).
Context (load_state_dict : string -> D -> bool -> bool -> bool -> X -> X).

(** What is in a checkpoint file (lines 76-84).  [torch.save] and [torch.load]
    are taken to be a faithful round trip; partial writes are not modelled.  emote/callbacks/checkpointing.py:76-84. *)
Record ckpt_file : Type := mkFile { cf_callbacks : dict string D; cf_training : tstate O }.

(** The world: folders and checkpoint files, the index held by the Checkpointer,
    the restorees by name, and the rest.  emote/callbacks/checkpointing.py:53-71 and 130-150. *)
Record cworld : Type := mkCW {
  cw_dirs : list string;
  cw_files : dict string ckpt_file;
  cw_index : Z;
  cw_objs : dict string X;
  cw_rest : E }.

(** emote/callbacks/checkpointing.py:59-68, 140-149: the check on the names. *)
Definition names_ok (names : list string) : res unit :=
  if Nat.eqb (List.length names) (List.length (nodup string_dec names)) then Ok tt else Err ValueError.

(** Lines 77: an exception in a missing object is an AttributeError.  emote/callbacks/checkpointing.py:77. *)
Fixpoint save_all (names : list string) (objs : dict string X) (acc : dict string D) : res (dict string D) :=
  match names with
  | [] => Ok acc
  | n :: r =>
      match dget objs n with
      | None => Err AttributeError
      | Some o => save_all r objs (dset acc n (state_dict n o))
      end
  end.

(** Checkpointer.end_cycle, lines 73-92.  emote/callbacks/checkpointing.py:73-92. *)
Definition ckpt_end_cycle (folder : string) (names : list string) (st : tstate O) (w : cworld)
  : cworld * res (tstate O) :=
  match dget st "bp_step", dget st "bp_samples" with
  | Some step, Some samples =>
      let path := path_join folder (ckpt_name (cw_index w)) in
      match save_all names (cw_objs w) [] with
      | Err e => (w, Err e)
      | Ok cbs =>
          if negb (inb folder (cw_dirs w)) then (w, Err FileNotFoundError)
          else
            let f := mkFile cbs
                      [("latest_checkpoint", VObj (path_obj path)); ("bp_step", step);
                       ("bp_samples", samples); ("checkpoint_index", VNum (cw_index w))] in
            (mkCW (cw_dirs w) (dset (cw_files w) path f) (cw_index w + 1) (cw_objs w) (cw_rest w),
             Ok [("latest_checkpoint", VObj (path_obj path)); ("checkpoint_index", VNum (cw_index w))])
      end
  | _, _ => (w, Err TypeError)
  end.

(** Checkpointer.begin_training, line 70-71.  emote/callbacks/checkpointing.py:70-71. *)
Definition ckpt_begin_training (folder : string) (w : cworld) : cworld :=
  mkCW (if inb folder (cw_dirs w) then cw_dirs w else folder :: cw_dirs w)
       (cw_files w) (cw_index w) (cw_objs w) (cw_rest w).

(** CheckpointLoader: its settings.  emote/callbacks/checkpointing.py:130-150. *)
Record loader_cfg : Type := mkLoader {
  lo_folder : string; lo_names : list string; lo_index : Z;
  lo_weights : bool; lo_optimizers : bool; lo_hparams : bool }.

(** Lines 162-166.  emote/callbacks/checkpointing.py:162-166. *)
Fixpoint load_all (lo : loader_cfg) (names : list string) (saved : dict string D) (objs : dict string X)
  : dict string X * res unit :=
  match names with
  | [] => (objs, Ok tt)
  | n :: r =>
      match dget saved n with
      | None => (objs, Err KeyError)
      | Some d =>
          match dget objs n with
          | None => (objs, Err AttributeError)
          | Some o =>
              load_all lo r saved
                (dset objs n (load_state_dict n d (lo_weights lo) (lo_optimizers lo) (lo_hparams lo) o))
          end
      end
  end.

(** CheckpointLoader.restore_state, lines 151-173.  InvalidCheckpointLocation is a
    ValueError.  A mapping has each of its keys once: hence [dupdate []].  emote/callbacks/checkpointing.py:151-173. *)
Definition load_restore (lo : loader_cfg) (w : cworld) : cworld * res (tstate O) :=
  if negb (inb (lo_folder lo) (cw_dirs w)) then (w, Err ValueError)
  else
    match dget (cw_files w) (path_join (lo_folder lo) (ckpt_name (lo_index lo))) with
    | None => (w, Err FileNotFoundError)
    | Some f =>
        let '(objs, r) := load_all lo (lo_names lo) (cf_callbacks f) (cw_objs w) in
        let w' := mkCW (cw_dirs w) (cw_files w) (cw_index w) objs (cw_rest w) in
        match r with
        | Err e => (w', Err e)
        | Ok _ => (w', Ok (if lo_hparams lo then dupdate [] (cf_training f) else []))
        end
    end.

(** A Checkpointer with identity [cid] and a CheckpointLoader with identity [lid]
    among other callbacks: their hooks (the other hooks are Callback's, which do
    nothing: emote/callback.py:189-226). *)
Definition with_checkpoints (cid : nat) (folder : string) (names : list string)
  (lid : nat) (lo : loader_cfg) (act : behaviour O cworld) : behaviour O cworld :=
  fun c ph x st w =>
    if Nat.eqb (cb_id c) cid then
      match ph with
      | PBeginTraining => (ckpt_begin_training folder w, Ok [])
      | PEndCycle => ckpt_end_cycle folder names st w
      | _ => (w, Ok [])
      end
    else if Nat.eqb (cb_id c) lid then
      match ph with
      | PRestore => load_restore lo w
      | _ => (w, Ok [])
      end
    else act c ph x st w.
End Ckpt.
Arguments ckpt_file O D : clear implicits.
Arguments cworld O X D E : clear implicits.
