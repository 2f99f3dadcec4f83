(** * ConcModel: several threads using one table, and a store that is interrupted. *)
From Verif Require Import Py MemModel.
Open Scope Z_scope.

(** ** Threads and the table lock *)
Section Conc.
Context {S : Type} `{Scalar S}.

(** What a public call returns.  The results of emote/memory/table.py:196-237. *)
Inductive reply : Type :=
| RUnit
| RSize (n : Z)
| RFull (b : bool)
| RBatch (out : dict string (array S)).

(** A function applied to the result of a call that may raise (used for emote/memory/table.py:196-237). *)
Definition rmap {A B} (f : A -> B) (r : res A) : res B :=
  match r with Ok a => Ok (f a) | Err e => Err e end.

(** One complete call, executed alone: the methods of ArrayMemoryTable
    (emote/memory/table.py:111-130, 196-237) as in MemModel. *)
Definition do_op (t : table S) (o : op S) : table S * res reply :=
  match o with
  | OAdd id s dr => let '(t', r) := add_sequence t id s dr in (t', rmap (fun _ => RUnit) r)
  | OSample c n dr => let '(t', r) := t_sample t c n dr in (t', rmap RBatch r)
  | OResize n => let '(t', r) := t_resize t n in (t', rmap (fun _ => RUnit) r)
  | OSize => (t, Ok (RSize (t_size t)))
  | OFull => (t, Ok (RFull (t_full t)))
  | OClear => (t_clear t, Ok RUnit)
  end.

(** Inside a [with self._lock:] block (emote/memory/table.py:112, 122, 204, 215, 229, 235) the
    thread executes several steps on the shared table; it has either not yet
    determined its reply or is leaving with it. *)
Inductive mstate : Type := MRun | MRet (r : res reply).
(** A step of a call inside the lock, emote/memory/table.py:112-237. *)
Definition micro : Type := table S * mstate -> table S * mstate.
(** Steps one after the other (emote/memory/table.py:112-237). *)
Definition exec (ms : list micro) (c : table S * mstate) : table S * mstate :=
  fold_left (fun c f => f c) ms c.

(** A step that is skipped once an exception has been raised (emote/memory/table.py:239-262). *)
Definition guard (f : table S -> table S * mstate) : micro :=
  fun c => match snd c with MRun => f (fst c) | MRet _ => c end.

(** The steps of _add_sequence_internal, emote/memory/table.py:239-262: make room; write the
    columns; update the lengths; tell the sampler; tell the ejector. *)
Definition add_micros (id0 : Z) (s : sequence S) (dr : list draw) : list micro :=
  let id := wrap_id id0 in
  let len t := match dget s (t_lenkey t) with Some fr => zlen fr | None => 0 end in
  let next (x : table S * res unit) := match x with
                    | (t, Ok _) => (t, MRun)
                    | (t, Err e) => (t, MRet (Err e)) end in
  [ guard (fun t => match dget s (t_lenkey t) with
                    | None => (t, MRet (Err KeyError))
                    | Some _ =>
                        if t_maxlen t <? t_size t + len t
                        then next (eject_count t (t_size t + len t - t_maxlen t) dr)
                        else (t, MRun)
                    end);
    guard (fun t => let '(d, r) := write_columns (t_cols t) (t_data t) id s in
                    next (with_data t d, r));
    guard (fun t => (with_lengths t (dset (t_lengths t) id (len t)) (t_total t + len t), MRun));
    guard (fun t => let '(sm, r) := s_track (t_sampler t) id (len t) in
                    next (with_sampler t sm, r));
    guard (fun t => let '(ej, r) := e_track (t_ejector t) id (len t) in
                    (with_ejector t ej, MRet (rmap (fun _ => RUnit) r))) ].

(** sample, emote/memory/table.py:204-208: choose the points, then gather. *)
Definition op_micros (o : op S) : list micro :=
  match o with
  | OAdd id s dr => add_micros id s dr
  | _ => [ guard (fun t => let '(t', r) := do_op t o in (t', MRet r)) ]
  end.

(** A thread: the calls it still has to make, and the replies it has seen.  A caller of emote/memory/table.py:111-237. *)
Record thread : Type := mkTh { th_todo : list (op S); th_log : list (op S * res reply) }.

(** The shared table, the owner of its lock (emote/memory/table.py:105) and the threads. *)
Record config : Type := mkCfg
  { cf_table : table S;
    cf_holder : option (nat * op S * list micro * mstate);
    cf_threads : nat -> thread }.

(** A configuration in which thread [i] has changed (callers of emote/memory/table.py:111-237). *)
Definition upd (f : nat -> thread) (i : nat) (x : thread) : nat -> thread :=
  fun j => if Nat.eqb j i then x else f j.

(** [mic] says how each call is cut into steps.  The lock is that of emote/memory/table.py:105, taken at 112, 122, 204, 215, 229 and 235. *)
Inductive cstep (mic : op S -> list micro) : config -> config -> Prop :=
| acquire t th i o r l :
    th i = mkTh (o :: r) l ->
    cstep mic (mkCfg t None th) (mkCfg t (Some (i, o, mic o, MRun)) (upd th i (mkTh r l)))
| work t th i o m ms st t' st' :
    m (t, st) = (t', st') ->
    cstep mic (mkCfg t (Some (i, o, m :: ms, st)) th) (mkCfg t' (Some (i, o, ms, st')) th)
| release t th i o x r l :
    th i = mkTh r l ->
    cstep mic (mkCfg t (Some (i, o, [], MRet x)) th) (mkCfg t None (upd th i (mkTh r (l ++ [(o, x)])))).

(** Any schedule of the callers of emote/memory/table.py:111-237. *)
Inductive csteps (mic : op S -> list micro) : config -> config -> Prop :=
| csteps_refl c : csteps mic c c
| csteps_more c1 c2 c3 : csteps mic c1 c2 -> cstep mic c2 c3 -> csteps mic c1 c3.

(** No call of emote/memory/table.py:111-237 has begun. *)
Definition start (t : table S) (progs : nat -> list (op S)) : config :=
  mkCfg t None (fun i => mkTh (progs i) []).
End Conc.
Arguments reply S : clear implicits.
Arguments thread S : clear implicits.
Arguments config S : clear implicits.
Arguments micro S : clear implicits.
Arguments mstate S : clear implicits.

(** ** Writing the export: emote/memory/table.py:283-349 *)
Section Store.
Context {S : Type} `{Scalar S}.

(** The members of the zip file, in the order they are written (emote/memory/table.py:288-347),
    and the central directory that closing the ZipFile appends. *)
Inductive member : Type :=
| MVersion
| MConfig (ids : list Z) (ej sm : option (list Z * list (Z * Z))) (lenkey : string)
          (maxlen : Z) (cols : list (column S)) (part_keys : list string)
| MRanges (key : string) (r : npy_ranges)
| MData (key : string) (a : array S)
| MDirectory.

(** The members of the archive in the order of emote/memory/table.py:288-347. *)
Definition members (f : v1file S) : list member :=
  MVersion ::
  MConfig (v_ids f) (v_ejector_state f) (v_sampler_state f) (v_lenkey f) (v_maxlen f)
          (v_columns f) (map fst (v_parts f)) ::
  flat_map (fun p => [MRanges (fst p) (fst (snd p)); MData (fst p) (snd (snd p))]) (v_parts f).

(** The steps of the file system.  [atomic_write(path, overwrite=True)] creates a
    temporary file in the same directory; leaving its block normally flushes it
    and renames it over [path], leaving it with an exception removes it.  Used at emote/memory/table.py:285-287 and 349. *)
Inductive action : Type :=
| ACreate | AWrite (m : member) | ARename | AUnlink | AChmod.

(** The temporary file and the file at the path of emote/memory/table.py:285. *)
Record fs : Type := mkFs
  { fs_target : option (list member); fs_temp : option (list member); fs_mode : Z }.

(** The effect of a file system step of emote/memory/table.py:285-349. *)
Definition act (s : fs) (a : action) : fs :=
  match a with
  | ACreate => mkFs (fs_target s) (Some []) (fs_mode s)
  | AWrite m => mkFs (fs_target s) (option_map (fun l => l ++ [m]) (fs_temp s)) (fs_mode s)
  | ARename => match fs_temp s with
               | Some l => mkFs (Some l) None (fs_mode s)
               | None => s
               end
  | AUnlink => mkFs (fs_target s) None (fs_mode s)
  | AChmod => mkFs (fs_target s) (fs_temp s) 420 (* rw-r--r-- *)
  end.

(** The actions of _serialize: [fail] is the number of members written before an
    exception is raised by the file system or by np.save, if one is.  When
    np.stack raises (empty columns, emote/memory/table.py:333) only the version has been
    written.  Closing the ZipFile writes the directory also on exceptions. *)
Definition store_actions (r : res (v1file S)) (fail : option nat) : list action :=
  match r, fail with
  | Ok f, None => ACreate :: map AWrite (members f) ++ [AWrite MDirectory; ARename; AChmod]
  | Ok f, Some n => ACreate :: map AWrite (firstn n (members f)) ++ [AWrite MDirectory; AUnlink]
  | Err _, _ => [ACreate; AWrite MVersion; AWrite MDirectory; AUnlink]
  end.

(** The process stops after [k] actions.  Somewhere in emote/memory/table.py:283-349. *)
Definition crash (s : fs) (acts : list action) (k : nat) : fs := fold_left act (firstn k acts) s.

(** What reading a file back yields (emote/memory/table.py:363-447 read these members). *)
Fixpoint find_ranges (l : list member) (key : string) : option npy_ranges :=
  match l with
  | [] => None
  | MRanges k r :: l' => if String.eqb key k then Some r else find_ranges l' key
  | _ :: l' => find_ranges l' key
  end.
(** emote/memory/table.py:434-435 *)
Fixpoint find_data (l : list member) (key : string) : option (array S) :=
  match l with
  | [] => None
  | MData k r :: l' => if String.eqb key k then Some r else find_data l' key
  | _ :: l' => find_data l' key
  end.
(** emote/memory/table.py:428-435, the loop over part_keys *)
Fixpoint read_parts (l : list member) (keys : list string)
  : option (list (string * (npy_ranges * array S))) :=
  match keys with
  | [] => Some []
  | k :: ks =>
      match find_ranges l k, find_data l k, read_parts l ks with
      | Some r, Some d, Some ps => Some ((k, (r, d)) :: ps)
      | _, _, _ => None
      end
  end.
(** emote/memory/table.py:363-435, the whole archive *)
Definition read_file (l : list member) : option (v1file S) :=
  match l with
  | MVersion :: MConfig ids ej sm lk ml cols keys :: rest =>
      match last rest MVersion with
      | MDirectory =>
          match read_parts rest keys with
          | Some ps => Some (mkV1 ids ej sm lk ml cols ps)
          | None => None
          end
      | _ => None
      end
  | _ => None
  end.
End Store.
Arguments member S : clear implicits.
Arguments fs S : clear implicits.
