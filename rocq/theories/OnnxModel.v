(** * OnnxModel: emote/extra/onnx_exporter.py

    One main thread owns the model and serves the queue, any number of other
    threads ask for exports.  Tracing the network is not modelled: it works or it
    raises.  Metadata keys and values are strings already. *)
From Verif Require Import Py CkptModel LogModel LockModel CrudModel.
Open Scope string_scope.
Open Scope list_scope.
Open Scope Z_scope.

(** emote/extra/onnx_exporter.py:134, 232-264 *)
Definition metadata : Type := dict string string.
(** An exported file: its model version and its metadata.  emote/extra/onnx_exporter.py:218-227; the network itself is left out *)
Record model_file : Type := mkFile { mf_version : Z; mf_meta : metadata }.

Section Onnx.
Context {T : Type}.
Notation store := (CrudModel.state model_file T).
Notation item := (CrudModel.item T).

(** What the world does during one export: the clock, and whether the export works.  emote/extra/onnx_exporter.py:172-209, 214 *)
Record luck : Type := mkLuck { lu_date : string; lu_utc : T; lu_fails : option exn }.

(** emote/extra/onnx_exporter.py:27-39 QueuedExport.  The number stands for the identity of
    the object.  The observer's notes: what the caller passed in, and how many
    add_metadata calls had been made before. *)
Record request : Type := mkRequest { rq_id : nat; rq_meta : metadata; rq_args : metadata; rq_when : nat }.

(** emote/extra/onnx_exporter.py:51-62 _save_protobuf: makes the folder if need be (the
    parents of the folder are left out), writes the file. *)
Definition save_protobuf (m : model_file) : saver model_file := fun p f =>
  if isfile f (dirname p) then (f, Some OtherError)
  else
    let f := if dmem f (dirname p) then f else dset f (dirname p) Folder in
    match write f p m with Ok f' => (f', None) | Err e => (f, Some e) end.

(** emote/extra/onnx_exporter.py:211-230 _export_onnx.  The version counter goes up when the
    saver is called and tracing works, before the file is written. *)
Definition export_onnx (c : config) (l : luck) (counter : Z) (md : metadata) (s : store) : res item * Z * store :=
  let save_inner : saver model_file := fun p f =>
    match lu_fails l with
    | Some e => (f, Some e)
    | None => save_protobuf (mkFile counter md) p f
    end in
  let called := isdir (s_fs s) (cf_dir c) in
  let counter' := match lu_fails l with None => if called then counter + 1 else counter | Some _ => counter end in
  let '(r, s') := create_with_saver c (lu_date l) (lu_utc l) save_inner s in
  (r, counter', s').

(** Jobs of the main thread: process_pending_exports (end_batch), export,
    add_metadata; of the others: export_threadsafe, add_metadata.  emote/extra/onnx_exporter.py:136, 152, 162, 285 *)
Inductive main_job : Type := MProcess | MExport (args : metadata) | MAdd (key value : string).
(** emote/extra/onnx_exporter.py:136, 276 *)
Inductive req_job : Type := RExport (args : metadata) | RAdd (key value : string).
(** Where the main thread is.  [own]: the export call it is in waits for this
    request.  emote/extra/onnx_exporter.py:162-170, 232-274 *)
Inductive main_place : Type :=
| MIdle
| MPut (md args : metadata) (when : nat)   (** l.259-264 done *)
| MLoop (own : option nat)                 (** l.165, looking at the queue *)
| MGot (own : option nat) (r : request)    (** l.167 done, about to process *)
| MWait (id : nat)                         (** l.274 *).
(** emote/extra/onnx_exporter.py:232-274 with sync = False *)
Inductive req_place : Type := RIdle | RPut (md args : metadata) (when : nat) | RWait (id : nat).
(** the caller of emote/extra/onnx_exporter.py:136, 152, 285; the third field is what its calls gave *)
Record main_thread : Type := mkMain { m_todo : list main_job; m_place : main_place; m_done : list (main_job * res (option item)) }.
(** a caller of emote/extra/onnx_exporter.py:136, 276; the third field is what export_threadsafe returned *)
Record req_thread : Type := mkReq { r_todo : list req_job; r_place : req_place; r_done : list (nat * item) }.

(** The observer's note on one processed request: the outcome and what was then at
    the path.  a call of emote/extra/onnx_exporter.py:33-35 *)
Record served : Type := mkServed { sv_req : request; sv_result : res item; sv_file : option (node model_file) }.
(** emote/extra/onnx_exporter.py:119-134 and the threads using it *)
Record osys : Type := mkO {
  o_meta : metadata; o_queue : list request; o_next : nat;
  o_answers : dict nat item;        (** the requests whose event is set, and their return values *)
  o_counter : Z; o_store : store;
  o_main : main_thread; o_threads : list req_thread;
  (** notes of the observer *)
  o_adds : list (string * string); o_puts : list request; o_served : list served }.

(** the exporter of emote/extra/onnx_exporter.py:65-313, main thread replaced *)
Definition with_main (y : osys) (m : main_thread) : osys :=
  mkO (o_meta y) (o_queue y) (o_next y) (o_answers y) (o_counter y) (o_store y) m (o_threads y) (o_adds y) (o_puts y) (o_served y).
(** the exporter of emote/extra/onnx_exporter.py:65-313, thread i replaced *)
Definition with_thread (y : osys) (i : nat) (t : req_thread) : osys :=
  mkO (o_meta y) (o_queue y) (o_next y) (o_answers y) (o_counter y) (o_store y) (o_main y) (set_nth i t (o_threads y)) (o_adds y) (o_puts y) (o_served y).
(** emote/extra/onnx_exporter.py:136-150 add_metadata *)
Definition add_metadata (y : osys) (k v : string) : osys :=
  mkO (dset (o_meta y) k v) (o_queue y) (o_next y) (o_answers y) (o_counter y) (o_store y) (o_main y) (o_threads y) (o_adds y ++ [(k, v)]) (o_puts y) (o_served y).
(** emote/extra/onnx_exporter.py:232-264: what is copied and merged under the lock. *)
Definition merged (y : osys) (args : metadata) : metadata := dupdate (o_meta y) args.
(** emote/extra/onnx_exporter.py:267-268: a new QueuedExport is put into the queue. *)
Definition put (y : osys) (md args : metadata) (when : nat) : osys :=
  let r := mkRequest (o_next y) md args when in
  mkO (o_meta y) (o_queue y ++ [r]) (S (o_next y)) (o_answers y) (o_counter y) (o_store y) (o_main y) (o_threads y) (o_adds y) (o_puts y ++ [r]) (o_served y).

(** One step of the main thread.  emote/extra/onnx_exporter.py:33-35, 136-170, 232-274 *)
Definition main_step (c : config) (world : nat -> luck) (y : osys) : osys :=
  let m := o_main y in
  let goto p := with_main y (mkMain (m_todo m) p (m_done m)) in
  let finish p r := match m_todo m with
                    | [] => mkMain [] p (m_done m)
                    | j :: rest => mkMain rest p (m_done m ++ [(j, r)])
                    end in
  match m_place m with
  | MIdle =>
      match m_todo m with
      | [] => y
      | MProcess :: _ => goto (MLoop None)
      | MExport args :: _ => goto (MPut (merged y args) args (List.length (o_adds y)))
      | MAdd k v :: _ => with_main (add_metadata y k v) (finish MIdle (Ok None))
      end
  | MPut md args when => with_main (put y md args when) (mkMain (m_todo m) (MLoop (Some (o_next y))) (m_done m))
  | MLoop own =>
      (* l.165-169; with one consumer the queue is not empty after all *)
      match o_queue y with
      | [] => match own with
              | None => with_main y (finish MIdle (Ok None))
              | Some id => goto (MWait id)
              end
      | r :: rest =>
          mkO (o_meta y) rest (o_next y) (o_answers y) (o_counter y) (o_store y)
            (mkMain (m_todo m) (MGot own r) (m_done m)) (o_threads y) (o_adds y) (o_puts y) (o_served y)
      end
  | MGot own r =>
      (* l.33-35; an exception leaves process_pending_exports and the call it is in *)
      let '(res, counter, s) := export_onnx c (world (List.length (o_served y))) (o_counter y) (rq_meta r) (o_store y) in
      let note := mkServed r res (match res with Ok it => dget (s_fs s) (it_path it) | Err _ => None end) in
      match res with
      | Ok it =>
          mkO (o_meta y) (o_queue y) (o_next y) (dset (o_answers y) (rq_id r) it) counter s
            (mkMain (m_todo m) (MLoop own) (m_done m)) (o_threads y) (o_adds y) (o_puts y) (o_served y ++ [note])
      | Err e =>
          mkO (o_meta y) (o_queue y) (o_next y) (o_answers y) counter s
            (finish MIdle (Err e)) (o_threads y) (o_adds y) (o_puts y) (o_served y ++ [note])
      end
  | MWait id =>
      match dget (o_answers y) id with
      | None => y
      | Some it => with_main y (finish MIdle (Ok (Some it)))
      end
  end.

(** One step of another thread.  emote/extra/onnx_exporter.py:136-150, 232-274 *)
Definition req_step (i : nat) (y : osys) : osys :=
  match nth_error (o_threads y) i with
  | None => y
  | Some t =>
      match r_place t with
      | RIdle =>
          match r_todo t with
          | [] => y
          | RExport args :: rest => with_thread y i (mkReq rest (RPut (merged y args) args (List.length (o_adds y))) (r_done t))
          | RAdd k v :: rest => with_thread (add_metadata y k v) i (mkReq rest RIdle (r_done t))
          end
      | RPut md args when => with_thread (put y md args when) i (mkReq (r_todo t) (RWait (o_next y)) (r_done t))
      | RWait id =>
          match dget (o_answers y) id with
          | None => y
          | Some it => with_thread y i (mkReq (r_todo t) RIdle (r_done t ++ [(id, it)]))
          end
      end
  end.

(** who makes the next step inside emote/extra/onnx_exporter.py:136-301 *)
Inductive turn : Type := Main | Thread (i : nat).
(** one step inside emote/extra/onnx_exporter.py:136-301 *)
Definition ostep (c : config) (world : nat -> luck) (u : turn) (y : osys) : osys :=
  match u with Main => main_step c world y | Thread i => req_step i y end.
(** a schedule of steps inside emote/extra/onnx_exporter.py:136-301 *)
Fixpoint osteps (c : config) (world : nat -> luck) (sched : list turn) (y : osys) : osys :=
  match sched with [] => y | u :: r => osteps c world r (ostep c world u y) end.
(** emote/extra/onnx_exporter.py:119-134 *)
Definition ostart (s : store) (main : list main_job) (others : list (list req_job)) : osys :=
  mkO [] [] 0 [] 0 s (mkMain main MIdle []) (map (fun p => mkReq p RIdle []) others) [] [] [].
End Onnx.
Arguments luck T : clear implicits.
Arguments main_thread T : clear implicits.
Arguments req_thread T : clear implicits.
Arguments served T : clear implicits.
Arguments osys T : clear implicits.
