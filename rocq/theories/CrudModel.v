(** * CrudModel: emote/extra/crud_storage.py

    The file system is a dictionary from absolute paths to what is there.  Two
    different path strings are taken to be two different files (no links, no
    case folding, paths already normalised). *)
From Verif Require Import Py CkptModel LogModel LockModel.
From Coq Require Import Ascii.
Open Scope string_scope.
Open Scope list_scope.
Open Scope Z_scope.
Notation "a +++ b" := (String.append a b) (at level 60, right associativity).

Section Crud.
(** Bytes; moments in time. *)
Context {D T : Type}.

(** ** The file system (the Python library) *)
(** what is on the disk that emote/extra/crud_storage.py works on *)
Inductive node : Type := File (d : D) | Folder.
(** the disk behind the os calls of emote/extra/crud_storage.py:68-73, 97-98, 139, 144, 183 *)
Definition fs : Type := dict string node.
(** os.path.isfile as called in emote/extra/crud_storage.py:97, 144 *)
Definition isfile (f : fs) (p : string) : bool := match dget f p with Some (File _) => true | _ => false end.
(** os.path.isdir as called in emote/extra/crud_storage.py:68, 118 *)
Definition isdir (f : fs) (p : string) : bool := match dget f p with Some Folder => true | _ => false end.

(** [os.path.dirname] of a normalised absolute path: what comes before the last
    slash, or "/" for what lies in the root.  used for emote/extra/crud_storage.py:98 *)
Fixpoint before_last_slash (p : string) : option string :=
  match p with
  | EmptyString => None
  | String c r =>
      match before_last_slash r with
      | Some h => Some (String c h)
      | None => if Ascii.eqb c "/" then Some EmptyString else None
      end
  end.
(** os.path.dirname as called in emote/extra/crud_storage.py:98 *)
Definition dirname (p : string) : string :=
  match before_last_slash p with
  | None => EmptyString
  | Some EmptyString => "/"
  | Some h => h
  end.
(** used for emote/extra/crud_storage.py:138 *)
Fixpoint ends_with_slash (p : string) : bool :=
  match p with
  | EmptyString => false
  | String c EmptyString => Ascii.eqb c "/"
  | String _ r => ends_with_slash r
  end.
(** [os.path.join].  emote/extra/crud_storage.py:138 *)
Definition path_join (dir name : string) : string :=
  if String.prefix "/" name then name
  else if ends_with_slash dir then dir +++ name
  else dir +++ "/" +++ name.

(** [with open(p, "wb") as f: f.write(d)].  Any other failure of the operating
    system than a missing folder is an OtherError.  emote/extra/crud_storage.py:85-86, 155-156 *)
Definition write (f : fs) (p : string) (d : D) : res fs :=
  if isdir f p then Err OtherError
  else if isdir f (dirname p) then Ok (dset f p (File d))
  else Err FileNotFoundError.
(** [os.remove(p)].  emote/extra/crud_storage.py:183 *)
Definition os_remove (f : fs) (p : string) : res fs :=
  match dget f p with
  | Some (File _) => Ok (ddel f p)
  | Some Folder => Err OtherError
  | None => Err FileNotFoundError
  end.

(** ** The storage *)

(** emote/extra/crud_storage.py:15-52; the handle is the integer inside StorageItemHandle. *)
Record item : Type := mkItem { it_handle : Z; it_time : T; it_path : string }.
(** emote/extra/crud_storage.py:39-40 __str__ *)
Definition handle_str (h : Z) : string := str_Z h.
(** emote/extra/crud_storage.py:28-37 from_string; [int(value)] as in LogModel. *)
Definition handle_from_string (s : string) : option Z :=
  match parse_int s with Ok h => Some h | Err _ => None end.

(** emote/extra/crud_storage.py:75-79: what never changes. *)
Record config : Type := mkConfig { cf_dir : string; cf_prefix : string; cf_ext : string }.
(** The filename counter (AtomicInt), the list of items, and the disk.  emote/extra/crud_storage.py:76-77 *)
Record state : Type := mkState { s_counter : Z; s_items : list item; s_fs : fs }.

(** emote/extra/crud_storage.py:63-79 __init__: [directory] absolute.  makedirs makes this
    folder (making its parents is left out). *)
Definition init (dir prefix ext : string) (f : fs) : res (config * state) :=
  if String.eqb ext "" then Err AssertionError
  else if contains "." ext then Err AssertionError
  else match dget f dir with
       | Some (File _) => Err OtherError
       | Some Folder => Ok (mkConfig dir prefix ext, mkState 0 [] f)
       | None => Ok (mkConfig dir prefix ext, mkState 0 [] (dset f dir Folder))
       end.

(** emote/extra/crud_storage.py:136-138: [date] is the local time as text, whatever it is. *)
Definition file_path (c : config) (date : string) (h : Z) : string :=
  path_join (cf_dir c) (cf_prefix c +++ date +++ "_" +++ handle_str h +++ "." +++ cf_ext c).

(** emote/extra/crud_storage.py:130-140: take a number, try again while the file exists.
    [fuel] rounds at most; the proofs show that one more round than there are
    files is always enough. Gives the handle and the new counter. *)
Fixpoint find_name (fuel : nat) (c : config) (date : string) (f : fs) (counter : Z) : res (Z * Z) :=
  match fuel with
  | O => Err Diverges
  | S k =>
      if dmem f (file_path c date counter)
      then find_name k c date f (counter + 1)
      else Ok (counter, counter + 1)
  end.

(** What a saver does: any change of the disk, depending on the path it is
    given; it may raise.  emote/extra/crud_storage.py:112-117, 143 *)
Definition saver : Type := string -> fs -> fs * option exn.

(** emote/extra/crud_storage.py:112-149 create_with_saver *)
Definition create_with_saver (c : config) (date : string) (utc : T) (sv : saver) (s : state) : res item * state :=
  if negb (isdir (s_fs s) (cf_dir c)) then (Err OtherError, s)
  else match find_name (S (List.length (s_fs s))) c date (s_fs s) (s_counter s) with
       | Err e => (Err e, s)
       | Ok (h, n) =>
           let it := mkItem h utc (file_path c date h) in
           match sv (it_path it) (s_fs s) with
           | (f, Some e) => (Err e, mkState n (s_items s) f)
           | (f, None) =>
               if isfile f (it_path it)
               then (Ok it, mkState n (s_items s ++ [it]) f)
               else (Err AssertionError, mkState n (s_items s) f)
           end
       end.

(** emote/extra/crud_storage.py:84-86 *)
Definition data_saver (d : D) : saver := fun p f =>
  match write f p d with Ok f' => (f', None) | Err e => (f, Some e) end.
(** emote/extra/crud_storage.py:81-88 create_with_data *)
Definition create_with_data (c : config) (date : string) (utc : T) (d : D) (s : state) : res item * state :=
  create_with_saver c date utc (data_saver d) s.

(** emote/extra/crud_storage.py:90-110 create_from_filepath *)
Definition create_from_filepath (c : config) (utc : T) (p : string) (s : state) : res item * state :=
  if negb (isfile (s_fs s) p) then (Err AssertionError, s)
  else if negb (String.eqb (dirname p) (cf_dir c)) then (Err OtherError, s)
  else let it := mkItem (s_counter s) utc p in
       (Ok it, mkState (s_counter s + 1) (s_items s ++ [it]) (s_fs s)).

(** emote/extra/crud_storage.py:193-200 get *)
Definition get (h : Z) (s : state) : option item :=
  find (fun it => it_handle it =? h) (s_items s).

(** emote/extra/crud_storage.py:151-156 update *)
Definition update (h : Z) (d : D) (s : state) : res unit * state :=
  match get h s with
  | None => (Err AssertionError, s)
  | Some it =>
      match write (s_fs s) (it_path it) d with
      | Ok f => (Ok tt, mkState (s_counter s) (s_items s) f)
      | Err e => (Err e, s)
      end
  end.

(** emote/extra/crud_storage.py:158-165 items *)
Definition items (s : state) : list item := s_items s.

(** emote/extra/crud_storage.py:177-181: the first item with this handle, and the list
    without it. *)
Fixpoint take_out (h : Z) (l : list item) : option (item * list item) :=
  match l with
  | [] => None
  | it :: r =>
      if negb (it_handle it =? h)
      then match take_out h r with Some (x, r') => Some (x, it :: r') | None => None end
      else Some (it, r)
  end.
(** emote/extra/crud_storage.py:167-191 delete *)
Definition delete (h : Z) (s : state) : res bool * state :=
  match take_out h (s_items s) with
  | None => (Ok false, s)
  | Some (it, r) =>
      match os_remove (s_fs s) (it_path it) with
      | Ok f => (Ok true, mkState (s_counter s) r f)
      | Err e => (Err OtherError, mkState (s_counter s) r (s_fs s))
      end
  end.

(** emote/extra/crud_storage.py:202-212 latest *)
Definition latest (s : state) : option item :=
  match rev (s_items s) with [] => None | it :: _ => Some it end.

(** ** Histories of one caller *)
(** the public methods, emote/extra/crud_storage.py:81-212 *)
Inductive op : Type :=
| OSaver (date : string) (utc : T) (sv : saver)
| OData (date : string) (utc : T) (d : D)
| ORegister (utc : T) (p : string)
| OUpdate (h : Z) (d : D)
| OItems
| ODelete (h : Z)
| OGet (h : Z)
| OLatest
| OOutside (change : fs -> fs) (** somebody else changes the disk *).
(** what the methods of emote/extra/crud_storage.py:81-212 return *)
Inductive answer : Type :=
| AItem (it : item) | ANone_ | AItems (l : list item) | ABool (b : bool) | AOption (o : option item).

(** one call of emote/extra/crud_storage.py:81-212 *)
Definition do_op (c : config) (o : op) (s : state) : res answer * state :=
  match o with
  | OSaver date utc sv => let '(r, s') := create_with_saver c date utc sv s in (rmap AItem r, s')
  | OData date utc d => let '(r, s') := create_with_data c date utc d s in (rmap AItem r, s')
  | ORegister utc p => let '(r, s') := create_from_filepath c utc p s in (rmap AItem r, s')
  | OUpdate h d => let '(r, s') := update h d s in (rmap (fun _ => ANone_) r, s')
  | OItems => (Ok (AItems (items s)), s)
  | ODelete h => let '(r, s') := delete h s in (rmap ABool r, s')
  | OGet h => (Ok (AOption (get h s)), s)
  | OLatest => (Ok (AOption (latest s)), s)
  | OOutside g => (Ok ANone_, mkState (s_counter s) (s_items s) (g (s_fs s)))
  end.

(** What an observer notes down about one call: the disk before, the call, the
    answer, the disk after.  a call of emote/extra/crud_storage.py:81-212 *)
Record event : Type := mkEvent { e_before : fs; e_op : op; e_answer : res answer; e_after : fs }.
(** a sequence of calls of emote/extra/crud_storage.py:81-212 *)
Fixpoint history (c : config) (ops : list op) (s : state) : list event :=
  match ops with
  | [] => []
  | o :: r => let '(a, s') := do_op c o s in mkEvent (s_fs s) o a (s_fs s') :: history c r s'
  end.

(** ** Many threads *)

(** The calls a thread makes.  A saver is a list of changes of the disk, other
    threads may run in between.  emote/extra/crud_storage.py:81-149 *)
Inductive job : Type :=
| JCreate (date : string) (utc : T) (sv : list saver)
| JRegister (utc : T) (p : string)
| JDelete (h : Z)
| JOutside (change : fs -> fs).
(** Where a thread is inside create_with_saver (and the two other calls).  emote/extra/crud_storage.py:112-149 *)
Inductive place : Type :=
| Between                                            (** not in a call *)
| Naming (date : string) (utc : T) (sv : list saver) (** l.129, about to take a number *)
| Checking (date : string) (h : Z) (utc : T) (sv : list saver) (** l.138, about to look at the disk *)
| Calling (date : string) (h : Z) (utc : T) (sv : list saver)  (** l.142, about to call the saver *)
| Saving (it : item) (sv : list saver)               (** inside the saver *)
| Adding (it : item)                                 (** l.147 or 107, about to append *)
| Removing (p : string)                              (** l.182, about to remove the file *).
(** a thread calling emote/extra/crud_storage.py:81-149; the third field is what its calls have returned *)
Record worker : Type := mkWorker { w_todo : list job; w_place : place; w_done : list (res item) }.
(** [c_calls]: for each call of a saver the path it was given and whether there
    was anything at that path.  emote/extra/crud_storage.py:143 *)
Record csys : Type := mkCsys { c_state : state; c_calls : list (string * bool); c_workers : list worker }.

(** One step of a thread.  AtomicInt.increment and append are single steps,
    C57 shows that they can be taken for that.  emote/extra/crud_storage.py:90-149 *)
Definition work (c : config) (w : worker) (s : state) (log : list (string * bool))
  : worker * state * list (string * bool) :=
  let finish r s' := (mkWorker (w_todo w) Between (w_done w ++ [r]), s', log) in
  let goto p s' := (mkWorker (w_todo w) p (w_done w), s', log) in
  match w_place w with
  | Between =>
      match w_todo w with
      | [] => (w, s, log)
      | JCreate date utc sv :: r =>
          (* l.117-118 *)
          if isdir (s_fs s) (cf_dir c)
          then (mkWorker r (Naming date utc sv) (w_done w), s, log)
          else (mkWorker r Between (w_done w ++ [Err OtherError]), s, log)
      | JRegister utc p :: r =>
          (* l.94-103 *)
          if isfile (s_fs s) p && String.eqb (dirname p) (cf_dir c)
          then (mkWorker r (Adding (mkItem (s_counter s) utc p)) (w_done w),
                mkState (s_counter s + 1) (s_items s) (s_fs s), log)
          else (mkWorker r Between (w_done w ++ [Err OtherError]), s, log)
      | JDelete h :: r =>
          match take_out h (s_items s) with
          | None => (mkWorker r Between (w_done w), s, log)
          | Some (it, l) => (mkWorker r (Removing (it_path it)) (w_done w), mkState (s_counter s) l (s_fs s), log)
          end
      | JOutside g :: r => (mkWorker r Between (w_done w), mkState (s_counter s) (s_items s) (g (s_fs s)), log)
      end
  | Naming date utc sv =>
      goto (Checking date (s_counter s) utc sv) (mkState (s_counter s + 1) (s_items s) (s_fs s))
  | Checking date h utc sv =>
      goto (if dmem (s_fs s) (file_path c date h) then Naming date utc sv else Calling date h utc sv) s
  | Calling date h utc sv =>
      let p := file_path c date h in
      (mkWorker (w_todo w) (Saving (mkItem h utc p) sv) (w_done w), s, log ++ [(p, dmem (s_fs s) p)])
  | Saving it (m :: r) =>
      match m (it_path it) (s_fs s) with
      | (f, Some e) => finish (Err e) (mkState (s_counter s) (s_items s) f)
      | (f, None) => goto (Saving it r) (mkState (s_counter s) (s_items s) f)
      end
  | Saving it [] =>
      (* l.143-145 *)
      if isfile (s_fs s) (it_path it) then goto (Adding it) s else finish (Err AssertionError) s
  | Adding it => finish (Ok it) (mkState (s_counter s) (s_items s ++ [it]) (s_fs s))
  | Removing p =>
      goto Between (match os_remove (s_fs s) p with Ok f => mkState (s_counter s) (s_items s) f | Err _ => s end)
  end.
(** one step of thread i inside emote/extra/crud_storage.py:90-149 *)
Definition cstep (c : config) (i : nat) (y : csys) : csys :=
  match nth_error (c_workers y) i with
  | None => y
  | Some w =>
      let '(w', s', log') := work c w (c_state y) (c_calls y) in
      mkCsys s' log' (set_nth i w' (c_workers y))
  end.
(** a schedule of threads inside emote/extra/crud_storage.py:90-149 *)
Fixpoint csteps (c : config) (sched : list nat) (y : csys) : csys :=
  match sched with [] => y | i :: r => csteps c r (cstep c i y) end.
(** threads about to call emote/extra/crud_storage.py:90-149 *)
Definition cstart (s : state) (programs : list (list job)) : csys :=
  mkCsys s [] (map (fun p => mkWorker p Between []) programs).
End Crud.
Arguments node D : clear implicits.
Arguments fs D : clear implicits.
Arguments item T : clear implicits.
Arguments state D T : clear implicits.
Arguments saver D : clear implicits.
Arguments op D T : clear implicits.
Arguments answer T : clear implicits.
Arguments event D T : clear implicits.
Arguments job D T : clear implicits.
Arguments place D T : clear implicits.
Arguments worker D T : clear implicits.
Arguments csys D T : clear implicits.
