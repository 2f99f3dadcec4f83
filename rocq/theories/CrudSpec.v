(** * CrudSpec: what a user expects of a CRUDStorage *)
From Verif Require Import Py CkptModel LogModel LockModel CrudModel.
From Coq Require Import Sorted.
Open Scope string_scope.
Open Scope list_scope.
Open Scope Z_scope.

Section Spec.
Context {D T : Type}.

(** ** What has been created and not deleted, from the calls and their answers *)
Definition created (e : event D T) : list (item T) :=
  match e_answer e with Ok (AItem it) => [it] | _ => [] end.
(** A delete that finds the file missing raises, and the item is gone. *)
Definition gone (e : event D T) : list Z :=
  match e_op e with ODelete h => [h] | _ => [] end.
Fixpoint live (past : list (event D T)) (acc : list (item T)) : list (item T) :=
  match past with
  | [] => acc
  | e :: r => live r (filter (fun it => negb (inb (it_handle it) (gone e))) acc ++ created e)
  end.

(** The disk after is the disk before, except at [p]. *)
Definition same_but (p : string) (f f' : fs D) : Prop := forall q, q <> p -> dget f' q = dget f q.
(** The item [o] is the one of [l] with handle [h], if there is one. *)
Definition found (h : Z) (l : list (item T)) (o : option (item T)) : Prop :=
  match o with
  | Some it => In it l /\ it_handle it = h
  | None => forall it, In it l -> it_handle it <> h
  end.

(** What one call may answer and do to the disk, given the items that are live
    and the handles given out before. *)
Definition allowed (c : config) (alive : list (item T)) (used : list Z) (e : event D T) : Prop :=
  let f := e_before e in let f' := e_after e in
  (** a new item has a handle larger than all given out before; the path it was
      saved at was free *)
  (forall it, e_answer e = Ok (AItem it) -> 0 <= it_handle it /\ Forall (fun h => h < it_handle it) used
                                            /\ isfile f' (it_path it) = true) /\
  match e_op e with
  | OSaver date utc sv =>
      if isdir f (cf_dir c) then
        exists h, let p := file_path c date h in
          dget f p = None /\ Forall (fun k => k < h) used /\ 0 <= h /\ f' = fst (sv p f) /\
          e_answer e = match snd (sv p f) with
                       | Some x => Err x
                       | None => if isfile f' p then Ok (AItem (mkItem h utc p)) else Err AssertionError
                       end
      else e_answer e = Err OtherError /\ f' = f
  | OData date utc d =>
      if isdir f (cf_dir c) then
        exists h, let p := file_path c date h in
          dget f p = None /\ Forall (fun k => k < h) used /\ 0 <= h /\
          if isdir f (dirname p)
          then e_answer e = Ok (AItem (mkItem h utc p)) /\ dget f' p = Some (File d) /\ same_but p f f'
          else e_answer e = Err FileNotFoundError /\ f' = f
      else e_answer e = Err OtherError /\ f' = f
  | ORegister utc p =>
      f' = f /\
      if isfile f p then
        if string_dec (dirname p) (cf_dir c)
        then exists h, e_answer e = Ok (AItem (mkItem h utc p))
        else e_answer e = Err OtherError
      else e_answer e = Err AssertionError
  | OUpdate h d =>
      exists o, found h alive o /\
      match o with
      | None => e_answer e = Err AssertionError /\ f' = f
      | Some it =>
          if isdir f (it_path it) then e_answer e = Err OtherError /\ f' = f
          else if isdir f (dirname (it_path it))
          then e_answer e = Ok ANone_ /\ dget f' (it_path it) = Some (File d) /\ same_but (it_path it) f f'
          else e_answer e = Err FileNotFoundError /\ f' = f
      end
  | OItems => e_answer e = Ok (AItems alive) /\ f' = f
  | ODelete h =>
      exists o, found h alive o /\
      match o with
      | None => e_answer e = Ok (ABool false) /\ f' = f
      | Some it =>
          if isfile f (it_path it)
          then e_answer e = Ok (ABool true) /\ dget f' (it_path it) = None /\ same_but (it_path it) f f'
          else e_answer e = Err OtherError /\ f' = f
      end
  | OGet h => exists o, found h alive o /\ e_answer e = Ok (AOption o) /\ f' = f
  | OLatest =>
      f' = f /\
      ((alive = [] /\ e_answer e = Ok (AOption None))
       \/ exists l it, alive = l ++ [it] /\ e_answer e = Ok (AOption (Some it)))
  | OOutside g => e_answer e = Ok ANone_ /\ f' = g f
  end.

(** A whole history: every call, given the ones before. *)
Definition conforms (c : config) (es : list (event D T)) : Prop :=
  forall past e rest, es = past ++ e :: rest ->
    allowed c (live past []) (map (@it_handle T) (flat_map created past)) e.

(** ** Contents *)

(** A disk lists no path twice. *)
Definition proper (f : fs D) : Prop := NoDup (dkeys f).
(** Outsiders and savers leave the disk a disk. *)
Definition decent (o : op D T) : Prop :=
  match o with
  | OSaver _ _ sv => forall p f, proper f -> proper (fst (sv p f))
  | OOutside g => forall f, proper f -> proper (g f)
  | _ => True
  end.
(** The calls that store, change, list and remove data, and nothing else. *)
Definition plain (o : op D T) : Prop :=
  match o with OSaver _ _ _ | ORegister _ _ | OOutside _ => False | _ => True end.
(** What was last stored under a handle. *)
Fixpoint stored (h : Z) (past : list (event D T)) (acc : option D) : option D :=
  match past with
  | [] => acc
  | e :: r =>
      stored h r
        match e_op e, e_answer e with
        | OData _ _ d, Ok (AItem it) => if it_handle it =? h then Some d else acc
        | OUpdate k d, Ok _ => if k =? h then Some d else acc
        | ODelete k, Ok _ => if k =? h then None else acc
        | _, _ => acc
        end
  end.

(** ** Many threads *)

(** Savers that touch nothing but the path they are given, deletes and nobody
    else. *)
Definition only_at (m : saver D) : Prop := forall p f, same_but p f (fst (m p f)).
Definition tidy (j : job D T) : Prop :=
  match j with
  | JCreate _ _ sv => Forall only_at sv
  | JDelete _ => True
  | JRegister _ _ | JOutside _ => False
  end.
(** The paths savers were called with. *)
Definition saver_paths (y : csys D T) : list string := map fst (c_calls y).
(** The items the finished calls returned. *)
Definition results (y : csys D T) : list (item T) :=
  flat_map (fun w => flat_map (fun r => match r with Ok it => [it] | Err _ => [] end) (w_done w)) (c_workers y).
End Spec.
