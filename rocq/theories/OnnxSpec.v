(** * OnnxSpec: what a user expects of the ONNX exporter *)
From Verif Require Import Py CkptModel LogModel LockModel CrudModel CrudSpec OnnxModel.
From Coq Require Import Sorted.
Open Scope string_scope.
Open Scope list_scope.
Open Scope Z_scope.

Section Spec.
Context {T : Type}.

(** The request the main thread is working on. *)
Definition in_hand (y : osys T) : list request := match m_place (o_main y) with MGot _ r => [r] | _ => [] end.
(** What has been queued is, in this order: what has been processed, what is being
    processed, what still waits; and no request was queued twice. *)
Definition served_in_order (y : osys T) : Prop :=
  o_puts y = map (@sv_req T) (o_served y) ++ in_hand y ++ o_queue y /\ NoDup (map rq_id (o_puts y)).

(** The exported files, in the order of the exports. *)
Definition exported (y : osys T) : list (request * item T * option (node model_file)) :=
  flat_map (fun s => match sv_result s with Ok it => [(sv_req s, it, sv_file s)] | Err _ => [] end) (o_served y).
Definition versions (y : osys T) : list Z :=
  flat_map (fun e => match snd e with Some (File m) => [mf_version m] | _ => [] end) (exported y).
(** Every export that worked left a file with the metadata of its request, and the
    versions and handles go up. *)
Definition good_files (y : osys T) : Prop :=
  (forall r it f, In (r, it, f) (exported y) -> exists v, f = Some (File (mkFile v (rq_meta r))) /\ 0 <= v)
  /\ StronglySorted Z.lt (versions y)
  /\ StronglySorted Z.lt (map (fun e => it_handle (snd (fst e))) (exported y)).

(** The value last added for a key. *)
Fixpoint last_added (k : string) (adds : list (string * string)) (acc : option string) : option string :=
  match adds with [] => acc | (k', v) :: r => last_added k r (if String.eqb k k' then Some v else acc) end.
(** The metadata of a request: what the call gave, and for other keys what had last
    been added to the exporter. *)
Definition good_metadata (y : osys T) : Prop :=
  forall r, In r (o_puts y) -> (rq_when r <= List.length (o_adds y))%nat /\
    forall k, dget (rq_meta r) k = match dget (rq_args r) k with
                                   | Some v => Some v
                                   | None => last_added k (firstn (rq_when r) (o_adds y)) None
                                   end.

(** Arguments are dictionaries: no key twice. *)
Definition main_args_ok (j : main_job) : Prop := match j with MExport a => NoDup (dkeys a) | _ => True end.
Definition req_args_ok (j : req_job) : Prop := match j with RExport a => NoDup (dkeys a) | _ => True end.

(** The export calls of a program. *)
Definition exports (p : list req_job) : list metadata := flat_map (fun j => match j with RExport a => [a] | _ => [] end) p.
(** The requests a thread has made; what its unfinished call was given. *)
Definition ids (t : req_thread T) : list nat := map fst (r_done t) ++ match r_place t with RWait id => [id] | _ => [] end.
Definition starting (t : req_thread T) : list metadata := match r_place t with RPut _ a _ => [a] | _ => [] end.
Definition args_of (y : osys T) (id : nat) : option metadata :=
  option_map rq_args (find (fun r => Nat.eqb (rq_id r) id) (o_puts y)).
(** What a thread got back: the result of the export of its own request, the
    requests being those of its own calls, in order. *)
Definition own_results (program : list req_job) (y : osys T) (t : req_thread T) : Prop :=
  (forall id it, In (id, it) (r_done t) -> exists s, In s (o_served y) /\ rq_id (sv_req s) = id /\ sv_result s = Ok it)
  /\ map Some (exports program) = map (args_of y) (ids t) ++ map Some (starting t ++ exports (r_todo t)).
Definition own_main_results (y : osys T) : Prop :=
  forall args it, In (MExport args, Ok (Some it)) (m_done (o_main y)) ->
    exists s, In s (o_served y) /\ rq_args (sv_req s) = args /\ sv_result s = Ok it.
End Spec.
