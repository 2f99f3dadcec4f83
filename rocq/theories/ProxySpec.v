(** * ProxySpec: what an agent experienced, independently of the proxy. *)
From Verif Require Import Py MemModel MemSpec ProxyModel.
Open Scope string_scope.
Open Scope list_scope.
Open Scope Z_scope.

Section Spec.
Context {S : Type} `{Scalar S}.

(** One time step of one agent: what it observed, and what it answered. *)
Definition moment : Type := (obs S * option (resp S))%type.

(** Everything agent [a] experienced in a history, in order. *)
Definition stream (a : Z) (h : list (pop S)) : list moment :=
  flat_map (fun o => match o with
                     | PAdd os rs _ => match dget os a with
                                       | Some ob => [(ob, dget rs a)]
                                       | None => []
                                       end
                     | PUse _ => []
                     end) h.

(** The completed episodes of a stream: maximal runs of non-final moments that
    are followed by a final one ([cur] is the run so far). *)
Fixpoint episodes (cur : list moment) (st : list moment) : list (list moment) :=
  match st with
  | [] => []
  | m :: r =>
      if is_final (o_state (fst m))
      then match cur with
           | [] => episodes [] r
           | _ => (cur ++ [m])%list :: episodes [] r
           end
      else episodes (cur ++ [m])%list r
  end.

(** The episode still running at the end. *)
Fixpoint running (cur : list moment) (st : list moment) : list moment :=
  match st with
  | [] => cur
  | m :: r => if is_final (o_state (fst m)) then running [] r else running (cur ++ [m])%list r
  end.

(** What a moment contributes to column [k], if anything. *)
Definition reward_of (o : obs S) : option (list S) :=
  if is_initial (o_state o) then None else dget (o_rewards o) "reward".
Definition orelse {A} (a b : option A) : option A := match a with Some _ => a | None => b end.
Definition contribution (use_terminal : bool) (k : string) (m : moment) : option (list S) :=
  let base := orelse (if String.eqb k "rewards" then reward_of (fst m) else None)
                     (dget (o_data (fst m)) k) in
  if is_final (o_state (fst m)) then
    if use_terminal && String.eqb k "terminal"
    then Some [match o_state (fst m) with INTERRUPTED => s_one | _ => s_zero end]
    else base
  else match snd m with
       | Some r => orelse (dget (r_scalar r) k) (orelse (dget (r_list r) k) base)
       | None => base
       end.

(** Column [k] of an episode: the contributions in order. *)
Definition column_of (use_terminal : bool) (k : string) (ms : list moment) : list (list S) :=
  flat_map (fun m => match contribution use_terminal k m with Some v => [v] | None => [] end) ms.

(** The sequence [s] is exactly the episode [ms]; the length column is present
    even when nothing was contributed to it. *)
Definition records (use_terminal : bool) (lenkey : string) (s : sequence S) (ms : list moment)
  : Prop :=
  NoDup (dkeys s) /\
  forall k, dget s k = match column_of use_terminal k ms with
                       | [] => if String.eqb k lenkey then Some [] else None
                       | l => Some l
                       end.

(** The configured minimum length. *)
Definition kept (pc : pconf) (lenkey : string) (ms : list moment) : bool :=
  match pc_min pc with
  | None => true
  | Some n => n <=? zlen (column_of (pc_terminal pc) lenkey ms)
  end.

(** A batch is a Python dict: its keys are distinct. *)
Definition batches_ok (h : list (pop S)) : Prop :=
  Forall (fun o => match o with
                   | PAdd os rs _ => NoDup (dkeys os) /\ Forall (fun x => NoDup (dkeys (o_data (snd x)))) os
                       /\ Forall (fun x => NoDup (dkeys (r_list (snd x))) /\ NoDup (dkeys (r_scalar (snd x)))) rs
                   | PUse (OAdd _ _ _) => False
                   | PUse _ => True
                   end) h.

(** The sequences of agent [a] among some additions. *)
Definition added_by (a : Z) (l : list (Z * sequence S * list draw)) : list (sequence S) :=
  map (fun x => snd (fst x)) (filter (fun x => fst (fst x) =? a) l).

(** The operations on the table: the additions [l] in order, with the direct
    uses of the table interleaved. *)
Fixpoint additions (ops : list (op S)) : list (Z * sequence S * list draw) :=
  match ops with
  | [] => []
  | OAdd id s dr :: r => (id, s, dr) :: additions r
  | _ :: r => additions r
  end.

(** ** Well-formed episodes *)

(** What the observations and the responses are called.  Different names are
    used for different things. *)
Record schema : Type := mkSchema { sc_obs : list string; sc_resp : list string }.
Definition names (use_terminal : bool) (sch : schema) : list string :=
  sc_obs sch ++ sc_resp sch ++ ["rewards"] ++ (if use_terminal then ["terminal"] else []).
Definition schema_ok (use_terminal : bool) (sch : schema) : Prop :=
  NoDup (names use_terminal sch).

(** What agent saw, answered and received at a moment. *)
Definition saw (m : moment) (k : string) : option (list S) := dget (o_data (fst m)) k.
Definition answered (m : moment) (k : string) : option (list S) :=
  match snd m with
  | Some r => orelse (dget (r_scalar r) k) (dget (r_list r) k)
  | None => None
  end.
Definition received (m : moment) : option (list S) := dget (o_rewards (fst m)) "reward".

(** INITIAL, then RUNNING, then one final observation. *)
Definition proper (ms : list moment) : Prop :=
  exists first middle last, ms = first :: middle ++ [last] /\
    o_state (fst first) = INITIAL /\ Forall (fun m => o_state (fst m) = RUNNING) middle /\
    is_final (o_state (fst last)) = true.

(** Every observation has exactly the observation names, every answer exactly the
    response names, and every observation but the first carries a reward. *)
Definition conforms (sch : schema) (m : moment) : Prop :=
  (forall k, saw m k <> None <-> In k (sc_obs sch)) /\
  (is_final (o_state (fst m)) = false -> forall k, answered m k <> None <-> In k (sc_resp sch)) /\
  (is_initial (o_state (fst m)) = false -> received m <> None).

(** Column [k] of [s] is [f] of the moments in [ms], one row for each. *)
Definition column_is (s : sequence S) (k : string) (ms : list moment)
    (f : moment -> option (list S)) : Prop :=
  exists rows, dget s k = Some rows /\ map Some rows = map f ms.

(** The columns of the stored form of an episode: an observation for every
    moment, a response for every moment but the last, a reward for every moment
    but the first (so reward i arrived together with observation i+1). *)
Definition aligned (use_terminal : bool) (sch : schema) (s : sequence S) (ms : list moment) : Prop :=
  (forall k, In k (sc_obs sch) -> column_is s k ms (fun m => saw m k)) /\
  (forall k, In k (sc_resp sch) -> column_is s k (removelast ms) (fun m => answered m k)) /\
  column_is s "rewards" (tl ms) received /\
  (use_terminal = true -> exists m, In m ms /\ is_final (o_state (fst m)) = true /\
     dget s "terminal" = Some [[match o_state (fst m) with INTERRUPTED => s_one | _ => s_zero end]]) /\
  (forall k, dget s k <> None -> In k (names use_terminal sch)).

(** ** Sampling what agents experienced *)

(** A memory laid out for a schema: one data column for each name; the length is
    counted in responses or rewards; next-observation columns look at
    observations, done and mask columns at responses or rewards. *)
Definition layout (cols : list (column S)) (lenkey : string) (use_terminal : bool) (sch : schema)
  : Prop :=
  (forall n, In n (map c_name (storage_cols cols)) <->
             In n (names use_terminal sch)) /\
  In lenkey (sc_resp sch ++ ["rewards"]) /\
  (forall c, In c cols ->
     match c_kind c with
     | KBase => In (c_name c) (sc_obs sch ++ sc_resp sch ++ ["rewards"])
     | KTag => True
     | KVirt tg MNext | KVirt tg MNextLast => In tg (sc_obs sch)
     | KVirt tg MDones | KVirt tg MMask => In tg (sc_resp sch ++ ["rewards"])
     | KVirt _ (MNextN _) => False
     end).

(** The values have the sizes the columns expect. *)
Definition sized (cols : list (column S)) (m : moment) : Prop :=
  forall c, In c (storage_cols cols) ->
    (forall v, saw m (c_name c) = Some v -> List.length v = c_rowsize c) /\
    (forall v, answered m (c_name c) = Some v -> List.length v = c_rowsize c) /\
    (forall v, c_name c = "rewards" -> received m = Some v -> List.length v = c_rowsize c) /\
    (c_name c = "terminal" -> c_rowsize c = 1%nat).

(** The agents of a history behave as the memory expects: identities are not
    negative, each is used for one stored episode, and the stored episodes are
    proper, conform to the schema, and have at least [L] transitions. *)
Definition agents_ok (pc : pconf) (cols : list (column S)) (lenkey : string) (sch : schema)
    (L : nat) (h : list (pop S)) : Prop :=
  Forall (fun o => match o with
                   | PAdd os _ _ => Forall (fun a => 0 <= a) (dkeys os)
                   | PUse o => o <> OClear
                   end) h /\
  forall a, let stored := filter (kept pc lenkey) (episodes [] (stream a h)) in
    (List.length stored <= 1)%nat /\
    forall ms, In ms stored ->
      proper ms /\ Forall (conforms sch) ms /\ Forall (sized cols) ms /\
      Z.of_nat L <= zlen ms - 1 <= 2 ^ 53.

(** Row [r] of column [name] of a batch. *)
Definition batch_row (out : dict string (array S)) (name : string) (r : nat) : option (list S) :=
  match dget out name with Some rows => nth_error rows r | None => None end.
Definition cast_by (c : column S) (v : option (list S)) : option (list S) :=
  option_map (map (c_cast c)) v.

(** Row [r] of the batch is the transition from moment [m] to moment [m']. *)
Definition is_transition (cols : list (column S)) (sch : schema) (out : dict string (array S))
    (r : nat) (m m' : moment) : Prop :=
  forall c, In c cols ->
    (is_base c -> In (c_name c) (sc_obs sch) ->
       saw m (c_name c) <> None /\ batch_row out (c_name c) r = cast_by c (saw m (c_name c))) /\
    (is_base c -> In (c_name c) (sc_resp sch) ->
       answered m (c_name c) <> None /\
       batch_row out (c_name c) r = cast_by c (answered m (c_name c))) /\
    (is_base c -> c_name c = "rewards" ->
       received m' <> None /\ batch_row out (c_name c) r = cast_by c (received m')) /\
    (forall d, In d cols -> c_kind c = KVirt (c_name d) MNext ->
       saw m' (c_name d) <> None /\ batch_row out (c_name c) r = cast_by d (saw m' (c_name d))) /\
    (forall tg, c_kind c = KVirt tg MDones ->
       batch_row out (c_name c) r = Some [if is_final (o_state (fst m')) then s_one else s_zero]) /\
    (forall tg, c_kind c = KVirt tg MMask ->
       batch_row out (c_name c) r = Some [if is_final (o_state (fst m')) then s_zero else s_one]).

(** Rows [j * L] to [j * L + L - 1] of the batch are [L] consecutive transitions
    of the episode [ms], from moment [i] on; a column that looks behind the window
    has in row [j] what was seen after the last of them; the terminal tag in row
    [j] (unless that is the name of something else) says whether the episode ended by
    interruption. *)
Definition is_window (cols : list (column S)) (sch : schema) (out : dict string (array S))
    (L j : nat) (ms : list moment) (i : nat) : Prop :=
  (i + L < List.length ms)%nat /\
  (forall k m m', (k < L)%nat -> nth_error ms (i + k) = Some m -> nth_error ms (i + k + 1) = Some m' ->
     is_transition cols sch out (j * L + k) m m') /\
  (forall c d m, In c cols -> In d cols -> c_kind c = KVirt (c_name d) MNextLast ->
     nth_error ms (i + L) = Some m ->
     saw m (c_name d) <> None /\ batch_row out (c_name c) j = cast_by d (saw m (c_name d))) /\
  (forall c, In c cols -> c_kind c = KTag -> c_name c = "terminal" ->
     ~ In "terminal" (sc_obs sch ++ sc_resp sch) ->
     exists m, In m ms /\ is_final (o_state (fst m)) = true /\
       batch_row out (c_name c) j =
       cast_by c (Some [match o_state (fst m) with INTERRUPTED => s_one | _ => s_zero end])).
(** The number of rows of a column in a batch of [count] windows of [L]. *)
Definition batch_sized (cols : list (column S)) (out : dict string (array S)) (count L : nat) : Prop :=
  forall c, In c cols -> exists rows, dget out (c_name c) = Some rows /\
    List.length rows = match c_kind c with
                       | KTag | KVirt _ MNextLast => count
                       | _ => (count * L)%nat
                       end.

(** An addition as an operation, and the operations that are not additions. *)
Definition as_op (x : Z * sequence S * list draw) : op S := OAdd (fst (fst x)) (snd (fst x)) (snd x).
Definition is_add (o : op S) : bool := match o with OAdd _ _ _ => true | _ => false end.
Definition uses (h : list (pop S)) : list (op S) :=
  flat_map (fun o => match o with PUse o => [o] | _ => [] end) h.

(** ** The protocol *)

(** A batch that respects the protocol. *)
Definition batch_fits (p : proxy S) (os : dict Z (obs S)) (rs : dict Z (resp S)) : Prop :=
  Forall (fun x => let '(a, o) := x in
    match o_state o with
    | INITIAL => dget (px_store p) a = None /\ dget rs a <> None
    | RUNNING => dget (o_rewards o) "reward" <> None /\ dget rs a <> None
    | _ => dget (o_rewards o) "reward" <> None
    end) os.

(** An episode under construction with rows appended. *)
Definition extends (e e' : episode S) : Prop :=
  forall k, exists l, dget_default e' k [] = dget_default e k [] ++ l.
End Spec.
