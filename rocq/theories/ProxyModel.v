(** * ProxyModel: emote/memory/memory.py, the sequence builder. *)
From Verif Require Import Py MemModel.
Open Scope string_scope.
Open Scope list_scope.
Open Scope Z_scope.

(** emote/typing.py:44-58 *)
Inductive estate : Type := RUNNING | INTERRUPTED | TERMINAL | INITIAL.

(** emote/memory/memory.py:121 *)
Definition is_initial (s : estate) : bool := match s with INITIAL => true | _ => false end.
(** emote/memory/memory.py:88 [_term_states] *)
Definition is_final (s : estate) : bool :=
  match s with TERMINAL | INTERRUPTED => true | _ => false end.

Section Proxy.
Context {S : Type} `{Scalar S}.

(** emote/typing.py:71-82.  Values are rows of scalars, as in MemModel; the
    metadata is only used by LoggingProxyWrapper. *)
Record obs : Type := mkObs
  { o_rewards : dict string (list S); o_state : estate; o_data : dict string (list S) }.
(** emote/typing.py:79-82 *)
Record resp : Type := mkResp
  { r_list : dict string (list S); r_scalar : dict string (list S) }.

(** emote/memory/memory.py:40-58 Episode: a defaultdict(list). *)
Definition episode : Type := dict string (list (list S)).
(** emote/memory/memory.py:46-48 *)
Definition ep_append (e : episode) (data : dict string (list S)) : episode :=
  fold_left (fun e kv => dset e (fst kv) (dget_default e (fst kv) [] ++ [snd kv])) data e.

(** emote/memory/memory.py:71-90: the configuration of the proxy. *)
Record pconf : Type := mkPc { pc_min : option Z; pc_terminal : bool }.

(** emote/memory/memory.py:79-90 *)
Record proxy : Type := mkPx
  { px_store : dict Z episode;      (* _store: episodes under construction *)
    px_done : list Z;               (* _completed_episodes, a set; only logged *)
    px_table : table S }.

(** [ep[key]] on a defaultdict inserts an empty list: emote/memory/memory.py:85 and, through
    [sequence[self._length_key]], emote/memory/table.py:241. *)
Definition touch (e : episode) (key : string) : episode :=
  if dmem e key then e else (e ++ [(key, [])])%list.

(** emote/memory/memory.py:81-85 *)
Definition long_enough (pc : pconf) (lenkey : string) (e : episode) : bool :=
  match pc_min pc with
  | None => true
  | Some n => n <=? zlen (dget_default e lenkey [])
  end.

(** The state of the loop in emote/memory/memory.py:118-167: _store, _completed_episodes and
    the local completed_episodes. *)
Definition loopst : Type := (dict Z episode * list Z * dict Z episode)%type.

(** emote/memory/memory.py:118-167, one iteration. *)
Definition collect_one (pc : pconf) (lenkey : string) (responses : dict Z resp)
    (st : loopst) (aid : Z) (o : obs) : loopst * res unit :=
  let '(store, seen, completed) := st in
  let data0 : dict string (list S) := o_data o in
  match (if is_initial (o_state o)
         then if dmem store aid then Err AssertionError else Ok data0
         else match dget (o_rewards o) "reward" with
              | None => Err KeyError
              | Some r => Ok (dset data0 "rewards" r)
              end) with
  | Err e => (st, Err e)
  | Ok data1 =>
      if is_final (o_state o) then
        let data2 :=
          if pc_terminal pc
          then dset data1 "terminal"
                 [match o_state o with INTERRUPTED => s_one | _ => s_zero end]
          else data1 in
        let seen' := if inb aid seen then seen else (seen ++ [aid])%list in
        match dget store aid with
        | None => ((store, seen', completed), Ok tt)
        | Some e =>
            let e' := ep_append e data2 in
            ((ddel store aid, seen',
              if long_enough pc lenkey e' then dset completed aid e' else completed), Ok tt)
        end
      else
        match dget responses aid with
        | None => (st, Err AssertionError)
        | Some r =>
            let data2 := dupdate (dupdate data1 (r_list r)) (r_scalar r) in
            ((dset store aid (ep_append (dget_default store aid []) data2), seen, completed), Ok tt)
        end
  end.

(** emote/memory/memory.py:118-167 *)
Fixpoint collect (pc : pconf) (lenkey : string) (responses : dict Z resp) (st : loopst)
    (observations : dict Z obs) : loopst * res unit :=
  match observations with
  | [] => (st, Ok tt)
  | (aid, o) :: r =>
      match collect_one pc lenkey responses st aid o with
      | (st', Err e) => (st', Err e)
      | (st', Ok _) => collect pc lenkey responses st' r
      end
  end.

(** emote/memory/memory.py:169-170; [draws] feeds the ejector, one list per sequence. *)
Fixpoint submit (t : table S) (eps : dict Z episode) (draws : list (list draw))
  : table S * res unit :=
  match eps with
  | [] => (t, Ok tt)
  | (aid, e) :: r =>
      match add_sequence t aid (touch e (t_lenkey t)) (hd [] draws) with
      | (t', Err x) => (t', Err x)
      | (t', Ok _) => submit t' r (tl draws)
      end
  end.

(** emote/memory/memory.py:113-170 *)
Definition proxy_add (pc : pconf) (p : proxy) (observations : dict Z obs)
    (responses : dict Z resp) (draws : list (list draw)) : proxy * res unit :=
  match collect pc (t_lenkey (px_table p)) responses (px_store p, px_done p, []) observations with
  | ((store, seen, _), Err e) => (mkPx store seen (px_table p), Err e)
  | ((store, seen, completed), Ok _) =>
      let '(t', x) := submit (px_table p) completed draws in
      (mkPx store seen t', x)
  end.

(** Histories: calls of the proxy interleaved with direct uses of the table
    (sampling by a loader, resizing through the proxy, emote/memory/memory.py:96-103). *)
Inductive pop : Type :=
| PAdd (observations : dict Z obs) (responses : dict Z resp) (draws : list (list draw))
| PUse (o : op S).

(** one call of emote/memory/memory.py:96-103, 113-170 *)
Definition pstep (pc : pconf) (p : proxy) (o : pop) : proxy * res unit :=
  match o with
  | PAdd os rs dr => proxy_add pc p os rs dr
  | PUse o => (mkPx (px_store p) (px_done p) (step (px_table p) o), Ok tt)
  end.

(** Run a history; stop at the first exception of the proxy.  calls of emote/memory/memory.py:96-170 *)
Fixpoint prun (pc : pconf) (p : proxy) (h : list pop) : proxy * res unit :=
  match h with
  | [] => (p, Ok tt)
  | o :: r =>
      match pstep pc p o with
      | (p', Err e) => (p', Err e)
      | (p', Ok _) => prun pc p' r
      end
  end.

(** emote/memory/memory.py:79-80, 87 *)
Definition px_new (t : table S) : proxy := mkPx [] [] t.
End Proxy.
Arguments obs S : clear implicits.
Arguments resp S : clear implicits.
Arguments episode S : clear implicits.
Arguments proxy S : clear implicits.
Arguments pop S : clear implicits.
