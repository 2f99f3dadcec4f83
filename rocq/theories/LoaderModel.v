(** * LoaderModel: emote/memory/memory.py, the wrappers of the memory proxy, the
    memory loaders and the warm-up callback. *)
From Verif Require Import Py MemModel ProxyModel.
Open Scope string_scope.
Open Scope list_scope.
Open Scope Z_scope.

(** ** LoggingProxyWrapper (emote/memory/memory.py:238-402) *)
Section Logging.
Context {S : Type} {I : Type}.
(** The wrapped proxy: any object with an [add] method. *)
Context (inner_add : I -> dict Z (obs S) -> dict Z (resp S) -> I * res unit).

(** emote/memory/memory.py:239-257.  The clock, the writer and the metrics are not modelled;
    [lw_cycles] records the value of inf_step at each call of [_end_cycle]. *)
Record logw : Type := mkLogw
  { lw_infs : Z; lw_eps : Z; lw_counter : Z; lw_interval : Z; lw_start : Z;
    lw_cycles : list Z; lw_inner : I }.

(** emote/memory/memory.py:239-257 *)
Definition logw_new (interval : Z) (i : I) : logw := mkLogw 0 0 0 interval 0 [] i.

(** emote/memory/memory.py:279-299.  The metadata reports are not modelled. *)
Definition logw_add (w : logw) (observations : dict Z (obs S)) (responses : dict Z (resp S))
  : logw * res unit :=
  let counter := lw_counter w + 1 in
  let infs := lw_infs w + zlen observations in
  let eps := lw_eps w + (zlen observations - zlen responses) in
  if lw_interval w =? 0
  then (mkLogw infs eps counter (lw_interval w) (lw_start w) (lw_cycles w) (lw_inner w),
        Err ZeroDivisionError)
  else
    let cyc := counter mod lw_interval w =? 0 in
    let '(i, x) := inner_add (lw_inner w) observations responses in
    (mkLogw infs eps (if cyc then 0 else counter) (lw_interval w) (lw_start w)
       (if cyc then lw_cycles w ++ [infs] else lw_cycles w) i, x).

(** emote/memory/memory.py:259-277 *)
Record logw_state : Type := mkLogwState { ls_infs : option Z; ls_eps : option Z }.
(** emote/memory/memory.py:259-264 state_dict *)
Definition logw_save (w : logw) : logw_state := mkLogwState (Some (lw_infs w)) (Some (lw_eps w)).
(** emote/memory/memory.py:266-277 load_state_dict *)
Definition logw_load (w : logw) (s : logw_state) (load_hparams : bool) : logw :=
  if load_hparams then
    let infs := match ls_infs s with Some x => x | None => lw_infs w end in
    let eps := match ls_eps s with Some x => x | None => lw_eps w end in
    mkLogw infs eps (lw_counter w) (lw_interval w) infs (lw_cycles w) (lw_inner w)
  else w.

(** A history: calls of add, and restarts in which a new wrapper (around some
    proxy) loads the state of the old one.  calls of emote/memory/memory.py:259-299 *)
Inductive lop : Type :=
| LAdd (observations : dict Z (obs S)) (responses : dict Z (resp S))
| LRestart (interval : Z) (i : I).
(** one call of emote/memory/memory.py:259-299 *)
Definition lstep (w : logw) (o : lop) : logw :=
  match o with
  | LAdd os rs => fst (logw_add w os rs)
  | LRestart n i => logw_load (logw_new n i) (logw_save w) true
  end.
(** a history of calls of emote/memory/memory.py:259-299 *)
Definition lrun (w : logw) (h : list lop) : logw := fold_left lstep h w.
End Logging.
Arguments logw I : clear implicits.
Arguments lop S I : clear implicits.

(** ** MemoryExporterProxyWrapper (emote/memory/memory.py:405-469) *)

(** emote/memory/memory.py:408-436; the clock gives integers (for instance nanoseconds). *)
Record expw : Type := mkExpw
  { xw_step : Z; xw_per : Z; xw_min : Z; xw_next : Z; xw_next_time : Z }.
(** emote/memory/memory.py:408-436 *)
Definition expw_new (per min_time now : Z) : expw := mkExpw 0 per min_time per (now + min_time).

(** One call of [add]: how the wrapped proxy's add ends, what the clock says,
    and how the wrapped proxy's store would end.  emote/memory/memory.py:438-469 *)
Record ecall : Type := mkEcall { ec_inner : res unit; ec_now : Z; ec_store : res unit }.

(** emote/memory/memory.py:438-469; the boolean says whether [store] was called. *)
Definition expw_add (w : expw) (c : ecall) : expw * bool * res unit :=
  match ec_inner c with
  | Err e => (w, false, Err e)
  | Ok _ =>
      let enough_data := xw_next w <? xw_step w in
      let enough_time := xw_next_time w <? ec_now c in
      let step := xw_step w + 1 in
      if enough_data && enough_time
      then (mkExpw step (xw_per w) (xw_min w) (step + xw_per w) (ec_now c + xw_min w),
            true, ec_store c)
      else (mkExpw step (xw_per w) (xw_min w) (xw_next w) (xw_next_time w), false, Ok tt)
  end.

(** The calls at which [store] was called.  calls of emote/memory/memory.py:438-469 *)
Fixpoint exports (w : expw) (cs : list ecall) : list bool :=
  match cs with
  | [] => []
  | c :: r => let '(w', b, _) := expw_add w c in b :: exports w' r
  end.

(** ** Loaders (emote/memory/memory.py:472-557) *)
Section Loaders.
Context {S : Type} `{Scalar S}.

(** What a batch holds: rows under the column names, and the batch size.  emote/memory/memory.py:499-504 *)
Inductive cell : Type := CRows (a : array S) | CSize (n : Z).
(** What a loader yields: data or a number under each key.  emote/memory/memory.py:504, 533-542, 557 *)
Inductive entry : Type := EData (d : dict string cell) | ENum (n : Z) | EGroups (d : dict string entry).
(** emote/memory/memory.py:504, 542, 557 *)
Definition batch : Type := dict string entry.

(** emote/memory/memory.py:473-486; the table is passed separately, as it is shared. *)
Record loader : Type := mkLoader
  { ld_count : nat; ld_length : nat; ld_size_key : string; ld_group : string }.

(** emote/memory/memory.py:488-490 *)
Definition is_ready (l : loader) (t : table S) : bool :=
  Z.of_nat (ld_count l) * Z.of_nat (ld_length l) <=? t_size t.

(** emote/memory/memory.py:499-504, one turn of the loop. *)
Definition load_one (l : loader) (t : table S) (draws : list draw) : table S * res batch :=
  match t_sample t (ld_count l) (ld_length l) draws with
  | (t', Err e) => (t', Err e)
  | (t', Ok rows) =>
      let n := Z.of_nat (ld_count l) * Z.of_nat (ld_length l) in
      let data := dset (map (fun kv => (fst kv, CRows (snd kv))) rows) (ld_size_key l) (CSize n) in
      (t', Ok (dset (dset [] (ld_group l) (EData data)) (ld_size_key l) (ENum n)))
  end.

(** The generator object made by [iter]: a generator that raised is finished.  emote/memory/memory.py:492-504, 526-542 *)
Inductive gen : Type := GNew | GRunning | GDone.

(** emote/memory/memory.py:492-504 *)
Definition loader_next (l : loader) (g : gen) (t : table S) (draws : list draw)
  : gen * table S * res batch :=
  match g with
  | GDone => (GDone, t, Err StopIteration)
  | GNew =>
      if is_ready l t
      then match load_one l t draws with
           | (t', Ok b) => (GRunning, t', Ok b)
           | (t', Err e) => (GDone, t', Err e)
           end
      else (GDone, t, Err OtherError)
  | GRunning =>
      match load_one l t draws with
      | (t', Ok b) => (GRunning, t', Ok b)
      | (t', Err e) => (GDone, t', Err e)
      end
  end.

(** Iterating while others use the table: before each batch, [ops] happens.  emote/memory/memory.py:492-504 *)
Fixpoint iterate (l : loader) (g : gen) (t : table S) (rounds : list (list (op S) * list draw))
  : list (res batch) :=
  match rounds with
  | [] => []
  | (ops, draws) :: r =>
      let '(g', t', b) := loader_next l g (run t ops) draws in
      b :: iterate l g' t' r
  end.

(** emote/memory/memory.py:511-521.  [Counter] over the data groups. *)
Definition joint_ok (ls : list loader) : res unit :=
  if forallb (fun l => (count_occ string_dec (map ld_group ls) (ld_group l) <=? 1)%nat) ls
  then Ok tt else Err ValueError.

(** emote/memory/memory.py:523-524; the loaders come with their tables. *)
Definition joint_ready (ls : list (loader * table S)) : bool :=
  forallb (fun lt => is_ready (fst lt) (snd lt)) ls.

(** [out[key] += n]: numbers can be added, batches cannot.  emote/memory/memory.py:533-542 *)
Definition add_num (out : batch) (key : string) (v : entry) : res batch :=
  match dget out key, v with
  | Some (ENum a), ENum b => Ok (dset out key (ENum (a + b)))
  | None, _ => Err KeyError
  | _, _ => Err TypeError
  end.

(** emote/memory/memory.py:533-542, the body of the loop; a new generator for every loader. *)
Fixpoint joint_body (size_key : string) (ls : list (loader * table S)) (draws : list (list draw))
    (out : batch) : list (loader * table S) * res batch :=
  match ls with
  | [] => ([], Ok out)
  | (l, t) :: r =>
      let '(_, t', b) := loader_next l GNew t (hd [] draws) in
      match b with
      | Err e => ((l, t') :: r, Err e)
      | Ok data =>
          match dget data (ld_group l), dget data (ld_size_key l) with
          | Some g, Some n =>
              match add_num (dset out (ld_group l) g) size_key n with
              | Err e => ((l, t') :: r, Err e)
              | Ok out' =>
                  let '(r', x) := joint_body size_key r (tl draws) out' in ((l, t') :: r', x)
              end
          | _, _ => ((l, t') :: r, Err KeyError)
          end
      end
  end.

(** emote/memory/memory.py:526-542 *)
Definition joint_next (size_key : string) (ls : list (loader * table S)) (g : gen)
    (draws : list (list draw)) : gen * list (loader * table S) * res batch :=
  let go :=
    match joint_body size_key ls draws [(size_key, ENum 0)] with
    | (ls', Ok b) => (GRunning, ls', Ok b)
    | (ls', Err e) => (GDone, ls', Err e)
    end in
  match g with
  | GDone => (GDone, ls, Err StopIteration)
  | GNew => if joint_ready ls then go else (GDone, ls, Err OtherError)
  | GRunning => go
  end.

(** emote/memory/memory.py:545-557: the generator has one yield and no loop. *)
Definition group_next (size_key group : string) (ls : list (loader * table S)) (g : gen)
    (draws : list (list draw)) : gen * list (loader * table S) * res batch :=
  match g with
  | GNew =>
      match joint_next size_key ls GNew draws with
      | (_, ls', Ok data) =>
          match dget data size_key with
          | Some total =>
              (GRunning, ls', Ok (dset (dset [] group (EGroups (ddel data size_key))) size_key total))
          | None => (GDone, ls', Err KeyError)
          end
      | (_, ls', Err e) => (GDone, ls', Err e)
      end
  | _ => (GDone, ls, Err StopIteration)
  end.

(** Iterating a joint loader [n] times.  emote/memory/memory.py:526-557 *)
Fixpoint joint_iterate (next : list (loader * table S) -> gen -> list (list draw) ->
                               gen * list (loader * table S) * res batch)
    (ls : list (loader * table S)) (g : gen) (draws : list (list (list draw))) : list (res batch) :=
  match draws with
  | [] => []
  | d :: r => let '(g', ls', b) := next ls g d in b :: joint_iterate next ls' g' r
  end.
End Loaders.
Arguments batch S : clear implicits.
Arguments cell S : clear implicits.
Arguments entry S : clear implicits.

(** ** MemoryWarmup.begin_training (emote/memory/memory.py:560-592) *)

(** One turn of the polling loop: what is_ready() says, how
    process_pending_exports() ends, what the shutdown signal says.  emote/memory/memory.py:560-592 *)
Record poll : Type := mkPoll { po_ready : bool; po_export : res unit; po_shutdown : bool }.

(** Returns how the call ends ([Diverges] if it is still polling when the
    readings run out) and how often exports were processed.  emote/memory/memory.py:560-592 *)
Fixpoint warmup (has_exporter : bool) (ps : list poll) : res unit * nat :=
  match ps with
  | [] => (Err Diverges, 0%nat)
  | p :: r =>
      if po_ready p then (Ok tt, 0%nat)
      else
        match (if has_exporter then po_export p else Ok tt) with
        | Err e => (Err e, if has_exporter then 1%nat else 0%nat)
        | Ok _ =>
            let n := if has_exporter then 1%nat else 0%nat in
            if po_shutdown p then (Err Shutdown, n)
            else let '(x, k) := warmup has_exporter r in (x, (n + k)%nat)
        end
  end.
