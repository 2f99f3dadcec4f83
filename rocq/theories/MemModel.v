(** * MemModel: model of emote/memory (table, storages, strategies, columns).

    Scalars are abstract ([Scalar S]): the code never looks inside the data it
    stores, except that it generates 0/1 for dones and masks and compares a tag
    with 1.0.  A stored array is a list of rows, a row is the flat list of the
    scalars of one time step (numpy shape [(T, *shape)] with
    [c_rowsize = prod shape]). *)
From Verif Require Import Py.
Open Scope Z_scope.

Class Scalar (S : Type) : Type :=
  { s_zero : S; s_one : S;
    s_is_one : S -> bool;
    s_is_one_one : s_is_one s_one = true;
    s_is_one_zero : s_is_one s_zero = false }.

#[export] Instance Scalar_Z : Scalar Z.
Proof. refine {| s_zero := 0; s_one := 1; s_is_one := Z.eqb 1 |}; reflexivity. Defined.

(** Sample points: emote/memory/core_types.py SamplePoint = (identity, start, end). *)
Definition point : Type := (Z * Z * Z)%type.

(** One outcome of the random sources used for one sample point: the identity
    returned by np.random.choice and the integer [k] behind
    [random.random() = k / 2^53] (uniform and coverage samplers) or the
    integer returned by [random.randint] (FIFO sampler).  Used at emote/memory/uniform_strategy.py:63-70 and emote/memory/coverage_based_strategy.py:62-70. *)
Definition draw : Type := (Z * Z)%type.

(** ** random() * n, truncated *)

(** IEEE-754 binary64 rounding (to nearest, ties to even) of a non-negative
    integer to 53 significant bits.  Products [random() * n] are integers
    scaled by 2^-53, and scaling by a power of two is exact.  Used for the product at emote/memory/uniform_strategy.py:70 and emote/memory/coverage_based_strategy.py:70. *)
Definition fl53 (p : Z) : Z :=
  if p <? 2 ^ 53 then p
  else
    let s := Z.log2 p - 52 in
    let q := p / 2 ^ s in
    let r := p mod 2 ^ s in
    let h := 2 ^ (s - 1) in
    (if r <? h then q
     else if h <? r then q + 1
     else if Z.even q then q else q + 1) * 2 ^ s.

(** [int(random.random() * n)] with [random() = k / 2^53]; [int] truncates
    towards zero.  [n] is first converted to a double.  emote/memory/uniform_strategy.py:70, emote/memory/coverage_based_strategy.py:70. *)
Definition int_rand_mul (k n : Z) : Z :=
  Z.sgn n * (fl53 (k * fl53 (Z.abs n)) / 2 ^ 53).

(** ** FIFO strategies: emote/memory/fifo_strategy.py:12-132 *)

(** emote/memory/fifo_strategy.py:20-24, the attributes of FifoStrategyBase, with the flag of emote/memory/strategy.py:62-69. *)
Record fifo : Type := mkFifo
  { f_lens : dict Z Z;    (* _sequence_lengths *)
    f_ids  : list Z;      (* _identities, a deque, oldest first *)
    f_imp  : bool }.      (* _in_simple_import, emote/memory/strategy.py:14 *)

(** emote/memory/fifo_strategy.py:20-24 *)
Definition fifo_init : fifo := mkFifo [] [] false.

(** emote/memory/fifo_strategy.py:26-35 *)
Definition fifo_track (f : fifo) (id len : Z) : fifo * res unit :=
  if f_imp f then (f, Ok tt)
  else if dmem (f_lens f) id then (f, Err AssertionError)
  else (mkFifo (dset (f_lens f) id len) (f_ids f ++ [id]) (f_imp f), Ok tt).

(** [deque.remove]: drops the first occurrence.  Used at emote/memory/fifo_strategy.py:38. *)
Fixpoint remove1 (id : Z) (l : list Z) : list Z :=
  match l with
  | [] => []
  | x :: r => if id =? x then r else x :: remove1 id r
  end.

(** emote/memory/fifo_strategy.py:37-39 *)
Definition fifo_forget (f : fifo) (id : Z) : fifo * res unit :=
  if inb id (f_ids f) then
    let f1 := mkFifo (f_lens f) (remove1 id (f_ids f)) (f_imp f) in
    if dmem (f_lens f) id
    then (mkFifo (ddel (f_lens f) id) (f_ids f1) (f_imp f), Ok tt)
    else (f1, Err KeyError)
  else (f, Err ValueError).

(** emote/memory/fifo_strategy.py:41-49; the loop over a copy of the ids. *)
Fixpoint fifo_post_import_loop (f : fifo) (ids : list Z) : fifo * res unit :=
  match ids with
  | [] => (f, Ok tt)
  | id :: r =>
      match dget (f_lens f) id with
      | None => (f, Err KeyError)
      | Some len =>
          match fifo_forget f id with
          | (f1, Err e) => (f1, Err e)
          | (f1, Ok _) =>
              if 0 <=? id then
                match fifo_track f1 (- Z.abs id - 1) len with
                | (f2, Err e) => (f2, Err e)
                | (f2, Ok _) => fifo_post_import_loop f2 r
                end
              else fifo_post_import_loop f1 r
          end
      end
  end.
(** emote/memory/fifo_strategy.py:41-49 post_import *)
Definition fifo_post_import (f : fifo) : fifo * res unit :=
  fifo_post_import_loop f (f_ids f).

(** emote/memory/fifo_strategy.py:51-61 *)
Definition fifo_state (f : fifo) : list Z * list (Z * Z) := (f_ids f, f_lens f).
(** emote/memory/fifo_strategy.py:58-61 load_state *)
Definition fifo_load_state (f : fifo) (st : list Z * list (Z * Z)) : fifo :=
  mkFifo (dupdate [] (snd st)) (fst st) (f_imp f).

(** [random.randint(0, hi)] with outcome [d]: emote/memory/fifo_strategy.py:87-89, 99-101 *)
Definition randint0 (hi d : Z) : res Z :=
  if hi <? 0 then Err ValueError
  else if (0 <=? d) && (d <=? hi) then Ok d else Err Diverges.

(** emote/memory/fifo_strategy.py:84-90, per_episode = True.  [i] is current_episode_offset;
    the recursion is over the random outcomes, one per requested point. *)
Fixpoint fifo_sample_per_episode (f : fifo) (tc i : Z) (count : nat) (draws : list draw)
  : res (list point) :=
  match count with
  | O => Ok []
  | S c =>
      let n := zlen (f_ids f) in
      if n =? 0 then Err ZeroDivisionError
      else
        rbind (pyindex (f_ids f) (i mod n)) (fun id =>
        match dget (f_lens f) id with
        | None => Err KeyError
        | Some len =>
            match draws with
            | [] => Err Diverges
            | (_, d) :: ds =>
                rbind (randint0 (len - tc) d) (fun off =>
                rbind (fifo_sample_per_episode f tc (i + 1) c ds) (fun ps =>
                Ok ((id, off, off + tc) :: ps)))
            end
        end)
  end.

(** emote/memory/fifo_strategy.py:92-110, per_episode = False.  [ep] is
    current_episode_offset, [cur] is current_offset. *)
Fixpoint fifo_sample_seq (f : fifo) (rand_off : bool) (tc ep cur : Z) (count : nat)
    (draws : list draw) : res (list point) :=
  match count with
  | O => Ok []
  | S c =>
      let n := zlen (f_ids f) in
      if n =? 0 then Err ZeroDivisionError
      else
        rbind (pyindex (f_ids f) (ep mod n)) (fun id =>
        match dget (f_lens f) id with
        | None => Err KeyError
        | Some len =>
            rbind (if rand_off
                   then match draws with
                        | [] => Err Diverges
                        | (_, d) :: _ => randint0 (len - tc) d
                        end
                   else Ok cur) (fun off =>
            let cur' := cur + tc in
            let '(ep2, cur2) := if len <? cur' + tc then (ep + 1, 0) else (ep, cur') in
            rbind (fifo_sample_seq f rand_off tc ep2 cur2 c (tl draws)) (fun ps =>
            Ok ((id, off, off + tc) :: ps)))
        end)
  end.

(** emote/memory/fifo_strategy.py:80-112 *)
Definition fifo_sample (f : fifo) (per_episode rand_off : bool) (count : nat) (tc : Z)
    (draws : list draw) : res (list point) :=
  if per_episode then fifo_sample_per_episode f tc 0 count draws
  else fifo_sample_seq f rand_off tc 0 0 count draws.

(** emote/memory/fifo_strategy.py:118-132.  The recursion walks [ids] instead of counting
    current_episode_offset upwards. *)
Fixpoint fifo_eject_loop (lens : dict Z Z) (ids : list Z) (count : Z) : res (list Z) :=
  if 0 <? count then
    match ids with
    | [] => Err IndexError
    | id :: r =>
        match dget lens id with
        | None => Err KeyError
        | Some len => rbind (fifo_eject_loop lens r (count - len)) (fun l => Ok (id :: l))
        end
    end
  else Ok [].
(** emote/memory/fifo_strategy.py:118-132 FifoEjectionStrategy.sample *)
Definition fifo_eject (f : fifo) (count : Z) : res (list Z) :=
  fifo_eject_loop (f_lens f) (f_ids f) count.

(** ** Weighted strategies: emote/memory/uniform_strategy.py:13-95 and
    emote/memory/coverage_based_strategy.py:13-92

    Both keep a dictionary of lengths and cached arrays [_ids], [_prios] that are
    recomputed by [_rebalance] when [_dirty].  The cached priorities are kept
    here as the integers they are computed from: [w_prios] are the lengths at
    the last rebalance, [w_pcounts] the visit counts at the last rebalance
    (coverage only).  The probability of cached id i is
      uniform : prios_i / sum prios
      coverage: (prios_i / sum prios) / (pcounts_i + 1)^alpha, renormalised,
    see [StratModel.v].  An id can be drawn iff its length is positive. *)

(** emote/memory/uniform_strategy.py:21-26 and emote/memory/coverage_based_strategy.py:21-28, the attributes of the uniform and the coverage based strategies. *)
Record weighted : Type := mkW
  { w_lens : dict Z Z;        (* _identities *)
    w_counts : dict Z Z;      (* _sample_count (coverage) *)
    w_ids : list Z;           (* _ids *)
    w_prios : list Z;         (* numerators of _prios *)
    w_pcounts : list Z;
    w_dirty : bool;
    w_imp : bool;
    w_cov : bool }.           (* true: coverage strategy, false: uniform *)

(** emote/memory/uniform_strategy.py:21-26, emote/memory/coverage_based_strategy.py:21-28 *)
Definition w_init (cov : bool) : weighted := mkW [] [] [] [] [] false false cov.

(** emote/memory/uniform_strategy.py:28-30, emote/memory/coverage_based_strategy.py:30-33 *)
Definition w_track (w : weighted) (id len : Z) : weighted :=
  mkW (dset (w_lens w) id len)
      (if w_cov w then dset (w_counts w) id (dget_default (w_counts w) id 0) else w_counts w)
      (w_ids w) (w_prios w) (w_pcounts w) true (w_imp w) (w_cov w).

(** emote/memory/uniform_strategy.py:32-34, emote/memory/coverage_based_strategy.py:35-38 *)
Definition w_forget (w : weighted) (id : Z) : weighted * res unit :=
  let w1 := mkW (w_lens w) (w_counts w) (w_ids w) (w_prios w) (w_pcounts w) true
                (w_imp w) (w_cov w) in
  if dmem (w_lens w) id then
    let w2 := mkW (ddel (w_lens w) id) (w_counts w) (w_ids w) (w_prios w) (w_pcounts w)
                  true (w_imp w) (w_cov w) in
    if w_cov w then
      if dmem (w_counts w) id
      then (mkW (w_lens w2) (ddel (w_counts w) id) (w_ids w) (w_prios w) (w_pcounts w)
                true (w_imp w) (w_cov w), Ok tt)
      else (w2, Err KeyError)
    else (w2, Ok tt)
  else (w1, Err KeyError).

(** Does a Python int fit np.int64?  Used for the identity arrays at emote/memory/uniform_strategy.py:39 and emote/memory/coverage_based_strategy.py:43. *)
Definition fits_int64 (z : Z) : bool := (- 2 ^ 63 <=? z) && (z <? 2 ^ 63).

(** emote/memory/uniform_strategy.py:36-39: _dirty and _prios are assigned before the
    conversion of the ids to int64 can overflow;
    emote/memory/coverage_based_strategy.py:40-51: _prios is assigned last. *)
Definition w_rebalance (w : weighted) : weighted * res unit :=
  let lens := dvals (w_lens w) in
  let ids := dkeys (w_lens w) in
  if forallb fits_int64 ids then
    (mkW (w_lens w) (w_counts w) ids lens
         (if w_cov w then map (fun id => dget_default (w_counts w) id 0) ids else [])
         false (w_imp w) (w_cov w), Ok tt)
  else
    (mkW (w_lens w) (w_counts w) (w_ids w)
         (if w_cov w then w_prios w else lens)
         (w_pcounts w) false (w_imp w) (w_cov w), Err OverflowError).

(** np.random.choice(ids, size=_, p=prios) can be evaluated: equal sizes, not
    empty, and the probabilities are numbers (a total of 0 gives NaN).  emote/memory/uniform_strategy.py:63 and 86, emote/memory/coverage_based_strategy.py:62 and 83. *)
Definition choice_ok (w : weighted) : bool :=
  Nat.eqb (List.length (w_ids w)) (List.length (w_prios w)) && (0 <? zsum (w_prios w)).

(** [id] is a possible outcome of that choice.  emote/memory/uniform_strategy.py:63 and 86, emote/memory/coverage_based_strategy.py:62 and 83. *)
Definition can_draw (w : weighted) (id : Z) : bool :=
  existsb (fun p => (fst p =? id) && (0 <? snd p)) (combine (w_ids w) (w_prios w)).

(** emote/memory/uniform_strategy.py:60-61, 80-82; emote/memory/coverage_based_strategy.py:59-60, 78-79 *)
Definition w_refresh (w : weighted) : weighted * res unit :=
  if w_dirty w then w_rebalance w else (w, Ok tt).

(** emote/memory/uniform_strategy.py:69-71, emote/memory/coverage_based_strategy.py:68-71 *)
Fixpoint w_sample_loop (w : weighted) (tc : Z) (draws : list draw)
  : weighted * res (list point) :=
  match draws with
  | [] => (w, Ok [])
  | (id, k) :: ds =>
      let bumped :=
        if w_cov w then
          match dget (w_counts w) id with
          | None => None
          | Some c => Some (mkW (w_lens w) (dset (w_counts w) id (c + 1)) (w_ids w)
                              (w_prios w) (w_pcounts w) (w_dirty w) (w_imp w) (w_cov w))
          end
        else Some w in
      match bumped with
      | None => (w, Err KeyError)
      | Some w1 =>
          match dget (w_lens w1) id with
          | None => (w1, Err KeyError)
          | Some len =>
              let off := int_rand_mul k (len - (tc - 1)) in
              match w_sample_loop w1 tc ds with
              | (w2, Err e) => (w2, Err e)
              | (w2, Ok ps) => (w2, Ok ((id, off, off + tc) :: ps))
              end
          end
      end
  end.

(** A legal vector of random outcomes: one per point, each id drawable, each
    [k] a numerator of random().  emote/memory/uniform_strategy.py:63-70, emote/memory/coverage_based_strategy.py:62-70. *)
Definition draws_ok (w : weighted) (count : nat) (draws : list draw) : bool :=
  Nat.eqb (List.length draws) count &&
  forallb (fun d => can_draw w (fst d) && (0 <=? snd d) && (snd d <? 2 ^ 53)) draws.

(** emote/memory/uniform_strategy.py:58-73, emote/memory/coverage_based_strategy.py:58-73 *)
Definition w_sample (w : weighted) (count : nat) (tc : Z) (draws : list draw)
  : weighted * res (list point) :=
  match w_refresh w with
  | (w1, Err e) => (w1, Err e)
  | (w1, Ok _) =>
      if Nat.eqb count 0 then (w1, Ok [])
      else if negb (choice_ok w1) then (w1, Err ValueError)
      else if draws_ok w1 count draws then w_sample_loop w1 tc draws
      else (w1, Err Diverges)
  end.

(** emote/memory/uniform_strategy.py:84-95, emote/memory/coverage_based_strategy.py:81-92.  [acc] is the set
    [identities] (in insertion order; the code returns it in set order, which
    makes no difference to what is removed).  Running out of outcomes while
    [count > 0] stands for an endless loop. *)
Fixpoint w_eject_loop (w : weighted) (count : Z) (acc : list Z) (draws : list draw)
  : res (list Z) :=
  if 0 <? count then
    match draws with
    | [] => Err Diverges
    | (id, _) :: ds =>
        if negb (can_draw w id) then Err Diverges
        else if inb id acc then w_eject_loop w count acc ds
        else match dget (w_lens w) id with
             | None => Err KeyError
             | Some len => w_eject_loop w (count - len) (acc ++ [id]) ds
             end
    end
  else Ok acc.

(** emote/memory/uniform_strategy.py:79-95, emote/memory/coverage_based_strategy.py:76-92 *)
Definition w_eject (w : weighted) (count : Z) (draws : list draw)
  : weighted * res (list Z) :=
  match w_refresh w with
  | (w1, Err e) => (w1, Err e)
  | (w1, Ok _) =>
      if (0 <? count) && negb (choice_ok w1) then (w1, Err ValueError)
      else (w1, w_eject_loop w1 count [] draws)
  end.

(** emote/memory/uniform_strategy.py:41-52.  CoverageBasedStrategy does not override
    Strategy.post_import (emote/memory/strategy.py:43-49), which does nothing. *)
Fixpoint w_post_import_loop (w : weighted) (items : list (Z * Z)) : weighted * res unit :=
  match items with
  | [] => (w, Ok tt)
  | (id, len) :: r =>
      match w_forget w id with
      | (w1, Err e) => (w1, Err e)
      | (w1, Ok _) =>
          w_post_import_loop (if 0 <=? id then w_track w1 (- Z.abs id - 1) len else w1) r
      end
  end.
(** emote/memory/uniform_strategy.py:41-52 post_import; for the coverage based strategies emote/memory/strategy.py:43-49, which does nothing. *)
Definition w_post_import (w : weighted) : weighted * res unit :=
  if w_cov w then (w, Ok tt)
  else match w_post_import_loop w (w_lens w) with
       | (w1, Err e) => (w1, Err e)
       | (w1, Ok _) => w_refresh w1
       end.

(** ** Strategies: emote/memory/strategy.py:9-96 *)

(** The sample strategies: emote/memory/fifo_strategy.py:67-112, emote/memory/uniform_strategy.py:58-73, emote/memory/coverage_based_strategy.py:54-73. *)
Inductive sampler : Type :=
| SFifo (f : fifo) (per_episode rand_off : bool)
| SWeighted (w : weighted).

(** The ejection strategies: emote/memory/fifo_strategy.py:118-132, emote/memory/uniform_strategy.py:79-95, emote/memory/coverage_based_strategy.py:76-92. *)
Inductive ejector : Type :=
| EFifo (f : fifo)
| EWeighted (w : weighted).

(** Lift an update of the contained object.  Stands for the method call on the object at emote/memory/table.py:261-278. *)
Definition s_lift_f (b1 b2 : bool) (r : fifo * res unit) : sampler * res unit :=
  (SFifo (fst r) b1 b2, snd r).
(** The same for a uniform or coverage based sampler (emote/memory/table.py:261-278). *)
Definition s_lift_w (r : weighted * res unit) : sampler * res unit :=
  (SWeighted (fst r), snd r).
(** The same for the FIFO ejector (emote/memory/table.py:262-278). *)
Definition e_lift_f (r : fifo * res unit) : ejector * res unit := (EFifo (fst r), snd r).
(** The same for a uniform or coverage based ejector (emote/memory/table.py:262-278). *)
Definition e_lift_w (r : weighted * res unit) : ejector * res unit :=
  (EWeighted (fst r), snd r).

(** The call at emote/memory/table.py:261: track of the class of the sampler (emote/memory/fifo_strategy.py:26-35, emote/memory/uniform_strategy.py:28-30, emote/memory/coverage_based_strategy.py:30-33). *)
Definition s_track (s : sampler) (id len : Z) : sampler * res unit :=
  match s with
  | SFifo f b1 b2 => s_lift_f b1 b2 (fifo_track f id len)
  | SWeighted w => (SWeighted (w_track w id len), Ok tt)
  end.
(** The call at emote/memory/table.py:262: track of the class of the ejector (emote/memory/fifo_strategy.py:26-35, emote/memory/uniform_strategy.py:28-30, emote/memory/coverage_based_strategy.py:30-33). *)
Definition e_track (s : ejector) (id len : Z) : ejector * res unit :=
  match s with
  | EFifo f => e_lift_f (fifo_track f id len)
  | EWeighted w => (EWeighted (w_track w id len), Ok tt)
  end.

(** The call at emote/memory/table.py:277: forget of the class of the sampler (emote/memory/fifo_strategy.py:37-39, emote/memory/uniform_strategy.py:32-34, emote/memory/coverage_based_strategy.py:35-38). *)
Definition s_forget (s : sampler) (id : Z) : sampler * res unit :=
  match s with
  | SFifo f b1 b2 => s_lift_f b1 b2 (fifo_forget f id)
  | SWeighted w => s_lift_w (w_forget w id)
  end.
(** The call at emote/memory/table.py:278: forget of the class of the ejector (emote/memory/fifo_strategy.py:37-39, emote/memory/uniform_strategy.py:32-34, emote/memory/coverage_based_strategy.py:35-38). *)
Definition e_forget (s : ejector) (id : Z) : ejector * res unit :=
  match s with
  | EFifo f => e_lift_f (fifo_forget f id)
  | EWeighted w => e_lift_w (w_forget w id)
  end.

(** The call at emote/memory/table.py:206: sample of the class of the sampler (emote/memory/fifo_strategy.py:80-112, emote/memory/uniform_strategy.py:59-73, emote/memory/coverage_based_strategy.py:58-73). *)
Definition s_sample (s : sampler) (count : nat) (tc : Z) (draws : list draw)
  : sampler * res (list point) :=
  match s with
  | SFifo f b1 b2 => (s, fifo_sample f b1 b2 count tc draws)
  | SWeighted w => let r := w_sample w count tc draws in (SWeighted (fst r), snd r)
  end.
(** The call at emote/memory/table.py:269: sample of the class of the ejector (emote/memory/fifo_strategy.py:119-132, emote/memory/uniform_strategy.py:80-95, emote/memory/coverage_based_strategy.py:77-92). *)
Definition e_sample (e : ejector) (count : Z) (draws : list draw) : ejector * res (list Z) :=
  match e with
  | EFifo f => (e, fifo_eject f count)
  | EWeighted w => let r := w_eject w count draws in (EWeighted (fst r), snd r)
  end.

(** emote/memory/strategy.py:51-56 [state] returns None unless overridden (FIFO). *)
Definition s_state (s : sampler) : option (list Z * list (Z * Z)) :=
  match s with SFifo f _ _ => Some (fifo_state f) | SWeighted _ => None end.
(** emote/memory/fifo_strategy.py:51-56 and emote/memory/strategy.py:51-53 state of the ejector *)
Definition e_state (e : ejector) : option (list Z * list (Z * Z)) :=
  match e with EFifo f => Some (fifo_state f) | EWeighted _ => None end.
(** emote/memory/fifo_strategy.py:58-61 and emote/memory/strategy.py:55-56 load_state of the sampler *)
Definition s_load_state (s : sampler) st : sampler :=
  match s with
  | SFifo f b1 b2 => SFifo (fifo_load_state f st) b1 b2
  | SWeighted _ => s
  end.
(** emote/memory/fifo_strategy.py:58-61 and emote/memory/strategy.py:55-56 load_state of the ejector *)
Definition e_load_state (e : ejector) st : ejector :=
  match e with EFifo f => EFifo (fifo_load_state f st) | EWeighted _ => e end.

(** emote/memory/strategy.py:62-69 begin/end_simple_import. *)
Definition f_set_imp (f : fifo) (b : bool) : fifo := mkFifo (f_lens f) (f_ids f) b.
(** emote/memory/strategy.py:62-69 begin_simple_import and end_simple_import *)
Definition w_set_imp (w : weighted) (b : bool) : weighted :=
  mkW (w_lens w) (w_counts w) (w_ids w) (w_prios w) (w_pcounts w) (w_dirty w) b (w_cov w).
(** emote/memory/strategy.py:62-69, as called at emote/memory/table.py:361 and 448 *)
Definition s_set_imp (s : sampler) (b : bool) : sampler :=
  match s with
  | SFifo f b1 b2 => SFifo (f_set_imp f b) b1 b2
  | SWeighted w => SWeighted (w_set_imp w b)
  end.
(** emote/memory/strategy.py:62-69, as called at emote/memory/table.py:360 and 449 *)
Definition e_set_imp (e : ejector) (b : bool) : ejector :=
  match e with
  | EFifo f => EFifo (f_set_imp f b)
  | EWeighted w => EWeighted (w_set_imp w b)
  end.

(** The call at emote/memory/table.py:530: post_import of the class of the sampler (emote/memory/fifo_strategy.py:41-49, emote/memory/uniform_strategy.py:41-52, emote/memory/strategy.py:43-49). *)
Definition s_post_import (s : sampler) : sampler * res unit :=
  match s with
  | SFifo f b1 b2 => s_lift_f b1 b2 (fifo_post_import f)
  | SWeighted w => s_lift_w (w_post_import w)
  end.
(** The call at emote/memory/table.py:531: post_import of the class of the ejector (emote/memory/fifo_strategy.py:41-49, emote/memory/uniform_strategy.py:41-52, emote/memory/strategy.py:43-49). *)
Definition e_post_import (e : ejector) : ejector * res unit :=
  match e with
  | EFifo f => e_lift_f (fifo_post_import f)
  | EWeighted w => e_lift_w (w_post_import w)
  end.

(** ** Columns and storages *)

(** The VirtualStorage subclasses of emote/memory/storage.py:144-308. *)
Inductive mapper : Type :=
| MNext            (* NextElementMapper, 144-202 *)
| MNextLast        (* NextElementMapper.with_only_last, 200-202 *)
| MNextN (n : Z)   (* NextNElementWrapper.with_n, 205-254 *)
| MDones           (* SyntheticDones, 257-304 *)
| MMask.           (* SyntheticDones.as_mask, 306-308 *)

Section Table.
Context {S : Type} `{Scalar S}.

(** One transition of one column, flattened to its scalars (emote/memory/table.py:255-257). *)
Definition row : Type := list S.
(** The array stored for one episode in one column (emote/memory/table.py:255-257). *)
Definition array : Type := list row.

(** emote/memory/column.py:11-69: Column, TagColumn, VirtualColumn. *)
Inductive colkind : Type :=
| KBase
| KTag
| KVirt (target : string) (m : mapper).

(** emote/memory/column.py:11-69, the columns as the table uses them (emote/memory/table.py:104). *)
Record column : Type := mkCol
  { c_name : string;
    c_rowsize : nat;        (* product of [shape] *)
    c_cast : S -> S;        (* conversion of one scalar to [dtype] *)
    c_kind : colkind }.

(** isinstance(column, VirtualColumn), emote/memory/table.py:136 and isinstance(store, VirtualStorage), emote/memory/table.py:320. *)
Definition is_virtual (c : column) : bool :=
  match c_kind c with KVirt _ _ => true | _ => false end.

(** A sequence handed to add_sequence: column name -> list of frames.  The argument of emote/memory/table.py:232-239. *)
Definition sequence : Type := dict string (list row).

(** Cut a flat list into rows of [n] > 0 scalars.  numpy's reshape(-1, *shape) at emote/memory/table.py:255-257. *)
Fixpoint chunk (fuel n : nat) (l : list S) : array :=
  match fuel with
  | O => []
  | Datatypes.S fl =>
      match l with [] => [] | _ :: _ => firstn n l :: chunk fl n (skipn n l) end
  end.

(** [np.array(value, dtype=...).reshape(-1, *shape)], emote/memory/table.py:255-257: frames
    must be homogeneous (numpy rejects ragged input with an explicit dtype),
    the elements are cast and the total must divide into rows. *)
Definition ingest (c : column) (frames : list row) : res array :=
  let flat := map (c_cast c) (concat frames) in
  if negb (forallb (fun f => Nat.eqb (List.length f) (List.length (hd [] frames))) frames)
  then Err ValueError
  else if Nat.eqb (c_rowsize c) 0 then Err ValueError
  else if negb (Nat.eqb (List.length flat mod c_rowsize c) 0) then Err ValueError
  else Ok (chunk (List.length flat) (c_rowsize c) flat).

(** ** The table: emote/memory/table.py:87-578 *)

(** emote/memory/table.py:100-107 and 128-133, the attributes of ArrayTable. Simplification: timers, device and lock are left out (the lock is modelled in ConcModel.v). *)
Record table : Type := mkT
  { t_cols : list column;                    (* _columns, in order *)
    t_lenkey : string;
    t_maxlen : Z;
    t_data : dict string (dict Z array);     (* _data of base and tag columns *)
    t_temp : dict string array;              (* _temp_storage of every column *)
    t_lengths : dict Z Z;
    t_total : Z;
    t_filled : bool;
    t_sampler : sampler;
    t_ejector : ejector }.

(** emote/memory/table.py:125-145: _clear resets data, lengths, total and filled.  The
    strategies are not touched. *)
Definition empty_data (cols : list column) : dict string (dict Z array) :=
  map (fun c => (c_name c, [])) (filter (fun c => negb (is_virtual c)) cols).

(** emote/memory/table.py:120-145 clear *)
Definition t_clear (t : table) : table :=
  mkT (t_cols t) (t_lenkey t) (t_maxlen t) (empty_data (t_cols t)) [] [] 0 false
      (t_sampler t) (t_ejector t).

(** emote/memory/table.py:88-109 *)
Definition t_create (cols : list column) (lenkey : string) (maxlen : Z) (s : sampler)
    (e : ejector) : table :=
  t_clear (mkT cols lenkey maxlen [] [] [] 0 false s e).

(** Assignment to _data (emote/memory/table.py:128, 255). *)
Definition with_data (t : table) d : table :=
  mkT (t_cols t) (t_lenkey t) (t_maxlen t) d (t_temp t) (t_lengths t) (t_total t)
      (t_filled t) (t_sampler t) (t_ejector t).
(** Assignment to the temporary buffers of a storage (emote/memory/storage.py:19-30). *)
Definition with_temp (t : table) d : table :=
  mkT (t_cols t) (t_lenkey t) (t_maxlen t) (t_data t) d (t_lengths t) (t_total t)
      (t_filled t) (t_sampler t) (t_ejector t).
(** Assignment to _lengths and _total_length (emote/memory/table.py:259-260, 275-276). *)
Definition with_lengths (t : table) l n : table :=
  mkT (t_cols t) (t_lenkey t) (t_maxlen t) (t_data t) (t_temp t) l n
      (t_filled t) (t_sampler t) (t_ejector t).
(** The sampler after a call (emote/memory/table.py:261, 277). *)
Definition with_sampler (t : table) s : table :=
  mkT (t_cols t) (t_lenkey t) (t_maxlen t) (t_data t) (t_temp t) (t_lengths t) (t_total t)
      (t_filled t) s (t_ejector t).
(** The ejector after a call (emote/memory/table.py:262, 278). *)
Definition with_ejector (t : table) e : table :=
  mkT (t_cols t) (t_lenkey t) (t_maxlen t) (t_data t) (t_temp t) (t_lengths t) (t_total t)
      (t_filled t) (t_sampler t) e.
(** Assignment to _filled (emote/memory/table.py:267). *)
Definition with_filled (t : table) b : table :=
  mkT (t_cols t) (t_lenkey t) (t_maxlen t) (t_data t) (t_temp t) (t_lengths t) (t_total t)
      b (t_sampler t) (t_ejector t).
(** Assignment to _maxlen (emote/memory/table.py:118). *)
Definition with_maxlen (t : table) n : table :=
  mkT (t_cols t) (t_lenkey t) n (t_data t) (t_temp t) (t_lengths t) (t_total t)
      (t_filled t) (t_sampler t) (t_ejector t).

(** emote/memory/table.py:213-219 *)
Definition t_size (t : table) : Z := t_total t.
(** emote/memory/table.py:221-230 *)
Definition t_full (t : table) : bool := t_filled t.

(** emote/memory/table.py:111-118 *)
Definition t_resize (t : table) (n : Z) : table * res unit :=
  if n <? t_maxlen t then (t, Err ValueError) else (with_maxlen t n, Ok tt).

(** Column lookup [self._columns[name]].  emote/memory/table.py:256. *)
Fixpoint find_col (cols : list column) (name : string) : option column :=
  match cols with
  | [] => None
  | c :: r => if String.eqb name (c_name c) then Some c else find_col r name
  end.

(** emote/memory/table.py:244-245 *)
Definition wrap_id (id : Z) : Z := if id <? 0 then id + 2 ^ 64 else id.

(** emote/memory/table.py:272-273: delete [id] from every storage; VirtualStorage.__delitem__
    (emote/memory/storage.py:126-127) does nothing. *)
Fixpoint del_all (data : dict string (dict Z array)) (id : Z)
  : dict string (dict Z array) * res unit :=
  match data with
  | [] => ([], Ok tt)
  | (name, store) :: r =>
      if dmem store id then
        let '(r', x) := del_all r id in ((name, ddel store id) :: r', x)
      else (data, Err KeyError)
  end.

(** emote/memory/table.py:271-278, one iteration. *)
Definition eject_one (t : table) (id : Z) : table * res unit :=
  match del_all (t_data t) id with
  | (d, Err e) => (with_data t d, Err e)
  | (d, Ok _) =>
      let t1 := with_data t d in
      match dget (t_lengths t1) id with
      | None => (t1, Err KeyError)
      | Some len =>
          let t2 := with_lengths t1 (ddel (t_lengths t1) id) (t_total t1 - len) in
          match s_forget (t_sampler t2) id with
          | (s, Err e) => (with_sampler t2 s, Err e)
          | (s, Ok _) =>
              let t3 := with_sampler t2 s in
              let '(ej, x) := e_forget (t_ejector t3) id in
              (with_ejector t3 ej, x)
          end
      end
  end.

(** emote/memory/table.py:271-278, the loop over the identities to eject. *)
Fixpoint eject_all (t : table) (ids : list Z) : table * res unit :=
  match ids with
  | [] => (t, Ok tt)
  | id :: r =>
      match eject_one t id with
      | (t1, Err e) => (t1, Err e)
      | (t1, Ok _) => eject_all t1 r
      end
  end.

(** emote/memory/table.py:264-278 *)
Definition eject_count (t : table) (count : Z) (draws : list draw) : table * res unit :=
  let t1 := with_filled t true in
  match e_sample (t_ejector t1) count draws with
  | (ej, Err e) => (with_ejector t1 ej, Err e)
  | (ej, Ok ids) => eject_all (with_ejector t1 ej) ids
  end.

(** emote/memory/table.py:254-257: write the columns of the sequence, in the order of the
    sequence's keys.  VirtualStorage.__setitem__ (emote/memory/storage.py:123-124) does
    nothing, but the conversion is still evaluated. *)
Fixpoint write_columns (cols : list column) (data : dict string (dict Z array)) (id : Z)
    (seq : sequence) : dict string (dict Z array) * res unit :=
  match seq with
  | [] => (data, Ok tt)
  | (name, frames) :: r =>
      match find_col cols name with
      | None => (data, Err KeyError)
      | Some c =>
          match ingest c frames with
          | Err e => (data, Err e)
          | Ok arr =>
              let data' :=
                if is_virtual c then data
                else match dget data name with
                     | None => data
                     | Some store => dset data name (dset store id arr)
                     end in
              write_columns cols data' id r
          end
      end
  end.

(** emote/memory/table.py:239-262 *)
Definition add_sequence (t : table) (identity : Z) (seq : sequence) (draws : list draw)
  : table * res unit :=
  match dget seq (t_lenkey t) with
  | None => (t, Err KeyError)
  | Some frames =>
      let len := zlen frames in
      let id := wrap_id identity in
      let after := t_size t + len in
      match (if t_maxlen t <? after then eject_count t (after - t_maxlen t) draws
             else (t, Ok tt)) with
      | (t1, Err e) => (t1, Err e)
      | (t1, Ok _) =>
          match write_columns (t_cols t1) (t_data t1) id seq with
          | (d, Err e) => (with_data t1 d, Err e)
          | (d, Ok _) =>
              let t2 := with_data t1 d in
              let t3 := with_lengths t2 (dset (t_lengths t2) id len) (t_total t2 + len) in
              match s_track (t_sampler t3) id len with
              | (s, Err e) => (with_sampler t3 s, Err e)
              | (s, Ok _) =>
                  let t4 := with_sampler t3 s in
                  let '(ej, x) := e_track (t_ejector t4) id len in
                  (with_ejector t4 ej, x)
              end
          end
      end
  end.

(** ** Sampling *)

(** emote/memory/storage.py: sequence_length_transform (32-33, 79-80, 129-130, 197-198). *)
Definition local_len (c : column) (n : nat) : nat :=
  match c_kind c with
  | KBase => n
  | KTag => 1
  | KVirt _ MNextLast => 1
  | KVirt _ _ => n
  end.

(** [np.arange(a, b)].  Used in emote/memory/storage.py:266-294. *)
Definition arange (a b : Z) : list Z :=
  map (fun i => a + Z.of_nat i) (seq 0 (Z.to_nat (b - a))).

(** emote/memory/storage.py:266-278: the done flags of a slice, one scalar per row (the
    builders give these columns shape (1,)). *)
Definition synth_dones (len a b : Z) : array :=
  map (fun i => [if i =? len - 1 then s_one else s_zero]) (arange a b).
(** emote/memory/storage.py:284-294 *)
Definition synth_masks (len a b : Z) : array :=
  map (fun i => [if i =? len - 1 then s_zero else s_one]) (arange a b).

(** [storage.store[identity][start:end]] of each storage class: emote/memory/storage.py
    BaseStorage (a dict), TagStorage.TagProxy 51-55, NextElementMapper 152-183,
    NextNElementWrapper 213-231, SyntheticDones 266-304.  Virtual columns are
    modelled over base target columns (that is how emote/memory/builder.py uses them). *)
Definition read_mapped (m : mapper) (arr : array) (a b : Z) : res array :=
  match m with
  | MNext => Ok (pyslice arr (a + 1) (b + 1))
  | MNextLast => Ok (pyslice arr b (b + 1))
  | MNextN n =>
      if (zlen arr <=? a + n) || (zlen arr <? b + n) then Err IndexError
      else Ok (pyslice arr (a + n) (b + n))
  | MDones => Ok (synth_dones (zlen arr) a b)
  | MMask => Ok (synth_masks (zlen arr) a b)
  end.

(** store[identity][start:end] at emote/memory/table.py:181, for the storages of emote/memory/storage.py. *)
Definition read_slice (t : table) (c : column) (id a b : Z) : res array :=
  match c_kind c with
  | KBase =>
      match dget (t_data t) (c_name c) with
      | None => Err KeyError
      | Some store =>
          match dget store id with
          | None => Err KeyError
          | Some arr => Ok (pyslice arr a b)
          end
      end
  | KTag =>
      match dget (t_data t) (c_name c) with
      | None => Err KeyError
      | Some store =>
          match dget store id with
          | None => Err KeyError
          | Some [] => Err IndexError
          | Some (r :: _) => Ok [r]
          end
      end
  | KVirt target m =>
      match dget (t_data t) target with
      | None => Err KeyError
      | Some store =>
          match dget store id with
          | None => Err KeyError
          | Some arr => read_mapped m arr a b
          end
      end
  end.

(** emote/memory/table.py:149-166: re-raised as ValueError, unless the identity is missing
    from some storage, in which case building the message raises KeyError. *)
Definition diagnostic (t : table) (id : Z) : exn :=
  if forallb (fun kv => dmem (snd kv) id) (t_data t) then ValueError else KeyError.

(** [buf[idx:idx+n] = rows]: numpy slice assignment.  The target slice is cut
    at the end of the buffer; a single row is broadcast.  Used at emote/memory/table.py:181. *)
Definition np_assign (buf : array) (idx n : nat) (rows : array) : res array :=
  let m := Nat.min n (List.length buf - idx) in
  let pre := firstn idx buf in
  let post := skipn (idx + m) buf in
  if Nat.eqb (List.length rows) m then Ok (pre ++ rows ++ post)
  else match rows with
       | [r] => Ok (pre ++ repeat r m ++ post)
       | _ => Err ValueError
       end.

(** emote/memory/table.py:179-190, inner loop. *)
Fixpoint gather_points (t : table) (c : column) (n idx : nat) (buf : array)
    (pts : list point) : res array :=
  match pts with
  | [] => Ok buf
  | (id, a, b) :: r =>
      match rbind (read_slice t c id a b) (np_assign buf idx n) with
      | Ok buf' => gather_points t c n (idx + n) buf' r
      | Err ValueError | Err KeyError => Err (diagnostic t id)
      | Err e => Err e
      end
  end.

(** emote/memory/storage.py:19-30, 66-77, 132-138 get_empty_storage: the buffer kept from the
    previous sample is reused when large enough; [np.empty] is modelled by rows
    [[]], which no storage ever contains. *)
Definition temp_for (t : table) (c : column) (total : nat) : array :=
  match dget (t_temp t) (c_name c) with
  | Some b => if Nat.ltb (List.length b) total then repeat [] total else b
  | None => repeat [] total
  end.

(** emote/memory/table.py:173-192, outer loop over the columns.  The output is a copy of the
    first [total] rows of the workspace (torch.tensor copies). *)
Fixpoint gather_cols (t : table) (count n : nat) (pts : list point) (cols : list column)
  : table * res (dict string array) :=
  match cols with
  | [] => (t, Ok [])
  | c :: r =>
      let ln := local_len c n in
      let total := (count * ln)%nat in
      let buf := temp_for t c total in
      match gather_points t c ln 0 (firstn total buf) pts with
      | Err e => (t, Err e)
      | Ok out =>
          let t1 := with_temp t (dset (t_temp t) (c_name c) (out ++ skipn total buf)) in
          match gather_cols t1 count n pts r with
          | (t2, Err e) => (t2, Err e)
          | (t2, Ok res) => (t2, Ok ((c_name c, out) :: res))
          end
      end
  end.

(** emote/memory/table.py:196-211 without the adaptors (see AdaptorModel.v).  A gather that
    raises leaves partial writes in the workspaces; they are not modelled, as the
    workspaces are always fully overwritten (proved). *)
Definition t_sample (t : table) (count n : nat) (draws : list draw)
  : table * res (dict string array) :=
  match s_sample (t_sampler t) count (Z.of_nat n) draws with
  | (s, Err e) => (with_sampler t s, Err e)
  | (s, Ok pts) => gather_cols (with_sampler t s) count n pts (t_cols t)
  end.

(** ** V1 serialisation: emote/memory/table.py:280-449 *)

(** np.save of the list of (identity, offset, length) tuples, emote/memory/table.py:344: numpy
    stores Python ints as int64 when they all fit; when one needs uint64 and
    another fits int64 the array is promoted to float64, whose elements can be
    used neither as slice bounds nor (in general) as the dictionary keys
    looked up by emote/memory/table.py:442-444. *)
Inductive npy_ranges : Type :=
| RInt (l : list (Z * Z * Z))
| RFloat.

(** np.save of the list of ranges, emote/memory/table.py:344. *)
Definition save_ranges (l : list (Z * Z * Z)) : npy_ranges :=
  if forallb (fun r => fits_int64 (fst (fst r))) l then RInt l else RFloat.

(** The archive written by emote/memory/table.py:280-349. *)
Record v1file : Type := mkV1
  { v_ids : list Z;
    v_ejector_state : option (list Z * list (Z * Z));
    v_sampler_state : option (list Z * list (Z * Z));
    v_lenkey : string;
    v_maxlen : Z;
    v_columns : list column;
    v_parts : list (string * (npy_ranges * array)) }.

(** emote/memory/table.py:323-331 *)
Fixpoint ranges_of (off : Z) (store : dict Z array) : list (Z * Z * Z) :=
  match store with
  | [] => []
  | (id, arr) :: r => (id, off, zlen arr) :: ranges_of (off + zlen arr) r
  end.

(** emote/memory/table.py:316-334; np.stack([]) raises ValueError. *)
Fixpoint parts_of (data : dict string (dict Z array))
  : res (list (string * (npy_ranges * array))) :=
  match data with
  | [] => Ok []
  | (name, store) :: r =>
      let merged := concat (dvals store) in
      match merged with
      | [] => Err ValueError
      | _ => rbind (parts_of r) (fun ps =>
             Ok ((name, (save_ranges (ranges_of 0 store), merged)) :: ps))
      end
  end.

(** emote/memory/table.py:280-349: the contents of the written zip file. *)
Definition serialize (t : table) : res v1file :=
  rbind (parts_of (t_data t)) (fun ps =>
  Ok (mkV1 (dkeys (t_lengths t)) (e_state (t_ejector t)) (s_state (t_sampler t))
           (t_lenkey t) (t_maxlen t) (t_cols t) ps)).

(** emote/memory/table.py:406-424 and emote/memory/column.py:33-44: shape and dtype of columns present in
    both are taken from the file. *)
Definition same_kind (a b : colkind) : bool :=
  match a, b with
  | KBase, KBase | KTag, KTag | KVirt _ _, KVirt _ _ => true
  | _, _ => false
  end.
(** emote/memory/table.py:406-424 and emote/memory/column.py:33-44, 60-69: load_state of one column *)
Definition col_load (file : list column) (c : column) : column :=
  match find_col file (c_name c) with
  | Some fc =>
      if same_kind (c_kind c) (c_kind fc)
      then mkCol (c_name c) (c_rowsize fc) (c_cast fc)
                 (match c_kind c, c_kind fc with
                  | KVirt _ m, KVirt tg _ => KVirt tg m
                  | k, _ => k
                  end)
      else c
  | None => c
  end.

(** emote/memory/table.py:439-444: reassemble one sequence. *)
Definition range_lookup (l : list (Z * Z * Z)) (id : Z) : option (Z * Z) :=
  dget (map (fun r => (fst (fst r), (snd (fst r), snd r))) l) id.

(** emote/memory/table.py:439-444, one identity *)
Fixpoint reassemble (parts : list (string * (npy_ranges * array))) (id : Z) : res sequence :=
  match parts with
  | [] => Ok []
  | (name, (rg, arr)) :: r =>
      match rg with
      | RFloat => Err KeyError
      | RInt l =>
          match range_lookup l id with
          | None => Err KeyError
          | Some (start, size) =>
              rbind (reassemble r id) (fun s =>
              Ok ((name, pyslice arr start (start + size)) :: s))
          end
      end
  end.

(** emote/memory/table.py:437-446.  [draws] feeds the ejector, one list per sequence. *)
Fixpoint add_all (t : table) (parts : list (string * (npy_ranges * array))) (ids : list Z)
    (draws : list (list draw)) : table * res unit :=
  match ids with
  | [] => (t, Ok tt)
  | id :: r =>
      match reassemble parts id with
      | Err e => (t, Err e)
      | Ok s =>
          match add_sequence t id s (hd [] draws) with
          | (t1, Err e) => (t1, Err e)
          | (t1, Ok _) => add_all t1 parts r (tl draws)
          end
      end
  end.

(** Assignment to the attributes of the columns (emote/memory/table.py:424). *)
Definition with_cols (t : table) cols : table :=
  mkT cols (t_lenkey t) (t_maxlen t) (t_data t) (t_temp t) (t_lengths t) (t_total t)
      (t_filled t) (t_sampler t) (t_ejector t).

(** emote/memory/table.py:351-449.  [fail_at] is the point where reading the file fails, if it
    does: [None] for a good file; [Some 0] before the configuration is read,
    [Some 1] after the strategies were loaded, while reading the arrays. *)
Definition load_opt {A B} (f : A -> B -> A) (a : A) (o : option B) : A :=
  match o with Some b => f a b | None => a end.

(** emote/memory/table.py:351-449 _deserialize; [fail_at] is the part whose reading raises. *)
Definition deserialize (t : table) (f : v1file) (fail_at : option nat)
    (draws : list (list draw)) : table * res unit :=
  let t0 := t_clear t in
  let t1 := with_ejector t0 (e_set_imp (t_ejector t0) true) in
  let t2 := with_sampler t1 (s_set_imp (t_sampler t1) true) in
  match fail_at with
  | Some O => (t2, Err ValueError)
  | _ =>
      let t3 := with_ejector t2 (load_opt e_load_state (t_ejector t2) (v_ejector_state f)) in
      let t4 := with_sampler t3 (load_opt s_load_state (t_sampler t3) (v_sampler_state f)) in
      let t5 := with_cols t4 (map (col_load (v_columns f)) (t_cols t4)) in
      match fail_at with
      | Some _ => (t5, Err ValueError)
      | None =>
          match add_all t5 (v_parts f) (v_ids f) draws with
          | (t6, Err e) => (t6, Err e)
          | (t6, Ok _) =>
              let t7 := with_sampler t6 (s_set_imp (t_sampler t6) false) in
              (with_ejector t7 (e_set_imp (t_ejector t7) false), Ok tt)
          end
      end
  end.

(** ** Legacy restore: emote/memory/table.py:494-533 *)

(** The archive written by emote/memory/table.py:455-488. *)
Record legacy_file : Type := mkL
  { l_ejector : ejector; l_sampler : sampler; l_lenkey : string; l_maxlen : Z;
    l_cols : list column; l_lengths : dict Z Z; l_filled : bool;
    l_data : dict string (dict Z array) }.

(** emote/memory/table.py:455-488: what the legacy store pickles. *)
Definition store_legacy (t : table) : legacy_file :=
  mkL (t_ejector t) (t_sampler t) (t_lenkey t) (t_maxlen t) (t_cols t) (t_lengths t)
      (t_filled t) (t_data t).

(** -abs(k) - 1.  Used at emote/memory/table.py:528, emote/memory/fifo_strategy.py:49, emote/memory/uniform_strategy.py:46 and emote/memory/storage.py:35-47. *)
Definition neg_id (k : Z) : Z := - Z.abs k - 1.

(** emote/memory/storage.py:35-47 (and 82-94): drop negative ids, rename the others one by
    one (the renamed entry is appended at the end). *)
Fixpoint rename_loop (d : dict Z array) (ids : list Z) : dict Z array :=
  match ids with
  | [] => d
  | k :: r =>
      match dget d k with
      | Some v => rename_loop (ddel (dset d (neg_id k) v) k) r
      | None => rename_loop d r
      end
  end.
(** emote/memory/storage.py:35-47 post_import of a storage.  Simplification: the values of a tag
    column are moved here as they are; emote/memory/storage.py:82-94 wraps them in a TagProxy,
    which reads the same but cannot be stored again: that is in OddModel (C131). *)
Definition storage_post_import (d : dict Z array) : dict Z array :=
  let d1 := filter (fun kv => 0 <=? fst kv) d in
  rename_loop d1 (dkeys d1).

(** emote/memory/table.py:513-520: entries of the file are written into the existing
    storages of the table; a missing member of the zip raises KeyError. *)
Fixpoint legacy_load_data (data : dict string (dict Z array))
    (file : dict string (dict Z array)) : dict string (dict Z array) * res unit :=
  match data with
  | [] => ([], Ok tt)
  | (name, store) :: r =>
      match dget file name with
      | None => (data, Err KeyError)
      | Some loaded =>
          let '(r', x) := legacy_load_data r file in
          ((name, dupdate store loaded) :: r', x)
      end
  end.

(** emote/memory/table.py:528-533, the part executed after the lock has been released. *)
Definition legacy_lengths (l : dict Z Z) : dict Z Z :=
  fold_left (fun acc kv => if 0 <=? fst kv then dset acc (neg_id (fst kv)) (snd kv) else acc)
            l [].

(** emote/memory/table.py:528-533, the part of _restore_legacy outside the lock *)
Definition legacy_tail (t : table) : table * res unit :=
  let lens := legacy_lengths (t_lengths t) in
  let t1 := with_lengths t lens (zsum (dvals lens)) in
  match s_post_import (t_sampler t1) with
  | (s, Err e) => (with_sampler t1 s, Err e)
  | (s, Ok _) =>
      let t2 := with_sampler t1 s in
      match e_post_import (t_ejector t2) with
      | (ej, Err e) => (with_ejector t2 ej, Err e)
      | (ej, Ok _) =>
          let t3 := with_ejector t2 ej in
          (with_data t3 (map (fun kv => (fst kv, storage_post_import (snd kv))) (t_data t3)),
           Ok tt)
      end
  end.

(** emote/memory/table.py:502-526, executed under the lock. *)
Definition legacy_head (t : table) (f : legacy_file) : table * res unit :=
  let '(d, x) := legacy_load_data (t_data t) (l_data f) in
  (mkT (l_cols f) (l_lenkey f) (l_maxlen f) d (t_temp t) (l_lengths f) (t_total t)
       (l_filled f) (l_sampler f) (l_ejector f), x).

(** emote/memory/table.py:494-533 _restore_legacy *)
Definition restore_legacy (t : table) (f : legacy_file) : table * res unit :=
  match legacy_head t f with
  | (t1, Err e) => (t1, Err e)
  | (t1, Ok _) => legacy_tail t1
  end.

(** ** Operation histories *)

(** The public calls of a table, emote/memory/table.py:111-123, 196-262, 535-578. *)
Inductive op : Type :=
| OAdd (id : Z) (seq : sequence) (draws : list draw)
| OSample (count n : nat) (draws : list draw)
| OResize (n : Z)
| OSize
| OFull
| OClear.

(** The state after a public call; an exception is caught by the caller, who
    goes on using the table.  The calls of emote/memory/table.py:111-123, 196-262, 535-578. *)
Definition step (t : table) (o : op) : table :=
  match o with
  | OAdd id seq dr => fst (add_sequence t id seq dr)
  | OSample c n dr => fst (t_sample t c n dr)
  | OResize n => fst (t_resize t n)
  | OSize => t
  | OFull => t
  | OClear => t_clear t
  end.

(** A sequence of the public calls of emote/memory/table.py. *)
Definition run (t : table) (ops : list op) : table := fold_left step ops t.
End Table.
Arguments table S : clear implicits.
Arguments column S : clear implicits.
Arguments sequence S : clear implicits.
Arguments array S : clear implicits.
Arguments op S : clear implicits.
Arguments v1file S : clear implicits.
Arguments legacy_file S : clear implicits.
