(** * LiveModel: a training on data that is collected while it runs
    (emote/trainer.py with tests/gym/collector.py and emote/memory/memory.py) *)
From Coq Require Import Reals.
From Verif Require Import Py MemModel ProxyModel LoaderModel TrainModel GymModel.
Open Scope string_scope.
Open Scope list_scope.
Open Scope Z_scope.

(** ** The trainer with a data loader that looks at the world *)
Section Live.
Context {O W : Type}.
Context (act : behaviour O W).
(** What the data loader does when it is asked for the next batch: [None] when it has ended.
    emote/trainer.py:83 *)
Context (next : W -> W * option (item O)).

(** emote/trainer.py:82-95.  [fuel] is the number of turns that are looked at; the last component says
    whether the data loader has ended. *)
Fixpoint live_loop (size_key : string) (cs : list callback) (fuel : nat) (k : Z) (s : world O W)
  : world O W * res unit * bool :=
  match fuel with
  | 0%nat => (s, Ok tt, false)
  | S f =>
      match next (wd_world s) with
      | (w, None) => (mkWorld (wd_state s) w (wd_trace s), Ok tt, true)
      | (w, Some it) =>
          match one_step act size_key cs k it (mkWorld (wd_state s) w (wd_trace s)) with
          | (s', Err e) => (s', Err e, false)
          | (s', Ok _) => live_loop size_key cs f (k + 1) s'
          end
      end
  end.

(** emote/trainer.py:55-102 *)
Definition live_train (size_key : string) (callbacks : list callback) (fuel : nat) (st0 : tstate O) (w : W)
  : world O W * outcome :=
  let cs := sort_cbs callbacks in
  let s0 := mkWorld (dset (dset st0 "bp_samples" (VNum 0)) "bp_step" (VNum 1)) w [] in
  match andthen (run_phase act PRestore None cs s0) (run_phase act PBeginTraining None cs) with
  | (s, Err Shutdown) => (s, Returned)
  | (s, Err _) => (s, Raised OtherError)
  | (s, Ok _) =>
      match dget (wd_state s) "bp_step" with
      | None => finish act cs (s, Err KeyError) true
      | Some (VObj _) => finish act cs (s, Err TypeError) true
      | Some (VNum k) => let '(s', r, ends) := live_loop size_key cs fuel k s in finish act cs (s', r) ends
      end
  end.
End Live.

(** ** The experiment: a SimpleGymCollector, a memory behind a proxy, a MemoryLoader and other callbacks *)
Section Experiment.
Context {S E : Type} `{Scalar S} {O V : Type}.
Variable num : S -> R.
Variable env : genv S E.
(** The agent answers with the policy as it is now: it reads [V], what the other callbacks (the losses among
    them) work on; tests/gym/collector.py:38, 59 *)
Variable agent : V -> nat -> dict Z (obs S) -> res (dict Z (resp S)).
(** What the other callbacks do.  They have no access to the memory and the environments.
    emote/trainer.py:104-145 *)
Variable others : behaviour O V.
(** The random numbers of the memory table, for the ejector and the sampler; emote/memory/fifo_strategy.py:37-67,
    emote/memory/uniform_strategy.py:36-67 *)
Variable eject_draws : nat -> list (list draw).
Variable sample_draws : nat -> list draw.
(** A batch of rows as an object in the training state; emote/memory/memory.py:504 *)
Variable obj : dict string (cell S) -> O.
Variable pc : pconf.
Variable ld : loader.
(** SimpleGymCollector's arguments and its place among the callbacks; tests/gym/collector.py:115-126 *)
Record sconf : Type := mkSc { sc_id : nat; sc_warmup : nat; sc_per : Z }.
Variable sc : sconf.

(** What an observer notes: an agent (with the weights [v] of that moment) answering and the call of memory.add that
    follows; the rows of a batch; tests/gym/collector.py:38-41, emote/memory/memory.py:500-504 *)
Inductive note : Type := NAdd (v : V) (os : dict Z (obs S)) (rs : dict Z (resp S)) | NDrew (rows : dict string (array S)).
(** The world: the environments, the collector once training has begun, the memory proxy with its table, the
    loader's generator, how many batches were asked for, what the other callbacks work on, the notes.
    tests/gym/collector.py:17-32, emote/memory/memory.py:47-72, 492-504 *)
Record lab : Type := mkLab
  { lb_gym : gym (E := E); lb_coll : option (collector (S := S) (E := E)); lb_px : proxy S; lb_gen : gen; lb_asked : nat; lb_v : V;
    lb_notes : list note }.

(** tests/gym/collector.py:34-45 collect_data.  When memory.add raises, the collector keeps its old
    observations. *)
Definition lab_collect (b : lab) : lab * res unit :=
  match lb_coll b with
  | None => (b, Err AttributeError)
  | Some c =>
      match collect_data num env (agent (lb_v b)) eject_draws c with
      | Err e => (b, Err e)
      | Ok (c', (o, _)) =>
          match pstep pc (lb_px b) o with
          | (p, Err e) => (mkLab (lb_gym b) (Some (mkCo (co_gym c') (co_obs c) (co_asked c'))) p (lb_gen b) (lb_asked b) (lb_v b) (lb_notes b), Err e)
          | (p, Ok _) =>
              (mkLab (lb_gym b) (Some c') p (lb_gen b) (lb_asked b) (lb_v b)
                 (match o with PAdd os rs _ => lb_notes b ++ [NAdd (lb_v b) os rs] | PUse _ => lb_notes b end), Ok tt)
          end
      end
  end.
(** tests/gym/collector.py:47-53 collect_multiple *)
Fixpoint lab_collect_multiple (count : nat) (b : lab) : lab * res unit :=
  match count with
  | 0%nat => (b, Ok tt)
  | Datatypes.S n =>
      match lab_collect b with
      | (b', Err e) => (b', Err e)
      | (b', Ok _) => lab_collect_multiple n b'
      end
  end.
(** tests/gym/collector.py:55-65, 128-130 begin_training *)
Definition lab_begin_training (b : lab) : lab * res (tstate O) :=
  match begin_training num env (agent (lb_v b)) (lb_gym b) with
  | Err e => (b, Err e)
  | Ok c =>
      match lab_collect_multiple (sc_warmup sc)
              (mkLab (lb_gym b) (Some c) (lb_px b) (lb_gen b) (lb_asked b) (lb_v b) (lb_notes b)) with
      | (b', Err e) => (b', Err e)
      | (b', Ok _) => (b', Ok [("inf_step", VNum (Z.of_nat (sc_warmup sc)))])
      end
  end.
(** tests/gym/collector.py:132-135 begin_batch; the arguments are taken from the state by name,
    emote/callback.py:33-46.  Adding to an [inf_step] that is not a number is not modelled (TypeError). *)
Definition lab_begin_batch (st : tstate O) (b : lab) : lab * res (tstate O) :=
  match dget st "inf_step", dget st "bp_step" with
  | Some inf, Some bp =>
      match bp with
      | VObj _ => (b, Err TypeError)
      | VNum bp =>
          if sc_per sc =? 0 then (b, Err ZeroDivisionError)
          else
            match (if bp mod sc_per sc =? 0 then lab_collect b else (b, Ok tt)) with
            | (b', Err e) => (b', Err e)
            | (b', Ok _) =>
                match inf with
                | VNum n => (b', Ok [("inf_step", VNum (n + Z.of_nat (List.length (gy_envs (lb_gym b)))))])
                | VObj _ => (b', Err TypeError)
                end
            end
      end
  | _, _ => (b, Err TypeError)
  end.
(** The hooks of all callbacks; tests/gym/collector.py:128-135, emote/trainer.py:104-145 *)
Definition lab_act : behaviour O lab :=
  fun c ph x st b =>
    if Nat.eqb (cb_id c) (sc_id sc)
    then match ph with
         | PBeginTraining => lab_begin_training b
         | PBeginBatch => lab_begin_batch st b
         | _ => (b, Ok [])
         end
    else let '(v, r) := others c ph x st (lb_v b) in
         (mkLab (lb_gym b) (lb_coll b) (lb_px b) (lb_gen b) (lb_asked b) v (lb_notes b), r).

(** What a batch of the loader is in the training state; emote/memory/memory.py:504 *)
Definition as_state (d : batch S) : tstate O :=
  map (fun kv => (fst kv, match snd kv with EData r => VObj (obj r) | ENum n => VNum n | EGroups _ => VNum 0 end)) d.
(** The loader's turn: emote/memory/memory.py:492-504, with the answer of the shutdown signal, emote/trainer.py:88 *)
Definition lab_next (stop : nat -> res bool) (b : lab) : lab * option (item O) :=
  match loader_next ld (lb_gen b) (px_table (lb_px b)) (sample_draws (lb_asked b)) with
  | (g, t, r) =>
      let notes := match t_sample (px_table (lb_px b)) (ld_count ld) (ld_length ld) (sample_draws (lb_asked b)), r with
                   | (_, Ok rows), Ok _ => lb_notes b ++ [NDrew rows]
                   | _, _ => lb_notes b
                   end in
      let b' := mkLab (lb_gym b) (lb_coll b) (mkPx (px_store (lb_px b)) (px_done (lb_px b)) t) g (1 + lb_asked b) (lb_v b) notes in
      match r with
      | Err StopIteration => (b', None)
      | Err e => (b', Some (mkItem (Err e) (stop (lb_asked b))))
      | Ok d => (b', Some (mkItem (Ok (as_state d)) (stop (lb_asked b))))
      end
  end.

(** Before the training; tests/gym/collector.py:17-32, emote/memory/memory.py:47-72 *)
Definition lab_new (envs : list E) (t : table S) (v : V) : lab := mkLab (gym_new envs) None (px_new t) GNew 0 v [].
End Experiment.
Arguments note S V : clear implicits.
Arguments lab S E V : clear implicits.
