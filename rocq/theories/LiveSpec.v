(** * LiveSpec: a training replayed from what its hooks returned; what a batch of an experiment holds *)
From Verif Require Import Py MemModel MemSpec ProxyModel ProxySpec TrainModel GymModel GymSpec LiveModel.
Open Scope string_scope.
Open Scope list_scope.
Open Scope Z_scope.

Section Spec.
Context {O W : Type}.
(** Hooks that return, one after the other, what is on a list (and nothing instead of what [keep] rejects). *)
Definition replay (keep : phase -> callback -> res (tstate O) -> bool) : behaviour O (list (res (tstate O))) :=
  fun c ph _ _ l => match l with r :: rest => (rest, if keep ph c r then r else Ok []) | [] => ([], Ok []) end.
(** What the hooks returned in a run, without those of callback [id]. *)
Definition recorded (id : nat) (tr : list (entry O)) : list (res (tstate O)) :=
  flat_map (fun e => match e with TCall _ c _ _ r => if Nat.eqb (cb_id c) id then [] else [r] | TBatch _ _ => [] end) tr.
(** What the data loader gave in a run. *)
Fixpoint items_of (act : behaviour O W) (next : W -> W * option (item O)) (size_key : string) (cs : list callback) (fuel : nat) (k : Z)
    (s : world O W) : list (item O) :=
  match fuel with
  | 0%nat => []
  | S f =>
      match next (wd_world s) with
      | (_, None) => []
      | (w, Some it) =>
          it :: match one_step act size_key cs k it (mkWorld (wd_state s) w (wd_trace s)) with
                | (_, Err _) => []
                | (s', Ok _) => items_of act next size_key cs f (k + 1) s'
                end
      end
  end.
(** A data loader that always gives a batch of [n] samples. *)
Definition gives (next : W -> W * option (item O)) (size_key : string) : Prop :=
  forall w, exists w' b n, next w = (w', Some (mkItem (Ok b) (Ok false))) /\
    NoDup (dkeys b) /\ dget b size_key = Some (VNum n) /\ ~ In "bp_samples" (dkeys b).
End Spec.

(** ** What happened in an environment *)
Section Steps.
Context {S E V : Type} {HS : Scalar S}.
Variable env : genv S E.

(** A step: what the agent saw, what it did, what the environment answered. *)
Record estep : Type := mkStep { es_saw : list S; es_did : list S; es_got : answer S }.
Definition ends (x : estep) : bool := an_term (es_got x) || an_trunc (es_got x).
(** From state [e], where it shows [o], the environment makes these steps. *)
Inductive path : E -> list S -> list estep -> E -> list S -> Prop :=
| path_none : forall e o, path e o [] e o
| path_one : forall e o action e' a l e'' o'', g_step env e action = (e', a) -> path e' (an_obs a) l e'' o'' ->
    path e o (mkStep o action a :: l) e'' o''.
(** Consecutive steps of one episode. *)
Definition in_an_episode (l : list estep) : Prop :=
  exists e0 e1 o1 before e2 o2 e3 o3, g_reset env e0 = (e1, o1) /\ path e1 o1 before e2 o2 /\ path e2 o2 l e3 o3 /\
    Forall (fun x => ends x = false) (before ++ removelast l).

(** An agent took this step: it was asked and its answer was added to the memory, as noted in [notes]. *)
Definition was_taken (agent : V -> nat -> dict Z (obs S) -> res (dict Z (resp S))) (notes : list (note S V)) (x : estep) : Prop :=
  exists v os rs i id ob, In (NAdd v os rs) notes /\ agent v i os = Ok rs /\
    dget os id = Some ob /\ o_data ob = [("obs", es_saw x)] /\ dget rs id = Some (mkResp [("actions", es_did x)] []).

(** Rollout [j] of a batch is [L] consecutive steps of an episode, taken before. *)
Definition rollout_happened (agent : V -> nat -> dict Z (obs S) -> res (dict Z (resp S))) (cols : list (column S)) (L : nat)
    (notes : list (note S V)) (rows : dict string (array S)) (j : nat) : Prop :=
  exists l, List.length l = L /\ in_an_episode l /\ Forall (was_taken agent notes) l /\
    (forall t x, nth_error l t = Some x -> gym_row cols rows (j * L + t) (es_saw x) (es_did x) (es_got x)) /\
    (forall c d x, In c cols -> In d cols -> c_kind c = KVirt (c_name d) MNextLast -> nth_error l (L - 1) = Some x ->
       batch_row rows (c_name c) j = Some (map (c_cast d) (an_obs (es_got x)))).
End Steps.
Arguments estep S : clear implicits.

(** What a batch holds for the callbacks: the rows under their names in the group of the loader, and the sizes. *)
Definition batch_of {S O} (obj : dict string (LoaderModel.cell S) -> O) (ld : LoaderModel.loader) (rows : dict string (array S)) (b : tstate O) : Prop :=
  let n := Z.of_nat (LoaderModel.ld_count ld * LoaderModel.ld_length ld) in
  exists data, dget b (LoaderModel.ld_group ld) = Some (VObj (obj data)) /\ dget b (LoaderModel.ld_size_key ld) = Some (VNum n) /\
    dget data (LoaderModel.ld_size_key ld) = Some (LoaderModel.CSize n) /\
    forall c, c <> LoaderModel.ld_size_key ld -> dget data c = option_map LoaderModel.CRows (dget rows c).
