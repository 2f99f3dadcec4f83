(** * BldSpec: what the table builders and the loaders should do *)
From Verif Require Import Py MemModel MemSpec BldModel.
Open Scope string_scope.
Open Scope list_scope.
Open Scope Z_scope.

(** Names the builders use themselves. *)
Definition reserved : list string := ["actions"; "dones"; "masks"; "rewards"; "terminal"].
(** Observation names that are distinct, are not used otherwise, and none of which is another
    one with "next_" in front; sizes are positive. *)
Record spaces_ok {S} (m : mdp S) : Prop := {
  so_keys : NoDup (dkeys (md_state m));
  so_reserved : forall k, In k (dkeys (md_state m)) -> ~ In k reserved;
  so_next : forall k, In k (dkeys (md_state m)) -> ~ In (String.append "next_" k) (dkeys (md_state m));
  so_actions : (0 < sp_size (md_actions m))%nat;
  so_rewards : forall r, md_rewards m = Some r -> (0 < sp_size r)%nat;
  so_state : forall k s, In (k, s) (md_state m) -> (0 < sp_size s)%nat }.

(** What a stored sequence has in the column called [name]. *)
Definition rows_in {S} (name : string) (cast : S -> S) (s : sequence S) : array S :=
  match dget s name with Some frames => map (map cast) frames | None => [] end.
(** [rows] are the rows of the windows [ws], [shift] steps later. *)
Definition window_rows {S} (name : string) (cast : S -> S) (shift : Z) (L : nat) (ws : list (window S)) (rows : array S) : Prop :=
  List.length rows = (List.length ws * L)%nat /\
  forall i k w, nth_error ws i = Some w -> (k < L)%nat ->
    nth_error rows (i * L + k) = row_at (rows_in name cast (w_seq w)) (w_start w + Z.of_nat k + shift) /\ nth_error rows (i * L + k) <> None.
(** [rows] has one row for every window: the one after its end. *)
Definition after_rows {S} (name : string) (cast : S -> S) (L : nat) (ws : list (window S)) (rows : array S) : Prop :=
  List.length rows = List.length ws /\
  forall i w, nth_error ws i = Some w ->
    nth_error rows i = row_at (rows_in name cast (w_seq w)) (w_start w + Z.of_nat L) /\ nth_error rows i <> None.
(** [rows] is [v] at the last transition of an episode and [u] elsewhere. *)
Definition end_rows {S} (u v : S) (L : nat) (ws : list (window S)) (rows : array S) : Prop :=
  List.length rows = (List.length ws * L)%nat /\
  forall i k w, nth_error ws i = Some w -> (k < L)%nat ->
    nth_error rows (i * L + k) = Some [if (w_start w + Z.of_nat k =? seq_len "actions" (w_seq w) - 1)%Z then v else u].

(** The episodes of a list of done flags: first and last step. *)
Fixpoint episodes (start i : nat) (dones : list bool) : list (nat * nat) :=
  match dones with
  | [] => []
  | true :: r => (start, i) :: episodes (i + 1) (i + 1) r
  | false :: r => episodes start (i + 1) r
  end.
(** ... and their numbers. *)
Definition numbered (dones : list bool) : list (nat * (nat * nat)) :=
  combine (seq 1 (List.length (episodes 0 0 dones))) (episodes 0 0 dones).
(** More than ten steps. *)
Definition long (e : nat * (nat * nat)) : bool := Nat.leb 10 (snd (snd e) - fst (snd e)).
(** Steps [s] to [e]. *)
Definition steps {X} (s e : nat) (l : list X) : list X := firstn (e + 1 - s) (skipn s l).
(** A dump of [n] steps. *)
Definition dump_of {O A R} (n : nat) (d : dump O A R) : Prop :=
  List.length (du_dones d) = n /\ List.length (du_actions d) = (2 * n)%nat /\ List.length (du_rewards d) = n /\
  List.length (du_obs d) = n /\ List.length (du_next_obs d) = n.
Arguments so_keys {S m}. Arguments so_reserved {S m} _ _. Arguments so_next {S m} _ _.
Arguments so_actions {S m}. Arguments so_rewards {S m} _ {r}. Arguments so_state {S m} _ {k s}.

(** The client's side: a sampler that has seen nothing, sequences that fit the columns, windows no longer than the episodes. *)
Definition client_history {S} (cols : list (column S)) (smp : sampler) (ops : list (op S)) (L : nat) : Prop :=
  fresh_sampler smp /\ client_ok cols ops /\ (1 <= L)%nat /\
  Forall (fun e => MemSpec.episode_ok cols "actions" (snd e) /\ Z.of_nat L <= seq_len "actions" (snd e) <= 2 ^ 53) (adds ops).
(** The batch [b] of the windows [ws]: every observation of the space, the next observations as [next_says] demands,
    actions, rewards, and the markers of the last transition of an episode; nothing else but a terminal column. *)
Definition batch_says {S} `{Scalar S} (next_says : string -> (S -> S) -> list (window S) -> array S -> Prop)
    (m : mdp S) (f32 : S -> S) (L : nat) (b : batch S) (ws : list (window S)) : Prop :=
  (forall k s, In (k, s) (md_state m) ->
     (exists rows, dget (bt_obs b) k = Some rows /\ window_rows k (sp_cast s) 0 L ws rows) /\
     (exists rows, dget (bt_next b) k = Some rows /\ next_says k (sp_cast s) ws rows)) /\
  (forall k, ~ In k (dkeys (md_state m)) -> dget (bt_obs b) k = None /\ dget (bt_next b) k = None) /\
  (exists rows, dget (bt_rows b) "actions" = Some rows /\ window_rows "actions" (sp_cast (md_actions m)) 0 L ws rows) /\
  (exists rows, dget (bt_rows b) "rewards" = Some rows /\ window_rows "rewards" (match md_rewards m with Some r => sp_cast r | None => f32 end) 0 L ws rows) /\
  (exists rows, dget (bt_rows b) "dones" = Some rows /\ end_rows s_zero s_one L ws rows) /\
  (exists rows, dget (bt_rows b) "masks" = Some rows /\ end_rows s_one s_zero L ws rows) /\
  (forall x, In x (dkeys (bt_rows b)) -> In x reserved).

(** What one call of add_sequence receives for an episode: its number, negated; the observations, actions (two
    values a step) and rewards of its steps, and one more observation, [final]. *)
Definition call_of {O A R} (final : dump O A R -> nat -> option O) (ro ra rr : bool) (d : dump O A R) (ep : nat * (nat * nat)) (call : Z * outs O A R) : Prop :=
  let s := fst (snd ep) in let e := snd (snd ep) in
  fst call = Z.opp (Z.of_nat (fst ep)) /\
  (exists o, final d e = Some o /\ ou_obs (snd call) = if ro then Some (steps s e (du_obs d) ++ [o]) else None) /\
  (exists acts, concat acts = steps (2 * s) (2 * e + 1) (du_actions d) /\ Forall (fun a => List.length a = 2%nat) acts /\ ou_actions (snd call) = if ra then Some acts else None) /\
  ou_rewards (snd call) = if rr then Some (steps s e (du_rewards d)) else None.
(** The observation after the last step, and the one the code takes. *)
Definition after_last {O A R} (d : dump O A R) (e : nat) : option O := nth_error (du_next_obs d) e.
Definition one_too_late {O A R} (d : dump O A R) (e : nat) : option O := nth_error (du_next_obs d) (e + 1).

(** The columns the adaptor takes for the observation [k]. *)
Definition taken (with_next : bool) (k : string) : list string := if with_next then [k; String.append "next_" k] else [k].
