(** * MemSpec: what a replay memory is supposed to do, independently of how the
    table is implemented.

    A memory is just a list of (identity, sequence) pairs, oldest first. *)
From Verif Require Import Py MemModel.
Open Scope Z_scope.

Section Spec.
Context {S : Type}.

Definition buffer : Type := list (Z * sequence S).

(** Number of transitions of a sequence: the frames of the length column. *)
Definition seq_len (lenkey : string) (s : sequence S) : Z :=
  match dget s lenkey with Some frames => zlen frames | None => 0 end.

Definition total_len (lenkey : string) (b : buffer) : Z :=
  zsum (map (fun e => seq_len lenkey (snd e)) b).

(** The longest suffix of a history that fits. *)
Fixpoint longest_suffix (lenkey : string) (maxlen : Z) (h : buffer) : buffer :=
  match h with
  | [] => []
  | e :: r => if total_len lenkey (e :: r) <=? maxlen then e :: r
              else longest_suffix lenkey maxlen r
  end.

(** Columns that hold data. *)
Definition storage_cols (cols : list (column S)) : list (column S) :=
  filter (fun c => negb (is_virtual c)) cols.

(** A sane configuration: distinct names, rows of positive size, the length
    column is an ordinary column, virtual columns refer to ordinary columns. *)
Definition is_base (c : column S) : Prop := c_kind c = KBase.

Record config_ok (cols : list (column S)) (lenkey : string) : Prop :=
  { co_names : NoDup (map c_name cols);
    co_rows : forall c, In c (storage_cols cols) -> (0 < c_rowsize c)%nat;
    co_lenkey : exists c, In c cols /\ c_name c = lenkey /\ is_base c;
    co_targets : forall c tg m, In c cols -> c_kind c = KVirt tg m ->
                 exists d, In d cols /\ c_name d = tg /\ is_base d }.

(** A sequence that matches the configuration: exactly the data columns, each a
    list of frames of the column's size. *)
Definition seq_ok (cols : list (column S)) (s : sequence S) : Prop :=
  NoDup (dkeys s) /\
  (forall n, In n (dkeys s) <-> In n (map c_name (storage_cols cols))) /\
  (forall c frames, In c (storage_cols cols) -> dget s (c_name c) = Some frames ->
     Forall (fun f => List.length f = c_rowsize c) frames).

(** What column [c] must hold for a sequence: its frames, cast to the dtype. *)
Definition column_data (c : column S) (s : sequence S) : array S :=
  match dget s (c_name c) with
  | Some frames => map (map (c_cast c)) frames
  | None => []
  end.

(** The table holds exactly the sequences of [b], in order, in every column. *)
Definition holds (t : table S) (b : buffer) : Prop :=
  forall c, In c (storage_cols (t_cols t)) ->
    dget (t_data t) (c_name c) = Some (map (fun e => (fst e, column_data c (snd e))) b).

(** A newly created strategy. *)
Inductive fresh_sampler : sampler -> Prop :=
| fresh_SFifo b1 b2 : fresh_sampler (SFifo fifo_init b1 b2)
| fresh_SWeighted cov : fresh_sampler (SWeighted (w_init cov)).
Inductive fresh_ejector : ejector -> Prop :=
| fresh_EFifo : fresh_ejector (EFifo fifo_init)
| fresh_EWeighted cov : fresh_ejector (EWeighted (w_init cov)).

(** Sub-list: [b'] is [b] with some entries left out. *)
Inductive sublist {A} : list A -> list A -> Prop :=
| sub_nil : sublist [] []
| sub_keep x l l' : sublist l l' -> sublist (x :: l) (x :: l')
| sub_drop x l l' : sublist l l' -> sublist l (x :: l').

(** The additions in a history of operations, in order (identities as stored). *)
Fixpoint adds (ops : list (op S)) : buffer :=
  match ops with
  | [] => []
  | OAdd id s _ :: r => (wrap_id id, s) :: adds r
  | _ :: r => adds r
  end.

(** A well-behaved client: sequences match the configuration, identities are
    never reused, and clear() is not called (see the finding about clear). *)
Definition no_clear (o : op S) : Prop := o <> OClear.
Definition client_ok (cols : list (column S)) (ops : list (op S)) : Prop :=
  Forall no_clear ops /\
  Forall (fun e => seq_ok cols (snd e)) (adds ops) /\
  NoDup (map fst (adds ops)).

(** Rows physically stored in the length column. *)
Definition stored_rows (t : table S) : Z :=
  match dget (t_data t) (t_lenkey t) with
  | Some store => zsum (map (fun kv => zlen (snd kv)) store)
  | None => 0
  end.

(** What a FIFO memory must contain after a history of operations: the state is
    the capacity and the contents.  A sequence that can never fit is refused;
    otherwise the longest suffix that fits is kept. *)
Definition fifo_spec_step (lenkey : string) (st : Z * buffer) (o : op S) : Z * buffer :=
  let '(m, b) := st in
  match o with
  | OAdd id s _ =>
      if seq_len lenkey s <=? m
      then (m, longest_suffix lenkey m (b ++ [(wrap_id id, s)]))
      else st
  | OResize n => (Z.max m n, b)
  | _ => st
  end.
Definition fifo_spec (lenkey : string) (maxlen : Z) (ops : list (op S)) : Z * buffer :=
  fold_left (fifo_spec_step lenkey) ops (maxlen, []).

Definition no_resize (o : op S) : Prop := match o with OResize _ => False | _ => True end.

(** The identities a strategy believes to be stored. *)
Definition sampler_ids (s : sampler) : list Z :=
  match s with SFifo f _ _ => f_ids f | SWeighted w => dkeys (w_lens w) end.
Definition ejector_ids (e : ejector) : list Z :=
  match e with EFifo f => f_ids f | EWeighted w => dkeys (w_lens w) end.

(** ** Sampling *)

(** The columns of an episode of T transitions (T = frames of the length column):
    ordinary columns have at least T rows, tags at least one, a next-observation
    column looks into a column with one row more, dones and masks are derived
    from a column with exactly T rows. *)
Definition col_ok (lenkey : string) (s : sequence S) (c : column S) : Prop :=
  let T := seq_len lenkey s in
  match c_kind c with
  | KBase => T <= seq_len (c_name c) s
  | KTag => 1 <= seq_len (c_name c) s
  | KVirt tg MNext | KVirt tg MNextLast => T + 1 <= seq_len tg s
  | KVirt tg (MNextN n) => 0 <= n /\ T + n <= seq_len tg s
  | KVirt tg MDones | KVirt tg MMask => seq_len tg s = T
  end.
Definition episode_ok (cols : list (column S)) (lenkey : string) (s : sequence S) : Prop :=
  Forall (col_ok lenkey s) cols.

(** A window: a stored sequence and the index of the first transition. *)
Definition window : Type := ((Z * sequence S) * Z)%type.
Definition w_seq (w : window) : sequence S := snd (fst w).
Definition w_start (w : window) : Z := snd w.

(** Stored in [b] and inside the sequence. *)
Definition window_in (lenkey : string) (b : buffer) (L : Z) (w : window) : Prop :=
  In (fst w) b /\ 0 <= w_start w /\ w_start w + L <= seq_len lenkey (w_seq w).

(** Row [k] of a list of rows, [k] a non-negative integer. *)
Definition row_at (rows : array S) (k : Z) : option (row (S:=S)) :=
  if k <? 0 then None else nth_error rows (Z.to_nat k).

(** The situation sampling is meant for: a sane configuration, new strategies, a
    well-behaved client, and episodes of at least L (and at most 2^53)
    transitions. *)
Definition sampling_ok (cols : list (column S)) (lenkey : string) (smp : sampler) (ej : ejector)
    (ops : list (op S)) (L : nat) : Prop :=
  config_ok cols lenkey /\ fresh_sampler smp /\ fresh_ejector ej /\ client_ok cols ops /\
  (1 <= L)%nat /\
  Forall (fun e => episode_ok cols lenkey (snd e) /\
                   Z.of_nat L <= seq_len lenkey (snd e) <= 2 ^ 53) (adds ops).

(** [out] is a batch of [count] windows [ws] of stored sequences. *)
Definition batch_of (t : table S) (lenkey : string) (count L : nat) (ws : list window) : Prop :=
  List.length ws = count /\
  exists b, holds t b /\ Forall (window_in lenkey b (Z.of_nat L)) ws.

(** One FIFO pass: every stored episode in order, cut into consecutive windows of
    L transitions from its start. *)
Definition tiles (lenkey : string) (L : Z) (e : Z * sequence S) : list window :=
  map (fun j => (e, Z.of_nat j * L)) (List.seq 0 (Z.to_nat (seq_len lenkey (snd e) / L))).
Definition tiling (lenkey : string) (L : Z) (b : buffer) : list window :=
  flat_map (tiles lenkey L) b.

(** The rows of column [c] in a batch are those of the windows [ws]. *)
Definition rows_of_windows (out : dict string (array S)) (L : nat) (c : column S)
    (ws : list window) : Prop :=
  exists rows, dget out (c_name c) = Some rows /\
    List.length rows = (List.length ws * L)%nat /\
    forall i k w, nth_error ws i = Some w -> (k < L)%nat ->
      nth_error rows (i * L + k) = row_at (column_data c (w_seq w)) (w_start w + Z.of_nat k) /\
      nth_error rows (i * L + k) <> None.
(** What column [c] of a batch [out] of the windows [ws] contains, by kind. *)
Definition column_of_batch {HS : Scalar S} (cols : list (column S)) (lenkey : string) (out : dict string (array S))
    (L : nat) (ws : list window) (c : column S) : Prop :=
  match c_kind c with
  | KBase => rows_of_windows out L c ws
  | KTag =>
      exists tags, dget out (c_name c) = Some tags /\ List.length tags = List.length ws /\
        forall i w, nth_error ws i = Some w ->
          nth_error tags i = row_at (column_data c (w_seq w)) 0 /\ nth_error tags i <> None
  | KVirt target m =>
      exists d rows, In d cols /\ c_name d = target /\ is_base d /\ dget out (c_name c) = Some rows /\
      match m with
      | MNext | MNextN _ =>
          List.length rows = (List.length ws * L)%nat /\
          forall i k w, nth_error ws i = Some w -> (k < L)%nat ->
            nth_error rows (i * L + k)
            = row_at (column_data d (w_seq w)) (w_start w + Z.of_nat k + match m with MNextN n => n | _ => 1 end)
            /\ nth_error rows (i * L + k) <> None
      | MNextLast =>
          List.length rows = List.length ws /\
          forall i w, nth_error ws i = Some w ->
            nth_error rows i = row_at (column_data d (w_seq w)) (w_start w + Z.of_nat L)
            /\ nth_error rows i <> None
      | MDones | MMask =>
          List.length rows = (List.length ws * L)%nat /\
          forall i k w, nth_error ws i = Some w -> (k < L)%nat ->
            let last := (w_start w + Z.of_nat k =? seq_len lenkey (w_seq w) - 1)%Z in
            nth_error rows (i * L + k) =
              Some [match m with
                    | MMask => if last then s_zero else s_one
                    | _ => if last then s_one else s_zero
                    end]
      end
  end.
End Spec.
Arguments buffer S : clear implicits.
Arguments window S : clear implicits.
