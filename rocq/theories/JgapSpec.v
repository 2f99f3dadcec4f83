(** * JgapSpec: memories with their histories (for C159) *)
From Verif Require Import Py MemModel MemSpec ProxyModel ProxySpec LoaderModel GapSpec.
Open Scope list_scope.
Open Scope Z_scope.

Section Spec.
Context {S : Type} {HS : Scalar S}.
(** A memory with its loader: settings, columns, strategies, what the agents send, and what has been done to it. *)
Record memory : Type := mkMem
  { m_pc : pconf; m_loader : loader; m_cols : list (column S); m_lenkey : string; m_maxlen : Z; m_sampler : sampler; m_ejector : ejector;
    m_schema : schema; m_done : list (pop S) }.
Definition proxy_of (m : memory) (h : list (pop S)) : proxy S * res unit :=
  prun (m_pc m) (px_new (t_create (m_cols m) (m_lenkey m) (m_maxlen m) (m_sampler m) (m_ejector m))) h.
(** With these rounds of uses by others and draws by the loader still to come, all is as it should be: the settings fit,
    the agents' data fits, and no call fails. *)
Definition fits (m : memory) (rounds : list (list (pop S) * list draw)) : Prop :=
  let h := m_done m ++ doings (m_loader m) rounds in
  config_ok (m_cols m) (m_lenkey m) /\ fresh_sampler (m_sampler m) /\ fresh_ejector (m_ejector m) /\
  schema_ok (pc_terminal (m_pc m)) (m_schema m) /\ layout (m_cols m) (m_lenkey m) (pc_terminal (m_pc m)) (m_schema m) /\
  (1 <= ld_length (m_loader m))%nat /\ (1 <= ld_count (m_loader m))%nat /\ ld_group (m_loader m) <> ld_size_key (m_loader m) /\
  batches_ok h /\ agents_ok (m_pc m) (m_cols m) (m_lenkey m) (m_schema m) (ld_length (m_loader m)) h /\
  (forall os rs dr a, In (PAdd os rs dr) h -> In a (dkeys os) -> a < 2 ^ 63) /\
  snd (proxy_of m h) = Ok tt.
(** After [h], the memory holds as much as the loader's batch has. *)
Definition wanted (m : memory) : Z := Z.of_nat (ld_count (m_loader m) * ld_length (m_loader m)).
Definition holds_enough (m : memory) (h : list (pop S)) : Prop := wanted m <= t_size (px_table (fst (proxy_of m h))).
(** [b] shows, in the loader's group, rollouts of the configured number and length, of episodes complete after [h]. *)
Definition shows_rollouts (m : memory) (h : list (pop S)) (b : batch S) : Prop :=
  exists data rows, dget b (ld_group (m_loader m)) = Some (EData data) /\
    (forall c, c <> ld_size_key (m_loader m) -> dget data c = option_map CRows (dget rows c)) /\
    batch_sized (m_cols m) rows (ld_count (m_loader m)) (ld_length (m_loader m)) /\
    forall j, (j < ld_count (m_loader m))%nat -> exists a ms k, In ms (episodes [] (stream a h)) /\
      is_window (m_cols m) (m_schema m) rows (ld_length (m_loader m)) j ms k.
(** What the rounds are for the [k]-th memory. *)
Definition for_memory (k : nat) (rounds : list (list (list (pop S) * list draw))) : list (list (pop S) * list draw) :=
  map (fun r => nth k r ([], [])) rounds.
Definition history (k : nat) (m : memory) (rounds : list (list (list (pop S) * list draw))) (i : nat) : list (pop S) :=
  m_done m ++ before_draw (m_loader m) (for_memory k rounds) i.
End Spec.
Arguments memory S : clear implicits.
