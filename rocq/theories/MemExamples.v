(** * A concrete configuration used to show that hypotheses are met. *)
From Verif Require Import Py PyLemmas MemModel MemSpec.
Open Scope Z_scope.
Open Scope string_scope.
Open Scope list_scope.

Definition idz : Z -> Z := fun x => x.

(** The columns of DictObsTable (emote/memory/builder.py) in miniature. *)
Definition ex_cols : list (column Z) :=
  [ mkCol "obs" 1 idz KBase;
    mkCol "actions" 1 idz KBase;
    mkCol "next_obs" 1 idz (KVirt "obs" MNext);
    mkCol "masks" 1 idz (KVirt "actions" MMask) ].

Definition ex_rows (from : Z) (n : nat) : list (list Z) :=
  map (fun i => [from + Z.of_nat i]) (seq 0 n).

(** An episode of [n] transitions: n actions, n+1 observations. *)
Definition ex_seq (from : Z) (n : nat) : sequence Z :=
  [("obs", ex_rows from (n + 1)); ("actions", ex_rows (from + 100) n)].

Lemma ex_config_ok : config_ok ex_cols "actions".
Proof.
  constructor.
  - repeat constructor; simpl; intuition discriminate.
  - intros c Hc. simpl in Hc. repeat (destruct Hc as [<-|Hc]; [simpl; lia|]). destruct Hc.
  - exists (mkCol "actions" 1 idz KBase). simpl. unfold is_base. auto 10.
  - intros c tg m Hc E. simpl in Hc.
    repeat (destruct Hc as [<-|Hc]; [simpl in E; try discriminate; inversion E; subst|]); try destruct Hc.
    + exists (mkCol "obs" 1 idz KBase). simpl. unfold is_base. auto 10.
    + exists (mkCol "actions" 1 idz KBase). simpl. unfold is_base. auto 10.
Qed.

Lemma ex_rows_ok from n : Forall (fun f => List.length f = 1%nat) (ex_rows from n).
Proof. apply Forall_forall. intros f I. apply in_map_iff in I as (i & <- & _). auto. Qed.

Lemma ex_seq_ok from n : seq_ok ex_cols (ex_seq from n).
Proof.
  split; [|split].
  - repeat constructor; simpl; intuition discriminate.
  - simpl. tauto.
  - intros c fr Hc E. simpl in Hc.
    destruct Hc as [<-|[<-|[]]]; simpl in E; inversion E; subst; apply ex_rows_ok.
Qed.

Lemma ex_seq_len from n : seq_len "actions" (ex_seq from n) = Z.of_nat n.
Proof. unfold seq_len, ex_seq, zlen, ex_rows. simpl. rewrite map_length, seq_length. auto. Qed.

(** A history: add three episodes (3, 2 and 4 transitions), sampling in between. *)
Definition ex_ops : list (op Z) :=
  [ OAdd 7 (ex_seq 0 3) []; OSize; OAdd 8 (ex_seq 10 2) [];
    OSample 2 2 [(7, 0); (8, 0)]; OAdd 9 (ex_seq 20 4) []; OFull ].

Ltac solve_client :=
  split; [apply Forall_forall; intros o Ho ->; simpl in Ho; intuition discriminate|
  split; [apply Forall_forall; intros o Ho; simpl in Ho;
          repeat (destruct Ho as [<-|Ho]; [apply ex_seq_ok|]); destruct Ho|
          simpl; repeat constructor; simpl; intuition (try discriminate; try lia)]].

Lemma ex_client_ok : client_ok ex_cols ex_ops.
Proof. solve_client. Qed.

Definition ex_create (maxlen : Z) (s : sampler) (e : ejector) : table Z :=
  t_create ex_cols "actions" maxlen s e.
