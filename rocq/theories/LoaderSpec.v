(** * LoaderSpec: what the wrappers, loaders and the warm-up are for. *)
From Verif Require Import Py MemModel MemSpec ProxyModel LoaderModel.
Open Scope string_scope.
Open Scope list_scope.
Open Scope Z_scope.

(** ** Counters *)
Section Counters.
Context {S I : Type}.
Definition n_obs (o : lop S I) : Z := match o with LAdd os _ => zlen os | _ => 0 end.
Definition n_final (o : lop S I) : Z :=
  match o with
  | LAdd os _ => zlen (filter (fun x => is_final (o_state (snd x))) os)
  | _ => 0
  end.
(** Exactly the agents that go on get a response. *)
Definition answers_ok (o : lop S I) : Prop :=
  match o with
  | LAdd os rs => NoDup (dkeys os) /\ NoDup (dkeys rs) /\
      forall a, In a (dkeys rs) <-> exists ob, In (a, ob) os /\ is_final (o_state ob) = false
  | _ => True
  end.
Definition is_ladd (o : lop S I) : Prop := match o with LAdd _ _ => True | _ => False end.
End Counters.

(** ** Exports: the number of successful additions since the last export, and the
    time of the last export (initially 0 and the time of creation). *)
Definition since (t0 : Z) (past : list (ecall * bool)) : Z * Z :=
  fold_left (fun '(n, t) '(c, exported) =>
               if (exported : bool) then (0, ec_now c)
               else (match ec_inner c with Ok _ => n + 1 | Err _ => n end, t)) past (0, t0).
Definition succeeded (c : ecall) : bool := is_ok (ec_inner c).

(** ** Loaders *)
Section Loaders.
Context {S : Type}.
(** A full batch. *)
Definition full_batch (cols : list (column S)) (l : loader) (b : batch S) : Prop :=
  let n := Z.of_nat (ld_count l) * Z.of_nat (ld_length l) in
  dget b (ld_size_key l) = Some (ENum n) /\
  exists data, dget b (ld_group l) = Some (EData data) /\
    dget data (ld_size_key l) = Some (CSize n) /\
    forall c, In c cols -> is_base c -> c_name c <> ld_size_key l ->
      exists rows, dget data (c_name c) = Some (CRows rows) /\ zlen rows = n.
End Loaders.
