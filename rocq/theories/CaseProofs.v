(** * CaseProofs: how often a metric is written, and cases for theorems of other files *)
From Verif Require Import Py PyLemmas LogModel LogSpec LogProofs.
Set Implicit Arguments.
Unset Strict Implicit.
Open Scope string_scope.
Open Scope list_scope.
Open Scope Z_scope.

Lemma zlen_app_ (A : Type) (a b : list A) : zlen (a ++ b) = zlen a + zlen b.
Proof. unfold zlen. rewrite app_length. lia. Qed.
Lemma zlen_map_ (A B : Type) (f : A -> B) (a : list A) : zlen (map f a) = zlen a.
Proof. unfold zlen. rewrite map_length. auto. Qed.
Lemma windows_length step ws ev : write_windows step ws = (ev, Ok tt) -> zlen ev = zlen ws.
Proof.
  revert ev. induction ws as [|[k [w n]] r IH]; intros ev H; cbn [write_windows] in H.
  - injection H as <-. reflexivity.
  - destruct w; [discriminate|]. destruct (write_windows step r) as [ev' e'] eqn:E'. injection H as <- ->.
    specialize (IH _ eq_refl). unfold zlen in *. cbn [List.length]. lia.
Qed.
Lemma one_length (P : Type) step (s : logs P) ev : write_one step s = (ev, Ok tt) ->
  zlen ev = zlen (lg_scalars s) + zlen (lg_windows s) + zlen (lg_cumulative s).
Proof.
  unfold write_one. destruct (write_windows step (lg_windows s)) as [ew [[]|e]] eqn:E; [|discriminate].
  intros H. injection H as <-. rewrite !zlen_app_, !zlen_map_, (windows_length E). lia.
Qed.
Lemma all_length (P : Type) step (ls : list (logs P)) ev : write_all step ls = (ev, Ok tt) ->
  zlen ev = zsum (map (fun s => zlen (lg_scalars s) + zlen (lg_windows s) + zlen (lg_cumulative s)) ls).
Proof.
  revert ev. induction ls as [|s r IH]; intros ev H; cbn [write_all] in H.
  - injection H as <-. reflexivity.
  - destruct (write_one step s) as [e1 [[]|e]] eqn:E1; [|discriminate].
    destruct (write_all step r) as [e2 x] eqn:E2. injection H as <- ->.
    rewrite zlen_app_, (one_length E1), (IH _ eq_refl). reflexivity.
Qed.
Lemma cycle_length (P : Type) (ls : list (logs P)) step0 samples0 elapsed step samples ev :
  tensorboard_end_cycle ls step0 samples0 elapsed step samples = (ev, Ok tt) ->
  zlen ev = zsum (map (fun s => zlen (lg_scalars s) + zlen (lg_windows s) + zlen (lg_cumulative s)) ls) + 2.
Proof.
  unfold tensorboard_end_cycle. destruct (write_all step ls) as [e1 [[]|e]] eqn:E1; [|discriminate].
  destruct (elapsed =? 0); [discriminate|]. intros H. injection H as <-.
  rewrite zlen_app_, (all_length E1). reflexivity.
Qed.
