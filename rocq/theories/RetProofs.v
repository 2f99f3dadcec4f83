(** * RetProofs: how long a FIFO memory keeps a sequence (proofs for C163) *)
From Coq Require Import Lia.
From Verif Require Import Py PyLemmas MemModel MemSpec MemProofs MemRun ExpMem.
Set Implicit Arguments. Unset Strict Implicit.
Open Scope list_scope.
Open Scope Z_scope.

Section P.
Context {S : Type} {HS : Scalar S}.
Lemma suffix_kept lk m : forall (pre suf : buffer S), suf <> [] -> total_len lk suf <= m -> exists pre', longest_suffix lk m (pre ++ suf) = pre' ++ suf.
Proof.
  induction pre as [|e pre IH]; intros suf Ne Hs.
  - exists []. destruct suf as [|x suf]; [congruence|]. cbn [app longest_suffix]. destruct (Z.leb_spec (total_len lk (x :: suf)) m); [reflexivity|lia].
  - cbn [app longest_suffix]. destruct (total_len lk (e :: pre ++ suf) <=? m); [exists (e :: pre); reflexivity|]. apply IH; auto.
Qed.
Lemma kept_on lk : forall (more : list (op S)) m pre suf, suf <> [] -> total_len lk suf + total_len lk (adds more) <= m ->
  exists pre' suf', snd (fold_left (fifo_spec_step lk) more (m, pre ++ suf)) = pre' ++ suf ++ suf'.
Proof.
  induction more as [|o r IH]; intros m pre suf Ne Hs; [exists pre, []; rewrite app_nil_r; reflexivity|]. cbn [fold_left].
  assert (Ea : adds (o :: r) = adds [o] ++ adds r) by (apply (adds_app [o] r)). rewrite Ea, total_len_app in Hs. pose proof (total_len_nonneg lk (adds r)) as P1.
  destruct o as [id s dr|c n dr|n| | |]; cbn [fifo_spec_step]; try (apply IH; auto; cbn in Hs |- *; lia).
  - cbn [adds] in Hs. pose proof (total_len_nonneg lk suf) as P2. assert (Q : total_len lk [(wrap_id id, s)] = seq_len lk s) by (unfold total_len; cbn; lia). rewrite Q in Hs.
    destruct (Z.leb_spec (seq_len lk s) m) as [Hl|Hl]; [|lia]. rewrite <- app_assoc.
    assert (Ne' : suf ++ [(wrap_id id, s)] <> []) by (destruct suf; discriminate).
    destruct (@suffix_kept lk m pre (suf ++ [(wrap_id id, s)])) as [pre' E]; auto; [rewrite total_len_app, Q; lia|]. rewrite E.
    destruct (IH m pre' (suf ++ [(wrap_id id, s)])) as (p2 & s2 & E2); auto; [rewrite total_len_app, Q; lia|]. exists p2, ((wrap_id id, s) :: s2). etransitivity; [exact E2|]. rewrite <- !app_assoc. reflexivity.
Qed.
Lemma retained (cols : list (column S)) lk maxlen smp ops id s dr more : config_ok cols lk -> fresh_sampler smp -> client_ok cols (ops ++ OAdd id s dr :: more) ->
  seq_len lk s + total_len lk (adds more) <= maxlen ->
  exists older newer, holds (run (t_create cols lk maxlen smp (EFifo fifo_init)) (ops ++ OAdd id s dr :: more)) (older ++ (wrap_id id, s) :: newer).
Proof.
  intros CO Fs Co Hl. destruct (fifo_contents maxlen CO Fs Co) as (Hh & _ & _). unfold fifo_spec in Hh. rewrite fold_left_app in Hh. cbn [fold_left] in Hh.
  assert (Hm : maxlen <= fst (fold_left (fifo_spec_step lk) ops (maxlen, []))).
  { destruct (fifo_contents maxlen CO Fs (client_app Co)) as (_ & Em & _). unfold fifo_spec in Em. rewrite <- Em.
    destruct (run_create maxlen CO Fs fresh_EFifo (client_app Co)) as (B & _ & _ & _ & _ & F & _). exact F. }
  destruct (fold_left (fifo_spec_step lk) ops (maxlen, [])) as [m b]. cbn [fst] in Hm. cbn [fifo_spec_step] in Hh. pose proof (total_len_nonneg lk (adds more)).
  assert (Q : total_len lk [(wrap_id id, s)] = seq_len lk s) by (unfold total_len; cbn; lia).
  destruct (Z.leb_spec (seq_len lk s) m) as [L|L]; [|lia].
  destruct (@suffix_kept lk m b [(wrap_id id, s)]) as [pre E]; [discriminate|lia|]. rewrite E in Hh.
  destruct (@kept_on lk more m pre [(wrap_id id, s)]) as (p & q & E2); [discriminate|lia|]. exists p, q. cbn [app] in E2. refine (eq_rect _ (holds _) Hh _ _). exact E2.
Qed.
Lemma suffix_of lk m : forall h : buffer S, exists pre, h = pre ++ longest_suffix lk m h.
Proof.
  induction h as [|e h [pre IH]]; [exists []; reflexivity|]. cbn [longest_suffix]. destruct (total_len lk (e :: h) <=? m); [exists []; reflexivity|].
  exists (e :: pre). cbn [app]. f_equal. exact IH.
Qed.
Lemma suffix_lost lk m : forall (pre : buffer S) x suf, m < total_len lk (x :: suf) -> longest_suffix lk m (pre ++ x :: suf) = longest_suffix lk m suf.
Proof.
  induction pre as [|e pre IH]; intros x suf H; cbn [app longest_suffix].
  - destruct (Z.leb_spec (total_len lk (x :: suf)) m); [lia|reflexivity].
  - destruct (Z.leb_spec (total_len lk (e :: pre ++ x :: suf)) m) as [L|L]; [|apply IH; auto].
    assert (E : total_len lk (e :: pre ++ x :: suf) = total_len lk (e :: pre) + total_len lk (x :: suf)) by (apply (total_len_app lk (e :: pre) (x :: suf))).
    pose proof (total_len_nonneg lk (e :: pre)). lia.
Qed.
Lemma forgotten (cols : list (column S)) lk maxlen smp ops id s dr more : config_ok cols lk -> fresh_sampler smp -> client_ok cols (ops ++ OAdd id s dr :: more) ->
  Forall no_resize (ops ++ OAdd id s dr :: more) -> Forall (fun e => seq_len lk (snd e) <= maxlen) (adds (ops ++ OAdd id s dr :: more)) ->
  maxlen < seq_len lk s + total_len lk (adds more) ->
  exists b, holds (run (t_create cols lk maxlen smp (EFifo fifo_init)) (ops ++ OAdd id s dr :: more)) b /\ ~ In (wrap_id id) (map fst b).
Proof.
  intros CO Fs Co Nr Fit Hl. eexists. split; [exact (fifo_longest_suffix CO Fs Co Nr Fit)|].
  destruct Co as (_ & _ & ND). rewrite adds_app in *. cbn [adds] in *.
  assert (L : maxlen < total_len lk ((wrap_id id, s) :: adds more)).
  { pose proof (total_len_app lk [(wrap_id id, s)] (adds more)) as E. cbn [app] in E. rewrite E. assert (Q : total_len lk [(wrap_id id, s)] = seq_len lk s) by (unfold total_len; cbn; lia). lia. }
  rewrite (suffix_lost (adds ops) L). destruct (suffix_of lk maxlen (adds more)) as [pre E]. intros I.
  rewrite map_app in ND. cbn [map fst] in ND. apply NoDup_remove_2 in ND. apply ND. apply in_or_app. right. rewrite E, map_app. apply in_or_app. auto.
Qed.
End P.

From Verif Require Import MemExamples.
Open Scope string_scope.
Open Scope list_scope.
Open Scope Z_scope.
Lemma random_drops : exists (ops : list (op Z)) id s dr more b,
  client_ok ex_cols (ops ++ OAdd id s dr :: more) /\ seq_len "actions" s + total_len "actions" (adds more) <= 7 /\
  holds (run (t_create ex_cols "actions" 7 (SWeighted (w_init false)) (EWeighted (w_init false))) (ops ++ OAdd id s dr :: more)) b /\ ~ In (wrap_id id) (map fst b).
Proof.
  exists [OAdd 7 (ex_seq 0 3) []], 8, (ex_seq 10 3), [], [OAdd 9 (ex_seq 20 4) [(8, 0)]], [(7, ex_seq 0 3); (9, ex_seq 20 4)].
  split; [solve_client|]. split; [vm_compute; discriminate|]. split.
  - intros c Ic. cbn in Ic. repeat (destruct Ic as [<-|Ic]; [vm_compute; reflexivity|]). destruct Ic.
  - vm_compute. intuition discriminate.
Qed.
