(** * AgentProofs: the agent proxy *)
From Coq Require Import Lia.
From Verif Require Import Py PyLemmas MemModel ProxyModel AgentModel AgentSpec.
Open Scope string_scope.
Open Scope list_scope.
Open Scope nat_scope.
Set Implicit Arguments. Unset Strict Implicit.

Section Agent.
Context {S : Type} {HS : Scalar S}.
Notation row := (list S).
Implicit Types (ap : aproxy (S:=S)) (observations : dict Z (obs S)).

Lemma active_waiting observations : active_agents observations = map fst (waiting observations).
Proof.
  unfold active_agents, waiting. f_equal. apply filter_ext. intros [a o]. simpl. destruct (o_state o); reflexivity.
Qed.
Lemma In_waiting observations a o : In (a, o) (waiting observations) <-> In (a, o) observations /\ waits o.
Proof.
  unfold waiting, waits. rewrite filter_In. simpl. split; intros [A B]; split; auto.
  - destruct (o_state o); try discriminate B; split; discriminate.
  - destruct (o_state o); auto; destruct B; congruence.
Qed.

Lemma rmapM_ok A B (f : A -> res B) (g : A -> B) l : (forall x, In x l -> f x = Ok (g x)) -> rmapM f l = Ok (map g l).
Proof.
  induction l as [|x t IH]; intros E; simpl; auto.
  rewrite E by (left; auto). simpl. rewrite IH by (intros; apply E; right; auto). reflexivity.
Qed.

Lemma gather_ok ap observations size k : NoDup (dkeys observations) ->
  inputs_fit (ap_in ap) size observations -> sizes_fit (ap_in ap) size (ap_sizes ap) -> In k (ap_in ap) ->
  gather ap observations (active_agents observations) k =
  Ok (map (fun ao => match dget (o_data (snd ao)) k with Some r => r | None => [] end) (waiting observations)).
Proof.
  intros N F Zf Hk. unfold gather. rewrite active_waiting.
  set (g := fun ao : Z * obs S => match dget (o_data (snd ao)) k with Some r => r | None => [] end).
  assert (E : rmapM (fun a => match dget observations a with
                         | None => Err KeyError
                         | Some o => match dget (o_data o) k with None => Err KeyError | Some r => Ok r end
                         end) (map fst (waiting observations)) = Ok (map g (waiting observations))).
  { assert (K : forall l, (forall ao, In ao l -> In ao (waiting observations)) ->
      rmapM (fun a => match dget observations a with
                         | None => Err KeyError
                         | Some o => match dget (o_data o) k with None => Err KeyError | Some r => Ok r end
                         end) (map fst l) = Ok (map g l)).
    { induction l as [|[a o] t IH]; intros Hl; simpl; auto.
      assert (Hao : In (a, o) (waiting observations)) by (apply Hl; left; auto).
      apply In_waiting in Hao. destruct Hao as [Hin Hw].
      rewrite (In_dget _ _ _ N Hin). destruct (F a o k Hin Hw Hk) as [r [Er _]]. rewrite Er. simpl.
      rewrite IH by (intros; apply Hl; right; auto). simpl. unfold g at 2. simpl. rewrite Er. reflexivity. }
    apply K. auto. }
  rewrite E. cbn [rbind].
  assert (Len : Forall (fun r => List.length r = size k) (map g (waiting observations))).
  { apply Forall_forall. intros r Hr. apply in_map_iff in Hr. destruct Hr as [[a o] [<- Hao]].
    apply In_waiting in Hao. destruct Hao as [Hin Hw]. destruct (F a o k Hin Hw Hk) as [r [Er Lr]].
    unfold g. simpl. rewrite Er. auto. }
  set (rows := map g (waiting observations)) in *. clearbody rows.
  assert (A : np_array rows = Ok rows).
  { destruct rows as [|r t]; auto. simpl. inversion Len; subst.
    replace (forallb _ t) with true; auto. symmetry. apply forallb_forall. intros x Hx.
    rewrite Forall_forall in H2. rewrite (H2 _ Hx). apply Nat.eqb_eq. auto. }
  rewrite A. cbn [rbind]. unfold to_space, sizes_fit in *. destruct (ap_sizes ap) as [d|]; auto.
  rewrite (Zf k Hk). destruct rows as [|r t]; auto. inversion Len; subst. rewrite H1, Nat.eqb_refl. reflexivity.
Qed.

Lemma index_of_app k pre t : ~ In k pre -> index_of k (pre ++ k :: t) = List.length pre.
Proof.
  induction pre as [|x p IH]; intros N; simpl.
  - rewrite String.eqb_refl. reflexivity.
  - destruct (String.eqb_spec k x) as [->|D]; [destruct N; left; auto|]. f_equal. apply IH. intros Hin. apply N. right. auto.
Qed.
Lemma set_slot_app A (pre : list A) y t x : set_slot (pre ++ y :: t) (List.length pre) x = pre ++ x :: t.
Proof. induction pre; simpl; congruence. Qed.

Lemma fill_ok ap observations size : NoDup (dkeys observations) -> NoDup (ap_in ap) ->
  inputs_fit (ap_in ap) size observations -> sizes_fit (ap_in ap) size (ap_sizes ap) ->
  fill_slots ap observations (active_agents observations) (ap_in ap) (repeat None (List.length (ap_in ap)))
  = Ok (map Some (stacked (ap_in ap) (waiting observations))).
Proof.
  intros N Nk F Zf.
  assert (K : forall suf pre, ap_in ap = pre ++ suf ->
    fill_slots ap observations (active_agents observations) suf
      (map Some (stacked pre (waiting observations)) ++ repeat None (List.length suf))
    = Ok (map Some (stacked (ap_in ap) (waiting observations)))).
  { induction suf as [|k t IH]; intros pre E; simpl.
    - rewrite app_nil_r in *. subst pre. reflexivity.
    - rewrite (gather_ok N F Zf) by (rewrite E; apply in_or_app; right; left; auto). cbn [rbind].
      rewrite E at 1. rewrite index_of_app.
      + assert (L : List.length (map Some (stacked pre (waiting observations))) = List.length pre).
        { unfold stacked. rewrite !map_length. reflexivity. }
        rewrite <- L at 1. rewrite set_slot_app. 
        specialize (IH (pre ++ [k])). rewrite <- app_assoc in IH. specialize (IH E).
        unfold stacked in IH at 1. rewrite !map_app in IH. simpl in IH. rewrite <- app_assoc in IH. exact IH.
      + rewrite E in Nk. apply NoDup_remove_2 in Nk. intros Hin. apply Nk. apply in_or_app. auto. }
  apply (K (ap_in ap) []). reflexivity.
Qed.

Lemma call_form ap observations size : NoDup (dkeys observations) -> NoDup (ap_in ap) -> observations <> [] ->
  inputs_fit (ap_in ap) size observations -> sizes_fit (ap_in ap) size (ap_sizes ap) ->
  agent_call ap observations =
  rbind (run_policy ap (map Some (stacked (ap_in ap) (waiting observations))))
        (responses 0 (map fst (waiting observations))).
Proof.
  intros N Nk Ne F Zf. unfold agent_call. destruct observations as [|x t]; [congruence|].
  cbn [List.length Nat.eqb]. rewrite (fill_ok N Nk F Zf). cbn [rbind]. rewrite active_waiting. reflexivity.
Qed.

Lemma dset_fresh (V : Type) (d : dict string V) k v : ~ In k (dkeys d) -> dset d k v = d ++ [(k, v)].
Proof.
  induction d as [|[k' v'] d IH]; intros N; cbn [dset app]; auto.
  destruct (keqb k k') eqn:E; [exfalso; apply N; left; apply keqb_eq in E; auto|].
  f_equal. apply IH. intros I. apply N. right. auto.
Qed.

Lemma name_outputs_ok keys : forall outs (d : dict string (list row)), NoDup keys -> (forall k, In k keys -> ~ In k (dkeys d)) ->
  List.length keys <= List.length outs -> name_outputs keys outs d = Ok (d ++ combine keys outs).
Proof.
  induction keys as [|k t IH]; intros outs d Nk Dis L; simpl.
  - rewrite app_nil_r. reflexivity.
  - destruct outs as [|o os]; [simpl in L; lia|]. inversion Nk; subst.
    rewrite dset_fresh by (apply Dis; left; auto). rewrite IH; auto.
    + simpl. rewrite <- app_assoc. reflexivity.
    + intros k' Hk' Hin. unfold dkeys in Hin. rewrite map_app in Hin. apply in_app_or in Hin. destruct Hin as [Hin|[<-|[]]].
      * apply (Dis k'); [right|]; auto.
      * contradiction.
    + simpl in L. lia.
Qed.

Lemma plain_outputs_ok keys (o : list row) : forall d : dict string (list row), NoDup keys -> (forall k, In k keys -> ~ In k (dkeys d)) ->
  fold_left (fun d k => dset d k o) keys d = d ++ map (fun k => (k, o)) keys.
Proof.
  induction keys as [|k t IH]; intros d Nk Dis; simpl.
  - rewrite app_nil_r. reflexivity.
  - inversion Nk; subst.
    rewrite dset_fresh by (apply Dis; left; auto). rewrite IH; auto.
    + rewrite <- app_assoc. reflexivity.
    + intros k' Hk' Hin. unfold dkeys in Hin. rewrite map_app in Hin. apply in_app_or in Hin. destruct Hin as [Hin|[<-|[]]].
      * apply (Dis k'); [right|]; auto.
      * contradiction.
Qed.

Lemma take_row_ok i (outputs : dict string (list row)) : forall d, NoDup (dkeys outputs) ->
  (forall k, In k (dkeys outputs) -> ~ In k (dkeys d)) ->
  Forall (fun ko => i < List.length (snd ko)) outputs ->
  take_row i outputs d = Ok (d ++ map (fun ko => (fst ko, nth i (snd ko) [])) outputs).
Proof.
  induction outputs as [|[k o] t IH]; intros d Nk Dis F; simpl.
  - rewrite app_nil_r. reflexivity.
  - inversion F; subst. simpl in H1. rewrite (nth_error_nth' o [] H1). inversion Nk; subst.
    rewrite dset_fresh by (apply Dis; left; auto). rewrite IH; auto.
    + rewrite <- app_assoc. reflexivity.
    + intros k' Hk' Hin. unfold dkeys in Hin. rewrite map_app in Hin. apply in_app_or in Hin. destruct Hin as [Hin|[<-|[]]].
      * apply (Dis k'); [right|]; auto.
      * contradiction.
Qed.

Lemma responses_ok (outputs : dict string (list row)) active : forall i, NoDup (dkeys outputs) ->
  Forall (fun ko => i + List.length active <= List.length (snd ko)) outputs ->
  responses i active outputs =
  Ok (combine active (map (fun j => mkResp (map (fun ko => (fst ko, nth j (snd ko) [])) outputs) []) (seq i (List.length active)))).
Proof.
  induction active as [|a t IH]; intros i Nk F; simpl; auto.
  rewrite take_row_ok; auto.
  - cbn [rbind]. rewrite IH; auto. eapply Forall_impl; [|exact F]. simpl. intros; lia.
  - eapply Forall_impl; [|exact F]. simpl. intros; lia.
Qed.

Lemma dkeys_combine (ks : list string) (vs : list (list row)) : List.length ks <= List.length vs -> dkeys (combine ks vs) = ks.
Proof. revert vs. induction ks as [|k t IH]; intros [|v vs] L; simpl in *; try lia; auto. f_equal. apply IH. lia. Qed.

Lemma firstn_skipn_no_logprob A (l : list A) : firstn 1 l ++ skipn 2 l = no_logprob l.
Proof. destruct l as [|a [|b t]]; reflexivity. Qed.
Lemma no_logprob_length A (l : list A) n : Datatypes.S n <= List.length l -> n <= List.length (no_logprob l).
Proof. destruct l as [|a [|b t]]; simpl; lia. Qed.
Lemma no_logprob_In A (l : list A) x : In x (no_logprob l) -> In x l.
Proof. destruct l as [|a [|b t]]; simpl; tauto. Qed.

(** Any policy: agent number [i] gets row [i]. *)
Lemma call_batch ap observations size p outs : NoDup (dkeys observations) -> NoDup (ap_in ap) -> NoDup (ap_out ap) ->
  observations <> [] -> inputs_fit (ap_in ap) size observations -> sizes_fit (ap_in ap) size (ap_sizes ap) ->
  ap_policy ap = WithLogprobs p ->
  p (map Some (stacked (ap_in ap) (waiting observations))) = Ok outs ->
  Forall (fun t => List.length t = List.length (waiting observations)) outs ->
  Datatypes.S (List.length (ap_out ap)) <= List.length outs ->
  agent_call ap observations =
  Ok (combine (map fst (waiting observations))
       (map (fun i => mkResp (combine (ap_out ap) (map (fun t => nth i t []) (no_logprob outs))) [])
            (seq 0 (List.length (waiting observations))))).
Proof.
  intros N Nk No Ne F Zf P Ep Fo Lo. rewrite (call_form N Nk Ne F Zf). unfold run_policy. rewrite P, Ep. cbn [rbind].
  rewrite firstn_skipn_no_logprob. pose proof (no_logprob_length Lo) as L'.
  rewrite name_outputs_ok; auto. cbn [rbind app].
  assert (W : Forall (fun t => List.length t = List.length (waiting observations)) (no_logprob outs)).
  { rewrite Forall_forall in *. intros t Ht. apply Fo. apply no_logprob_In. auto. }
  rewrite responses_ok.
  - rewrite map_length. do 2 f_equal. apply map_ext. intros i. f_equal.
    generalize (no_logprob outs). clear. induction (ap_out ap) as [|k t IH]; intros [|o os]; simpl; auto. f_equal. apply IH.
  - rewrite dkeys_combine; auto.
  - apply Forall_forall. intros [k o] Hko. simpl. apply in_combine_r in Hko. rewrite Forall_forall in W.
    rewrite (W _ Hko), map_length. lia.
Qed.

Lemma input_row_own keys : forall (agents : list (Z * obs S)) i a o, nth_error agents i = Some (a, o) ->
  input_row (stacked keys agents) i = own_input keys o.
Proof.
  intros agents i a o E. unfold input_row, stacked, own_input. rewrite map_map. apply map_ext. intros k.
  erewrite nth_error_nth; [reflexivity|]. rewrite nth_error_map, E. reflexivity.
Qed.

Lemma stacked_sizes keys (agents : list (Z * obs S)) : Forall (fun t => List.length t = List.length agents) (stacked keys agents).
Proof. unfold stacked. apply Forall_forall. intros t Ht. apply in_map_iff in Ht. destruct Ht as [k [<- _]]. apply map_length. Qed.

Lemma combine_map_seq A B (f : nat -> B) (l : list A) : forall s,
  combine l (map f (seq s (List.length l))) = map (fun xi => (fst xi, f (snd xi))) (combine l (seq s (List.length l))).
Proof. induction l as [|x t IH]; intros s; simpl; auto. f_equal. apply IH. Qed.

Lemma combine_ext A B (ks : list A) (l l' : list B) :
  (forall j, j < List.length ks -> nth_error l j = nth_error l' j) -> combine ks l = combine ks l'.
Proof.
  revert l l'. induction ks as [|k t IH]; intros l l' E; simpl; auto.
  pose proof (E 0 ltac:(simpl; lia)) as E0. destruct l as [|x l]; destruct l' as [|y l']; simpl in E0; try discriminate; auto.
  injection E0 as ->. f_equal. apply IH. intros j Hj. apply (E (Datatypes.S j)). simpl. lia.
Qed.

Lemma nth_no_logprob A (l : list A) j : Datatypes.S j < List.length l ->
  nth_error (no_logprob l) j = nth_error l (match j with 0 => 0 | _ => Datatypes.S j end).
Proof. intros L. destruct l as [|a [|b t]]; simpl in L; try lia. destruct j; reflexivity. Qed.

Lemma build_list A B (l : list A) (g : nat -> B) (h : A -> B) : forall s,
  (forall i x, nth_error l i = Some x -> g (s + i) = h x) ->
  map g (seq s (List.length l)) = map h l.
Proof.
  induction l as [|x t IH]; intros s E; simpl; auto. f_equal.
  - rewrite <- (E 0 x eq_refl). f_equal. lia.
  - apply IH. intros i y Ey. replace (Datatypes.S s + i) with (s + Datatypes.S i) by lia. apply E. auto.
Qed.

Lemma combine_fst_map (A B C : Type) (l : list (A * B)) (h : A * B -> C) :
  combine (map fst l) (map h l) = map (fun x => (fst x, h x)) l.
Proof. induction l; simpl; congruence. Qed.

(** A network that works row by row: each agent gets the answer to its own input. *)
Lemma call_rows ap observations size p n_out f : NoDup (dkeys observations) -> NoDup (ap_in ap) -> NoDup (ap_out ap) ->
  observations <> [] -> inputs_fit (ap_in ap) size observations -> sizes_fit (ap_in ap) size (ap_sizes ap) ->
  ap_policy ap = WithLogprobs p -> row_by_row n_out f p -> Datatypes.S (List.length (ap_out ap)) <= n_out ->
  agent_call ap observations =
  Ok (map (fun ao => (fst ao, mkResp (combine (ap_out ap) (no_logprob (f (own_input (ap_in ap) (snd ao))))) []))
          (waiting observations)).
Proof.
  intros N Nk No Ne F Zf P R Lo.
  destruct (R (stacked (ap_in ap) (waiting observations)) _ (stacked_sizes _ _)) as [outs [Ep [Lout Ho]]].
  rewrite (call_batch N Nk No Ne F Zf P Ep).
  - f_equal. rewrite (@build_list _ _ (waiting observations) _
      (fun ao => mkResp (combine (ap_out ap) (no_logprob (f (own_input (ap_in ap) (snd ao))))) [])).
    + apply combine_fst_map.
    + intros i [a o] Ei. simpl. f_equal. apply combine_ext. intros j Hj.
      assert (Hi : i < List.length (waiting observations)) by (apply nth_error_Some; congruence).
      rewrite nth_error_map, nth_no_logprob by lia.
      set (j' := match j with 0 => 0 | _ => Datatypes.S j end).
      assert (Hj' : j' < List.length outs) by (unfold j'; destruct j; lia).
      destruct (nth_error outs j') as [out|] eqn:Eo; [|apply nth_error_None in Eo; lia].
      destruct (Ho _ _ Eo) as [Lo' Hrow]. specialize (Hrow i Hi). simpl.
      rewrite (input_row_own (ap_in ap) Ei) in Hrow.
      assert (Hfl : List.length outs <= List.length (f (own_input (ap_in ap) o))).
      { destruct (Nat.le_gt_cases (List.length outs) (List.length (f (own_input (ap_in ap) o)))) as [L|L]; auto.
        exfalso. destruct outs as [|o1 os]; [simpl in *; lia|].
        destruct (nth_error (o1 :: os) (List.length (f (own_input (ap_in ap) o)))) as [out'|] eqn:E'; [|apply nth_error_None in E'; lia].
        destruct (Ho _ _ E') as [L1 H1]. specialize (H1 i Hi). rewrite (input_row_own (ap_in ap) Ei) in H1.
        rewrite (proj2 (nth_error_None _ _) (le_n _)) in H1. apply nth_error_None in H1. lia. }
      rewrite (nth_error_nth' out [] (n := i)) in Hrow by lia.
      rewrite nth_no_logprob by lia. fold j'. symmetry. exact (eq_sym Hrow).
  - apply Forall_forall. intros t Ht. apply In_nth_error in Ht. destruct Ht as [j Ej]. apply (Ho _ _ Ej).
  - lia.
Qed.

Lemma call_plain ap observations size p g : NoDup (dkeys observations) -> NoDup (ap_in ap) -> NoDup (ap_out ap) ->
  observations <> [] -> inputs_fit (ap_in ap) size observations -> sizes_fit (ap_in ap) size (ap_sizes ap) ->
  ap_policy ap = Plain p ->
  (forall args n, Forall (fun t => List.length t = n) args ->
     p (map Some args) = Ok (map (fun i => g (input_row args i)) (seq 0 n))) ->
  agent_call ap observations =
  Ok (map (fun ao => (fst ao, mkResp (map (fun k => (k, g (own_input (ap_in ap) (snd ao)))) (ap_out ap)) []))
          (waiting observations)).
Proof.
  intros N Nk No Ne F Zf P R. rewrite (call_form N Nk Ne F Zf). unfold run_policy.
  rewrite P, (R _ _ (stacked_sizes _ _)). cbn [rbind].
  rewrite plain_outputs_ok by auto. cbn [app].
  set (out := map (fun i => g (input_row (stacked (ap_in ap) (waiting observations)) i)) (seq 0 (List.length (waiting observations)))).
  rewrite responses_ok.
  - f_equal. rewrite map_length.
    rewrite (@build_list _ _ (waiting observations) _ (fun ao => mkResp (map (fun k => (k, g (own_input (ap_in ap) (snd ao)))) (ap_out ap)) [])).
    + apply combine_fst_map.
    + intros i [a o] Ei. simpl. f_equal. rewrite map_map. apply map_ext. intros k. simpl. f_equal.
      assert (Hi : i < List.length (waiting observations)) by (apply nth_error_Some; congruence).
      unfold out. apply nth_error_nth. rewrite nth_error_map, (nth_error_nth' _ 0) by (rewrite seq_length; auto).
      rewrite seq_nth by auto. simpl. f_equal. f_equal. eapply input_row_own; eauto.
  - unfold dkeys. rewrite map_map. simpl. rewrite map_id. auto.
  - apply Forall_forall. intros ko Hko. apply in_map_iff in Hko. destruct Hko as [k [<- _]]. simpl.
    unfold out. rewrite !map_length, seq_length. lia.
Qed.

(** All episodes have ended: the policy is called nevertheless, without any row. *)
Lemma call_all_ended ap observations p e : NoDup (dkeys observations) -> NoDup (ap_in ap) -> observations <> [] ->
  ap_sizes ap = None -> ap_policy ap = WithLogprobs p ->
  (forall a o, In (a, o) observations -> ~ waits o) ->
  p (map (fun _ => Some []) (ap_in ap)) = Err e ->
  agent_call ap observations = Err e.
Proof.
  intros N Nk Ne Zf P A Ep.
  assert (W : waiting observations = []).
  { destruct (waiting observations) as [|[a o] t] eqn:E; auto. exfalso.
    assert (H : In (a, o) (waiting observations)) by (rewrite E; left; auto).
    apply In_waiting in H. destruct H as [H1 H2]. exact (A _ _ H1 H2). }
  rewrite (@call_form ap observations (fun _ => 0) N Nk Ne).
  - rewrite W. unfold run_policy. rewrite P.
    replace (map Some (stacked (ap_in ap) [])) with (map (fun _ : string => Some (@nil row)) (ap_in ap)).
    + rewrite Ep. reflexivity.
    + unfold stacked. rewrite map_map. reflexivity.
  - intros a o k Hin Hw. destruct (A _ _ Hin Hw).
  - rewrite Zf. exact I.
Qed.

(** A key that is given twice: the second argument of the policy is None. *)
Lemma call_twice ap observations size p k : NoDup (dkeys observations) -> observations <> [] ->
  ap_in ap = [k; k] -> inputs_fit [k] size observations -> ap_sizes ap = None -> ap_policy ap = WithLogprobs p ->
  (forall x, p [x; None] = Err AttributeError) -> agent_call ap observations = Err AttributeError.
Proof.
  intros N Ne K F Zf P Ep. unfold agent_call. destruct observations as [|x t] eqn:Eo; [congruence|].
  cbn [List.length Nat.eqb]. rewrite <- Eo in *. rewrite K.
  assert (G : gather ap observations (active_agents observations) k =
    Ok (map (fun ao => match dget (o_data (snd ao)) k with Some r => r | None => [] end) (waiting observations))).
  { pose (ap' := mkAp (ap_policy ap) [k] (ap_out ap) (ap_sizes ap)).
    assert (E : forall l, gather ap observations l k = gather ap' observations l k) by reflexivity.
    rewrite E. apply (@gather_ok ap' observations size); auto.
    - simpl. rewrite Zf. exact I.
    - left. reflexivity. }
  cbn [fill_slots List.length repeat]. rewrite G. cbn [rbind]. rewrite K. cbn [index_of]. rewrite String.eqb_refl.
  cbn [set_slot]. unfold run_policy. rewrite P, Ep. reflexivity.
Qed.
End Agent.

Lemma call_nobody (S : Type) (ap : aproxy (S:=S)) : agent_call ap [] = Err AssertionError.
Proof. reflexivity. Qed.
