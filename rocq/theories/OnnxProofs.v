(** * OnnxProofs *)
From Verif Require Import Py PyLemmas CkptModel LogModel LockModel LockProofs CrudModel CrudSpec CrudProofs CrudMore OnnxModel OnnxSpec.
From Coq Require Import Sorted.
Set Implicit Arguments.
Unset Strict Implicit.
Open Scope string_scope.
Open Scope list_scope.
Open Scope Z_scope.

Section Proofs.
Context {T : Type}.
Notation osys := (osys T).
Notation config := CrudModel.config.
Variable c : config.
Variable world : nat -> luck T.

(** ** The queue *)
Definition answered (y : osys) : Prop :=
  forall id it, dget (o_answers y) id = Some it <-> exists s, In s (o_served y) /\ rq_id (sv_req s) = id /\ sv_result s = Ok it.
Definition qinv (y : osys) : Prop :=
  o_puts y = map (@sv_req T) (o_served y) ++ in_hand y ++ o_queue y
  /\ map rq_id (o_puts y) = seq 0 (o_next y) /\ answered y.

Ltac simp := cbn [o_meta o_queue o_next o_answers o_counter o_store o_main o_threads o_adds o_puts o_served
  m_todo m_place m_done r_todo r_place r_done with_main with_thread add_metadata put ostep] in *.

Lemma qinv_put y y' md args when : qinv y -> o_puts y' = o_puts y ++ [mkRequest (o_next y) md args when] ->
  o_queue y' = o_queue y ++ [mkRequest (o_next y) md args when] -> o_next y' = S (o_next y) -> in_hand y' = in_hand y ->
  o_answers y' = o_answers y -> o_served y' = o_served y -> qinv y'.
Proof.
  intros (A & B & C) E1 E2 E3 E4 E5 E6. split; [|split].
  - rewrite E1, E2, E4, E6, A, <- !app_assoc. auto.
  - rewrite E1, E3, map_app, B. cbn [map rq_id]. rewrite seq_S. auto.
  - unfold answered. rewrite E5, E6. exact C.
Qed.
Lemma qinv_same y y' : qinv y -> o_puts y' = o_puts y -> o_queue y' = o_queue y -> o_next y' = o_next y -> in_hand y' = in_hand y ->
  o_answers y' = o_answers y -> o_served y' = o_served y -> qinv y'.
Proof.
  intros (A & B & C) E1 E2 E3 E4 E5 E6. split; [|split]; try congruence. unfold answered. rewrite E5, E6. exact C.
Qed.
Lemma served_once y s s' : qinv y -> In s (o_served y) -> In s' (o_served y) -> rq_id (sv_req s) = rq_id (sv_req s') -> s = s'.
Proof.
  intros (A & B & _) I J E. assert (ND : NoDup (map (fun s => rq_id (sv_req s)) (o_served y))).
  { assert (N : NoDup (map rq_id (o_puts y))) by (rewrite B; apply seq_NoDup). rewrite A, map_app, map_map in N.
    clear - N. induction (map _ (o_served y)) as [|x l IH]; [constructor|]. simpl in N. inversion N; subst. constructor; auto.
    intros X. apply H1. apply in_or_app. auto. }
  revert ND I J. generalize (o_served y). induction l as [|x l IH]; intros ND I J; [destruct I|].
  cbn [map] in ND. apply NoDup_cons_iff in ND. destruct ND as [N1 N2]. destruct I as [->|I], J as [->|J]; auto.
  - exfalso. apply N1. rewrite E. apply (in_map (fun s => rq_id (sv_req s))). auto.
  - exfalso. apply N1. rewrite <- E. apply (in_map (fun s => rq_id (sv_req s))). auto.
Qed.
Lemma hand_fresh y r : qinv y -> In r (in_hand y) -> forall s, In s (o_served y) -> rq_id (sv_req s) <> rq_id r.
Proof.
  intros (A & B & _) H s I E. assert (N : NoDup (map rq_id (o_puts y))) by (rewrite B; apply seq_NoDup).
  rewrite A, map_app in N. apply (@NoDup_app_disjoint _ _ _ (rq_id r) N).
  - rewrite map_map. rewrite <- E. apply (in_map (fun s => rq_id (sv_req s))). auto.
  - rewrite map_app. apply in_or_app. left. apply in_map. auto.
Qed.

(** Every step either puts a request, or takes one out of the queue, or serves one,
    or leaves the queue alone. *)
Inductive queue_step (y y' : osys) : Prop :=
| qs_same : o_puts y' = o_puts y -> o_queue y' = o_queue y -> o_next y' = o_next y -> in_hand y' = in_hand y ->
    o_answers y' = o_answers y -> o_served y' = o_served y -> o_counter y' = o_counter y -> o_store y' = o_store y -> queue_step y y'
| qs_put md args when : o_puts y' = o_puts y ++ [mkRequest (o_next y) md args when] ->
    o_queue y' = o_queue y ++ [mkRequest (o_next y) md args when] -> o_next y' = S (o_next y) -> in_hand y' = in_hand y ->
    o_answers y' = o_answers y -> o_served y' = o_served y -> o_counter y' = o_counter y -> o_store y' = o_store y -> queue_step y y'
| qs_take r : o_puts y' = o_puts y -> o_queue y = r :: o_queue y' -> o_next y' = o_next y -> in_hand y = [] -> in_hand y' = [r] ->
    o_answers y' = o_answers y -> o_served y' = o_served y -> o_counter y' = o_counter y -> o_store y' = o_store y -> queue_step y y'
| qs_serve r res : in_hand y = [r] -> in_hand y' = [] -> o_puts y' = o_puts y -> o_queue y' = o_queue y -> o_next y' = o_next y ->
    export_onnx c (world (List.length (o_served y))) (o_counter y) (rq_meta r) (o_store y) = (res, o_counter y', o_store y') ->
    o_served y' = o_served y ++ [mkServed r res (match res with Ok it => dget (s_fs (o_store y')) (it_path it) | Err _ => None end)] ->
    o_answers y' = match res with Ok it => dset (o_answers y) (rq_id r) it | Err _ => o_answers y end -> queue_step y y'.

Lemma step_queue u (y : osys) : queue_step y (ostep c world u y).
Proof.
  destruct u as [|i]; simp.
  - unfold main_step. destruct (m_place (o_main y)) as [|md args when|own|own r|id] eqn:P.
    + destruct (m_todo (o_main y)) as [|[|args|k v] rest]; apply qs_same; simp; auto; unfold in_hand; simp; rewrite ?P; auto.
    + eapply qs_put; simp; eauto. unfold in_hand. simp. rewrite P. auto.
    + destruct (o_queue y) as [|r rest] eqn:Q.
      * destruct own; [|destruct (m_todo (o_main y))]; apply qs_same; simp; auto; unfold in_hand; simp; rewrite P; auto.
      * eapply qs_take with (r := r); simp; auto. unfold in_hand. rewrite P. auto.
    + destruct (export_onnx c (world (List.length (o_served y))) (o_counter y) (rq_meta r) (o_store y)) as [[res n] s] eqn:E.
      assert (HH : in_hand y = [r]) by (unfold in_hand; rewrite P; auto).
      destruct res as [it|e]; simp.
      * eapply qs_serve with (r := r) (res := Ok it); simp; auto.
      * destruct (m_todo (o_main y)); eapply qs_serve with (r := r) (res := Err e); simp; auto.
    + destruct (dget (o_answers y) id); [destruct (m_todo (o_main y))|]; apply qs_same; simp; auto; unfold in_hand; simp; rewrite ?P; auto.
  - unfold req_step. destruct (nth_error (o_threads y) i) as [t|]; [|apply qs_same; auto].
    destruct (r_place t) as [|md args when|id].
    + destruct (r_todo t) as [|[args|k v] rest]; apply qs_same; simp; auto.
    + eapply qs_put; simp; eauto.
    + destruct (dget (o_answers y) id); apply qs_same; simp; auto.
Qed.

Lemma qinv_step u y : qinv y -> qinv (ostep c world u y).
Proof.
  intros Q. destruct (step_queue u y) as [E1 E2 E3 E4 E5 E6 _ _|md args when E1 E2 E3 E4 E5 E6 _ _|r E1 E2 E3 E4 E5 E6 E7 _ _|r res E1 E2 E3 E4 E5 E6 E7 E8].
  - eapply qinv_same; eauto.
  - eapply qinv_put; eauto.
  - destruct Q as (A & B & C). rewrite E2, E4 in A. cbn [app] in A. split; [|split].
    + rewrite E1, E5, E7. cbn [app]. exact A.
    + congruence.
    + unfold answered. rewrite E6, E7. exact C.
  - pose proof (hand_fresh (r := r) Q) as HF. rewrite E1 in HF. specialize (HF (or_introl eq_refl)).
    destruct Q as (A & B & C). rewrite E1 in A. split; [|split].
    + rewrite E3, E2, E4, E7, map_app, A, <- app_assoc. auto.
    + congruence.
    + unfold answered. intros id it. rewrite E7, E8. destruct res as [it'|e].
      * destruct (Nat.eq_dec id (rq_id r)) as [->|N].
        -- rewrite dget_dset_eq. split.
           ++ intros H. injection H as ->. eexists. split; [apply in_or_app; right; left; reflexivity|]. auto.
           ++ intros (s & I & I1 & I2). apply in_app_iff in I. destruct I as [I|[<-|[]]].
              ** exfalso. eapply HF; eauto.
              ** simpl in I2. congruence.
        -- rewrite dget_dset_neq by auto. rewrite (C id it). split; intros (s & I & I1 & I2).
           ++ exists s. split; auto. apply in_or_app; auto.
           ++ apply in_app_iff in I. destruct I as [I|[<-|[]]]; [eauto|]. simpl in I1. congruence.
      * rewrite (C id it). split; intros (s & I & I1 & I2).
        -- exists s. split; auto. apply in_or_app; auto.
        -- apply in_app_iff in I. destruct I as [I|[<-|[]]]; [eauto|]. discriminate.
Qed.

(** ** The files *)
Definition finv (y : osys) : Prop :=
  (exists alive, inv alive (map (fun e => it_handle (snd (fst e))) (exported y)) (o_store y))
  /\ 0 <= o_counter y
  /\ (forall r it f, In (r, it, f) (exported y) -> exists v, f = Some (File (mkFile v (rq_meta r))) /\ 0 <= v)
  /\ StronglySorted Z.lt (versions y) /\ Forall (fun v => v < o_counter y) (versions y)
  /\ StronglySorted Z.lt (map (fun e => it_handle (snd (fst e))) (exported y)).

Lemma save_proper m p f : proper f -> proper (fst (save_protobuf m p f)).
Proof.
  intros P. unfold save_protobuf. destruct (isfile f (dirname p)); auto.
  assert (P' : proper (if dmem f (dirname p) then f else dset f (dirname p) Folder)) by (destruct (dmem f (dirname p)); auto; apply NoDup_dset; auto).
  destruct (write _ p m) as [f'|e] eqn:W; auto. eapply proper_write; eauto.
Qed.
Lemma save_written m p f f' : proper f -> save_protobuf m p f = (f', None) -> dget f' p = Some (File m).
Proof.
  intros P. unfold save_protobuf. destruct (isfile f (dirname p)); [discriminate|].
  assert (P' : proper (if dmem f (dirname p) then f else dset f (dirname p) Folder)) by (destruct (dmem f (dirname p)); auto; apply NoDup_dset; auto).
  destruct (write _ p m) as [f1|e] eqn:W; [|discriminate]. intros H. injection H as <-. eapply proper_write; eauto.
Qed.

Lemma export_case l n md (s : CrudModel.state model_file T) (res : res (item T)) n' (s' : CrudModel.state model_file T) alive used : inv alive used s -> export_onnx c l n md s = (res, n', s') ->
  (exists alive', inv alive' (used ++ match res with Ok it => [it_handle it] | Err _ => [] end) s')
  /\ (n' = n \/ n' = n + 1)
  /\ forall it, res = Ok it -> n' = n + 1 /\ Forall (fun h => h < it_handle it) used
       /\ dget (s_fs s') (it_path it) = Some (File (mkFile n md)).
Proof.
  intros I. unfold export_onnx. set (sv := fun (p : string) (f : fs model_file) => _).
  assert (DC : forall p f, proper f -> proper (fst (sv p f))).
  { intros p f P. unfold sv. destruct (lu_fails l); auto. apply save_proper; auto. }
  destruct (create_with_saver c (lu_date l) (lu_utc l) sv s) as [r s1] eqn:E. intros H.
  assert (H1 : r = res) by congruence. assert (H2 : s1 = s') by congruence. subst r s1.
  assert (PR : proper (s_fs s)) by (unfold inv in I; tauto).
  destruct (create_case I DC E) as [(F & -> & ->)|(F & h & L & N & S1 & A & J)].
  - rewrite F in H. split; [|split].
    + exists alive. rewrite app_nil_r. auto.
    + destruct (lu_fails l); injection H as <-; auto.
    + intros it X. discriminate.
  - rewrite F in H. destruct (used_below I L) as [U0 U1]. split; [|split].
    + destruct res; eauto.
    + destruct (lu_fails l); injection H as <-; auto.
    + intros it X. rewrite X in A. destruct (sv (file_path c (lu_date l) h) (s_fs s)) as [f' [e|]] eqn:SV; cbn [fst snd] in A, S1; [discriminate|].
      destruct (isfile (s_fs s') (file_path c (lu_date l) h)); [|discriminate]. injection A as ->. cbn [it_handle it_path].
      unfold sv in SV. destruct (lu_fails l) eqn:LF; [discriminate|]. injection H as <-. split; auto. split; auto.
      rewrite S1. eapply save_written; eauto.
Qed.
Lemma exported_app (y y' : osys) (s : served T) : o_served y' = o_served y ++ [s] ->
  exported y' = exported y ++ match sv_result s with Ok it => [(sv_req s, it, sv_file s)] | Err _ => [] end.
Proof. intros E. unfold exported. rewrite E, flat_map_app. cbn [flat_map]. rewrite app_nil_r. auto. Qed.
Lemma finv_step u y : finv y -> finv (ostep c world u y).
Proof.
  assert (SAME : forall y', finv y -> o_served y' = o_served y -> o_counter y' = o_counter y -> o_store y' = o_store y -> finv y').
  { intros y' F E1 E2 E3. unfold finv, versions, exported in *. rewrite E1, E2, E3. exact F. }
  intros F. destruct (step_queue u y) as [E1 E2 E3 E4 E5 E6 E7 E8|md args when E1 E2 E3 E4 E5 E6 E7 E8|r E1 E2 E3 E4 E5 E6 E7 E8 E9|r res E1 E2 E3 E4 E5 E6 E7 E8].
  - apply SAME; auto.
  - apply SAME; auto.
  - apply SAME; auto.
  - destruct F as ((alive & I) & F0 & F1 & F2 & F3 & F4). set (y' := ostep c world u y) in *.
    pose proof (exported_app E7) as EX. cbn [sv_result sv_req sv_file] in EX.
    destruct (export_case I E6) as ((alive' & I') & CN & R).
    assert (VS : versions y' = versions y ++ match res with Ok it => [o_counter y] | Err _ => [] end).
    { unfold versions. rewrite EX, flat_map_app. destruct res as [it|e]; cbn [flat_map]; auto. destruct (R it eq_refl) as (_ & _ & G).
      cbn [snd]. rewrite G. auto. }
    destruct res as [it|e].
    + destruct (R it eq_refl) as (C1 & C2 & C3). split; [|split; [|split; [|split; [|split]]]].
      * exists alive'. rewrite EX, map_app. exact I'.
      * lia.
      * intros r0 it0 f0 IN. rewrite EX in IN. apply in_app_iff in IN. destruct IN as [IN|[IN|[]]]; eauto.
        injection IN as <- <- <-. exists (o_counter y). rewrite C3. auto.
      * rewrite VS. apply ssorted_snoc; auto.
      * rewrite VS. apply Forall_app. split; [eapply Forall_impl; [|exact F3]; simpl; intros; lia|]. constructor; [lia|constructor].
      * rewrite EX, map_app. apply ssorted_snoc; auto.
    + rewrite app_nil_r in *. split; [|split; [|split; [|split; [|split]]]].
      * exists alive'. rewrite EX. exact I'.
      * lia.
      * intros r0 it0 f0 IN. rewrite EX in IN. eauto.
      * rewrite VS. auto.
      * rewrite VS. eapply Forall_impl; [|exact F3]. simpl. intros. lia.
      * rewrite EX. auto.
Qed.
End Proofs.

Section Meta.
Context {T : Type}.
Notation osys := (osys T).
Variable c : CrudModel.config.
Variable world : nat -> luck T.
Ltac simp := cbn [o_meta o_queue o_next o_answers o_counter o_store o_main o_threads o_adds o_puts o_served
  m_todo m_place m_done r_todo r_place r_done with_main with_thread add_metadata put ostep] in *.

Lemma last_added_app k a b acc : last_added k (a ++ b) acc = last_added k b (last_added k a acc).
Proof. revert acc. induction a as [|[k' v] a IH]; intros acc; cbn [app last_added]; auto. Qed.

Definition good_md (adds : list (string * string)) (md args : metadata) (when : nat) : Prop :=
  (when <= List.length adds)%nat /\
  forall k, dget md k = match dget args k with Some v => Some v | None => last_added k (firstn when adds) None end.
Lemma good_md_more adds l md args when : good_md adds md args when -> good_md (adds ++ l) md args when.
Proof.
  intros [A B]. split; [rewrite app_length; lia|]. intros k. rewrite B, firstn_app.
  replace (when - List.length adds)%nat with O by lia. rewrite firstn_O, app_nil_r. auto.
Qed.
Definition good_req_place adds (t : req_thread T) : Prop := match r_place t with RPut md args when => good_md adds md args when | _ => True end.
Definition good_main_place adds (m : main_thread T) : Prop := match m_place m with MPut md args when => good_md adds md args when | _ => True end.
Record minv (y : osys) : Prop := {
  mi_meta : forall k, dget (o_meta y) k = last_added k (o_adds y) None;
  mi_main : Forall main_args_ok (m_todo (o_main y)) /\ good_main_place (o_adds y) (o_main y);
  mi_req : Forall (fun t => Forall req_args_ok (r_todo t) /\ good_req_place (o_adds y) t) (o_threads y);
  mi_puts : Forall (fun r => good_md (o_adds y) (rq_meta r) (rq_args r) (rq_when r)) (o_puts y) }.

Lemma merged_good (y : osys) args : minv y -> NoDup (dkeys args) -> good_md (o_adds y) (merged y args) args (List.length (o_adds y)).
Proof.
  intros M ND. split; auto. intros k. unfold merged. rewrite dget_dupdate by auto. destruct (dget args k); auto. rewrite firstn_all. apply (mi_meta M).
Qed.
Lemma meta_added (y : osys) k v : minv y -> forall k', dget (dset (o_meta y) k v) k' = last_added k' (o_adds y ++ [(k, v)]) None.
Proof.
  intros M k'. rewrite last_added_app. cbn [last_added]. rewrite <- (mi_meta M). destruct (String.eqb_spec k' k) as [->|N].
  - apply dget_dset_eq.
  - apply dget_dset_neq. auto.
Qed.
Lemma Forall_set_nth (A : Type) (P : A -> Prop) i x l : Forall P l -> P x -> Forall P (set_nth i x l).
Proof. revert i. induction l as [|y l IH]; intros i F X; destruct i; simpl; auto; inversion F; subst; constructor; auto. Qed.
Lemma reqs_more adds l (ts : list (req_thread T)) :
  Forall (fun t => Forall req_args_ok (r_todo t) /\ good_req_place adds t) ts ->
  Forall (fun t => Forall req_args_ok (r_todo t) /\ good_req_place (adds ++ l) t) ts.
Proof.
  apply Forall_impl. intros t [A B]. split; auto. unfold good_req_place in *. destruct (r_place t); auto. apply good_md_more; auto.
Qed.
Lemma mains_more adds l (m : main_thread T) : good_main_place adds m -> good_main_place (adds ++ l) m.
Proof. unfold good_main_place. destruct (m_place m); auto. apply good_md_more. Qed.
Lemma puts_more adds l (ps : list request) :
  Forall (fun r => good_md adds (rq_meta r) (rq_args r) (rq_when r)) ps -> Forall (fun r => good_md (adds ++ l) (rq_meta r) (rq_args r) (rq_when r)) ps.
Proof. apply Forall_impl. intros r. apply good_md_more. Qed.

Lemma main_todo_tail (j : main_job) l : Forall main_args_ok (j :: l) -> Forall main_args_ok l.
Proof. intros H. inversion H; auto. Qed.
Lemma minv_step u y : minv y -> minv (ostep c world u y).
Proof.
  intros M. pose proof M as [M1 [M2 M2'] M3 M4]. destruct u as [|i]; simp.
  - unfold main_step. destruct (m_place (o_main y)) as [|md args when|own|own r|id] eqn:P.
    + destruct (m_todo (o_main y)) as [|[|args|k v] rest] eqn:TD.
      * exact M.
      * constructor; simp; auto. split; auto; try exact I.
      * constructor; simp; auto. split; auto. unfold good_main_place. simp. apply merged_good; auto. inversion M2; auto.
      * constructor; simp; auto.
        -- apply meta_added; auto.
        -- split; [apply main_todo_tail in M2; auto|exact I].
        -- apply reqs_more; auto.
        -- apply puts_more; auto.
    + constructor; simp; auto.
      * split; auto; try exact I.
      * apply Forall_app. split; auto. constructor; [|constructor]. cbn [rq_meta rq_args rq_when].
        unfold good_main_place in M2'. rewrite P in M2'. auto.
    + destruct (o_queue y) as [|r rest].
      * destruct own as [id|].
        -- constructor; simp; auto. split; auto; try exact I.
        -- constructor; simp; auto. destruct (m_todo (o_main y)) eqn:TD; simp; (split; [|exact I]); auto. apply main_todo_tail in M2; auto.
      * constructor; simp; auto. split; auto; try exact I.
    + destruct (export_onnx c (world (List.length (o_served y))) (o_counter y) (rq_meta r) (o_store y)) as [[[it|e] n] s].
      * constructor; simp; auto. split; auto; try exact I.
      * constructor; simp; auto. destruct (m_todo (o_main y)) eqn:TD; simp; (split; [|exact I]); auto. apply main_todo_tail in M2; auto.
    + destruct (dget (o_answers y) id); [|exact M].
      constructor; simp; auto. destruct (m_todo (o_main y)) eqn:TD; simp; (split; [|exact I]); auto. apply main_todo_tail in M2; auto.
  - unfold req_step. destruct (nth_error (o_threads y) i) as [t|] eqn:N; [|exact M].
    assert (TI : Forall req_args_ok (r_todo t) /\ good_req_place (o_adds y) t) by (eapply Forall_forall in M3; [exact M3|eapply nth_error_In; eauto]).
    destruct TI as [T1 T2]. destruct (r_place t) as [|md args when|id] eqn:P.
    + destruct (r_todo t) as [|[args|k v] rest] eqn:TD; [exact M| |].
      * inversion T1; subst. constructor; simp; auto. apply Forall_set_nth; auto. simp. split; auto. unfold good_req_place. simp. apply merged_good; auto.
      * inversion T1; subst. constructor; simp; auto.
        -- apply meta_added; auto.
        -- split; auto. apply mains_more; auto.
        -- apply Forall_set_nth; [apply reqs_more; auto|]. simp. split; auto; try exact I.
        -- apply puts_more; auto.
    + constructor; simp; auto.
      * apply Forall_set_nth; auto. simp. split; auto; try exact I.
      * apply Forall_app. split; auto. constructor; [|constructor]. cbn [rq_meta rq_args rq_when]. unfold good_req_place in T2. rewrite P in T2. auto.
    + destruct (dget (o_answers y) id); [|exact M]. constructor; simp; auto. apply Forall_set_nth; auto. simp. split; auto; try exact I.
Qed.

(** ** The threads' own requests *)
Definition pinv (programs : list (list req_job)) (y : osys) : Prop :=
  List.length (o_threads y) = List.length programs
  /\ (forall i t p, nth_error (o_threads y) i = Some t -> nth_error programs i = Some p ->
        (forall id it, In (id, it) (r_done t) -> dget (o_answers y) id = Some it)
        /\ Forall (fun id => (id < o_next y)%nat) (ids t)
        /\ map Some (exports p) = map (args_of y) (ids t) ++ map Some (starting t ++ exports (r_todo t)))
  /\ NoDup (flat_map (@ids T) (o_threads y)).

Lemma find_put (ps : list request) n md args when id : map rq_id ps = seq 0 n -> (id < n)%nat ->
  find (fun r => Nat.eqb (rq_id r) id) (ps ++ [mkRequest n md args when]) = find (fun r => Nat.eqb (rq_id r) id) ps.
Proof.
  intros E L. assert (X : exists r, find (fun r => Nat.eqb (rq_id r) id) ps = Some r).
  { destruct (find (fun r => Nat.eqb (rq_id r) id) ps) as [r|] eqn:F; eauto. exfalso.
    assert (I : In id (map rq_id ps)) by (rewrite E; apply in_seq; lia). apply in_map_iff in I. destruct I as (r & R & I).
    apply (find_none _ _ F) in I. apply Nat.eqb_neq in I. auto. }
  destruct X as [r X]. rewrite X. clear E L. induction ps as [|a ps IH]; [discriminate|]. cbn [find app] in *.
  destruct (Nat.eqb (rq_id a) id); auto.
Qed.
Lemma find_new (ps : list request) n md args when : map rq_id ps = seq 0 n ->
  find (fun r => Nat.eqb (rq_id r) n) (ps ++ [mkRequest n md args when]) = Some (mkRequest n md args when).
Proof.
  intros E. assert (X : forall r, In r ps -> rq_id r <> n).
  { intros r I F. assert (J : In (rq_id r) (map rq_id ps)) by (apply in_map; auto). rewrite E in J. apply in_seq in J. lia. }
  clear E. induction ps as [|a ps IH]; cbn [find app rq_id].
  - rewrite Nat.eqb_refl. auto.
  - destruct (Nat.eqb_spec (rq_id a) n) as [F|F]; [exfalso; apply (X a); auto; left; auto|]. apply IH. intros r I. apply X. right; auto.
Qed.
Lemma args_put (y y' : osys) md args when : qinv y -> o_puts y' = o_puts y ++ [mkRequest (o_next y) md args when] ->
  (forall id, (id < o_next y)%nat -> args_of y' id = args_of y id) /\ args_of y' (o_next y) = Some args.
Proof.
  intros (A & B & _) E. unfold args_of. rewrite E. split.
  - intros id L. rewrite find_put; auto.
  - rewrite find_new; auto.
Qed.
Lemma answers_grow u (y : osys) id it : qinv y -> dget (o_answers y) id = Some it -> dget (o_answers (ostep c world u y)) id = Some it.
Proof.
  intros Q H. pose proof (@qinv_step T c world u y Q) as (_ & _ & Q'). apply Q'. destruct Q as (_ & _ & Q). apply Q in H.
  destruct H as (s & I & J). exists s. split; auto.
  destruct (step_queue c world u y) as [E1 E2 E3 E4 E5 E6 E7 E8|md args when E1 E2 E3 E4 E5 E6 E7 E8|r E1 E2 E3 E4 E5 E6 E7 E8 E9|r res E1 E2 E3 E4 E5 E6 E7 E8]; try congruence.
  rewrite E7. apply in_or_app. auto.
Qed.
(** A step of somebody else. *)
Lemma thread_frame u (y : osys) (t : req_thread T) p : qinv y ->
  (forall id it, In (id, it) (r_done t) -> dget (o_answers y) id = Some it)
  /\ Forall (fun id => (id < o_next y)%nat) (ids t)
  /\ map Some (exports p) = map (args_of y) (ids t) ++ map Some (starting t ++ exports (r_todo t)) ->
  let y' := ostep c world u y in
  (forall id it, In (id, it) (r_done t) -> dget (o_answers y') id = Some it)
  /\ Forall (fun id => (id < o_next y')%nat) (ids t)
  /\ map Some (exports p) = map (args_of y') (ids t) ++ map Some (starting t ++ exports (r_todo t)).
Proof.
  intros Q (A & B & C) y'.
  assert (X : (o_next y <= o_next y')%nat /\ forall id, (id < o_next y)%nat -> args_of y' id = args_of y id).
  { unfold y'. destruct (step_queue c world u y) as [E1 E2 E3 E4 E5 E6 E7 E8|md args when E1 E2 E3 E4 E5 E6 E7 E8|r E1 E2 E3 E4 E5 E6 E7 E8 E9|r res E1 E2 E3 E4 E5 E6 E7 E8].
    - split; [lia|]. unfold args_of. rewrite E1. auto.
    - split; [lia|]. apply (args_put (y' := ostep c world u y) Q E1).
    - split; [lia|]. unfold args_of. rewrite E1. auto.
    - split; [lia|]. unfold args_of. rewrite E3. auto. }
  destruct X as [X1 X2]. split; [|split].
  - intros id it I. apply answers_grow; auto.
  - eapply Forall_impl; [|exact B]. simpl. intros; lia.
  - rewrite C. f_equal. apply map_ext_in. intros id I. symmetry. apply X2. eapply Forall_forall in B; eauto.
Qed.
Lemma main_threads (y : osys) : o_threads (main_step c world y) = o_threads y.
Proof.
  unfold main_step. destruct (m_place (o_main y)) as [|md args when|own|own r|id].
  - destruct (m_todo (o_main y)) as [|[|args|k v] rest]; simp; auto.
  - simp; auto.
  - destruct (o_queue y); [destruct own|]; simp; auto.
  - destruct (export_onnx c (world (List.length (o_served y))) (o_counter y) (rq_meta r) (o_store y)) as [[[it|e] n] s]; simp; auto.
  - destruct (dget (o_answers y) id); simp; auto.
Qed.
(** What a step of a thread does to it. *)
Inductive thread_step (y y' : osys) (t : req_thread T) : req_thread T -> Prop :=
| ts_none : o_next y' = o_next y -> thread_step y y' t t
| ts_begin args rest md when : r_place t = RIdle -> r_todo t = RExport args :: rest ->
    o_puts y' = o_puts y -> o_answers y' = o_answers y -> o_next y' = o_next y -> thread_step y y' t (mkReq rest (RPut md args when) (r_done t))
| ts_add k v rest : r_place t = RIdle -> r_todo t = RAdd k v :: rest -> o_puts y' = o_puts y -> o_answers y' = o_answers y -> o_next y' = o_next y ->
    thread_step y y' t (mkReq rest RIdle (r_done t))
| ts_put md args when : r_place t = RPut md args when -> o_puts y' = o_puts y ++ [mkRequest (o_next y) md args when] -> o_answers y' = o_answers y ->
    o_next y' = S (o_next y) -> thread_step y y' t (mkReq (r_todo t) (RWait (o_next y)) (r_done t))
| ts_return id it : r_place t = RWait id -> dget (o_answers y) id = Some it -> o_puts y' = o_puts y -> o_answers y' = o_answers y -> o_next y' = o_next y ->
    thread_step y y' t (mkReq (r_todo t) RIdle (r_done t ++ [(id, it)])).
Lemma set_same (A : Type) i (l : list A) x : nth_error l i = Some x -> set_nth i x l = l.
Proof. revert l. induction i; intros [|y l] H; simpl in *; try discriminate; [congruence|]. f_equal. auto. Qed.
Lemma req_threads i (y : osys) t : nth_error (o_threads y) i = Some t ->
  exists t', o_threads (req_step i y) = set_nth i t' (o_threads y) /\ thread_step y (req_step i y) t t'.
Proof.
  intros N. unfold req_step. rewrite N. destruct (r_place t) as [|md args when|id] eqn:P.
  - destruct (r_todo t) as [|[args|k v] rest] eqn:TD.
    + exists t. split; [symmetry; apply set_same; auto|]. apply ts_none. auto.
    + eexists. split; [reflexivity|]. eapply ts_begin; simp; eauto.
    + eexists. split; [reflexivity|]. eapply ts_add; simp; eauto.
  - eexists. split; [reflexivity|]. eapply ts_put; simp; eauto.
  - destruct (dget (o_answers y) id) eqn:G.
    + eexists. split; [reflexivity|]. eapply ts_return; simp; eauto.
    + exists t. split; [symmetry; apply set_same; auto|]. apply ts_none. auto.
Qed.
Lemma pinv_step programs u y : qinv y -> pinv programs y -> pinv programs (ostep c world u y).
Proof.
  intros Q (A & B & C). destruct u as [|i].
  - unfold pinv. cbn [ostep]. rewrite main_threads. split; auto. split; auto.
    intros j t p N P. apply (@thread_frame Main y t p Q). apply (B j); auto.
  - destruct (nth_error (o_threads y) i) as [t|] eqn:N.
    2: { assert (E : ostep c world (Thread i) y = y) by (cbn [ostep]; unfold req_step; rewrite N; auto). rewrite E. split; auto. }
    destruct (req_threads N) as (t' & E & TS). cbn [ostep]. unfold pinv. rewrite E, set_nth_length. split; auto.
    assert (IDS : exists new, ids t' = ids t ++ new /\ (new = [] \/ new = [o_next y])).
    { destruct TS as [E1|args rest md when P0 TD E1 E2 E3|k v rest P0 TD E1 E2 E3|md args when P0 E1 E2 E3|id it P0 G E1 E2 E3];
        unfold ids; cbn [r_done r_place]; rewrite ?P0, ?app_nil_r.
      - exists []. rewrite app_nil_r. auto.
      - exists []. rewrite app_nil_r. auto.
      - exists []. rewrite app_nil_r. auto.
      - exists [o_next y]. auto.
      - exists []. rewrite map_app, app_nil_r. auto. }
    split.
    + intros j t0 p Nj P. destruct (set_nth_cases N Nj) as [[-> ->]|[NE Nj']].
      2: { apply (@thread_frame (Thread i) y t0 p Q). apply (B j); auto. }
      destruct (B i t p N P) as (B1 & B2 & B3). pose proof (@thread_frame (Thread i) y t p Q (conj B1 (conj B2 B3))) as (F1 & F2 & F3).
      cbn [ostep] in F1, F2, F3. set (y' := req_step i y) in *.
      destruct TS as [E1|args rest md when P0 TD E1 E2 E3|k v rest P0 TD E1 E2 E3|md args when P0 E1 E2 E3|id it P0 G E1 E2 E3].
      * auto.
      * unfold ids, starting in *. cbn [r_done r_place r_todo]. rewrite P0 in *. rewrite TD in F3. split; auto.
      * unfold ids, starting in *. cbn [r_done r_place r_todo]. rewrite P0 in *. rewrite TD in F3. split; auto.
      * unfold ids, starting in *. cbn [r_done r_place r_todo]. rewrite P0 in *. rewrite app_nil_r in *. split; auto. split.
        -- apply Forall_app. split; auto. constructor; [rewrite E3; auto|constructor].
        -- rewrite map_app. cbn [map]. destruct (@args_put y y' md args when Q E1) as [_ X]. rewrite X, <- app_assoc. exact F3.
      * unfold ids, starting in *. cbn [r_done r_place r_todo]. rewrite P0 in *. rewrite app_nil_r, map_app. cbn [map fst]. split; [|split]; auto.
        intros id0 it0 I. apply in_app_iff in I. destruct I as [I|[I|[]]]; auto. injection I as <- <-. rewrite E2. auto.
    + destruct (@split_set_nth _ i (o_threads y) t t' N) as (a & b & E1 & E2 & _). rewrite E2. rewrite E1 in C.
      rewrite flat_map_app in *. cbn [flat_map] in *. destruct IDS as (new & EI & [->| ->]); rewrite EI; [rewrite app_nil_r; auto|].
      assert (FR : forall t0, In t0 (o_threads y) -> ~ In (o_next y) (ids t0)).
      { intros t0 I J. apply In_nth_error in I. destruct I as [j I].
        destruct (nth_error programs j) as [p|] eqn:P.
        - destruct (B j t0 p I P) as (_ & F & _). eapply Forall_forall in F; [|exact J]. simpl in F. lia.
        - apply nth_error_None in P. assert (j < List.length (o_threads y))%nat by (apply nth_error_Some; congruence). lia. }
      eapply Permutation.Permutation_NoDup with (l := o_next y :: (flat_map (@ids T) a ++ ids t ++ flat_map (@ids T) b)).
      * rewrite <- app_assoc. cbn [app]. rewrite (app_assoc _ (ids t) (o_next y :: _)). rewrite (app_assoc _ (ids t) (flat_map _ b)).
        apply Permutation.Permutation_middle.
      * constructor; auto. intros I. rewrite !in_app_iff, !in_flat_map in I. rewrite E1 in FR.
        destruct I as [(x & I & J)|[J|(x & I & J)]]; eapply FR; eauto; apply in_or_app; auto; right; [left|right]; auto.
Qed.

(** ** The main thread's own results *)
Definition current (m : main_thread T) (args : metadata) : Prop := exists rest, m_todo m = MExport args :: rest.
Record ainv (y : osys) : Prop := {
  ai_place : match m_place (o_main y) with
             | MIdle => True
             | MPut _ args _ => current (o_main y) args
             | MLoop (Some id) | MGot (Some id) _ | MWait id => (id < o_next y)%nat /\ exists args, current (o_main y) args /\ args_of y id = Some args
             | MLoop None | MGot None _ => exists rest, m_todo (o_main y) = MProcess :: rest
             end;
  ai_done : own_main_results y }.
Lemma own_grow u (y y' : osys) : y' = ostep c world u y -> m_done (o_main y') = m_done (o_main y) -> own_main_results y -> own_main_results y'.
Proof.
  intros -> E H args it I. rewrite E in I. destruct (H args it I) as (s & J & K). exists s. split; auto.
  destruct (step_queue c world u y) as [E1 E2 E3 E4 E5 E6 E7 E8|md a when E1 E2 E3 E4 E5 E6 E7 E8|r E1 E2 E3 E4 E5 E6 E7 E8 E9|r res E1 E2 E3 E4 E5 E6 E7 E8]; try congruence.
  rewrite E7. apply in_or_app. auto.
Qed.
Lemma args_keep u (y : osys) id : qinv y -> (id < o_next y)%nat ->
  args_of (ostep c world u y) id = args_of y id /\ (id < o_next (ostep c world u y))%nat.
Proof.
  intros Q L. destruct (step_queue c world u y) as [E1 E2 E3 E4 E5 E6 E7 E8|md a when E1 E2 E3 E4 E5 E6 E7 E8|r E1 E2 E3 E4 E5 E6 E7 E8 E9|r res E1 E2 E3 E4 E5 E6 E7 E8].
  - unfold args_of. rewrite E1, E3. auto.
  - destruct (args_put Q E1) as [X _]. rewrite E3. split; auto; lia.
  - unfold args_of. rewrite E1, E3. auto.
  - unfold args_of. rewrite E3, E5. auto.
Qed.
Lemma req_main i (y : osys) : o_main (req_step i y) = o_main y.
Proof.
  unfold req_step. destruct (nth_error (o_threads y) i) as [t|]; auto. destruct (r_place t).
  - destruct (r_todo t) as [|[a|k v] r]; auto.
  - auto.
  - destruct (dget (o_answers y) id); auto.
Qed.
Lemma args_served (y : osys) s args : qinv y -> In s (o_served y) -> args_of y (rq_id (sv_req s)) = Some args -> rq_args (sv_req s) = args.
Proof.
  intros (A & B & _) I E. unfold args_of in E. destruct (find _ (o_puts y)) as [r|] eqn:F; [|discriminate]. cbn in E. injection E as <-.
  apply find_some in F. destruct F as [F1 F2]. apply Nat.eqb_eq in F2.
  assert (J : In (sv_req s) (o_puts y)) by (rewrite A; apply in_or_app; left; apply in_map; auto).
  assert (ND : NoDup (map rq_id (o_puts y))) by (rewrite B; apply seq_NoDup).
  f_equal. revert ND F1 J. generalize (o_puts y). clear - F2. induction l as [|x l IH]; intros ND I J; [destruct I|].
  cbn [map] in ND. apply NoDup_cons_iff in ND. destruct ND as [N1 N2]. destruct I as [->|I], J as [->|J]; auto.
  - exfalso. apply N1. rewrite F2. apply in_map. auto.
  - exfalso. apply N1. rewrite <- F2. apply in_map. auto.
Qed.
Lemma own_same (y y' : osys) j rest r : o_served y' = o_served y -> o_main y' = mkMain rest MIdle (m_done (o_main y) ++ [(j, r)]) ->
  (forall args it, j = MExport args -> r = Ok (Some it) -> exists s, In s (o_served y) /\ rq_args (sv_req s) = args /\ sv_result s = Ok it) ->
  own_main_results y -> own_main_results y'.
Proof.
  intros E M H O args it I. rewrite M in I. cbn [m_done] in I. rewrite E. apply in_app_iff in I. destruct I as [I|[I|[]]]; auto.
  injection I as -> ->. eauto.
Qed.
Lemma ainv_step u y : qinv y -> ainv y -> ainv (ostep c world u y).
Proof.
  intros Q [AP AD]. destruct u as [|i].
  2: { constructor.
       - cbn [ostep]. rewrite req_main. destruct (m_place (o_main y)) as [|md args when|[id|]|[id|] r|id]; auto;
           destruct AP as (L & args & C & E); destruct (@args_keep (Thread i) y id Q L) as [K1 K2]; split; auto; exists args; split; auto;
           cbn [ostep] in K1; congruence.
       - eapply own_grow with (u := Thread i); eauto. cbn [ostep]. rewrite req_main. auto. }
  assert (G : m_done (o_main (ostep c world Main y)) = m_done (o_main y) -> own_main_results (ostep c world Main y)) by (intros; eapply own_grow; eauto).
  assert (K : forall id args, (id < o_next y)%nat -> args_of y id = Some args ->
     args_of (ostep c world Main y) id = Some args /\ (id < o_next (ostep c world Main y))%nat).
  { intros id args L E. destruct (@args_keep Main y id Q L). split; congruence. }
  destruct (m_place (o_main y)) as [|md args when|own|own r|id] eqn:P; cbn [ostep] in *; unfold main_step in *; rewrite P in *.
  - destruct (m_todo (o_main y)) as [|[|args|k v] rest] eqn:TD; simp.
    + constructor; auto. rewrite P. auto.
    + constructor; simp; auto. eauto.
    + constructor; simp; auto. exists rest. auto.
    + constructor; simp; auto. eapply own_same; try exact AD; simp; auto. intros; discriminate.
  - constructor; simp; auto. split; auto. exists args. split; [exact AP|]. apply (@args_put y _ md args when Q). simp. auto.
  - destruct (o_queue y) as [|r rest] eqn:QE.
    + destruct own as [id|]; simp.
      * destruct AP as (L & args & C & E). constructor; simp; auto. split; auto. exists args. split; auto; exact (proj1 (K id args L E)).
      * destruct AP as (rest & TD). rewrite TD in *. constructor; simp; auto. eapply own_same; try exact AD; simp; auto. intros; discriminate.
    + constructor; simp; auto; destruct own as [id|]; auto; destruct AP as (L & args & C & E); split; auto; exists args; split; auto; exact (proj1 (K id args L E)).
  - destruct (export_onnx c (world (List.length (o_served y))) (o_counter y) (rq_meta r) (o_store y)) as [[[it|e] n] s] eqn:EX; simp.
    + constructor; simp; auto; destruct own as [id|]; auto; destruct AP as (L & args & C & E); split; auto; exists args; split; auto; exact (proj1 (K id args L E)).
    + constructor; simp.
      * destruct (m_todo (o_main y)); simp; auto.
      * intros args it I. simp. assert (J : In (MExport args, Ok (Some it)) (m_done (o_main y))).
        { destruct (m_todo (o_main y)); simp; auto. apply in_app_iff in I. destruct I as [I|[I|[]]]; auto. discriminate. }
        destruct (AD _ _ J) as (s0 & J1 & J2). exists s0. split; auto. apply in_or_app. auto.
  - destruct (dget (o_answers y) id) as [it|] eqn:GA; simp.
    + destruct AP as (L & args & (rest & TD) & E). rewrite TD in *. constructor; simp; auto. eapply own_same; try exact AD; simp; auto.
      intros a i0 Ea Ei. injection Ea as <-. injection Ei as <-. apply Q in GA. destruct GA as (s0 & S1 & S2 & S3). exists s0. split; auto. split; auto.
      apply (@args_served y); auto. congruence.
    + constructor; simp; auto. rewrite P. auto.
Qed.
End Meta.
