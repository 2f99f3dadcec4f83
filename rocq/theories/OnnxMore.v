(** * OnnxMore: every execution; draining the queue; lost requests *)
From Verif Require Import Py PyLemmas CkptModel LogModel LockModel LockProofs CrudModel CrudSpec CrudProofs CrudMore OnnxModel OnnxSpec OnnxProofs.
From Coq Require Import Sorted.
Set Implicit Arguments.
Unset Strict Implicit.
Open Scope string_scope.
Open Scope list_scope.
Open Scope Z_scope.

Section More.
Context {T : Type}.
Notation osys := (osys T).
Variable c : CrudModel.config.
Variable world : nat -> luck T.
Ltac simp := cbn [o_meta o_queue o_next o_answers o_counter o_store o_main o_threads o_adds o_puts o_served
  m_todo m_place m_done r_todo r_place r_done with_main with_thread add_metadata put ostep] in *.

Lemma osteps_app a b (y : osys) : osteps c world (a ++ b) y = osteps c world b (osteps c world a y).
Proof. revert y. induction a; intros y; cbn [osteps app]; auto. Qed.
Lemma osteps_inv (P : osys -> Prop) : (forall u y, P y -> P (ostep c world u y)) -> forall sched y, P y -> P (osteps c world sched y).
Proof. intros H sched. induction sched as [|u sched IH]; intros y Y; cbn [osteps]; auto. Qed.

Definition all_inv programs (y : osys) : Prop := qinv y /\ finv y /\ pinv programs y /\ ainv y.
Lemma all_step programs u y : all_inv programs y -> all_inv programs (ostep c world u y).
Proof.
  intros (Q & F & P & A). split; [apply qinv_step; auto|]. split; [apply finv_step; auto|]. split; [apply pinv_step; auto|apply ainv_step; auto].
Qed.
Lemma start_thread (others : list (list req_job)) i (t : req_thread T) : nth_error (map (fun p => mkReq p RIdle []) others) i = Some t ->
  exists p, nth_error others i = Some p /\ t = mkReq p RIdle [].
Proof. rewrite nth_error_map. destruct (nth_error others i); intros H; [|discriminate]. cbn in H. injection H as <-. eauto. Qed.
Lemma all_start dir prefix ext (f : CrudModel.fs model_file) (s : CrudModel.state model_file T) main others :
  proper f -> init dir prefix ext f = Ok (c, s) -> all_inv others (ostart s main others).
Proof.
  intros P I. destruct (init_inv P I) as (J & _). split; [|split; [|split]].
  - split; [reflexivity|]. split; [reflexivity|]. intros id it. split; [discriminate|]. intros (x & [] & _).
  - split; [exists []; exact J|]. split; [simpl; lia|]. split; [intros r it g []|]. split; [constructor|]. split; constructor.
  - split; [simpl; apply map_length|]. split.
    + intros i t p N Q. apply start_thread in N. destruct N as (p' & N & ->). rewrite Q in N. injection N as <-.
      split; [intros id it []|]. split; [constructor|]. reflexivity.
    + simpl. replace (flat_map (@ids T) (map (fun p : list req_job => mkReq p RIdle []) others)) with (@nil nat); [constructor|].
      clear. induction others; auto.
  - constructor; [exact I0|intros a it []] || (constructor; [simpl; auto|intros a it []]).
Qed.
Lemma minv_start (s : CrudModel.state model_file T) main others : Forall main_args_ok main -> Forall (Forall req_args_ok) others ->
  minv (ostart s main others).
Proof.
  intros A B. constructor; simpl; auto.
  - split; auto. exact I.
  - apply Forall_map. eapply Forall_impl; [|exact B]. intros p Q. split; auto. exact I.
Qed.

Section Run.
Variables (dir prefix ext : string) (f : CrudModel.fs model_file) (s : CrudModel.state model_file T) (main : list main_job) (others : list (list req_job)).
Hypothesis PF : proper f.
Hypothesis IN : init dir prefix ext f = Ok (c, s).
Lemma reach_inv sched : all_inv others (osteps c world sched (ostart s main others)).
Proof. apply osteps_inv; [intros; apply all_step; auto|]. eapply all_start; eauto. Qed.
Lemma run_in_order sched : served_in_order (osteps c world sched (ostart s main others)).
Proof.
  destruct (reach_inv sched) as ((A & B & _) & _). split; auto. rewrite B. apply seq_NoDup.
Qed.
Lemma run_files sched : good_files (osteps c world sched (ostart s main others)).
Proof. destruct (reach_inv sched) as (_ & (_ & _ & A & B & _ & D) & _). split; auto. Qed.
Lemma run_metadata sched : Forall main_args_ok main -> Forall (Forall req_args_ok) others -> good_metadata (osteps c world sched (ostart s main others)).
Proof.
  intros A B. assert (M : minv (osteps c world sched (ostart s main others))).
  { apply osteps_inv; [intros; apply minv_step; auto|]. apply minv_start; auto. }
  intros r I. apply (mi_puts M : Forall _ _) in I || (pose proof (mi_puts M) as X; eapply Forall_forall in X; [|exact I]; exact X).
Qed.
Lemma run_own sched i t p : let y := osteps c world sched (ostart s main others) in
  nth_error (o_threads y) i = Some t -> nth_error others i = Some p -> own_results p y t.
Proof.
  intros y N P. destruct (reach_inv sched) as (Q & _ & (_ & B & _) & _). destruct (B i t p N P) as (B1 & B2 & B3). split; auto.
  intros id it I. apply B1 in I. apply Q in I. destruct I as (x & X1 & X2 & X3). eauto.
Qed.
Lemma run_distinct sched : NoDup (flat_map (@ids T) (o_threads (osteps c world sched (ostart s main others)))).
Proof. destruct (reach_inv sched) as (_ & _ & (_ & _ & D) & _). auto. Qed.
Lemma run_main sched : own_main_results (osteps c world sched (ostart s main others)).
Proof. destruct (reach_inv sched) as (_ & _ & _ & A). apply (ai_done A). Qed.

(** ** A request whose export raised *)
Lemma lost_step u (y : osys) i t x : qinv y -> In x (o_served y) -> (forall it, sv_result x <> Ok it) -> nth_error (o_threads y) i = Some t ->
  r_place t = RWait (rq_id (sv_req x)) ->
  In x (o_served (ostep c world u y)) /\ nth_error (o_threads (ostep c world u y)) i = Some t.
Proof.
  intros Q I E N P. split.
  - destruct (step_queue c world u y) as [E1 E2 E3 E4 E5 E6 E7 E8|md a when E1 E2 E3 E4 E5 E6 E7 E8|r E1 E2 E3 E4 E5 E6 E7 E8 E9|r res E1 E2 E3 E4 E5 E6 E7 E8]; try congruence.
    rewrite E7. apply in_or_app. auto.
  - destruct u as [|j]; cbn [ostep]; [rewrite main_threads; auto|].
    destruct (nth_error (o_threads y) j) as [t'|] eqn:NJ; [|unfold req_step; rewrite NJ; auto].
    destruct (Nat.eq_dec i j) as [<-|NE].
    + rewrite N in NJ. injection NJ as <-. unfold req_step. rewrite N, P.
      destruct (dget (o_answers y) (rq_id (sv_req x))) as [it|] eqn:G; auto.
      exfalso. apply Q in G. destruct G as (x' & I' & E1 & E2). assert (x' = x) by (eapply served_once; eauto). subst. eapply E; eauto.
    + destruct (req_threads NJ) as (t2 & E2 & _). rewrite E2. rewrite set_nth_neq; auto.
Qed.
Lemma lost_forever sched y i t x : qinv y -> In x (o_served y) -> (forall it, sv_result x <> Ok it) -> nth_error (o_threads y) i = Some t ->
  r_place t = RWait (rq_id (sv_req x)) -> nth_error (o_threads (osteps c world sched y)) i = Some t.
Proof.
  revert y. induction sched as [|u sched IH]; intros y Q I E N P; cbn [osteps]; auto.
  destruct (@lost_step u y i t x Q I E N P). apply IH; auto. apply qinv_step; auto.
Qed.
Lemma run_lost sched more i t x : let y := osteps c world sched (ostart s main others) in
  In x (o_served y) -> (forall it, sv_result x <> Ok it) -> nth_error (o_threads y) i = Some t -> r_place t = RWait (rq_id (sv_req x)) ->
  nth_error (o_threads (osteps c world more y)) i = Some t.
Proof. intros y I E N P. eapply lost_forever; eauto. apply reach_inv. Qed.
End Run.

(** ** Draining *)
Definition done_well (y : osys) (r : request) : Prop := exists x it, In x (o_served y) /\ sv_req x = r /\ sv_result x = Ok it.
Lemma done_grow u (y : osys) r : done_well y r -> done_well (ostep c world u y) r.
Proof.
  intros (x & it & I & E). exists x, it. split; auto.
  destruct (step_queue c world u y) as [E1 E2 E3 E4 E5 E6 E7 E8|md a when E1 E2 E3 E4 E5 E6 E7 E8|r0 E1 E2 E3 E4 E5 E6 E7 E8 E9|r0 res E1 E2 E3 E4 E5 E6 E7 E8]; try congruence.
  rewrite E7. apply in_or_app. auto.
Qed.
Definition serving (j : main_job) : Prop := match j with MProcess | MExport _ => True | MAdd _ _ => False end.
Definition pending (y : osys) (r : request) : Prop := In r (in_hand y ++ o_queue y) \/ done_well y r.
Definition drain (goal : request -> Prop) (j : main_job) rest done (y : osys) : Prop :=
  (m_done (o_main y) = done /\ m_todo (o_main y) = j :: rest /\
     match m_place (o_main y) with MWait _ => forall r, goal r -> done_well y r | _ => forall r, goal r -> pending y r end)
  \/ exists res more, m_done (o_main y) = done ++ (j, res) :: more /\ (forall o, res = Ok o -> forall r, goal r -> done_well y r).
Lemma pending_grow u (y : osys) r : pending y r ->
  (forall r0 e, in_hand y = [r0] -> fst (fst (export_onnx c (world (List.length (o_served y))) (o_counter y) (rq_meta r0) (o_store y))) = Err e -> u <> Main) ->
  pending (ostep c world u y) r.
Proof.
  intros [I|D] OK; [|right; apply done_grow; auto].
  destruct (step_queue c world u y) as [E1 E2 E3 E4 E5 E6 E7 E8|md a when E1 E2 E3 E4 E5 E6 E7 E8|r0 E1 E2 E3 E4 E5 E6 E7 E8 E9|r0 res E1 E2 E3 E4 E5 E6 E7 E8].
  - left. rewrite E4, E2. auto.
  - left. rewrite E4, E2, app_assoc. apply in_or_app. auto.
  - left. rewrite E5. rewrite E4, E2 in I. exact I.
  - rewrite E1 in I. cbn [app] in I. destruct I as [<-|I].
    + destruct res as [it|e].
      * right. exists (mkServed r0 (Ok it) (dget (s_fs (o_store (ostep c world u y))) (it_path it))), it. rewrite E7. split; auto. apply in_or_app. right. left. auto.
      * exfalso. apply (OK r0 e); auto; [rewrite E6; auto|]. destruct u; auto.
        exfalso. cbn [ostep] in E2. unfold in_hand in E1, E2. rewrite req_main in E2. rewrite E2 in E1. discriminate.
    + left. rewrite E2, E4. auto.
Qed.
Lemma drain_step goal j rest done u y : serving j -> drain goal j rest done y -> drain goal j rest done (ostep c world u y).
Proof.
  intros SV [(A & B & C)|(res & more & A & C)].
  2: { right. assert (X : exists more', m_done (o_main (ostep c world u y)) = done ++ (j, res) :: more').
       { destruct u; cbn [ostep]; [|rewrite req_main; eauto]. unfold main_step.
         assert (G : forall r l, exists more', m_done (o_main y) ++ [(r, l)] = done ++ (j, res) :: more').
         { intros. exists (more ++ [(r, l)]). rewrite A, <- app_assoc. auto. }
         destruct (m_place (o_main y)) as [|md args when|own|own r|id].
         - destruct (m_todo (o_main y)) as [|[|args|k v] r0]; simp; eauto.
         - simp; eauto.
         - destruct (o_queue y); [destruct own; [|destruct (m_todo (o_main y))]|]; simp; eauto.
         - destruct (export_onnx c (world (List.length (o_served y))) (o_counter y) (rq_meta r) (o_store y)) as [[[it|e] n] s0]; [|destruct (m_todo (o_main y))]; simp; eauto.
         - destruct (dget (o_answers y) id); [destruct (m_todo (o_main y))|]; simp; eauto. }
       destruct X as [m' X]. exists res, m'. split; auto. intros o E r G. apply done_grow. eapply C; eauto. }
  destruct u as [|i].
  2: { left. cbn [ostep]. rewrite req_main. split; auto. split; auto.
       destruct (m_place (o_main y)); intros r' G; try (apply (@pending_grow (Thread i) y r'); auto; congruence).
       apply (@done_grow (Thread i)). auto. }
  destruct (m_place (o_main y)) as [|md args when|own|own r|id] eqn:P.
  - assert (PG : forall r', goal r' -> pending (ostep c world Main y) r').
    { intros r' G. apply pending_grow; auto. unfold in_hand. rewrite P. discriminate. }
    left. destruct j as [|args|k v]; [| |destruct SV]; cbn [ostep] in *; unfold main_step in *; rewrite P, B in *; simp; auto.
  - assert (PG : forall r', goal r' -> pending (ostep c world Main y) r').
    { intros r' G. apply pending_grow; auto. unfold in_hand. rewrite P. discriminate. }
    left. cbn [ostep] in *; unfold main_step in *; rewrite P in *; simp; auto.
  - assert (PG : forall r', goal r' -> pending (ostep c world Main y) r').
    { intros r' G. apply pending_grow; auto. unfold in_hand. rewrite P. discriminate. }
    assert (EM : o_queue y = [] -> forall r, goal r -> done_well y r).
    { intros Q r G. destruct (C r G) as [I|D]; auto. exfalso. unfold in_hand in I. rewrite P, Q in I. destruct I. }
    pose proof (fun r (D : done_well y r) => @done_grow Main y r D) as DG.
    cbn [ostep] in *; unfold main_step in *; rewrite P in *. destruct (o_queue y) as [|r0 q] eqn:Q.
    + destruct own as [id|].
      * left. simp. auto.
      * right. rewrite B in *. simp. exists (Ok None), []. split; [rewrite A; auto|]. auto.
    + left. simp. auto.
  - destruct (export_onnx c (world (List.length (o_served y))) (o_counter y) (rq_meta r) (o_store y)) as [[[it|e] n] s0] eqn:EX.
    + assert (PG : forall r', goal r' -> pending (ostep c world Main y) r').
      { intros r' G. apply pending_grow; auto. unfold in_hand. rewrite P. intros r0 e H. injection H as <-. rewrite EX. discriminate. }
      left. cbn [ostep] in *; unfold main_step in *; rewrite P, EX in *; simp; auto.
    + right. cbn [ostep] in *; unfold main_step in *; rewrite P, EX, B in *; simp. exists (Err e), []. split; [rewrite A; auto|]. discriminate.
  - assert (DG : forall r, goal r -> done_well (ostep c world Main y) r) by (intros; apply done_grow; auto).
    cbn [ostep] in *; unfold main_step in *; rewrite P in *. destruct (dget (o_answers y) id) as [it|].
    + right. rewrite B in *. simp. exists (Ok (Some it)), []. split; [rewrite A; auto|]. auto.
    + left. rewrite P. auto.
Qed.
(** When the main thread's call returns normally, everything that was queued before
    it began has been exported. *)
Lemma drained sched (y : osys) j rest o more : serving j -> m_place (o_main y) = MIdle -> m_todo (o_main y) = j :: rest ->
  m_done (o_main (osteps c world sched y)) = m_done (o_main y) ++ (j, Ok o) :: more ->
  forall r, In r (o_queue y) -> done_well (osteps c world sched y) r.
Proof.
  intros SV P TD E. assert (D : drain (fun r => In r (o_queue y)) j rest (m_done (o_main y)) (osteps c world sched y)).
  { apply osteps_inv; [intros; apply drain_step; auto|]. left. split; auto. split; auto. rewrite P. intros r I. left. apply in_or_app. auto. }
  destruct D as [(A & _)|(res & m' & A & B)].
  - exfalso. rewrite E in A. rewrite <- (app_nil_r (m_done (o_main y))) in A at 2. apply app_inv_head in A. discriminate.
  - rewrite E in A. apply app_inv_head in A. injection A as <- <-. intros r I. eapply B; eauto.
Qed.

(** Left alone, the call ends after a number of steps that depends on the queue only. *)
Lemma loop_ends rest done n : forall y, List.length (o_queue y) = n -> m_place (o_main y) = MLoop None -> m_todo (o_main y) = MProcess :: rest ->
  m_done (o_main y) = done ->
  exists k r, (k <= 2 * n + 1)%nat /\ m_done (o_main (osteps c world (repeat Main k) y)) = done ++ [(MProcess, r)].
Proof.
  induction n as [|n IH]; intros y L P TD D.
  - exists 1%nat, (Ok None). split; [lia|]. cbn [repeat osteps ostep]. unfold main_step. rewrite P.
    destruct (o_queue y); [|discriminate]. rewrite TD. simp. rewrite D. auto.
  - destruct (o_queue y) as [|r q] eqn:Q; [discriminate|]. injection L as L.
    set (y1 := ostep c world Main y).
    assert (Y1 : y1 = mkO (o_meta y) q (o_next y) (o_answers y) (o_counter y) (o_store y) (mkMain (m_todo (o_main y)) (MGot None r) (m_done (o_main y)))
        (o_threads y) (o_adds y) (o_puts y) (o_served y)) by (unfold y1; cbn [ostep]; unfold main_step; rewrite P, Q; auto).
    destruct (export_onnx c (world (List.length (o_served y))) (o_counter y) (rq_meta r) (o_store y)) as [[[it|e] m] s0] eqn:EX.
    + destruct (IH (ostep c world Main y1)) as (k & r' & K & E).
      1-4: rewrite Y1; cbn [ostep]; unfold main_step; simp; rewrite EX; simp; auto.
      exists (S (S k)), r'. split; [lia|]. cbn [repeat osteps]. exact E.
    + exists 2%nat, (Err e). split; [lia|]. cbn [repeat osteps]. fold y1. rewrite Y1. cbn [ostep]. unfold main_step. simp. rewrite EX, TD. simp. rewrite D. auto.
Qed.
Lemma process_ends y rest : m_place (o_main y) = MIdle -> m_todo (o_main y) = MProcess :: rest ->
  exists k r, (k <= 2 * List.length (o_queue y) + 2)%nat /\
    m_done (o_main (osteps c world (repeat Main k) y)) = m_done (o_main y) ++ [(MProcess, r)].
Proof.
  intros P TD. set (y1 := ostep c world Main y).
  assert (Y1 : y1 = with_main y (mkMain (m_todo (o_main y)) (MLoop None) (m_done (o_main y)))) by (unfold y1; cbn [ostep]; unfold main_step; rewrite P, TD; auto).
  destruct (@loop_ends rest (m_done (o_main y)) (List.length (o_queue y)) y1) as (k & r & K & E).
  1-4: rewrite Y1; simp; auto.
  exists (S k), r. split; [lia|]. cbn [repeat osteps]. exact E.
Qed.
End More.
