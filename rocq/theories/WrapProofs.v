(** * WrapProofs *)
From Verif Require Import Py PyLemmas WrapModel WrapSpec.
Set Implicit Arguments.
Open Scope string_scope.
Open Scope list_scope.
Open Scope Z_scope.

Lemma lacks_get o name : lacks name o -> getattribute o name = Err AttributeError.
Proof. intros [A B]. unfold getattribute. rewrite A, B. auto. Qed.
Lemma lacks_class o name : lacks name o -> class_attr o name = None.
Proof. intros [A _]. unfold class_attr. rewrite A. auto. Qed.
Lemma outer_around ws c o : outer (around (o :: ws) c) = o.
Proof. reflexivity. Qed.

Lemma lookup_around ws c name : Forall (lacks name) ws -> lookup_class_attr (around ws c) name = lookup_class_attr c name.
Proof.
  induction 1 as [|o ws L F IH]; auto. cbn [around fold_right]. fold (around ws c). cbn [lookup_class_attr outer].
  rewrite lacks_class by auto. auto.
Qed.
(** One wrapper, or many: the same. *)
Lemma get_around_ok ws c name a ca : Forall (lacks name) ws -> get c name = Ok a -> lookup_class_attr c name = Ok ca ->
  allowed a ca = true -> get (around ws c) name = Ok a.
Proof.
  intros F G L A. induction F as [|o ws Lo F IH]; auto. cbn [around fold_right]. fold (around ws c).
  cbn [get outer]. rewrite lacks_get by auto. rewrite lookup_around, L by auto. cbn [rbind]. rewrite IH. cbn [rbind]. rewrite A. auto.
Qed.
Lemma get_around_err ws c name e ca : Forall (lacks name) ws -> get c name = Err e -> lookup_class_attr c name = Ok ca ->
  get (around ws c) name = Err e.
Proof.
  intros F G L. induction F as [|o ws Lo F IH]; auto. cbn [around fold_right]. fold (around ws c).
  cbn [get outer]. rewrite lacks_get by auto. rewrite lookup_around, L by auto. cbn [rbind]. rewrite IH. auto.
Qed.
Lemma get_around_no ws c name a ca : Forall (lacks name) ws -> ws <> [] -> get c name = Ok a -> lookup_class_attr c name = Ok ca ->
  allowed a ca = false -> get (around ws c) name = Err AttributeError.
Proof.
  intros F N G L A. induction F as [|o ws Lo F IH]; [congruence|]. cbn [around fold_right]. fold (around ws c).
  cbn [get outer]. rewrite lacks_get by auto. rewrite lookup_around, L by auto. cbn [rbind].
  destruct ws as [|o' ws].
  - cbn [around fold_right]. rewrite G. cbn [rbind]. rewrite A. auto.
  - rewrite IH by discriminate. auto.
Qed.

Lemma get_outer c name r : getattribute (outer c) name = r -> r <> Err AttributeError -> get c name = r.
Proof. intros E N. destruct c; cbn [get outer] in *; rewrite E; destruct r as [a|[]]; auto; congruence. Qed.

Lemma forward_method ws c name : Forall (lacks name) ws -> has_method name (outer c) ->
  get (around ws c) name = Ok (ABound (ob_id (outer c)) name).
Proof.
  intros F [H I]. assert (G : getattribute (outer c) name = Ok (ABound (ob_id (outer c)) name)).
  { unfold getattribute. rewrite I. destruct H as [-> | ->]; auto. }
  assert (L : exists ca, lookup_class_attr c name = Ok ca).
  { destruct c; cbn [lookup_class_attr outer] in *; unfold class_attr; destruct H as [-> | ->]; eauto. }
  destruct L as [ca L]. eapply get_around_ok; eauto.
  apply get_outer; auto. discriminate.
Qed.
Lemma forward_property ws c name r : Forall (lacks name) ws -> dget (ob_class (outer c)) name = Some (CProperty r) ->
  r <> Err AttributeError -> get (around ws c) name = rmap AValue r.
Proof.
  intros F H N. assert (G : getattribute (outer c) name = rmap AValue r).
  { unfold getattribute. rewrite H. auto. }
  assert (L : lookup_class_attr c name = Ok (Some (CProperty r))).
  { destruct c; cbn [lookup_class_attr outer] in *; unfold class_attr; rewrite H; auto. }
  assert (G' : get c name = rmap AValue r).
  { apply get_outer; auto. destruct r; cbn; [discriminate|congruence]. }
  destruct r as [v|e]; cbn [rmap] in *.
  - eapply get_around_ok; eauto.
  - eapply get_around_err; eauto.
Qed.
Lemma lookup_whole c name : whole c -> (forall o, In o (layers c) -> ~ has_property name o) ->
  exists ca, lookup_class_attr c name = Ok ca /\ (match ca with Some (CProperty _) => False | _ => True end).
Proof.
  assert (S1 : forall o, ~ has_property name o -> match class_attr o name with Some (CProperty _) => False | _ => True end).
  { intros o N. unfold class_attr. destruct (dget (ob_class o) name) as [[]|] eqn:E; auto. apply N. unfold has_property. eauto. }
  induction c as [o|o c IH|o]; cbn [whole layers lookup_class_attr outer]; intros W N; [| |contradiction].
  - specialize (S1 o (N o (or_introl eq_refl))). destruct (class_attr o name); eauto.
  - specialize (S1 o (N o (or_introl eq_refl))). destruct (class_attr o name); eauto.
    apply IH; auto. intros o' Io. apply N. right. auto.
Qed.
Lemma refuse_other ws c name : whole c -> Forall (lacks name) ws -> ws <> [] -> has_other name (outer c) ->
  (forall o, In o (layers c) -> ~ has_property name o) -> get (around ws c) name = Err AttributeError.
Proof.
  intros W F N H P. destruct (lookup_whole _ W P) as (ca & L & A).
  assert (G : exists a, getattribute (outer c) name = Ok a /\ ismethod a = false).
  { unfold getattribute. destruct H as [[[v H] Np]|[I H]].
    - exists (AValue v). split; auto. rewrite H. destruct (dget (ob_class (outer c)) name) as [[]|] eqn:E; auto.
      destruct Np. unfold has_property. eauto.
    - rewrite I. destruct H as [-> |[[v ->]| ->]]; eauto. }
  destruct G as (a & G & M). eapply get_around_no; eauto.
  - apply get_outer; [eauto|discriminate].
  - unfold allowed. rewrite M. destruct ca as [[]|]; auto. destruct A.
Qed.
Lemma missing c name : whole c -> Forall (lacks name) (layers c) -> get c name = Err AttributeError.
Proof.
  intros W F. assert (P : forall o, In o (layers c) -> ~ has_property name o).
  { intros o Io [r E]. rewrite Forall_forall in F. destruct (F _ Io) as [A _]. congruence. }
  induction c as [o|o c IH|o]; cbn [whole layers get outer] in *; [| |contradiction].
  - inversion F; subst. rewrite lacks_get; auto.
  - inversion F; subst. rewrite lacks_get by auto.
    destruct (@lookup_whole c name W) as (ca & L & _). { intros o' Io. apply P. right. auto. }
    rewrite L. cbn [rbind]. rewrite IH; auto. intros o' Io. apply P. right. auto.
Qed.
Lemma only_allowed o c name a : lacks name o -> get (Wrapper o c) name = Ok a ->
  get c name = Ok a /\ (ismethod a = true \/ exists l, In l (layers c) /\ has_property name l).
Proof.
  intros L. cbn [get outer]. rewrite lacks_get by auto. destruct (lookup_class_attr c name) as [ca|] eqn:E; cbn [rbind]; [|discriminate].
  destruct (get c name) as [b|]; cbn [rbind]; [|discriminate]. destruct (allowed b ca) eqn:A; [|discriminate].
  intros H. injection H as ->. split; auto. unfold allowed in A. apply Bool.orb_true_iff in A. destruct A as [A|A]; auto.
  right. destruct ca as [[]|]; try discriminate. clear - E. revert E.
  induction c as [o|o c IH|o]; cbn [lookup_class_attr layers outer]; unfold class_attr; intros E.
  - destruct (dget (ob_class o) name) as [[]|] eqn:D; try discriminate E. exists o. split; [left; auto|]. unfold has_property. eauto.
  - destruct (dget (ob_class o) name) as [[]|] eqn:D; try discriminate E.
    + exists o. split; [left; auto|]. unfold has_property. eauto.
    + destruct (IH E) as (l & Il & Hl). exists l. split; [right; auto|auto].
    + destruct (IH E) as (l & Il & Hl). exists l. split; [right; auto|auto].
  - destruct (dget (ob_class o) name) as [[]|] eqn:D; try discriminate E. exists o. split; [left; auto|]. unfold has_property. eauto.
Qed.
Lemma blank o name : lacks name o -> get (Blank o) name = Err RecursionError.
Proof. intros L. cbn [get outer]. rewrite lacks_get; auto. Qed.

(** ** The wrappers in the code *)
Ltac in_list I := repeat (destruct I as [<-|I]; [|]); try destruct I.
Lemma emote_lacks ws name : Forall emote_wrapper ws ->
  In name ["name"; "size"; "resize"; "is_initial"; "timers"; "_store"; "_table"; "_min_length_filter"; "_completed_episodes";
           "_term_states"; "_use_terminal"; "_name"; "__setstate__"] -> Forall (lacks name) ws.
Proof.
  intros F I. eapply Forall_impl; [|exact F]. intros o [[id ->]|[id ->]]; in_list I; split; reflexivity.
Qed.
Lemma emote_public ws id nm : Forall emote_wrapper ws ->
  let c := around ws (Proxy (memory_table_proxy id nm)) in
  (forall name, In name ["size"; "resize"; "is_initial"; "timers"] -> get c name = Ok (ABound id name))
  /\ get c "name" = Ok (AValue nm).
Proof.
  intros F c. split.
  - intros name I. unfold c. rewrite forward_method.
    + reflexivity.
    + apply emote_lacks; auto. in_list I; cbn; auto 20.
    + in_list I; split; auto; left; reflexivity.
  - unfold c. rewrite (@forward_property _ _ _ (Ok nm)); auto; [|discriminate]. apply emote_lacks; auto. cbn. auto.
Qed.
Lemma emote_private ws id nm name : Forall emote_wrapper ws -> ws <> [] ->
  In name ["_store"; "_table"; "_min_length_filter"; "_completed_episodes"; "_term_states"; "_use_terminal"; "_name"] ->
  get (around ws (Proxy (memory_table_proxy id nm))) name = Err AttributeError.
Proof.
  intros F N I. apply refuse_other; cbn [whole layers outer]; auto.
  - apply emote_lacks; auto. in_list I; cbn; auto 20.
  - left. split.
    + in_list I; eexists; reflexivity.
    + intros [r E]. in_list I; discriminate E.
  - intros o [<-|[]] [r E]. in_list I; discriminate E.
Qed.
Lemma emote_own w c name : emote_wrapper w -> In name ["add"; "store"; "state_dict"; "load_state_dict"] ->
  get (Wrapper w c) name = Ok (ABound (ob_id w) name).
Proof. intros [[id ->]|[id ->]] I; in_list I; reflexivity. Qed.
Lemma emote_report ws id c name : (forall o, In o ws -> exists i, o = exporter_wrapper i) -> In name ["report"; "get_report"] ->
  get (around ws (Wrapper (logging_wrapper id) c)) name = Ok (ABound id name).
Proof.
  intros F I. rewrite forward_method; [reflexivity| |].
  - apply Forall_forall. intros o Io. destruct (F _ Io) as [i ->]. in_list I; split; reflexivity.
  - in_list I; split; auto; left; reflexivity.
Qed.
Lemma emote_copy w : emote_wrapper w -> get (Blank w) "__setstate__" = Err RecursionError.
Proof. intros [[id ->]|[id ->]]; reflexivity. Qed.
