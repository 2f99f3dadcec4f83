(** * EndsProofs: when an episode is over *)
From Verif Require Import Py PyLemmas MemModel ProxyModel ProxySpec ProxyMore ProxyProofs EndsSpec.
Set Implicit Arguments.
Unset Strict Implicit.
Open Scope list_scope.

Section Ends.
Context {S : Type} {HS : Scalar S}.
Notation moment := (obs S * option (resp S))%type.

Lemma final_ended (m : moment) : is_final (o_state (fst m)) = true <-> ended m.
Proof. unfold ended. destruct (o_state (fst m)); simpl; intuition discriminate. Qed.
Lemma final_going (m : moment) : is_final (o_state (fst m)) = false <-> going m.
Proof. unfold going. destruct (o_state (fst m)); simpl; intuition discriminate. Qed.
Lemma not_both (m : moment) : ended m -> going m -> False.
Proof. unfold ended, going. intros [A|A] [B|B]; congruence. Qed.

Lemma first_ended (cur : list moment) m r a x b : Forall going cur -> ended m -> Forall going a -> ended x ->
  cur ++ m :: r = a ++ x :: b -> a = cur /\ x = m /\ r = b.
Proof.
  revert a. induction cur as [|y cur IH]; intros a G E A X H.
  - destruct a as [|z a]; simpl in H; injection H; intros; subst; auto. inversion A; subst. destruct (@not_both z); auto.
  - inversion G; subst. destruct a as [|z a]; simpl in H; injection H; intros; subst.
    + destruct (@not_both x); auto.
    + inversion A; subst. destruct (IH a) as (-> & -> & ->); auto.
Qed.
Lemma after_first (cur : list moment) m r l x rest : Forall going cur -> ended m -> ended x ->
  cur ++ m :: r = (l ++ [x]) ++ rest -> exists l', l ++ [x] = cur ++ m :: l' /\ r = l' ++ rest.
Proof.
  revert l. induction cur as [|y cur IH]; intros l G E X H.
  - destruct l as [|z l]; simpl in H; injection H; intros; subst; [exists []|exists (l ++ [x])]; auto.
  - inversion G; subst. destruct l as [|z l]; simpl in H; injection H; intros; subst.
    + destruct (@not_both x); auto.
    + destruct (IH l) as (l' & P & Q); auto. exists l'. simpl. rewrite P. auto.
Qed.

Definition is_part (all ms : list moment) : Prop :=
  exists pre mids last post, all = pre ++ mids ++ last :: post /\ ms = mids ++ [last] /\ mids <> [] /\
    Forall going mids /\ ended last /\ (pre = [] \/ exists l x, pre = l ++ [x] /\ ended x).
Lemma part_later (cur : list moment) m r ms : ended m -> is_part r ms -> is_part (cur ++ m :: r) ms.
Proof.
  intros E (pre & mids & last & post & -> & M & N & G & L & P). exists (cur ++ m :: pre), mids, last, post.
  split; [rewrite <- app_assoc; auto|]. split; auto. split; auto. split; auto. split; auto. right.
  destruct P as [-> | (l & x & -> & X)]; [exists cur, m|exists (cur ++ m :: l), x]; split; auto. rewrite <- app_assoc. auto.
Qed.
Lemma part_split (cur : list moment) m r ms : Forall going cur -> ended m -> is_part (cur ++ m :: r) ms ->
  (cur <> [] /\ ms = cur ++ [m]) \/ is_part r ms.
Proof.
  intros G E (pre & mids & last & post & H & M & N & GM & L & P). destruct P as [-> | (l & x & -> & X)].
  - simpl in H. destruct (first_ended G E GM L H) as (-> & -> & ->). auto.
  - right. destruct (after_first G E X H) as (l' & P1 & P2). exists l', mids, last, post. split; auto. split; auto. split; auto.
    split; auto. split; auto. destruct l' as [|y l'] using rev_ind; [auto|]. right. exists l', y. split; auto.
    assert (Q : l ++ [x] = (cur ++ m :: l') ++ [y]) by (rewrite P1, <- app_assoc; auto).
    apply app_inj_tail in Q. destruct Q as [_ <-]. auto.
Qed.
Lemma episodes_from (st : list moment) : forall cur ms, Forall going cur -> (In ms (episodes cur st) <-> is_part (cur ++ st) ms).
Proof.
  induction st as [|m r IH]; intros cur ms G.
  - simpl. split; [tauto|]. rewrite app_nil_r. intros (pre & mids & last & post & -> & _ & _ & _ & L & _).
    rewrite !Forall_app in G. destruct G as (_ & _ & G). inversion G; subst. destruct (@not_both last); auto.
  - cbn [episodes]. destruct (is_final (o_state (fst m))) eqn:F.
    + apply final_ended in F. assert (IH0 : In ms (episodes [] r) <-> is_part r ms) by (apply (IH []); constructor).
      destruct cur as [|y cur].
      * rewrite IH0. split; intros H; [apply (@part_later []); auto|]. destruct (part_split (Forall_nil _) F H) as [[X _]|X]; [congruence|auto].
      * cbn [In]. rewrite IH0. split.
        -- intros [<-|H]; [|apply part_later; auto]. exists [], (y :: cur), m, r. simpl. repeat split; auto; discriminate.
        -- intros H. destruct (part_split G F H) as [[_ ->]|X]; auto.
    + apply final_going in F. rewrite IH by (apply Forall_app; auto). rewrite <- app_assoc. reflexivity.
Qed.
Theorem episodes_are (st ms : list moment) : In ms (episodes [] st) <->
  exists pre mids last post, st = pre ++ mids ++ last :: post /\ ms = mids ++ [last] /\ mids <> [] /\
    Forall going mids /\ ended last /\ (pre = [] \/ exists l x, pre = l ++ [x] /\ ended x).
Proof. exact (@episodes_from st [] ms (Forall_nil _)). Qed.

Lemma running_last (l : list moment) m : forall cur, running cur (l ++ [m]) = [] <-> ended m.
Proof.
  induction l as [|x l IH]; intros cur.
  - cbn [app running]. rewrite <- final_ended. destruct (is_final (o_state (fst m))); split; auto; try discriminate.
    intros H. apply app_eq_nil in H. destruct H; discriminate.
  - cbn [app running]. destruct (is_final (o_state (fst x))); apply IH.
Qed.
Theorem open_agents (pc : pconf) (t0 : table S) (h : list (pop S)) (p : proxy S) :
  batches_ok h -> prun pc (px_new t0) h = (p, Ok tt) ->
  forall a, In a (dkeys (px_store p)) <-> exists l m, stream a h = l ++ [m] /\ ~ ended m.
Proof.
  intros B H a. destruct (@builder_new _ _ pc t0 h p B H) as (ops & _ & _ & X). destruct (X a) as [_ ->]. split.
  - intros N. destruct (stream a h) as [|m l] using rev_ind; [simpl in N; congruence|]. exists l, m. split; auto.
    intros E. apply N. apply running_last. auto.
  - intros (l & m & -> & N) E. apply N. apply running_last in E. auto.
Qed.
End Ends.
