(** * AgentOpt: the weight decay groups *)
From Coq Require Import Lia Permutation.
From Verif Require Import Py PyLemmas MemModel ProxyModel AgentModel AgentSpec.
Open Scope string_scope.
Open Scope list_scope.
Open Scope nat_scope.
Set Implicit Arguments. Unset Strict Implicit.

Definition ordinary_b (network : module) (white black : list string) (excluded : list mpath) : Prop :=
  NoDup (map fst (all_params network)) /\ NoDup (map snd (all_params network)) /\
  (forall path m name i, In (path, m) (named_modules network) -> In (name, i) (mod_own m) ->
     In path excluded \/ str_endswith "bias" name = true \/
     (str_endswith "weight" name = true /\ (isinstance m white = true \/ isinstance m black = true))) /\
  (forall path m, In (path, m) (named_modules network) -> container m ->
     ~ In path excluded /\ isinstance m white = false /\ isinstance m black = false).
Definition decays_b (white black : list string) (excluded : list mpath) (path : mpath) (m : module) (name : string) : Prop :=
  ~ In path excluded /\ str_endswith "bias" name = false /\ str_endswith "weight" name = true
  /\ isinstance m white = true /\ isinstance m black = false.

Lemma module_rect' (P : module -> Prop) :
  (forall mro own ch, Forall (fun nc => P (snd nc)) ch -> P (Mod mro own ch)) -> forall m, P m.
Proof.
  intros H. fix F 1. intros [mro own ch]. apply H. induction ch as [|[n c] t IH]; constructor; [apply F|exact IH].
Qed.

Definition under (p : mpath) (l : list (mpath * module)) : list (mpath * module) :=
  map (fun qy => (p ++ fst qy, snd qy)) l.
Definition child_modules (ch : list (string * module)) : list (mpath * module) :=
  flat_map (fun nc => under [fst nc] (named_modules (snd nc))) ch.

Lemma named_modules_eq mro own ch : named_modules (Mod mro own ch) = ([], Mod mro own ch) :: child_modules ch.
Proof.
  cbn [named_modules]. f_equal. unfold child_modules.
  induction ch as [|[n c] t IH]; [reflexivity|]. cbn [flat_map fst snd]. rewrite <- IH. reflexivity.
Qed.

Lemma named_modules_head m : exists t, named_modules m = ([], m) :: t.
Proof. destruct m as [a b c]. rewrite named_modules_eq. eauto. Qed.

Lemma under_nil l : under [] l = l.
Proof. unfold under. rewrite <- (map_id l) at 2. apply map_ext. intros [p x]. reflexivity. Qed.
Lemma under_app p q l : under p (under q l) = under (p ++ q) l.
Proof. unfold under. rewrite map_map. apply map_ext. intros [r x]. simpl. rewrite app_assoc. reflexivity. Qed.

Lemma under_cat p a b : under p (a ++ b) = under p a ++ under p b.
Proof. apply map_app. Qed.

(** The modules below a module are a segment of the modules of the network. *)
Lemma segment : forall net p m, In (p, m) (named_modules net) ->
  exists pre post, named_modules net = pre ++ under p (named_modules m) ++ post.
Proof.
  induction net as [mro own ch IH] using module_rect'. intros p m Hin. rewrite named_modules_eq in Hin. destruct Hin as [E|Hin].
  - injection E as <- <-. exists [], []. rewrite under_nil. rewrite app_nil_r. reflexivity.
  - assert (K : exists pre post, child_modules ch = pre ++ under p (named_modules m) ++ post).
    { clear mro own. induction ch as [|[n c] t IHc]; [destruct Hin|]. inversion IH as [|? ? IH0 IHt]; subst. cbn [snd] in IH0.
      unfold child_modules in Hin. cbn [flat_map fst snd] in Hin. apply in_app_or in Hin. destruct Hin as [Hin|Hin].
      - unfold under in Hin. apply in_map_iff in Hin. destruct Hin as [[q y] [E Hq]]. simpl in E. injection E as E1 E2.
        subst y. destruct (IH0 q m Hq) as [pre [post Es]].
        exists (under [n] pre), (under [n] post ++ child_modules t).
        unfold child_modules. cbn [flat_map fst snd]. rewrite Es. rewrite !under_cat, under_app. subst p. cbn [app]. rewrite <- !app_assoc. reflexivity.
      - destruct (IHc IHt Hin) as [pre [post Es]].
        exists (under [n] (named_modules c) ++ pre), post.
        unfold child_modules. cbn [flat_map fst snd]. fold (child_modules t). rewrite Es. rewrite <- !app_assoc. reflexivity. }
    destruct K as [pre [post Es]].
    exists (([], Mod mro own ch) :: pre), post. rewrite named_modules_eq, Es. reflexivity.
Qed.

Lemma module_below net p m q x : In (p, m) (named_modules net) -> In (q, x) (named_modules m) -> In (p ++ q, x) (named_modules net).
Proof.
  intros H1 H2. destruct (segment H1) as [pre [post E]]. rewrite E. apply in_or_app. right. apply in_or_app. left.
  unfold under. apply in_map_iff. exists (q, x). auto.
Qed.

Definition params_of (l : list (mpath * module)) : list (mpath * nat) :=
  flat_map (fun px => map (fun ni => (fst px ++ [fst ni], snd ni)) (mod_own (snd px))) l.
Lemma params_of_app a b : params_of (a ++ b) = params_of a ++ params_of b.
Proof. unfold params_of. apply flat_map_app. Qed.
Lemma params_under p l : map snd (params_of (under p l)) = map snd (params_of l).
Proof.
  unfold params_of, under. induction l as [|[q x] t IH]; simpl; auto.
  rewrite !map_app. f_equal; [rewrite !map_map; reflexivity|exact IH].
Qed.

Lemma NoDup_mid A (a b c : list A) : NoDup (a ++ b ++ c) -> NoDup b.
Proof.
  intros N. induction a as [|x a IH]; simpl in N; [|inversion N; auto].
  clear - N. induction b as [|y b IH]; simpl in N; [constructor|]. inversion N; subst. constructor; auto.
  intros I. apply H1. apply in_or_app. auto.
Qed.

Lemma NoDup_cat A (a b : list A) : NoDup (a ++ b) -> NoDup a /\ NoDup b /\ forall x, In x a -> ~ In x b.
Proof.
  induction a as [|y a IH]; simpl; intros N; [split; [constructor|auto]|].
  inversion N as [|? ? Q1 Q2]; subst. destruct (IH Q2) as (A1 & A2 & A3). split; [|split]; auto.
  - constructor; auto. intros I. apply Q1. apply in_or_app. auto.
  - intros x [<-|Hx] Hb; [apply Q1; apply in_or_app; auto|]. exact (A3 x Hx Hb).
Qed.

Lemma sub_ids net p m : NoDup (map snd (all_params net)) -> In (p, m) (named_modules net) -> NoDup (map snd (all_params m)).
Proof.
  intros N Hin. destruct (segment Hin) as [pre [post E]]. unfold all_params in *. fold (params_of (named_modules net)) in N.
  fold (params_of (named_modules m)). rewrite E, !params_of_app, !map_app, params_under in N. exact (NoDup_mid N).
Qed.

Lemma first_names_all l : forall seen, NoDup (map snd l) -> (forall i, In i (map snd l) -> ~ In i seen) -> first_names seen l = l.
Proof.
  induction l as [|[n i] t IH]; intros seen N D; simpl; auto. inversion N; subst.
  destruct (existsb (Nat.eqb i) seen) eqn:E.
  - apply existsb_exists in E. destruct E as [j [Hj Ej]]. apply Nat.eqb_eq in Ej. subst j.
    destruct (D i); simpl; auto.
  - f_equal. apply IH; auto. intros j Hj [<-|Hs]; [contradiction|]. apply (D j); simpl; auto.
Qed.
Lemma named_parameters_all m : NoDup (map snd (all_params m)) -> named_parameters m = all_params m.
Proof. intros N. apply first_names_all; auto. Qed.

Lemma In_all_params m pn i : In (pn, i) (all_params m) <->
  exists path x name, In (path, x) (named_modules m) /\ In (name, i) (mod_own x) /\ pn = path ++ [name].
Proof.
  unfold all_params. rewrite in_flat_map. split.
  - intros [[path x] [Hx Hp]]. apply in_map_iff in Hp. destruct Hp as [[name j] [E Hn]]. simpl in *. injection E as <- <-. eauto 6.
  - intros (path & x & name & Hx & Hn & ->). exists (path, x). split; auto. apply in_map_iff. exists (name, i). auto.
Qed.

Lemma path_eqb_eq a b : path_eqb a b = true <-> a = b.
Proof. unfold path_eqb. destruct (list_eq_dec string_dec a b); split; congruence. Qed.
Lemma path_In a l : existsb (path_eqb a) l = true <-> In a l.
Proof.
  rewrite existsb_exists. split.
  - intros [x [Hx E]]. apply path_eqb_eq in E. congruence.
  - intros H. exists a. split; auto. apply path_eqb_eq. auto.
Qed.
Lemma path_notIn a l : existsb (path_eqb a) l = false <-> ~ In a l.
Proof. rewrite <- path_In. destruct (existsb _ l); split; congruence. Qed.

Lemma In_set_add x y s : In x (set_add y s) <-> x = y \/ In x s.
Proof.
  unfold set_add. destruct (existsb (path_eqb y) s) eqn:E.
  - apply path_In in E. split; auto. intros [->|]; auto.
  - rewrite in_app_iff. simpl. intuition.
Qed.
Lemma NoDup_set_add y s : NoDup s -> NoDup (set_add y s).
Proof.
  intros N. unfold set_add. destruct (existsb (path_eqb y) s) eqn:E; auto. apply path_notIn in E.
  apply (Permutation_NoDup (l := y :: s)); [apply Permutation_cons_append|]. constructor; auto.
Qed.

Section Groups.
Variables (white black : list string) (excluded : list mpath).
Notation vis := (visit white black excluded).

Lemma fold_decay vs : forall acc f,
  (In f (fst (fold_left (visit_one white black excluded) vs acc)) <->
    In f (fst acc) \/ exists mn m pn, In (mn, m, pn) vs /\ vis mn m pn = Decay /\ f = mn ++ pn) /\
  (In f (snd (fold_left (visit_one white black excluded) vs acc)) <->
    In f (snd acc) \/ exists mn m pn, In (mn, m, pn) vs /\ vis mn m pn = NoDecay /\ f = mn ++ pn).
Proof.
  induction vs as [|[[mn m] pn] t IH]; intros acc f; cbn [fold_left].
  - split; (split; [auto|]; intros [H|(? & ? & ? & [] & _)]; auto).
  - destruct (IH (visit_one white black excluded acc (mn, m, pn)) f) as [I1 I2]. rewrite I1, I2. clear IH I1 I2.
    unfold visit_one. split.
    + split.
      * intros [H|(a & b & c & Hin & Hv & E)]; [|right; exists a, b, c; split; [right|]; auto].
        destruct (vis mn m pn) eqn:V; simpl in H; auto. apply In_set_add in H. destruct H as [->|H]; auto.
        right. exists mn, m, pn. split; [left|]; auto.
      * intros [H|(a & b & c & [E0|Hin] & Hv & E)]; [| |right; exists a, b, c; auto].
        -- left. destruct (vis mn m pn); simpl; auto. apply In_set_add. auto.
        -- injection E0 as -> -> ->. left. rewrite Hv. simpl. apply In_set_add. auto.
    + split.
      * intros [H|(a & b & c & Hin & Hv & E)]; [|right; exists a, b, c; split; [right|]; auto].
        destruct (vis mn m pn) eqn:V; simpl in H; auto. apply In_set_add in H. destruct H as [->|H]; auto.
        right. exists mn, m, pn. split; [left|]; auto.
      * intros [H|(a & b & c & [E0|Hin] & Hv & E)]; [| |right; exists a, b, c; auto].
        -- left. destruct (vis mn m pn); simpl; auto. apply In_set_add. auto.
        -- injection E0 as -> -> ->. left. rewrite Hv. simpl. apply In_set_add. auto.
Qed.

Lemma fold_NoDup vs : forall acc, NoDup (fst acc) -> NoDup (snd acc) ->
  NoDup (fst (fold_left (visit_one white black excluded) vs acc)) /\ NoDup (snd (fold_left (visit_one white black excluded) vs acc)).
Proof.
  induction vs as [|[[mn m] pn] t IH]; intros acc N1 N2; cbn [fold_left]; auto.
  apply IH; unfold visit_one; destruct (vis mn m pn); simpl; auto using NoDup_set_add.
Qed.

Lemma In_visits net mn m pn : In (mn, m, pn) (visits net) <->
  In (mn, m) (named_modules net) /\ exists i, In (pn, i) (named_parameters m).
Proof.
  unfold visits. rewrite in_flat_map. split.
  - intros [[p x] [Hx Hv]]. apply in_map_iff in Hv. destruct Hv as [[n i] [E Hn]]. simpl in *. injection E as <- <- <-. eauto.
  - intros [Hm [i Hi]]. exists (mn, m). split; auto. apply in_map_iff. exists (pn, i). auto.
Qed.

Lemma last_part_app path name : last_part (path ++ [name]) = name.
Proof. unfold last_part. apply last_last. Qed.

(** The owner of a parameter is determined by the name. *)
Lemma owner_unique net path m name i path' m' name' i' :
  NoDup (map fst (all_params net)) ->
  In (path, m) (named_modules net) -> In (name, i) (mod_own m) ->
  In (path', m') (named_modules net) -> In (name', i') (mod_own m') ->
  path ++ [name] = path' ++ [name'] -> path = path' /\ m = m' /\ name = name' /\ i = i'.
Proof.
  intros N H1 O1 H2 O2 E. apply app_inj_tail in E. destruct E as [<- <-]. split; auto.
  unfold all_params in N. induction (named_modules net) as [|[q x] t IH]; [destruct H1|].
  cbn [flat_map fst snd] in N. rewrite map_app in N. destruct (NoDup_cat N) as (N2 & N3 & D).
  assert (M : forall y j, In (path, y) t -> In (name, j) (mod_own y) -> In (path ++ [name]) (map fst (params_of t))).
  { intros y j Hy Hj. apply in_map_iff. exists (path ++ [name], j). split; auto. unfold params_of. apply in_flat_map.
    exists (path, y). split; auto. apply in_map_iff. exists (name, j). auto. }
  assert (M0 : forall y j, (q, x) = (path, y) -> In (name, j) (mod_own y) -> In (path ++ [name]) (map fst (map (fun ni => (q ++ [fst ni], snd ni)) (mod_own x)))).
  { intros y j Ey Hj. injection Ey as -> ->. rewrite map_map. apply in_map_iff. exists (name, j). auto. }
  destruct H1 as [E1|H1]; destruct H2 as [E2|H2].
  - injection E1 as -> ->. injection E2 as ->. split; auto. split; auto.
    rewrite map_map in N2. simpl in N2. clear - N2 O1 O2.
    induction (mod_own m') as [|[n j] l IH]; [destruct O1|]. simpl in N2. inversion N2 as [|? ? Q1 Q2]; subst.
    assert (X : forall k, In (name, k) l -> In (path ++ [name]) (map (fun x => path ++ [fst x]) l)).
    { intros k Hk. apply in_map_iff. exists (name, k). auto. }
    destruct O1 as [E1|O1]; destruct O2 as [E2|O2]; auto.
    + congruence.
    + injection E1 as -> ->. destruct (Q1 (X _ O2)).
    + injection E2 as -> ->. destruct (Q1 (X _ O1)).
  - destruct (D _ (M0 _ _ E1 O1) (M _ _ H2 O2)).
  - destruct (D _ (M0 _ _ E2 O2) (M _ _ H1 O1)).
  - apply IH; auto.
Qed.

(** Every visit of a parameter in an ordinary network agrees with its layer. *)
Lemma visit_ordinary net mn m pn : ordinary_b net white black excluded -> In (mn, m, pn) (visits net) ->
  exists path x name i, In (path, x) (named_modules net) /\ In (name, i) (mod_own x) /\ mn ++ pn = path ++ [name] /\
    (vis mn m pn = Decay -> decays_b white black excluded path x name) /\
    (vis mn m pn = NoDecay -> ~ decays_b white black excluded path x name) /\
    (mn = path -> m = x -> vis mn m pn <> Nothing).
Proof.
  intros (N1 & N2 & Ho & Hc) Hv. apply In_visits in Hv. destruct Hv as [Hm [i Hi]].
  rewrite named_parameters_all in Hi by (eapply sub_ids; eauto).
  apply In_all_params in Hi. destruct Hi as (q & x & name & Hq & Hn & ->).
  exists (mn ++ q), x, name, i. split; [eapply module_below; eauto|]. split; auto. split; [apply app_assoc|].
  assert (Hx : In (mn ++ q, x) (named_modules net)) by (eapply module_below; eauto).
  unfold visit. rewrite last_part_app. destruct q as [|s q].
  - rewrite app_nil_r in *.
    assert (x = m).
    { destruct (named_modules_head m) as [t Et].
      destruct (@owner_unique net mn x name i mn m name i) as [_ [E _]]; auto.
      - clear - Hq Hn Et. destruct m as [a b c]. rewrite named_modules_eq in Hq. destruct Hq as [E|Hq].
        + injection E as <-. auto.
        + exfalso. unfold child_modules in Hq. apply in_flat_map in Hq. destruct Hq as [[n c'] [_ Hq]]. unfold under in Hq.
          apply in_map_iff in Hq. destruct Hq as [[? ?] [E _]]. discriminate. }
    subst x. unfold decays_b.
    destruct (existsb (path_eqb mn) excluded) eqn:Ex.
    + apply path_In in Ex. split; [discriminate|]. split; [tauto|discriminate].
    + apply path_notIn in Ex. destruct (Ho mn m name i Hm Hn) as [|[B|[B1 B2]]]; [contradiction| |].
      * rewrite B. split; [discriminate|]. split; [|discriminate]. intros _ (_ & X & _). congruence.
      * rewrite B1. destruct (str_endswith "bias" name); [split; [discriminate|]; split; [|discriminate]; intros _ (_ & X & _); congruence|].
        destruct (isinstance m black) eqn:Eb; cbn [andb]; [split; [discriminate|]; split; [|discriminate]; intros _ (_ & _ & _ & _ & X); congruence|].
        destruct (isinstance m white) eqn:Ew.
        -- split; [intros _; auto|]. split; discriminate.
        -- destruct B2; congruence.
  - assert (C : container m).
    { exists (s :: q), x. split; auto. split; [discriminate|]. destruct (mod_own x); [destruct Hn|discriminate]. }
    destruct (Hc _ _ Hm C) as (C1 & C2 & C3). apply path_notIn in C1. rewrite C1, C2, C3. rewrite !Bool.andb_false_r.
    destruct (str_endswith "bias" name) eqn:B.
    + split; [discriminate|]. split; [intros _ (_ & X & _); congruence|]. discriminate.
    + split; [discriminate|]. split; [discriminate|]. intros E _.
      exfalso. apply (f_equal (@List.length string)) in E. rewrite app_length in E. simpl in E. lia.
Qed.

Lemma separate_ordinary net D ND path x name i : ordinary_b net white black excluded ->
  separate net white black excluded = Ok (D, ND) ->
  In (path, x) (named_modules net) -> In (name, i) (mod_own x) ->
  (In (path ++ [name]) D <-> decays_b white black excluded path x name) /\
  (In (path ++ [name]) ND <-> ~ decays_b white black excluded path x name).
Proof.
  intros Or E Hx Hn. unfold separate in E. destruct (existsb _ white); [discriminate|].
  assert (E' := f_equal (fun r => match r with Ok p => p | Err _ => ([], []) end) E). cbn in E'.
  destruct (fold_decay (visits net) ([], []) (path ++ [name])) as [F1 F2]. rewrite E' in F1, F2. cbn [fst snd In] in F1, F2.
  (* the visit by its own layer *)
  assert (V0 : In (path, x, [name]) (visits net)).
  { apply In_visits. split; auto. exists i. rewrite named_parameters_all by (destruct Or as (_ & N2 & _); eapply sub_ids; eauto).
    apply In_all_params. exists [], x, name. split; auto. destruct (named_modules_head x) as [t ->]. left. auto. }
  assert (Own : forall mn m pn, In (mn, m, pn) (visits net) -> path ++ [name] = mn ++ pn ->
    (vis mn m pn = Decay -> decays_b white black excluded path x name) /\
    (vis mn m pn = NoDecay -> ~ decays_b white black excluded path x name) /\
    (mn = path -> m = x -> vis mn m pn <> Nothing)).
  { intros mn m pn Hv Eq. destruct (visit_ordinary Or Hv) as (p' & x' & n' & i' & H1 & H2 & H3 & H4).
    rewrite H3 in Eq. destruct Or as (N1 & _). destruct (owner_unique N1 Hx Hn H1 H2 Eq) as (<- & <- & <- & _). auto. }
  destruct (Own _ _ _ V0 eq_refl) as (A1 & A2 & A3). specialize (A3 eq_refl eq_refl).
  rewrite F1, F2. split; split.
  - intros [[]|(mn & m & pn & Hv & Vd & Eq)]. apply (Own _ _ _ Hv Eq). auto.
  - intros Dc. right. exists path, x, [name]. split; auto. split; auto.
    destruct (vis path x [name]) eqn:V; auto; [|congruence]. destruct (A2 eq_refl Dc).
  - intros [[]|(mn & m & pn & Hv & Vd & Eq)]. apply (Own _ _ _ Hv Eq). auto.
  - intros Dc. right. exists path, x, [name]. split; auto. split; auto.
    destruct (vis path x [name]) eqn:V; auto; [|congruence]. destruct (Dc (A1 eq_refl)).
Qed.

Lemma separate_names net D ND f : ordinary_b net white black excluded ->
  separate net white black excluded = Ok (D, ND) -> In f D \/ In f ND ->
  exists path x name i, In (path, x) (named_modules net) /\ In (name, i) (mod_own x) /\ f = path ++ [name].
Proof.
  intros Or E Hf. unfold separate in E. destruct (existsb _ white); [discriminate|].
  assert (E' := f_equal (fun r => match r with Ok p => p | Err _ => ([], []) end) E). cbn in E'.
  destruct (fold_decay (visits net) ([], []) f) as [F1 F2]. rewrite E' in F1, F2. cbn [fst snd In] in F1, F2.
  assert (exists mn m pn, In (mn, m, pn) (visits net) /\ f = mn ++ pn) as (mn & m & pn & Hv & ->).
  { destruct Hf as [Hf|Hf]; [apply F1 in Hf|apply F2 in Hf]; destruct Hf as [[]|(mn & m & pn & ? & ? & ?)]; eauto. }
  destruct (visit_ordinary Or Hv) as (p' & x' & n' & i' & H1 & H2 & H3 & _). rewrite H3. eauto 8.
Qed.

Lemma separate_NoDup net D ND : separate net white black excluded = Ok (D, ND) -> NoDup D /\ NoDup ND.
Proof.
  intros E. unfold separate in E. destruct (existsb _ white); [discriminate|].
  assert (E' := f_equal (fun r => match r with Ok p => p | Err _ => ([], []) end) E). cbn in E'.
  destruct (@fold_NoDup (visits net) ([], []) (NoDup_nil _) (NoDup_nil _)) as [A B]. rewrite E' in A, B. auto.
Qed.

Lemma param_at_ok net path x name i : NoDup (map fst (all_params net)) -> NoDup (map snd (all_params net)) ->
  In (path, x) (named_modules net) -> In (name, i) (mod_own x) -> param_at net (path ++ [name]) = Ok i.
Proof.
  intros N1 N2 Hx Hn. unfold param_at. rewrite named_parameters_all by auto.
  assert (Hin : In (path ++ [name], i) (all_params net)) by (apply In_all_params; eauto 6).
  destruct (find (fun ni => path_eqb (fst ni) (path ++ [name])) (all_params net)) as [[n j]|] eqn:F.
  - apply find_some in F. destruct F as [Hj Ej]. apply path_eqb_eq in Ej. simpl in Ej. subst n.
    apply In_all_params in Hj. destruct Hj as (p' & x' & n' & Hx' & Hn' & Eq).
    destruct (owner_unique N1 Hx Hn Hx' Hn' Eq) as (_ & _ & _ & <-). reflexivity.
  - exfalso. apply find_none with (x := (path ++ [name], i)) in F; auto. simpl in F.
    assert (path_eqb (path ++ [name]) (path ++ [name]) = true) by (apply path_eqb_eq; auto). congruence.
Qed.

Definition id_at (net : module) (f : mpath) : nat := match param_at net f with Ok i => i | Err _ => 0 end.

Lemma adamw_ordinary_b order net : ordinary_b net white black excluded ->
  (forall c, In c white -> ~ In c black) -> (forall l, Permutation (order l) l) ->
  exists g1 g2, modified_adamw order net white black excluded = Ok (g1, g2) /\
    (forall i, In i (g1 ++ g2) -> In i (map snd (all_params net))) /\ NoDup (g1 ++ g2) /\
    forall path m name i, In (path, m) (named_modules net) -> In (name, i) (mod_own m) ->
      (In i g1 <-> decays_b white black excluded path m name) /\
      (In i g2 <-> ~ decays_b white black excluded path m name).
Proof.
  intros Or Dis Perm. pose proof Or as (N1 & N2 & _).
  destruct (separate net white black excluded) as [[D ND]|e] eqn:E.
  2:{ exfalso. unfold separate in E. destruct (existsb _ white) eqn:X; [|discriminate].
      apply existsb_exists in X. destruct X as [c [Hc X]]. apply existsb_exists in X. destruct X as [c' [Hc' X]].
      apply String.eqb_eq in X. subst c'. exact (Dis _ Hc Hc'). }
  unfold modified_adamw. rewrite E. cbn [rbind].
  assert (Mp : forall l, (forall f, In f l -> In f D \/ In f ND) -> rmapM (param_at net) l = Ok (map (id_at net) l)).
  { induction l as [|f t IH]; intros Hl; simpl; auto.
    destruct (separate_names Or E (Hl f (or_introl eq_refl))) as (p & x & n & i & Hx & Hn & ->).
    unfold id_at at 1. rewrite (param_at_ok N1 N2 Hx Hn). simpl. rewrite IH by (intros; apply Hl; right; auto). reflexivity. }
  rewrite Mp by (intros f Hf; left; eapply Permutation_in; eauto).
  cbn [rbind]. rewrite Mp by (intros f Hf; right; eapply Permutation_in; eauto). cbn [rbind].
  assert (InD : forall l, (forall f, In f l -> In f D \/ In f ND) -> forall path m name i,
     In (path, m) (named_modules net) -> In (name, i) (mod_own m) ->
     (In i (map (id_at net) l) <-> In (path ++ [name]) l)).
  { intros l Hl path m name i Hm Hn. rewrite in_map_iff. split.
    - intros [f [Ef Hf]]. destruct (separate_names Or E (Hl f Hf)) as (p & x & n & j & Hx & Hn' & ->).
      unfold id_at in Ef. rewrite (param_at_ok N1 N2 Hx Hn') in Ef. subst j.
      assert (A1 : In (path ++ [name], i) (all_params net)) by (apply In_all_params; eauto 6).
      assert (A2 : In (p ++ [n], i) (all_params net)) by (apply In_all_params; eauto 6).
      assert (EQ : path ++ [name] = p ++ [n]); [|rewrite EQ; exact Hf].
      clear - N2 A1 A2. induction (all_params net) as [|[k j] t IH]; [destruct A1|]. simpl in N2. inversion N2 as [|? ? Q1 Q2]; subst.
      destruct A1 as [E1|A1]; destruct A2 as [E2|A2]; auto.
      + congruence.
      + injection E1 as -> ->. destruct Q1. apply in_map_iff. eexists; split; [|exact A2]. reflexivity.
      + injection E2 as -> ->. destruct Q1. apply in_map_iff. eexists; split; [|exact A1]. reflexivity.
    - intros Hf. exists (path ++ [name]). split; auto. unfold id_at. rewrite (param_at_ok N1 N2 Hm Hn). reflexivity. }
  assert (HoD : forall f, In f (order D) -> In f D \/ In f ND) by (intros f Hf; left; eapply Permutation_in; eauto).
  assert (HoN : forall f, In f (order ND) -> In f D \/ In f ND) by (intros f Hf; right; eapply Permutation_in; eauto).
  assert (Key : forall path m name i, In (path, m) (named_modules net) -> In (name, i) (mod_own m) ->
      (In i (map (id_at net) (order D)) <-> decays_b white black excluded path m name) /\
      (In i (map (id_at net) (order ND)) <-> ~ decays_b white black excluded path m name)).
  { intros path m name i Hm Hn. destruct (separate_ordinary Or E Hm Hn) as [S1 S2].
    rewrite (InD _ HoD _ _ _ _ Hm Hn), (InD _ HoN _ _ _ _ Hm Hn). split.
    - rewrite <- S1. split; apply Permutation_in; [|symmetry]; auto.
    - rewrite <- S2. split; apply Permutation_in; [|symmetry]; auto. }
  assert (Own : forall l, (forall f, In f l -> In f D \/ In f ND) -> forall i, In i (map (id_at net) l) ->
     exists path m name, In (path, m) (named_modules net) /\ In (name, i) (mod_own m)).
  { intros l Hl i Hi. apply in_map_iff in Hi. destruct Hi as [f [Ef Hf]].
    destruct (separate_names Or E (Hl f Hf)) as (p & x & n & j & Hx & Hn' & ->).
    unfold id_at in Ef. rewrite (param_at_ok N1 N2 Hx Hn') in Ef. subst j. eauto. }
  assert (Dj : forall i, In i (map (id_at net) (order D)) -> ~ In i (map (id_at net) (order ND))).
  { intros i H1 H2. destruct (Own _ HoD _ H1) as (p & m & n & Hm & Hn). destruct (Key _ _ _ _ Hm Hn) as [K1 K2].
    apply K1 in H1. apply K2 in H2. auto. }
  destruct (existsb (fun i => existsb (Nat.eqb i) (map (id_at net) (order ND))) (map (id_at net) (order D))) eqn:X.
  { exfalso. apply existsb_exists in X. destruct X as [i [Hi X]]. apply existsb_exists in X. destruct X as [j [Hj X]].
    apply Nat.eqb_eq in X. subst j. exact (Dj _ Hi Hj). }
  eexists. eexists. split; [reflexivity|]. split; [|split].
  - intros i Hi. apply in_app_or in Hi. apply in_map_iff.
    assert (exists path m name, In (path, m) (named_modules net) /\ In (name, i) (mod_own m)) as (p & m & n & Hm & Hn).
    { destruct Hi as [Hi|Hi]; [apply (Own _ HoD _ Hi)|apply (Own _ HoN _ Hi)]. }
    exists (p ++ [n], i). split; auto. apply In_all_params. eauto 6.
  - destruct (separate_NoDup E) as [ND1 ND2].
    assert (Inj : forall l, (forall f, In f l -> In f D \/ In f ND) -> NoDup l -> NoDup (map (id_at net) l)).
    { induction l as [|f t IH]; intros Hl Nl; simpl; [constructor|]. inversion Nl; subst. constructor.
      - intros Hi. destruct (separate_names Or E (Hl f (or_introl eq_refl))) as (p & x & n & j & Hx & Hn' & ->).
        unfold id_at in Hi at 1. rewrite (param_at_ok N1 N2 Hx Hn') in Hi.
        apply (InD t (fun f Hf => Hl f (or_intror Hf)) _ _ _ _ Hx Hn') in Hi. contradiction.
      - apply IH; auto. intros; apply Hl; right; auto. }
    assert (A : NoDup (map (id_at net) (order D))).
    { apply Inj; auto. eapply Permutation_NoDup; [symmetry; apply Perm|auto]. }
    assert (B : NoDup (map (id_at net) (order ND))).
    { apply Inj; auto. eapply Permutation_NoDup; [symmetry; apply Perm|auto]. }
    clear - A B Dj. induction A as [|i l Hi A IH]; simpl; auto. constructor.
    + intros H. apply in_app_or in H. destruct H as [H|H]; auto. apply (Dj i); simpl; auto.
    + apply IH. intros j Hj. apply Dj. right. auto.
  - exact Key.
Qed.
End Groups.

(** ** Counterexamples, with the default lists *)
Definition linear (w b : nat) : module := Mod ["Linear"; "Module"] [("weight", w); ("bias", b)] [].
Definition layer_norm (w b : nat) : module := Mod ["LayerNorm"; "Module"] [("weight", w); ("bias", b)] [].
Definition conv (w b : nat) : module := Mod ["Conv2d"; "Module"] [("weight", w); ("bias", b)] [].
Definition sequential (l : list (string * module)) : module := Mod ["Sequential"; "Module"] [] l.
Definition white0 : list string := ["Linear"].
Definition black0 : list string := ["LayerNorm"].

(** The weight of a convolution is in neither group: it is never trained. *)
Lemma conv_left_out : modified_adamw (fun l => l) (sequential [("0", conv 0 1); ("1", linear 2 3)]) white0 black0 []
  = Ok ([2], [1; 3]).
Proof. vm_compute. reflexivity. Qed.
(** So is a parameter that is called neither weight nor bias. *)
Lemma log_std_left_out : modified_adamw (fun l => l) (Mod ["Policy"; "Module"] [("log_std", 0)] [("net", linear 1 2)]) white0 black0 []
  = Ok ([1], [2]).
Proof. vm_compute. reflexivity. Qed.
(** Excluding a block of layers is refused: its weights are in both groups. *)
Lemma excluded_block : modified_adamw (fun l => l) (sequential [("head", sequential [("0", linear 0 1)])]) white0 black0 [["head"]]
  = Err ValueError.
Proof. vm_compute. reflexivity. Qed.
(** Two layers that share their weight are refused. *)
Lemma tied_weights : modified_adamw (fun l => l) (sequential [("a", linear 0 1); ("b", linear 0 2)]) white0 black0 []
  = Err KeyError.
Proof. vm_compute. reflexivity. Qed.

(** ** The state of the optimizer *)
Lemma same_order_restored V (groups : list nat * list nat) (moments : nat -> V) i v :
  In (i, v) (opt_load groups (opt_state groups moments)) -> v = moments i.
Proof.
  unfold opt_load, opt_state. induction (fst groups ++ snd groups) as [|j t IH]; simpl; [tauto|].
  intros [E|H]; auto. congruence.
Qed.
Definition two_layers : module := sequential [("0", linear 0 1); ("1", linear 2 3)].
Lemma other_order : forall V (moments : nat -> V), exists g g',
  modified_adamw (fun l => l) two_layers white0 black0 [] = Ok g /\
  modified_adamw (@rev mpath) two_layers white0 black0 [] = Ok g' /\
  opt_load g' (opt_state g moments) = [(2, moments 0); (0, moments 2); (3, moments 1); (1, moments 3)].
Proof. intros V moments. eexists. eexists. split; [vm_compute; reflexivity|]. split; [vm_compute; reflexivity|]. reflexivity. Qed.

Definition small_net : module := sequential [("0", linear 0 1); ("1", layer_norm 2 3); ("2", sequential [("out", linear 4 5)])].
Lemma small_net_ordinary_b : ordinary_b small_net white0 black0 [["2"; "out"]].
Proof.
  unfold ordinary_b. split; [|split; [|split]].
  - vm_compute. repeat constructor; simpl; intuition discriminate.
  - vm_compute. repeat constructor; simpl; intuition discriminate.
  - intros path m name i Hm Hn. vm_compute in Hm.
    repeat (destruct Hm as [E|Hm]; [injection E as <- <-; simpl in Hn;
      repeat (destruct Hn as [E|Hn]; [injection E as <- <-; vm_compute; auto 8|]); destruct Hn|]). destruct Hm.
  - intros path m Hm (q & x & Hx & Hq & Ho). vm_compute in Hm.
    repeat (destruct Hm as [E|Hm]; [injection E as <- <-; try (vm_compute; intuition discriminate)|]);
    try (destruct Hm; fail);
    (exfalso; simpl in Hx; destruct Hx as [E|[]]; injection E as <- <-; congruence).
Qed.

(** ** The booleans of the model and the specification *)
Lemma substring_all s : String.substring 0 (String.length s) s = s.
Proof. induction s as [|c s IH]; [reflexivity|]. cbn. rewrite IH. reflexivity. Qed.
Lemma substring_back f s : String.substring (String.length f) (String.length s) (String.append f s) = s.
Proof. induction f as [|c f IH]; [apply substring_all|]. exact IH. Qed.
Lemma length_append f s : String.length (String.append f s) = String.length f + String.length s.
Proof. induction f as [|c f IH]; [reflexivity|]. cbn. rewrite IH. reflexivity. Qed.
Lemma substring_split s : forall n, n <= String.length s ->
  s = String.append (String.substring 0 n s) (String.substring n (String.length s - n) s).
Proof.
  induction s as [|c s IH]; intros n Hn; [destruct n; [reflexivity|cbn in Hn; lia]|].
  destruct n as [|n]; [rewrite Nat.sub_0_r, substring_all; reflexivity|]. cbn. f_equal. apply IH. cbn in Hn. lia.
Qed.
Lemma endswith_spec suffix s : str_endswith suffix s = true <-> ends_with suffix s.
Proof.
  unfold str_endswith, ends_with. cbv zeta. split.
  - intros E. apply andb_prop in E as [E1 E2]. apply Nat.leb_le in E1. apply String.eqb_eq in E2.
    exists (String.substring 0 (String.length s - String.length suffix) s). rewrite <- E2 at 2.
    rewrite (substring_split (s:=s) (n:=String.length s - String.length suffix)) at 1 by lia.
    f_equal. f_equal. lia.
  - intros [f ->]. rewrite length_append. apply andb_true_intro. split; [apply Nat.leb_le; lia|].
    apply String.eqb_eq. replace (String.length f + String.length suffix - String.length suffix) with (String.length f) by lia.
    apply substring_back.
Qed.
Lemma isinstance_spec m classes : isinstance m classes = true <-> instance_of m classes.
Proof.
  unfold isinstance, instance_of. rewrite existsb_exists. split; intros (c & I & E); exists c; split; auto.
  - apply existsb_exists in E as (d & Id & Ed). apply String.eqb_eq in Ed. subst d. exact Id.
  - apply existsb_exists. exists c. split; [exact E|apply String.eqb_refl].
Qed.
Lemma bool_no (b : bool) P : (b = true <-> P) -> (b = false <-> ~ P).
Proof. intros E. rewrite <- E. destruct b; split; congruence. Qed.

Lemma ordinary_bool net white black excluded : ordinary net white black excluded <-> ordinary_b net white black excluded.
Proof.
  unfold ordinary, ordinary_b. split; intros (A & B & C & D); (split; [exact A|]; split; [exact B|]; split).
  - intros path m name i H1 H2. rewrite !endswith_spec, !isinstance_spec. eauto.
  - intros path m H1 H2. rewrite (bool_no (isinstance_spec m white)), (bool_no (isinstance_spec m black)). eauto.
  - intros path m name i H1 H2. rewrite <- !endswith_spec, <- !isinstance_spec. eauto.
  - intros path m H1 H2. rewrite <- (bool_no (isinstance_spec m white)), <- (bool_no (isinstance_spec m black)). eauto.
Qed.
Lemma decays_bool white black excluded path m name :
  decays white black excluded path m name <-> decays_b white black excluded path m name.
Proof.
  unfold decays, decays_b.
  rewrite (bool_no (isinstance_spec m black)), isinstance_spec, (bool_no (endswith_spec "bias" name)), endswith_spec. reflexivity.
Qed.

Lemma adamw_ordinary white black excluded order net : ordinary net white black excluded ->
  (forall c, In c white -> ~ In c black) -> (forall l, Permutation (order l) l) ->
  exists g1 g2, modified_adamw order net white black excluded = Ok (g1, g2) /\
    (forall i, In i (g1 ++ g2) -> In i (map snd (all_params net))) /\ NoDup (g1 ++ g2) /\
    forall path m name i, In (path, m) (named_modules net) -> In (name, i) (mod_own m) ->
      (In i g1 <-> decays white black excluded path m name) /\
      (In i g2 <-> ~ decays white black excluded path m name).
Proof.
  intros Or Db Pm. apply ordinary_bool in Or. destruct (adamw_ordinary_b Or Db Pm) as (g1 & g2 & E1 & E2 & E3 & E4).
  exists g1, g2. split; [exact E1|]. split; [exact E2|]. split; [exact E3|].
  intros path m name i H1 H2. rewrite decays_bool. exact (E4 path m name i H1 H2).
Qed.
Lemma small_net_ordinary : ordinary small_net white0 black0 [["2"; "out"]].
Proof. apply ordinary_bool. exact small_net_ordinary_b. Qed.
