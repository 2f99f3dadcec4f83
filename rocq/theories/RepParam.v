(** * RepParam: the logs of single parameters *)
From Coq Require Import Ascii.
From Verif Require Import Py PyLemmas CkptModel CkptProofs LogModel LogSpec LogProofs ProxyModel LoaderModel RepModel RepSpec RepProofs RepMore RepRun.
Set Implicit Arguments.
Open Scope string_scope.
Open Scope list_scope.
Open Scope Z_scope.

Lemma sapp_inj_l a b c : a +++ b = a +++ c -> b = c.
Proof. induction a; simpl; intros E; auto. injection E as E. auto. Qed.
Definition pieces (c : ascii) (s : string) : list string := let '(p, ps) := split_on c s in p :: ps.
Lemma pieces_cons c a b : without c a -> pieces c (a +++ String c b) = a :: pieces c b.
Proof.
  intros W. unfold pieces. rewrite split_app by auto. rewrite split_sep. destruct (split_on c b) as [p ps]. simpl.
  rewrite sapp_nil. auto.
Qed.
Lemma pieces_one c a : without c a -> pieces c a = [a].
Proof. intros W. unfold pieces. rewrite split_whole by auto. auto. Qed.
Lemma pieces_path name path leaf : path_of name path leaf -> pieces "."%char name = path ++ [leaf].
Proof.
  intros (F & L & ->). induction F as [|p r W F IH]; cbn [fold_right app].
  - apply pieces_one. auto.
  - rewrite pieces_cons by auto. rewrite IH. auto.
Qed.
Lemma path_type name path leaf : path_of name path leaf -> param_type name = leaf.
Proof.
  intros P. apply pieces_path in P. unfold param_type. unfold pieces in P. destruct (split_on "."%char name) as [p ps].
  rewrite P. apply last_last.
Qed.
Definition joined (l : list string) : string := match l with [] => "" | q :: qs => join_with "_"%char q qs end.
Lemma path_log loss name path leaf : path_of name path leaf -> log_name loss name = loss +++ String "_"%char (joined path).
Proof.
  intros P. apply pieces_path in P. unfold log_name. unfold pieces in P. destruct (split_on "."%char name) as [p ps].
  rewrite P. rewrite removelast_last. auto.
Qed.
Lemma path_unique name path leaf path' leaf' : path_of name path leaf -> path_of name path' leaf' -> path = path' /\ leaf = leaf'.
Proof. intros P Q. apply pieces_path in P. apply pieces_path in Q. rewrite P in Q. apply app_inj_tail in Q. auto. Qed.
Lemma path_name name name' path leaf : path_of name path leaf -> path_of name' path leaf -> name = name'.
Proof. intros (_ & _ & ->) (_ & _ & ->). auto. Qed.

Definition parts (l : list string) : list string := match l with [] => [""] | _ => l end.
Lemma pieces_joined l rest : Forall (without "_"%char) l ->
  pieces "_"%char (joined l +++ String "_"%char rest) = parts l ++ pieces "_"%char rest.
Proof.
  intros F. destruct l as [|q qs]; [apply (@pieces_cons "_"%char "" rest); simpl; auto|]. cbn [joined parts].
  inversion F as [|? ? Q Qs]; subst. clear F. revert q Q. induction Qs as [|x r X R IH]; intros q Q; cbn [join_with].
  - rewrite pieces_cons by auto. auto.
  - rewrite sapp_assoc. change (String "_"%char (join_with "_"%char x r) +++ String "_"%char rest)
      with (String "_"%char (join_with "_"%char x r +++ String "_"%char rest)).
    rewrite pieces_cons by auto. rewrite IH by auto. auto.
Qed.
Lemma pieces_joined_end l : Forall (without "_"%char) l -> pieces "_"%char (joined l) = parts l.
Proof.
  intros F. destruct l as [|q qs]; [reflexivity|]. cbn [joined parts]. inversion F; subst. unfold pieces. rewrite join_split by auto. auto.
Qed.
Lemma parts_inj l l' : Forall (fun x => x <> "") l -> Forall (fun x => x <> "") l' -> parts l = parts l' -> l = l'.
Proof.
  intros F F' E. destruct l as [|a r], l' as [|a' r']; cbn [parts] in E; auto.
  - injection E as <- _. inversion F'. congruence.
  - injection E as -> _. inversion F. congruence.
Qed.
Lemma not_digit_underscore : ~ digit "_"%char.
Proof. intros (n & H & E). apply (f_equal nat_of_ascii) in E. rewrite nat_ascii_embedding in E by lia. vm_compute in E. lia. Qed.
Lemma shape_without shape : Forall (fun d => 0 <= d) shape -> Forall (without "_"%char) (map str_Z shape).
Proof.
  intros F. apply Forall_forall. intros x I. apply in_map_iff in I. destruct I as (d & <- & I).
  rewrite Forall_forall in F. apply str_without; auto. apply not_digit_underscore.
Qed.
Lemma friendly shape : friendly_size_str shape = joined (map str_Z shape).
Proof. unfold friendly_size_str, joined. auto. Qed.

Definition slashless (mid : string) : Prop := without "/"%char mid.
Lemma key_split mid mid' loss p q path leaf path' leaf' :
  path_of (pr_name p) path leaf -> path_of (pr_name q) path' leaf' ->
  without "/"%char leaf -> without "/"%char leaf' -> slashless mid -> slashless mid' ->
  param_key mid loss p = param_key mid' loss q ->
  leaf +++ mid = leaf' +++ mid'
  /\ joined path +++ String "_"%char (friendly_size_str (pr_shape p)) = joined path' +++ String "_"%char (friendly_size_str (pr_shape q)).
Proof.
  intros P Q L L' M M' E. unfold param_key in E.
  rewrite (path_type P), (path_type Q), (path_log loss P), (path_log loss Q) in E.
  rewrite <- !sapp_assoc in E.
  assert (W : without "/"%char (leaf +++ mid)) by (apply without_app; auto).
  assert (W' : without "/"%char (leaf' +++ mid')) by (apply without_app; auto).
  assert (H : leaf +++ mid = leaf' +++ mid').
  { apply (f_equal (pieces "/"%char)) in E. rewrite !sapp_assoc in E. rewrite <- !(sapp_assoc leaf), <- !(sapp_assoc leaf') in E.
    rewrite !pieces_cons in E by auto. injection E as E _. auto. }
  split; auto. rewrite H in E. apply sapp_inj_l in E. injection E as E.
  rewrite !sapp_assoc in E. apply sapp_inj_l in E. simpl in E. injection E as E. auto.
Qed.
Lemma key_inj mid loss p q path leaf path' leaf' :
  path_of (pr_name p) path leaf -> path_of (pr_name q) path' leaf' ->
  Forall (fun x => x <> "" /\ without "_"%char x) path -> Forall (fun x => x <> "" /\ without "_"%char x) path' ->
  without "/"%char leaf -> without "/"%char leaf' -> slashless mid ->
  Forall (fun d => 0 <= d) (pr_shape p) -> Forall (fun d => 0 <= d) (pr_shape q) ->
  (leaf = leaf' -> List.length (pr_shape p) = List.length (pr_shape q)) ->
  param_key mid loss p = param_key mid loss q -> pr_name p = pr_name q.
Proof.
  intros P Q F F' L L' M D D' R E. destruct (@key_split _ _ _ _ _ _ _ _ _ P Q L L' M M E) as [E1 E2]. apply sapp_inj_r in E1. subst leaf'.
  specialize (R eq_refl).
  assert (FW : forall l, Forall (fun x => x <> "" /\ without "_"%char x) l -> Forall (without "_"%char) l /\ Forall (fun x => x <> "") l).
  { intros l Fl. split; eapply Forall_impl; try exact Fl; simpl; tauto. }
  destruct (FW _ F) as [F1 F2]. destruct (FW _ F') as [F1' F2'].
  apply (f_equal (pieces "_"%char)) in E2. rewrite !friendly in E2. rewrite !pieces_joined in E2 by auto.
  rewrite !pieces_joined_end in E2 by (apply shape_without; auto).
  assert (X : parts path = parts path').
  { assert (LD : List.length (parts (map str_Z (pr_shape p))) = List.length (parts (map str_Z (pr_shape q)))).
    { destruct (pr_shape p), (pr_shape q); simpl in *; auto; try discriminate. rewrite !map_length. auto. }
    revert E2 LD. generalize (parts (map str_Z (pr_shape p))) (parts (map str_Z (pr_shape q))).
    generalize (parts path) (parts path'). intros a b c d E2 LD.
    assert (LA : List.length a = List.length b).
    { apply (f_equal (@List.length string)) in E2. rewrite !app_length in E2. lia. }
    clear -E2 LA. revert b E2 LA. induction a as [|x r IH]; intros [|y t] E LA; simpl in *; auto; try discriminate.
    injection E as -> E. f_equal. auto. }
  apply parts_inj in X; auto. subst path'. eapply path_name; eauto.
Qed.

(** ** The loop *)
Section Loop.
Variables (weights grads : bool) (loss : string).
Definition sc (q : param) : list (string * rval) :=
  match (if grads then pr_grad q else None) with Some g => [(param_key "_grads_l2" loss q, RNorm g)] | None => [] end
  ++ (if weights then [(param_key "_l2" loss q, RNorm (pr_data q))] else []).
Definition hs (q : param) : list (string * hist) :=
  match (if grads then pr_grad q else None) with Some g => [(param_key "_grads" loss q, HArray g)] | None => [] end
  ++ (if weights then [(param_key "" loss q, HArray (pr_data q))] else []).
Lemma log_param_eq q s :
  md_scalars (lg_other (log_param weights grads loss q s)) = dupdate (md_scalars (lg_other s)) (sc q)
  /\ md_hists (lg_other (log_param weights grads loss q s)) = dupdate (md_hists (lg_other s)) (hs q).
Proof.
  unfold log_param, sc, hs. destruct grads; [destruct (pr_grad q)|]; destruct weights; split; reflexivity.
Qed.
Lemma log_params_eq l s :
  let s' := fold_left (fun s p => log_param weights grads loss p s) l s in
  md_scalars (lg_other s') = dupdate (md_scalars (lg_other s)) (flat_map sc l)
  /\ md_hists (lg_other s') = dupdate (md_hists (lg_other s)) (flat_map hs l).
Proof.
  cbv zeta. revert s. induction l as [|q r IH]; intros s; [split; reflexivity|]. cbn [fold_left flat_map].
  destruct (IH (log_param weights grads loss q s)) as [-> ->]. destruct (log_param_eq q s) as [-> ->].
  unfold dupdate. rewrite !fold_left_app. auto.
Qed.
Variables (l : list param).
Hypothesis T : forall p, In p l -> tidy p.
Hypothesis SR : same_rank l.
Hypothesis ND : NoDup (map pr_name l).
Lemma same_name p q : In p l -> In q l -> pr_name p = pr_name q -> p = q.
Proof.
  clear T SR. induction l as [|x r IH]; intros I J E; [destruct I|]. inversion ND as [|? ? N1 N2]; subst.
  destruct I as [->|I], J as [->|J]; auto.
  - destruct N1. rewrite E. apply in_map. auto.
  - destruct N1. rewrite <- E. apply in_map. auto.
Qed.
Lemma same_key mid p q : slashless mid -> In p l -> In q l -> param_key mid loss p = param_key mid loss q -> p = q.
Proof.
  intros M I J E. apply same_name; auto.
  destruct (T _ I) as (path & leaf & P & F & L & _ & D). destruct (T _ J) as (path' & leaf' & P' & F' & L' & _ & D').
  eapply key_inj with (mid := mid); eauto. intros ->. eapply SR; eauto.
Qed.
Lemma other_key mid p q : slashless mid -> In p l -> In q l -> param_key ("_grads" +++ mid) loss q <> param_key mid loss p.
Proof.
  intros M I J E. destruct (T _ I) as (path & leaf & P & F & L & G & D). destruct (T _ J) as (path' & leaf' & P' & F' & L' & _ & D').
  assert (M' : slashless ("_grads" +++ mid)).
  { unfold slashless in *. apply without_app. split; auto. cbn [without]. repeat (split; [discriminate|]). exact Logic.I. }
  destruct (@key_split _ _ _ _ _ _ _ _ _ P' P L' L M' M E) as [X _]. rewrite <- sapp_assoc in X. apply sapp_inj_r in X. apply (G leaf'). auto.
Qed.
Lemma sl_l2 : slashless "_l2". Proof. unfold slashless. cbn [without]. repeat (split; [discriminate|]). exact Logic.I. Qed.
Lemma sl_0 : slashless "". Proof. exact Logic.I. Qed.
Lemma sl_g mid : slashless mid -> slashless ("_grads" +++ mid).
Proof. intros M. unfold slashless in *. apply without_app. split; auto. cbn [without]. repeat (split; [discriminate|]). exact Logic.I. Qed.
Lemma in_sc p k v : In (k, v) (sc p) <->
  (exists g, grads = true /\ pr_grad p = Some g /\ k = param_key "_grads_l2" loss p /\ v = RNorm g)
  \/ (weights = true /\ k = param_key "_l2" loss p /\ v = RNorm (pr_data p)).
Proof.
  unfold sc. rewrite in_app_iff.
  set (kg := param_key "_grads_l2" loss p). set (kw := param_key "_l2" loss p). clearbody kg kw.
  destruct grads; [destruct (pr_grad p) as [g|]|]; destruct weights; cbn [app In]; split.
  all: try (intros [[E|[]]|[E|[]]]; injection E as <- <-; [left; exists g; auto|right; auto]).
  all: try (intros [[E|[]]|[]]; injection E as <- <-; left; exists g; auto).
  all: try (intros [[]|[E|[]]]; injection E as <- <-; right; auto).
  all: try (intros [[]|[]]; fail).
  all: intros [(g' & E1 & E2 & -> & ->)|(E & -> & ->)]; try discriminate; auto.
  all: injection E2 as <-; auto.
Qed.
Lemma in_hs p k v : In (k, v) (hs p) <->
  (exists g, grads = true /\ pr_grad p = Some g /\ k = param_key "_grads" loss p /\ v = HArray g)
  \/ (weights = true /\ k = param_key "" loss p /\ v = HArray (pr_data p)).
Proof.
  unfold hs. rewrite in_app_iff.
  set (kg := param_key "_grads" loss p). set (kw := param_key "" loss p). clearbody kg kw.
  destruct grads; [destruct (pr_grad p) as [g|]|]; destruct weights; cbn [app In]; split.
  all: try (intros [[E|[]]|[E|[]]]; injection E as <- <-; [left; exists g; auto|right; auto]).
  all: try (intros [[E|[]]|[]]; injection E as <- <-; left; exists g; auto).
  all: try (intros [[]|[E|[]]]; injection E as <- <-; right; auto).
  all: try (intros [[]|[]]; fail).
  all: intros [(g' & E1 & E2 & -> & ->)|(E & -> & ->)]; try discriminate; auto.
  all: injection E2 as <-; auto.
Qed.
Lemma params_logged s p : In p l ->
  let s' := fold_left (fun s p => log_param weights grads loss p s) l s in
  (weights = true -> logged_under (pr_data p) (param_key "_l2" loss p) (param_key "" loss p) s')
  /\ (forall g, grads = true -> pr_grad p = Some g -> logged_under g (param_key "_grads_l2" loss p) (param_key "_grads" loss p) s').
Proof.
  intros I s'. destruct (log_params_eq l s) as [E1 E2]. fold s' in E1, E2. unfold logged_under, shown. rewrite E1, E2.
  split.
  - intros W. split.
    + apply dget_dupdate_all.
      * apply in_flat_map. exists p. split; auto. apply in_sc. auto.
      * intros v K. apply in_flat_map in K. destruct K as (q & J & K). apply in_sc in K. destruct K as [(g & _ & _ & K & _)|(_ & K & ->)].
        -- symmetry in K. exfalso. exact (@other_key _ _ _ sl_l2 I J K).
        -- rewrite (@same_key _ _ _ sl_l2 I J K). auto.
    + rewrite (@dget_dupdate_all _ _ _ _ (HArray (pr_data p))); auto.
      * apply in_flat_map. exists p. split; auto. apply in_hs. auto.
      * intros v K. apply in_flat_map in K. destruct K as (q & J & K). apply in_hs in K. destruct K as [(g & _ & _ & K & _)|(_ & K & ->)].
        -- symmetry in K. exfalso. exact (@other_key _ _ _ sl_0 I J K).
        -- rewrite (@same_key _ _ _ sl_0 I J K). auto.
  - intros g G Pg. split.
    + apply dget_dupdate_all.
      * apply in_flat_map. exists p. split; auto. apply in_sc. left. exists g. auto.
      * intros v K. apply in_flat_map in K. destruct K as (q & J & K). apply in_sc in K. destruct K as [(g' & _ & Qg & K & ->)|(_ & K & _)].
        -- rewrite (@same_key _ _ _ (sl_g _ sl_l2) I J K) in Pg. congruence.
        -- exfalso. exact (@other_key _ _ _ sl_l2 J I K).
    + rewrite (@dget_dupdate_all _ _ _ _ (HArray g)); auto.
      * apply in_flat_map. exists p. split; auto. apply in_hs. left. exists g. auto.
      * intros v K. apply in_flat_map in K. destruct K as (q & J & K). apply in_hs in K. destruct K as [(g' & _ & Qg & K & ->)|(_ & K & _)].
        -- rewrite (@same_key _ _ _ (sl_g _ sl_0) I J K) in Pg. congruence.
        -- exfalso. exact (@other_key _ _ _ sl_0 J I K).
Qed.
End Loop.

Lemma per_param weights grads loss network ids s p :
  (forall q, In q (optimized network ids) -> tidy q) -> same_rank (optimized network ids) ->
  NoDup (map pr_name network) -> In p network -> In (pr_id p) ids ->
  let s' := log_per_param weights grads loss network ids s in
  (weights = true -> logged_under (pr_data p) (param_key "_l2" loss p) (param_key "" loss p) s')
  /\ (forall g, grads = true -> pr_grad p = Some g -> logged_under g (param_key "_grads_l2" loss p) (param_key "_grads" loss p) s').
Proof.
  intros T SR ND I J. apply params_logged; auto.
  - clear -ND. unfold optimized. induction network as [|x r IH]; simpl; [constructor|]. inversion ND as [|? ? N1 N2]; subst.
    destruct (inb (pr_id x) ids); auto. simpl. constructor; auto. intros K. apply N1. apply in_map_iff in K.
    destruct K as (y & E & K). apply filter_In in K. rewrite <- E. apply in_map. tauto.
  - unfold optimized. apply filter_In. split; auto. apply inb_In. auto.
Qed.
Lemma frozen weights grads loss network ids s : (forall p, In p network -> ~ In (pr_id p) ids) ->
  log_per_param weights grads loss network ids s = s.
Proof.
  intros N. unfold log_per_param. replace (optimized network ids) with (@nil param); auto.
  unfold optimized. induction network as [|x r IH]; simpl; auto. destruct (inb (pr_id x) ids) eqn:E.
  - apply inb_In in E. destruct (N x); auto. left. auto.
  - apply IH. intros p I. apply N. right. auto.
Qed.
Lemma param_key_form mid loss p path leaf : path_of (pr_name p) path leaf ->
  param_key mid loss p = leaf +++ mid +++ "/" +++ loss +++ "_" +++ String.concat "_" path +++ "_" +++ String.concat "_" (map str_Z (pr_shape p)).
Proof.
  intros P. unfold param_key. rewrite (path_type P), (path_log loss P), friendly.
  assert (JC : forall l, joined l = String.concat "_" l).
  { intros [|q qs]; auto. cbn [joined]. revert q. induction qs as [|x r IH]; intros q; auto. cbn [join_with]. rewrite IH. auto. }
  rewrite !JC, !sapp_assoc. reflexivity.
Qed.
Lemma params_case :
  let net := [mkParam "0.weight" 1 [2; 1] [3; 4] (Some [1; 1]); mkParam "0.bias" 2 [2] [5; 6] None] in
  (forall q, In q (optimized net [1; 2]) -> tidy q) /\ same_rank (optimized net [1; 2]) /\ NoDup (map pr_name net)
  /\ md_scalars (lg_other (log_per_param true true "q" net [1; 2] (fresh 250)))
     = [("weight_grads_l2/q_0_2_1", RNorm [1; 1]); ("weight_l2/q_0_2_1", RNorm [3; 4]); ("bias_l2/q_0_2", RNorm [5; 6])].
Proof.
  assert (P1 : path_of "0.weight" ["0"] "weight").
  { split; [repeat constructor; discriminate|]. split; [|reflexivity]. cbn [without]. repeat (split; [discriminate|]). exact Logic.I. }
  assert (P2 : path_of "0.bias" ["0"] "bias").
  { split; [repeat constructor; discriminate|]. split; [|reflexivity]. cbn [without]. repeat (split; [discriminate|]). exact Logic.I. }
  split; [|split; [|split]].
  - intros q [<-|[<-|[]]].
    + exists ["0"], "weight". split; [exact P1|]. split; [repeat constructor; discriminate|].
      split; [cbn [without]; repeat (split; [discriminate|]); exact Logic.I|]. split; [|repeat constructor; discriminate].
      intros x E. apply (f_equal (fun s => String.length s)) in E as L. rewrite append_length in L. simpl in L.
      assert (Lx : String.length x = 0%nat) by lia. destruct x; [discriminate E|discriminate Lx].
    + exists ["0"], "bias". split; [exact P2|]. split; [repeat constructor; discriminate|].
      split; [cbn [without]; repeat (split; [discriminate|]); exact Logic.I|]. split; [|repeat constructor; discriminate].
      intros x E. apply (f_equal (fun s => String.length s)) in E as L. rewrite append_length in L. simpl in L. lia.
  - intros p q path path' leaf [<-|[<-|[]]] [<-|[<-|[]]] Pp Pq; auto; cbn [pr_name] in Pp, Pq;
    destruct (path_unique P1 Pp) as [_ L1] || destruct (path_unique P2 Pp) as [_ L1];
    destruct (path_unique P1 Pq) as [_ L2] || destruct (path_unique P2 Pq) as [_ L2]; congruence.
  - repeat constructor; simpl; intuition discriminate.
  - vm_compute. auto.
Qed.
Lemma window_tag_spec key t : window_tag key = Ok t <->
  (~ (exists r, key = "windowed[" +++ r)) /\ t = key
  \/ exists a rest, key = "windowed[" +++ a +++ String ":" (t +++ rest)
       /\ without ":" a /\ without ":" t /\ (rest = "" \/ exists r, rest = String ":" r).
Proof.
  assert (W : without ":"%char "windowed[") by (cbn [without]; repeat (split; [discriminate|]); exact Logic.I).
  unfold window_tag. destruct (String.prefix "windowed[" key) eqn:P.
  - apply prefix_spec in P. destruct P as [b ->]. split.
    + destruct (split_on ":"%char ("windowed[" +++ b)) as [p ps] eqn:E. cbn [snd]. destruct ps as [|q qs]; [discriminate|].
      intros T. injection T as ->. right. destruct (split_join E) as (J & Wp & Wps).
      inversion Wps as [|? ? Wt Wqs]; subst. cbn [join_with] in J.
      assert (Hp : exists a, p = "windowed[" +++ a).
      { rewrite split_app in E by auto. destruct (split_on ":"%char b) as [p' ps']. exists p'. congruence. }
      destruct Hp as [a ->]. rewrite without_app in Wp. destruct Wp as [_ Wa].
      exists a. destruct qs as [|q' qs'].
      * exists "". cbn [join_with] in J. rewrite sapp_nil. rewrite <- J, sapp_assoc. auto 6.
      * exists (String ":" (join_with ":" q' qs')). cbn [join_with] in J. rewrite <- J, sapp_assoc. split; auto. split; auto. split; auto. right. eauto.
    + intros [[N _]|(a & rest & E & Wa & Wt & R)]; [destruct N; eauto|]. rewrite E.
      rewrite <- sapp_assoc. rewrite split_app by (apply without_app; auto). rewrite split_sep.
      rewrite split_app by auto. destruct R as [->|[r ->]].
      * simpl. rewrite sapp_nil. auto.
      * rewrite split_sep. destruct (split_on ":"%char r) as [p ps]. simpl. rewrite sapp_nil. auto.
  - assert (N : ~ exists r, key = "windowed[" +++ r).
    { intros H. apply prefix_spec in H. congruence. }
    split.
    + intros T. injection T as ->. auto.
    + intros [[_ ->]|(a & rest & E & _)]; auto. destruct N. eauto.
Qed.
