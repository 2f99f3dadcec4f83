(** * RepProofs: histograms and reports *)
From Coq Require Import Ascii.
From Verif Require Import Py PyLemmas CkptModel CkptProofs LogModel LogSpec LogProofs ProxyModel LoaderModel RepModel RepSpec.
Set Implicit Arguments.
Open Scope string_scope.
Open Scope list_scope.
Open Scope Z_scope.

(** ** One histogram *)
Definition hstep (n : Z) (o : option hist) (v : hval) : option hist :=
  match v with
  | HMany l => Some (HList l)
  | HTensor l => Some (HArray l)
  | HNum z =>
      match o with
      | Some (HDeque w m) => Some (HDeque (dq_extend w m [z]) m)
      | Some (HList l) => Some (HList (l ++ [z]))
      | Some (HArray l) => Some (HArray l)
      | None => if n <? 0 then None else Some (HDeque (dq_extend [] n [z]) n)
      end
  end.
Lemma about_app {A} key (a b : list (string * A)) : about key (a ++ b) = about key a ++ about key b.
Proof. unfold about. rewrite filter_app, map_app. auto. Qed.
Lemma log_histogram_other key v s :
  lg_windows (fst (log_histogram key v s)) = lg_windows s
  /\ lg_cumulative (fst (log_histogram key v s)) = lg_cumulative s
  /\ lg_default (fst (log_histogram key v s)) = lg_default s
  /\ md_scalars (lg_other (fst (log_histogram key v s))) = md_scalars (lg_other s)
  /\ md_images (lg_other (fst (log_histogram key v s))) = md_images (lg_other s)
  /\ md_videos (lg_other (fst (log_histogram key v s))) = md_videos (lg_other s).
Proof.
  unfold log_histogram. destruct v as [z|l|l]; simpl; auto 10.
  destruct (dget (md_hists (lg_other s)) key) as [[w n|l|l]|]; simpl; auto 10.
  destruct (lg_default s <? 0); simpl; auto 10.
Qed.
Lemma log_histogram_get key v s k :
  dget (md_hists (lg_other (fst (log_histogram key v s)))) k
  = if (key =? k)%string then hstep (lg_default s) (dget (md_hists (lg_other s)) key) v
    else dget (md_hists (lg_other s)) k.
Proof.
  assert (G : forall h, dget (dset (md_hists (lg_other s)) key h) k
     = if (key =? k)%string then Some h else dget (md_hists (lg_other s)) k).
  { intros h. destruct (String.eqb_spec key k) as [<-|N]; [apply dget_dset_eq|apply dget_dset_neq; auto]. }
  unfold log_histogram. destruct v as [z|l|l]; cbn [hstep]; try apply G.
  destruct (dget (md_hists (lg_other s)) key) as [[w n|l|l]|] eqn:E; try apply G.
  - cbn [fst]. clear G. destruct (String.eqb_spec key k) as [Ek|N]; [rewrite <- Ek|]; auto.
  - destruct (lg_default s <? 0); [|apply G]. cbn [fst]. clear G.
    destruct (String.eqb_spec key k) as [Ek|N]; [rewrite <- Ek|]; auto.
Qed.
Lemma hist_all_app a b s : hist_all (a ++ b) s = hist_all b (hist_all a s).
Proof. unfold hist_all. apply fold_left_app. Qed.
Lemma hist_all_other ops s :
  lg_windows (hist_all ops s) = lg_windows s /\ lg_cumulative (hist_all ops s) = lg_cumulative s
  /\ lg_default (hist_all ops s) = lg_default s.
Proof.
  revert s. induction ops as [|[k v] r IH]; intros s; [simpl; auto|].
  unfold hist_all in *. cbn [fold_left]. destruct (IH (fst (log_histogram (fst (k, v)) (snd (k, v)) s))) as (-> & -> & ->).
  destruct (log_histogram_other k v s) as (? & ? & ? & _). auto.
Qed.
Lemma hist_all_get ops s k :
  dget (md_hists (lg_other (hist_all ops s))) k
  = fold_left (hstep (lg_default s)) (about k ops) (dget (md_hists (lg_other s)) k).
Proof.
  revert s. induction ops as [|[a v] r IH]; intros s; [simpl; auto|].
  unfold hist_all in *. cbn [fold_left fst snd]. rewrite IH.
  destruct (log_histogram_other a v s) as (_ & _ & -> & _). rewrite log_histogram_get.
  unfold about. cbn [filter fst]. destruct (String.eqb_spec a k) as [<-|N]; auto.
Qed.

Lemma hstep_nums n zs w m : 0 <= m ->
  fold_left (hstep n) (map HNum zs) (Some (HDeque w m)) =
  Some (HDeque (fold_left (fun w z => dq_extend w m [z]) zs w) m).
Proof. intros Hm. revert w. induction zs as [|z r IH]; simpl; intros w; auto. Qed.
Lemma last_of_fold m l zs w : 0 <= m -> last_of m l w ->
  last_of m (l ++ zs) (fold_left (fun w z => dq_extend w m [z]) zs w).
Proof.
  intros Hm. revert l w. induction zs as [|z r IH]; simpl; intros l w L.
  - rewrite app_nil_r. auto.
  - replace (l ++ z :: r) with ((l ++ [z]) ++ r) by (rewrite <- app_assoc; auto).
    apply IH. apply last_of_extend; auto.
Qed.
Lemma hist_numbers n ops key zs : 0 <= n -> about key ops = map HNum zs -> zs <> [] ->
  exists w, shown key (hist_all ops (fresh n)) = Some w /\ last_of n zs w.
Proof.
  intros Hn A Nz. unfold shown. rewrite hist_all_get, A. cbn [lg_other fresh new_logs no_media md_hists dget lg_default].
  destruct zs as [|z r]; [congruence|]. cbn [map fold_left hstep].
  replace (n <? 0) with false by (symmetry; apply Z.ltb_ge; lia).
  rewrite hstep_nums by auto. eexists. split; [reflexivity|]. cbn [hist_values].
  change (z :: r) with ([z] ++ r). apply last_of_fold; auto.
  change [z] with ([] ++ [z]) at 1. apply last_of_extend; auto. apply last_of_nil; auto.
Qed.
Lemma hist_collection n ops key before v l :
  about key ops = before ++ [v] -> (v = HMany l \/ v = HTensor l) ->
  shown key (hist_all ops (fresh n)) = Some l.
Proof.
  intros A C. unfold shown. rewrite hist_all_get, A, fold_left_app.
  destruct C as [-> | ->]; reflexivity.
Qed.
Lemma hist_list_grows n ops key before l zs :
  about key ops = before ++ HMany l :: map HNum zs ->
  shown key (hist_all ops (fresh n)) = Some (l ++ zs).
Proof.
  intros A. unfold shown. rewrite hist_all_get, A, fold_left_app. cbn [fold_left hstep].
  assert (G : forall zs m, fold_left (hstep m) (map HNum zs) (Some (HList l)) = Some (HList (l ++ zs))).
  { clear. intros zs m. revert l. induction zs as [|z r IH]; simpl; intros l; [rewrite app_nil_r; auto|].
    rewrite IH, <- app_assoc. auto. }
  rewrite G. auto.
Qed.
Lemma hist_unused n ops key : about key ops = [] -> shown key (hist_all ops (fresh n)) = None.
Proof. intros A. unfold shown. rewrite hist_all_get, A. reflexivity. Qed.
Lemma hist_no_bound : forall n b, 0 <= n -> exists ops, 
  (exists l, shown "k" (hist_all ops (fresh n)) = Some l /\ b < zlen l)
  /\ Forall (fun kv => match snd kv with HMany l => l = [] | HNum _ => True | HTensor _ => False end) ops.
Proof.
  intros n b Hn. exists (("k", HMany []) :: map (fun z => ("k", HNum z)) (repeat 0 (Z.to_nat b + 1))).
  split.
  - exists (repeat 0 (Z.to_nat b + 1)). split.
    + rewrite (@hist_list_grows n _ "k" [] [] (repeat 0 (Z.to_nat b + 1))); auto.
      generalize (repeat 0 (Z.to_nat b + 1)). intros l.
      change (HMany [] :: about "k" (map (fun z => ("k", HNum z)) l) = [] ++ HMany [] :: map HNum l).
      cbn [app]. f_equal. induction l as [|z r IH]; [reflexivity|].
      change (HNum z :: about "k" (map (fun z => ("k", HNum z)) r) = HNum z :: map HNum r). congruence.
    + unfold zlen. rewrite repeat_length. lia.
  - constructor; simpl; auto. apply Forall_forall. intros [k v] I. apply in_map_iff in I.
    destruct I as (z & E & _). injection E as <- <-. simpl. auto.
Qed.
Lemma hist_array_number n ops key before l z : about key ops = before ++ [HTensor l] ->
  log_histogram key (HNum z) (hist_all ops (fresh n)) = (hist_all ops (fresh n), Err AttributeError).
Proof.
  intros A. unfold log_histogram. rewrite hist_all_get, A, fold_left_app. reflexivity.
Qed.
Lemma hist_ok n ops key v : 0 <= n ->
  (forall l, ~ In (HTensor l) (about key ops)) ->
  snd (log_histogram key v (hist_all ops (fresh n))) = Ok tt.
Proof.
  intros Hn C. unfold log_histogram. destruct v as [z|l|l]; auto.
  rewrite hist_all_get. destruct (hist_all_other ops (fresh n)) as (_ & _ & ->).
  cbn [fresh new_logs lg_default lg_other no_media md_hists dget].
  assert (G : forall vs o, (forall l, ~ In (HTensor l) vs) -> (forall l, o <> Some (HArray l)) ->
     forall l, fold_left (hstep n) vs o <> Some (HArray l)).
  { induction vs as [|v r IH]; simpl; intros o Cv Co l; auto. apply IH.
    - intros l' I. apply (Cv l'). auto.
    - intros l'. destruct v as [x|x|x]; simpl; try discriminate.
      + destruct o as [[]|]; try discriminate; [exfalso; eapply Co; eauto|destruct (n <? 0); discriminate].
      + exfalso. apply (Cv x). auto. }
  specialize (G (about key ops) None C). destruct (fold_left (hstep n) (about key ops) None) as [[w m|l|l]|]; auto.
  - exfalso. apply (G ltac:(discriminate) l). auto.
  - replace (n <? 0) with false by (symmetry; apply Z.ltb_ge; lia). auto.
Qed.
Lemma images_last ops s key : Forall (fun kv => three_dims (snd kv)) ops ->
  dget (md_images (lg_other (images_all ops s))) key
  = match rev (about key ops) with i :: _ => Some i | [] => dget (md_images (lg_other s)) key end.
Proof.
  intros F. induction ops as [|[k v] r IH] using rev_ind; [reflexivity|].
  apply Forall_app in F. destruct F as [F1 F2]. inversion F2 as [|? ? T _]; subst. simpl in T.
  unfold images_all. rewrite fold_left_app. fold (images_all r s). cbn [fold_left fst snd].
  rewrite about_app, rev_app_distr. unfold log_image. unfold three_dims in T. rewrite T. cbn [Nat.eqb with_media lg_other md_images].
  unfold about at 1. cbn [filter fst]. destruct (String.eqb_spec k key) as [<-|N].
  - rewrite dget_dset_eq. reflexivity.
  - rewrite dget_dset_neq by auto. simpl. auto.
Qed.
Lemma videos_last ops s key :
  dget (md_videos (lg_other (videos_all ops s))) key
  = match rev (about key ops) with i :: _ => Some i | [] => dget (md_videos (lg_other s)) key end.
Proof.
  induction ops as [|[k v] r IH] using rev_ind; [reflexivity|].
  unfold videos_all. rewrite fold_left_app. fold (videos_all r s). cbn [fold_left fst snd].
  rewrite about_app, rev_app_distr. unfold log_video. cbn [with_media lg_other md_videos].
  unfold about at 1. cbn [filter fst]. destruct (String.eqb_spec k key) as [<-|N].
  - rewrite dget_dset_eq. reflexivity.
  - rewrite dget_dset_neq by auto. simpl. auto.
Qed.
Lemma image_ignored key i s : ~ three_dims i -> log_image key i s = s.
Proof. intros N. unfold log_image. destruct (Nat.eqb_spec (List.length (im_shape i)) 3); auto. destruct N; auto. Qed.
