(** * CstepProofs: one step of contrastive learning *)
From Coq Require Import Reals QArith ZArith Lia.
From Verif Require Import Py PyLemmas NumModel VisModel VisSpec VisCut PolSpec GenSpec CurlModel CurlSpec CurlProofs CurlMore CstepModel CstepSpec.
Set Implicit Arguments.
Unset Strict Implicit.
Open Scope string_scope.
Open Scope list_scope.

Lemma at_map (E : matrix -> list R) (l : list (list (list (list R)))) i k : (i < List.length l)%nat ->
  at_ (map E (map pixels l)) i k = nth k (E (pixels (nth i l []))) 0%R.
Proof.
  intros H. unfold at_. rewrite map_map.
  rewrite (nth_indep _ [] ((fun x => E (pixels x)) [])) by (rewrite map_length; auto).
  rewrite (map_nth (fun x => E (pixels x))). auto.
Qed.
Lemma codes_shape (E : matrix -> list R) n (l : list matrix) : (forall x, List.length (E x) = n) -> shape (List.length l) n (map E l).
Proof.
  intros H. split; [apply map_length|]. apply Forall_forall. intros r I. apply in_map_iff in I. destruct I as (x & <- & _). auto.
Qed.
Lemma rsum_ext {A} (f g : A -> R) l : (forall x, In x l -> f x = g x) -> rsum (map f l) = rsum (map g l).
Proof. intros H. f_equal. apply map_ext_in. auto. Qed.
Lemma contrastive_ext b s s' : (forall i j, (i < b)%nat -> (j < b)%nat -> s i j = s' i j) -> contrastive b s = contrastive b s'.
Proof.
  intros H. unfold contrastive. f_equal. apply rsum_ext. intros i I. apply in_seq in I. rewrite H by lia.
  replace (rsum (map (fun j => exp (s i j)) (seq 0 b))) with (rsum (map (fun j => exp (s' i j)) (seq 0 b))); auto.
  apply rsum_ext. intros j J. apply in_seq in J. rewrite H by lia. auto.
Qed.

Lemma contrast_ok (c : curl) aug (both : bool) h w ch b n (d1 d2 : draws (V := R)) observation images E T t :
  sane aug -> (1 <= h)%nat -> (1 <= w)%nat -> (1 <= b)%nat -> (1 <= n)%nat ->
  dget observation "images" = Some images -> List.length images = b -> Forall (is_image h w ch) images ->
  (forall d, d = d1 \/ d = d2 -> Forall unit_interval (dr_rand d) /\ (noisy aug d \/ noise_free aug d) /\
     Forall (is_image h w ch) (dr_noise d images) /\ List.length (dr_noise d images) = b) ->
  sees_each E (cu_encoder c) -> sees_each T (cu_target c) -> (forall x, List.length (E x) = n) -> (forall x, List.length (T x) = n) ->
  shape n n (cu_W c) -> cu_temperature c = Some t ->
  exists anchors positives, augmented aug h w d1 images anchors /\
    (if both then augmented aug h w d2 images positives else positives = images) /\
    curl_backward c aug both (Z.of_nat h) (Z.of_nat w) d1 d2 observation =
    Ok (contrastive b (fun i j => score n (cu_W c) (E (pixels (nth i anchors []))) (T (pixels (nth j positives []))) / t)%R,
        [nth 0 images []; nth 0 anchors []; nth 0 positives []]).
Proof.
  intros SA H W B N G L I DR EE TT EL TL SW TM.
  assert (AUG : forall d, d = d1 \/ d = d2 -> exists out, snd (augment 0%R aug (Z.of_nat h) (Z.of_nat w) d images) = Ok out /\
     augmented aug h w d images out /\ List.length out = b).
  { intros d D. destruct (DR d D) as (U & NN & NI & NL).
    destruct (@augment_result R 0%R aug h w ch d images SA H W U I NI) as (base & out & rs & O & (B1 & B2) & CUT & _).
    exists out. split; auto. assert (X : augmented aug h w d images out) by (exists base, rs; auto). split; auto.
    destruct CUT as (_ & CL & _). rewrite CL. destruct NN as [NN|NN]; [rewrite (B1 NN)|rewrite (B2 NN)]; auto. }
  destruct (AUG d1 (or_introl eq_refl)) as (anchors & A1 & A2 & A3).
  assert (POS : exists positives, (if both then snd (augment 0%R aug (Z.of_nat h) (Z.of_nat w) d2 images) else Ok images) = Ok positives /\
     (if both then augmented aug h w d2 images positives else positives = images) /\ List.length positives = b).
  { destruct both; [destruct (AUG d2 (or_intror eq_refl)) as (out & X); exists out; exact X|]. exists images. auto. }
  destruct POS as (positives & P1 & P2 & P3). exists anchors, positives. split; auto. split; auto.
  unfold curl_backward. rewrite G. cbn [rbind]. rewrite A1. cbn [rbind]. rewrite P1. cbn [rbind].
  destruct (@temperature_ok c (map pixels anchors) (map pixels positives) b n (map E (map pixels anchors)) (map T (map pixels positives)) t) as (loss & L1 & L2 & _); auto.
  - rewrite map_length. auto.
  - rewrite <- A3, <- (map_length pixels anchors). apply codes_shape. auto.
  - rewrite <- P3, <- (map_length pixels positives). apply codes_shape. auto.
  - etransitivity; [exact (f_equal (rmap _) L1)|]. cbn [rmap]. rewrite L2. do 2 f_equal. apply contrastive_ext. intros i j I1 I2. f_equal.
    unfold similarity, score. apply rsum_ext. intros k _. apply rsum_ext. intros l _. rewrite !at_map by lia. auto.
Qed.

(** ** A case *)
Definition dot (x : R) : list (list (list R)) := repeat (repeat [x] 4) 5.
Definition total (x : list (list R)) : list R := [rsum (concat x)].
Definition case_curl : curl := mkCurl (fun x => Ok (map total x)) (fun x => Ok (map total x)) [[1%R]] (Some 2%R).
Definition case_aug : augmentor := mkAug true false false (1 # 5) (1 # 2).
Definition brighter (l : list (list (list (list R)))) : list (list (list (list R))) := map (fun _ => dot 9) l.
Definition case_d1 : draws (V := R) := mkDraws [9 # 10; 9 # 10]%Q [1; 5; 0; 1]%Z brighter.
Definition case_d2 : draws (V := R) := mkDraws [1 # 10; 9 # 10]%Q [1; 5; 0; 1]%Z brighter.
Lemma dot_image x : is_image 5 4 1 (dot x).
Proof. split; [reflexivity|]. unfold dot. repeat apply Forall_cons; try apply Forall_nil; (split; [reflexivity|repeat apply Forall_cons; try apply Forall_nil; reflexivity]). Qed.
Lemma case_draws d : d = case_d1 \/ d = case_d2 -> Forall unit_interval (dr_rand d) /\ (noisy case_aug d \/ noise_free case_aug d) /\
  Forall (is_image 5 4 1) (dr_noise d [dot 7; dot 8]) /\ List.length (dr_noise d [dot 7; dot 8]) = 2%nat.
Proof.
  intros [-> | ->]; (split; [repeat apply Forall_cons; try apply Forall_nil; split; vm_compute; congruence|]);
    (split; [|split; [repeat apply Forall_cons; try apply Forall_nil; apply dot_image|reflexivity]]).
  - right. right. exists (9 # 10)%Q, [9 # 10]%Q. split; [reflexivity|vm_compute; congruence].
  - left. split; [reflexivity|]. exists (1 # 10)%Q, [9 # 10]%Q. split; [reflexivity|vm_compute; congruence].
Qed.
Lemma case_codes : (forall x, List.length (total x) = 1%nat) /\ shape 1 1 (cu_W case_curl).
Proof. split; [reflexivity|]. split; [reflexivity|]. apply Forall_cons; [reflexivity|apply Forall_nil]. Qed.
Lemma case_anchors : snd (augment 0%R case_aug 5 4 case_d1 [dot 7; dot 8]) =
  Ok [[[[7]; [7]; [7]; [7]]; [[0]; [7]; [7]; [7]]; [[0]; [7]; [7]; [7]]; [[7]; [7]; [7]; [7]]; [[7]; [7]; [7]; [7]]];
      [[[8]; [8]; [8]; [8]]; [[8]; [8]; [8]; [8]]; [[8]; [0]; [8]; [8]]; [[8]; [0]; [8]; [8]]; [[8]; [8]; [8]; [8]]]]%R.
Proof. reflexivity. Qed.
