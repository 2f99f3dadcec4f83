(** * VisCases: concrete cases for C84-C87 *)
From Coq Require Import QArith.
From Verif Require Import Py VisModel VisSpec.
Open Scope list_scope.
Open Scope Z_scope.

Lemma longer_settings : exists (e : enc2 (A := Z)) x m,
  make_enc2 (fun _ _ _ => 0) (1, 4, 4) [1] [1; 3] [1; 1] [0; 0] false false = Ok e /\
  forward2 0 e x = Ok (Maps2 m) /\ is2 1 4 4 m /\ output_size2 e = Ok (Shape2 1 2 2).
Proof.
  eexists _, (repeat (repeat (repeat 0 4) 4) 1), (repeat (repeat (repeat 0 4) 4) 1).
  split; [reflexivity|]. split; [vm_compute; reflexivity|].
  split; [split; [reflexivity|repeat constructor]|vm_compute; reflexivity].
Qed.
Lemma impossible_layers : exists (e : enc2 (A := Z)),
  make_enc2 (fun _ _ _ => 0) (1, 2, 2) [1] [4] [1] [0] false true = Ok e /\
  output_size2 e = Ok (Vec2 1) /\ forall x, input2 (1, 2, 2) x -> forward2 0 e x = Err RuntimeError.
Proof.
  eexists. split; [reflexivity|]. split; [vm_compute; reflexivity|].
  intros x [_ [_ [_ [L F]]]]. destruct x as [|m [|? ?]]; try (unfold zlen in L; cbn [List.length] in L; lia).
  inversion F as [|? ? [L1 F1] _]; subst. unfold forward2. cbn [e2_last e2_layers run_layers2]. unfold run_conv2.
  cbn [nth]. rewrite L1. cbn -[zlen Z.ltb]. rewrite (proj2 (Z.ltb_lt 2 4)) by lia.
  destruct (zlen [m] =? 1); reflexivity.
Qed.
Lemma encoder_case : exists e out, make_enc2 (A := Z) (fun _ j f => Z.of_nat j + zsum (concat (concat f))) (5, 6, 1) [2; 3] [3; 2] [1; 2] [1; 0] true true = Ok e /\
  forward2 0 e (repeat (repeat [1] 6) 5) = Ok (Flat2 out) /\ output_size2 e = Ok (Vec2 18) /\ zlen out = 18 /\
  zipped [2; 3] [3; 2] [1; 2] [1; 0] /\ input2 (5, 6, 1) (repeat (repeat [1] 6) 5).
Proof.
  eexists _, _. split; [reflexivity|]. split; [vm_compute; reflexivity|]. split; [vm_compute; reflexivity|].
  split; [vm_compute; reflexivity|]. split; [reflexivity|]. cbn. repeat split; try lia; repeat constructor.
Qed.
Lemma frames_case :
  let g := mkGenv (P := Z) (fun e : Z => (e + 100, [[[e]]])) (fun e a => (e + a, [[[e]]])) in
  images_of g 1 1 1 /\
  map (fun z => snd (force z)) (fs_seen (fs_run g 3 (mkStack 0 [] []) [FReset; FStep 1; FLook 0; FStep 1; FReset; FStep 5]))
  = [Ok [[[0; 0; 0]]]; Ok [[[0; 0; 100]]]; Ok [[[0; 100; 101]]]; Ok [[[102; 102; 102]]]; Ok [[[102; 102; 202]]]].
Proof.
  split; [|vm_compute; reflexivity]. split; intros; cbn; repeat split; repeat constructor.
Qed.
Lemma scaled_case : (scaled 0 == -(1))%Q /\ (scaled 255 == 1)%Q.
Proof. split; vm_compute; reflexivity. Qed.
Lemma cut_case :
  let c := mkAug false false false (1 # 5) (1 # 2) in
  let img := repeat (repeat [7] 4) 5 in
  sane c /\ is_image 5 4 1 img /\
  augment 0 c 5 4 (mkDraws [9 # 10]%Q [1; 5; 0; 1] (fun x => x)) [img; img]
  = (let out := [[[[7]; [7]; [7]; [7]]; [[0]; [7]; [7]; [7]]; [[0]; [7]; [7]; [7]]; [[7]; [7]; [7]; [7]]; [[7]; [7]; [7]; [7]]];
                 [[[7]; [7]; [7]; [7]]; [[7]; [7]; [7]; [7]]; [[7]; [0]; [7]; [7]]; [[7]; [0]; [7]; [7]]; [[7]; [7]; [7]; [7]]]] in (out, Ok out)).
Proof.
  split; [repeat split; vm_compute; auto; discriminate|]. split; [split; [reflexivity|repeat constructor]|].
  vm_compute. reflexivity.
Qed.
