(** * RepProps: histograms, reports, the logging wrapper, per-parameter logs (C118-C122)

    Read RepSpec.v (and [last_of], [without] in LogSpec.v) for the words used here.
    [hist_all], [reports], [rlogw_run]: histories of calls of log_histogram, report, add.
    [fresh n]: a new object with default_window_length [n].  LoggingProxyWrapper uses 1000. *)
From Coq Require Import Ascii.
From Verif Require Import Py PyLemmas CkptModel LogModel LogSpec LogProofs ProxyModel LoaderModel RepModel RepSpec
  RepProofs RepMore RepRun RepWrap RepParam RepApart.
Open Scope string_scope.
Open Scope list_scope.
Open Scope Z_scope.

(** ** C118: histograms, images, videos *)

(** Single numbers only: the last [n] of them are shown. *)
Theorem C118_numbers_partial : forall n ops key zs, 0 <= n -> about key ops = map HNum zs -> zs <> [] ->
  exists w, shown key (hist_all ops (fresh n)) = Some w /\ last_of n zs w.
Proof. exact hist_numbers. Qed.
Print Assumptions C118_numbers_partial.
(** If the last call was with a collection, exactly that is shown. *)
Theorem C118_collection : forall n ops key before v l,
  about key ops = before ++ [v] -> (v = HMany l \/ v = HTensor l) ->
  shown key (hist_all ops (fresh n)) = Some l.
Proof. exact hist_collection. Qed.
Print Assumptions C118_collection.
Theorem C118_unused : forall n ops key, about key ops = [] -> shown key (hist_all ops (fresh n)) = None.
Proof. exact hist_unused. Qed.
Print Assumptions C118_unused.
(** No call raises, as long as no tensor or array is logged under the key. *)
Theorem C118_succeeds_partial : forall n ops key v, 0 <= n -> (forall l, ~ In (HTensor l) (about key ops)) ->
  snd (log_histogram key v (hist_all ops (fresh n))) = Ok tt.
Proof. exact hist_ok. Qed.
Print Assumptions C118_succeeds_partial.
(** Numbers after a list are appended to that list, without any window: *)
Theorem C118_after_list_refuted : forall n ops key before l zs,
  about key ops = before ++ HMany l :: map HNum zs -> shown key (hist_all ops (fresh n)) = Some (l ++ zs).
Proof. exact hist_list_grows. Qed.
Print Assumptions C118_after_list_refuted.
(** so that a histogram of numbers can grow beyond any bound, whatever the window length. *)
Theorem C118_unbounded_refuted : forall n b, 0 <= n -> exists ops,
  (exists l, shown "k" (hist_all ops (fresh n)) = Some l /\ b < zlen l)
  /\ Forall (fun kv => match snd kv with HMany l => l = [] | HNum _ => True | HTensor _ => False end) ops.
Proof. exact hist_no_bound. Qed.
Print Assumptions C118_unbounded_refuted.
(** A number after a tensor or array raises, and is lost. *)
Theorem C118_after_array_refuted : forall n ops key before l z, about key ops = before ++ [HTensor l] ->
  log_histogram key (HNum z) (hist_all ops (fresh n)) = (hist_all ops (fresh n), Err AttributeError).
Proof. exact hist_array_number. Qed.
Print Assumptions C118_after_array_refuted.
(** Images of three dimensions, and videos: the last one logged is kept. *)
Theorem C118_images_partial : forall ops s key, Forall (fun kv => three_dims (snd kv)) ops ->
  dget (md_images (lg_other (images_all ops s))) key
  = match rev (about key ops) with i :: _ => Some i | [] => dget (md_images (lg_other s)) key end.
Proof. exact images_last. Qed.
Print Assumptions C118_images_partial.
Theorem C118_videos : forall ops s key,
  dget (md_videos (lg_other (videos_all ops s))) key
  = match rev (about key ops) with i :: _ => Some i | [] => dget (md_videos (lg_other s)) key end.
Proof. exact videos_last. Qed.
Print Assumptions C118_videos.
(** Any other image (grey, or a batch) is dropped without a word. *)
Theorem C118_images_refuted : forall key i s, ~ three_dims i -> log_image key i s = s.
Proof. exact image_ignored. Qed.
Print Assumptions C118_images_refuted.
(** Calls of different methods do not interfere: whatever the history, each log is what the
    calls of its own method make of it. *)
Theorem C118_apart : forall h s,
  lg_scalars (calls h s) = lg_scalars (calls (filter scalar_call h) s)
  /\ lg_windows (calls h s) = lg_windows (calls (filter windowed_call h) s)
  /\ lg_cumulative (calls h s) = lg_cumulative (calls (filter windowed_call h) s)
  /\ md_hists (lg_other (calls h s)) = md_hists (lg_other (calls (filter histogram_call h) s))
  /\ md_images (lg_other (calls h s)) = md_images (lg_other (calls (filter image_call h) s))
  /\ md_videos (lg_other (calls h s)) = md_videos (lg_other (calls (filter video_call h) s)).
Proof. exact kinds_apart. Qed.
Print Assumptions C118_apart.
Example C118_apart_case :
  let h := [CScalar "a" 1; CWindowed "a" (LNum 2); CHistogram "a" (HNum 3); CWindowed "a" (LNum 4); CHistogram "a" (HNum 5); CVideo "a" ([], 6)] in
  let s := calls h (fresh 1) in
  lg_scalars s = [("a", 1)] /\ lg_windows s = [("a", ([4], 1))] /\ lg_cumulative s = [("a", 6)]
  /\ shown "a" s = Some [5] /\ md_videos (lg_other s) = [("a", ([], 6))].
Proof. vm_compute. auto 6. Qed.
Example C118_case :
  let ops := [("a", HNum 1); ("b", HMany [7; 8]); ("a", HNum 2); ("a", HNum 3)] in
  about "a" ops = map HNum [1; 2; 3] /\ shown "a" (hist_all ops (fresh 2)) = Some [2; 3]
  /\ shown "b" (hist_all ops (fresh 2)) = Some [7; 8].
Proof. vm_compute. auto. Qed.

(** ** C119: get_report *)

(** After sound reports (usable keys, no empty list), whatever the order in which the keys are
    gone through: the answer has, for every key asked for under which something was reported,
    the mean of its window, the window, and the sum of everything; for a histogram the mean of
    the values shown; the number of inferences; nothing else.  Not if both a key and the key
    with "/cumulative" are asked for. *)
Theorem C119_report_partial : forall h infs order, Forall sound_report h ->
  (forall a, In a order -> ~ In (String.append a "/cumulative") order) ->
  exists out lists, get_report infs (reports h (fresh 1000)) order ([], []) = Ok (out, lists)
  /\ (forall key, In key order -> ~ is_histogram key -> reported_at_all key h -> answered key (reported key h) out lists)
  /\ (forall k w, In (String.append "histogram:" k) order -> shown k (reports h (fresh 1000)) = Some w ->
        dget out (String.append "histogram:" k) = Some (RMean (zsum w) (zlen w)))
  /\ (In "inf_step" order -> ~ reported_at_all "inf_step" h -> dget out "inf_step" = Some (RVal infs))
  /\ (forall key, In key order -> ~ reported_at_all key h -> key <> "inf_step" -> dget out key = None /\ dget lists key = None)
  /\ (forall key, ~ In key order -> (forall a, In a order -> key <> String.append a "/cumulative") ->
        dget out key = None /\ dget lists key = None).
Proof. exact report_main. Qed.
Print Assumptions C119_report_partial.
(** A histogram of single numbers shows the last thousand of them. *)
Theorem C119_histogram_partial : forall h k, Forall sound_report h ->
  numbers_only (String.append "histogram:" k) h -> reported_at_all (String.append "histogram:" k) h ->
  exists w, shown k (reports h (fresh 1000)) = Some w /\ last_of 1000 (reported (String.append "histogram:" k) h) w.
Proof. exact report_hist_numbers. Qed.
Print Assumptions C119_histogram_partial.
(** The same question can have two answers: the order of a Python set decides. *)
Theorem C119_order_refuted :
  let s := reports [mkMeta [("a", 1); ("a/cumulative", 5)] []] (fresh 1000) in
  exists o1 l1 o2 l2,
    get_report 0 s ["a"; "a/cumulative"] ([], []) = Ok (o1, l1)
    /\ get_report 0 s ["a/cumulative"; "a"] ([], []) = Ok (o2, l2)
    /\ dget o1 "a/cumulative" = Some (RMean 5 1) /\ dget o2 "a/cumulative" = Some (RVal 1).
Proof. do 4 eexists. vm_compute. auto. Qed.
Print Assumptions C119_order_refuted.
(** After an empty list was reported, asking for the key raises. *)
Theorem C119_empty_refuted :
  get_report 0 (reports [mkMeta [] [("a", [])]] (fresh 1000)) ["a"] ([], []) = Err ZeroDivisionError.
Proof. vm_compute. auto. Qed.
Print Assumptions C119_empty_refuted.
Example C119_case :
  let h := [mkMeta [("a", 4); ("histogram:h", 9)] [("windowed[2]:b", [1; 2; 3])]; mkMeta [("a", 2)] [("histogram:h", [5; 6])]] in
  Forall sound_report h
  /\ get_report 12 (reports h (fresh 1000)) ["a"; "windowed[2]:b"; "histogram:h"; "inf_step"; "x"] ([], [])
     = Ok ([("a", RMean 6 2); ("a/cumulative", RVal 6); ("windowed[2]:b", RMean 5 2); ("windowed[2]:b/cumulative", RVal 6);
            ("histogram:h", RMean 11 2); ("inf_step", RVal 12)], [("a", [4; 2]); ("windowed[2]:b", [2; 3])]).
Proof.
  split; [|vm_compute; auto].
  apply Forall_cons; [|apply Forall_cons; [|apply Forall_nil]]; split; intros k v I; cbn [mt_info mt_lists In] in I;
    repeat (destruct I as [E|I]; [injection E as <- <-|]); try destruct I;
    try (split; [|discriminate]); intros _;
    (split; [first [exists 1000; split; [reflexivity|lia] | exists 2; split; [reflexivity|lia]]|eexists; reflexivity]).
Qed.

(** ** C120: logging does not interfere with storing *)

(** Whatever the wrapped proxy does, and for any history of calls of [add] with sound metadata:
    every call returns what the proxy returns, the proxy sees exactly the same calls, and the
    observations are counted. *)
Theorem C120_transparent_partial : forall (S I : Type) (inner_add : I -> dict Z (obs S) -> dict Z (resp S) -> I * res unit)
    name interval i h,
  0 < interval -> Forall sound_report (metadata h) -> Forall clock_moves h ->
  let w := rlogw_run inner_add (rlogw_new name interval i) h in
  snd w = snd (inner_run inner_add i h)
  /\ lw_inner (rw_base (fst w)) = fst (inner_run inner_add i h)
  /\ lw_infs (rw_base (fst w)) = observations_of h.
Proof. exact @transparent. Qed.
Print Assumptions C120_transparent_partial.
(** One empty list in the metadata of one observation is enough: with a log interval of one
    nothing is ever stored again (until something else is reported under that key); every call
    raises. *)
Theorem C120_empty_list_refuted : forall (S I : Type) (inner_add : I -> dict Z (obs S) -> dict Z (resp S) -> I * res unit)
    name i c h key,
  ~ is_histogram key -> window_length 1000 key = Ok 1000 -> window_tag key = Ok key ->
  metadata [c] = [mkMeta [] [(key, [])]] -> Forall (fun c => metadata [c] = []) h ->
  rd_cycle (ac_readings c) <> 0 -> Forall (fun c => rd_cycle (ac_readings c) <> 0) h ->
  let w := rlogw_run inner_add (rlogw_new name 1 i) (c :: h) in
  lw_inner (rw_base (fst w)) = i /\ Forall (fun x => x = Err ZeroDivisionError) (snd w).
Proof. exact @stuck. Qed.
Print Assumptions C120_empty_list_refuted.
(** The same with a key that has a window length but no name, or no length. *)
Theorem C120_key_refuted :
  let add := fun (n : Z) (_ : dict Z (obs Z)) (_ : dict Z (resp Z)) => (n + 1, @Ok unit tt) in
  let call key := mkAcall (mkReadings 1 1 []) [(0, (mkObs [] RUNNING [], Some (mkMeta [(key, 3)] [])))] [] in
  snd (rlogw_run add (rlogw_new "m" 1 0) [call "windowed[5]"]) = [Err IndexError]
  /\ lw_inner (rw_base (fst (rlogw_run add (rlogw_new "m" 1 0) [call "windowed[5]"]))) = 0
  /\ snd (rlogw_run add (rlogw_new "m" 1 0) [call "windowed[]:x"]) = [Err ValueError]
  /\ lw_inner (rw_base (fst (rlogw_run add (rlogw_new "m" 1 0) [call "windowed[]:x"]))) = 0.
Proof. vm_compute. auto. Qed.
Print Assumptions C120_key_refuted.
Example C120_case :
  let add := fun (n : Z) (_ : dict Z (obs Z)) (_ : dict Z (resp Z)) => (n + 1, @Ok unit tt) in
  let call v := mkAcall (mkReadings 1 1 []) [(0, (mkObs [] RUNNING [], Some (mkMeta [("a", v)] []))); (1, (mkObs [] RUNNING [], None))] [] in
  let h := [call 3; call 5; call 7] in
  Forall sound_report (metadata h) /\ Forall clock_moves h
  /\ snd (rlogw_run add (rlogw_new "m" 2 0) h) = [Ok tt; Ok tt; Ok tt]
  /\ rw_written (fst (rlogw_run add (rlogw_new "m" 2 0) h))
     = [EScalar "training/inf_per_sec" (RRate 4 1) 4; EScalar "episode/completed" (RVal 4) 4; EScalar "a" (RMean 8 2) 4;
        EScalar "a/cumulative" (RVal 8) 4; EScalar "performance/inf_steps_per_sec" (RRate 4 1) 4].
Proof.
  split; [|split; [|vm_compute; auto]].
  - repeat (apply Forall_cons; [|]); try apply Forall_nil; split; intros k v I; cbn [mt_info mt_lists In] in I;
    repeat (destruct I as [E|I]; [injection E as <- <-|]); try destruct I; intros _;
    (split; [exists 1000; split; [reflexivity|lia]|eexists; reflexivity]).
  - repeat constructor; discriminate.
Qed.
Example C120_case_empty_list :
  let add := fun (n : Z) (_ : dict Z (obs Z)) (_ : dict Z (resp Z)) => (n + 1, @Ok unit tt) in
  let bad := mkAcall (mkReadings 1 1 []) [(0, (mkObs [] RUNNING [], Some (mkMeta [] [("loss", [])])))] [] in
  let ok := mkAcall (mkReadings 1 1 []) [(0, (@mkObs Z [] RUNNING [], None))] [] in
  (~ is_histogram "loss") /\ window_length 1000 "loss" = Ok 1000 /\ window_tag "loss" = Ok "loss"
  /\ metadata [bad] = [mkMeta [] [("loss", [])]] /\ metadata [ok] = []
  /\ snd (rlogw_run add (rlogw_new "m" 1 0) [bad; ok; ok]) = [Err ZeroDivisionError; Err ZeroDivisionError; Err ZeroDivisionError].
Proof. split; [intros [k E]; discriminate|vm_compute; auto 6]. Qed.

(** ** C121: what is written at the end of a cycle *)

(** After every [interval]-th call, and only then: the mean of the window and the sum of every
    metric reported, all histograms, the number of episodes and the two rates, all at the number
    of observations so far. *)
Theorem C121_written_partial : forall (S I : Type) (inner_add : I -> dict Z (obs S) -> dict Z (resp S) -> I * res unit)
    name interval i h c, 0 < interval ->
  Forall sound_report (metadata (h ++ [c])) -> Forall clock_moves (h ++ [c]) ->
  let w := fst (rlogw_run inner_add (rlogw_new name interval i) h) in
  let w' := fst (rlogw_add inner_add w (ac_readings c) (ac_obs c) (ac_resp c)) in
  let N := observations_of (h ++ [c]) in
  let rd := ac_readings c in
  exists ev, rw_written w' = rw_written w ++ ev
  /\ (Z.of_nat (List.length (h ++ [c])) mod interval <> 0 -> ev = [])
  /\ (Z.of_nat (List.length (h ++ [c])) mod interval = 0 ->
      (forall key, ~ is_histogram key -> reported_at_all key (metadata (h ++ [c])) ->
         exists n v t, window_length 1000 key = Ok n /\ last_of n (reported key (metadata (h ++ [c]))) v
         /\ window_tag key = Ok t
         /\ In (EScalar t (RMean (zsum v) (zlen v)) N) ev
         /\ In (EScalar (String.append t "/cumulative") (RVal (zsum (reported key (metadata (h ++ [c]))))) N) ev)
      /\ (forall k v, shown k (reports (metadata (h ++ [c])) (fresh 1000)) = Some v -> In (EHist k v N) ev)
      /\ In (EScalar "episode/completed" (RVal (zsum (map (fun c => zlen (ac_obs c) - zlen (ac_resp c)) (h ++ [c])))) N) ev
      /\ (forall earlier this, h ++ [c] = earlier ++ this -> zlen this = interval ->
            In (EScalar "training/inf_per_sec" (RRate (observations_of this) (rd_cycle rd)) N) ev)
      /\ In (EScalar "performance/inf_steps_per_sec" (RRate N (rd_start rd)) N) ev).
Proof. exact @written. Qed.
Print Assumptions C121_written_partial.
Example C121_case :
  let add := fun (n : Z) (_ : dict Z (obs Z)) (_ : dict Z (resp Z)) => (n + 1, @Ok unit tt) in
  let call v := mkAcall (mkReadings 1 1 []) [(0, (mkObs [] RUNNING [], Some (mkMeta [("a", v)] [])))] [] in
  let h := [call 3; call 5; call 7; call 9] in
  Forall sound_report (metadata h) /\ Forall clock_moves h
  /\ List.length (rw_written (fst (rlogw_run add (rlogw_new "m" 2 0) h))) = 10%nat
  /\ In (EScalar "a" (RMean 24 4) 4) (rw_written (fst (rlogw_run add (rlogw_new "m" 2 0) h))).
Proof.
  split; [|split; [|vm_compute; auto 12]].
  - repeat (apply Forall_cons; [|]); try apply Forall_nil; split; intros k v I; cbn [mt_info mt_lists In] in I;
    repeat (destruct I as [E|I]; [injection E as <- <-|]); try destruct I; intros _;
    (split; [exists 1000; split; [reflexivity|lia]|eexists; reflexivity]).
  - repeat constructor; discriminate.
Qed.
(** The tag is the key, or what stands between its first and second colon. *)
Theorem C121_tag : forall key t, window_tag key = Ok t <->
  (~ (exists r, key = String.append "windowed[" r)) /\ t = key
  \/ exists a rest, key = String.append "windowed[" (String.append a (String ":" (String.append t rest)))
       /\ without ":" a /\ without ":" t /\ (rest = "" \/ exists r, rest = String ":" r).
Proof. exact window_tag_spec. Qed.
Print Assumptions C121_tag.
(** Different metrics can have one tag. *)
Theorem C121_tags_refuted : window_tag "windowed[5]:a" = Ok "a" /\ window_tag "a" = Ok "a"
  /\ window_tag "windowed[5]:a:b" = Ok "a".
Proof. vm_compute. auto. Qed.
Print Assumptions C121_tags_refuted.

(** ** C122: per-parameter logs *)

(** If the names can be taken apart ([tidy]) and parameters of one kind have one number of
    dimensions, then every optimized parameter, and its gradient if it has one, is logged with
    its own norm and values. *)
Theorem C122_logged_partial : forall weights grads loss network ids s p,
  (forall q, In q (optimized network ids) -> tidy q) -> same_rank (optimized network ids) ->
  NoDup (map pr_name network) -> In p network -> In (pr_id p) ids ->
  let s' := log_per_param weights grads loss network ids s in
  (weights = true -> logged_under (pr_data p) (param_key "_l2" loss p) (param_key "" loss p) s')
  /\ (forall g, grads = true -> pr_grad p = Some g -> logged_under g (param_key "_grads_l2" loss p) (param_key "_grads" loss p) s').
Proof. exact per_param. Qed.
Print Assumptions C122_logged_partial.
(** The keys: kind/loss_path_shape. *)
Theorem C122_key : forall mid loss p path leaf, path_of (pr_name p) path leaf ->
  param_key mid loss p
  = String.append leaf (String.append mid (String.append "/" (String.append loss (String.append "_"
      (String.append (String.concat "_" path) (String.append "_" (String.concat "_" (map str_Z (pr_shape p))))))))).
Proof. exact param_key_form. Qed.
Print Assumptions C122_key.
(** Parameters that are not optimized are not logged. *)
Theorem C122_frozen : forall weights grads loss network ids s, (forall p, In p network -> ~ In (pr_id p) ids) ->
  log_per_param weights grads loss network ids s = s.
Proof. exact frozen. Qed.
Print Assumptions C122_frozen.
(** A parameter can be overwritten by another one: an underscore in a module's name, ... *)
Theorem C122_underscore_refuted :
  let p := mkParam "a.b.weight" 1 [2] [3; 4] None in
  let q := mkParam "a_b.weight" 2 [2] [5; 6] None in
  let s := log_per_param true false "loss" [p; q] [1; 2] (fresh 250) in
  md_scalars (lg_other s) = [("weight_l2/loss_a_b_2", RNorm [5; 6])].
Proof. vm_compute. auto. Qed.
Print Assumptions C122_underscore_refuted.
(** ... or a number in a path that looks like a dimension. *)
Theorem C122_shape_refuted :
  let p := mkParam "0.weight" 1 [1; 2] [3; 4] None in
  let q := mkParam "0.1.weight" 2 [2] [5; 6] None in
  let s := log_per_param true false "loss" [p; q] [1; 2] (fresh 250) in
  md_scalars (lg_other s) = [("weight_l2/loss_0_1_2", RNorm [5; 6])].
Proof. vm_compute. auto. Qed.
Print Assumptions C122_shape_refuted.
Example C122_case :
  let net := [mkParam "0.weight" 1 [2; 1] [3; 4] (Some [1; 1]); mkParam "0.bias" 2 [2] [5; 6] None] in
  (forall q, In q (optimized net [1; 2]) -> tidy q) /\ same_rank (optimized net [1; 2]) /\ NoDup (map pr_name net)
  /\ md_scalars (lg_other (log_per_param true true "q" net [1; 2] (fresh 250)))
     = [("weight_grads_l2/q_0_2_1", RNorm [1; 1]); ("weight_l2/q_0_2_1", RNorm [3; 4]); ("bias_l2/q_0_2", RNorm [5; 6])].
Proof. exact params_case. Qed.
