(** * RepSpec: what histograms, reports and per-parameter logs should do *)
From Coq Require Import Ascii.
From Verif Require Import Py CkptModel LogModel LogSpec ProxyModel LoaderModel RepModel.
Open Scope string_scope.
Open Scope list_scope.
Open Scope Z_scope.

(** ** Histograms, images *)

(** What was logged for [key], in order. *)
Definition about {A} (key : string) (ops : list (string * A)) : list A :=
  map snd (filter (fun kv => (fst kv =? key)%string) ops).
(** The values that a histogram shows, if there is one. *)
Definition shown (key : string) (s : mlogs) : option (list Z) :=
  match dget (md_hists (lg_other s)) key with Some h => Some (hist_values h) | None => None end.
(** A new object. *)
Definition fresh (n : Z) : mlogs := new_logs n no_media.
Definition images_all (ops : list (string * image)) (s : mlogs) : mlogs :=
  fold_left (fun s kv => log_image (fst kv) (snd kv) s) ops s.
Definition videos_all (ops : list (string * (list image * Z))) (s : mlogs) : mlogs :=
  fold_left (fun s kv => log_video (fst kv) (snd kv) s) ops s.
Definition three_dims (i : image) : Prop := List.length (im_shape i) = 3%nat.

(** A call of one of the methods that log. *)
Inductive call : Type :=
| CScalar (key : string) (v : Z) | CWindowed (key : string) (v : lval) | CHistogram (key : string) (v : hval)
| CImage (key : string) (v : image) | CVideo (key : string) (v : list image * Z).
Definition one_call (s : mlogs) (c : call) : mlogs :=
  match c with
  | CScalar k v => log_scalar k v s
  | CWindowed k v => fst (log_windowed k v s)
  | CHistogram k v => fst (log_histogram k v s)
  | CImage k v => log_image k v s
  | CVideo k v => log_video k v s
  end.
(** Any history of such calls; exceptions are caught. *)
Definition calls (h : list call) (s : mlogs) : mlogs := fold_left one_call h s.
Definition scalar_call (c : call) : bool := match c with CScalar _ _ => true | _ => false end.
Definition windowed_call (c : call) : bool := match c with CWindowed _ _ => true | _ => false end.
Definition histogram_call (c : call) : bool := match c with CHistogram _ _ => true | _ => false end.
Definition image_call (c : call) : bool := match c with CImage _ _ => true | _ => false end.
Definition video_call (c : call) : bool := match c with CVideo _ _ => true | _ => false end.

(** ** Reports *)

(** The numbers reported under [key]: first the single numbers of a report, then its lists. *)
Definition reported (key : string) (h : list meta) : list Z :=
  flat_map (fun m => about key (mt_info m) ++ List.concat (about key (mt_lists m))) h.
(** Whether anything, be it an empty list, was reported under [key]. *)
Definition reported_at_all (key : string) (h : list meta) : Prop :=
  exists m, In m h /\ (In key (map fst (mt_info m)) \/ In key (map fst (mt_lists m))).
Definition is_histogram (key : string) : Prop := exists k, key = String.append "histogram:" k.
(** A key that asks for a window of a positive length [n], and can be turned into a tag. *)
Definition usable (key : string) : Prop :=
  ~ is_histogram key ->
  (exists n, window_length 1000 key = Ok n /\ 0 < n) /\ (exists t, window_tag key = Ok t).
(** A report with such keys only and without empty lists. *)
Definition sound_report (m : meta) : Prop :=
  (forall k v, In (k, v) (mt_info m) -> usable k)
  /\ (forall k l, In (k, l) (mt_lists m) -> usable k /\ l <> []).
(** No list under that key. *)
Definition numbers_only (key : string) (h : list meta) : Prop :=
  forall m, In m h -> about key (mt_lists m) = [].

(** What [get_report] should answer for a [key] under which something was reported: the mean
    of the values in the window, these values, the sum of everything reported. *)
Definition answered (key : string) (l : list Z) (out : dict string rval) (lists : dict string (list Z)) : Prop :=
  exists n w, window_length 1000 key = Ok n /\ last_of n l w
  /\ dget out key = Some (RMean (zsum w) (zlen w)) /\ dget lists key = Some w
  /\ dget out (String.append key "/cumulative") = Some (RVal (zsum l)).

(** ** The wrapper *)
Section Wrapper.
Context {S : Type}.
(** The metadata in a history of calls of [add], in order. *)
Definition metadata (h : list (acall S)) : list meta :=
  flat_map (fun c => flat_map (fun kv => match snd (snd kv) with Some m => [m] | None => [] end) (ac_obs c)) h.
(** The clock has moved. *)
Definition clock_moves (c : acall S) : Prop := rd_cycle (ac_readings c) <> 0 /\ rd_start (ac_readings c) <> 0.
(** The number of observations in a history. *)
Definition observations_of (h : list (acall S)) : Z := zsum (map (fun c => zlen (ac_obs c)) h).
(** Observations without their metadata (which no proxy but the logging one looks at). *)
Definition bare (o : dict Z (mobs S)) : dict Z (obs S) := map (fun '(agent, (ob, _)) => (agent, ob)) o.
(** The same calls of a proxy that is not wrapped. *)
Fixpoint inner_run {I : Type} (inner_add : I -> dict Z (obs S) -> dict Z (resp S) -> I * res unit)
    (i : I) (h : list (acall S)) : I * list (res unit) :=
  match h with
  | [] => (i, [])
  | c :: r =>
      let '(i1, x) := inner_add i (bare (ac_obs c)) (ac_resp c) in
      let '(i2, xs) := inner_run inner_add i1 r in (i2, x :: xs)
  end.
End Wrapper.

(** ** Parameters *)

(** The path of a parameter and its last component. *)
Definition path_of (name : string) (path : list string) (leaf : string) : Prop :=
  Forall (without "."%char) path /\ without "."%char leaf
  /\ name = fold_right (fun p r => String.append p (String "."%char r)) leaf path.
(** A parameter whose log keys can be taken apart again: no empty component, none with an
    underscore (the last one may have some), no slash in the last one, which does not end in
    "_grads" either. *)
Definition tidy (p : param) : Prop :=
  exists path leaf, path_of (pr_name p) path leaf
  /\ Forall (fun x => x <> "" /\ without "_"%char x) path
  /\ without "/"%char leaf /\ (forall x, leaf <> String.append x "_grads")
  /\ Forall (fun d => 0 <= d) (pr_shape p).
(** Parameters with the same last component have the same number of dimensions. *)
Definition same_rank (ps : list param) : Prop :=
  forall p q path path' leaf, In p ps -> In q ps -> path_of (pr_name p) path leaf -> path_of (pr_name q) path' leaf ->
  List.length (pr_shape p) = List.length (pr_shape q).
(** What should be there: the norm, and the values as histogram. *)
Definition logged_under (l : list Z) (key_norm key_hist : string) (s : mlogs) : Prop :=
  dget (md_scalars (lg_other s)) key_norm = Some (RNorm l) /\ shown key_hist s = Some l.
