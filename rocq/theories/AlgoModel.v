(** * AlgoModel: the normalizer and the dynamics model (emote/models/model.py),
    soft target updates (emote/algorithms/sac.py) and HL-Gauss
    (emote/algorithms/hlgauss.py)

    Simplification: floating point numbers are real numbers, and [None] is
    not-a-number; a tensor of two dimensions is the list of its rows. *)
From Coq Require Import Reals.
From Verif Require Import Py NumModel.
Open Scope list_scope.
Open Scope R_scope.

(** ** Numbers that may be NaN *)
(** Used for the statistics at emote/models/model.py:262-317. *)
Definition val : Type := option R.
(** An operation on numbers that may be NaN (emote/models/model.py:269-317). *)
Definition vlift (f : R -> R -> R) (a b : val) : val :=
  match a, b with Some x, Some y => Some (f x y) | _, _ => None end.
(** + at emote/models/model.py:279-284 and 317. *)
Definition vadd : val -> val -> val := vlift Rplus.
(** - at emote/models/model.py:304. *)
Definition vsub : val -> val -> val := vlift Rminus.
(** * at emote/models/model.py:279-284 and 317. *)
Definition vmul : val -> val -> val := vlift Rmult.
(** Simplification: division by zero is NaN (torch also returns infinities).  emote/models/model.py:304. *)
Definition vdiv (a b : val) : val :=
  match a, b with Some x, Some y => if Req_EM_T y 0 then None else Some (x / y) | _, _ => None end.
(** A comparison with NaN is false.  emote/models/model.py:285. *)
Definition vltb (a : val) (y : R) : bool :=
  match a with Some x => if Rlt_dec x y then true else false | None => false end.

(** The element-wise operations at emote/models/model.py:269-317. *)
Fixpoint map2 {A B C} (f : A -> B -> C) (l : list A) (l' : list B) : list C :=
  match l, l' with x :: t, y :: t' => f x y :: map2 f t t' | _, _ => [] end.
(** [a op b] of two tensors of one dimension.
    Simplification: no broadcasting between different sizes.  emote/models/model.py:279-284, 304 and 317. *)
Definition rowop (f : val -> val -> val) (a b : list val) : res (list val) :=
  if Nat.eqb (List.length a) (List.length b) then Ok (map2 f a b) else Err RuntimeError.

(** ** Normalizer *)
(** Column [j] of a tensor.  emote/models/model.py:276-284. *)
Definition column (j : nat) (data : list (list R)) : list R := map (fun row => nth j row 0) data.
(** The number of columns, emote/models/model.py:276-284. *)
Definition width (data : list (list R)) : nat := match data with [] => 0 | row :: _ => List.length row end.
(** torch.Tensor.mean of one column: the mean of nothing is NaN.  emote/models/model.py:276-284. *)
Definition torch_mean (l : list R) : val :=
  match l with [] => None | _ => Some (rsum l / INR (List.length l)) end.
(** torch.Tensor.std of one column (with Bessel's correction): NaN for fewer than
    two values.  emote/models/model.py:276-284. *)
Definition torch_std (l : list R) : val :=
  match l with
  | [] | [_] => None
  | _ => let m := rsum l / INR (List.length l) in
         Some (sqrt (rsum (map (fun x => (x - m) * (x - m)) l) / (INR (List.length l) - 1)))
  end.
(** [data.mean(0, keepdim=True)], [data.std(0, keepdim=True)].  emote/models/model.py:276-284. *)
Definition mean0 (data : list (list R)) : list val :=
  map (fun j => torch_mean (column j data)) (seq 0 (width data)).
(** data.std(0, keepdim=True), emote/models/model.py:276-284. *)
Definition std0 (data : list (list R)) : list val :=
  map (fun j => torch_std (column j data)) (seq 0 (width data)).

(** emote/models/model.py:262-267 Normalizer.__init__ *)
Record normalizer : Type := mkNorm { nm_stats : option (list val * list val); nm_rate : R }.
(** emote/models/model.py:262-267, the default of eps *)
Definition nm_eps : R := 1 / 100000.
(** emote/models/model.py:262-267 Normalizer.__init__ *)
Definition nm_init : normalizer := mkNorm None (1 / 2).

(** emote/models/model.py:285 [self.std[self.std < self.eps] = self.eps] *)
Definition at_least_eps (x : val) : val := if vltb x nm_eps then Some nm_eps else x.
(** [(1.0 - rate) * old + rate * new].  emote/models/model.py:279-284. *)
Definition blend (rate : R) (old new : val) : val :=
  vadd (vmul (Some (1 - rate)) old) (vmul (Some rate) new).

(** emote/models/model.py:269-288 Normalizer.update_stats *)
Definition update_stats (s : normalizer) (data : list (list R)) : res normalizer :=
  let rate' := if Rlt_dec (nm_rate s - 1 / 100) (1 / 100) then 1 / 100 else nm_rate s - 1 / 100 in
  match nm_stats s with
  | None => Ok (mkNorm (Some (mean0 data, map at_least_eps (std0 data))) rate')
  | Some (mean, std) =>
      rbind (rowop (blend (nm_rate s)) mean (mean0 data)) (fun mean' =>
      rbind (rowop (blend (nm_rate s)) std (std0 data)) (fun std' =>
      Ok (mkNorm (Some (mean', map at_least_eps std')) rate')))
  end.

(** emote/models/model.py:290-304 Normalizer.normalize without update *)
Definition normalize (s : normalizer) (rows : list (list val)) : res (list (list val)) :=
  match nm_stats s with
  | None => Ok rows
  | Some (mean, std) =>
      rmapM (fun row => rbind (rowop vsub row mean) (fun d => rowop vdiv d std)) rows
  end.
(** emote/models/model.py:306-317 Normalizer.denormalize *)
Definition denormalize (s : normalizer) (rows : list (list val)) : res (list (list val)) :=
  match nm_stats s with
  | None => Ok rows
  | Some (mean, std) =>
      rmapM (fun row => rbind (rowop vmul std row) (fun d => rowop vadd d mean)) rows
  end.
(** A tensor of finite numbers.  The argument of emote/models/model.py:290-317. *)
Definition finite (rows : list (list R)) : list (list val) := map (map Some) rows.
(** emote/models/model.py:300-304 normalize(val, update_state=True) *)
Definition normalize_update (s : normalizer) (data : list (list R))
  : res (normalizer * list (list val)) :=
  rbind (update_stats s data) (fun s' => rbind (normalize s' (finite data)) (fun d => Ok (s', d))).
(** A history of updates.  Calls of emote/models/model.py:269-288. *)
Fixpoint nm_history (s : normalizer) (batches : list (list (list R))) : res normalizer :=
  match batches with
  | [] => Ok s
  | b :: t => rbind (update_stats s b) (fun s' => nm_history s' t)
  end.

(** ** DynamicModel *)
(** [t[..., dim] = v]: a negative [dim] counts from the end.  emote/models/model.py:112-113 and 162-163. *)
Definition py_dim (dim : Z) (n : nat) : option nat :=
  let i := if Z.ltb dim 0 then (dim + Z.of_nat n)%Z else dim in
  if Z.leb 0 i && Z.ltb i (Z.of_nat n) then Some (Z.to_nat i) else None.
(** Assignment to one position of a row, emote/models/model.py:112-113 and 162-163. *)
Fixpoint put {A} (i : nat) (x : A) (l : list A) : list A :=
  match l, i with
  | [], _ => []
  | _ :: t, 0%nat => x :: t
  | y :: t, Datatypes.S i' => y :: put i' x t
  end.
(** [for dim in no_delta_list: target[dim] = source[dim]] of one row.  emote/models/model.py:112-113 and 162-163. *)
Fixpoint copy_dims {A} (dims : list Z) (source target : list A) : res (list A) :=
  match dims with
  | [] => Ok target
  | d :: t =>
      match py_dim d (List.length target) with
      | None => Err IndexError
      | Some i => match nth_error source i with
                  | None => Err IndexError
                  | Some x => copy_dims t source (put i x target)
                  end
      end
  end.
(** obs + deltas and next_obs - obs, emote/models/model.py:111 and 161. Simplification: no broadcasting. *)
Definition rrowop (f : R -> R -> R) (a b : list R) : res (list R) :=
  if Nat.eqb (List.length a) (List.length b) then Ok (map2 f a b) else Err RuntimeError.

(** Row by row, the operations of emote/models/model.py:109-115 and 161-169. *)
Fixpoint try_map2 {A B C} (f : A -> B -> res C) (l : list A) (l' : list B) : res (list C) :=
  match l, l' with
  | [], [] => Ok []
  | x :: t, y :: t' => rbind (f x y) (fun z => rbind (try_map2 f t t') (fun zs => Ok (z :: zs)))
  | _, _ => Err RuntimeError
  end.

(** emote/models/model.py:30-45 DynamicModel.__init__: what is configured, and the two normalizers. *)
Record dynamic : Type := mkDyn {
  dm_learned_rewards : bool;
  dm_process : option (list R -> list R);   (** obs_process_fn, row by row *)
  dm_no_delta : list Z;
  dm_in : normalizer;
  dm_target : normalizer }.
(** emote/models/model.py:30-45 DynamicModel.__init__ *)
Definition dm_new (learned_rewards : bool) (process : option (list R -> list R)) (no_delta : list Z) : dynamic :=
  mkDyn learned_rewards process no_delta nm_init nm_init.

(** emote/models/model.py:119-139 DynamicModel.get_model_input, of one row *)
Definition model_input_row (m : dynamic) (obs action : list R) : list R :=
  (match dm_process m with Some f => f obs | None => obs end) ++ action.
(** emote/models/model.py:119-139 DynamicModel.get_model_input *)
Definition get_model_input (m : dynamic) (obs action : list (list R)) : res (list (list R)) :=
  try_map2 (fun o a => Ok (model_input_row m o a)) obs action.

(** emote/models/model.py:161-169 the training target, of one row *)
Definition target_row (m : dynamic) (obs next_obs reward : list R) : res (list R) :=
  rbind (rrowop Rminus next_obs obs) (fun delta =>
  rbind (copy_dims (dm_no_delta m) next_obs delta) (fun t =>
  Ok (if dm_learned_rewards m then t ++ reward else t))).
(** emote/models/model.py:161-169, all rows *)
Fixpoint targets (m : dynamic) (obs next_obs reward : list (list R)) : res (list (list R)) :=
  match obs, next_obs, reward with
  | [], [], [] => Ok []
  | o :: os, n :: ns, r :: rs =>
      rbind (target_row m o n r) (fun t => rbind (targets m os ns rs) (fun ts => Ok (t :: ts)))
  | _, _, _ => Err RuntimeError
  end.
(** emote/models/model.py:141-173 DynamicModel.process_batch *)
Definition process_batch (m : dynamic) (obs next_obs action reward : list (list R))
  : res (dynamic * (list (list val) * list (list val))) :=
  rbind (targets m obs next_obs reward) (fun target =>
  rbind (get_model_input m obs action) (fun model_in =>
  rbind (normalize_update (dm_in m) model_in) (fun '(n_in, model_in') =>
  rbind (normalize_update (dm_target m) target) (fun '(n_target, target') =>
  Ok (mkDyn (dm_learned_rewards m) (dm_process m) (dm_no_delta m) n_in n_target,
      (model_in', target')))))).

(** emote/models/model.py:109-117 what sample makes of one row of predictions *)
Definition sample_row (m : dynamic) (obs pred : list val) : res (list val * list val) :=
  let n := Nat.pred (List.length pred) in
  let next := if dm_learned_rewards m then firstn n pred else pred in
  let reward := if dm_learned_rewards m then skipn n pred else [] in
  rbind (rowop vadd next obs) (fun tmp =>
  rbind (copy_dims (dm_no_delta m) next tmp) (fun next' => Ok (next', reward))).
(** emote/models/model.py:81-117 DynamicModel.sample: [net] is the network's sample method. *)
Definition sample (m : dynamic) (net : list (list val) -> list (list val))
  (action obs : list (list R)) : res (list (list val * list val)) :=
  rbind (get_model_input m obs action) (fun model_in =>
  rbind (normalize (dm_in m) (finite model_in)) (fun model_in' =>
  rbind (denormalize (dm_target m) (net model_in')) (fun preds =>
  try_map2 (sample_row m) (finite obs) preds))).
(** emote/models/model.py:175-189 save and load: only the network goes to the file. *)
Definition dm_load (fresh : dynamic) {N} (saved_net : N) : dynamic * N := (fresh, saved_net).

(** ** Soft target updates *)
(** emote/algorithms/sac.py:21-23 soft_update_from_to: [zip] ends with the shorter list.  A
    parameter is the list of its numbers. *)
Fixpoint soft_update (tau : R) (source target : list (list R)) : list (list R) :=
  match target, source with
  | t :: ts, s :: ss => map2 (fun y x => y * (1 - tau) + x * tau) t s :: soft_update tau ss ts
  | _, _ => target
  end.
(** [k] updates from a source that does not change.  Calls of emote/algorithms/sac.py:21-23. *)
Fixpoint soft_updates (k : nat) (tau : R) (source target : list (list R)) : list (list R) :=
  match k with 0%nat => target | Datatypes.S k' => soft_updates k' tau source (soft_update tau source target) end.

(** ** HL-Gauss *)
(** torch.linspace(min, max, bins + 1).  emote/algorithms/hlgauss.py:34 and 69. *)
Definition support (min max : R) (bins : nat) : list R :=
  map (fun i => min + INR i * ((max - min) / INR bins)) (seq 0 (Datatypes.S bins)).
(** emote/algorithms/hlgauss.py:34-35 the centers: [(support[:-1] + support[1:]) / 2] *)
Definition centers (sup : list R) : list R :=
  map2 (fun a b => (a + b) / 2) (removelast sup) (tl sup).
(** torch.softmax of one row.  emote/algorithms/hlgauss.py:43-47. *)
Definition softmax (logits : list R) : list R :=
  let z := rsum (map exp logits) in map (fun x => exp x / z) logits.
(** emote/algorithms/hlgauss.py:43-47 QNet.q_from_logit, of one row *)
Definition q_from_logit (min max : R) (bins : nat) (logits : list R) : R :=
  rsum (map2 Rmult (softmax logits) (centers (support min max bins))).
(** emote/algorithms/hlgauss.py:80-87 HLGaussLoss.transform_to_probs, of one target.  [erf] is
    torch.special.erf. *)
Definition transform_to_probs (erf : R -> R) (min max : R) (bins : nat) (sigma target : R) : list val :=
  let cdf := map (fun s => erf ((s - target) / (sqrt 2 * sigma))) (support min max bins) in
  let z := last cdf 0 - hd 0 cdf in
  map (fun p => vdiv (Some p) (Some z)) (map2 Rminus (tl cdf) (removelast cdf)).
(** emote/algorithms/hlgauss.py:140 the standard deviation QLoss chooses *)
Definition hl_sigma (smoothing_ratio min max : R) (bins : nat) : R :=
  smoothing_ratio * (max - min) / INR bins.
(** emote/algorithms/hlgauss.py:148 [torch.clamp(q_target, min, max)] *)
Definition clamp (min max x : R) : R := Rmin (Rmax x min) max.
(** emote/algorithms/hlgauss.py:144-149 the target distribution that QLoss.loss trains towards *)
Definition qloss_target (erf : R -> R) (smoothing_ratio min max : R) (bins : nat) (q_target : R) : list val :=
  transform_to_probs erf min max bins (hl_sigma smoothing_ratio min max bins) (clamp min max q_target).

(** ** The ensemble's log variance *)
(** torch.nn.functional.softplus.  Simplification: torch replaces it by the
    identity above 20.  emote/models/ensemble.py:100-107. *)
Definition softplus (x : R) : R := ln (1 + exp x).
(** emote/models/ensemble.py:100-107 EnsembleOfGaussian.default_forward, one log variance *)
Definition bound_logvar (min_logvar max_logvar logvar : R) : R :=
  let logvar1 := max_logvar - softplus (max_logvar - logvar) in
  min_logvar + softplus (logvar1 - min_logvar).
(** emote/models/ensemble.py:109-124 forward: the mean over the members *)
Definition ensemble_logvar (min_logvar max_logvar : R) (logvars : list R) : R :=
  np_mean (map (bound_logvar min_logvar max_logvar) logvars).
