(** * EnsModel: emote/models/ensemble.py (ensembles of Gaussian models) and the
    deterministic model of emote/models/model.py

    Simplifications: floating point numbers are real numbers; a batch is the list of its
    rows, a tensor of three dimensions the list of its batches; weights are arbitrary
    (initialisation is not modelled); saving and loading is left out. *)
From Coq Require Import Reals.
From Verif Require Import Py NumModel AmpModel PolModel.
From Verif Require AlgoModel.
Open Scope list_scope.
Open Scope R_scope.

(** [x.matmul(weight)] pairs the batches of [x] with the members; one of either goes with
    all of the others.  emote/models/ensemble.py:48 *)
Definition pair_members {A B} (xs : list A) (ms : list B) : res (list (A * B)) :=
  if Nat.eqb (List.length xs) (List.length ms) then Ok (combine xs ms)
  else match xs, ms with
       | [x], _ => Ok (map (fun m => (x, m)) ms)
       | _, [m] => Ok (map (fun x => (x, m)) xs)
       | _, _ => Err RuntimeError
       end.
(** emote/models/ensemble.py:30-48 EnsembleLinearLayer: one linear layer per member (its
    weight [i, j] is weight[member, j, i]) *)
Definition ens_linear (l : list linear) (x : list matrix) : res (list matrix) :=
  rbind (pair_members x l) (fun pairs =>
  rmapM (fun xm => rmapM (apply_linear (snd xm)) (fst xm)) pairs).
(** nn.Sequential of such layers, each followed by nn.ReLU; emote/models/ensemble.py:74-87, 101 *)
Fixpoint ens_hidden (ls : list (list linear)) (x : list matrix) : res (list matrix) :=
  match ls with
  | [] => Ok x
  | l :: r => rbind (ens_linear l x) (fun y => ens_hidden r (map (map (map relu)) y))
  end.
(** emote/models/ensemble.py:51-98 EnsembleOfGaussian: what the constructor builds *)
Record ensemble : Type := mkEns {
  en_out : nat; en_members : nat; en_deterministic : bool;
  en_hidden : list (list linear); en_last : list linear; en_min : list R; en_max : list R }.
(** the hidden layers; [params m k] are weights and bias of member [m] in layer [k];
    emote/models/ensemble.py:74-86 *)
Fixpoint build_hidden (e n : nat) (hidden : list nat) (k : nat) (params : nat -> nat -> (nat -> nat -> R) * (nat -> R)) : list (list linear) :=
  match hidden with
  | [] => []
  | h :: r => map (fun m => mkLinear n h (fst (params m k)) (snd (params m k))) (seq 0 e) :: build_hidden e h r (S k) params
  end.
(** emote/models/ensemble.py:52-98 __init__; [last m] are the weights and bias of member [m]'s
    last layer, [lo] and [hi] the bounds of the log variance (at first -10 and 0.5) *)
Definition build_ensemble (in_size out_size num_layers ensemble_size hidden_size : nat) (deterministic : bool)
    (params : nat -> nat -> (nat -> nat -> R) * (nat -> R)) (last : nat -> (nat -> nat -> R) * (nat -> R)) (lo hi : list R) : ensemble :=
  let sizes := hidden_size :: repeat hidden_size (num_layers - 1) in
  mkEns out_size ensemble_size deterministic
    (build_hidden ensemble_size in_size sizes 0 params)
    (map (fun m => mkLinear hidden_size (2 * out_size) (fst (last m)) (snd (last m))) (seq 0 ensemble_size)) lo hi.

(** emote/models/ensemble.py:100-107 default_forward *)
Definition default_forward (en : ensemble) (x : list matrix) : res (list matrix * list matrix) :=
  rbind (ens_hidden (en_hidden en) x) (fun h =>
  rbind (ens_linear (en_last en) h) (fun mean_and_logvar =>
  let mean := map (map (firstn (en_out en))) mean_and_logvar in
  let logvar := map (map (skipn (en_out en))) mean_and_logvar in
  let bounds := combine (en_min en) (en_max en) in
  let logvar := map (map (zipw (fun b v => AlgoModel.bound_logvar (fst b) (snd b) v) bounds)) logvar in
  Ok (mean, logvar))).
(** [t.mean(dim=0)] of a tensor of three dimensions; emote/models/ensemble.py:124 *)
Definition member_mean (t : list matrix) : matrix :=
  let first := hd [] t in
  map (fun i => map (fun j => np_mean (map (fun m => nth j (nth i m []) 0) t)) (seq 0 (width first))) (seq 0 (List.length first)).
(** emote/models/ensemble.py:109-124 forward, of a tensor of two dimensions *)
Definition forward (en : ensemble) (x : matrix) : res (matrix * matrix) :=
  rbind (default_forward en [x]) (fun '(mean, logvar) => Ok (member_mean mean, member_mean logvar)).
(** emote/models/ensemble.py:157-178 sample; [noise] is the standard normal noise of torch.normal *)
Definition sample (en : ensemble) (noise : matrix) (model_input : matrix) : res matrix :=
  rbind (forward en model_input) (fun '(means, logvars) =>
  if en_deterministic en then Ok means
  else let variances := map (map exp) logvars in
       let stds := map (map sqrt) variances in
       Ok (zip_rows Rplus means (zip_rows Rmult stds noise))).

(** tensors of two or three dimensions; emote/models/ensemble.py:141-144 *)
Inductive tensor : Type := T2 (m : matrix) | T3 (ms : list matrix).
(** emote/models/ensemble.py:141-144: the same number of dimensions, then three *)
Definition with_members (model_in target : tensor) : res (list matrix * list matrix) :=
  match model_in, target with
  | T2 a, T2 b => Ok ([a], [b])
  | T3 a, T3 b => Ok (a, b)
  | _, _ => Err AssertionError
  end.
(** PyTorch's GaussianNLLLoss, with its eps of 1e-6, of one entry; emote/models/ensemble.py:70, 149 *)
Definition gaussian_nll (mean target var : R) : R :=
  let var := Rmax var (1 / 1000000) in (ln var + (mean - target) ^ 2 / var) / 2.
(** the loss of one member, averaged over batch and target dimension; emote/models/ensemble.py:149-150 *)
Definition member_nll (mean_logvar : matrix * matrix) (target : matrix) : R :=
  np_mean (concat (zipw (zipw (fun ml t => gaussian_nll (fst ml) t (exp (snd ml))))
                        (zipw (@combine R R) (fst mean_logvar) (snd mean_logvar)) target)).
(** [target.repeat(n, 1, 1)]; emote/models/ensemble.py:146-147 *)
Definition repeat_members (n : nat) (t : list matrix) : list matrix := concat (repeat t n).
(** emote/models/ensemble.py:126-155 loss.  Simplification: a target of another shape than the
    predictions, which PyTorch may broadcast, is refused. *)
Definition loss (en : ensemble) (model_in target : tensor) : res R :=
  rbind (with_members model_in target) (fun '(model_in, target) =>
  rbind (default_forward en model_in) (fun '(pred_mean, pred_logvar) =>
  let target := if Nat.eqb (List.length target) (en_members en) then target else repeat_members (en_members en) target in
  if Nat.eqb (List.length pred_mean) (List.length target) && forallb (fun pt => same_shape (fst pt) (snd pt)) (combine pred_mean target)
  then
    let nll := rsum (zipw member_nll (combine pred_mean pred_logvar) target) in
    Ok (nll + 1 / 100 * (rsum (en_max en) - rsum (en_min en)))
  else Err RuntimeError)).

(** emote/models/model.py:225-238 DeterministicModel.forward and loss; the network is an
    arbitrary function *)
Definition det_loss (network : matrix -> res matrix) (model_in target : matrix) : res R :=
  rbind (network model_in) (fun prediction => mse prediction target).
