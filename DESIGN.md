# Formal model of EmbarkStudios/emote in Rocq (Coq 8.16.1)

Sections 2, 4, 5 and 6 are generated by `tools/design.py` from the sources, the
properties and the compiler's output; the rest is `tools/design_text.md`.

## 1. Method

The Python sources under `/repo/emote` are read as text and transcribed, function
by function, into total computable Gallina functions. Nothing is executed. Every
definition cites the file and lines it models and names its simplifications.

* Python exceptions are values (`res A := Ok a | Err exn`). Operations that can
  raise half-way have type `S -> S * res A`, so that what has already been
  mutated when the exception escapes is visible to the theorems.
* `dict` is an insertion-ordered association list (`Py.v`) with Python's
  semantics: assignment to an existing key keeps its position, deletion of a
  missing key is `KeyError`.
* Randomness, clocks, user callbacks, neural networks, optimizers, file systems and
  thread schedules are universally quantified inputs (functions, oracles, step lists).
* Threads: a program is a list of atomic steps; theorems quantify over every
  interleaving. What is one step is said where it is defined.
* Real-valued code (schedules, losses, discounting, statistics) is modelled over the
  standard library's reals `R`; float rounding is not modelled there. The one
  place where rounding decides safety (`int(random() * n)` in the samplers) is
  modelled with exact IEEE double rounding over `Z`.
* PyTorch, numpy, gym(nasium), onnx and tensorboard are not modelled as such; the
  operations that the code uses are, with the shapes and errors the code relies on
  (broadcasting, `cat`, `reshape`, `zero_grad`, `clip_grad_norm_`, ...).

File layout (`rocq/theories`), per area:

* `<Area>Model.v`  - the model, no proofs;
* `<Area>Spec.v`   - the small independent specification (when one is needed);
* `<Area>Proofs.v` and further files - lemmas;
* `<Area>Props.v`  - only the property theorems, each closed by `exact` (or by a
  computation, for a witness), with `Print Assumptions` beneath it, and `Example`s
  showing that concrete, non-trivial cases meet the hypotheses.

A property that is false of the code as written keeps the statement a user would
expect. It gets a theorem with suffix `_refuted` giving a witness or the exact wrong
behaviour, and a theorem with suffix `_partial` (or without suffix, for a whole clause
of the statement) proving what does hold; its status is "partial". Suffix `_finding`
marks a fact about the code worth knowing which does not contradict the statement.

Theorems are tested against wrong programs: `seeded/LOG.jsonl` holds one line per
edit of a model definition, with the theorems that failed on it.

## 2. Plan per property

"Modelled" names the Rocq files (without `.v`) that hold the model the theorems of the
property speak about; the theorems are in the Props file.

| Id | Property | Modelled in | Theorems in | How proved | Status |
|---|---|---|---|---|---|
| C01 | size() is exact and never exceeds maxlen | MemModel | MemProps1 | invariant over operation lists, all ejectors, all draws | proved |
| C02 | FIFO ejection keeps exactly the longest recent suffix that fits | MemModel | MemProps1 | refinement to the longest fitting suffix of the history | proved |
| C03 | Ejection removes whole sequences, never the newest, and never alters the others | MemModel | MemProps1 | step theorem, then induction over histories | proved |
| C04 | full() is true exactly when an addition has overflowed the table | MemModel | MemProps1 | history invariant: full iff the total ever added exceeded maxlen | proved |
| C05 | resize only grows and never touches contents | MemModel | MemProps1 | case analysis with a frame statement | proved |
| C06 | An addition that raises leaves the table as it was | MemModel | MemProps1 | case analysis of every failing addition; witnesses for the rest | partial |
| C07 | Identities never collide after the unsigned extension | MemModel | MemProps1 | arithmetic modulo 2^64; the int64 array of the uniform sampler refutes the rest | partial |
| C08 | A sampled batch has the promised shape and is aligned across columns | MemModel | MemProps2 | induction over columns and sample points | proved |
| C09 | Sample windows are always inside the episode, including floating-point rounding | MemModel | MemProps2 | integer arithmetic on round-to-nearest-even | proved |
| C10 | Sampling a too short episode never fabricates data | MemModel | MemProps2 | case analysis of window and episode lengths; broadcasting refutes the rest | partial |
| C11 | next-observation rows are the successors of observation rows | MemModel | MemProps2 | index lemma on slices | proved |
| C12 | Synthetic dones and masks mark exactly the last transition | MemModel | MemProps2 | index lemma on slices | proved |
| C13 | N-step tables return the observation right after each window | MemModel | MemProps2 | index lemma on slices | proved |
| C14 | NextNElementWrapper is exact or raises | MemModel | MemProps2 | index lemma on slices; case analysis of the offsets | proved |
| C15 | Interrupted episodes are not treated as terminal | MemModel, AdaptorModel | MemProps3 | theorem about the adaptor's output; witness for masks | partial |
| C16 | Uniform sampling is uniform over the experience | MemModel, StratModel | MemProps4 | counting over rationals; witness for window uniformity | proved |
| C17 | Coverage sampling favours less-visited sequences | MemModel, StratModel | MemProps4 | real algebra on the weights; witness between rebalances | partial |
| C18 | FIFO sampling visits episodes in insertion order | MemModel | MemProps2 | closed form of the list of sample points | proved |
| C19 | store/restore (V1) round-trips the table | MemModel, ConcModel | MemProps5 | round trip by induction over the stored sequences | proved |
| C20 | Every reachable table can be exported and imported | MemModel, ConcModel | MemProps5 | exact characterisation of exportable tables; witnesses | partial |
| C21 | Restoring into a smaller table keeps the most recent sequences | MemModel, ConcModel | MemProps5 | induction over the restored sequences | proved |
| C22 | clear() and restore() forget everything that was stored before | MemModel, ConcModel | MemProps5 | history independence; witness of identities that stay behind | partial |
| C23 | A crash while storing never damages the existing export | MemModel, ConcModel | MemProps5 | every prefix of the write trace (temporary file, rename) | proved |
| C24 | A failed restore leaves the table usable | MemModel, ConcModel | MemProps5 | every failure point; witness of the import flag | partial |
| C25 | Legacy restore renames consistently | MemModel, ConcModel | MemProps5 | map over all places that hold identities; witness for the coverage strategy | partial |
| C26 | Table operations are linearizable | MemModel, ConcModel | MemProps5, ShareProps | simulation: any schedule equals the order of lock acquisition | proved |
| C27 | Episodes of concurrently running agents never mix | MemModel, ProxyModel | EndsProps, ProxyProps | projection lemma over interleavings of agents | proved |
| C28 | Completed episodes have aligned columns | MemModel, ProxyModel | ProxyProps | invariant over events | proved |
| C29 | Every stored transition really happened | MemModel, ProxyModel | ProxyProps | induction over events, composed with the table's reads | proved |
| C30 | Short and unknown episodes are dropped, everything else is stored | MemModel, ProxyModel | ProxyProps | induction over events; exact acceptance condition | proved |
| C31 | An error for one agent does not lose other agents' episodes | MemModel, ProxyModel | ProxyProps | frame lemma; witness | partial |
| C32 | Only RUNNING after INITIAL: rewards stay aligned | MemModel, ProxyModel | ProxyProps | invariant over events; witness | partial |
| C33 | Inference and episode counters are exact | MemModel, ProxyModel, LoaderModel | LoaderProps | induction over call lists | partial |
| C34 | Memory exports are rate limited | MemModel, ProxyModel, LoaderModel | LoaderProps | induction over call lists, closed form of the exporting calls | proved |
| C35 | A ready loader yields full batches | MemModel, ProxyModel, LoaderModel | LoaderProps | invariant over interleaved table operations | proved |
| C36 | Joint loaders keep groups apart and add sizes up | MemModel, ProxyModel, LoaderModel | LoaderProps | association-list algebra | proved |
| C37 | Loaders keep yielding | MemModel, ProxyModel, LoaderModel | LoaderProps | iterator state machine; witness | partial |
| C38 | Warm-up ends exactly when the loaders are ready or a shutdown is requested | MemModel, ProxyModel, LoaderModel | LoaderProps | induction over the readiness history | proved |
| C39 | SegmentTree behaves like an array | SegModel | SegProps | tree representation invariant for every height | proved |
| C40 | SegmentTree.reduce equals the fold of the requested range | SegModel | SegProps | induction over heights for any associative operation | proved |
| C41 | find_prefixsum_idx inverts the cumulative distribution | SegModel | SegProps | induction over heights; prefix sums | proved |
| C42 | Out-of-range assignment is rejected | SegModel | SegProps | case analysis of indices; witness | partial |
| C43 | Callbacks run in order and phases are properly nested | MemModel, ProxyModel, LoaderModel, TrainModel, AgentModel, GymModel, LiveModel | LiveProps, TrainProps | arbitrary callbacks as functions, trace theorem by induction over batches | proved |
| C44 | Cycles fire exactly every `cycle` steps | TrainModel | TrainProps | arithmetic of the cycle counter along the trace | proved |
| C45 | BackPropStepsTerminator stops after exactly the requested number of steps | MemModel, ProxyModel, LoaderModel, TrainModel, AgentModel, GymModel, LiveModel | LiveProps, TrainProps | induction over batches | proved |
| C46 | end_training is called exactly once per callback on every exit of the training loop | TrainModel | TrainProps | case analysis of all exits of the loop; witnesses | partial |
| C47 | State updates are merged and visible downstream | TrainModel | TrainProps | state as a fold over the trace | proved |
| C48 | bp_step and bp_samples count steps and samples | TrainModel | TrainProps | induction over batches | proved |
| C49 | Resuming from a checkpoint continues the step count | TrainModel, CkptModel | CkptProps | composition of two runs; witness of the repeated step | partial |
| C50 | Callbacks receive exactly the arguments they ask for | CallbackModel | CallbackProps | association-list algebra over all signatures; witnesses | partial |
| C51 | Data-group results are written to the group | CallbackModel | CallbackProps | association-list algebra; witness | partial |
| C52 | keys_from_member selects the group's value | CallbackModel | CallbackProps | association-list algebra; witness | partial |
| C53 | Checkpoints are numbered consecutively and restorees must be uniquely named | TrainModel, CkptModel | CkptProps | induction over cycles; name uniqueness | proved |
| C54 | Resumed training does not overwrite earlier checkpoints | TrainModel, CkptModel | CkptProps | composition of two runs over a folder; witness | partial |
| C55 | Windowed metrics report the last N values | CkptModel, LogModel | LogProps | window and cumulative values as functions of the history | partial |
| C56 | Logged metrics survive a checkpoint | CkptModel, LogModel | LogProps | round trip; witness for windows | partial |
| C57 | AtomicInt and LockedResource updates are never lost | LockModel | LockProps | invariant over all schedules of threads | proved |
| C58 | TracedLock's accumulated times are the sums of the measured sections | LockModel | LockProps | invariant over all schedules; witness of the race | partial |
| C59 | WelfordAccumulator computes mean and variance | MemModel, NumModel | NumProps | induction over samples | proved |
| C60 | deprecated() limits its warnings | MemModel, NumModel | NumProps | induction over calls; witness | partial |
| C61 | truncated_linear is a clamped ramp | MemModel, NumModel | NumProps | case analysis | proved |
| C62 | Gamma-matrix discounting is the n-step return | MemModel, NumModel | NumProps | sums over matrix products | proved |
| C63 | Q-targets never leak across episodes | MemModel, NumModel | NumProps | composition of sampling and discounting | proved |
| C64 | CRUDStorage refines a map of live handles | LockModel, CrudModel | CrudProps | refinement to a map of live items | proved |
| C65 | Files of one CRUDStorage never overwrite each other | LockModel, CrudModel | CrudProps | injectivity of file names; invariant over all schedules | proved |
| C66 | LinearSchedule interpolates between its end points | NumModel, SchedModel | SchedProps | induction over steps; witness of the late step | partial |
| C67 | CyclicSchedule oscillates between its bounds | NumModel, SchedModel | SchedProps | induction over steps, arithmetic of cycles | proved |
| C68 | CosineAnnealing equals its closed form | NumModel, SchedModel | SchedProps | induction over steps with trigonometric identities; witness | partial |
| C69 | ONNX export requests are served exactly once, in order, with their own metadata | LockModel, CrudModel, OnnxModel | OnnxProps | invariant over all schedules; witness of the lost request | partial |
| C70 | ModelEnv produces well-formed episodes | ProxyModel, EnvModel | EnvProps | invariant over histories of resets and steps | proved |
| C71 | Simulated transitions follow the model | ProxyModel, EnvModel | EnvProps | refinement to the model's transitions; witness | partial |
| C72 | Normalizer inverts itself and never divides by zero | NumModel, AlgoModel | AlgoProps | invariant over updates; witness for one row | partial |
| C73 | Soft target updates are convex combinations | NumModel, AlgoModel | AlgoProps | induction; limits | proved |
| C74 | AgentProxy answers exactly the agents that need an answer, each with its own action | MemModel, ProxyModel, AgentModel | AgentProps | list lemmas on rows | proved |
| C75 | Weight-decay groups partition the parameters | MemModel, ProxyModel, AgentModel | AgentProps | induction over module trees and set orders; witnesses | partial |
| C76 | HL-Gauss targets are probability distributions and estimates stay in range | NumModel, AlgoModel | AlgoProps | telescoping sums, convexity | proved |
| C77 | TensorboardLogger writes every metric once, under its own tag | CkptModel, LogModel | CaseProps, LogProps | tags as a function of the logged names | proved |
| C78 | BlockTimers reports the statistics of the blocks run under each name | MemModel, NumModel | NumProps | induction over block events; witness for nesting | partial |
| C79 | The model-based collector writes well-formed episodes | MemModel, ProxyModel, EnvModel, CollModel | CollProps | invariant over batches of rollouts; witness of left-over episodes | partial |
| C80 | DynamicModel.sample inverts process_batch | NumModel, AlgoModel | AlgoProps | algebra of normalisation after any history | proved |
| C81 | A loaded dynamics model predicts what the saved one predicted | NumModel, AlgoModel | AlgoProps | witness | partial |
| C82 | The ensemble's log variance stays within its bounds | NumModel, AlgoModel, LossModel, AgentModel | AlgoProps, CaseRealProps | monotonicity and bounds of softplus; witness for every choice of bounds | partial |
| C83 | Restoring ModifiedAdamW gives every parameter its own moments | MemModel, ProxyModel, AgentModel, NumModel, AlgoModel, LossModel | AgentProps, CaseRealProps | permutation argument; witness | partial |
| C84 | A convolutional encoder returns what its reported output size says | VisModel | VisProps | induction over layers; witness | partial |
| C85 | FrameStack shows the last n frames of the current episode | VisModel | VisProps | induction over steps of any environment | proved |
| C86 | ScaledFloatFrame stays in its declared observation space | VisModel | VisProps | interval arithmetic; witness | partial |
| C87 | Image augmentation blanks one rectangle per image and nothing else | VisModel | VisProps | index lemma on cut rectangles; witness | partial |
| C88 | AMP rewards pair each step with the observation that follows it | NumModel, AmpModel | AmpProps | index lemma on rollouts | proved |
| C89 | The discriminator's loss is zero exactly for a perfect discriminator | NumModel, AmpModel | AmpProps | sums of squares; derivatives | proved |
| C90 | The action symmetry reward is bounded and rewards confusion | NumModel, AmpModel | AmpProps | interval arithmetic on clamped scores | proved |
| C91 | Every loss trains with its own batch's gradient only, clipped | NumModel, SchedModel, LossModel | LossProps | simulation by a run without stored gradients; norm algebra | proved |
| C92 | Training resumed from a checkpoint goes on as if it had never stopped | NumModel, SchedModel, LossModel | LossProps | bisimulation of resumed and uninterrupted runs; closed forms of the errors | partial |
| C93 | The entropy weight is shared, capped and driven towards the target entropy | NumModel, AlgoModel, LossModel, AgentModel, SchedModel | CaseRealProps, LossProps | invariant over histories; derivative of the loss | partial |
| C94 | Policy actions are bounded and their log-probabilities exact | NumModel, AmpModel, PolModel | PolProps | induction over layers; closed form of the sampled rows; derivative of the squashed distribution function | proved |
| C95 | A value network scores each observation with its own action | NumModel, AmpModel, PolModel | PolProps | induction over layers and rows | proved |
| C96 | Critic and policy losses measure what they claim | NumModel, AmpModel, PolModel | PolProps | induction over rows; positivity of squares | proved |
| C97 | The autoencoder loss is reconstruction error plus divergence | NumModel, AmpModel, MemModel, ProxyModel, PolModel, GenModel | GenProps | sums over batches, 1 + s <= exp s, closed form of the error | partial |
| C98 | A memory with an encoder holds the responses with latent actions | NumModel, AmpModel, MemModel, ProxyModel, PolModel, GenModel | GenProps | induction over the responses, refinement of the plain proxy | partial |
| C99 | Latent actions mean the same when acting and when learning | NumModel, AmpModel, MemModel, ProxyModel, PolModel, GenModel | GenProps | composition of policy, decoder and encoder; dictionary lemmas | partial |
| C100 | The contrastive loss is the cross entropy of picking the own augmentation | NumModel, CurlModel | CurlProps | matrix algebra, log-sum-exp; witness; size argument | partial |
| C101 | The target projection follows the encoder's | NumModel, CurlModel | CurlProps | induction over the generators and over batches; witness for every tau | partial |
| C102 | An ensemble predicts the average of its members | NumModel, EnsModel | EnsProps | induction over the layers of all members at once; convexity of exp | proved |
| C103 | Every member is trained on the likelihood of the targets | NumModel, EnsModel | EnsProps | sums over members, rows and entries; ln x <= x - 1 | proved |
| C104 | Final checks fail every run that missed its target | NumModel, SchedModel, LogModel, ChkModel | ChkProps | induction over the zipped lists; floats as reals or NaN; refutations with NaN and too few cutoffs | partial |
| C105 | The progress check compares windows of the whole run | NumModel, SchedModel, LogModel, ChkModel | ChkProps | invariant over the batches (quotient and remainder by the window); induction over the averages | partial |
| C106 | The batch sampler mixes model data in with the scheduled probability | NumModel, SchedModel, LogModel, ChkModel | ChkProps | refuted by computation; otherwise induction over the steps with the iterator as invariant; quotient for the order | partial |
| C107 | Everything logged is sent to Weights and Biases | NumModel, SchedModel, LogModel, ChkModel | ChkProps | the dictionary as the last value of a list of entries; first segments of tags | partial |
| C108 | The memory growth that is logged adds up | NumModel, SchedModel, LogModel, ChkModel | ChkProps | telescoping sum over the history | proved |
| C109 | Builder tables deliver the observations of the space | MemModel, AdaptorModel, BldModel | BldProps | the builder's columns are a valid table configuration, so the whole-batch theorem of the table applies; the adaptor's loop by induction over the keys; name clashes by induction over the keys | partial |
| C110 | Legacy dumps are loaded episode by episode | MemModel, AdaptorModel, BldModel | BldProps | induction over the done flags with the episode start as invariant | partial |
| C111 | A memory is imported from the file that was checked | MemModel, AdaptorModel, BldModel | BldProps | case analysis over the override and the existence of the file | proved |
| C112 | Adaptors change the columns they name and nothing else | MemModel, AdaptorModel, BldModel | BldProps | induction over the key pairs; case analysis for scale and cast | partial |
| C113 | A collector records exactly the episodes its environments play | MemModel, ProxyModel, AgentModel, NumModel, GymModel | GymProps | GymModel models DictGymWrapper, the vector environment's autoreset and GymCollector; GymSpec defines the plays of an environment inductively; an invariant over collection steps (GymMore) relates agents, environment states and the add calls; with C29 every sampled row is a step of an environment (GymE2E). Truncated episodes are refuted. | partial |
| C114 | The logged episode reward is the mean total reward of the episodes that ended | MemModel, ProxyModel, AgentModel, NumModel, GymModel | GymProps | The invariant of C113 carries the reward sums; the log equals the mean of the totals plus what the trial step of begin_training left behind (refuted for the first episode). | partial |
| C115 | inf_step counts the environment steps that were collected | MemModel, ProxyModel, AgentModel, NumModel, GymModel | GymProps | Induction over the batches; two refutations with concrete counters. | partial |
| C116 | A ThreadedGymCollector stops cleanly | MemModel, ProxyModel, AgentModel, NumModel, GymModel | GymProps | Two threads as a transition system; invariant over all schedules, and a bound after the flag is set. | proved |
| C117 | HitTheMiddle behaves as documented by its spaces | MemModel, ProxyModel, AgentModel, NumModel, GymModel | GymProps | Induction over the actions, over the reals. | proved |
| C118 | Histograms, images and videos show what was logged last | CkptModel, LogModel, ProxyModel, LoaderModel, RepModel | RepProps | LoggingMixin with its three kinds of histogram (deque, list, array) and a value of each kind; induction over the calls. | partial |
| C119 | get_report answers with window mean, window and total | CkptModel, LogModel, ProxyModel, LoaderModel, RepModel | RepProps | report and get_report as functions of the logging state, with the order of the set of keys as a parameter; induction over reports and over the keys. | partial |
| C120 | Logging metadata does not interfere with storing | CkptModel, LogModel, ProxyModel, LoaderModel, RepModel | RepProps | LoggingProxyWrapper.add with the wrapped proxy as an arbitrary function and the clocks as arbitrary readings; induction over the calls, simulation between wrapped and unwrapped proxy. | partial |
| C121 | Every cycle writes every metric under its own tag | CkptModel, LogModel, ProxyModel, LoaderModel, RepModel | RepProps | The events given to the SummaryWriter are a list in the state; invariants over the calls, using C119's. | partial |
| C122 | Per-parameter logs: every optimized parameter under its own key | CkptModel, LogModel, ProxyModel, LoaderModel, RepModel | RepProps | Parameters are name, identity, shape, values and gradient; the key is the string the code builds. Injectivity of the key on tidy names, by splitting it again. | partial |
| C123 | The HL-Gauss loss is minimal exactly at the target distribution | NumModel, AlgoModel, HlgModel | HlgProps | Cross entropy with softmax over lists of reals, with the error function as a parameter; Gibbs' inequality by induction over the bins, using ln x <= x - 1 with its equality case. | proved |
| C124 | A fully trained HL-Gauss Q network predicts its target | NumModel, AlgoModel, HlgModel | HlgProps | Bounds of weighted means; for the middle, a symmetry argument that reverses the sum over the bins. Refuted at the edges. | partial |
| C125 | Memory proxy wrappers forward methods and properties, and only those | WrapModel | WrapProps | Python's attribute lookup and __getattr__ over an inductive type of wrapper chains; induction over the chain. The classes of emote are given as tables of attributes. | partial |
| C126 | An agent proxy in a wrapper behaves like the agent proxy | WrapModel | WrapProps | The wrapper as a function from proxies to proxies. | partial |
| C127 | Every override of a hook or extended method gets its arguments by name and group | CallbackModel, MetaModel | MetaProps | MetaModel: a class is a tree of bases with the fields of its body; `_callbacks` is computed as the metaclass does, the loop of `__call__` looks methods up in the MRO. By induction on the tree: every entry of `_callbacks` comes from emote's Callback or from a class that marks the method, and each of these gives one; then the qualified names are compared. Proved for hooks nobody marks and for methods marked by one class with a unique name; a method marked again in the instance's own class, and any hook in a class called Callback, are shown never adapted (refuted parts). | partial |
| C128 | The minimum tree gives the minimum of a range | SegModel, OddModel | OddProps | OddModel instantiates the segment tree of SegModel with Python's min and infinity; min is associative, so the refinement theorem of C40 applies, and a fold of min is a lower bound that is attained. | proved |
| C129 | Truncated normal numbers are within two standard deviations | SegModel, OddModel | OddProps | OddModel.truncated_normal: the resampling loop with an oracle for the draws of each round and fuel; induction over the rounds. | proved |
| C130 | Initialisers reach every layer of a network and nothing else | SegModel, OddModel | OddProps | OddModel: a network is a tree of modules with the content of weight and bias; Module.apply is the fold over the tree. Induction over the tree for any initialiser, then each initialiser by cases. A linear layer without bias makes three of them fail, and the truncated one uses the outputs of a plain linear layer (refuted parts). | partial |
| C131 | Tag columns survive a legacy import | SegModel, OddModel | OddProps | OddModel: values of a TagStorage are arrays or proxies; post_import moves values through __getitem__, which wraps them. Induction over the renaming loop; storing needs the length of a value, which a proxy does not have (refuted part). | partial |
| C132 | Q-targets are made of what one agent experienced | MemModel, ProxyModel, NumModel | E2EProps | The model of the proxy, the table with its sampling strategies, the virtual columns and the target computation, composed. First every window of a batch is shown to be consecutive transitions of one agent's episode (C29_windows, from the invariants of the proxy and of the table), then the target computation is evaluated on such rows (`E2EProofs.v`). The specification `experienced_target` mentions only the agent's moments. | proved |
| C133 | Q-targets of collected data are the returns of environment episodes | MemModel, ProxyModel, AgentModel, NumModel, GymModel | GymTProps | The model of the collector and the gym wrapper (C113) composed with C132: the messages the collector hands to the proxy are shown to be whole or open episodes of the environments, and the rollouts of a batch, windows of one agent's moments by C29_windows, are therefore runs of the environment's step function (`GymTarget.v`). The specification (`GymTSpec.v`) mentions only the environment's reset and step. | proved |
| C134 | Batches drawn while collectors run are made of completed additions | MemModel, ConcModel | ShareProps | The lock-step model of threads (C26) with the table's own invariants (C05, C29): every reachable configuration is explained by a sequential order that keeps real time (`C26_real_time`); sampling in that order gives windows of sequences added earlier in it, and those additions had returned when the lock was taken (`ShareProofs.v`). The final contents follow from the FIFO refinement applied to the order. | proved |
| C135 | A dynamics model's loss is the error of its predictions | NumModel, AlgoModel, AmpModel, PolModel, EnsModel, DynModel | DynProps | `DynModel.v` adds DynamicModel.loss, ModelLoss.loss and DeterministicModel.sample to the model of the dynamics model (C80). The normalisers' statistics are shown to be numbers after any history (C72), so that input and target are real matrices; the network's output is denormalised and reconstructed row by row, and the difference to what happened is the difference of the network's output to its target times the deviation (`DynProofs.v`). The specification sums squared differences on its own (`DynSpec.v`). | proved |
| C136 | Q-targets come from moving averages of the networks | NumModel, AlgoModel, TargModel | TargProps | `TargModel.v` models modules as numbered objects, deepcopy as allocation of a new one, and a batch as reading the targets (begin_batch), an arbitrary optimizer step that touches only older modules and keeps sizes (backward), and the soft updates one after another (end_batch). By induction over the batches the targets equal the closed form of the moving average in `TargSpec.v`. | proved |
| C137 | Losses train and checkpoint exactly their own weights | NumModel, SchedModel, LossModel, CtorModel | CtorProps | CtorModel has the constructor of every loss as a function to the record of LossModel plus what its checkpoint holds; the theorems quantify over any list of library losses sharing parameters in one heap. Loading is followed write by write. CurlLoss is the counterexample. | partial |
| C138 | A critic's loss compares its values of what agents saw and did with what they then experienced | MemModel, ProxyModel, NumModel, PolModel, CriticModel, AlgoModel, HlcModel | CriticProps, HlcProps | `CriticModel` puts the two critics' target callbacks and losses behind the sampled batch as one function each. `CriticSpec` says what an agent saw and did at a moment, independently of the memory. The theorem follows C132: every row of the batch is traced to one moment of one completed episode, and the rows of predictions, actions and targets are shown to be traced to the same one. `HlcSpec` states the histogram of a return and the network's histogram bin by bin; `C138_hlgauss` joins C123's value of the loss to the same origins. | proved |
| C139 | A vision environment can be created, reset and stepped, and shows the last frames | VisModel, BoxModel | BoxProps | `BoxModel` has environments whose reset and step return Python values, so that tuples of two, four and five values are told apart; the wrappers are functions from environments to environments and the creator puts them together. OpenCV and gymnasium.ObservationWrapper are modelled by their documented contracts. Induction over the calls of reset and step; the refutations quantify over every environment. | partial |
| C140 | Imagined experience is what the dynamics model predicts | MemModel, ProxyModel, EnvModel, CollModel | ImagProps | invariant over samples, batches and runs of the collector: what the memory has of each agent, with what it was told last, is a chain of predictions; then C29 for the sampled rows; witness of a drawn transition the model never predicts | partial |
| C141 | Policies, temperatures and dynamics models are trained on what agents experienced | MemModel, ProxyModel, NumModel, LossModel, AlgoModel, AmpModel, EnsModel, DynModel, ActorModel | ActorProps | C29's windows for every row of the batch, a choice of origin for each row, and the row-by-row losses (C96, C93, C135) over them | proved |
| C142 | Adversarial imitation judges moves agents really made | MemModel, ProxyModel, NumModel, AmpModel | StyleProps | No new model: `AmpModel`'s reward and loss are run on batches of `MemModel` filled through `ProxyModel`. `StyleSpec` says what a move of an agent is. Every row is traced to a moment of a completed episode (as in C132); C88 and C89 give the arithmetic. Refuted for rollouts of two or more steps: the shapes the two callbacks need exclude each other. | partial |
| C143 | An autoencoder of actions is trained on what agents did, under what they saw | MemModel, ProxyModel, NumModel, RecModel | RecProps | `RecModel` adds the loss callback to the autoencoder of `GenModel`. `RecSpec` states reconstruction error, latent and penalty for one step. Rows are traced to moments of completed episodes as in C141; C97 gives the arithmetic of a batch. | proved |
| C144 | What a CRUDStorage lists while threads create and delete exists | LockModel, CrudModel | CrudListedProps | invariant over all schedules: handles of listed items and of calls under way are distinct; files of listed items stay | proved |
| C145 | CRUDStorage keeps its files in its folder, under documented names | CrudModel | PlaceProps | string lemmas on join and dirname; case analysis on each call of a history | partial |
| C146 | Contrastive learning compares augmentations of the images of the batch | NumModel, VisModel, CurlModel, CstepModel | CstepProps | composition of the augmentation of C87 and the loss of C100 | proved |
| C147 | Every batch of an experiment happened before, whatever the policy became meanwhile | MemModel, ProxyModel, LoaderModel, TrainModel, AgentModel, GymModel, LiveModel | LiveProps | invariant over the hooks of a run whose data loader looks at the world; C133 and C65 for the parts | proved |
| C148 | An episode that fits the memory is stored, one that does not is refused | MemModel | AccProps | invariant of the table and case analysis of the ejector; induction over the draws | partial |
| C149 | An experiment with a terminator trains for exactly the steps it was given | MemModel, ProxyModel, LoaderModel, TrainModel, AgentModel, GymModel, LiveModel | ExpProps | invariant over the hooks and batches that keeps the memory stocked and every call accepted; C148 for storing, C147 for the state, C45 for the count | proved |
| C150 | A threaded experiment trains on what happened, and ends | MemModel, ProxyModel, LoaderModel, TrainModel, AgentModel, GymModel, LiveModel, ThrModel | ThrProps | the invariants of C147 and C149 kept by every call of collect_data, so by any number of them between two things the trainer does | proved |
| C151 | train() leaves no collecting thread behind and reports what went wrong in it | MemModel, ProxyModel, LoaderModel, TrainModel, AgentModel, GymModel, LiveModel, ThrModel | ThrProps | no hook but end_training makes an end_training call, and that of the collector stops the thread; two runs as witnesses against the rest | partial |
| C152 | A training that returned has collected all it was to collect | MemModel, ProxyModel, LoaderModel, TrainModel, AgentModel, GymModel, LiveModel, ThrModel | CntProps | invariant over the hooks: additions = warmup + batches / bp_steps_per_inf; an exception of the collector is the outcome | proved |
| C153 | In an experiment, Q-targets are returns of what the agents did | MemModel, ProxyModel, NumModel, LoaderModel, TrainModel, AgentModel, GymModel, LiveModel, ThrModel | LtgProps | C147 and C150 give the rollouts and the shape of the batch; the Q-target of rows (as in C132) is then the return of these steps | proved |
| C154 | In an experiment, the critic learns from what happened | MemModel, ProxyModel, NumModel, LoaderModel, TrainModel, AgentModel, CriticModel, GymModel, LiveModel, ThrModel | CrlProps | C153's proof, with the stretches chosen for all rollouts at once, and the losses of C138 on them. | proved |
| C155 | In an experiment, the policy, its temperature and the dynamics model learn from what happened | MemModel, ProxyModel, NumModel, LoaderModel, TrainModel, AgentModel, ActorModel, GymModel, LiveModel, ThrModel | AclProps | C147 and C150 give the steps behind every rollout; the losses of C141 are averages over their rows. | proved |
| C156 | An add that others see in progress is additions of one agent at a time | MemModel, ProxyModel, AmidModel | AmidProps | Induction over the observations of the call: what the first loop collects is submitted as it would be one at a time; then the theorems about histories (C29) apply to what is found in between. | proved |
| C157 | A collecting thread collects from begin_training to end_training, always with the weights of the moment | MemModel, ProxyModel, LoaderModel, TrainModel, GymModel, LiveModel, ThrModel | TschProps | TschSpec tells what happens to the memory (additions with their weights, draws) as an inductive relation over the trainer's trace and the schedule; TschProofs shows by induction over phases and steps of ThrModel's training that every run satisfies it, and with ThrMain's invariant that no collection fails. | proved |
| C158 | A loader keeps yielding while other threads use its memory | MemModel, ProxyModel, LoaderModel, GapModel | GapProps | GapModel is the loader's generator with others' calls between its check and each batch; induction over the rounds, carrying that something is stored (ExpMem's stocked, preserved by every use but a clear) and the end-to-end theorem of C29 for the rows. | proved |
| C159 | A joint loader keeps yielding while other threads use its memories | MemModel, ProxyModel, LoaderModel, JgapModel | JgapProps | As C158, for JointMemoryLoader: other threads' uses come before every loader's turn (JgapModel). Every loader is asked through a new generator for every batch, so its size check is made again: a single-turn lemma says a turn succeeds exactly when the memory has enough (or sampling diverges), induction over the memories and over the batches. The unconditional property is refuted: an added short episode makes the memory drop a longer one and the joint loader raises. | partial |
| C160 | A memory with room for a batch and an episode never runs low | MemModel, ProxyModel, LoaderModel, JgapModel | RoomProps | An upper bound for what ejectors return (induction over the ejection loops: at most one sequence more than needed), carried through add_sequence and, with the table invariant of C01, over every sequence of calls; lifted to proxies through the calls a history makes, and to C159's joint loader, whose error case it excludes. C159's refutation has one row less capacity than this needs. | proved |
| C161 | A full memory stays nearly full | MemModel, ProxyModel, LoaderModel, JgapModel | RoomProps | The upper bound of C160 as an invariant: whenever the table has been marked as filled, its size is above capacity minus longest; failed additions included. | proved |
| C162 | A joint loader whose loaders share one memory serves each from what is there at its turn | MemModel, ProxyModel, LoaderModel, JgapModel, SjntModel | SjntProps | The model of C159 with one proxy handed from loader to loader (SjntModel). C159's lemma about one turn is applied with the memory as each loader sees it after everything done so far; induction over the loaders and over the batches. A corollary with C160's condition on the capacity excludes the stop. | proved |
| C163 | A memory keeps a sequence until newer ones need its room | MemModel | RetProps | For FIFO ejection from C02's description of the contents: the longest fitting suffix of a buffer keeps every suffix that fits, by induction over the later calls. Refuted for random ejection by a draw that ejects the newest sequence while an older one stays. | partial |

## 3. Trusted base

* Coq 8.16.1's kernel. No axiom is declared, no kernel check is switched off, there
  are no `Admitted`, functors, module types, section-less variables or plugins.
* Axioms of the standard library: section 5 gives, for every theorem, the output of
  `Print Assumptions`. Three axioms of the reals occur:
  `ClassicalDedekindReals.sig_forall_dec`, `ClassicalDedekindReals.sig_not_dec` and
  `FunctionalExtensionality.functional_extensionality_dep`, and in theorems about
  derivatives, limits or trigonometry also `Classical_Prop.classic`. All other theorems
  are "Closed under the global context".
* Loading the standard library's files also loads declarations that no theorem uses
  (`coqchk` lists them): the module-sealed constants of `Coq.ssr.ssrunder`
  (`Under_rel.*`) and of `Coq.Reals.Rdefinitions` (`RbaseSymbolsImpl.*`, `RinvImpl.*`),
  which are defined inside the library behind module types.
* The reading of the Python code (model definitions cite lines) and of the
  library behaviour it relies on (Python dict/list/slice semantics, numpy and PyTorch
  shapes and broadcasting, zip/npy and torch.save round trips, atomic rename, locks).

## 4. What is modelled and what is not

A function counts as modelled if a definition of a model cites lines of its body. Logging,
type annotations, docstrings and abstract methods are left out throughout; other omissions
inside a modelled function are named in the comment of the definition that models it.

| File of /repo | Modelled | Not modelled |
|---|---|---|
| emote/callback.py (CallbackModel, CkptModel, LiveModel, MetaModel, TrainModel) | `_get_complex`, `_make_proxy`, `_make_no_group`, `_make_group_unpack`, `_wrap_callback_function`, `CallbackMeta.__init__`, `CallbackMeta.__call__`, `CallbackMeta.extend`, `CallbackMeta.keys_from_member`, `Callback.__init__`, `Callback.state_dict` | `BatchCallback.__init__`: metadata for the metaclass; a superclass call |
| emote/optimizers.py (AgentModel) | `separate_modules_for_weight_decay`, `ModifiedAdamW.__init__` | - |
| emote/proxies.py (AgentModel) | `GenericAgentProxy.__init__`, `GenericAgentProxy.__call__` | `GenericAgentProxy.input_names`, `GenericAgentProxy.output_names`, `GenericAgentProxy.policy` |
| emote/trainer.py (LiveModel, LossModel, Py, TargModel, ThrModel, TrainModel) | `Trainer.__init__`, `Trainer.train`, `Trainer._restore_state`, `Trainer._begin_training`, `Trainer._begin_cycle`, `Trainer._begin_batch`, `Trainer._backward`, `Trainer._end_batch`, `Trainer._end_cycle`, `Trainer._end_training` | `StateDict.get_handle` |
| emote/algorithms/action_symmetry.py (AmpModel, CtorModel) | `_get_action_mapping_fn`, `ActionSymmetryDiscriminatorLoss.__init__`, `ActionSymmetryDiscriminatorLoss.loss`, `ActionSymmetryAMPReward.begin_batch` | `ActionSymmetryAMPReward.__init__` |
| emote/algorithms/amp.py (AmpModel, CtorModel) | `gradient_loss_function`, `DiscriminatorLoss.__init__`, `DiscriminatorLoss.loss`, `AMPReward.begin_batch` | `AMPReward.__init__` |
| emote/algorithms/dqn.py (CriticModel, CtorModel, NumModel, PolModel, TargModel) | `QTarget.__init__`, `QTarget.begin_batch`, `QTarget.end_batch`, `QLoss.__init__`, `QLoss.loss` | - |
| emote/algorithms/hlgauss.py (AlgoModel, CtorModel, HlcModel, HlgModel) | `QNet.__init__`, `QNet.forward`, `QNet.q_from_logit`, `HLGaussLoss.__init__`, `HLGaussLoss.forward`, `HLGaussLoss.transform_to_probs`, `QLoss.__init__`, `QLoss.loss` | `LogitNet.__init__` |
| emote/algorithms/sac.py (ActorModel, AgentModel, AlgoModel, CriticModel, CtorModel, HlcModel, LossModel, NumModel, PolModel, TargModel, WrapModel) | `soft_update_from_to`, `QLoss.__init__`, `QLoss.loss`, `QTarget.__init__`, `QTarget.begin_batch`, `QTarget.end_batch`, `PolicyLoss.__init__`, `PolicyLoss.loss`, `AlphaLoss.__init__`, `AlphaLoss.loss`, `AlphaLoss.end_batch`, `AlphaLoss.state_dict`, `AlphaLoss.load_state_dict`, `AgentProxyWrapper.__init__`, `AgentProxyWrapper.__call__`, `AgentProxyWrapper.input_names`, `AgentProxyWrapper.output_names`, `AgentProxyWrapper.policy`, `FeatureAgentProxy.__init__`, `MultiKeyAgentProxy.__init__` | `VisionAgentProxy.__init__` |
| emote/algorithms/genrl/proxies.py (GenModel) | `MemoryProxyWithEncoder.add` | `MemoryProxyWithEncoder.__init__` |
| emote/algorithms/genrl/vae.py (CtorModel, GenModel, RecModel) | `VariationalAutoencoder.forward`, `VariationalAutoencoder.loss`, `VAELoss.__init__`, `VAELoss.loss` | `VariationalAutoencoder.__init__` |
| emote/algorithms/genrl/wrappers.py (GenModel) | `DecoderWrapper.forward`, `DecoderWrapper.load_state_dict`, `EncoderWrapper.forward`, `EncoderWrapper.load_state_dict`, `PolicyWrapper.forward` | `DecoderWrapper.__init__`, `EncoderWrapper.__init__`, `PolicyWrapper.__init__` |
| emote/callbacks/checkpointing.py (CkptModel, CtorModel, LossModel) | `Checkpointer.__init__`, `Checkpointer.begin_training`, `Checkpointer.end_cycle`, `CheckpointLoader.__init__`, `CheckpointLoader.restore_state` | - |
| emote/callbacks/generic.py (TrainModel) | `BackPropStepsTerminator.__init__`, `BackPropStepsTerminator.end_cycle` | - |
| emote/callbacks/logging.py (ChkModel, LogModel) | `TensorboardLogger.end_cycle`, `TerminalLogger.log_scalars`, `TerminalLogger.end_cycle` | `TensorboardLogger.__init__`, `TensorboardLogger.begin_training`, `TerminalLogger.__init__` |
| emote/callbacks/loss.py (AgentModel, CtorModel, LossModel, RepModel) | `_friendly_size_str`, `LossCallback.__init__`, `LossCallback.backward`, `LossCallback.log_per_param_weights_and_grads`, `LossCallback.state_dict`, `LossCallback.load_state_dict` | - |
| emote/callbacks/testing.py (ChkModel) | `FinalLossTestCheck.end_cycle`, `FinalRewardTestCheck.end_cycle` | `FinalLossTestCheck.__init__`, `FinalRewardTestCheck.__init__` |
| emote/callbacks/wb_logger.py (ChkModel) | `WBLogger.end_cycle` | `WBLogger.__init__`, `WBLogger.begin_training`, `WBLogger.end_training` |
| emote/env/wrappers.py (BoxModel, VisModel) | `WarpFrame.__init__`, `WarpFrame.observation`, `FrameStack.__init__`, `FrameStack.reset`, `FrameStack.step`, `FrameStack._get_ob`, `ScaledFloatFrame.__init__`, `ScaledFloatFrame.observation`, `LazyFrames.__init__`, `LazyFrames._force`, `LazyFrames.__array__`, `LazyFrames.__len__`, `LazyFrames.__getitem__` | - |
| emote/env/box2d/__init__.py (BoxModel) | `make_vision_box2d_env` | - |
| emote/extra/crud_storage.py (CrudModel) | `StorageItemHandle.from_string`, `StorageItemHandle.__str__`, `CRUDStorage.__init__`, `CRUDStorage.create_with_data`, `CRUDStorage.create_from_filepath`, `CRUDStorage.create_with_saver`, `CRUDStorage.update`, `CRUDStorage.items`, `CRUDStorage.delete`, `CRUDStorage.get`, `CRUDStorage.latest` | - |
| emote/extra/onnx_exporter.py (OnnxModel) | `QueuedExport.__init__`, `QueuedExport.process`, `QueuedExport.block_until_complete`, `_save_protobuf`, `OnnxExporter.__init__`, `OnnxExporter.add_metadata`, `OnnxExporter.end_batch`, `OnnxExporter.end_cycle`, `OnnxExporter.process_pending_exports`, `OnnxExporter._trace`, `OnnxExporter._export_onnx`, `OnnxExporter._export`, `OnnxExporter.export_threadsafe`, `OnnxExporter.export`, `OnnxExporter.delete`, `OnnxExporter.get`, `OnnxExporter.items`, `OnnxExporter.latest` | `_get_version`: reads the version from git |
| emote/extra/schedules.py (LossModel, SchedModel) | `BPStepScheduler.evaluate_at`, `Schedule.__init__`, `Schedule.value`, `ConstantSchedule.__init__`, `LinearSchedule.step`, `CyclicSchedule.__init__`, `CyclicSchedule._triangular_scale_fn`, `CyclicSchedule._triangular2_scale_fn`, `CyclicSchedule.step`, `CosineAnnealing.step`, `CosineAnnealingWarmRestarts.step` | `LinearSchedule.__init__`, `CosineAnnealing.__init__`, `CosineAnnealingWarmRestarts.__init__` |
| emote/extra/system_logger.py (ChkModel) | `SystemLogger.__init__`, `SystemLogger.end_cycle` | - |
| emote/memory/adaptors.py (AdaptorModel, BldModel) | `DictObsAdaptor.__init__`, `DictObsAdaptor.__call__`, `KeyScaleAdaptor.__call__`, `KeyCastAdaptor.__call__`, `TerminalAdaptor.__call__` | `KeyScaleAdaptor.__init__`, `KeyCastAdaptor.__init__`, `TerminalAdaptor.__init__` |
| emote/memory/builder.py (AdaptorModel, BldModel) | `DictMemoryTable.__init__`, `DictObsMemoryTable.__init__`, `DictObsNStepMemoryTable.__init__` | - |
| emote/memory/callbacks.py (BldModel) | `MemoryImporterCallback.restore_state` | `MemoryImporterCallback.__init__` |
| emote/memory/column.py (MemModel) | `Column.state`, `Column.load_state`, `VirtualColumn.state`, `VirtualColumn.load_state` | - |
| emote/memory/coverage_based_strategy.py (MemModel, StratModel) | `CoverageBasedStrategy.__init__`, `CoverageBasedStrategy.track`, `CoverageBasedStrategy.forget`, `CoverageBasedStrategy._rebalance`, `CoverageBasedSampleStrategy.__init__`, `CoverageBasedSampleStrategy.sample`, `CoverageBasedEjectionStrategy.sample` | - |
| emote/memory/fifo_strategy.py (LiveModel, MemModel) | `FifoStrategyBase.__init__`, `FifoStrategyBase.track`, `FifoStrategyBase.forget`, `FifoStrategyBase.post_import`, `FifoStrategyBase.state`, `FifoStrategyBase.load_state`, `FifoSampleStrategy.__init__`, `FifoSampleStrategy.sample`, `FifoEjectionStrategy.sample` | - |
| emote/memory/loading.py (BldModel) | `fill_table_from_legacy_file` | - |
| emote/memory/memory.py (AmidModel, CollModel, GapModel, GymModel, JgapModel, LiveModel, LoaderModel, ProxyModel, Py, RepModel, SjntModel, ThrModel, WrapModel) | `Episode.append`, `Episode.complete`, `Episode.from_initial`, `MemoryTableProxy.__init__`, `MemoryTableProxy.name`, `MemoryTableProxy.size`, `MemoryTableProxy.resize`, `MemoryTableProxy.store`, `MemoryTableProxy.is_initial`, `MemoryTableProxy.add`, `MemoryTableProxy.timers`, `MemoryProxyWrapper.__init__`, `MemoryProxyWrapper._lookup_class_attr`, `MemoryProxyWrapper.__getattr__`, `MemoryProxyWrapper.state_dict`, `MemoryTableProxyWrapper.__init__`, `MemoryTableProxyWrapper.store`, `LoggingProxyWrapper.__init__`, `LoggingProxyWrapper.state_dict`, `LoggingProxyWrapper.load_state_dict`, `LoggingProxyWrapper.add`, `LoggingProxyWrapper.report`, `LoggingProxyWrapper.get_report`, `LoggingProxyWrapper._end_cycle`, `MemoryExporterProxyWrapper.__init__`, `MemoryExporterProxyWrapper.add`, `MemoryLoader.__init__`, `MemoryLoader.is_ready`, `MemoryLoader.__iter__`, `JointMemoryLoader.__init__`, `JointMemoryLoader.is_ready`, `JointMemoryLoader.__iter__`, `JointMemoryLoaderWithDataGroup.__init__`, `JointMemoryLoaderWithDataGroup.__iter__`, `MemoryWarmup.__init__`, `MemoryWarmup.begin_training` | - |
| emote/memory/segment_tree.py (OddModel, Py, SegModel) | `SegmentTree.__init__`, `SegmentTree._reduce_helper`, `SegmentTree.reduce`, `SegmentTree.__setitem__`, `SegmentTree.__getitem__`, `SumSegmentTree.__init__`, `SumSegmentTree.sum`, `SumSegmentTree.find_prefixsum_idx`, `MinSegmentTree.__init__`, `MinSegmentTree.min` | - |
| emote/memory/storage.py (MemModel, OddModel) | `BaseStorage.get_empty_storage`, `BaseStorage.post_import`, `TagStorage.TagProxy.__getitem__`, `TagStorage.TagProxy.shape`, `TagStorage.__init__`, `TagStorage.get_empty_storage`, `TagStorage.post_import`, `TagStorage.__getitem__`, `VirtualStorage.get_empty_storage`, `NextElementMapper.Wrapper.__init__`, `NextElementMapper.Wrapper.__getitem__`, `NextElementMapper.Wrapper.shape`, `NextElementMapper.LastWrapper.__init__`, `NextElementMapper.LastWrapper.__getitem__`, `NextElementMapper.LastWrapper.shape`, `NextElementMapper.__init__`, `NextElementMapper.__getitem__`, `NextElementMapper.sequence_length_transform`, `NextElementMapper.with_only_last`, `NextNElementWrapper.Wrapper.__init__`, `NextNElementWrapper.Wrapper.__getitem__`, `NextNElementWrapper.Wrapper.shape`, `NextNElementWrapper.__init__`, `NextNElementWrapper.__getitem__`, `NextNElementWrapper.sequence_length_transform`, `NextNElementWrapper.with_n`, `SyntheticDones.Wrapper.__init__`, `SyntheticDones.Wrapper.__getitem__`, `SyntheticDones.Wrapper.shape`, `SyntheticDones.MaskWrapper.__getitem__`, `SyntheticDones.__init__`, `SyntheticDones.__getitem__`, `SyntheticDones.as_mask` | `BaseStorage.__init__`, `BaseStorage.sequence_length_transform`, `TagStorage.sequence_length_transform`, `TagStorage.shape`, `VirtualStorage.__init__`, `VirtualStorage.shape`, `VirtualStorage.sequence_length_transform` |
| emote/memory/strategy.py (MemModel) | `Strategy.__init__`, `Strategy.begin_simple_import`, `Strategy.end_simple_import` | - |
| emote/memory/table.py (AdaptorModel, AmidModel, BldModel, ConcModel, MemModel, OddModel, ProxyModel, ThrModel) | `ArrayMemoryTable.__init__`, `ArrayMemoryTable.resize`, `ArrayMemoryTable.clear`, `ArrayMemoryTable._clear`, `ArrayMemoryTable._diagnostic_broadcast_error`, `ArrayMemoryTable._execute_gather`, `ArrayMemoryTable.sample`, `ArrayMemoryTable.size`, `ArrayMemoryTable._internal_size`, `ArrayMemoryTable.full`, `ArrayMemoryTable.add_sequence`, `ArrayMemoryTable._add_sequence_internal`, `ArrayMemoryTable._eject_count`, `ArrayMemoryTable._serialize`, `ArrayMemoryTable._deserialize`, `ArrayMemoryTable._store_legacy`, `ArrayMemoryTable._restore_legacy`, `ArrayMemoryTable.store`, `ArrayMemoryTable.restore` | - |
| emote/memory/uniform_strategy.py (LiveModel, MemModel, Py, StratModel) | `UniformStrategyBase.__init__`, `UniformStrategyBase.track`, `UniformStrategyBase.forget`, `UniformStrategyBase._rebalance`, `UniformStrategyBase.post_import`, `UniformSampleStrategy.sample`, `UniformEjectionStrategy.sample` | - |
| emote/mixins/logging.py (LogModel, RepModel, WrapModel) | `LoggingMixin.__init__`, `LoggingMixin.log_scalar`, `LoggingMixin.log_windowed_scalar`, `LoggingMixin.log_image`, `LoggingMixin.log_video`, `LoggingMixin.log_histogram`, `LoggingMixin.state_dict`, `LoggingMixin.load_state_dict` | - |
| emote/models/callbacks.py (ChkModel, CollModel, CtorModel, DynModel) | `ModelLoss.__init__`, `ModelLoss.loss`, `LossProgressCheck.__init__`, `LossProgressCheck.begin_batch`, `LossProgressCheck.end_cycle`, `LossProgressCheck.get_batch`, `BatchSampler.__init__`, `BatchSampler.begin_batch`, `BatchSampler.sample_model_batch`, `BatchSampler.use_model_batch`, `ModelBasedCollector.__init__`, `ModelBasedCollector.begin_batch`, `ModelBasedCollector.collect_sample`, `ModelBasedCollector.update_rollout_size` | `ModelBasedCollector.get_batch` |
| emote/models/ensemble.py (AlgoModel, EnsModel, OddModel) | `truncated_normal_init`, `EnsembleLinearLayer.__init__`, `EnsembleLinearLayer.forward`, `EnsembleOfGaussian.__init__`, `EnsembleOfGaussian.default_forward`, `EnsembleOfGaussian.forward`, `EnsembleOfGaussian.loss`, `EnsembleOfGaussian.sample` | `EnsembleOfGaussian.save`, `EnsembleOfGaussian.load` |
| emote/models/model.py (AlgoModel, DynModel, EnsModel) | `DynamicModel.__init__`, `DynamicModel.loss`, `DynamicModel.sample`, `DynamicModel.get_model_input`, `DynamicModel.process_batch`, `DynamicModel.save`, `DynamicModel.load`, `DeterministicModel.forward`, `DeterministicModel.loss`, `DeterministicModel.sample`, `Normalizer.__init__`, `Normalizer.update_stats`, `Normalizer.normalize`, `Normalizer.denormalize` | `DynamicModel.forward`, `DeterministicModel.__init__` |
| emote/models/model_env.py (CollModel, EnvModel, Py) | `ModelEnv.__init__`, `ModelEnv.step`, `ModelEnv.dict_step`, `ModelEnv.dict_reset` | `ModelEnv.reset` |
| emote/nn/action_value_mlp.py (CriticModel, OddModel, PolModel) | `ActionValueMlp.__init__`, `ActionValueMlp.forward`, `SharedEncoderActionValueNet.forward` | `SharedEncoderActionValueNet.__init__` |
| emote/nn/curl.py (CstepModel, CtorModel, CurlModel, LossModel, VisModel) | `soft_update_from_to`, `rand_uniform`, `ImageAugmentor.__init__`, `ImageAugmentor.__call__`, `ImageAugmentor._get_mask_indices`, `ImageAugmentor._maybe_add_noise`, `ImageAugmentor._cutout_per_image_mask_size`, `ImageAugmentor._cutout_per_batch_mask_size`, `ImageAugmentor._cutout_per_batch_pos_and_mask_size`, `CurlLoss.__init__`, `CurlLoss.parameters`, `CurlLoss.backward`, `CurlLoss._loss`, `CurlLoss.end_batch` | - |
| emote/nn/gaussian_policy.py (OddModel, PolModel) | `GaussianPolicyHead.__init__`, `GaussianPolicyHead.forward`, `GaussianMlpPolicy.__init__`, `GaussianMlpPolicy.forward` | `BasePolicy.__init__`, `BasePolicy.post_process`, `BasePolicy.infer` |
| emote/nn/initialization.py (OddModel) | `ortho_init_`, `xavier_uniform_init_`, `normal_init_` | - |
| emote/nn/layers.py (OddModel, VisModel) | `Conv2dEncoder.__init__`, `Conv2dEncoder.forward`, `Conv2dEncoder.get_encoder_output_size`, `Conv1dEncoder.__init__`, `Conv1dEncoder.forward`, `Conv1dEncoder.get_encoder_output_size` | - |
| emote/utils/deprecated.py (NumModel) | `deprecated` | - |
| emote/utils/gamma_matrix.py (NumModel, Py) | `make_gamma_matrix`, `discount`, `split_rollouts` | - |
| emote/utils/math.py (NumModel, OddModel) | `truncated_linear`, `truncated_normal_` | - |
| emote/utils/model.py (OddModel) | `normal_init` | `to_numpy`: random initialisation, conversion to numpy |
| emote/utils/threading.py (LockModel) | `LockedResource.__init__`, `LockedResource.__enter__`, `LockedResource.__exit__`, `LockedResource.swap`, `AtomicContainer.__init__`, `AtomicContainer.take`, `AtomicContainer.read`, `AtomicContainer.set`, `AtomicInt.__init__`, `AtomicInt.__iadd__`, `AtomicInt.__isub__`, `AtomicInt.swap`, `AtomicInt.increment`, `TracedLock.__init__`, `TracedLock.__enter__`, `TracedLock.__exit__` | - |
| emote/utils/timed_call.py (NumModel) | `WelfordAccumulator.add`, `WelfordAccumulator.current`, `MovingWindowAccumulator.add`, `MovingWindowAccumulator.current`, `TimedBlock.__init__`, `TimedBlock.__enter__`, `TimedBlock.__exit__`, `TimedBlock.mean`, `TimedBlock.var`, `TimedBlock.stats`, `BlockTimers.__init__`, `BlockTimers.scope`, `BlockTimers.stats` | - |
| tests/gym/collector.py (GymModel, LiveModel, ThrModel) | `GymCollector.__init__`, `GymCollector.collect_data`, `GymCollector.collect_multiple`, `GymCollector.begin_training`, `ThreadedGymCollector.__init__`, `ThreadedGymCollector.collect_forever`, `ThreadedGymCollector.begin_training`, `ThreadedGymCollector.end_training`, `SimpleGymCollector.__init__`, `SimpleGymCollector.begin_training`, `SimpleGymCollector.begin_batch` | - |
| tests/gym/dict_gym_wrapper.py (GymModel) | `DictGymWrapper.__init__`, `DictGymWrapper.dict_step`, `DictGymWrapper.dict_reset` | `DictGymWrapper.render`: plain accessors |
| tests/gym/hit_the_middle.py (GymModel) | `HitTheMiddle.__init__`, `HitTheMiddle.step`, `HitTheMiddle.reset` | `HitTheMiddle.seed`, `HitTheMiddle.render`: spaces, seeding and drawing; no behaviour used by training |

## 5. Print Assumptions

"closed" stands for `Closed under the global context`; R1 for
`ClassicalDedekindReals.sig_forall_dec`, R2 for `ClassicalDedekindReals.sig_not_dec`, F for
`FunctionalExtensionality.functional_extensionality_dep`, C for `Classical_Prop.classic`.

* `MemProps1.v`: **closed**: C01_size_exact, C02_fifo_longest_suffix, C02_longest_suffix_meaning, C02_fifo_machine, C03_ejection_frame, C04_full_spec, C05_resize, C06_failed_add_partial, C06_missing_length_key_partial, C06_duplicate_identity_refuted, C06_unknown_column_refuted, C07_wrap_injective_partial, C07_stored_ids_nonnegative_partial, C07_every_identity_sampled_refuted
* `MemProps2.v`: **closed**: C08_sample_aligned, C08_whole_batch, C08_sample_tags, C08_sample_succeeds, C09_offset_in_bounds, C09_offset_reachable, C09_windows_inside, C09_every_window_reachable, C10_short_weighted_partial, C10_short_fifo_partial, C10_broadcast_refuted, C10_negative_offset_refuted, C11_next_is_successor, C12_dones_and_masks, C13_next_after_window, C14_nextn_exact, C14_negative_n_finding, C18_fifo_order
* `MemProps3.v`: **closed**: C15_terminal_key_partial, C15_masks_refuted
* `MemProps4.v`: **closed**: C16_sequence_probability, C16_window_probability, C16_transition_probability, C16_windows_differ_finding; **C F R1 R2**: C17_after_add_partial, C17_frozen_finding, C17_stale_refuted
* `MemProps5.v`: **closed**: C19_roundtrip, C19_full_finding, C20_export_iff_partial, C20_export_refuted, C21_restore_smaller, C21_foreign_file_finding, C22_clear_partial, C22_restore_partial, C22_clear_refuted, C22_restore_refuted, C23_crash_safe, C23_store_completes, C24_failed_restore_partial, C24_failed_restore_refuted, C25_legacy_rename_partial, C25_coverage_refuted, C26_linearizable, C26_code_steps, C26_no_deadlock, C26_legacy_tail_finding
* `ProxyProps.v`: **closed**: C27_agents_do_not_mix, C28_aligned_columns, C29_transitions_happened, C29_windows, C30_stored_iff_kept, C30_unknown_agent, C30_protocol_accepted, C31_error_loses_episode_refuted, C31_error_keeps_running_partial, C32_rewards_misaligned_refuted, C32_rewards_aligned_partial
* `LoaderProps.v`: **closed**: C33_inferences_exact, C33_episodes_partial, C33_episodes_refuted, C33_log_cycles, C34_export_iff, C34_export_gap, C35_ready_loader_yields, C35_not_ready, C36_duplicate_groups_rejected, C36_joint_batch, C36_grouped_batch, C36_group_named_size_finding, C37_loader_keeps_yielding_partial, C37_joint_keeps_yielding_partial, C37_grouped_loader_stops_refuted, C38_warmup_returns_when_ready, C38_warmup_shutdown, C38_warmup_processes_exports
* `SegProps.v`: **closed**: C39_capacity_power_of_two, C39_array, C40_reduce, C40_empty_range_finding, C41_highest_index, C41_interval, C41_outside_refused, C41_zero_weight_finding, C42_out_of_range_partial, C42_negative_accepted_refuted
* `TrainProps.v`: **closed**: C43_phase_order, C43_stop_reasons, C44_cycle_steps, C44_cycle_counts, C45_terminator_stops, C45_terminator_not_before, C45_accepts_positive, C46_end_training_partial, C46_reraised_partial, C46_exhausted_refuted, C46_raising_end_refuted, C47_state_visible, C47_next_hook, C48_counters
* `CkptProps.v`: **closed**: C49_resume_partial, C49_two_runs_partial, C49_resume_refuted, C53_unique_names, C53_file_names, C53_paths, C53_checkpoint_sequence, C53_load_own, C53_in_training, C53_every_checkpoint, C54_explicit_index_partial, C54_overwrites_refuted
* `CallbackProps.v`: **closed**: C50_without_group_partial, C50_with_group_partial, C50_wrapping, C51_group_results_partial, C52_not_in_group_partial, C52_without_group_partial, C52_group_only_refuted, C52_both_refuted, C50_group_not_there_refuted, C50_position_and_state_refuted, C51_no_parameters_refuted
* `LogProps.v`: **closed**: C55_window_partial, C55_unused, C55_succeeds_partial, C55_key_syntax, C55_key_default, C55_iterator_refuted, C55_scalar_tensor_refuted, C56_scalars_partial, C56_scalar_value, C56_windows_lost_refuted, C56_continuation_refuted, C56_load_used_refuted, C77_written, C77_tag, C77_tags_differ, C77_no_empty_window, C77_empty_window_finding
* `LockProps.v`: **closed**: C57_atomic, C57_methods, C57_increments, C57_take_once, C57_progress, C58_block_time, C58_exec_time_partial, C58_one_thread_partial, C58_exec_time_refuted, C58_negative_refuted
* `NumProps.v`: **F R1**: C59_welford, C78_stats_partial, C61_bounds, C61_ramp, C61_monotone, C61_degenerate, C62_n_step_returns, C62_recursion, C63_targets; **R1**: C78_total, C78_nested_refuted; **closed**: C60_results_partial, C60_limit_refuted, C62_split, C62_split_rest
* `CrudProps.v`: **closed**: C64_storage, C64_handles_increase, C64_contents, C64_handle_text, C64_shared_file_finding, C65_unique_paths, C65_no_overwrite
* `SchedProps.v`: **F R1**: C66_linear_partial, C66_interpolation_partial, C66_reaches_refuted, C67_bounds, C67_triangle, C67_peak, C67_periodic, C67_halving; **F R1 R2**: C68_closed_form_partial, C68_restarts_partial, C68_closed_form_refuted, C68_restarts_never_final_finding
* `OnnxProps.v`: **closed**: C69_in_order, C69_files, C69_metadata, C69_own_results, C69_answered_partial, C69_process_ends, C69_lost_finding, C69_lost_refuted
* `EnvProps.v`: **closed**: C70_episodes, C70_reset, C70_step, C70_step_accepted, C70_time_limit_finding, C71_follows_model_partial, C71_follows_model_refuted
* `AlgoProps.v`: **F R1 R2**: C72_accepted, C72_inverse_partial, C72_mean, C72_running, C72_one_row_refuted, C76_targets, C76_loss_targets, C76_nearest, C76_in_range, C76_far_target_finding, C80_round_trip, C81_load_refuted; **R1**: C73_soft_update, C73_beyond_source_finding; **F R1**: C73_repeated, C73_never_overshoots, C73_converges, C81_network_partial; **C F R1 R2**: C82_bounds_partial, C82_monotone, C82_above_refuted
* `AgentProps.v`: **closed**: C74_answers, C74_answers_plain, C74_batch, C74_waiting, C74_all_ended_finding, C74_nobody_finding, C74_twice_finding, C75_partition_partial, C75_convolution_refuted, C75_other_name_refuted, C75_excluded_block_refuted, C75_shared_weight_refuted, C83_restored_partial, C83_exchanged_refuted
* `CollProps.v`: **closed**: C79_episodes_partial, C79_fit_for_memory, C79_accepted, C79_left_behind_refuted
* `VisProps.v`: **closed**: C84_output_size2_partial, C84_forward2, C84_output_size1_partial, C84_forward1, C84_longer_refuted, C84_impossible_finding, C85_last_frames, C85_always_answers, C86_scaled_partial, C86_scaled_refuted, C87_cutout_partial, C87_argument_refuted, C87_last_row_finding
* `AmpProps.v`: **F R1**: C88_total_reward, C88_bounded_above, C88_unbounded_below_finding, C88_whole_rollouts, C88_rewards_checked, C89_loss, C89_symmetry_loss, C89_zero_iff_perfect, C90_total_reward, C90_bounded, C90_best_when_confused, C90_flat_rewards_finding
* `LossProps.v`: **F R1 R2**: C91_no_leftover_gradients, C91_clipped, C91_logged, C91_unused_parameter_finding, C92_resume_partial, C92_schedule_restarts_refuted; **R1**: C92_restores; **F R1**: C92_default_schedule_partial, C92_target_networks_refuted, C93_slope, C93_target_entropy; **closed**: C92_selective_load; **C F R1 R2**: C93_alpha_shared_and_capped, C93_default_target, C93_load_ignores_flag_refuted
* `PolProps.v`: **C F R1 R2**: C94_squashed_gaussian, C94_bounds, C94_limits, C94_density, C94_increasing, C94_refuses, C94_eval_needs_noise_finding; **closed**: C94_built, C95_built; **F R1**: C95_value_of_row, C95_refuses, C95_shared_encoder, C96_q_loss, C96_dqn_loss, C96_dqn_refuses, C96_dqn_truncates_finding; **F R1 R2**: C96_policy_loss, C96_policy_loss_pessimistic
* `GenProps.v`: **F R1 R2**: C97_sample; **C F R1 R2**: C97_loss, C97_divergence, C97_divergence_refuted, C99_acts_through_decoder; **closed**: C98_memory_holds_latents_partial, C98_other_data_lost_refuted, C98_refuses, C99_load, C99_load_refuses; **F R1**: C99_stored_latent_partial, C99_scale, C99_stored_latent_refuted; **R1**: C99_load_not_atomic_finding
* `CurlProps.v`: **C F R1 R2**: C100_temperature_loss, C100_shift, C100_unscaled_loss_partial, C100_unscaled_loss_refuted, C100_any_encoder_size_refuted; **closed**: C100_matrix_fits; **F R1**: C101_initial_copy_partial, C101_target_stays_finding, C101_target_follows_refuted
* `EnsProps.v`: **C F R1 R2**: C102_forward, C102_sample, C102_disagreement_finding, C103_loss, C103_default_bound, C103_sum, C103_own_batches, C103_mean_best, C103_variance_best, C103_ndim; **F R1**: C103_deterministic
* `ChkProps.v`: **F R1**: C104_losses_partial, C104_missing, C104_reward_partial, C104_window_partial, C104_reward_missing, C104_nan_refuted, C104_reward_nan_refuted, C104_unchecked_refuted, C105_windows, C105_error, C105_decision_partial, C105_decreasing, C105_short_finding, C105_nan_refuted, C106_steps_partial, C106_probability, C108_memory, C108_growth, C108_since_start, C108_rate, C108_same_step; **closed**: C105_enough, C106_begin_batch_refuted, C106_order_partial, C107_last, C107_all_partial, C107_collision_refuted, C107_empty_window, C107_terminal
* `BldProps.v`: **closed**: C109_one_step_partial, C109_n_step_partial, C109_next_name_refuted, C109_reserved_name_refuted, C110_episodes_partial, C110_file, C110_last_episode_refuted, C110_final_observation_refuted, C111_importer, C112_dict_obs, C112_dict_obs_lengths, C112_scale, C112_missing, C112_cast_refuted
* `GymProps.v`: **F R1**: C113_episodes_partial, C113_transitions_partial, C113_truncated_refuted, C114_logged_partial, C114_first_refuted, C117_episode, C117_moves, C117_reset; **closed**: C113_agents, C115_every_batch_partial, C115_counts, C115_skipped_batches_refuted, C115_warmup_refuted, C116_no_use_after_end, C116_stops_soon, C116_end_training_returns, C116_second_training_finding
* `RepProps.v`: **closed**: C118_numbers_partial, C118_collection, C118_unused, C118_succeeds_partial, C118_after_list_refuted, C118_unbounded_refuted, C118_after_array_refuted, C118_images_partial, C118_videos, C118_images_refuted, C118_apart, C119_report_partial, C119_histogram_partial, C119_order_refuted, C119_empty_refuted, C120_transparent_partial, C120_empty_list_refuted, C120_key_refuted, C121_written_partial, C121_tag, C121_tags_refuted, C122_logged_partial, C122_key, C122_frozen, C122_underscore_refuted, C122_shape_refuted
* `HlgProps.v`: **C F R1 R2**: C123_minimum, C123_reached, C123_shift, C123_shapes; **F R1 R2**: C124_column, C124_middle_partial, C124_edge_refuted
* `WrapProps.v`: **closed**: C125_method, C125_property, C125_other_partial, C125_missing, C125_same, C125_leak_refuted, C125_memory, C125_private, C125_own, C125_report, C125_copy_finding, C126_properties_partial, C126_answer_refuted
* `MetaProps.v`: **closed**: C127_hooks_partial, C127_marked_partial, C127_others, C127_marked_here_refuted, C127_called_callback_refuted
* `OddProps.v`: **closed**: C128_minimum, C128_documented_end_finding, C131_read_partial, C131_value_partial, C131_import_succeeds, C131_store_refuted; **F R1**: C129_within, C129_ends, C129_never, C130_normal; **R1**: C130_orthogonal_partial, C130_xavier_partial; **F R1 R2**: C130_no_bias_refuted, C130_ensemble, C130_ensemble_bound, C130_linear_inputs_refuted
* `E2EProps.v`: **F R1**: C132_targets
* `GymTProps.v`: **F R1**: C133_returns
* `ShareProps.v`: **closed**: C26_real_time, C134_shared_batch, C134_final_contents
* `DynProps.v`: **F R1 R2**: C135_loss, C135_close, C135_computed
* `TargProps.v`: **F R1**: C136_sac, C136_dqn, C136_between, C136_own_target_finding
* `CtorProps.v`: **F R1 R2**: C137_trains; **R1**: C137_checkpoint_partial, C137_weights_left_alone, C137_curl_finding, C137_checkpoint_refuted
* `CriticProps.v`: **F R1**: C138_dqn; **F R1 R2**: C138_sac
* `BoxProps.v`: **closed**: C139_unstacked_partial, C139_created_refuted, C139_step_refuted, C139_reset_refuted, C139_space_refuted
* `ImagProps.v`: **closed**: C140_episodes_partial, C140_batch_partial, C140_batch_refuted
* `ActorProps.v`: **F R1 R2**: C141_actor, C141_dynamics; **closed**: C141_transitions
* `HlcProps.v`: **C F R1 R2**: C138_hlgauss
* `StyleProps.v`: **F R1**: C142_reward_partial, C142_discriminator_partial, C142_rollouts_refuted
* `RecProps.v`: **C F R1 R2**: C143_reconstructs
* `CrudListedProps.v`: **closed**: C144_listed
* `PlaceProps.v`: **closed**: C145_place_partial, C145_register, C145_place_refuted
* `CstepProps.v`: **C F R1 R2**: C146_contrast
* `EndsProps.v`: **closed**: C27_episodes, C27_open_agents
* `CaseProps.v`: **closed**: C77_once
* `CaseRealProps.v`: **C F R1 R2**: C82_ensemble_grows, C82_ensemble_above_refuted; **F R1**: C93_gradient_step; **closed**: C83_every_parameter_partial
* `LiveProps.v`: **F R1**: C147_batches_happened; **closed**: C43_live, C45_live
* `AccProps.v`: **closed**: C148_fifo, C148_any_partial, C148_random_ends, C148_hangs_finding, C148_refused_refuted
* `ExpProps.v`: **F R1**: C149_experiment_ends
* `ThrProps.v`: **F R1**: C150_batches_happened, C150_experiment_ends, C151_thread_ended_partial, C151_thread_left_running_refuted, C151_failure_not_reported_refuted
* `CntProps.v`: **F R1**: C152_all_collected
* `LtgProps.v`: **F R1**: C153_targets_happened, C153_targets_happened_threaded
* `CrlProps.v`: **F R1 R2**: C154_critic_learns, C154_critic_learns_threaded
* `AclProps.v`: **F R1 R2**: C155_actor_and_model_learn, C155_actor_and_model_learn_threaded
* `AmidProps.v`: **closed**: C156_in_progress, C156_together, C156_alone, C156_batch_during_add
* `TschProps.v`: **F R1**: C157_collects_as_told, C157_collects_all
* `GapProps.v`: **closed**: C158_keeps_yielding
* `JgapProps.v`: **closed**: C159_joint_amid_partial, C159_joint_stops_refuted
* `RoomProps.v`: **closed**: C160_never_runs_low, C160_joint_keeps_yielding; **C**: C161_full_stays_nearly_full
* `SjntProps.v`: **closed**: C162_shared_memory, C162_shared_keeps_yielding
* `RetProps.v`: **closed**: C163_fifo_keeps_partial, C163_fifo_forgets, C163_random_drops_refuted

## 6. Findings

Where the code does not do what the property says, or does something worth knowing:

* C06 (An addition that raises leaves the table as it was). Finding: holds only for sequences of the configuration with a new identity; a duplicate identity is counted twice before the assertion, and an unknown column raises after ejection. Theorems: C06_duplicate_identity_refuted, C06_unknown_column_refuted.
* C07 (Identities never collide after the unsigned extension). Finding: injectivity and non-negativity hold, but identities >= 2^63 (negative before wrapping) overflow the uniform sampler, so such sequences can never be sampled. Theorems: C07_every_identity_sampled_refuted.
* C10 (Sampling a too short episode never fabricates data). Finding: numpy broadcasting repeats a single row, so episodes of one transition (or windows at least 3 longer than the episode) fabricate data; all other short cases raise. Theorems: C10_broadcast_refuted, C10_negative_offset_refuted.
* C14 (NextNElementWrapper is exact or raises). For n >= 0; for negative n see the finding C14_negative_n_finding. Theorems: C14_negative_n_finding.
* C15 (Interrupted episodes are not treated as terminal). Finding: the adaptor writes the terminal key; the masks read by the value targets still treat interrupted episodes as terminal. Theorems: C15_masks_refuted.
* C16 (Uniform sampling is uniform over the experience). Exact rational probabilities for the sequence, exact binary64 rounding for the offset; numpy's rounding of the priorities is left out. Finding: windows of different episodes are not equally likely for L > 1. Theorems: C16_windows_differ_finding.
* C17 (Coverage sampling favours less-visited sequences). Real-number model of the priorities. Finding: they are only recomputed after an addition or ejection, so between additions visits have no effect. Theorems: C17_frozen_finding, C17_stale_refuted.
* C19 (store/restore (V1) round-trips the table). Same configuration; also into a table with a different but sufficient maxlen. Finding: full() is not restored. Theorems: C19_full_finding.
* C20 (Every reachable table can be exported and imported). Refuted: empty tables and tables with a data-less column cannot be exported; a sequence stored under a negative identity exports but cannot be imported. Partial: exact characterisation of what can be exported. Theorems: C20_export_refuted.
* C21 (Restoring into a smaller table keeps the most recent sequences). Source and target use the FIFO ejector. Finding: a file written by a table with a random ejector cannot be shrunk by a FIFO table. Theorems: C21_foreign_file_finding.
* C22 (clear() and restore() forget everything that was stored before). Refuted: clear() leaves the strategies' identities behind, restore() leaves those of the weighted strategies. Partial: the data is forgotten, and restore is history-independent for FIFO strategies. Theorems: C22_clear_refuted, C22_restore_refuted.
* C24 (A failed restore leaves the table usable). Refuted for FIFO strategies (the import flag stays set). Partial: the weighted strategies keep working on a new table. Theorems: C24_failed_restore_refuted.
* C25 (Legacy restore renames consistently). Refuted for the coverage strategy, which has no post_import. Partial: all other strategies. Theorems: C25_coverage_refuted.
* C26 (Table operations are linearizable). Any cutting of the calls into steps under the table lock; the order that explains the replies respects real time (C26_real_time). Finding: the tail of a legacy restore runs outside the lock. Theorems: C26_legacy_tail_finding.
* C31 (An error for one agent does not lose other agents' episodes). Refuted: an assertion for one agent in the middle of the loop discards the episodes already completed in the same call. Partial: nothing is lost if no episode ends in the failing call. Theorems: C31_error_loses_episode_refuted.
* C32 (Only RUNNING after INITIAL: rewards stay aligned). Refuted: an episode whose first observation is RUNNING stores one reward too many. Partial: episodes that start with INITIAL are aligned. Theorems: C32_rewards_misaligned_refuted.
* C33 (Inference and episode counters are exact). Inferences: exact for every history of adds and restarts. Episodes: exact when exactly the agents that go on get a response; refuted otherwise (the code computes observations minus responses). Writes of the statistics happen once per interval. Theorems: C33_episodes_refuted.
* C36 (Joint loaders keep groups apart and add sizes up). Group names must differ from the size keys; finding: a group named like the size key raises TypeError. Theorems: C36_group_named_size_finding.
* C37 (Loaders keep yielding). True for MemoryLoader and JointMemoryLoader; refuted for JointMemoryLoaderWithDataGroup, whose iterator always ends after one batch. Theorems: C37_grouped_loader_stops_refuted.
* C40 (SegmentTree.reduce equals the fold of the requested range). Associative operation, op e e = e. Finding: empty ranges raise RecursionError (documentation says the end is inclusive, the code treats it as exclusive). Theorems: C40_empty_range_finding.
* C41 (find_prefixsum_idx inverts the cumulative distribution). Exact arithmetic (integers in a common unit). Finding: p = sum selects the last item even if its weight is 0. Theorems: C41_zero_weight_finding.
* C42 (Out-of-range assignment is rejected). Indices >= capacity or < -3*capacity are rejected unchanged; refuted for -3*capacity <= i < 0. Theorems: C42_negative_accepted_refuted.
* C46 (end_training is called exactly once per callback on every exit of the training loop). Proved: once training has begun, stopping by shutdown or exception calls end_training exactly once on each callback, with the exception, provided no end_training raises; exceptions are re-raised. Refuted: an exhausted data loader calls end_training on nobody, and an end_training that raises hides the later callbacks and the original exception. Theorems: C46_exhausted_refuted, C46_raising_end_refuted.
* C49 (Resuming from a checkpoint continues the step count). Refuted as stated: the first batch of a resumed run is given the step number of the checkpoint again (N, not N+1), so a resumed run's k-th batch is step N+k-1; bp_samples does continue. The partial theorems give the exact counters for any file and for a run followed by a resumed run. Theorems: C49_resume_refuted.
* C50 (Callbacks receive exactly the arguments they ask for). Holds as stated for every signature, state and group, except (refuted witnesses) that a state key equal to a parameter also given by position gives a TypeError, that a hook with a group raises KeyError while the group is not in the state, and C52's renaming. Hooks with *args or **kwargs are passed through unchanged. Theorems: C50_group_not_there_refuted, C50_position_and_state_refuted.
* C51 (Data-group results are written to the group). Holds for every method with parameters; a method without parameters never has its results merged (refuted). Theorems: C51_no_parameters_refuted.
* C52 (keys_from_member selects the group's value). The code reads the state where it should read the group (callback.py:59): the group's value is never passed; KeyError when only the group has the key. Proved for keys the group does not have and for hooks without group. Theorems: C52_group_only_refuted, C52_both_refuted.
* C54 (Resumed training does not overwrite earlier checkpoints). Refuted as stated: the Checkpointer does not take its index from the restored state, so a resumed run with the same configuration starts again at the configured index and overwrites. Partial: nothing is overwritten when checkpoint_index is set above N by hand. Theorems: C54_overwrites_refuted.
* C55 (Windowed metrics report the last N values). Proved for numbers and collections of numbers over every history; refuted for one-shot iterators (cumulative unchanged) and 0-d tensors (TypeError). Rounding is not modelled. Theorems: C55_iterator_refuted, C55_scalar_tensor_refuted.
* C56 (Logged metrics survive a checkpoint). Scalars and cumulative values are restored; windows never are (logging.py:127 iterates the object's own windows), so later logging restarts windows and cumulative values from zero, and loading into an object with a window raises. Theorems: C56_windows_lost_refuted, C56_continuation_refuted, C56_load_used_refuted.
* C58 (TracedLock's accumulated times are the sums of the measured sections). The block time is right for every schedule. The execution time is right if no thread enters while another is still in __exit__; it is wrong otherwise, because __exit__ releases the lock before it reads the start of its scope. Theorems: C58_exec_time_refuted, C58_negative_refuted.
* C60 (deprecated() limits its warnings). deprecated() never counts its warnings (warn_count += 0), so every call warns. Theorems: C60_limit_refuted.
* C64 (CRUDStorage refines a map of live handles). Sequential histories, arbitrary savers and arbitrary changes of the disk by others. A delete whose file is missing raises (as documented) and the item is gone. C64_shared_file_finding: a file registered twice becomes two items of one file. Theorems: C64_shared_file_finding.
* C66 (LinearSchedule interpolates between its end points). All claims hold one step later than stated: the first step leaves the value at initial, so final is reached after steps+1 steps (C66_reaches_refuted: never after `steps` steps when initial differs from final). Floats are real numbers. Theorems: C66_reaches_refuted.
* C68 (CosineAnnealing equals its closed form). The closed form holds for k-1 (k mod steps for k-1 with warm restarts) after k steps, so the schedule is one step late (C68_closed_form_refuted); with warm restarts final is never reached (C68_restarts_never_final_finding). Also shown: no division by zero. Floats are real numbers. Theorems: C68_closed_form_refuted, C68_restarts_never_final_finding.
* C69 (ONNX export requests are served exactly once, in order, with their own metadata). Partial: an export that raises leaves its requester waiting for ever (C69_lost_refuted, C69_lost_finding); everything else is proved, and a normal return of process_pending_exports or export means that everything queued before has been exported. One main thread and any number of others, any schedule, any failures. Tracing the network and protobuf encoding are opaque; metadata are strings; the parents of the storage folder exist. Theorems: C69_lost_finding, C69_lost_refuted.
* C70 (ModelEnv produces well-formed episodes). Every history of dict_reset and dict_step, failing calls included. Batches are rows; the networks are functions of the call number, the row, the observation and the action. Theorems: C70_time_limit_finding.
* C71 (Simulated transitions follow the model). Partial: an agent started by dict_step gets INITIAL with the initial observation, but its first transition is predicted from the last observation of the agent before it, because _current_obs is not reset (C71_follows_model_refuted). Every other transition follows the model. Theorems: C71_follows_model_refuted.
* C72 (Normalizer inverts itself and never divides by zero). Proved for batches of two rows or more: updates are accepted, the statistics are exactly the running ones (C72_running), standard deviations are numbers >= eps, the round trip is exact and the mean stays among the data. Refuted for a batch of one row: torch's std is then NaN, which the comparison with eps does not catch, and every later result is NaN. Reals instead of floats. Theorems: C72_one_row_refuted.
* C73 (Soft target updates are convex combinations). Exact value after k updates, never overshoots, geometric distance, convergence. Finding: zip stops at the shorter parameter list. Theorems: C73_beyond_source_finding.
* C74 (AgentProxy answers exactly the agents that need an answer, each with its own action). For networks that work row by row the responses are given exactly; for any policy, agent i gets row i. Findings: with no waiting agent the policy is called without rows; an input key listed twice leaves a None argument. Theorems: C74_all_ended_finding, C74_nobody_finding, C74_twice_finding.
* C75 (Weight-decay groups partition the parameters). Proved for ordinary networks (definition in AgentSpec.v), with the exact group of each parameter and for any set iteration order. Refuted: convolution weights and parameters not named weight/bias are in no group and never trained; an excluded block is in both groups (ValueError); shared weights raise KeyError. Theorems: C75_convolution_refuted, C75_other_name_refuted, C75_excluded_block_refuted, C75_shared_weight_refuted.
* C76 (HL-Gauss targets are probability distributions and estimates stay in range). For any strictly increasing erf, over the reals; the targets of QLoss are also distributions for an erf that saturates, because they are those of the nearest value in the range. Finding: with a saturating erf a target far outside the range gives 0/0 in transform_to_probs. Theorems: C76_far_target_finding.
* C77 (TensorboardLogger writes every metric once, under its own tag). Images and videos are not modelled; rates and means are given as numerator and denominator. Theorems: C77_empty_window_finding.
* C78 (BlockTimers reports the statistics of the blocks run under each name). Right unless blocks of the same name are nested: a TimedBlock has a single start time. Theorems: C78_nested_refuted.
* C79 (The model-based collector writes well-formed episodes). Episodes, protocol and acceptance proved; refuted for the rest: every batch with a rollout leaves one unfinished episode per environment in the memory proxy for ever. Theorems: C79_left_behind_refuted.
* C81 (A loaded dynamics model predicts what the saved one predicted). Refuted: the statistics of the normalizers are not saved. The network itself comes back (C81_network_partial). Theorems: C81_load_refuted.
* C82 (The ensemble's log variance stays within its bounds). Lower bound strict, upper bound max_logvar + exp(-(max-min)), strictly monotone; refuted: for every choice of bounds some prediction ends above max_logvar. Theorems: C82_above_refuted, C82_ensemble_above_refuted.
* C83 (Restoring ModifiedAdamW gives every parameter its own moments). Refuted for two processes with different set orders; proved when the order is the same. Theorems: C83_exchanged_refuted.
* C84 (A convolutional encoder returns what its reported output size says). Proved when the settings are as many as the layers. Refuted with longer lists: the reported size counts layers that do not exist. Finding: a positive size is reported for layers that never fit. A unit is any function of its receptive field. Theorems: C84_longer_refuted, C84_impossible_finding.
* C86 (ScaledFloatFrame stays in its declared observation space). Proved: values lie in [-1, 1]. Refuted: the declared space is [0, 1] and every pixel below 128 leaves it. Theorems: C86_scaled_refuted.
* C87 (Image augmentation blanks one rectangle per image and nothing else). Cutout proved for every draw, with the case in which the argument is left alone. Refuted: without noise the caller's batch is changed in place. Finding: the last row and column are never blanked. Theorems: C87_argument_refuted, C87_last_row_finding.
* C88 (AMP rewards pair each step with the observation that follows it). Discriminator and state map are arbitrary functions that treat rows one by one; reals for floats. The style reward has no lower bound (C88_unbounded_below_finding): predictions are not clamped, unlike in the symmetry reward. Theorems: C88_unbounded_below_finding.
* C90 (The action symmetry reward is bounded and rewards confusion). Rewards given as a flat vector are not refused: the result is a square matrix (C90_flat_rewards_finding). The module imports erupt_shared, which the project does not declare, so it cannot be imported from the published package. Theorems: C90_flat_rewards_finding.
* C91 (Every loss trains with its own batch's gradient only, clipped). Proved over any interleaving, for parameters that the batch's loss depends on. C91_unused_parameter_finding: for a parameter that the loss does not reach, a leftover gradient of another loss turns into a zero gradient instead of none, so weight decay then applies. Theorems: C91_unused_parameter_finding.
* C92 (Training resumed from a checkpoint goes on as if it had never stopped). C92_restores, C92_selective_load and C92_resume_partial (constant learning rate, every parameter in a saved network) hold. Missing because false: the position of the learning rate schedule is not saved (C92_schedule_restarts_refuted gives the wrong rate in closed form), target networks are not saved (C92_target_networks_refuted gives the error in closed form). A state dict can be loaded only once, since loading removes its entries. Theorems: C92_schedule_restarts_refuted, C92_target_networks_refuted.
* C93 (The entropy weight is shared, capped and driven towards the target entropy). All parts hold except the last: AlphaLoss.load_state_dict overwrites alpha also with load_weights=False, and does not cap it (C93_load_ignores_flag_refuted). Theorems: C93_load_ignores_flag_refuted.
* C94 (Policy actions are bounded and their log-probabilities exact). Real arithmetic. In evaluation mode the optional argument epsilon is in fact required (C94_eval_needs_noise_finding). Theorems: C94_eval_needs_noise_finding.
* C96 (Critic and policy losses measure what they claim). Actions that are no whole numbers are cut towards zero without an error (C96_dqn_truncates_finding). Theorems: C96_dqn_truncates_finding.
* C97 (The autoencoder loss is reconstruction error plus divergence). C97_sample and C97_loss hold. The penalty is not the divergence: C97_divergence_refuted gives the difference, half the square of (standard deviation - 1) per latent entry, in closed form (C97_divergence justifies the divergence formula). Theorems: C97_divergence_refuted.
* C98 (A memory with an encoder holds the responses with latent actions). Holds for responses that carry nothing but their actions (C98_memory_holds_latents_partial). Missing because false: any other list or scalar data of a response is dropped (C98_other_data_lost_refuted). Theorems: C98_other_data_lost_refuted.
* C99 (Latent actions mean the same when acting and when learning). Holds for latent_multiplier = 1. With another multiplier the memory holds the policy's latent times the multiplier (C99_stored_latent_partial, C99_scale), with the default 3 also latents outside of the policy's range (C99_stored_latent_refuted). Loading is not atomic (C99_load_not_atomic_finding) and ignores strict. Theorems: C99_stored_latent_refuted, C99_load_not_atomic_finding.
* C100 (The contrastive loss is the cross entropy of picking the own augmentation). Holds with a temperature (C100_temperature_loss, C100_shift). Without one the maxima are subtracted along the wrong dimension (PyTorch aligns the vector with the columns): C100_unscaled_loss_partial gives the loss that is computed, C100_unscaled_loss_refuted a batch where it is wrong. Without a projection layer desired_zdim is not ignored (C100_any_encoder_size_refuted). Theorems: C100_unscaled_loss_refuted, C100_any_encoder_size_refuted.
* C101 (The target projection follows the encoder's). Only the initial copy holds. layer.parameters() is a generator, used up by the copy in the constructor, so end_batch never moves the target (C101_target_stays_finding, C101_target_follows_refuted). The convolutional target encoder is never updated by the code at all. Theorems: C101_target_stays_finding, C101_target_follows_refuted.
* C102 (An ensemble predicts the average of its members). The variance of a sample ignores the disagreement of the members (C102_disagreement_finding). num_layers = 0 still gives one hidden layer. Theorems: C102_disagreement_finding.
* C104 (Final checks fail every run that missed its target). NaN compares false with everything, so a diverged loss or reward passes every cutoff (C104_nan_refuted, C104_reward_nan_refuted), and callbacks beyond the shorter of the two lists are not checked (C104_unchecked_refuted). Proved for numbers and lists of one length. Infinities are not modelled. Theorems: C104_nan_refuted, C104_reward_nan_refuted, C104_unchecked_refuted.
* C105 (The progress check compares windows of the whole run). A model whose errors are NaN passes (C105_nan_refuted); the decision is proved for errors that are numbers. Runs of fewer than five batches always pass (C105_short_finding). Theorems: C105_short_finding, C105_nan_refuted.
* C106 (The batch sampler mixes model data in with the scheduled probability). BatchSampler calls self.log_scalar but does not inherit from LoggingMixin, so that begin_batch raises AttributeError on every batch (C106_begin_batch_refuted). Everything else is proved for a class that mixes it in. Theorems: C106_begin_batch_refuted.
* C107 (Everything logged is sent to Weights and Biases). The values go into one dictionary: of two callbacks that log under one key only the last is sent (C107_collision_refuted). Proved for distinct tags. That wandb.log sends what it is given is assumed. Theorems: C107_collision_refuted.
* C109 (Builder tables deliver the observations of the space). Proved for spaces whose observation names are distinct, not among actions/dones/masks/rewards/terminal and not another name with next_ in front. Refuted otherwise: with observations k and next_k every sample raises KeyError; an observation named like a fixed column (for example rewards) removes that column from batches. The terminal column's contents are C08/adaptor claims; here it is only shown not to disturb the rest. Theorems: C109_next_name_refuted, C109_reserved_name_refuted.
* C110 (Legacy dumps are loaded episode by episode). Proved for dumps in which no long episode ends at the very last step, and with the final observation read from next_obs[done+1]. Refuted: the observation after the last step should be next_obs[done] (loading.py:56 takes the next episode's); a dump ending with a long episode raises IndexError after its earlier episodes were added. Episodes of ten steps or fewer are skipped by design. Theorems: C110_last_episode_refuted, C110_final_observation_refuted.
* C112 (Adaptors change the columns they name and nothing else). Refuted for KeyCastAdaptor: the converted tensor is dropped (adaptors.py:77), the batch is unchanged for every dtype. DictObsAdaptor is proved for distinct keys and distinct output names. Theorems: C112_cast_refuted.
* C113 (A collector records exactly the episodes its environments play). Partial: C113_truncated_refuted - DictGymWrapper reports TERMINAL for truncated episodes (tests/gym/dict_gym_wrapper.py:50-56), so a time limit is learned as a real end. Theorems: C113_truncated_refuted.
* C114 (The logged episode reward is the mean total reward of the episodes that ended). Partial: C114_first_refuted - dict_reset does not reset the reward sums, so the step that begin_training tries and throws away is counted in the first episode of each environment. Theorems: C114_first_refuted.
* C115 (inf_step counts the environment steps that were collected). Partial: refuted - the counter grows by num_envs in every batch although data is collected only every bp_steps_per_inf batches, and the warmup steps are not multiplied by num_envs. Theorems: C115_skipped_batches_refuted, C115_warmup_refuted.
* C116 (A ThreadedGymCollector stops cleanly). Finding: _stop is never set back to False, so a second training with the same collector collects nothing (C116_second_training_finding). Theorems: C116_second_training_finding.
* C118 (Histograms, images and videos show what was logged last). Partial: refuted - after a list is logged, single numbers are appended to it without a window (it grows without bound, and the caller's list object is modified); after a tensor or array a single number raises AttributeError; images that do not have three dimensions are dropped silently. Theorems: C118_after_list_refuted, C118_unbounded_refuted, C118_after_array_refuted, C118_images_refuted.
* C119 (get_report answers with window mean, window and total). Partial: refuted - if both 'a' and 'a/cumulative' are reported the answer depends on the iteration order of a set; an empty list makes get_report raise ZeroDivisionError. Theorems: C119_order_refuted, C119_empty_refuted.
* C120 (Logging metadata does not interfere with storing). Partial: refuted - one empty list in the metadata makes every later add at a cycle end raise before the data reaches the memory; so does a metric named windowed[5] without a colon, or windowed[]:x. Proved for metadata without those. Theorems: C120_empty_list_refuted, C120_key_refuted.
* C121 (Every cycle writes every metric under its own tag). Partial: refuted for the tags - windowed[5]:a, windowed[7]:a, windowed[5]:a:b and a are all written as a. Theorems: C121_tags_refuted.
* C122 (Per-parameter logs: every optimized parameter under its own key). Partial: refuted - a_b.weight and a.b.weight (or 0.weight of shape 1x2 and 0.1.weight of shape 2) share a key, so only one is logged. Proved when no path component is empty or has an underscore and parameters of one kind have one number of dimensions. Theorems: C122_underscore_refuted, C122_shape_refuted.
* C124 (A fully trained HL-Gauss Q network predicts its target). Partial: refuted - the centers of the bins never reach the ends of the range, so for a target at an end every prediction is off by half a bin or more. Proved: range and shape, and that the middle of the range is met exactly. Theorems: C124_edge_refuted.
* C125 (Memory proxy wrappers forward methods and properties, and only those). Partial: refuted in one case - an instance attribute of an inner wrapper is handed out if an object further inside has a property of that name. Finding: a wrapper cannot be copied, deep-copied or unpickled (RecursionError in __getattr__, C125_copy_finding). User-defined descriptors and metaclasses are not modelled. Theorems: C125_leak_refuted, C125_copy_finding.
* C126 (An agent proxy in a wrapper behaves like the agent proxy). Partial: refuted - AgentProxyWrapper.__call__ has no return statement, so a wrapped agent always answers None. Theorems: C126_answer_refuted.
* C127 (Every override of a hook or extended method gets its arguments by name and group). Partial: false if the overriding method is itself marked with Callback.extend (in the instance's own class), if the user's class is called Callback, or if it has the name of the class that declared the extended method (qualified names are compared, examples C127_again, C127_shadow, C127_same_name). Theorems: C127_marked_here_refuted, C127_called_callback_refuted.
* C128 (The minimum tree gives the minimum of a range). Finding: the docstring says the end is included; it is not (C128_documented_end_finding), and min(i, i) recurses without end as in C40. Theorems: C128_documented_end_finding.
* C130 (Initialisers reach every layer of a network and nothing else). Partial: ortho_init_, xavier_uniform_init_ and truncated_normal_init raise AttributeError on a network with a Linear(bias=False) layer (normal_init_ does not); for nn.Linear the truncated initialiser takes weight.shape[0], the number of outputs, as the number of inputs. Theorems: C130_no_bias_refuted, C130_linear_inputs_refuted.
* C131 (Tag columns survive a legacy import). Partial: TagStorage.post_import stores the proxies made by its own __getitem__; a later store() fails with TypeError because a TagProxy has no length. Theorems: C131_store_refuted.
* C136 (Q-targets come from moving averages of the networks). For target networks left to the default (a copy). The optimizers are given modules that existed before and keep the sizes of parameters. Finding: a network passed as its own target is accepted, and the targets then use its newest parameters. Reals instead of floats. Theorems: C136_own_target_finding.
* C137 (Losses train and checkpoint exactly their own weights). Everything holds but one thing: a CurlLoss has no network, so its W, projection layer and (unless another loss saves it) encoder are not in its checkpoint, while the moments of its optimizer are (C137_curl_finding, C137_checkpoint_refuted). C137_checkpoint_partial is the claim for all other losses, in any combination, also beside a CurlLoss. Theorems: C137_curl_finding, C137_checkpoint_refuted.
* C139 (A vision environment can be created, reset and stepped, and shows the last frames). Holds only for environments that have a method seed, without stacking and without scaling (C139_unstacked_partial). Refuted: environments of gymnasium >= 0.27.1 (required by pyproject.toml) have no seed, so the creator always raises AttributeError (C139_created_refuted); FrameStack unpacks four values where gymnasium ObservationWrapper returns five, so step always raises (C139_step_refuted); FrameStack.reset stacks (observation, info) pairs that cannot be concatenated (C139_reset_refuted); scaled observations leave the declared space (C139_space_refuted). Assumed about libraries: gymnasium ObservationWrapper and the absence of seed, OpenCV ranges and sizes. Theorems: C139_created_refuted, C139_step_refuted, C139_reset_refuted, C139_space_refuted.
* C140 (Imagined experience is what the dynamics model predicts). Proved for every step when episodes end only by their length; with a termination function for every step but the first of each episode, because dict_step starts new episodes from the stale observation (see C71). C140_batch_refuted shows such a transition in a drawn batch. Theorems: C140_batch_refuted.
* C142 (Adversarial imitation judges moves agents really made). Proved for the reward with any rollout length, and for the discriminator loss with single steps. Missing, and refuted: with rollouts of two or more steps the loss concatenates one row per step with one row per rollout and raises; a memory with a next observation for every step makes the reward raise instead. The discriminator and state maps work row by row; real numbers for floats. Theorems: C142_rollouts_refuted.
* C145 (CRUDStorage keeps its files in its folder, under documented names). Finding: a prefix with a slash is accepted. With prefix '/e/x' (os.path.join drops the directory) the files of a storage on /d are written to /e. Proved without a slash in prefix and extension: the place and the name of every created file, in every history. C145_register holds for every prefix. Theorems: C145_place_refuted.
* C148 (An episode that fits the memory is stored, one that does not is refused). True with FIFO ejection. With uniform or coverage based ejection an episode that fits is stored as soon as the random choices have covered what is stored (C148_random_ends); until then the loop goes on. An episode longer than the memory is refused by FIFO ejection only: the uniform and coverage based ejectors then loop for ever, while the caller holds the lock of the table (C148_hangs_finding, C148_refused_refuted; emote/memory/uniform_strategy.py:79-95, emote/memory/coverage_based_strategy.py:76-92). Theorems: C148_hangs_finding, C148_refused_refuted.
* C151 (train() leaves no collecting thread behind and reports what went wrong in it). FINDING: (1) when the begin_training of a callback after the collector raises, train() raises without calling end_training and the thread goes on collecting; (2) when collecting raises in the thread, only the thread dies: train() goes on with the old data and returns. Proved: once end_training was called on the collector its thread is gone. Theorems: C151_thread_left_running_refuted, C151_failure_not_reported_refuted.
* C159 (A joint loader keeps yielding while other threads use its memories). The partial theorem keeps the whole statement but adds, for each batch, that every memory has enough when its turn comes; the refutation shows the condition is needed (a collector that only adds episodes can end the iteration with RuntimeError). Unlike a MemoryLoader alone (C158), which checks once, a JointMemoryLoader makes a new generator, and so a new check, per batch. Loaders that share a memory: C162. Theorems: C159_joint_stops_refuted.
* C163 (A memory keeps a sequence until newer ones need its room). Proved for FIFO ejection; refuted for the random ejectors, which may drop the newest stored sequence and keep older ones. Growing the memory is allowed. A FIFO memory of fixed size forgets the sequence as soon as it and what followed do not fit. Theorems: C163_random_drops_refuted.
