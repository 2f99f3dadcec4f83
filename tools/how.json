{
 "C01": "invariant over operation lists, all ejectors, all draws",
 "C02": "refinement to the longest fitting suffix of the history",
 "C03": "step theorem, then induction over histories",
 "C04": "history invariant: full iff the total ever added exceeded maxlen",
 "C05": "case analysis with a frame statement",
 "C06": "case analysis of every failing addition; witnesses for the rest",
 "C07": "arithmetic modulo 2^64; the int64 array of the uniform sampler refutes the rest",
 "C08": "induction over columns and sample points",
 "C09": "integer arithmetic on round-to-nearest-even",
 "C10": "case analysis of window and episode lengths; broadcasting refutes the rest",
 "C11": "index lemma on slices",
 "C12": "index lemma on slices",
 "C13": "index lemma on slices",
 "C14": "index lemma on slices; case analysis of the offsets",
 "C15": "theorem about the adaptor's output; witness for masks",
 "C16": "counting over rationals; witness for window uniformity",
 "C17": "real algebra on the weights; witness between rebalances",
 "C18": "closed form of the list of sample points",
 "C19": "round trip by induction over the stored sequences",
 "C20": "exact characterisation of exportable tables; witnesses",
 "C21": "induction over the restored sequences",
 "C22": "history independence; witness of identities that stay behind",
 "C23": "every prefix of the write trace (temporary file, rename)",
 "C24": "every failure point; witness of the import flag",
 "C25": "map over all places that hold identities; witness for the coverage strategy",
 "C26": "simulation: any schedule equals the order of lock acquisition",
 "C27": "projection lemma over interleavings of agents",
 "C28": "invariant over events",
 "C29": "induction over events, composed with the table's reads",
 "C30": "induction over events; exact acceptance condition",
 "C31": "frame lemma; witness",
 "C32": "invariant over events; witness",
 "C33": "induction over call lists",
 "C34": "induction over call lists, closed form of the exporting calls",
 "C35": "invariant over interleaved table operations",
 "C36": "association-list algebra",
 "C37": "iterator state machine; witness",
 "C38": "induction over the readiness history",
 "C39": "tree representation invariant for every height",
 "C40": "induction over heights for any associative operation",
 "C41": "induction over heights; prefix sums",
 "C42": "case analysis of indices; witness",
 "C43": "arbitrary callbacks as functions, trace theorem by induction over batches",
 "C44": "arithmetic of the cycle counter along the trace",
 "C45": "induction over batches",
 "C46": "case analysis of all exits of the loop; witnesses",
 "C47": "state as a fold over the trace",
 "C48": "induction over batches",
 "C49": "composition of two runs; witness of the repeated step",
 "C50": "association-list algebra over all signatures; witnesses",
 "C51": "association-list algebra; witness",
 "C52": "association-list algebra; witness",
 "C53": "induction over cycles; name uniqueness",
 "C54": "composition of two runs over a folder; witness",
 "C55": "window and cumulative values as functions of the history",
 "C56": "round trip; witness for windows",
 "C57": "invariant over all schedules of threads",
 "C58": "invariant over all schedules; witness of the race",
 "C59": "induction over samples",
 "C60": "induction over calls; witness",
 "C61": "case analysis",
 "C62": "sums over matrix products",
 "C63": "composition of sampling and discounting",
 "C64": "refinement to a map of live items",
 "C65": "injectivity of file names; invariant over all schedules",
 "C66": "induction over steps; witness of the late step",
 "C67": "induction over steps, arithmetic of cycles",
 "C68": "induction over steps with trigonometric identities; witness",
 "C69": "invariant over all schedules; witness of the lost request",
 "C70": "invariant over histories of resets and steps",
 "C71": "refinement to the model's transitions; witness",
 "C72": "invariant over updates; witness for one row",
 "C73": "induction; limits",
 "C74": "list lemmas on rows",
 "C75": "induction over module trees and set orders; witnesses",
 "C76": "telescoping sums, convexity",
 "C77": "tags as a function of the logged names",
 "C78": "induction over block events; witness for nesting",
 "C79": "invariant over batches of rollouts; witness of left-over episodes",
 "C80": "algebra of normalisation after any history",
 "C81": "witness",
 "C82": "monotonicity and bounds of softplus; witness for every choice of bounds",
 "C83": "permutation argument; witness",
 "C84": "induction over layers; witness",
 "C85": "induction over steps of any environment",
 "C86": "interval arithmetic; witness",
 "C87": "index lemma on cut rectangles; witness",
 "C88": "index lemma on rollouts",
 "C89": "sums of squares; derivatives",
 "C90": "interval arithmetic on clamped scores",
 "C91": "simulation by a run without stored gradients; norm algebra",
 "C92": "bisimulation of resumed and uninterrupted runs; closed forms of the errors",
 "C93": "invariant over histories; derivative of the loss",
 "C94": "induction over layers; closed form of the sampled rows; derivative of the squashed distribution function",
 "C95": "induction over layers and rows",
 "C96": "induction over rows; positivity of squares",
 "C97": "sums over batches, 1 + s <= exp s, closed form of the error",
 "C98": "induction over the responses, refinement of the plain proxy",
 "C99": "composition of policy, decoder and encoder; dictionary lemmas",
 "C100": "matrix algebra, log-sum-exp; witness; size argument",
 "C101": "induction over the generators and over batches; witness for every tau",
 "C102": "induction over the layers of all members at once; convexity of exp",
 "C103": "sums over members, rows and entries; ln x <= x - 1",
 "C104": "induction over the zipped lists; floats as reals or NaN; refutations with NaN and too few cutoffs",
 "C105": "invariant over the batches (quotient and remainder by the window); induction over the averages",
 "C106": "refuted by computation; otherwise induction over the steps with the iterator as invariant; quotient for the order",
 "C107": "the dictionary as the last value of a list of entries; first segments of tags",
 "C108": "telescoping sum over the history",
 "C109": "the builder's columns are a valid table configuration, so the whole-batch theorem of the table applies; the adaptor's loop by induction over the keys; name clashes by induction over the keys",
 "C110": "induction over the done flags with the episode start as invariant",
 "C111": "case analysis over the override and the existence of the file",
 "C112": "induction over the key pairs; case analysis for scale and cast",
 "C113": "GymModel models DictGymWrapper, the vector environment's autoreset and GymCollector; GymSpec defines the plays of an environment inductively; an invariant over collection steps (GymMore) relates agents, environment states and the add calls; with C29 every sampled row is a step of an environment (GymE2E). Truncated episodes are refuted.",
 "C114": "The invariant of C113 carries the reward sums; the log equals the mean of the totals plus what the trial step of begin_training left behind (refuted for the first episode).",
 "C115": "Induction over the batches; two refutations with concrete counters.",
 "C116": "Two threads as a transition system; invariant over all schedules, and a bound after the flag is set.",
 "C117": "Induction over the actions, over the reals.",
 "C118": "LoggingMixin with its three kinds of histogram (deque, list, array) and a value of each kind; induction over the calls.",
 "C119": "report and get_report as functions of the logging state, with the order of the set of keys as a parameter; induction over reports and over the keys.",
 "C120": "LoggingProxyWrapper.add with the wrapped proxy as an arbitrary function and the clocks as arbitrary readings; induction over the calls, simulation between wrapped and unwrapped proxy.",
 "C121": "The events given to the SummaryWriter are a list in the state; invariants over the calls, using C119's.",
 "C122": "Parameters are name, identity, shape, values and gradient; the key is the string the code builds. Injectivity of the key on tidy names, by splitting it again.",
 "C123": "Cross entropy with softmax over lists of reals, with the error function as a parameter; Gibbs' inequality by induction over the bins, using ln x <= x - 1 with its equality case.",
 "C124": "Bounds of weighted means; for the middle, a symmetry argument that reverses the sum over the bins. Refuted at the edges.",
 "C125": "Python's attribute lookup and __getattr__ over an inductive type of wrapper chains; induction over the chain. The classes of emote are given as tables of attributes.",
 "C126": "The wrapper as a function from proxies to proxies.",
 "C127": "MetaModel: a class is a tree of bases with the fields of its body; `_callbacks` is computed as the metaclass does, the loop of `__call__` looks methods up in the MRO. By induction on the tree: every entry of `_callbacks` comes from emote's Callback or from a class that marks the method, and each of these gives one; then the qualified names are compared. Proved for hooks nobody marks and for methods marked by one class with a unique name; a method marked again in the instance's own class, and any hook in a class called Callback, are shown never adapted (refuted parts).",
 "C128": "OddModel instantiates the segment tree of SegModel with Python's min and infinity; min is associative, so the refinement theorem of C40 applies, and a fold of min is a lower bound that is attained.",
 "C129": "OddModel.truncated_normal: the resampling loop with an oracle for the draws of each round and fuel; induction over the rounds.",
 "C130": "OddModel: a network is a tree of modules with the content of weight and bias; Module.apply is the fold over the tree. Induction over the tree for any initialiser, then each initialiser by cases. A linear layer without bias makes three of them fail, and the truncated one uses the outputs of a plain linear layer (refuted parts).",
 "C131": "OddModel: values of a TagStorage are arrays or proxies; post_import moves values through __getitem__, which wraps them. Induction over the renaming loop; storing needs the length of a value, which a proxy does not have (refuted part).",
 "C132": "The model of the proxy, the table with its sampling strategies, the virtual columns and the target computation, composed. First every window of a batch is shown to be consecutive transitions of one agent's episode (C29_windows, from the invariants of the proxy and of the table), then the target computation is evaluated on such rows (`E2EProofs.v`). The specification `experienced_target` mentions only the agent's moments.",
 "C133": "The model of the collector and the gym wrapper (C113) composed with C132: the messages the collector hands to the proxy are shown to be whole or open episodes of the environments, and the rollouts of a batch, windows of one agent's moments by C29_windows, are therefore runs of the environment's step function (`GymTarget.v`). The specification (`GymTSpec.v`) mentions only the environment's reset and step.",
 "C134": "The lock-step model of threads (C26) with the table's own invariants (C05, C29): every reachable configuration is explained by a sequential order that keeps real time (`C26_real_time`); sampling in that order gives windows of sequences added earlier in it, and those additions had returned when the lock was taken (`ShareProofs.v`). The final contents follow from the FIFO refinement applied to the order.",
 "C135": "`DynModel.v` adds DynamicModel.loss, ModelLoss.loss and DeterministicModel.sample to the model of the dynamics model (C80). The normalisers' statistics are shown to be numbers after any history (C72), so that input and target are real matrices; the network's output is denormalised and reconstructed row by row, and the difference to what happened is the difference of the network's output to its target times the deviation (`DynProofs.v`). The specification sums squared differences on its own (`DynSpec.v`).",
 "C136": "`TargModel.v` models modules as numbered objects, deepcopy as allocation of a new one, and a batch as reading the targets (begin_batch), an arbitrary optimizer step that touches only older modules and keeps sizes (backward), and the soft updates one after another (end_batch). By induction over the batches the targets equal the closed form of the moving average in `TargSpec.v`.",
 "C137": "CtorModel has the constructor of every loss as a function to the record of LossModel plus what its checkpoint holds; the theorems quantify over any list of library losses sharing parameters in one heap. Loading is followed write by write. CurlLoss is the counterexample.",
 "C138": "`CriticModel` puts the two critics' target callbacks and losses behind the sampled batch as one function each. `CriticSpec` says what an agent saw and did at a moment, independently of the memory. The theorem follows C132: every row of the batch is traced to one moment of one completed episode, and the rows of predictions, actions and targets are shown to be traced to the same one. `HlcSpec` states the histogram of a return and the network's histogram bin by bin; `C138_hlgauss` joins C123's value of the loss to the same origins.",
 "C139": "`BoxModel` has environments whose reset and step return Python values, so that tuples of two, four and five values are told apart; the wrappers are functions from environments to environments and the creator puts them together. OpenCV and gymnasium.ObservationWrapper are modelled by their documented contracts. Induction over the calls of reset and step; the refutations quantify over every environment.",
 "C140": "invariant over samples, batches and runs of the collector: what the memory has of each agent, with what it was told last, is a chain of predictions; then C29 for the sampled rows; witness of a drawn transition the model never predicts",
 "C141": "C29's windows for every row of the batch, a choice of origin for each row, and the row-by-row losses (C96, C93, C135) over them",
 "C142": "No new model: `AmpModel`'s reward and loss are run on batches of `MemModel` filled through `ProxyModel`. `StyleSpec` says what a move of an agent is. Every row is traced to a moment of a completed episode (as in C132); C88 and C89 give the arithmetic. Refuted for rollouts of two or more steps: the shapes the two callbacks need exclude each other.",
 "C143": "`RecModel` adds the loss callback to the autoencoder of `GenModel`. `RecSpec` states reconstruction error, latent and penalty for one step. Rows are traced to moments of completed episodes as in C141; C97 gives the arithmetic of a batch.",
 "C144": "invariant over all schedules: handles of listed items and of calls under way are distinct; files of listed items stay",
 "C145": "string lemmas on join and dirname; case analysis on each call of a history",
 "C146": "composition of the augmentation of C87 and the loss of C100",
 "C147": "invariant over the hooks of a run whose data loader looks at the world; C133 and C65 for the parts",
 "C148": "invariant of the table and case analysis of the ejector; induction over the draws",
 "C149": "invariant over the hooks and batches that keeps the memory stocked and every call accepted; C148 for storing, C147 for the state, C45 for the count",
 "C150": "the invariants of C147 and C149 kept by every call of collect_data, so by any number of them between two things the trainer does",
 "C151": "no hook but end_training makes an end_training call, and that of the collector stops the thread; two runs as witnesses against the rest",
 "C152": "invariant over the hooks: additions = warmup + batches / bp_steps_per_inf; an exception of the collector is the outcome",
 "C153": "C147 and C150 give the rollouts and the shape of the batch; the Q-target of rows (as in C132) is then the return of these steps",
 "C154": "C153's proof, with the stretches chosen for all rollouts at once, and the losses of C138 on them.",
 "C155": "C147 and C150 give the steps behind every rollout; the losses of C141 are averages over their rows.",
 "C156": "Induction over the observations of the call: what the first loop collects is submitted as it would be one at a time; then the theorems about histories (C29) apply to what is found in between.",
 "C157": "TschSpec tells what happens to the memory (additions with their weights, draws) as an inductive relation over the trainer's trace and the schedule; TschProofs shows by induction over phases and steps of ThrModel's training that every run satisfies it, and with ThrMain's invariant that no collection fails.",
 "C158": "GapModel is the loader's generator with others' calls between its check and each batch; induction over the rounds, carrying that something is stored (ExpMem's stocked, preserved by every use but a clear) and the end-to-end theorem of C29 for the rows.",
 "C159": "As C158, for JointMemoryLoader: other threads' uses come before every loader's turn (JgapModel). Every loader is asked through a new generator for every batch, so its size check is made again: a single-turn lemma says a turn succeeds exactly when the memory has enough (or sampling diverges), induction over the memories and over the batches. The unconditional property is refuted: an added short episode makes the memory drop a longer one and the joint loader raises.",
 "C160": "An upper bound for what ejectors return (induction over the ejection loops: at most one sequence more than needed), carried through add_sequence and, with the table invariant of C01, over every sequence of calls; lifted to proxies through the calls a history makes, and to C159's joint loader, whose error case it excludes. C159's refutation has one row less capacity than this needs.",
 "C161": "The upper bound of C160 as an invariant: whenever the table has been marked as filled, its size is above capacity minus longest; failed additions included.",
 "C162": "The model of C159 with one proxy handed from loader to loader (SjntModel). C159's lemma about one turn is applied with the memory as each loader sees it after everything done so far; induction over the loaders and over the batches. A corollary with C160's condition on the capacity excludes the stop.",
 "C163": "For FIFO ejection from C02's description of the contents: the longest fitting suffix of a buffer keeps every suffix that fits, by induction over the later calls. Refuted for random ejection by a draw that ejects the newest sequence while an older one stays."
}