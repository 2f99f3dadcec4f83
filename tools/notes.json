{
"C01": "Every history of add/sample/resize/size/full calls, every strategy, every random outcome.",
"C02": "Longest-suffix specification, and the step-by-step FIFO machine including resize and over-long sequences.",
"C03": "Any ejector; an addition either fails and keeps everything or drops whole sequences and appends the new one.",
"C04": "",
"C05": "",
"C06": "Finding: holds only for sequences of the configuration with a new identity; a duplicate identity is counted twice before the assertion, and an unknown column raises after ejection.",
"C07": "Finding: injectivity and non-negativity hold, but identities >= 2^63 (negative before wrapping) overflow the uniform sampler, so such sequences can never be sampled.",
"C08": "Shape, alignment, tags, and that sampling a non-empty table succeeds.",
"C09": "binary64 rounding of random()*n is modelled exactly; bounds for n <= 2^53, reachability for n <= 2^52.",
"C10": "Finding: numpy broadcasting repeats a single row, so episodes of one transition (or windows at least 3 longer than the episode) fabricate data; all other short cases raise.",
"C11": "",
"C12": "",
"C13": "",
"C14": "For n >= 0; for negative n see the finding C14_negative_n_finding.",
"C18": "All three FIFO modes.",
"C15": "Finding: the adaptor writes the terminal key; the masks read by the value targets still treat interrupted episodes as terminal.",
"C16": "Exact rational probabilities for the sequence, exact binary64 rounding for the offset; numpy's rounding of the priorities is left out. Finding: windows of different episodes are not equally likely for L > 1.",
"C17": "Real-number model of the priorities. Finding: they are only recomputed after an addition or ejection, so between additions visits have no effect.",
"C19": "Same configuration; also into a table with a different but sufficient maxlen. Finding: full() is not restored.",
"C20": "Refuted: empty tables and tables with a data-less column cannot be exported; a sequence stored under a negative identity exports but cannot be imported. Partial: exact characterisation of what can be exported.",
"C21": "Source and target use the FIFO ejector. Finding: a file written by a table with a random ejector cannot be shrunk by a FIFO table.",
"C22": "Refuted: clear() leaves the strategies' identities behind, restore() leaves those of the weighted strategies. Partial: the data is forgotten, and restore is history-independent for FIFO strategies.",
"C23": "The file system is modelled as a target, a temporary file and an atomic rename (the atomicwrites library's contract).",
"C24": "Refuted for FIFO strategies (the import flag stays set). Partial: the weighted strategies keep working on a new table.",
"C25": "Refuted for the coverage strategy, which has no post_import. Partial: all other strategies.",
"C26": "Any cutting of the calls into steps under the table lock; the order that explains the replies respects real time (C26_real_time). Finding: the tail of a legacy restore runs outside the lock.",
"C27": "Any table, configuration and history of batches that raises nothing; records/stream/episodes in ProxySpec.v.",
"C29": "For agents that follow the protocol and use each identity for one stored episode; includes next-observation, done, mask and terminal columns. C29_windows: the rows of one window are consecutive transitions of one episode.",
"C30": "C27 fixes which episodes are stored; C30 adds the unknown agent and that protocol-respecting batches are only refused by the table itself.",
"C31": "Refuted: an assertion for one agent in the middle of the loop discards the episodes already completed in the same call. Partial: nothing is lost if no episode ends in the failing call.",
"C32": "Refuted: an episode whose first observation is RUNNING stores one reward too many. Partial: episodes that start with INITIAL are aligned.",
"C33": "Inferences: exact for every history of adds and restarts. Episodes: exact when exactly the agents that go on get a response; refuted otherwise (the code computes observations minus responses). Writes of the statistics happen once per interval.",
"C34": "Exact characterisation of the calls that export, and the gap between any two exports. Finding: the counter counts successful add calls (batches), not inference steps, and a failed store still advances the schedule.",
"C35": "For every contents and every interleaving with other operations (no clear); outcomes impossible for the generators are excluded by the hypothesis that no draw is Diverges.",
"C36": "Group names must differ from the size keys; finding: a group named like the size key raises TypeError.",
"C37": "True for MemoryLoader and JointMemoryLoader; refuted for JointMemoryLoaderWithDataGroup, whose iterator always ends after one batch.",
"C38": "An exception of the exporter itself also ends the warm-up.",
"C39": "Any operation, any power of two.",
"C40": "Associative operation, op e e = e. Finding: empty ranges raise RecursionError (documentation says the end is inclusive, the code treats it as exclusive).",
"C41": "Exact arithmetic (integers in a common unit). Finding: p = sum selects the last item even if its weight is 0.",
"C42": "Indices >= capacity or < -3*capacity are rejected unchanged; refuted for -3*capacity <= i < 0.",
"C43": "Any callbacks, behaviours and loader. k0 is 1 unless a callback changes bp_step before training begins (CheckpointLoader does, see C49). C43_live: also when what the data loader gives depends on what the hooks did; fuel bounds the turns that are looked at (then out = Running).",
"C44": "Fresh runs (no callback changes bp_step before training begins).",
"C45": "Other callbacks do not raise and leave the counters alone; batches carry their sample count. C45_live: also when what the data loader gives depends on what the hooks did.",
"C46": "Proved: once training has begun, stopping by shutdown or exception calls end_training exactly once on each callback, with the exception, provided no end_training raises; exceptions are re-raised. Refuted: an exhausted data loader calls end_training on nobody, and an end_training that raises hides the later callbacks and the original exception.",
"C47": "Every hook sees exactly the initial state overwritten, in order, by all earlier batches, counters and results.",
"C48": "Callbacks leave bp_step/bp_samples alone; batches carry their size and no bp_samples.",
"C49": "Refuted as stated: the first batch of a resumed run is given the step number of the checkpoint again (N, not N+1), so a resumed run's k-th batch is step N+k-1; bp_samples does continue. The partial theorems give the exact counters for any file and for a run followed by a resumed run.",
"C53": "Torch's save/load is taken to be a faithful round trip.",
"C54": "Refuted as stated: the Checkpointer does not take its index from the restored state, so a resumed run with the same configuration starts again at the configured index and overwrites. Partial: nothing is overwritten when checkpoint_index is set above N by hand.",
"C50": "Holds as stated for every signature, state and group, except (refuted witnesses) that a state key equal to a parameter also given by position gives a TypeError, that a hook with a group raises KeyError while the group is not in the state, and C52's renaming. Hooks with *args or **kwargs are passed through unchanged.",
"C51": "Holds for every method with parameters; a method without parameters never has its results merged (refuted).",
"C52": "The code reads the state where it should read the group (callback.py:59): the group's value is never passed; KeyError when only the group has the key. Proved for keys the group does not have and for hooks without group.",
"C55": "Proved for numbers and collections of numbers over every history; refuted for one-shot iterators (cumulative unchanged) and 0-d tensors (TypeError). Rounding is not modelled.",
"C56": "Scalars and cumulative values are restored; windows never are (logging.py:127 iterates the object's own windows), so later logging restarts windows and cumulative values from zero, and loading into an object with a window raises.",
"C77": "Images and videos are not modelled; rates and means are given as numerator and denominator.",
"C57": "Threads make atomic loads, stores, acquires and releases; every schedule is covered.",
"C58": "The block time is right for every schedule. The execution time is right if no thread enters while another is still in __exit__; it is wrong otherwise, because __exit__ releases the lock before it reads the start of its scope.",
"C59": "Floats are real numbers.",
"C60": "deprecated() never counts its warnings (warn_count += 0), so every call warns.",
"C61": "Floats are real numbers.",
"C62": "Floats are real numbers.",
"C63": "Networks are any function that values the rows of a batch one by one; floats are real numbers.",
"C78": "Right unless blocks of the same name are nested: a TimedBlock has a single start time.",
"C64": "Sequential histories, arbitrary savers and arbitrary changes of the disk by others. A delete whose file is missing raises (as documented) and the item is gone. C64_shared_file_finding: a file registered twice becomes two items of one file.",
"C65": "Every number of threads, every schedule, every clock reading (the date text is arbitrary). The increment of the counter and the append are single steps, justified by C57. Not covered: two CRUDStorage objects on one folder.",
"C66": "All claims hold one step later than stated: the first step leaves the value at initial, so final is reached after steps+1 steps (C66_reaches_refuted: never after `steps` steps when initial differs from final). Floats are real numbers.",
"C67": "Floats are real numbers. The first step leaves the value at initial, the cycles are counted from then on.",
"C68": "The closed form holds for k-1 (k mod steps for k-1 with warm restarts) after k steps, so the schedule is one step late (C68_closed_form_refuted); with warm restarts final is never reached (C68_restarts_never_final_finding). Also shown: no division by zero. Floats are real numbers.",
"C69": "Partial: an export that raises leaves its requester waiting for ever (C69_lost_refuted, C69_lost_finding); everything else is proved, and a normal return of process_pending_exports or export means that everything queued before has been exported. One main thread and any number of others, any schedule, any failures. Tracing the network and protobuf encoding are opaque; metadata are strings; the parents of the storage folder exist.",
"C70": "Every history of dict_reset and dict_step, failing calls included. Batches are rows; the networks are functions of the call number, the row, the observation and the action.",
"C71": "Partial: an agent started by dict_step gets INITIAL with the initial observation, but its first transition is predicted from the last observation of the agent before it, because _current_obs is not reset (C71_follows_model_refuted). Every other transition follows the model.",
"C72": "Proved for batches of two rows or more: updates are accepted, the statistics are exactly the running ones (C72_running), standard deviations are numbers >= eps, the round trip is exact and the mean stays among the data. Refuted for a batch of one row: torch's std is then NaN, which the comparison with eps does not catch, and every later result is NaN. Reals instead of floats.",
"C73": "Exact value after k updates, never overshoots, geometric distance, convergence. Finding: zip stops at the shorter parameter list.",
"C74": "For networks that work row by row the responses are given exactly; for any policy, agent i gets row i. Findings: with no waiting agent the policy is called without rows; an input key listed twice leaves a None argument.",
"C75": "Proved for ordinary networks (definition in AgentSpec.v), with the exact group of each parameter and for any set iteration order. Refuted: convolution weights and parameters not named weight/bias are in no group and never trained; an excluded block is in both groups (ValueError); shared weights raise KeyError.",
"C76": "For any strictly increasing erf, over the reals; the targets of QLoss are also distributions for an erf that saturates, because they are those of the nearest value in the range. Finding: with a saturating erf a target far outside the range gives 0/0 in transform_to_probs.",
"C80": "Proved for batches of two rows or more after any training history.",
"C81": "Refuted: the statistics of the normalizers are not saved. The network itself comes back (C81_network_partial).",
"C82": "Lower bound strict, upper bound max_logvar + exp(-(max-min)), strictly monotone; refuted: for every choice of bounds some prediction ends above max_logvar.",
"C83": "Refuted for two processes with different set orders; proved when the order is the same.",
"C79": "Episodes, protocol and acceptance proved; refuted for the rest: every batch with a rollout leaves one unfinished episode per environment in the memory proxy for ever.",
"C84": "Proved when the settings are as many as the layers. Refuted with longer lists: the reported size counts layers that do not exist. Finding: a positive size is reported for layers that never fit. A unit is any function of its receptive field.",
"C85": "For environments with the old four-value step, which is what the code unpacks; frames of one shape.",
"C86": "Proved: values lie in [-1, 1]. Refuted: the declared space is [0, 1] and every pixel below 128 leaves it.",
"C87": "Cutout proved for every draw, with the case in which the argument is left alone. Refuted: without noise the caller's batch is changed in place. Finding: the last row and column are never blanked.",
"C88": "Discriminator and state map are arbitrary functions that treat rows one by one; reals for floats. The style reward has no lower bound (C88_unbounded_below_finding): predictions are not clamped, unlike in the symmetry reward.",
"C89": "The gradient that autograd computes is an argument, related to the score by its partial derivatives.",
"C90": "Rewards given as a flat vector are not refused: the result is a square matrix (C90_flat_rewards_finding). The module imports erupt_shared, which the project does not declare, so it cannot be imported from the published package.",
"C91": "Proved over any interleaving, for parameters that the batch's loss depends on. C91_unused_parameter_finding: for a parameter that the loss does not reach, a leftover gradient of another loss turns into a zero gradient instead of none, so weight decay then applies.",
"C92": "C92_restores, C92_selective_load and C92_resume_partial (constant learning rate, every parameter in a saved network) hold. Missing because false: the position of the learning rate schedule is not saved (C92_schedule_restarts_refuted gives the wrong rate in closed form), target networks are not saved (C92_target_networks_refuted gives the error in closed form). A state dict can be loaded only once, since loading removes its entries.",
"C93": "All parts hold except the last: AlphaLoss.load_state_dict overwrites alpha also with load_weights=False, and does not cap it (C93_load_ignores_flag_refuted).",
"C94": "Real arithmetic. In evaluation mode the optional argument epsilon is in fact required (C94_eval_needs_noise_finding).",
"C96": "Actions that are no whole numbers are cut towards zero without an error (C96_dqn_truncates_finding).",
"C97": "C97_sample and C97_loss hold. The penalty is not the divergence: C97_divergence_refuted gives the difference, half the square of (standard deviation - 1) per latent entry, in closed form (C97_divergence justifies the divergence formula).",
"C98": "Holds for responses that carry nothing but their actions (C98_memory_holds_latents_partial). Missing because false: any other list or scalar data of a response is dropped (C98_other_data_lost_refuted).",
"C99": "Holds for latent_multiplier = 1. With another multiplier the memory holds the policy's latent times the multiplier (C99_stored_latent_partial, C99_scale), with the default 3 also latents outside of the policy's range (C99_stored_latent_refuted). Loading is not atomic (C99_load_not_atomic_finding) and ignores strict.",
"C100": "Holds with a temperature (C100_temperature_loss, C100_shift). Without one the maxima are subtracted along the wrong dimension (PyTorch aligns the vector with the columns): C100_unscaled_loss_partial gives the loss that is computed, C100_unscaled_loss_refuted a batch where it is wrong. Without a projection layer desired_zdim is not ignored (C100_any_encoder_size_refuted).",
"C101": "Only the initial copy holds. layer.parameters() is a generator, used up by the copy in the constructor, so end_batch never moves the target (C101_target_stays_finding, C101_target_follows_refuted). The convolutional target encoder is never updated by the code at all.",
"C102": "The variance of a sample ignores the disagreement of the members (C102_disagreement_finding). num_layers = 0 still gives one hidden layer.",
"C104": "NaN compares false with everything, so a diverged loss or reward passes every cutoff (C104_nan_refuted, C104_reward_nan_refuted), and callbacks beyond the shorter of the two lists are not checked (C104_unchecked_refuted). Proved for numbers and lists of one length. Infinities are not modelled.",
"C105": "A model whose errors are NaN passes (C105_nan_refuted); the decision is proved for errors that are numbers. Runs of fewer than five batches always pass (C105_short_finding).",
"C106": "BatchSampler calls self.log_scalar but does not inherit from LoggingMixin, so that begin_batch raises AttributeError on every batch (C106_begin_batch_refuted). Everything else is proved for a class that mixes it in.",
"C107": "The values go into one dictionary: of two callbacks that log under one key only the last is sent (C107_collision_refuted). Proved for distinct tags. That wandb.log sends what it is given is assumed.",
"C109": "Proved for spaces whose observation names are distinct, not among actions/dones/masks/rewards/terminal and not another name with next_ in front. Refuted otherwise: with observations k and next_k every sample raises KeyError; an observation named like a fixed column (for example rewards) removes that column from batches. The terminal column's contents are C08/adaptor claims; here it is only shown not to disturb the rest.",
"C110": "Proved for dumps in which no long episode ends at the very last step, and with the final observation read from next_obs[done+1]. Refuted: the observation after the last step should be next_obs[done] (loading.py:56 takes the next episode's); a dump ending with a long episode raises IndexError after its earlier episodes were added. Episodes of ten steps or fewer are skipped by design.",
"C111": "os.path.join is modelled for POSIX paths; existence of the file is an arbitrary predicate.",
"C112": "Refuted for KeyCastAdaptor: the converted tensor is dropped (adaptors.py:77), the batch is unchanged for every dtype. DictObsAdaptor is proved for distinct keys and distinct output names.",
"C113": "Partial: C113_truncated_refuted - DictGymWrapper reports TERMINAL for truncated episodes (tests/gym/dict_gym_wrapper.py:50-56), so a time limit is learned as a real end.",
"C114": "Partial: C114_first_refuted - dict_reset does not reset the reward sums, so the step that begin_training tries and throws away is counted in the first episode of each environment.",
"C115": "Partial: refuted - the counter grows by num_envs in every batch although data is collected only every bp_steps_per_inf batches, and the warmup steps are not multiplied by num_envs.",
"C116": "Finding: _stop is never set back to False, so a second training with the same collector collects nothing (C116_second_training_finding).",
"C117": "Over the reals (the code uses floats).",
"C118": "Partial: refuted - after a list is logged, single numbers are appended to it without a window (it grows without bound, and the caller's list object is modified); after a tensor or array a single number raises AttributeError; images that do not have three dimensions are dropped silently.",
"C119": "Partial: refuted - if both 'a' and 'a/cumulative' are reported the answer depends on the iteration order of a set; an empty list makes get_report raise ZeroDivisionError.",
"C120": "Partial: refuted - one empty list in the metadata makes every later add at a cycle end raise before the data reaches the memory; so does a metric named windowed[5] without a colon, or windowed[]:x. Proved for metadata without those.",
"C121": "Partial: refuted for the tags - windowed[5]:a, windowed[7]:a, windowed[5]:a:b and a are all written as a.",
"C122": "Partial: refuted - a_b.weight and a.b.weight (or 0.weight of shape 1x2 and 0.1.weight of shape 2) share a key, so only one is logged. Proved when no path component is empty or has an underscore and parameters of one kind have one number of dimensions.",
"C123": "Over the reals; the error function is a parameter. Print Assumptions lists the axioms of the standard library's real numbers.",
"C124": "Partial: refuted - the centers of the bins never reach the ends of the range, so for a target at an end every prediction is off by half a bin or more. Proved: range and shape, and that the middle of the range is met exactly.",
"C125": "Partial: refuted in one case - an instance attribute of an inner wrapper is handed out if an object further inside has a property of that name. Finding: a wrapper cannot be copied, deep-copied or unpickled (RecursionError in __getattr__, C125_copy_finding). User-defined descriptors and metaclasses are not modelled.",
"C126": "Partial: refuted - AgentProxyWrapper.__call__ has no return statement, so a wrapped agent always answers None.",
"C127": "Partial: false if the overriding method is itself marked with Callback.extend (in the instance's own class), if the user's class is called Callback, or if it has the name of the class that declared the extended method (qualified names are compared, examples C127_again, C127_shadow, C127_same_name).",
"C128": "Finding: the docstring says the end is included; it is not (C128_documented_end_finding), and min(i, i) recurses without end as in C40.",
"C129": "Whether the loop ends is a matter of the draws (it does with probability one for a real normal distribution); both directions are stated for arbitrary draws.",
"C130": "Partial: ortho_init_, xavier_uniform_init_ and truncated_normal_init raise AttributeError on a network with a Linear(bias=False) layer (normal_init_ does not); for nn.Linear the truncated initialiser takes weight.shape[0], the number of outputs, as the number of inputs.",
"C131": "Partial: TagStorage.post_import stores the proxies made by its own __getitem__; a later store() fails with TypeError because a TagProxy has no length.",
"C132": "For agents that follow the protocol and use each identity for one stored episode, as in C29. Networks are any function that values the rows of a batch one by one; floats are real numbers.",
"C133": "The episode ends by termination or by truncation: as recorded by the wrapper both drop the value after the last step when terminals are masked (cf. C113 and C15). For agents that answer every request; at most 2^53 rounds are collected; floats are real numbers.",
"C134": "Threads hold the table lock for a whole call, cut into any steps; every addition is of a complete sequence of at least L transitions under an identity used once, and no thread clears the table.",
"C135": "For deterministic networks that are a function of their input (batch normalisation in evaluation mode) and batches of two rows or more (a batch of one row makes the loss NaN, cf. C72). Real numbers instead of floats.",
"C136": "For target networks left to the default (a copy). The optimizers are given modules that existed before and keep the sizes of parameters. Finding: a network passed as its own target is accepted, and the targets then use its newest parameters. Reals instead of floats.",
"C137": "Everything holds but one thing: a CurlLoss has no network, so its W, projection layer and (unless another loss saves it) encoder are not in its checkpoint, while the moments of its optimizer are (C137_curl_finding, C137_checkpoint_refuted). C137_checkpoint_partial is the claim for all other losses, in any combination, also beside a CurlLoss.",
"C138": "Networks act row by row (batch normalisation is not modelled). Real numbers for floats. Q-learning agents answer with the number of one of the network's n actions (chooses).",
"C139": "Holds only for environments that have a method seed, without stacking and without scaling (C139_unstacked_partial). Refuted: environments of gymnasium >= 0.27.1 (required by pyproject.toml) have no seed, so the creator always raises AttributeError (C139_created_refuted); FrameStack unpacks four values where gymnasium ObservationWrapper returns five, so step always raises (C139_step_refuted); FrameStack.reset stacks (observation, info) pairs that cannot be concatenated (C139_reset_refuted); scaled observations leave the declared space (C139_space_refuted). Assumed about libraries: gymnasium ObservationWrapper and the absence of seed, OpenCV ranges and sizes.",
"C140": "Proved for every step when episodes end only by their length; with a termination function for every step but the first of each episode, because dict_step starts new episodes from the stale observation (see C71). C140_batch_refuted shows such a transition in a drawn batch.",
"C141": "Networks work row by row; real numbers for floating point. The dynamics model's part is for rollouts of one step, and adds C135's conditions on the batch (two rows or more, the sizes the model was made for).",
"C142": "Proved for the reward with any rollout length, and for the discriminator loss with single steps. Missing, and refuted: with rollouts of two or more steps the loss concatenates one row per step with one row per rollout and raises; a memory with a next observation for every step makes the reward raise instead. The discriminator and state maps work row by row; real numbers for floats.",
"C143": "Encoder, decoder and condition work row by row. Real numbers for floats. The penalty is the one the code computes; that it is not the divergence is C97.",
"C144": "The threads of C65, restricted to creates whose savers change nothing but the path they are given, and deletes. The model lets other threads run between taking an item off the list and removing its file; the code holds the lock meanwhile, so every schedule of the code is among the model's.",
"C145": "Finding: a prefix with a slash is accepted. With prefix '/e/x' (os.path.join drops the directory) the files of a storage on /d are written to /e. Proved without a slash in prefix and extension: the place and the name of every created file, in every history. C145_register holds for every prefix.",
"C146": "With a temperature (the default); without one the loss itself is wrong (C100). The two augmentations draw from their own sources, which are arbitrary. An image goes to the encoders as the list of its pixels. The optimizer step that follows is in C91.",
"C147": "The other callbacks reach the policy's weights, but not the memory and the environments. The proxy has a minimum length of at least the loader's rollout length. The run is at most 2^53 notes long. The run may end in any way (also by an error or by the bound on looked-at turns). An observer's notes say what agents were asked and what was drawn; they are not part of the program.",
"C148": "True with FIFO ejection. With uniform or coverage based ejection an episode that fits is stored as soon as the random choices have covered what is stored (C148_random_ends); until then the loop goes on. An episode longer than the memory is refused by FIFO ejection only: the uniform and coverage based ejectors then loop for ever, while the caller holds the lock of the table (C148_hangs_finding, C148_refused_refuted; emote/memory/uniform_strategy.py:79-95, emote/memory/coverage_based_strategy.py:76-92).",
"C149": "proved for first-in first-out ejection; for random ejection C148 shows that adding can hang. Draws that do not suffice (the draw loop asks again) are excluded by a hypothesis on the outcome, and agent numbers by 64 bits.",
"C150": "schedules are by whole calls of collect_data: a batch drawn between two episodes that one memory.add stores, and an add between the loader's size check and its first batch, are not modelled. First-in first-out ejection, as in C149. C156 covers a batch drawn between two sequences of one memory.add at the level of the memory; C157 says when the thread adds and with which weights.",
"C151": "FINDING: (1) when the begin_training of a callback after the collector raises, train() raises without calling end_training and the thread goes on collecting; (2) when collecting raises in the thread, only the thread dies: train() goes on with the old data and returns. Proved: once end_training was called on the collector its thread is gone.",
"C152": "a TrainingShutdownException raised in the collector itself (by the agent, say) is a request to end and excluded; the shutdown signal is off.",
"C153": "grain of the schedule as in C150. Value networks work row by row (any function of the row number and the next observation).",
"C154": "On the worlds of C147 and C150 (grain of the schedule as there); the networks, the policy and the temperature are any functions and numbers, so also those at that moment of the training. Real arithmetic in the losses, as in C138. The action of a DQN has to be the number of an action of the network. A batch of no rollouts (whose mean is not a number) is excluded.",
"C155": "On the worlds of C147 and C150 (grain of the schedule as there). The policy, the critics and the temperature are any functions and numbers. Real arithmetic in the losses, as in C141. A batch of no rollouts is excluded for the losses. That the loss of the dynamics model on such transitions measures its error is C141.",
"C156": "Uses of the table are complete calls (the lock makes them so, C134); the loop that collects the observations does not touch the table. If the call raises in the loop, nothing is added, while agent by agent the earlier ones would have been (C31): the claim is about what is found and about calls that return.",
"C157": "C157_collects_as_told holds for every run, with failing collections allowed; C157_collects_all shows that none fails under the conditions of C150. The relation so_far is read off the trainer's trace; the turn in which the loader has no batch leaves no entry and is marked by the flag over. Modelling limits as for C150: one collect_data is one step of the thread (see C156 for batches drawn during an add).",
"C158": "Err Diverges is a draw that does not end (the sampler drew identities that are not in the memory from the random numbers given); the other calls of the threads are assumed to succeed and are whole calls (see C156 for an add in progress). Agent numbers below 2^63.",
"C159": "The partial theorem keeps the whole statement but adds, for each batch, that every memory has enough when its turn comes; the refutation shows the condition is needed (a collector that only adds episodes can end the iteration with RuntimeError). Unlike a MemoryLoader alone (C158), which checks once, a JointMemoryLoader makes a new generator, and so a new check, per batch. Loaders that share a memory: C162.",
"C160": "Sampling may still diverge in the model when the given draws run out or are not draws of the sampler; the loader theorem says so (Err Diverges), as in C158. The bound is tight: the refutation of C159 has a capacity one below it.",
"C161": "Sequences longer than the capacity are allowed; then the bound is trivial. The example meets the bound exactly.",
"C162": "Says exactly when it stops; that a memory may run low is C159's refutation, and C160 says when it cannot.",
"C163": "Proved for FIFO ejection; refuted for the random ejectors, which may drop the newest stored sequence and keep older ones. Growing the memory is allowed. A FIFO memory of fixed size forgets the sequence as soon as it and what followed do not fit."
}