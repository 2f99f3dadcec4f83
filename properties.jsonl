{"id": "C01", "title": "size() is exact and never exceeds maxlen", "statement": "After any history of add_sequence, sample, resize and size calls on an ArrayMemoryTable whose identities are distinct and whose sequences are no longer than maxlen, size() equals the sum of the lengths of the sequences currently stored and is at most maxlen, whichever ejection strategy is configured and whatever it randomly picks.", "quantifier": "every operation history, every maxlen, every sequence length, every ejector and every outcome of its random choices", "why_tests_cant": "the accounting is incremental (add on insert, subtract on eject); an error only shows after particular histories of inserts and ejections", "anchors": ["emote/memory/table.py:ArrayMemoryTable._add_sequence_internal", "emote/memory/table.py:ArrayMemoryTable._eject_count", "emote/memory/table.py:ArrayMemoryTable.size"]}
{"id": "C02", "title": "FIFO ejection keeps exactly the longest recent suffix that fits", "statement": "With FifoEjectionStrategy and no resize, after any history of add_sequence calls the table holds exactly the longest suffix of that history whose total length fits in maxlen, in order, and every stored column is the array that was passed in (after the column's dtype cast).", "quantifier": "every history of additions with distinct identities and lengths at most maxlen", "why_tests_cant": "which sequences survive depends on the whole history of lengths", "anchors": ["emote/memory/table.py:ArrayMemoryTable._add_sequence_internal", "emote/memory/table.py:ArrayMemoryTable._eject_count", "emote/memory/fifo_strategy.py:FifoEjectionStrategy.sample"]}
{"id": "C03", "title": "Ejection removes whole sequences, never the newest, and never alters the others", "statement": "For every ejection strategy and every random outcome, add_sequence removes zero or more whole previously stored sequences, keeps all data of every other stored sequence unchanged in every column, stores the new one, and removes at least as many transitions as needed to fit.", "quantifier": "every reachable table, every ejector, every random outcome, every new sequence", "why_tests_cant": "random ejection can pick any subset; tests see a few draws", "anchors": ["emote/memory/table.py:ArrayMemoryTable._eject_count", "emote/memory/uniform_strategy.py:UniformEjectionStrategy.sample", "emote/memory/coverage_based_strategy.py:CoverageBasedEjectionStrategy.sample"]}
{"id": "C04", "title": "full() is true exactly when an addition has overflowed the table", "statement": "full() is false as long as everything ever added since creation fits in maxlen, and true from the first addition that does not fit; while it is false no sequence has ever been dropped.", "quantifier": "every history of additions", "why_tests_cant": "a monotone flag over an unbounded history", "anchors": ["emote/memory/table.py:ArrayMemoryTable.full", "emote/memory/table.py:ArrayMemoryTable._eject_count"]}
{"id": "C05", "title": "resize only grows and never touches contents", "statement": "resize(n) with n below the current maxlen raises ValueError and changes nothing; otherwise it only changes the capacity used by later additions, so contents, size() and full() are unchanged.", "quantifier": "every table state and every n", "why_tests_cant": "must hold for every n and every contents", "anchors": ["emote/memory/table.py:ArrayMemoryTable.resize"]}
{"id": "C06", "title": "An addition that raises leaves the table as it was", "statement": "If add_sequence raises (sequence longer than the table, identity already stored, missing length key, unknown column), the table's contents, size and the set of identities known to sampler and ejector are the same as before the call.", "quantifier": "every table state and every rejected addition", "why_tests_cant": "each error path leaves the update sequence at a different point", "anchors": ["emote/memory/table.py:ArrayMemoryTable._add_sequence_internal", "emote/memory/fifo_strategy.py:FifoStrategyBase.track"]}
{"id": "C07", "title": "Identities never collide after the unsigned extension", "statement": "add_sequence maps distinct identities in the signed 64-bit range to distinct stored identities, all non-negative; so no user-supplied identity can collide with a sequence imported by the legacy restore (which are stored under negative identities), and every stored identity can be sampled by every sampler.", "quantifier": "all pairs of signed 64-bit identities", "why_tests_cant": "a 64-bit arithmetic fact", "anchors": ["emote/memory/table.py:ArrayMemoryTable._add_sequence_internal", "emote/memory/table.py:ArrayMemoryTable._restore_legacy"]}
{"id": "C08", "title": "A sampled batch has the promised shape and is aligned across columns", "statement": "sample(count, L) returns for every ordinary column count*L rows such that the rows i*L..i*L+L-1 are a contiguous window of one stored sequence, and the same window (same sequence, same time steps) for every column.", "quantifier": "every table contents, every count and L, every sampler and every random outcome, provided stored sequences have at least L transitions", "why_tests_cant": "the gather loop writes into reused buffers at computed offsets; off-by-one or cross-column skew appears only for particular counts", "anchors": ["emote/memory/table.py:ArrayMemoryTable._execute_gather", "emote/memory/table.py:ArrayMemoryTable.sample", "emote/memory/storage.py:BaseStorage.get_empty_storage"]}
{"id": "C09", "title": "Sample windows are always inside the episode, including floating-point rounding", "statement": "For every stored sequence with at least L transitions and every value random() can return, the window [start, start+L) chosen by the uniform, coverage and FIFO samplers lies inside the sequence, and every window position is reachable.", "quantifier": "every length up to 2^53, every L, every value of random.random() (including IEEE rounding of the product), every randint outcome", "why_tests_cant": "the boundary case has probability 2^-53", "anchors": ["emote/memory/uniform_strategy.py:UniformSampleStrategy.sample", "emote/memory/coverage_based_strategy.py:CoverageBasedSampleStrategy.sample", "emote/memory/fifo_strategy.py:FifoSampleStrategy.sample"]}
{"id": "C10", "title": "Sampling a too short episode never fabricates data", "statement": "If the sampled episode has fewer than L transitions, sample raises an error instead of returning rows that do not exist in the episode.", "quantifier": "every episode length below L, every sampler, every random outcome", "why_tests_cant": "numpy broadcasting makes exactly one length behave differently from the others", "anchors": ["emote/memory/table.py:ArrayMemoryTable._execute_gather", "emote/memory/uniform_strategy.py:UniformSampleStrategy.sample"]}
{"id": "C11", "title": "next-observation rows are the successors of observation rows", "statement": "For a column pair built with NextElementMapper (observation with one row more than actions), each returned next-row is the row that directly follows the corresponding returned observation row in the same episode, including the final observation of the episode.", "quantifier": "every table contents, every sampled window", "why_tests_cant": "shifted slices silently truncate at the end of the array", "anchors": ["emote/memory/storage.py:NextElementMapper", "emote/memory/builder.py:DictMemoryTable"]}
{"id": "C12", "title": "Synthetic dones and masks mark exactly the last transition", "statement": "In any sampled batch, done is 1 exactly for the last transition of its episode and mask is 1-done; hence in each window at most the last row is done and only if the window reaches the end of the episode.", "quantifier": "every table contents, every sampled window", "why_tests_cant": "depends on window position relative to episode length", "anchors": ["emote/memory/storage.py:SyntheticDones"]}
{"id": "C13", "title": "N-step tables return the observation right after each window", "statement": "With NextElementMapper.with_only_last, sample returns exactly one row per window, namely the observation that follows the window's last transition, and it always exists.", "quantifier": "every table contents, every sampled window", "why_tests_cant": "slice arithmetic at the end of the episode", "anchors": ["emote/memory/storage.py:NextElementMapper.LastWrapper", "emote/memory/builder.py:DictObsNStepMemoryTable"]}
{"id": "C14", "title": "NextNElementWrapper is exact or raises", "statement": "For every n >= 0 and every slice with non-negative ordered bounds, reading through NextNElementWrapper.with_n(n) either raises IndexError or returns exactly the requested number of rows, each being the row n steps later.", "quantifier": "every n, every stored array, every slice", "why_tests_cant": "numpy slices never bounds check", "anchors": ["emote/memory/storage.py:NextNElementWrapper"]}
{"id": "C15", "title": "Interrupted episodes are not treated as terminal", "statement": "With use_terminal_column, for each sampled window the mask consumed by the value target is 0 only if the window ends at the true end of an episode that ended in TERMINAL; for INTERRUPTED episodes it is 1.", "quantifier": "every table contents, every sampled window, both ways an episode can end", "why_tests_cant": "needs the end-to-end composition proxy, table, tag storage and adaptor", "anchors": ["emote/memory/adaptors.py:TerminalAdaptor", "emote/memory/storage.py:TagStorage", "emote/memory/builder.py:DictMemoryTable", "emote/algorithms/sac.py:QTarget"]}
{"id": "C16", "title": "Uniform sampling is uniform over the experience", "statement": "UniformSampleStrategy draws each stored transition window with probability proportional to its share: with L = 1 every stored transition is equally likely, and in general sequence i is chosen with probability length_i / total and then each of its windows equally.", "quantifier": "every collection of sequence lengths, every L", "why_tests_cant": "a statement about probabilities", "anchors": ["emote/memory/uniform_strategy.py:UniformStrategyBase._rebalance", "emote/memory/uniform_strategy.py:UniformSampleStrategy.sample"]}
{"id": "C17", "title": "Coverage sampling favours less-visited sequences", "statement": "Whenever CoverageBasedSampleStrategy samples, its priorities are a probability distribution, and among sequences of equal length one that has been sampled less often so far has a strictly higher probability.", "quantifier": "every collection of lengths and visit counts, every alpha > 0, every history of samples and tracks", "why_tests_cant": "the cached priorities depend on the order of sample/track calls", "anchors": ["emote/memory/coverage_based_strategy.py:CoverageBasedStrategy._rebalance", "emote/memory/coverage_based_strategy.py:CoverageBasedSampleStrategy.sample"]}
{"id": "C18", "title": "FIFO sampling visits episodes in insertion order", "statement": "FifoSampleStrategy returns exactly count windows; per_episode visits stored episodes cyclically in insertion order, so no episode repeats within one pass; with random_offset off the windows tile each episode from its start in steps of L.", "quantifier": "every set of tracked sequences, every count and L", "why_tests_cant": "cursor arithmetic with wrap-around", "anchors": ["emote/memory/fifo_strategy.py:FifoSampleStrategy.sample"]}
{"id": "C19", "title": "store/restore (V1) round-trips the table", "statement": "For every non-empty table with non-negative identities, storing it and restoring the file into a freshly created table of the same configuration yields a table with the same sequences in the same order, the same data in every column, the same size(), and the same future ejection order.", "quantifier": "every table contents reachable by additions", "why_tests_cant": "offset/length bookkeeping of concatenated arrays over arbitrary contents", "anchors": ["emote/memory/table.py:ArrayMemoryTable._serialize", "emote/memory/table.py:ArrayMemoryTable._deserialize", "emote/memory/fifo_strategy.py:FifoStrategyBase.load_state"]}
{"id": "C20", "title": "Every reachable table can be exported and imported", "statement": "store followed by restore succeeds for every table reachable through the public API: empty tables, tables with a column that never received data, and tables that contain sequences added under negative identities.", "quantifier": "every reachable table", "why_tests_cant": "the failing cases are corner contents that no test exports", "anchors": ["emote/memory/table.py:ArrayMemoryTable._serialize", "emote/memory/table.py:ArrayMemoryTable._deserialize", "emote/memory/loading.py:fill_table_from_legacy_file"]}
{"id": "C21", "title": "Restoring into a smaller table keeps the most recent sequences", "statement": "Restoring a V1 file exported by a FIFO-ejecting table into a FIFO-ejecting table with a smaller maxlen succeeds whenever each stored sequence fits, and keeps exactly the longest suffix that fits.", "quantifier": "every exported contents and every smaller maxlen", "why_tests_cant": "ejection happens while strategies are in import mode", "anchors": ["emote/memory/table.py:ArrayMemoryTable._deserialize", "emote/memory/fifo_strategy.py:FifoStrategyBase"]}
{"id": "C22", "title": "clear() and restore() forget everything that was stored before", "statement": "After clear() the table behaves exactly like a newly created one, and after restore(path) it behaves exactly like the restored table, whatever it contained before: no operation can refer to a sequence stored earlier.", "quantifier": "every previous contents and every later history", "why_tests_cant": "needs a behavioural equivalence over all later histories", "anchors": ["emote/memory/table.py:ArrayMemoryTable._clear", "emote/memory/table.py:ArrayMemoryTable._deserialize", "emote/memory/strategy.py:Strategy.clear"]}
{"id": "C23", "title": "A crash while storing never damages the existing export", "statement": "If the process stops or an exception is raised at any point of store(path), the file at path.zip holds either the complete previous export or the complete new one.", "quantifier": "every crash point", "why_tests_cant": "crash points cannot be enumerated by tests", "anchors": ["emote/memory/table.py:ArrayMemoryTable._serialize"]}
{"id": "C24", "title": "A failed restore leaves the table usable", "statement": "If restore raises part-way (damaged or incomplete file), later add_sequence calls are still accounted for, ejected and sampled correctly.", "quantifier": "every failure point and every later history", "why_tests_cant": "needs every failure point times every later history", "anchors": ["emote/memory/table.py:ArrayMemoryTable._deserialize", "emote/memory/strategy.py:Strategy.begin_simple_import"]}
{"id": "C25", "title": "Legacy restore renames consistently", "statement": "After a legacy restore, every sequence with a non-negative identity k in the file is stored under -k-1 in every column, in the length table, in the sampler and in the ejector, sequences with negative identities are dropped everywhere, and later additions cannot collide with them.", "quantifier": "every legacy file contents, every strategy", "why_tests_cant": "the renaming is done independently in five places", "anchors": ["emote/memory/table.py:ArrayMemoryTable._restore_legacy", "emote/memory/storage.py:BaseStorage.post_import", "emote/memory/fifo_strategy.py:FifoStrategyBase.post_import", "emote/memory/uniform_strategy.py:UniformStrategyBase.post_import", "emote/memory/coverage_based_strategy.py:CoverageBasedStrategy"]}
{"id": "C26", "title": "Table operations are linearizable", "statement": "When several threads call add_sequence, sample, size, full, resize and clear concurrently, the results and the final contents are those of executing the same calls one at a time in some order consistent with each thread's own order.", "quantifier": "every number of threads, every program per thread, every interleaving of their atomic steps", "why_tests_cant": "interleavings", "anchors": ["emote/memory/table.py:ArrayMemoryTable", "emote/memory/table.py:ArrayMemoryTable._restore_legacy"]}
{"id": "C27", "title": "Episodes of concurrently running agents never mix", "statement": "For any interleaving of the observations of any number of agents, the sequence the proxy adds to the table for an agent is determined by that agent's own observations and responses alone, in order, and is added exactly once, when that agent's episode ends.", "quantifier": "every interleaving of every number of agents, every batching of observations into add calls", "why_tests_cant": "interleavings of agents", "anchors": ["emote/memory/memory.py:MemoryTableProxy.add", "emote/memory/memory.py:Episode"]}
{"id": "C28", "title": "Completed episodes have aligned columns", "statement": "For an agent that sends INITIAL, then n-1 RUNNING, then one final observation, the stored sequence has exactly n+1 observation rows, n response rows, n reward rows (reward i being the one received with observation i+1) and, if enabled, one terminal tag equal to 1.0 iff the episode was INTERRUPTED.", "quantifier": "every episode length and contents", "why_tests_cant": "unbounded episode length, column bookkeeping per state", "anchors": ["emote/memory/memory.py:MemoryTableProxy.add", "emote/memory/memory.py:Episode"]}
{"id": "C29", "title": "Every stored transition really happened", "statement": "End to end: every (observation, action, reward, next observation) row returned by sample is a transition that some agent actually experienced: at some time the agent saw that observation, responded with that action, and then received that reward together with that next observation.", "quantifier": "every interleaving of agents, every history of additions and ejections, every sample request and random outcome", "why_tests_cant": "composition of three unbounded components", "anchors": ["emote/memory/memory.py:MemoryTableProxy.add", "emote/memory/table.py:ArrayMemoryTable.sample", "emote/memory/storage.py:NextElementMapper"]}
{"id": "C30", "title": "Short and unknown episodes are dropped, everything else is stored", "statement": "An episode is added to the table iff it was started before it ended and its length is at least the configured minimum; a final observation for an unknown agent changes nothing.", "quantifier": "every history", "why_tests_cant": "all histories of starts and ends", "anchors": ["emote/memory/memory.py:MemoryTableProxy.add"]}
{"id": "C31", "title": "An error for one agent does not lose other agents' episodes", "statement": "If add raises because of one agent's observation, episodes of other agents that were completed in the same call are still stored or still pending.", "quantifier": "every batch of observations", "why_tests_cant": "depends on the order of agents inside one call", "anchors": ["emote/memory/memory.py:MemoryTableProxy.add"]}
{"id": "C32", "title": "Only RUNNING after INITIAL: rewards stay aligned", "statement": "The proxy never stores a sequence whose reward column is longer than its action column, whatever sequence of episode states an agent reports.", "quantifier": "every sequence of episode states", "why_tests_cant": "needs malformed histories", "anchors": ["emote/memory/memory.py:MemoryTableProxy.add"]}
{"id": "C33", "title": "Inference and episode counters are exact", "statement": "LoggingProxyWrapper's completed_inferences equals the total number of observations passed to add, and completed_episodes the number of final observations, over any history and across state_dict/load_state_dict.", "quantifier": "every history of add calls", "why_tests_cant": "cumulative counters over unbounded histories", "anchors": ["emote/memory/memory.py:LoggingProxyWrapper.add", "emote/memory/memory.py:LoggingProxyWrapper.state_dict"]}
{"id": "C34", "title": "Memory exports are rate limited", "statement": "MemoryExporterProxyWrapper never exports twice without both more than the configured number of add calls and more than the configured time in between, and does export as soon as both have passed.", "quantifier": "every sequence of add calls and clock readings", "why_tests_cant": "unbounded schedules", "anchors": ["emote/memory/memory.py:MemoryExporterProxyWrapper.add"]}
{"id": "C35", "title": "A ready loader yields full batches", "statement": "Once MemoryLoader.is_ready() is true and every stored sequence has at least rollout_length transitions, iterating the loader never fails and every batch carries exactly rollout_count*rollout_length transitions and that number under size_key.", "quantifier": "every table contents, every interleaving with additions", "why_tests_cant": "readiness is checked once but used forever", "anchors": ["emote/memory/memory.py:MemoryLoader"]}
{"id": "C36", "title": "Joint loaders keep groups apart and add sizes up", "statement": "JointMemoryLoader rejects duplicate data groups, and otherwise yields exactly one entry per loader under its own data group plus the sum of the loaders' batch sizes.", "quantifier": "every list of loaders", "why_tests_cant": "any number of loaders", "anchors": ["emote/memory/memory.py:JointMemoryLoader", "emote/memory/memory.py:JointMemoryLoaderWithDataGroup"]}
{"id": "C37", "title": "Loaders keep yielding", "statement": "Iterating any of the memory loaders produces batches until the consumer stops.", "quantifier": "every number of batches requested", "why_tests_cant": "unbounded iteration", "anchors": ["emote/memory/memory.py:MemoryLoader.__iter__", "emote/memory/memory.py:JointMemoryLoaderWithDataGroup.__iter__"]}
{"id": "C38", "title": "Warm-up ends exactly when the loaders are ready or a shutdown is requested", "statement": "MemoryWarmup.begin_training returns only in a state where all loaders are ready, raises TrainingShutdownException only if the shutdown signal was set, and processes pending exports on every poll.", "quantifier": "every sequence of readiness and signal readings", "why_tests_cant": "unbounded polling", "anchors": ["emote/memory/memory.py:MemoryWarmup"]}
{"id": "C39", "title": "SegmentTree behaves like an array", "statement": "After any history of assignments to indices in range, reading an index returns the last value assigned to it (or the neutral element).", "quantifier": "every capacity that is a power of two, every history of assignments, every associative operation", "why_tests_cant": "index arithmetic over a tree of arbitrary height", "anchors": ["emote/memory/segment_tree.py:SegmentTree"]}
{"id": "C40", "title": "SegmentTree.reduce equals the fold of the requested range", "statement": "For every history of assignments and 0 <= start < end <= capacity, reduce(start, end) is the operation folded over items start..end-1 in order; defaults and negative ends behave like Python slice ends.", "quantifier": "every capacity, history and range, every associative operation (not necessarily commutative)", "why_tests_cant": "recursive decomposition of arbitrary ranges", "anchors": ["emote/memory/segment_tree.py:SegmentTree.reduce", "emote/memory/segment_tree.py:SegmentTree._reduce_helper"]}
{"id": "C41", "title": "find_prefixsum_idx inverts the cumulative distribution", "statement": "For non-negative items and 0 <= p <= sum (up to the tolerance), find_prefixsum_idx(p) is the highest index i with items[0]+...+items[i-1] <= p; for p < sum the chosen item is strictly positive, and the set of p mapped to i has length items[i].", "quantifier": "every capacity, contents and p", "why_tests_cant": "descends a tree of arbitrary height", "anchors": ["emote/memory/segment_tree.py:SumSegmentTree.find_prefixsum_idx"]}
{"id": "C42", "title": "Out-of-range assignment is rejected", "statement": "Assigning to an index outside 0..capacity-1 raises and leaves the tree unchanged.", "quantifier": "every index", "why_tests_cant": "Python list negative indexing makes some indices silently valid", "anchors": ["emote/memory/segment_tree.py:SegmentTree.__setitem__"]}
{"id": "C43", "title": "Callbacks run in order and phases are properly nested", "statement": "For any callbacks and any data, the trainer runs restore_state, begin_training, then per batch begin_cycle, begin_batch, backward, end_batch, end_cycle, each phase over all (cyclic) callbacks in ascending order value, ties in list order, until shutdown or exception.", "quantifier": "every list of callbacks, every behaviour of each callback, every dataloader", "why_tests_cant": "callbacks are arbitrary code and may stop training at any call", "anchors": ["emote/trainer.py:Trainer.train"]}
{"id": "C44", "title": "Cycles fire exactly every `cycle` steps", "statement": "A callback with cycle c > 0 gets begin_cycle exactly before the steps 1, c+1, 2c+1, ... and end_cycle exactly after the steps c, 2c, ...; after n completed steps it has seen ceil(n/c) begins and floor(n/c) ends; callbacks without a cycle get none.", "quantifier": "every c and every number of steps", "why_tests_cant": "modular arithmetic over unbounded step counts", "anchors": ["emote/trainer.py:Trainer.train"]}
{"id": "C45", "title": "BackPropStepsTerminator stops after exactly the requested number of steps", "statement": "A fresh training run with BackPropStepsTerminator(n) and an endless dataloader performs exactly n backward phases and ends without an exception.", "quantifier": "every n >= 1, every set of other callbacks that do not stop training", "why_tests_cant": "unbounded n", "anchors": ["emote/callbacks/generic.py:BackPropStepsTerminator", "emote/trainer.py:Trainer.train"]}
{"id": "C46", "title": "end_training is called exactly once per callback on every exit of the training loop", "statement": "Whenever training has begun, every way of leaving train() (shutdown signal, shutdown exception, any other exception, end of data) calls end_training exactly once on every callback, and exceptions other than shutdown are re-raised.", "quantifier": "every callback behaviour, every dataloader", "why_tests_cant": "all exit paths times all callback behaviours", "anchors": ["emote/trainer.py:Trainer.train"]}
{"id": "C47", "title": "State updates are merged and visible downstream", "statement": "A non-empty mapping returned by a callback is merged key by key into the training state before the next callback of the same phase runs; keys not mentioned keep their value; batch entries are available to all phases of that step.", "quantifier": "every callback behaviour", "why_tests_cant": "arbitrary callbacks", "anchors": ["emote/trainer.py:Trainer"]}
{"id": "C48", "title": "bp_step and bp_samples count steps and samples", "statement": "In a fresh run, during the k-th batch bp_step is k and bp_samples is the sum of the batch sizes of the first k batches.", "quantifier": "every number of batches and every batch size", "why_tests_cant": "cumulative over unbounded runs", "anchors": ["emote/trainer.py:Trainer.train"]}
{"id": "C49", "title": "Resuming from a checkpoint continues the step count", "statement": "A run resumed from the state saved after step N continues with step N+1, so over any number of resumes bp_step equals the number of batches trained.", "quantifier": "every N and every number of resumes", "why_tests_cant": "needs composition of runs", "anchors": ["emote/trainer.py:Trainer.train", "emote/callbacks/checkpointing.py:CheckpointLoader"]}
{"id": "C50", "title": "Callbacks receive exactly the arguments they ask for", "statement": "A callback method is called with precisely those of its declared parameters that are present in the training state (or, with a data group, in the group first and then in the state), each bound to the right value, and nothing else.", "quantifier": "every parameter list, every state, every group", "why_tests_cant": "arbitrary signatures and states", "anchors": ["emote/callback.py:_make_no_group", "emote/callback.py:_make_group_unpack"]}
{"id": "C51", "title": "Data-group results are written to the group", "statement": "Results a grouped callback returns under its group name are merged into that group and removed from the returned mapping; other results are returned unchanged and other groups are untouched.", "quantifier": "every result and state", "why_tests_cant": "arbitrary contents", "anchors": ["emote/callback.py:_make_group_unpack"]}
{"id": "C52", "title": "keys_from_member selects the group's value", "statement": "A parameter renamed with keys_from_member receives the data group's value for that key when the group has it, and the state's value otherwise.", "quantifier": "every state and group contents", "why_tests_cant": "depends on which of the two mappings contains the key", "anchors": ["emote/callback.py:_make_group_unpack"]}
{"id": "C53", "title": "Checkpoints are numbered consecutively and restorees must be uniquely named", "statement": "Checkpointer rejects duplicate restoree names; the k-th checkpoint of a run has index k-1+start and contains the state of every restoree under its own name; loading hands each restoree its own state back.", "quantifier": "every list of restorees and every number of checkpoints", "why_tests_cant": "any number of restorees and cycles", "anchors": ["emote/callbacks/checkpointing.py:Checkpointer", "emote/callbacks/checkpointing.py:CheckpointLoader"]}
{"id": "C54", "title": "Resumed training does not overwrite earlier checkpoints", "statement": "After loading checkpoint N a resumed run with the same configuration writes its checkpoints under indices above N.", "quantifier": "every N", "why_tests_cant": "needs composition of runs", "anchors": ["emote/callbacks/checkpointing.py:Checkpointer", "emote/callbacks/checkpointing.py:CheckpointLoader"]}
{"id": "C55", "title": "Windowed metrics report the last N values", "statement": "After any history of log_windowed_scalar(key, v) calls the window of each key holds exactly the last min(n, N) values logged for that key, its cumulative value is the sum of all of them, and the key syntax windowed[N]:name selects the window length N.", "quantifier": "every history over any keys, every N", "why_tests_cant": "unbounded interleaved histories", "anchors": ["emote/mixins/logging.py:LoggingMixin.log_windowed_scalar"]}
{"id": "C56", "title": "Logged metrics survive a checkpoint", "statement": "state_dict followed by load_state_dict into a fresh object restores scalars, windows and cumulative values, so that later logging continues from them.", "quantifier": "every history before and after the checkpoint", "why_tests_cant": "needs later behaviour after the restore", "anchors": ["emote/mixins/logging.py:LoggingMixin.load_state_dict"]}
{"id": "C57", "title": "AtomicInt and LockedResource updates are never lost", "statement": "With any number of threads incrementing an AtomicInt concurrently, the returned values are pairwise distinct and the final value is the initial value plus the sum of the increments; read-modify-write through LockedResource is atomic.", "quantifier": "every number of threads and every interleaving", "why_tests_cant": "interleavings", "anchors": ["emote/utils/threading.py:AtomicInt", "emote/utils/threading.py:LockedResource", "emote/utils/threading.py:AtomicContainer"]}
{"id": "C58", "title": "TracedLock's accumulated times are the sums of the measured sections", "statement": "The accumulated execution time of a TracedLock equals the sum of the durations for which the lock was held, for any use by any number of threads.", "quantifier": "every number of threads and every interleaving", "why_tests_cant": "a race window of a few instructions", "anchors": ["emote/utils/threading.py:TracedLock"]}
{"id": "C59", "title": "WelfordAccumulator computes mean and variance", "statement": "After any non-empty list of samples the accumulator's mean is their arithmetic mean and its variance their population variance.", "quantifier": "every list of samples", "why_tests_cant": "unbounded lists", "anchors": ["emote/utils/timed_call.py:WelfordAccumulator"]}
{"id": "C60", "title": "deprecated() limits its warnings", "statement": "A function decorated with deprecated(max_warn_count=n) warns at most n times however often it is called, and returns what the wrapped function returns.", "quantifier": "every number of calls", "why_tests_cant": "unbounded number of calls", "anchors": ["emote/utils/deprecated.py:deprecated"]}
{"id": "C61", "title": "truncated_linear is a clamped ramp", "statement": "truncated_linear stays within its y bounds, is min_y up to min_x, max_y from max_x on, linear in between and monotone; degenerate intervals give max_y.", "quantifier": "all reals", "why_tests_cant": "continuum of inputs", "anchors": ["emote/utils/math.py:truncated_linear"]}
{"id": "C62", "title": "Gamma-matrix discounting is the n-step return", "statement": "discount(rewards, values, make_gamma_matrix(gamma, L)) yields at row i*L+t the n-step return sum_k gamma^k r_{t+k} + gamma^(L-t) v_i of rollout i, for every number and length of rollouts.", "quantifier": "every gamma, L, number of rollouts and contents", "why_tests_cant": "matrix algebra over all sizes", "anchors": ["emote/utils/gamma_matrix.py:make_gamma_matrix", "emote/utils/gamma_matrix.py:discount", "emote/utils/gamma_matrix.py:split_rollouts"]}
{"id": "C63", "title": "Q-targets never leak across episodes", "statement": "For a batch sampled from the table, the target computed for each row is the discounted sum of that episode's own remaining window rewards plus the discounted bootstrap value of the observation after the window.", "quantifier": "every table contents, every sample, every value function", "why_tests_cant": "composition of sampling and matrix discounting", "anchors": ["emote/algorithms/sac.py:QTarget", "emote/utils/gamma_matrix.py:discount"]}
{"id": "C64", "title": "CRUDStorage refines a map of live handles", "statement": "Over any history of creates and deletes, handles are unique and increasing, items() lists exactly the created and not deleted items in creation order, get finds an item iff it is listed, latest() is the newest listed one, and delete returns whether it was present and removes exactly that one.", "quantifier": "every history of operations", "why_tests_cant": "unbounded histories", "anchors": ["emote/extra/crud_storage.py:CRUDStorage"]}
{"id": "C65", "title": "Files of one CRUDStorage never overwrite each other", "statement": "Two create_with_saver calls on the same storage never use the same path, whatever the wall clock does and however the calls interleave.", "quantifier": "every pair of calls, every clock, every interleaving", "why_tests_cant": "clock jumps and interleavings", "anchors": ["emote/extra/crud_storage.py:CRUDStorage.create_with_saver"]}
{"id": "C66", "title": "LinearSchedule interpolates between its end points", "statement": "LinearSchedule's value after k steps lies between initial and final, moves monotonically, is piecewise linear (optionally staircase) in k, and reaches final after `steps` steps.", "quantifier": "every k, steps, staircase and end points", "why_tests_cant": "all step counts", "anchors": ["emote/extra/schedules.py:LinearSchedule"]}
{"id": "C67", "title": "CyclicSchedule oscillates between its bounds", "statement": "CyclicSchedule's value always lies between initial and final, starts at initial, peaks at final in the middle of each cycle and, from the first step on, is periodic with period 2*half_period_steps (halving amplitude per cycle in triangular2 mode).", "quantifier": "every k and parameters", "why_tests_cant": "all step counts", "anchors": ["emote/extra/schedules.py:CyclicSchedule"]}
{"id": "C68", "title": "CosineAnnealing equals its closed form", "statement": "The value kept incrementally by CosineAnnealing equals final + (initial-final)*(1+cos(pi*k/steps))/2 after every number of steps; the warm-restart variant equals the same with k taken modulo steps.", "quantifier": "every number of steps and parameters", "why_tests_cant": "an incremental recursion with a division that vanishes periodically", "anchors": ["emote/extra/schedules.py:CosineAnnealing", "emote/extra/schedules.py:CosineAnnealingWarmRestarts"]}
{"id": "C69", "title": "ONNX export requests are served exactly once, in order, with their own metadata", "statement": "Every queued export is processed exactly once, in queueing order, each item gets a fresh increasing version, per-call metadata overrides exporter metadata, and a waiting requester gets the result of its own request.", "quantifier": "every interleaving of requesters and processing", "why_tests_cant": "interleavings", "anchors": ["emote/extra/onnx_exporter.py:OnnxExporter"]}
{"id": "C70", "title": "ModelEnv produces well-formed episodes", "statement": "The observation stream of ModelEnv.dict_reset/dict_step is well-formed for the memory proxy: every agent id is used for exactly one episode, starts with INITIAL, ends at most once, and ids are never reused.", "quantifier": "every dynamics, termination function and number of steps", "why_tests_cant": "unbounded rollouts with arbitrary terminations", "anchors": ["emote/models/model_env.py:ModelEnv"]}
{"id": "C71", "title": "Simulated transitions follow the model", "statement": "For every agent in ModelEnv, each next observation is the model's prediction from that agent's previous observation and action.", "quantifier": "every dynamics, termination function and number of steps", "why_tests_cant": "depends on the history of terminations", "anchors": ["emote/models/model_env.py:ModelEnv.dict_step", "emote/models/model_env.py:ModelEnv.step"]}
{"id": "C72", "title": "Normalizer inverts itself and never divides by zero", "statement": "After any history of updates the normalizer's standard deviation is at least its epsilon and denormalize(normalize(x)) = x.", "quantifier": "every history of batches and every x", "why_tests_cant": "continuum of inputs and unbounded histories", "anchors": ["emote/models/model.py:Normalizer"]}
{"id": "C73", "title": "Soft target updates are convex combinations", "statement": "soft_update_from_to moves each target parameter to tau*source+(1-tau)*target, so repeated updates with a fixed source approach it geometrically and never overshoot.", "quantifier": "every parameter list, tau in [0,1], number of updates", "why_tests_cant": "unbounded number of updates", "anchors": ["emote/algorithms/sac.py:soft_update_from_to"]}
{"id": "C74", "title": "AgentProxy answers exactly the agents that need an answer, each with its own action", "statement": "The response mapping contains exactly the agents whose episode state is not terminal, and each agent's entry is the policy output for that agent's own observation row.", "quantifier": "every set of agents in every mix of states and order", "why_tests_cant": "any batch composition", "anchors": ["emote/proxies.py:GenericAgentProxy", "emote/algorithms/sac.py:FeatureAgentProxy"]}
{"id": "C75", "title": "Weight-decay groups partition the parameters", "statement": "ModifiedAdamW puts every parameter of the network into exactly one of the two groups (with / without weight decay).", "quantifier": "every module tree and exclusion set", "why_tests_cant": "arbitrary module trees", "anchors": ["emote/optimizers.py:separate_modules_for_weight_decay"]}
{"id": "C76", "title": "HL-Gauss targets are probability distributions and estimates stay in range", "statement": "transform_to_probs yields non-negative bin weights summing to one for every target, q_from_logit always lies within [min_value, max_value], and QLoss trains towards the distribution of the value of the range nearest to the target, even where the error function saturates.", "quantifier": "all reals, every number of bins", "why_tests_cant": "continuum of inputs", "anchors": ["emote/algorithms/hlgauss.py:HLGaussLoss"]}
{"id": "C77", "title": "TensorboardLogger writes every metric once, under its own tag", "statement": "At the end of a cycle TensorboardLogger writes for every loggable every scalar with its value, every window's mean, every cumulative value and the two rates, all at the current bp_step and nothing else; the tag is the key with _bp_step after its first path component, and different keys have different tags.", "quantifier": "every list of loggables with any contents, every counter value", "why_tests_cant": "arbitrary keys and histories", "anchors": ["emote/callbacks/logging.py:TensorboardLogger.end_cycle"]}
{"id": "C78", "title": "BlockTimers reports the statistics of the blocks run under each name", "statement": "For every name, BlockTimers.stats() is the mean and the population variance of the durations of the last 100 blocks run under that name, however blocks of different names nest or interleave.", "quantifier": "every number of blocks, names and nesting", "why_tests_cant": "unbounded histories and every way of nesting", "anchors": ["emote/utils/timed_call.py:TimedBlock", "emote/utils/timed_call.py:BlockTimers", "emote/utils/timed_call.py:MovingWindowAccumulator"]}
{"id": "C79", "title": "The model-based collector writes well-formed episodes", "statement": "Every batch that ModelBasedCollector collects adds, for each simulated agent, one well-formed piece of an episode to the memory (it starts with an initial observation and is never mixed with another agent's), and nothing of it stays behind unfinished after the next reset.", "quantifier": "every number of batches, agents, rollout length, termination pattern", "why_tests_cant": "unbounded histories and arbitrary termination patterns", "anchors": ["emote/models/callbacks.py:ModelBasedCollector", "emote/models/model_env.py:ModelEnv", "emote/memory/memory.py:MemoryTableProxy.add"]}
{"id": "C80", "title": "DynamicModel.sample inverts process_batch", "statement": "If the network reproduces its normalised training target exactly, DynamicModel.sample returns the next observations and rewards of the training batch, for any no_delta_list, observation preprocessing and earlier training history.", "quantifier": "every history of batches, every no_delta_list and obs_process_fn", "why_tests_cant": "continuum of inputs and unbounded histories", "anchors": ["emote/models/model.py:DynamicModel.process_batch", "emote/models/model.py:DynamicModel.sample"]}
{"id": "C81", "title": "A loaded dynamics model predicts what the saved one predicted", "statement": "After save() and load() into a newly built DynamicModel, sample() gives the same results as before saving.", "quantifier": "every training history before the save", "why_tests_cant": "any history", "anchors": ["emote/models/model.py:DynamicModel.save", "emote/models/model.py:DynamicModel.load"]}
{"id": "C82", "title": "The ensemble's log variance stays within its bounds", "statement": "The log variance that EnsembleOfGaussian.forward returns lies between min_logvar and max_logvar, and grows with the raw prediction.", "quantifier": "all real predictions, bounds and ensemble sizes", "why_tests_cant": "continuum of inputs", "anchors": ["emote/models/ensemble.py:EnsembleOfGaussian.default_forward"]}
{"id": "C83", "title": "Restoring ModifiedAdamW gives every parameter its own moments", "statement": "When the state of a ModifiedAdamW optimizer is saved and loaded by another process that built the same network, every parameter gets the moments that were saved for it.", "quantifier": "every network and every order in which Python iterates over a set of strings", "why_tests_cant": "the iteration order changes with the process (hash randomisation)", "anchors": ["emote/optimizers.py:ModifiedAdamW", "emote/callbacks/loss.py:LossCallback.state_dict"]}
{"id": "C84", "title": "A convolutional encoder returns what its reported output size says", "statement": "For every Conv2dEncoder or Conv1dEncoder that can be built, and every input of the declared shape (channels first or last), whenever forward returns, the result has the shape that get_encoder_output_size() reports; and forward returns exactly when the kernel of every layer fits its padded input.", "quantifier": "all input shapes, channel counts, kernel sizes, strides, paddings, numbers of layers, weights and inputs", "why_tests_cant": "unbounded settings and inputs", "anchors": ["emote/nn/layers.py:Conv2dEncoder", "emote/nn/layers.py:Conv1dEncoder"]}
{"id": "C85", "title": "FrameStack shows the last n frames of the current episode", "statement": "After any sequence of reset and step calls, also when observations returned earlier are looked at in between or later, each observation is the channel-wise concatenation, oldest first, of the last n frames of its episode at the time it was returned, where the first frame stands in for missing ones; no later call changes it.", "quantifier": "every environment, n, and sequence of calls", "why_tests_cant": "every history, including late looks at lazy observations", "anchors": ["emote/env/wrappers.py:FrameStack", "emote/env/wrappers.py:LazyFrames"]}
{"id": "C86", "title": "ScaledFloatFrame stays in its declared observation space", "statement": "Every pixel that ScaledFloatFrame returns for a pixel between 0 and 255 lies in the space it declares.", "quantifier": "all pixels", "why_tests_cant": "a test with bright pixels passes", "anchors": ["emote/env/wrappers.py:ScaledFloatFrame"]}
{"id": "C87", "title": "Image augmentation blanks one rectangle per image and nothing else", "statement": "ImageAugmentor returns the batch (with noise when the draw says so) in which each image is zeroed in exactly one rectangle inside the image whose relative size is between the two bounds; the fast variant uses the same rectangle for all images, the per-batch variant the same size; and the batch that was passed in is left as it was.", "quantifier": "all batches, sizes, bounds below one and random draws", "why_tests_cant": "every random draw", "anchors": ["emote/nn/curl.py:ImageAugmentor"]}
{"id": "C88", "title": "AMP rewards pair each step with the observation that follows it", "statement": "AMPReward adds to the reward of each step of a batch of rollouts the weight times the style reward 1 - (p-1)^2/4 of the discriminator's prediction p for that step's observation and the observation that follows it in the same rollout (the rollout's final next observation at its end), and changes nothing else; the style reward is at most 1, and 1 exactly for p = 1; a batch that is not made of whole rollouts, or whose rewards are not one column with one entry per step, is refused.", "quantifier": "all discriminators, state maps, weights, rollout lengths, batch sizes, observations and rewards", "why_tests_cant": "every batch size and rollout length; a test with rollouts of length one cannot see a wrong pairing", "anchors": ["emote/algorithms/amp.py:AMPReward"]}
{"id": "C89", "title": "The discriminator's loss is zero exactly for a perfect discriminator", "statement": "The loss of the AMP discriminator is the average squared distance of the scores of imitation pairs from 1, plus that of the policy's pairs from -1, plus the weighted average squared length of the score's gradient at the imitation pairs; it is never negative, and for a positive weight it is zero exactly when all imitation pairs score 1, all policy pairs score -1 and the score is flat at the imitation pairs; batches whose size is not the stated one are refused. The action symmetry loss is the same for the right and left parts of the actions.", "quantifier": "all differentiable discriminators, state maps, weights and batches", "why_tests_cant": "all discriminators and batches", "anchors": ["emote/algorithms/amp.py:DiscriminatorLoss", "emote/algorithms/amp.py:gradient_loss_function", "emote/algorithms/action_symmetry.py:ActionSymmetryDiscriminatorLoss"]}
{"id": "C90", "title": "The action symmetry reward is bounded and rewards confusion", "statement": "ActionSymmetryAMPReward adds to the reward of each action the weight times a confusion reward that depends only on the scores of the right and left parts of that same action, lies between 0 and 2 whatever the discriminator says, and is 2 exactly when the right part is scored -1 or less and the left part 1 or more.", "quantifier": "all discriminators, action layouts, weights and batches", "why_tests_cant": "all scores, also far outside of the labels", "anchors": ["emote/algorithms/action_symmetry.py:ActionSymmetryAMPReward", "emote/algorithms/action_symmetry.py:_get_action_mapping_fn"]}
{"id": "C91", "title": "Every loss trains with its own batch's gradient only, clipped", "statement": "However many losses share parameters, and in whatever order their backward passes run, every optimizer step uses exactly the gradient of its own loss on its own batch, shortened to at most max_grad_norm if it is longer and otherwise unchanged; no gradient of an earlier batch or of another loss leaks into it, and parameters of other optimizers keep their values. The logged norm is the one before clipping.", "quantifier": "all numbers of losses, sharing of parameters, call orders, gradients, optimizers, norm bounds and leftover gradients", "why_tests_cant": "interleavings of losses over shared parameters are unbounded, and a leak depends on the whole history", "anchors": ["emote/callbacks/loss.py:LossCallback.backward"]}
{"id": "C92", "title": "Training resumed from a checkpoint goes on as if it had never stopped", "statement": "Saving all losses and loading them into freshly built ones restores networks, optimizer states and learning rates, and from there on training develops as it would have without the interruption; load_weights and load_optimizers select what is loaded.", "quantifier": "all losses, optimizers, schedules, histories before and after the checkpoint", "why_tests_cant": "every crash point of every training", "anchors": ["emote/callbacks/loss.py:LossCallback.state_dict", "emote/callbacks/loss.py:LossCallback.load_state_dict", "emote/algorithms/sac.py:QTarget"]}
{"id": "C93", "title": "The entropy weight is shared, capped and driven towards the target entropy", "statement": "The policy loss and the Q target always use the very alpha that AlphaLoss trains, also after loading; after every batch alpha is at most max_alpha; a gradient step raises alpha exactly when the mean entropy of the batch is below the target; the target is minus the number of actions, or makes one step of its schedule per batch; loading without weights leaves alpha alone.", "quantifier": "all histories of optimizer steps, batches and loads, all schedules and batches", "why_tests_cant": "the tensor is shared by three callbacks and written in place by several methods in any order", "anchors": ["emote/algorithms/sac.py:AlphaLoss.loss", "emote/algorithms/sac.py:AlphaLoss.end_batch", "emote/algorithms/sac.py:AlphaLoss.load_state_dict"]}
{"id": "C94", "title": "Policy actions are bounded and their log-probabilities exact", "statement": "A Gaussian policy returns, for every observation, the tanh of a normal variable whose mean lies in [-5, 5] and whose standard deviation lies in [exp(-20), exp(2)], so that every action lies strictly between -1 and 1; the same noise gives the same action in training and in evaluation mode; the log-probability returned with it is the logarithm of the density of that very action under the squashed distribution; observations of another width are refused.", "quantifier": "all layer sizes, weights, batches of observations and noise", "why_tests_cant": "the correction term of the tanh transform is only right for all arguments or not at all, and a wrong one trains silently", "anchors": ["emote/nn/gaussian_policy.py:GaussianPolicyHead.forward", "emote/nn/gaussian_policy.py:GaussianMlpPolicy"]}
{"id": "C95", "title": "A value network scores each observation with its own action", "statement": "An action value network returns one value per row, a function of that row's observation and action only, with the observation first; batches that do not pair up or have other widths than declared are refused; behind a shared encoder it sees the encoded observation.", "quantifier": "all layer sizes, weights and batches", "why_tests_cant": "mixing rows or swapping the two inputs goes unnoticed for suitable sizes", "anchors": ["emote/nn/action_value_mlp.py:ActionValueMlp.forward", "emote/nn/action_value_mlp.py:SharedEncoderActionValueNet.forward"]}
{"id": "C96", "title": "Critic and policy losses measure what they claim", "statement": "The critic loss is the mean squared error against the target, zero exactly when every value equals its target; for discrete actions only the values of the actions taken count, and an action outside the range is refused; the policy loss is the average of alpha times log-probability minus the smaller of the two values, never more optimistic than with either network alone.", "quantifier": "all batches, values, targets, actions and entropy weights", "why_tests_cant": "a loss that is merely correlated with the right one passes convergence tests", "anchors": ["emote/algorithms/sac.py:QLoss.loss", "emote/algorithms/sac.py:PolicyLoss.loss", "emote/algorithms/dqn.py:QLoss.loss"]}
{"id": "C97", "title": "The autoencoder loss is reconstruction error plus divergence", "statement": "The variational autoencoder samples its latent as mean plus standard deviation times noise; its loss is the mean squared reconstruction error plus beta times the divergence of the latent distribution from the standard normal one; both parts are never negative, the first is zero exactly for a perfect reconstruction and the second exactly for standard normal latents.", "quantifier": "all encoders, decoders, batches, noise and weights", "why_tests_cant": "a wrong divergence term still lets the loss fall", "anchors": ["emote/algorithms/genrl/vae.py:VariationalAutoencoder.forward", "emote/algorithms/genrl/vae.py:VariationalAutoencoder.loss"]}
{"id": "C98", "title": "A memory with an encoder holds the responses with latent actions", "statement": "Adding through MemoryProxyWithEncoder is the same as adding to the plain memory proxy the same responses with their actions replaced by the encoder's latents; responses with empty actions pass unchanged; a response that cannot be encoded is refused before anything is stored.", "quantifier": "all encoders, observations, responses, proxy configurations and states", "why_tests_cant": "the replacement has to keep every other column, for every set of agents", "anchors": ["emote/algorithms/genrl/proxies.py:MemoryProxyWithEncoder.add"]}
{"id": "C99", "title": "Latent actions mean the same when acting and when learning", "statement": "A wrapped policy acts by decoding its latent action; if the encoder inverts the decoder, the latent action stored in memory is the one the policy chose; a checkpoint of the autoencoder loads into its halves by name, one of something else is refused.", "quantifier": "all policies, decoders, conditions, multipliers, observations and checkpoints", "why_tests_cant": "acting and storing happen in different classes and are only consistent as a whole", "anchors": ["emote/algorithms/genrl/wrappers.py:DecoderWrapper", "emote/algorithms/genrl/wrappers.py:EncoderWrapper", "emote/algorithms/genrl/wrappers.py:PolicyWrapper"]}
{"id": "C100", "title": "The contrastive loss is the cross entropy of picking the own augmentation", "statement": "The CURL loss of a batch is the average of minus the log of the probability with which an image, compared with the augmentations of all images of the batch by the bilinear similarity, picks its own; with a temperature the similarities are divided by it; without one they are only shifted for numerical stability, which does not change the loss; the loss is never negative; without a projection layer any output size of the encoder works.", "quantifier": "all encoders, batches, matrices and temperatures", "why_tests_cant": "a misaligned shift still gives a plausible number that falls during training", "anchors": ["emote/nn/curl.py:CurlLoss._loss", "emote/nn/curl.py:CurlLoss.__init__"]}
{"id": "C101", "title": "The target projection follows the encoder's", "statement": "After construction the projection layer of CURL's target encoder equals that of the encoder; after every batch it moves towards the encoder's by the fraction tau.", "quantifier": "all projection weights, fractions tau and training histories", "why_tests_cant": "needs the whole history of updates, and a target that does not move still trains", "anchors": ["emote/nn/curl.py:CurlLoss.end_batch", "emote/nn/curl.py:soft_update_from_to"]}
{"id": "C102", "title": "An ensemble predicts the average of its members", "statement": "For a batch, an ensemble of Gaussian models predicts mean and log variance as the averages of the predictions of its members, each computed by that member's own weights from the same inputs; a sample is the mean, plus, unless the ensemble is deterministic, noise scaled by the predicted standard deviation.", "quantifier": "all sizes, numbers of layers and members, weights, bounds, batches and noise", "why_tests_cant": "members are computed by one batched product whose axes could be mixed up without changing any shape", "anchors": ["emote/models/ensemble.py:EnsembleOfGaussian.forward", "emote/models/ensemble.py:EnsembleOfGaussian.sample", "emote/models/ensemble.py:EnsembleLinearLayer"]}
{"id": "C103", "title": "Every member is trained on the likelihood of the targets", "statement": "The loss of an ensemble is the sum over the members of minus the average log-likelihood of the targets under the member's own prediction (up to a constant, with variances of at least a millionth), plus a hundredth of the distance of the log-variance bounds; it is least exactly at a mean equal to the target and a variance equal to the squared error; the deterministic model's loss is the mean squared error.", "quantifier": "all sizes, weights, bounds, inputs and targets, with one batch for all members or one for each", "why_tests_cant": "the loss may be any number, so a test cannot tell a wrong one", "anchors": ["emote/models/ensemble.py:EnsembleOfGaussian.loss", "emote/models/model.py:DeterministicModel.loss"]}
{"id": "C104", "title": "Final checks fail every run that missed its target", "statement": "A check of final losses ends the training as passed exactly if the loss last logged by every given callback is a number at most its cutoff, and fails the training otherwise; a check of the reward passes exactly if the last reward, or the mean of its window, is a number at least the cutoff; a value never logged is an error.", "quantifier": "all lists of callbacks and cutoffs, all logged values including \"not a number\"", "why_tests_cant": "a check that lets a bad run through looks exactly like a good run", "anchors": ["emote/callbacks/testing.py:FinalLossTestCheck.end_cycle", "emote/callbacks/testing.py:FinalRewardTestCheck.end_cycle"]}
{"id": "C105", "title": "The progress check compares windows of the whole run", "statement": "The errors of the model are averaged over consecutive windows of a tenth of the run, with each batch in exactly one window; the run passes exactly if all errors are numbers and no window's average, of observations or rewards, exceeds the one four windows earlier.", "quantifier": "all run lengths and sequences of batches, predictions and outcomes", "why_tests_cant": "the windows depend on the length of the run and on every error in it", "anchors": ["emote/models/callbacks.py:LossProgressCheck"]}
{"id": "C106", "title": "The batch sampler mixes model data in with the scheduled probability", "statement": "In every step the sampler hands on a batch of the model's buffer exactly if the number drawn is below the scheduled probability of that step, which goes linearly from its first to its last value, and the received batch otherwise; batches come in the loader's order, starting over when it is exhausted.", "quantifier": "all schedules, draws, loaders and numbers of steps", "why_tests_cant": "which batch is used depends on draws and on the history of the loader", "anchors": ["emote/models/callbacks.py:BatchSampler", "emote/extra/schedules.py:BPStepScheduler.evaluate_at"]}
{"id": "C107", "title": "Everything logged is sent to Weights and Biases", "statement": "At every log interval everything the given callbacks have logged (scalars, means of windows, cumulative values, images, videos) is sent under its own tag, together with the rates and the step; the terminal logger writes a line for every scalar.", "quantifier": "all callbacks and logged values", "why_tests_cant": "a collision of tags loses values silently", "anchors": ["emote/callbacks/wb_logger.py:WBLogger.end_cycle", "emote/callbacks/logging.py:TerminalLogger"]}
{"id": "C108", "title": "The memory growth that is logged adds up", "statement": "The system logger logs memory and load in every cycle, and the growth per step since the cycle before, so that over any history of cycles the rates times the steps add up to the whole growth; two cycles at one step do not divide by zero.", "quantifier": "all histories of memory sizes and steps", "why_tests_cant": "it is a statement about whole histories", "anchors": ["emote/extra/system_logger.py:SystemLogger.end_cycle"]}
{"id": "C109", "title": "Builder tables deliver the observations of the space", "statement": "A table made by DictObsMemoryTable or DictObsNStepMemoryTable for a space returns, for every sample it can draw, a batch whose \"observation\" and \"next_observation\" dictionaries have exactly the observations of the space: at each step of the drawn windows and one step later (n-step: the one after the window), together with actions, rewards, dones that are one exactly at the last transition of an episode and masks that are zero exactly there.", "quantifier": "every space, column dtype conversion, terminal option, history of adds, samples and resizes, sampler, batch size, window length and random draw", "why_tests_cant": "Tests use one or two observation names and one episode length; names that collide with the table's own names fail only for particular spaces", "anchors": ["emote/memory/builder.py:DictObsMemoryTable", "emote/memory/builder.py:DictObsNStepMemoryTable", "emote/memory/builder.py:DictMemoryTable", "emote/memory/adaptors.py:DictObsAdaptor"]}
{"id": "C110", "title": "Legacy dumps are loaded episode by episode", "statement": "fill_table_from_legacy_file adds every episode of the dump of more than ten steps exactly once and in order, each under its own negative identity, with the observations, actions and rewards of its steps and the observation that follows its last step; episodes split exactly at the done flags.", "quantifier": "every dump: any number of steps and any positions of the done flags, any choice of what to read", "why_tests_cant": "A test has one dump; off-by-one errors at episode boundaries and at the end of the dump depend on where the flags lie", "anchors": ["emote/memory/loading.py:fill_table_from_legacy_file"]}
{"id": "C111", "title": "A memory is imported from the file that was checked", "statement": "MemoryImporterCallback restores the table from \"<directory>/<override or target name + _export>\" exactly if that path with \".zip\" exists, and raises FileNotFoundError without restoring otherwise.", "quantifier": "every directory and file name, with or without override, and every state of the file system", "why_tests_cant": "Tests import one file", "anchors": ["emote/memory/callbacks.py:MemoryImporterCallback.restore_state", "emote/memory/table.py:ArrayMemoryTable.restore"]}
{"id": "C112", "title": "Adaptors change the columns they name and nothing else", "statement": "DictObsAdaptor moves each named column (and its next column) under its output name, KeyScaleAdaptor multiplies every element of its column, KeyCastAdaptor converts its column to the dtype; all other columns stay as they were, a missing column is a KeyError, and output names that do not match the keys in number are rejected.", "quantifier": "every batch, every list of keys and output keys, scale and dtype", "why_tests_cant": "Tests use one batch and do not look at the dtype afterwards", "anchors": ["emote/memory/adaptors.py:DictObsAdaptor", "emote/memory/adaptors.py:KeyScaleAdaptor", "emote/memory/adaptors.py:KeyCastAdaptor"]}
{"id": "C113", "title": "A collector records exactly the episodes its environments play", "statement": "Training with a GymCollector (any number of environments, any agent that answers everyone who waits) never raises; the calls of memory.add describe, for every agent identity, exactly one episode of one environment: the observation of a reset, then for each action the agent gave the reward and observation of the environment's step from that very state, up to the final observation, also when the environments reset themselves; an episode that ended by itself is reported as TERMINAL, one cut off by a time limit as INTERRUPTED. Every environment has an agent waiting at every step. Whatever is later sampled from the memory filled this way (with other uses of the table in between) is a step some environment made with an answer the agent gave.", "quantifier": "all environments (deterministic functions of their state), agents, numbers of environments and of collection steps, memory layouts, samplers and draws, interleavings with other table uses", "why_tests_cant": "the property relates every row of every batch to a step in the history of some environment across agent renaming and automatic resets; tests run one toy environment for a few steps", "anchors": ["tests/gym/dict_gym_wrapper.py:DictGymWrapper", "tests/gym/collector.py:GymCollector", "emote/memory/memory.py:MemoryTableProxy.add", "emote/proxies.py:GenericAgentProxy"]}
{"id": "C114", "title": "The logged episode reward is the mean total reward of the episodes that ended", "statement": "The value logged as episode/reward at a collection step is the mean, over the agents whose episode ended in that step, of the sum of all rewards of their episodes, and nothing is logged when no episode ended.", "quantifier": "all environments, agents, numbers of environments, collection steps", "why_tests_cant": "sums over whole episodes for every interleaving of episode ends over the environments", "anchors": ["tests/gym/dict_gym_wrapper.py:DictGymWrapper.dict_step", "tests/gym/collector.py:GymCollector.collect_data"]}
{"id": "C115", "title": "inf_step counts the environment steps that were collected", "statement": "The inf_step that a SimpleGymCollector returns after any number of batches is the number of environment steps collected so far, warmup included.", "quantifier": "all numbers of environments, bp_steps_per_inf, warmup steps and sequences of batches", "why_tests_cant": "a counter over all histories of batches", "anchors": ["tests/gym/collector.py:SimpleGymCollector"]}
{"id": "C116", "title": "A ThreadedGymCollector stops cleanly", "statement": "For every schedule of the two threads: after end_training returned, the collecting thread has ended, nothing is added to the memory any more and the environment was closed; the environment is never used after it was closed; after the flag is set at most one more collection step finishes, and end_training can always return.", "quantifier": "all interleavings of the training thread and the collecting thread, at the granularity of reading the flag and one collect_data", "why_tests_cant": "thread schedules cannot be enumerated by tests", "anchors": ["tests/gym/collector.py:ThreadedGymCollector"]}
{"id": "C117", "title": "HitTheMiddle behaves as documented by its spaces", "statement": "For all actions and all random starts the position moves by the velocity, stays in [-10, 10] and bounces at the wall it hits, the reward is minus the square of the position (so never positive), and an episode lasts exactly 31 steps.", "quantifier": "all sequences of real actions and all random starts", "why_tests_cant": "real-valued action sequences of any length", "anchors": ["tests/gym/hit_the_middle.py:HitTheMiddle"]}
{"id": "C118", "title": "Histograms, images and videos show what was logged last", "statement": "After any history of log_histogram calls, a key's histogram is the collection given by the last call, or, if single numbers were logged, the last N of them (N the window length); no call raises. The image and the video kept for a key are the last ones logged. Calls of the different logging methods do not interfere: each log is what the calls of its own method make of it.", "quantifier": "all histories of log_histogram, log_image and log_video calls, all keys, all values", "why_tests_cant": "the result depends on the whole history of calls, on mixtures of value kinds, and on its length", "anchors": ["emote/mixins/logging.py:LoggingMixin.log_histogram", "emote/mixins/logging.py:LoggingMixin.log_image", "emote/mixins/logging.py:LoggingMixin.log_video"]}
{"id": "C119", "title": "get_report answers with window mean, window and total", "statement": "After any history of report calls, get_report gives for each key asked for the mean of the values in its window, those values, and the sum of all values ever reported (for a histogram key the mean of the histogram), the number of inferences as inf_step, and nothing else; the answer does not depend on the order of the keys.", "quantifier": "all histories of report calls with numbers and lists, all sets of keys and all orders in which they are iterated", "why_tests_cant": "histories are unbounded, and the iteration order of a set differs between processes", "anchors": ["emote/memory/memory.py:LoggingProxyWrapper.report", "emote/memory/memory.py:LoggingProxyWrapper.get_report"]}
{"id": "C120", "title": "Logging metadata does not interfere with storing", "statement": "Wrapping a proxy into LoggingProxyWrapper changes nothing about what is stored: for any history of add calls and any metadata in the observations, each call reaches the wrapped proxy with the same arguments and has the same outcome, and the number of observations is counted.", "quantifier": "all wrapped proxies, all log intervals, all histories of add calls with all metadata", "why_tests_cant": "metadata comes from game clients and is unbounded; one bad value can have an effect many calls later", "anchors": ["emote/memory/memory.py:LoggingProxyWrapper.add", "emote/memory/memory.py:LoggingProxyWrapper.report", "emote/memory/memory.py:LoggingProxyWrapper._end_cycle"]}
{"id": "C121", "title": "Every cycle writes every metric under its own tag", "statement": "After every N-th add call and only then, the mean of the window and the total of every reported metric, every histogram, the completed episodes and the inference rates are written, all at the number of observations so far; two metrics never share a tag.", "quantifier": "all log intervals, all histories of add calls with sound metadata, all metric names", "why_tests_cant": "the content of each write depends on the whole history since the start", "anchors": ["emote/memory/memory.py:LoggingProxyWrapper._end_cycle", "emote/mixins/logging.py:LoggingMixin.log_windowed_scalar"]}
{"id": "C122", "title": "Per-parameter logs: every optimized parameter under its own key", "statement": "With log_per_param_weights or log_per_param_grads, after every backward pass the norm and the values of each optimized parameter (of its gradient, if it has one) are logged under a key of its own that states kind, loss, path and shape; parameters that are not optimized are not logged.", "quantifier": "all networks, all parameter names and shapes, all sets of optimized parameters", "why_tests_cant": "names are joined by underscores; whether two of infinitely many names collide cannot be tested", "anchors": ["emote/callbacks/loss.py:LossCallback.log_per_param_weights_and_grads"]}
{"id": "C123", "title": "The HL-Gauss loss is minimal exactly at the target distribution", "statement": "For every batch of logits and targets the HL-Gauss Q loss is the mean cross entropy between the target distributions and the predicted ones; it is never below the mean entropy of the targets and equals it exactly when every prediction is its target distribution (which can be reached); adding a constant to all logits of an observation changes nothing; a wrong number of bins or targets raises.", "quantifier": "all batches of real logits and targets, all ranges, numbers of bins and smoothing ratios, every error function that never decreases", "why_tests_cant": "an inequality over real vectors of any size with an equality case", "anchors": ["emote/algorithms/hlgauss.py:HLGaussLoss.forward", "emote/algorithms/hlgauss.py:QLoss.loss", "emote/algorithms/hlgauss.py:QNet.q_from_logit"]}
{"id": "C124", "title": "A fully trained HL-Gauss Q network predicts its target", "statement": "The Q network answers with one column of values within the range, and a prediction that minimises the loss for a target equals that target (clamped to the range).", "quantifier": "all logits, all targets, all ranges and numbers of bins", "why_tests_cant": "a statement about the minimiser over all real targets; a test can only look at a training run", "anchors": ["emote/algorithms/hlgauss.py:QNet.forward", "emote/algorithms/hlgauss.py:QLoss.loss"]}
{"id": "C125", "title": "Memory proxy wrappers forward methods and properties, and only those", "statement": "Through any stack of memory proxy wrappers, a method or property that the wrappers do not define is that of the first inner object defining it; anything else raises AttributeError; a wrapper's own methods come first. So size, resize, is_initial, timers and name always reach the memory proxy.", "quantifier": "all stacks of wrappers of any depth, all classes and instances with any mixture of methods, properties, static and class methods and plain attributes, all names", "why_tests_cant": "stacks and class layouts are unbounded; tests have three wrappers", "anchors": ["emote/memory/memory.py:MemoryProxyWrapper", "emote/memory/memory.py:MemoryTableProxyWrapper", "emote/memory/memory.py:MemoryTableProxy"]}
{"id": "C126", "title": "An agent proxy in a wrapper behaves like the agent proxy", "statement": "AgentProxyWrapper has the input names, output names and policy of the wrapped agent proxy, and a call answers what the wrapped proxy answers.", "quantifier": "all agent proxies and all observations", "why_tests_cant": "must hold for every wrapped proxy", "anchors": ["emote/algorithms/sac.py:AgentProxyWrapper"]}
{"id": "C127", "title": "Every override of a hook or extended method gets its arguments by name and group", "statement": "On every callback instance, each of the eight hooks and each method marked with Callback.extend is adapted (arguments by name, from the instance's data group if it has one, else from the class's DATA_GROUP) exactly when a class of its hierarchy overrides the base version; no other method is touched; creating the instance never fails because of this.", "quantifier": "all class hierarchies with any bases, mixins and names, all resolution orders, all data groups", "why_tests_cant": "must hold for every hierarchy a user may write; tests use the few callbacks of the library", "anchors": ["emote/callback.py:CallbackMeta.__init__", "emote/callback.py:CallbackMeta.__call__", "emote/callback.py:CallbackMeta.extend"]}
{"id": "C128", "title": "The minimum tree gives the minimum of a range", "statement": "After any assignments, MinSegmentTree.min(start, end) is the smallest of the current items start, ..., end-1, and one of them (infinity for items never set).", "quantifier": "all capacities, all histories of assignments, all ranges including negative and missing ends", "why_tests_cant": "quantifies over all histories and ranges", "anchors": ["emote/memory/segment_tree.py:MinSegmentTree", "emote/memory/segment_tree.py:MinSegmentTree.min"]}
{"id": "C129", "title": "Truncated normal numbers are within two standard deviations", "statement": "Whenever truncated_normal_ returns, every element of the tensor is within two standard deviations of the mean, elements that were on the first draw are kept, every element is a number that was drawn; it returns as soon as a round has no number outside.", "quantifier": "all tensors sizes, means and standard deviations, all sequences of random draws", "why_tests_cant": "the loop depends on the random draws; a test sees a few of them", "anchors": ["emote/utils/math.py:truncated_normal_"]}
{"id": "C130", "title": "Initialisers reach every layer of a network and nothing else", "statement": "Applied to any network, each initialiser gives every layer of the types it handles new weights with the documented distribution and a zero bias if it has one, wherever the layer is, and leaves all other parameters as they were; the truncated one uses the number of inputs of the layer, so that weights are at most one over its square root.", "quantifier": "all trees of modules, all layer sizes, with and without biases", "why_tests_cant": "quantifies over all network structures", "anchors": ["emote/nn/initialization.py:ortho_init_", "emote/nn/initialization.py:xavier_uniform_init_", "emote/nn/initialization.py:normal_init_", "emote/utils/model.py:normal_init", "emote/models/ensemble.py:truncated_normal_init", "emote/models/ensemble.py:EnsembleOfGaussian"]}
{"id": "C131", "title": "Tag columns survive a legacy import", "statement": "After a legacy restore the tag of every imported sequence reads the same under its new identity, and the memory can be stored again.", "quantifier": "all contents of a tag column", "why_tests_cant": "the second export after an import is never tested", "anchors": ["emote/memory/storage.py:TagStorage.post_import", "emote/memory/storage.py:TagStorage.__getitem__", "emote/memory/table.py:ArrayMemoryTable._serialize"]}
{"id": "C132", "title": "Q-targets are made of what one agent experienced", "statement": "Agents feed a memory through a proxy in any interleaving, with any other uses of the memory in between, and Q-targets are computed from a batch drawn from it. For every rollout of the batch there are one agent, one of its episodes and a position in it such that the target of each step of the rollout is the discounted sum of the (scaled) rewards that agent received from that step to the end of the rollout, plus the discounted value of what it observed right after the rollout - or nothing instead of that value when the agent's episode ended there and terminals are masked.", "quantifier": "all histories of agents and memory uses that respect the protocol, memory layouts, sampling and ejection strategies, random draws, batch sizes, rollout lengths, discounts, reward scales and value functions", "why_tests_cant": "the claim spans five components (proxy, table, sampler, column adaptors, target computation) and an off-by-one between any two of them gives targets that look plausible; a test looks at one component and a few numbers", "anchors": ["emote/memory/memory.py:MemoryTableProxy.add", "emote/memory/table.py:ArrayMemoryTable.sample", "emote/memory/adaptors.py", "emote/algorithms/sac.py:QTarget.begin_batch", "emote/utils/gamma_matrix.py"]}
{"id": "C133", "title": "Q-targets of collected data are the returns of environment episodes", "statement": "A collector plays any number of environments with an agent and feeds a memory through a proxy; Q-targets are computed from a batch drawn from that memory. For every rollout of the batch there are consecutive steps of an environment, inside one episode (after a reset, with no step but the last ending the episode), such that the target of each step of the rollout is the discounted sum of the (scaled) rewards the environment paid from that step on, plus the discounted value of the observation the environment showed after the last of them - or nothing instead of that value when that step ended the episode and terminals are masked.", "quantifier": "all environments, agents that answer every request, numbers of environments and collected steps, memory layouts, sampling and ejection strategies, random draws, batch sizes, rollout lengths, discounts, reward scales and value functions", "why_tests_cant": "the claim runs from the environments' step function to the numbers the critic is trained on; a reward attributed to the wrong step, an observation of the next episode or a reset in the middle of a rollout give targets that look plausible", "anchors": ["tests/gym/collector.py", "tests/gym/dict_gym_wrapper.py:DictGymWrapper.dict_step", "emote/memory/memory.py:MemoryTableProxy.add", "emote/memory/table.py:ArrayMemoryTable.sample", "emote/memory/adaptors.py", "emote/algorithms/sac.py:QTarget.begin_batch", "emote/utils/gamma_matrix.py"]}
{"id": "C134", "title": "Batches drawn while collectors run are made of completed additions", "statement": "Threads share one table: collectors add sequences while learners sample, in any interleaving. A batch that a sample call returns consists of the requested number of windows, each inside one sequence whose addition had returned before the sample call began (nothing half-written, nothing mixed from two sequences), the same windows in every column. When all threads have finished, a first-in-first-out table holds exactly the newest sequences that fit, in some order that keeps each thread's own order.", "quantifier": "all numbers of threads, programs of calls, interleavings of their steps, layouts, samplers, ejectors, random draws, batch sizes and window lengths", "why_tests_cant": "interleavings cannot be enumerated by tests, and a torn batch looks like a valid one", "anchors": ["emote/memory/table.py:ArrayMemoryTable.sample", "emote/memory/table.py:ArrayMemoryTable.add_sequence", "emote/memory/table.py:ArrayMemoryTable._lock"]}
{"id": "C135", "title": "A dynamics model's loss is the error of its predictions", "statement": "The loss a dynamics model (with a deterministic network) reports for a batch of transitions equals the mean squared difference between what the model, in the state the loss leaves it, predicts for the batch's observations and actions and what really followed (next observations and, if rewards are learned, rewards), each number measured in units of its running standard deviation. So a loss of zero means that the batch is predicted exactly, and no single prediction is further off than the loss allows. The loss is a number for every batch of two rows or more.", "quantifier": "all batches and histories of batches, sizes, networks, observation preprocessing functions and lists of dimensions predicted without delta", "why_tests_cant": "training and prediction go through different code (differences and normalisation on one side, denormalisation, reconstruction and slicing on the other); a mismatch between the two still lets the loss fall in a test", "anchors": ["emote/models/callbacks.py:ModelLoss.loss", "emote/models/model.py:DynamicModel.loss", "emote/models/model.py:DynamicModel.sample", "emote/models/model.py:DynamicModel.process_batch", "emote/models/model.py:Normalizer"]}
{"id": "C136", "title": "Q-targets come from moving averages of the networks", "statement": "Whatever the optimizers do to the Q-networks, the Q-targets of every batch are computed with target parameters that are the exponential moving average, with rate tau, of the network as it was at construction and after each earlier batch: number by number (1-tau)^n of the first value plus tau(1-tau)^age of each later one. For tau between 0 and 1 they never leave the range of the values the network has had. For soft actor-critic's two networks and for DQN's one.", "quantifier": "all networks, initial parameters, rates tau, numbers of batches and sequences of optimizer steps", "why_tests_cant": "a target that shares memory with its network, an update that runs before the optimizer step or from the wrong network of the two gives plausible numbers in a short test", "anchors": ["emote/algorithms/sac.py:QTarget", "emote/algorithms/sac.py:soft_update_from_to", "emote/algorithms/dqn.py:QTarget", "emote/trainer.py:Trainer.train"]}
{"id": "C137", "title": "Losses train and checkpoint exactly their own weights", "statement": "Every loss of the library (the Q, policy, alpha, dynamics model, VAE, discriminator and CURL losses), built with whatever arguments, updates exactly the parameters of its optimizer with a gradient cut to the given max_grad_norm, and when a training is saved and loaded into a new process every parameter that some loss trains has the value it had when it was saved, while parameters that belong to no loss stay as they are", "quantifier": "all sets of losses and constructor arguments, all sharing of parameters between them, all values at the time of saving and in the new process, all gradients", "why_tests_cant": "a test saves and loads one network; which weights are missing from a checkpoint depends on how every loss is wired and shows only as a silently worse resumed training", "anchors": ["emote/callbacks/loss.py:LossCallback", "emote/algorithms/sac.py:QLoss PolicyLoss AlphaLoss", "emote/algorithms/dqn.py:QLoss", "emote/algorithms/hlgauss.py:QLoss", "emote/models/callbacks.py:ModelLoss", "emote/algorithms/genrl/vae.py:VAELoss", "emote/algorithms/amp.py:DiscriminatorLoss", "emote/algorithms/action_symmetry.py:ActionSymmetryDiscriminatorLoss", "emote/nn/curl.py:CurlLoss", "emote/callbacks/checkpointing.py:Checkpointer"]}
{"id": "C138", "title": "A critic's loss compares its values of what agents saw and did with what they then experienced", "statement": "Let any number of agents act through the memory proxy and let the memory be sampled. For every batch, the loss that a Q-learning critic (or a soft actor critic's value network) is trained on equals the average, over all rollouts and all steps in them, of the squared difference between (a) the network's value of what one agent saw and did at one moment of one completed episode, and (b) the discounted rewards that same agent received from that moment to the end of the rollout plus the bootstrap value of what it saw there. The bootstrap is the greatest value of the target network (Q-learning) or the lower of two target values plus the entropy bonus (soft actor critic), and an episode that terminated contributes none. For a critic that predicts a histogram (HL-Gauss), the squared difference is replaced by the cross entropy between the network's histogram for (a) and the bins' shares of a normal distribution around (b), with (b) moved into the histogram's range first. Values and targets are never paired across agents, episodes or moments.", "quantifier": "every schedule of agents and observations, every memory configuration and eviction history, every draw of windows, every network, every discount, scale and rollout length", "why_tests_cant": "Pairing is preserved only if the proxy, the storage, the window arithmetic, the return recursion and the loss agree on one order of the rows; unit tests use one-step batches of identical rows, which hide a wrong pairing", "anchors": ["emote/algorithms/dqn.py:QTarget", "emote/algorithms/dqn.py:QLoss", "emote/algorithms/sac.py:QTarget", "emote/algorithms/sac.py:QLoss", "emote/algorithms/hlgauss.py:QLoss", "emote/memory/memory.py:MemoryTableProxy", "emote/memory/table.py:ArrayMemoryTable.sample"]}
{"id": "C139", "title": "A vision environment can be created, reset and stepped, and shows the last frames", "statement": "For every environment id, rank, seed and stacking and scaling setting, calling what make_vision_box2d_env returns gives an environment, seeded with seed + rank, that can be reset and stepped any number of times; each observation shows the frames the environment itself would have shown, in grey, 84 by 84 pixels, and lies in the declared observation space.", "quantifier": "every environment with gymnasium's interface, every setting, every sequence of reset and step", "why_tests_cant": "The wrappers need a display, OpenCV and Box2D, so the tests do not construct them; that step can never succeed is a statement about all environments", "anchors": ["emote/env/box2d/__init__.py:make_vision_box2d_env", "emote/env/wrappers.py:WarpFrame", "emote/env/wrappers.py:ScaledFloatFrame", "emote/env/wrappers.py:FrameStack"]}
{"id": "C140", "title": "Imagined experience is what the dynamics model predicts", "statement": "Training from the memory filled by a ModelBasedCollector sees only imagined experience: every episode in that memory starts with an observation of a batch of real data the collector was given, and at every step the next observation, the reward and the termination are what the dynamics model (with the reward and termination functions) gives for the observation and the action of that step; every transition drawn from the memory is such a step.", "quantifier": "all dynamics models, reward and termination functions, agents, rollout-length schedules, numbers of environments, sequences of batches, memories with any sampler and ejector, sampled batches and draws", "why_tests_cant": "episodes of many simulated agents are started, interrupted, replaced and interleaved for as long as training runs; tests look at one rollout of a fixed model", "anchors": ["emote/models/callbacks.py:ModelBasedCollector.begin_batch", "emote/models/callbacks.py:ModelBasedCollector.collect_sample", "emote/models/model_env.py:ModelEnv.dict_step", "emote/models/model_env.py:ModelEnv.dict_reset", "emote/memory/memory.py:MemoryTableProxy.add"]}
{"id": "C141", "title": "Policies, temperatures and dynamics models are trained on what agents experienced", "statement": "The loss of a soft actor-critic's policy on a batch drawn from the memory is the average, over observations that agents really made, of alpha times the log-probability of the policy's action there minus the (smaller) value the critics give it, and the loss of the temperature is the average over the same observations of ln alpha times the entropy surplus; a dynamics model's loss is the mean squared error of its predictions, for observations and actions that belonged together in some agent's history, against what that agent observed next and received.", "quantifier": "all histories of agents and memory operations, memory layouts, samplers, ejectors, batch sizes, rollout lengths and draws, all policies and value networks that work row by row, all dynamics networks and all earlier training batches", "why_tests_cant": "the row of a training batch passes through the proxy, the table, the sampler, virtual columns and the loss; a test can follow a few rows, not every history and every draw", "anchors": ["emote/algorithms/sac.py:PolicyLoss.loss", "emote/algorithms/sac.py:AlphaLoss.loss", "emote/models/callbacks.py:ModelLoss.loss", "emote/models/model.py:DynamicModel.loss", "emote/memory/table.py:ArrayMemoryTable.sample", "emote/memory/memory.py:MemoryTableProxy.add"]}
{"id": "C142", "title": "Adversarial imitation judges moves agents really made", "statement": "Let any number of agents act through the memory proxy and let the memory be sampled, with rollouts of any length. The reward AMPReward hands to the learner for every step is the reward the agent got for it plus the weighted style bonus of the discriminator's score of what that agent saw at that moment and at the moment after it, in the same episode. DiscriminatorLoss trains the discriminator on such moves only: those drawn from the reference memory towards 1 and those drawn from the agents' memory towards -1. Both work on the same batches, for every rollout length.", "quantifier": "every schedule of agents and observations, every memory configuration and eviction history, every draw of windows, every discriminator, state map, weight and rollout length", "why_tests_cant": "The unit tests build random tensors with one row per step and a rollout length of one; whether observations are paired with their successors inside sampled rollouts, and whether both callbacks accept the batches of one memory, depends on storage, windows and reshaping together", "anchors": ["emote/algorithms/amp.py:AMPReward", "emote/algorithms/amp.py:DiscriminatorLoss", "emote/memory/memory.py:MemoryTableProxy", "emote/memory/builder.py:DictObsNStepMemoryTable", "emote/memory/table.py:ArrayMemoryTable.sample"]}
{"id": "C143", "title": "An autoencoder of actions is trained on what agents did, under what they saw", "statement": "Let any number of agents act through the memory proxy and let the memory be sampled. For every batch the loss of the action autoencoder equals the average, over all steps drawn, of the mean squared difference between the action an agent took at one moment of one completed episode and its reconstruction from a latent drawn around the code of that action, plus beta times the penalty on that code. Encoder and decoder are conditioned on what the same agent saw at the same moment, and each step uses its own row of noise.", "quantifier": "every schedule of agents and observations, every memory configuration and eviction history, every draw of windows and noise, every encoder, decoder, condition, beta and rollout length", "why_tests_cant": "Pairing of actions with conditions is preserved only if storage, windows, encoder, decoder and reshaping agree on one order of rows; unit tests run the autoencoder on random tensors", "anchors": ["emote/algorithms/genrl/vae.py:VAELoss.loss", "emote/algorithms/genrl/vae.py:VariationalAutoencoder.forward", "emote/algorithms/genrl/vae.py:VariationalAutoencoder.loss", "emote/memory/memory.py:MemoryTableProxy", "emote/memory/table.py:ArrayMemoryTable.sample"]}
{"id": "C144", "title": "What a CRUDStorage lists while threads create and delete exists", "statement": "However create and delete calls of any number of threads interleave on one storage that nobody else touches, every item it lists was returned by some create call and its file is on disk; an item that was returned and that no one deletes stays listed; and once no call is under way, an item that was returned and is listed no more has left no file behind.", "quantifier": "every number of threads, every program of creates and deletes, every saver that writes only at its path, every schedule, every moment", "why_tests_cant": "it must hold at every point of every interleaving", "anchors": ["emote/extra/crud_storage.py:CRUDStorage.create_with_saver", "emote/extra/crud_storage.py:CRUDStorage.delete", "emote/extra/crud_storage.py:CRUDStorage.items"]}
{"id": "C145", "title": "CRUDStorage keeps its files in its folder, under documented names", "statement": "Every file a CRUDStorage creates is directly in its directory and is called {prefix}{timestamp}_{index}.{extension}, where index is the text of the returned handle; and create_from_filepath takes an existing file exactly if it is directly in that directory.", "quantifier": "every directory, prefix and extension, every history of calls, every file name", "why_tests_cant": "every prefix, extension and path text", "anchors": ["emote/extra/crud_storage.py:CRUDStorage.__init__", "emote/extra/crud_storage.py:CRUDStorage.create_with_saver", "emote/extra/crud_storage.py:CRUDStorage.create_from_filepath"]}
{"id": "C146", "title": "Contrastive learning compares augmentations of the images of the batch", "statement": "A step of CurlLoss scores every image of the batch, augmented, against every image of the same batch, augmented anew (or as it is, if augment_anchor_and_pos is off), with the own image as the right answer; augmenting leaves the images of the batch as they are, and the logged images are the first image of the batch and its two augmentations.", "quantifier": "every batch of images, every random draw, every encoder that looks at images one by one, both settings of augment_anchor_and_pos", "why_tests_cant": "every random draw and every network", "anchors": ["emote/nn/curl.py:CurlLoss.backward", "emote/nn/curl.py:CurlLoss._loss", "emote/nn/curl.py:ImageAugmentor.__call__"]}
{"id": "C147", "title": "Every batch of an experiment happened before, whatever the policy became meanwhile", "statement": "In a training with a SimpleGymCollector, a MemoryTableProxy, a MemoryLoader and any other callbacks, every rollout of every batch the trainer works on is a stretch of consecutive steps of one episode: each observation is the one the agent was shown, each action the agent's answer with the weights of that moment, each reward, mask and last next observation the environment's answer; and all of it happened before the batch was drawn.", "quantifier": "every environment, agent and callback that changes the policy during training, every memory configuration, random draw, number of steps and moment at which the run stops", "why_tests_cant": "policy, memory and trainer influence each other; the claim is about every history of that loop", "anchors": ["tests/gym/collector.py:SimpleGymCollector", "emote/trainer.py:Trainer.train", "emote/memory/memory.py:MemoryLoader.__iter__", "emote/memory/memory.py:MemoryTableProxy.add", "emote/memory/table.py:ArrayMemoryTable.sample"]}
{"id": "C148", "title": "An episode that fits the memory is stored, one that does not is refused", "statement": "Adding an episode to a memory succeeds whenever the episode is not longer than the memory's maximum length, however full the memory is and whatever was added, sampled or removed before: older episodes are dropped to make room. An episode that is longer than the maximum length is refused with an error, and the call returns.", "quantifier": "every table configuration, sampler and ejector; every history of operations; every new episode; every sequence of random draws", "why_tests_cant": "depends on the sum of what the ejector drops in every reachable state and on every sequence of random draws, and a call that never returns cannot be observed by a test", "anchors": ["emote/memory/table.py:ArrayMemoryTable.add_sequence", "emote/memory/uniform_strategy.py:UniformEjectionStrategy.sample", "emote/memory/coverage_based_strategy.py:CoverageBasedEjectionStrategy.sample", "emote/memory/fifo_strategy.py:FifoEjectionStrategy.sample"]}
{"id": "C149", "title": "An experiment with a terminator trains for exactly the steps it was given", "statement": "With a SimpleGymCollector, a MemoryTableProxy over a first-in first-out memory, a MemoryLoader, a terminator after n steps and other callbacks that do not raise, train() returns after exactly n batches and every callback had exactly n backward passes. The only other end is an error before the first batch, when the warmup left fewer steps in the memory than one batch needs. Nothing that happens during the run (episodes ending or cut off, old episodes being dropped, the policy changing) makes collecting, storing, drawing or a hook fail.", "quantifier": "every environment whose episodes fit in the memory; every agent that answers and whose policy any callback may change; every column layout, sampler, warmup, ratio, batch shape and number of steps; every sequence of random draws for which drawing ends", "why_tests_cant": "a failure needs a coincidence of episode lengths, memory size, draws and step number; tests run one short experiment with one of each", "anchors": ["emote/trainer.py:Trainer.train", "emote/callbacks/generic.py:BackPropStepsTerminator", "tests/gym/collector.py:SimpleGymCollector", "emote/memory/memory.py:MemoryLoader.__iter__", "emote/memory/memory.py:MemoryTableProxy.add", "emote/memory/table.py:ArrayMemoryTable.add_sequence"]}
{"id": "C150", "title": "A threaded experiment trains on what happened, and ends", "statement": "With a ThreadedGymCollector, a memory that keeps episodes and drops the oldest, and a MemoryLoader, every rollout in every batch of the training is a stretch of steps that an environment took with the actions the agent answered and that were added before the batch was drawn, whatever the schedule of the two threads. With a BackPropStepsTerminator after n steps and other callbacks that do not raise, train() returns after exactly n batches and n backward passes of each callback, or raises before its first batch because the memory holds too little, and the collecting thread has ended.", "quantifier": "every environment, agent, schedule of the two threads (by calls of collect_data), sequence of random numbers, callback behaviour, batch and rollout size, number of steps", "why_tests_cant": "a test runs one schedule of the two threads; the property ranges over all of them", "anchors": ["tests/gym/collector.py:ThreadedGymCollector", "emote/trainer.py:Trainer.train", "emote/memory/memory.py:MemoryLoader.__iter__", "emote/memory/memory.py:MemoryTableProxy.add", "emote/memory/table.py:ArrayMemoryTable.sample", "emote/callbacks/generic.py:BackPropStepsTerminator"]}
{"id": "C151", "title": "train() leaves no collecting thread behind and reports what went wrong in it", "statement": "When train() with a ThreadedGymCollector returns or raises, the collecting thread has ended; and if the environment, the agent or the memory raised in that thread, train() raises.", "quantifier": "every environment, agent, callback behaviour, schedule and data loader", "why_tests_cant": "it depends on where and when which callback or thread raises", "anchors": ["tests/gym/collector.py:ThreadedGymCollector", "emote/trainer.py:Trainer.train"]}
{"id": "C152", "title": "A training that returned has collected all it was to collect", "statement": "With a SimpleGymCollector, train() returns only if every collection succeeded: the memory was then added to once for each warmup step and once for every bp_steps_per_inf-th batch. An environment, an agent or a memory that raises makes train() raise.", "quantifier": "every environment, agent, memory and data loader (which may raise), callback behaviour that does not raise before a batch is worked on, warmup and bp_steps_per_inf, number of batches", "why_tests_cant": "exceptions can come at any point of a run of any length", "anchors": ["tests/gym/collector.py:SimpleGymCollector", "emote/trainer.py:Trainer.train"]}
{"id": "C153", "title": "In an experiment, Q-targets are returns of what the agents did", "statement": "For every batch of a training with a SimpleGymCollector or, whatever the schedule, a ThreadedGymCollector: the Q-targets computed from the batch (for any discount, reward scale, masking and value network) are, step by step, the discounted returns of stretches of steps inside an episode that an environment took with the actions an agent answered by the weights of that moment, and that were added before the batch was drawn.", "quantifier": "every environment, agent whose weights change, schedule, random numbers, callback behaviour, batch and rollout size, discount, reward scale and value network", "why_tests_cant": "episodes, batches and weight updates of arbitrary number and order are involved", "anchors": ["tests/gym/collector.py:SimpleGymCollector", "tests/gym/collector.py:ThreadedGymCollector", "emote/algorithms/sac.py:QTarget.begin_batch", "emote/trainer.py:Trainer.train", "emote/memory/memory.py:MemoryLoader.__iter__"]}
{"id": "C154", "title": "In an experiment, the critic learns from what happened", "statement": "In a training from a live gym collector (with or without a thread), for every batch and for every network, policy, target network, temperature, discount and reward scale: the loss that the critic of SAC (or DQN) computes from the batch is the mean, over the steps of the batch, of the squared difference between the value the network gives to what an agent saw and did in a step and the return that followed it: the rewards of that step and the next steps of the same episode up to the rollout's length, then the value of the observation reached (nothing if the episode ended there and terminals are masked). Each of those steps was taken by the agents, in one episode, before the batch was drawn.", "quantifier": "every environment, agent, number of environments, column layout and memory configuration, every warmup, schedule of the collecting thread, sampling and ejection draw, every batch of every training, and every network, policy, discount, reward scale and temperature", "why_tests_cant": "unit tests check the loss on tensors made up for the test, and the memory on sequences made up for the test; none follows an experiment from an environment's step to the loss computed from it, for every network and every schedule", "anchors": ["emote/algorithms/sac.py:QTarget.begin_batch", "emote/algorithms/sac.py:QLoss.loss", "emote/algorithms/dqn.py:QTarget.begin_batch", "emote/algorithms/dqn.py:QLoss.loss", "emote/memory/memory.py:MemoryTableProxy.add", "emote/memory/memory.py:MemoryLoader.__iter__", "emote/trainer.py:Trainer.train", "tests/gym/collector.py:ThreadedGymCollector.collect_forever"]}
{"id": "C155", "title": "In an experiment, the policy, its temperature and the dynamics model learn from what happened", "statement": "In a training from a live gym collector (with or without a thread), for every batch: the loss of SAC's policy is the average, over observations agents made in steps they had taken, of alpha times the log-probability of the policy's action there minus the (more cautious) critic's value of it; the temperature's loss is the average over the same observations of ln alpha times the missing entropy; and with rollouts of one step, the transitions a dynamics model is given are steps that were taken: what the agent saw, what the environment showed next (also when the episode ended there), what the agent did and what it received.", "quantifier": "every environment, agent, column layout and memory configuration, every warmup, schedule of the collecting thread, sampling and ejection draw, every batch of every training, and every policy, critic, temperature and target entropy", "why_tests_cant": "unit tests check these losses on tensors made up for the test; none follows an experiment from an environment's step to the loss computed from it, for every policy and every schedule", "anchors": ["emote/algorithms/sac.py:PolicyLoss.loss", "emote/algorithms/sac.py:AlphaLoss.loss", "emote/models/model.py:DynamicModel", "emote/memory/memory.py:MemoryLoader.__iter__", "emote/trainer.py:Trainer.train", "tests/gym/collector.py:ThreadedGymCollector.collect_forever"]}
{"id": "C156", "title": "An add that others see in progress is additions of one agent at a time", "statement": "When memory.add is called with the observations of several agents while other threads sample from the memory, resize it or look at its size, then whatever any of them finds, also between two episodes of the same call, is what it would find if the agents' observations were added one agent at a time in the order of the call, with the other threads' uses in between; and when the call returns, the memory is as after these additions. Adding in one call or one agent at a time is the same when nobody else uses the memory. In particular every batch drawn in the middle of an add holds, step by step, rollouts of episodes that agents completed, counting this add.", "quantifier": "every memory, every dict of observations and responses, every number of finishing agents, every interleaving of complete uses of the table between the additions, every draw of the ejector and the sampler", "why_tests_cant": "a test runs one interleaving; the claim is about all interleavings of all uses with adds of any number of agents", "anchors": ["emote/memory/memory.py:MemoryTableProxy.add", "emote/memory/table.py:ArrayMemoryTable.add_sequence", "emote/memory/table.py:ArrayMemoryTable.sample"]}
{"id": "C157", "title": "A collecting thread collects from begin_training to end_training, always with the weights of the moment", "statement": "In a training with a ThreadedGymCollector, what happens to the memory is determined by the trainer's hooks, its batches and the schedule of the threads: nothing before the collector's begin_training, which adds exactly the warmup; from then on, before each thing the trainer does, as many additions as the thread was scheduled for, each by an agent with the weights as the callbacks have left them by then; one batch drawn per step; nothing by the thread after the collector's end_training. Only when a collection fails is there less: the thread is gone from then on. Under the conditions of C150 none fails.", "quantifier": "Every environment, agent, behaviour of the other callbacks (including raising ones), memory, loader, shutdown signal, schedule of the two threads, warmup and number of steps.", "why_tests_cant": "A test sees one interleaving and hardly ever notices that the thread acted with weights from before an update, or went on (or did not start) at the edges of the training.", "anchors": ["tests/gym/collector.py:ThreadedGymCollector", "tests/gym/collector.py:GymCollector", "emote/trainer.py:Trainer"]}
{"id": "C158", "title": "A loader keeps yielding while other threads use its memory", "statement": "Iterating a MemoryLoader over a memory that other threads add to, sample from and resize, also between the loader's check of the size and its first batch: with too little in the memory it stops at once with an exception, otherwise every request gives a batch of exactly the configured number and length of rollouts, each a window of one episode of one agent that was complete before that batch was drawn.", "quantifier": "Every memory configuration, proxy settings, history before and between any number of batches (adds, draws, resizes to any size by other threads; no clear), sampler and ejector, and random numbers (a draw that ends).", "why_tests_cant": "A test iterates over a memory nobody else uses; whether a resize or an ejection between the check and a batch can leave the loader with nothing to give depends on the history.", "anchors": ["emote/memory/memory.py:MemoryLoader", "emote/memory/memory.py:MemoryTableProxy", "emote/memory/table.py:ArrayMemoryTable"]}
{"id": "C159", "title": "A joint loader keeps yielding while other threads use its memories", "statement": "When every memory of a joint memory loader has at least a batch of data as its iteration begins, every further batch is produced too, whatever other threads do to the memories (short of clearing them) before and between the batches; each batch holds, per memory, the configured number of rollouts of the configured length from episodes complete by then, and the sum of the sizes.", "quantifier": "all numbers of memories with any columns, samplers and ejectors, all histories of each memory, all actions of other threads before each loader's turn, all draws and all batches", "why_tests_cant": "Whether a memory still has a batch of data when its turn comes depends on how adds, ejections and resizes from other threads fall between the turns; tests iterate over memories nobody else uses.", "anchors": ["emote/memory/memory.py:JointMemoryLoader.__iter__", "emote/memory/memory.py:MemoryLoader.__iter__", "emote/memory/memory.py:MemoryTableProxy.add"]}
{"id": "C160", "title": "A memory with room for a batch and an episode never runs low", "statement": "A memory whose capacity is at least n rows plus the longest sequence ever added, less one, never holds fewer than n rows once it has held n, whatever is added, sampled or resized (short of clearing); so a joint memory loader over such memories, once every memory had a batch, keeps yielding full batches whatever other threads do.", "quantifier": "all tables with any columns, samplers and ejectors, all sequences of calls and draws, all n; for the loader all numbers of memories, all histories, all actions of other threads before each turn and all batches", "why_tests_cant": "How much is dropped to make room depends on the lengths of all earlier episodes and on what the ejector draws; a test sees a few lengths and draws, and one row less capacity makes the claim false.", "anchors": ["emote/memory/table.py:ArrayMemoryTable.add_sequence", "emote/memory/table.py:ArrayMemoryTable._eject_count", "emote/memory/fifo_strategy.py:FifoEjectionStrategy.sample", "emote/memory/uniform_strategy.py:UniformEjectionStrategy.sample", "emote/memory/memory.py:JointMemoryLoader.__iter__"]}
{"id": "C161", "title": "A full memory stays nearly full", "statement": "When full() is true of a memory that was not resized, size() is above the capacity minus the longest sequence ever added: making room never drops a sequence that need not go.", "quantifier": "all tables with any columns, samplers and ejectors, all sequences of calls (without clear, resize and import) and all draws", "why_tests_cant": "The amount dropped depends on all earlier lengths and on the ejector's draws, including additions that fail.", "anchors": ["emote/memory/table.py:ArrayMemoryTable.add_sequence", "emote/memory/table.py:ArrayMemoryTable.full", "emote/memory/table.py:ArrayMemoryTable._eject_count"]}
{"id": "C162", "title": "A joint loader whose loaders share one memory serves each from what is there at its turn", "statement": "When the loaders of a joint memory loader draw from one memory, every batch holds, for each loader, the configured number of rollouts of the configured length from episodes that were complete when that loader's turn came, and the sum of the sizes, whatever other threads do to the memory (short of clearing) before each turn; the iteration raises exactly at the first turn at which the memory has less than that loader's batch.", "quantifier": "all memories with any columns, samplers and ejectors, all numbers of loaders with their own counts and lengths, all histories, all actions of other threads before each turn, all draws and all batches", "why_tests_cant": "The loaders' draws and the other threads' additions and ejections interleave turn by turn; tests draw from memories nobody else uses, with one loader each.", "anchors": ["emote/memory/memory.py:JointMemoryLoader.__iter__", "emote/memory/memory.py:MemoryLoader.__iter__", "emote/memory/memory.py:MemoryTableProxy.add"]}
{"id": "C163", "title": "A memory keeps a sequence until newer ones need its room", "statement": "A sequence that was added to a memory is still there, unchanged in every column, as long as it and all that was added after it together fit the capacity, whatever the memory held before and however it is sampled or grown in between (short of clearing). With oldest-first ejection it is gone as soon as they no longer fit (the capacity being fixed and no sequence larger than it).", "quantifier": "all tables with any columns and samplers, all calls before and after the addition, all draws", "why_tests_cant": "Ejection depends on everything stored before; a test adds a few sequences, and with random ejectors the answer depends on the draw.", "anchors": ["emote/memory/table.py:ArrayMemoryTable.add_sequence", "emote/memory/table.py:ArrayMemoryTable._eject_count", "emote/memory/fifo_strategy.py:FifoEjectionStrategy.sample", "emote/memory/uniform_strategy.py:UniformEjectionStrategy.sample"]}
