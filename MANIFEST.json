{
 "claims": [
  {
   "property": "C01",
   "status": "proved",
   "theorems": [
    "C01_size_exact"
   ],
   "note": "Every history of add/sample/resize/size/full calls, every strategy, every random outcome."
  },
  {
   "property": "C02",
   "status": "proved",
   "theorems": [
    "C02_fifo_longest_suffix",
    "C02_longest_suffix_meaning",
    "C02_fifo_machine"
   ],
   "note": "Longest-suffix specification, and the step-by-step FIFO machine including resize and over-long sequences."
  },
  {
   "property": "C03",
   "status": "proved",
   "theorems": [
    "C03_ejection_frame"
   ],
   "note": "Any ejector; an addition either fails and keeps everything or drops whole sequences and appends the new one."
  },
  {
   "property": "C04",
   "status": "proved",
   "theorems": [
    "C04_full_spec"
   ],
   "note": ""
  },
  {
   "property": "C05",
   "status": "proved",
   "theorems": [
    "C05_resize"
   ],
   "note": ""
  },
  {
   "property": "C06",
   "status": "partial",
   "theorems": [
    "C06_failed_add_partial",
    "C06_missing_length_key_partial",
    "C06_duplicate_identity_refuted",
    "C06_unknown_column_refuted"
   ],
   "note": "Finding: holds only for sequences of the configuration with a new identity; a duplicate identity is counted twice before the assertion, and an unknown column raises after ejection."
  },
  {
   "property": "C07",
   "status": "partial",
   "theorems": [
    "C07_wrap_injective_partial",
    "C07_stored_ids_nonnegative_partial",
    "C07_every_identity_sampled_refuted"
   ],
   "note": "Finding: injectivity and non-negativity hold, but identities >= 2^63 (negative before wrapping) overflow the uniform sampler, so such sequences can never be sampled."
  },
  {
   "property": "C08",
   "status": "proved",
   "theorems": [
    "C08_sample_aligned",
    "C08_whole_batch",
    "C08_sample_tags",
    "C08_sample_succeeds"
   ],
   "note": "Shape, alignment, tags, and that sampling a non-empty table succeeds."
  },
  {
   "property": "C09",
   "status": "proved",
   "theorems": [
    "C09_offset_in_bounds",
    "C09_offset_reachable",
    "C09_windows_inside",
    "C09_every_window_reachable"
   ],
   "note": "binary64 rounding of random()*n is modelled exactly; bounds for n <= 2^53, reachability for n <= 2^52."
  },
  {
   "property": "C10",
   "status": "partial",
   "theorems": [
    "C10_short_weighted_partial",
    "C10_short_fifo_partial",
    "C10_broadcast_refuted",
    "C10_negative_offset_refuted"
   ],
   "note": "Finding: numpy broadcasting repeats a single row, so episodes of one transition (or windows at least 3 longer than the episode) fabricate data; all other short cases raise."
  },
  {
   "property": "C11",
   "status": "proved",
   "theorems": [
    "C11_next_is_successor"
   ],
   "note": ""
  },
  {
   "property": "C12",
   "status": "proved",
   "theorems": [
    "C12_dones_and_masks"
   ],
   "note": ""
  },
  {
   "property": "C13",
   "status": "proved",
   "theorems": [
    "C13_next_after_window"
   ],
   "note": ""
  },
  {
   "property": "C14",
   "status": "proved",
   "theorems": [
    "C14_nextn_exact",
    "C14_negative_n_finding"
   ],
   "note": "For n >= 0; for negative n see the finding C14_negative_n_finding."
  },
  {
   "property": "C15",
   "status": "partial",
   "theorems": [
    "C15_terminal_key_partial",
    "C15_masks_refuted"
   ],
   "note": "Finding: the adaptor writes the terminal key; the masks read by the value targets still treat interrupted episodes as terminal."
  },
  {
   "property": "C16",
   "status": "proved",
   "theorems": [
    "C16_sequence_probability",
    "C16_window_probability",
    "C16_transition_probability",
    "C16_windows_differ_finding"
   ],
   "note": "Exact rational probabilities for the sequence, exact binary64 rounding for the offset; numpy's rounding of the priorities is left out. Finding: windows of different episodes are not equally likely for L > 1."
  },
  {
   "property": "C17",
   "status": "partial",
   "theorems": [
    "C17_after_add_partial",
    "C17_frozen_finding",
    "C17_stale_refuted"
   ],
   "note": "Real-number model of the priorities. Finding: they are only recomputed after an addition or ejection, so between additions visits have no effect."
  },
  {
   "property": "C18",
   "status": "proved",
   "theorems": [
    "C18_fifo_order"
   ],
   "note": "All three FIFO modes."
  },
  {
   "property": "C19",
   "status": "proved",
   "theorems": [
    "C19_roundtrip",
    "C19_full_finding"
   ],
   "note": "Same configuration; also into a table with a different but sufficient maxlen. Finding: full() is not restored."
  },
  {
   "property": "C20",
   "status": "partial",
   "theorems": [
    "C20_export_iff_partial",
    "C20_export_refuted"
   ],
   "note": "Refuted: empty tables and tables with a data-less column cannot be exported; a sequence stored under a negative identity exports but cannot be imported. Partial: exact characterisation of what can be exported."
  },
  {
   "property": "C21",
   "status": "proved",
   "theorems": [
    "C21_restore_smaller",
    "C21_foreign_file_finding"
   ],
   "note": "Source and target use the FIFO ejector. Finding: a file written by a table with a random ejector cannot be shrunk by a FIFO table."
  },
  {
   "property": "C22",
   "status": "partial",
   "theorems": [
    "C22_clear_partial",
    "C22_restore_partial",
    "C22_clear_refuted",
    "C22_restore_refuted"
   ],
   "note": "Refuted: clear() leaves the strategies' identities behind, restore() leaves those of the weighted strategies. Partial: the data is forgotten, and restore is history-independent for FIFO strategies."
  },
  {
   "property": "C23",
   "status": "proved",
   "theorems": [
    "C23_crash_safe",
    "C23_store_completes"
   ],
   "note": "The file system is modelled as a target, a temporary file and an atomic rename (the atomicwrites library's contract)."
  },
  {
   "property": "C24",
   "status": "partial",
   "theorems": [
    "C24_failed_restore_partial",
    "C24_failed_restore_refuted"
   ],
   "note": "Refuted for FIFO strategies (the import flag stays set). Partial: the weighted strategies keep working on a new table."
  },
  {
   "property": "C25",
   "status": "partial",
   "theorems": [
    "C25_legacy_rename_partial",
    "C25_coverage_refuted"
   ],
   "note": "Refuted for the coverage strategy, which has no post_import. Partial: all other strategies."
  },
  {
   "property": "C26",
   "status": "proved",
   "theorems": [
    "C26_linearizable",
    "C26_code_steps",
    "C26_no_deadlock",
    "C26_legacy_tail_finding",
    "C26_real_time"
   ],
   "note": "Any cutting of the calls into steps under the table lock; the order that explains the replies respects real time (C26_real_time). Finding: the tail of a legacy restore runs outside the lock."
  },
  {
   "property": "C27",
   "status": "proved",
   "theorems": [
    "C27_episodes",
    "C27_open_agents",
    "C27_agents_do_not_mix"
   ],
   "note": "Any table, configuration and history of batches that raises nothing; records/stream/episodes in ProxySpec.v."
  },
  {
   "property": "C28",
   "status": "proved",
   "theorems": [
    "C28_aligned_columns"
   ],
   "note": ""
  },
  {
   "property": "C29",
   "status": "proved",
   "theorems": [
    "C29_transitions_happened",
    "C29_windows"
   ],
   "note": "For agents that follow the protocol and use each identity for one stored episode; includes next-observation, done, mask and terminal columns. C29_windows: the rows of one window are consecutive transitions of one episode."
  },
  {
   "property": "C30",
   "status": "proved",
   "theorems": [
    "C30_stored_iff_kept",
    "C30_unknown_agent",
    "C30_protocol_accepted"
   ],
   "note": "C27 fixes which episodes are stored; C30 adds the unknown agent and that protocol-respecting batches are only refused by the table itself."
  },
  {
   "property": "C31",
   "status": "partial",
   "theorems": [
    "C31_error_loses_episode_refuted",
    "C31_error_keeps_running_partial"
   ],
   "note": "Refuted: an assertion for one agent in the middle of the loop discards the episodes already completed in the same call. Partial: nothing is lost if no episode ends in the failing call."
  },
  {
   "property": "C32",
   "status": "partial",
   "theorems": [
    "C32_rewards_misaligned_refuted",
    "C32_rewards_aligned_partial"
   ],
   "note": "Refuted: an episode whose first observation is RUNNING stores one reward too many. Partial: episodes that start with INITIAL are aligned."
  },
  {
   "property": "C33",
   "status": "partial",
   "theorems": [
    "C33_inferences_exact",
    "C33_episodes_partial",
    "C33_episodes_refuted",
    "C33_log_cycles"
   ],
   "note": "Inferences: exact for every history of adds and restarts. Episodes: exact when exactly the agents that go on get a response; refuted otherwise (the code computes observations minus responses). Writes of the statistics happen once per interval."
  },
  {
   "property": "C34",
   "status": "proved",
   "theorems": [
    "C34_export_iff",
    "C34_export_gap"
   ],
   "note": "Exact characterisation of the calls that export, and the gap between any two exports. Finding: the counter counts successful add calls (batches), not inference steps, and a failed store still advances the schedule."
  },
  {
   "property": "C35",
   "status": "proved",
   "theorems": [
    "C35_ready_loader_yields",
    "C35_not_ready"
   ],
   "note": "For every contents and every interleaving with other operations (no clear); outcomes impossible for the generators are excluded by the hypothesis that no draw is Diverges."
  },
  {
   "property": "C36",
   "status": "proved",
   "theorems": [
    "C36_duplicate_groups_rejected",
    "C36_joint_batch",
    "C36_grouped_batch",
    "C36_group_named_size_finding"
   ],
   "note": "Group names must differ from the size keys; finding: a group named like the size key raises TypeError."
  },
  {
   "property": "C37",
   "status": "partial",
   "theorems": [
    "C37_loader_keeps_yielding_partial",
    "C37_joint_keeps_yielding_partial",
    "C37_grouped_loader_stops_refuted"
   ],
   "note": "True for MemoryLoader and JointMemoryLoader; refuted for JointMemoryLoaderWithDataGroup, whose iterator always ends after one batch."
  },
  {
   "property": "C38",
   "status": "proved",
   "theorems": [
    "C38_warmup_returns_when_ready",
    "C38_warmup_shutdown",
    "C38_warmup_processes_exports"
   ],
   "note": "An exception of the exporter itself also ends the warm-up."
  },
  {
   "property": "C39",
   "status": "proved",
   "theorems": [
    "C39_capacity_power_of_two",
    "C39_array"
   ],
   "note": "Any operation, any power of two."
  },
  {
   "property": "C40",
   "status": "proved",
   "theorems": [
    "C40_reduce",
    "C40_empty_range_finding"
   ],
   "note": "Associative operation, op e e = e. Finding: empty ranges raise RecursionError (documentation says the end is inclusive, the code treats it as exclusive)."
  },
  {
   "property": "C41",
   "status": "proved",
   "theorems": [
    "C41_highest_index",
    "C41_interval",
    "C41_outside_refused",
    "C41_zero_weight_finding"
   ],
   "note": "Exact arithmetic (integers in a common unit). Finding: p = sum selects the last item even if its weight is 0."
  },
  {
   "property": "C42",
   "status": "partial",
   "theorems": [
    "C42_out_of_range_partial",
    "C42_negative_accepted_refuted"
   ],
   "note": "Indices >= capacity or < -3*capacity are rejected unchanged; refuted for -3*capacity <= i < 0."
  },
  {
   "property": "C43",
   "status": "proved",
   "theorems": [
    "C43_live",
    "C43_phase_order",
    "C43_stop_reasons"
   ],
   "note": "Any callbacks, behaviours and loader. k0 is 1 unless a callback changes bp_step before training begins (CheckpointLoader does, see C49). C43_live: also when what the data loader gives depends on what the hooks did; fuel bounds the turns that are looked at (then out = Running)."
  },
  {
   "property": "C44",
   "status": "proved",
   "theorems": [
    "C44_cycle_steps",
    "C44_cycle_counts"
   ],
   "note": "Fresh runs (no callback changes bp_step before training begins)."
  },
  {
   "property": "C45",
   "status": "proved",
   "theorems": [
    "C45_live",
    "C45_terminator_stops",
    "C45_terminator_not_before",
    "C45_accepts_positive"
   ],
   "note": "Other callbacks do not raise and leave the counters alone; batches carry their sample count. C45_live: also when what the data loader gives depends on what the hooks did."
  },
  {
   "property": "C46",
   "status": "partial",
   "theorems": [
    "C46_end_training_partial",
    "C46_reraised_partial",
    "C46_exhausted_refuted",
    "C46_raising_end_refuted"
   ],
   "note": "Proved: once training has begun, stopping by shutdown or exception calls end_training exactly once on each callback, with the exception, provided no end_training raises; exceptions are re-raised. Refuted: an exhausted data loader calls end_training on nobody, and an end_training that raises hides the later callbacks and the original exception."
  },
  {
   "property": "C47",
   "status": "proved",
   "theorems": [
    "C47_state_visible",
    "C47_next_hook"
   ],
   "note": "Every hook sees exactly the initial state overwritten, in order, by all earlier batches, counters and results."
  },
  {
   "property": "C48",
   "status": "proved",
   "theorems": [
    "C48_counters"
   ],
   "note": "Callbacks leave bp_step/bp_samples alone; batches carry their size and no bp_samples."
  },
  {
   "property": "C49",
   "status": "partial",
   "theorems": [
    "C49_resume_partial",
    "C49_two_runs_partial",
    "C49_resume_refuted"
   ],
   "note": "Refuted as stated: the first batch of a resumed run is given the step number of the checkpoint again (N, not N+1), so a resumed run's k-th batch is step N+k-1; bp_samples does continue. The partial theorems give the exact counters for any file and for a run followed by a resumed run."
  },
  {
   "property": "C50",
   "status": "partial",
   "theorems": [
    "C50_without_group_partial",
    "C50_with_group_partial",
    "C50_wrapping",
    "C50_group_not_there_refuted",
    "C50_position_and_state_refuted"
   ],
   "note": "Holds as stated for every signature, state and group, except (refuted witnesses) that a state key equal to a parameter also given by position gives a TypeError, that a hook with a group raises KeyError while the group is not in the state, and C52's renaming. Hooks with *args or **kwargs are passed through unchanged."
  },
  {
   "property": "C51",
   "status": "partial",
   "theorems": [
    "C51_group_results_partial",
    "C51_no_parameters_refuted"
   ],
   "note": "Holds for every method with parameters; a method without parameters never has its results merged (refuted)."
  },
  {
   "property": "C52",
   "status": "partial",
   "theorems": [
    "C52_not_in_group_partial",
    "C52_without_group_partial",
    "C52_group_only_refuted",
    "C52_both_refuted"
   ],
   "note": "The code reads the state where it should read the group (callback.py:59): the group's value is never passed; KeyError when only the group has the key. Proved for keys the group does not have and for hooks without group."
  },
  {
   "property": "C53",
   "status": "proved",
   "theorems": [
    "C53_unique_names",
    "C53_file_names",
    "C53_paths",
    "C53_checkpoint_sequence",
    "C53_load_own",
    "C53_in_training",
    "C53_every_checkpoint"
   ],
   "note": "Torch's save/load is taken to be a faithful round trip."
  },
  {
   "property": "C54",
   "status": "partial",
   "theorems": [
    "C54_explicit_index_partial",
    "C54_overwrites_refuted"
   ],
   "note": "Refuted as stated: the Checkpointer does not take its index from the restored state, so a resumed run with the same configuration starts again at the configured index and overwrites. Partial: nothing is overwritten when checkpoint_index is set above N by hand."
  },
  {
   "property": "C55",
   "status": "partial",
   "theorems": [
    "C55_window_partial",
    "C55_unused",
    "C55_succeeds_partial",
    "C55_key_syntax",
    "C55_key_default",
    "C55_iterator_refuted",
    "C55_scalar_tensor_refuted"
   ],
   "note": "Proved for numbers and collections of numbers over every history; refuted for one-shot iterators (cumulative unchanged) and 0-d tensors (TypeError). Rounding is not modelled."
  },
  {
   "property": "C56",
   "status": "partial",
   "theorems": [
    "C56_scalars_partial",
    "C56_scalar_value",
    "C56_windows_lost_refuted",
    "C56_continuation_refuted",
    "C56_load_used_refuted"
   ],
   "note": "Scalars and cumulative values are restored; windows never are (logging.py:127 iterates the object's own windows), so later logging restarts windows and cumulative values from zero, and loading into an object with a window raises."
  },
  {
   "property": "C57",
   "status": "proved",
   "theorems": [
    "C57_atomic",
    "C57_methods",
    "C57_increments",
    "C57_take_once",
    "C57_progress"
   ],
   "note": "Threads make atomic loads, stores, acquires and releases; every schedule is covered."
  },
  {
   "property": "C58",
   "status": "partial",
   "theorems": [
    "C58_block_time",
    "C58_exec_time_partial",
    "C58_one_thread_partial",
    "C58_exec_time_refuted",
    "C58_negative_refuted"
   ],
   "note": "The block time is right for every schedule. The execution time is right if no thread enters while another is still in __exit__; it is wrong otherwise, because __exit__ releases the lock before it reads the start of its scope."
  },
  {
   "property": "C59",
   "status": "proved",
   "theorems": [
    "C59_welford"
   ],
   "note": "Floats are real numbers."
  },
  {
   "property": "C60",
   "status": "partial",
   "theorems": [
    "C60_results_partial",
    "C60_limit_refuted"
   ],
   "note": "deprecated() never counts its warnings (warn_count += 0), so every call warns."
  },
  {
   "property": "C61",
   "status": "proved",
   "theorems": [
    "C61_bounds",
    "C61_ramp",
    "C61_monotone",
    "C61_degenerate"
   ],
   "note": "Floats are real numbers."
  },
  {
   "property": "C62",
   "status": "proved",
   "theorems": [
    "C62_n_step_returns",
    "C62_recursion",
    "C62_split",
    "C62_split_rest"
   ],
   "note": "Floats are real numbers."
  },
  {
   "property": "C63",
   "status": "proved",
   "theorems": [
    "C63_targets"
   ],
   "note": "Networks are any function that values the rows of a batch one by one; floats are real numbers."
  },
  {
   "property": "C64",
   "status": "proved",
   "theorems": [
    "C64_storage",
    "C64_handles_increase",
    "C64_contents",
    "C64_handle_text",
    "C64_shared_file_finding"
   ],
   "note": "Sequential histories, arbitrary savers and arbitrary changes of the disk by others. A delete whose file is missing raises (as documented) and the item is gone. C64_shared_file_finding: a file registered twice becomes two items of one file."
  },
  {
   "property": "C65",
   "status": "proved",
   "theorems": [
    "C65_unique_paths",
    "C65_no_overwrite"
   ],
   "note": "Every number of threads, every schedule, every clock reading (the date text is arbitrary). The increment of the counter and the append are single steps, justified by C57. Not covered: two CRUDStorage objects on one folder."
  },
  {
   "property": "C66",
   "status": "partial",
   "theorems": [
    "C66_linear_partial",
    "C66_interpolation_partial",
    "C66_reaches_refuted"
   ],
   "note": "All claims hold one step later than stated: the first step leaves the value at initial, so final is reached after steps+1 steps (C66_reaches_refuted: never after `steps` steps when initial differs from final). Floats are real numbers."
  },
  {
   "property": "C67",
   "status": "proved",
   "theorems": [
    "C67_bounds",
    "C67_triangle",
    "C67_peak",
    "C67_periodic",
    "C67_halving"
   ],
   "note": "Floats are real numbers. The first step leaves the value at initial, the cycles are counted from then on."
  },
  {
   "property": "C68",
   "status": "partial",
   "theorems": [
    "C68_closed_form_partial",
    "C68_restarts_partial",
    "C68_closed_form_refuted",
    "C68_restarts_never_final_finding"
   ],
   "note": "The closed form holds for k-1 (k mod steps for k-1 with warm restarts) after k steps, so the schedule is one step late (C68_closed_form_refuted); with warm restarts final is never reached (C68_restarts_never_final_finding). Also shown: no division by zero. Floats are real numbers."
  },
  {
   "property": "C69",
   "status": "partial",
   "theorems": [
    "C69_in_order",
    "C69_files",
    "C69_metadata",
    "C69_own_results",
    "C69_answered_partial",
    "C69_process_ends",
    "C69_lost_finding",
    "C69_lost_refuted"
   ],
   "note": "Partial: an export that raises leaves its requester waiting for ever (C69_lost_refuted, C69_lost_finding); everything else is proved, and a normal return of process_pending_exports or export means that everything queued before has been exported. One main thread and any number of others, any schedule, any failures. Tracing the network and protobuf encoding are opaque; metadata are strings; the parents of the storage folder exist."
  },
  {
   "property": "C70",
   "status": "proved",
   "theorems": [
    "C70_episodes",
    "C70_reset",
    "C70_step",
    "C70_step_accepted",
    "C70_time_limit_finding"
   ],
   "note": "Every history of dict_reset and dict_step, failing calls included. Batches are rows; the networks are functions of the call number, the row, the observation and the action."
  },
  {
   "property": "C71",
   "status": "partial",
   "theorems": [
    "C71_follows_model_partial",
    "C71_follows_model_refuted"
   ],
   "note": "Partial: an agent started by dict_step gets INITIAL with the initial observation, but its first transition is predicted from the last observation of the agent before it, because _current_obs is not reset (C71_follows_model_refuted). Every other transition follows the model."
  },
  {
   "property": "C72",
   "status": "partial",
   "theorems": [
    "C72_accepted",
    "C72_inverse_partial",
    "C72_mean",
    "C72_running",
    "C72_one_row_refuted"
   ],
   "note": "Proved for batches of two rows or more: updates are accepted, the statistics are exactly the running ones (C72_running), standard deviations are numbers >= eps, the round trip is exact and the mean stays among the data. Refuted for a batch of one row: torch's std is then NaN, which the comparison with eps does not catch, and every later result is NaN. Reals instead of floats."
  },
  {
   "property": "C73",
   "status": "proved",
   "theorems": [
    "C73_soft_update",
    "C73_repeated",
    "C73_never_overshoots",
    "C73_converges",
    "C73_beyond_source_finding"
   ],
   "note": "Exact value after k updates, never overshoots, geometric distance, convergence. Finding: zip stops at the shorter parameter list."
  },
  {
   "property": "C74",
   "status": "proved",
   "theorems": [
    "C74_answers",
    "C74_answers_plain",
    "C74_batch",
    "C74_waiting",
    "C74_all_ended_finding",
    "C74_nobody_finding",
    "C74_twice_finding"
   ],
   "note": "For networks that work row by row the responses are given exactly; for any policy, agent i gets row i. Findings: with no waiting agent the policy is called without rows; an input key listed twice leaves a None argument."
  },
  {
   "property": "C75",
   "status": "partial",
   "theorems": [
    "C75_partition_partial",
    "C75_convolution_refuted",
    "C75_other_name_refuted",
    "C75_excluded_block_refuted",
    "C75_shared_weight_refuted"
   ],
   "note": "Proved for ordinary networks (definition in AgentSpec.v), with the exact group of each parameter and for any set iteration order. Refuted: convolution weights and parameters not named weight/bias are in no group and never trained; an excluded block is in both groups (ValueError); shared weights raise KeyError."
  },
  {
   "property": "C76",
   "status": "proved",
   "theorems": [
    "C76_targets",
    "C76_loss_targets",
    "C76_nearest",
    "C76_in_range",
    "C76_far_target_finding"
   ],
   "note": "For any strictly increasing erf, over the reals; the targets of QLoss are also distributions for an erf that saturates, because they are those of the nearest value in the range. Finding: with a saturating erf a target far outside the range gives 0/0 in transform_to_probs."
  },
  {
   "property": "C77",
   "status": "proved",
   "theorems": [
    "C77_once",
    "C77_written",
    "C77_tag",
    "C77_tags_differ",
    "C77_no_empty_window",
    "C77_empty_window_finding"
   ],
   "note": "Images and videos are not modelled; rates and means are given as numerator and denominator."
  },
  {
   "property": "C78",
   "status": "partial",
   "theorems": [
    "C78_stats_partial",
    "C78_total",
    "C78_nested_refuted"
   ],
   "note": "Right unless blocks of the same name are nested: a TimedBlock has a single start time."
  },
  {
   "property": "C79",
   "status": "partial",
   "theorems": [
    "C79_episodes_partial",
    "C79_fit_for_memory",
    "C79_accepted",
    "C79_left_behind_refuted"
   ],
   "note": "Episodes, protocol and acceptance proved; refuted for the rest: every batch with a rollout leaves one unfinished episode per environment in the memory proxy for ever."
  },
  {
   "property": "C80",
   "status": "proved",
   "theorems": [
    "C80_round_trip"
   ],
   "note": "Proved for batches of two rows or more after any training history."
  },
  {
   "property": "C81",
   "status": "partial",
   "theorems": [
    "C81_network_partial",
    "C81_load_refuted"
   ],
   "note": "Refuted: the statistics of the normalizers are not saved. The network itself comes back (C81_network_partial)."
  },
  {
   "property": "C82",
   "status": "partial",
   "theorems": [
    "C82_bounds_partial",
    "C82_monotone",
    "C82_above_refuted",
    "C82_ensemble_grows",
    "C82_ensemble_above_refuted"
   ],
   "note": "Lower bound strict, upper bound max_logvar + exp(-(max-min)), strictly monotone; refuted: for every choice of bounds some prediction ends above max_logvar."
  },
  {
   "property": "C83",
   "status": "partial",
   "theorems": [
    "C83_restored_partial",
    "C83_exchanged_refuted",
    "C83_every_parameter_partial"
   ],
   "note": "Refuted for two processes with different set orders; proved when the order is the same."
  },
  {
   "property": "C84",
   "status": "partial",
   "theorems": [
    "C84_output_size2_partial",
    "C84_forward2",
    "C84_output_size1_partial",
    "C84_forward1",
    "C84_longer_refuted",
    "C84_impossible_finding"
   ],
   "note": "Proved when the settings are as many as the layers. Refuted with longer lists: the reported size counts layers that do not exist. Finding: a positive size is reported for layers that never fit. A unit is any function of its receptive field."
  },
  {
   "property": "C85",
   "status": "proved",
   "theorems": [
    "C85_last_frames",
    "C85_always_answers"
   ],
   "note": "For environments with the old four-value step, which is what the code unpacks; frames of one shape."
  },
  {
   "property": "C86",
   "status": "partial",
   "theorems": [
    "C86_scaled_partial",
    "C86_scaled_refuted"
   ],
   "note": "Proved: values lie in [-1, 1]. Refuted: the declared space is [0, 1] and every pixel below 128 leaves it."
  },
  {
   "property": "C87",
   "status": "partial",
   "theorems": [
    "C87_cutout_partial",
    "C87_argument_refuted",
    "C87_last_row_finding"
   ],
   "note": "Cutout proved for every draw, with the case in which the argument is left alone. Refuted: without noise the caller's batch is changed in place. Finding: the last row and column are never blanked."
  },
  {
   "property": "C88",
   "status": "proved",
   "theorems": [
    "C88_total_reward",
    "C88_bounded_above",
    "C88_unbounded_below_finding",
    "C88_whole_rollouts",
    "C88_rewards_checked"
   ],
   "note": "Discriminator and state map are arbitrary functions that treat rows one by one; reals for floats. The style reward has no lower bound (C88_unbounded_below_finding): predictions are not clamped, unlike in the symmetry reward."
  },
  {
   "property": "C89",
   "status": "proved",
   "theorems": [
    "C89_loss",
    "C89_symmetry_loss",
    "C89_zero_iff_perfect"
   ],
   "note": "The gradient that autograd computes is an argument, related to the score by its partial derivatives."
  },
  {
   "property": "C90",
   "status": "proved",
   "theorems": [
    "C90_total_reward",
    "C90_bounded",
    "C90_best_when_confused",
    "C90_flat_rewards_finding"
   ],
   "note": "Rewards given as a flat vector are not refused: the result is a square matrix (C90_flat_rewards_finding). The module imports erupt_shared, which the project does not declare, so it cannot be imported from the published package."
  },
  {
   "property": "C91",
   "status": "proved",
   "theorems": [
    "C91_no_leftover_gradients",
    "C91_clipped",
    "C91_logged",
    "C91_unused_parameter_finding"
   ],
   "note": "Proved over any interleaving, for parameters that the batch's loss depends on. C91_unused_parameter_finding: for a parameter that the loss does not reach, a leftover gradient of another loss turns into a zero gradient instead of none, so weight decay then applies."
  },
  {
   "property": "C92",
   "status": "partial",
   "theorems": [
    "C92_restores",
    "C92_resume_partial",
    "C92_default_schedule_partial",
    "C92_selective_load",
    "C92_schedule_restarts_refuted",
    "C92_target_networks_refuted"
   ],
   "note": "C92_restores, C92_selective_load and C92_resume_partial (constant learning rate, every parameter in a saved network) hold. Missing because false: the position of the learning rate schedule is not saved (C92_schedule_restarts_refuted gives the wrong rate in closed form), target networks are not saved (C92_target_networks_refuted gives the error in closed form). A state dict can be loaded only once, since loading removes its entries."
  },
  {
   "property": "C93",
   "status": "partial",
   "theorems": [
    "C93_gradient_step",
    "C93_alpha_shared_and_capped",
    "C93_slope",
    "C93_target_entropy",
    "C93_default_target",
    "C93_load_ignores_flag_refuted"
   ],
   "note": "All parts hold except the last: AlphaLoss.load_state_dict overwrites alpha also with load_weights=False, and does not cap it (C93_load_ignores_flag_refuted)."
  },
  {
   "property": "C94",
   "status": "proved",
   "theorems": [
    "C94_squashed_gaussian",
    "C94_bounds",
    "C94_limits",
    "C94_density",
    "C94_increasing",
    "C94_built",
    "C94_refuses",
    "C94_eval_needs_noise_finding"
   ],
   "note": "Real arithmetic. In evaluation mode the optional argument epsilon is in fact required (C94_eval_needs_noise_finding)."
  },
  {
   "property": "C95",
   "status": "proved",
   "theorems": [
    "C95_value_of_row",
    "C95_refuses",
    "C95_built",
    "C95_shared_encoder"
   ],
   "note": ""
  },
  {
   "property": "C96",
   "status": "proved",
   "theorems": [
    "C96_q_loss",
    "C96_dqn_loss",
    "C96_dqn_refuses",
    "C96_dqn_truncates_finding",
    "C96_policy_loss",
    "C96_policy_loss_pessimistic"
   ],
   "note": "Actions that are no whole numbers are cut towards zero without an error (C96_dqn_truncates_finding)."
  },
  {
   "property": "C97",
   "status": "partial",
   "theorems": [
    "C97_sample",
    "C97_loss",
    "C97_divergence",
    "C97_divergence_refuted"
   ],
   "note": "C97_sample and C97_loss hold. The penalty is not the divergence: C97_divergence_refuted gives the difference, half the square of (standard deviation - 1) per latent entry, in closed form (C97_divergence justifies the divergence formula)."
  },
  {
   "property": "C98",
   "status": "partial",
   "theorems": [
    "C98_memory_holds_latents_partial",
    "C98_other_data_lost_refuted",
    "C98_refuses"
   ],
   "note": "Holds for responses that carry nothing but their actions (C98_memory_holds_latents_partial). Missing because false: any other list or scalar data of a response is dropped (C98_other_data_lost_refuted)."
  },
  {
   "property": "C99",
   "status": "partial",
   "theorems": [
    "C99_acts_through_decoder",
    "C99_stored_latent_partial",
    "C99_scale",
    "C99_stored_latent_refuted",
    "C99_load",
    "C99_load_refuses",
    "C99_load_not_atomic_finding"
   ],
   "note": "Holds for latent_multiplier = 1. With another multiplier the memory holds the policy's latent times the multiplier (C99_stored_latent_partial, C99_scale), with the default 3 also latents outside of the policy's range (C99_stored_latent_refuted). Loading is not atomic (C99_load_not_atomic_finding) and ignores strict."
  },
  {
   "property": "C100",
   "status": "partial",
   "theorems": [
    "C100_temperature_loss",
    "C100_shift",
    "C100_unscaled_loss_partial",
    "C100_unscaled_loss_refuted",
    "C100_any_encoder_size_refuted",
    "C100_matrix_fits"
   ],
   "note": "Holds with a temperature (C100_temperature_loss, C100_shift). Without one the maxima are subtracted along the wrong dimension (PyTorch aligns the vector with the columns): C100_unscaled_loss_partial gives the loss that is computed, C100_unscaled_loss_refuted a batch where it is wrong. Without a projection layer desired_zdim is not ignored (C100_any_encoder_size_refuted)."
  },
  {
   "property": "C101",
   "status": "partial",
   "theorems": [
    "C101_initial_copy_partial",
    "C101_target_stays_finding",
    "C101_target_follows_refuted"
   ],
   "note": "Only the initial copy holds. layer.parameters() is a generator, used up by the copy in the constructor, so end_batch never moves the target (C101_target_stays_finding, C101_target_follows_refuted). The convolutional target encoder is never updated by the code at all."
  },
  {
   "property": "C102",
   "status": "proved",
   "theorems": [
    "C102_forward",
    "C102_sample",
    "C102_disagreement_finding"
   ],
   "note": "The variance of a sample ignores the disagreement of the members (C102_disagreement_finding). num_layers = 0 still gives one hidden layer."
  },
  {
   "property": "C103",
   "status": "proved",
   "theorems": [
    "C103_loss",
    "C103_default_bound",
    "C103_sum",
    "C103_own_batches",
    "C103_mean_best",
    "C103_variance_best",
    "C103_ndim",
    "C103_deterministic"
   ],
   "note": ""
  },
  {
   "property": "C104",
   "status": "partial",
   "theorems": [
    "C104_losses_partial",
    "C104_missing",
    "C104_reward_partial",
    "C104_window_partial",
    "C104_reward_missing",
    "C104_nan_refuted",
    "C104_reward_nan_refuted",
    "C104_unchecked_refuted"
   ],
   "note": "NaN compares false with everything, so a diverged loss or reward passes every cutoff (C104_nan_refuted, C104_reward_nan_refuted), and callbacks beyond the shorter of the two lists are not checked (C104_unchecked_refuted). Proved for numbers and lists of one length. Infinities are not modelled."
  },
  {
   "property": "C105",
   "status": "partial",
   "theorems": [
    "C105_windows",
    "C105_error",
    "C105_decision_partial",
    "C105_decreasing",
    "C105_enough",
    "C105_short_finding",
    "C105_nan_refuted"
   ],
   "note": "A model whose errors are NaN passes (C105_nan_refuted); the decision is proved for errors that are numbers. Runs of fewer than five batches always pass (C105_short_finding)."
  },
  {
   "property": "C106",
   "status": "partial",
   "theorems": [
    "C106_begin_batch_refuted",
    "C106_steps_partial",
    "C106_probability",
    "C106_order_partial"
   ],
   "note": "BatchSampler calls self.log_scalar but does not inherit from LoggingMixin, so that begin_batch raises AttributeError on every batch (C106_begin_batch_refuted). Everything else is proved for a class that mixes it in."
  },
  {
   "property": "C107",
   "status": "partial",
   "theorems": [
    "C107_last",
    "C107_all_partial",
    "C107_collision_refuted",
    "C107_empty_window",
    "C107_terminal"
   ],
   "note": "The values go into one dictionary: of two callbacks that log under one key only the last is sent (C107_collision_refuted). Proved for distinct tags. That wandb.log sends what it is given is assumed."
  },
  {
   "property": "C108",
   "status": "proved",
   "theorems": [
    "C108_memory",
    "C108_growth",
    "C108_since_start",
    "C108_rate",
    "C108_same_step"
   ],
   "note": ""
  },
  {
   "property": "C109",
   "status": "partial",
   "theorems": [
    "C109_one_step_partial",
    "C109_n_step_partial",
    "C109_next_name_refuted",
    "C109_reserved_name_refuted"
   ],
   "note": "Proved for spaces whose observation names are distinct, not among actions/dones/masks/rewards/terminal and not another name with next_ in front. Refuted otherwise: with observations k and next_k every sample raises KeyError; an observation named like a fixed column (for example rewards) removes that column from batches. The terminal column's contents are C08/adaptor claims; here it is only shown not to disturb the rest."
  },
  {
   "property": "C110",
   "status": "partial",
   "theorems": [
    "C110_episodes_partial",
    "C110_file",
    "C110_last_episode_refuted",
    "C110_final_observation_refuted"
   ],
   "note": "Proved for dumps in which no long episode ends at the very last step, and with the final observation read from next_obs[done+1]. Refuted: the observation after the last step should be next_obs[done] (loading.py:56 takes the next episode's); a dump ending with a long episode raises IndexError after its earlier episodes were added. Episodes of ten steps or fewer are skipped by design."
  },
  {
   "property": "C111",
   "status": "proved",
   "theorems": [
    "C111_importer"
   ],
   "note": "os.path.join is modelled for POSIX paths; existence of the file is an arbitrary predicate."
  },
  {
   "property": "C112",
   "status": "partial",
   "theorems": [
    "C112_dict_obs",
    "C112_dict_obs_lengths",
    "C112_scale",
    "C112_missing",
    "C112_cast_refuted"
   ],
   "note": "Refuted for KeyCastAdaptor: the converted tensor is dropped (adaptors.py:77), the batch is unchanged for every dtype. DictObsAdaptor is proved for distinct keys and distinct output names."
  },
  {
   "property": "C113",
   "status": "partial",
   "theorems": [
    "C113_episodes_partial",
    "C113_transitions_partial",
    "C113_agents",
    "C113_truncated_refuted"
   ],
   "note": "Partial: C113_truncated_refuted - DictGymWrapper reports TERMINAL for truncated episodes (tests/gym/dict_gym_wrapper.py:50-56), so a time limit is learned as a real end."
  },
  {
   "property": "C114",
   "status": "partial",
   "theorems": [
    "C114_logged_partial",
    "C114_first_refuted"
   ],
   "note": "Partial: C114_first_refuted - dict_reset does not reset the reward sums, so the step that begin_training tries and throws away is counted in the first episode of each environment."
  },
  {
   "property": "C115",
   "status": "partial",
   "theorems": [
    "C115_every_batch_partial",
    "C115_counts",
    "C115_skipped_batches_refuted",
    "C115_warmup_refuted"
   ],
   "note": "Partial: refuted - the counter grows by num_envs in every batch although data is collected only every bp_steps_per_inf batches, and the warmup steps are not multiplied by num_envs."
  },
  {
   "property": "C116",
   "status": "proved",
   "theorems": [
    "C116_no_use_after_end",
    "C116_stops_soon",
    "C116_end_training_returns",
    "C116_second_training_finding"
   ],
   "note": "Finding: _stop is never set back to False, so a second training with the same collector collects nothing (C116_second_training_finding)."
  },
  {
   "property": "C117",
   "status": "proved",
   "theorems": [
    "C117_episode",
    "C117_moves",
    "C117_reset"
   ],
   "note": "Over the reals (the code uses floats)."
  },
  {
   "property": "C118",
   "status": "partial",
   "theorems": [
    "C118_numbers_partial",
    "C118_collection",
    "C118_unused",
    "C118_succeeds_partial",
    "C118_after_list_refuted",
    "C118_unbounded_refuted",
    "C118_after_array_refuted",
    "C118_images_partial",
    "C118_videos",
    "C118_images_refuted",
    "C118_apart"
   ],
   "note": "Partial: refuted - after a list is logged, single numbers are appended to it without a window (it grows without bound, and the caller's list object is modified); after a tensor or array a single number raises AttributeError; images that do not have three dimensions are dropped silently."
  },
  {
   "property": "C119",
   "status": "partial",
   "theorems": [
    "C119_report_partial",
    "C119_histogram_partial",
    "C119_order_refuted",
    "C119_empty_refuted"
   ],
   "note": "Partial: refuted - if both 'a' and 'a/cumulative' are reported the answer depends on the iteration order of a set; an empty list makes get_report raise ZeroDivisionError."
  },
  {
   "property": "C120",
   "status": "partial",
   "theorems": [
    "C120_transparent_partial",
    "C120_empty_list_refuted",
    "C120_key_refuted"
   ],
   "note": "Partial: refuted - one empty list in the metadata makes every later add at a cycle end raise before the data reaches the memory; so does a metric named windowed[5] without a colon, or windowed[]:x. Proved for metadata without those."
  },
  {
   "property": "C121",
   "status": "partial",
   "theorems": [
    "C121_written_partial",
    "C121_tag",
    "C121_tags_refuted"
   ],
   "note": "Partial: refuted for the tags - windowed[5]:a, windowed[7]:a, windowed[5]:a:b and a are all written as a."
  },
  {
   "property": "C122",
   "status": "partial",
   "theorems": [
    "C122_logged_partial",
    "C122_key",
    "C122_frozen",
    "C122_underscore_refuted",
    "C122_shape_refuted"
   ],
   "note": "Partial: refuted - a_b.weight and a.b.weight (or 0.weight of shape 1x2 and 0.1.weight of shape 2) share a key, so only one is logged. Proved when no path component is empty or has an underscore and parameters of one kind have one number of dimensions."
  },
  {
   "property": "C123",
   "status": "proved",
   "theorems": [
    "C123_minimum",
    "C123_reached",
    "C123_shift",
    "C123_shapes"
   ],
   "note": "Over the reals; the error function is a parameter. Print Assumptions lists the axioms of the standard library's real numbers."
  },
  {
   "property": "C124",
   "status": "partial",
   "theorems": [
    "C124_column",
    "C124_middle_partial",
    "C124_edge_refuted"
   ],
   "note": "Partial: refuted - the centers of the bins never reach the ends of the range, so for a target at an end every prediction is off by half a bin or more. Proved: range and shape, and that the middle of the range is met exactly."
  },
  {
   "property": "C125",
   "status": "partial",
   "theorems": [
    "C125_method",
    "C125_property",
    "C125_other_partial",
    "C125_missing",
    "C125_same",
    "C125_leak_refuted",
    "C125_memory",
    "C125_private",
    "C125_own",
    "C125_report",
    "C125_copy_finding"
   ],
   "note": "Partial: refuted in one case - an instance attribute of an inner wrapper is handed out if an object further inside has a property of that name. Finding: a wrapper cannot be copied, deep-copied or unpickled (RecursionError in __getattr__, C125_copy_finding). User-defined descriptors and metaclasses are not modelled."
  },
  {
   "property": "C126",
   "status": "partial",
   "theorems": [
    "C126_properties_partial",
    "C126_answer_refuted"
   ],
   "note": "Partial: refuted - AgentProxyWrapper.__call__ has no return statement, so a wrapped agent always answers None."
  },
  {
   "property": "C127",
   "status": "partial",
   "theorems": [
    "C127_hooks_partial",
    "C127_marked_partial",
    "C127_others",
    "C127_marked_here_refuted",
    "C127_called_callback_refuted"
   ],
   "note": "Partial: false if the overriding method is itself marked with Callback.extend (in the instance's own class), if the user's class is called Callback, or if it has the name of the class that declared the extended method (qualified names are compared, examples C127_again, C127_shadow, C127_same_name)."
  },
  {
   "property": "C128",
   "status": "proved",
   "theorems": [
    "C128_minimum",
    "C128_documented_end_finding"
   ],
   "note": "Finding: the docstring says the end is included; it is not (C128_documented_end_finding), and min(i, i) recurses without end as in C40."
  },
  {
   "property": "C129",
   "status": "proved",
   "theorems": [
    "C129_within",
    "C129_ends",
    "C129_never"
   ],
   "note": "Whether the loop ends is a matter of the draws (it does with probability one for a real normal distribution); both directions are stated for arbitrary draws."
  },
  {
   "property": "C130",
   "status": "partial",
   "theorems": [
    "C130_orthogonal_partial",
    "C130_xavier_partial",
    "C130_normal",
    "C130_no_bias_refuted",
    "C130_ensemble",
    "C130_ensemble_bound",
    "C130_linear_inputs_refuted"
   ],
   "note": "Partial: ortho_init_, xavier_uniform_init_ and truncated_normal_init raise AttributeError on a network with a Linear(bias=False) layer (normal_init_ does not); for nn.Linear the truncated initialiser takes weight.shape[0], the number of outputs, as the number of inputs."
  },
  {
   "property": "C131",
   "status": "partial",
   "theorems": [
    "C131_read_partial",
    "C131_value_partial",
    "C131_import_succeeds",
    "C131_store_refuted"
   ],
   "note": "Partial: TagStorage.post_import stores the proxies made by its own __getitem__; a later store() fails with TypeError because a TagProxy has no length."
  },
  {
   "property": "C132",
   "status": "proved",
   "theorems": [
    "C132_targets"
   ],
   "note": "For agents that follow the protocol and use each identity for one stored episode, as in C29. Networks are any function that values the rows of a batch one by one; floats are real numbers."
  },
  {
   "property": "C133",
   "status": "proved",
   "theorems": [
    "C133_returns"
   ],
   "note": "The episode ends by termination or by truncation: as recorded by the wrapper both drop the value after the last step when terminals are masked (cf. C113 and C15). For agents that answer every request; at most 2^53 rounds are collected; floats are real numbers."
  },
  {
   "property": "C134",
   "status": "proved",
   "theorems": [
    "C134_shared_batch",
    "C134_final_contents"
   ],
   "note": "Threads hold the table lock for a whole call, cut into any steps; every addition is of a complete sequence of at least L transitions under an identity used once, and no thread clears the table."
  },
  {
   "property": "C135",
   "status": "proved",
   "theorems": [
    "C135_loss",
    "C135_close",
    "C135_computed"
   ],
   "note": "For deterministic networks that are a function of their input (batch normalisation in evaluation mode) and batches of two rows or more (a batch of one row makes the loss NaN, cf. C72). Real numbers instead of floats."
  },
  {
   "property": "C136",
   "status": "proved",
   "theorems": [
    "C136_sac",
    "C136_dqn",
    "C136_between",
    "C136_own_target_finding"
   ],
   "note": "For target networks left to the default (a copy). The optimizers are given modules that existed before and keep the sizes of parameters. Finding: a network passed as its own target is accepted, and the targets then use its newest parameters. Reals instead of floats."
  },
  {
   "property": "C137",
   "status": "partial",
   "theorems": [
    "C137_trains",
    "C137_checkpoint_partial",
    "C137_weights_left_alone",
    "C137_curl_finding",
    "C137_checkpoint_refuted"
   ],
   "note": "Everything holds but one thing: a CurlLoss has no network, so its W, projection layer and (unless another loss saves it) encoder are not in its checkpoint, while the moments of its optimizer are (C137_curl_finding, C137_checkpoint_refuted). C137_checkpoint_partial is the claim for all other losses, in any combination, also beside a CurlLoss."
  },
  {
   "property": "C138",
   "status": "proved",
   "theorems": [
    "C138_dqn",
    "C138_sac",
    "C138_hlgauss"
   ],
   "note": "Networks act row by row (batch normalisation is not modelled). Real numbers for floats. Q-learning agents answer with the number of one of the network's n actions (chooses)."
  },
  {
   "property": "C139",
   "status": "partial",
   "theorems": [
    "C139_unstacked_partial",
    "C139_created_refuted",
    "C139_step_refuted",
    "C139_reset_refuted",
    "C139_space_refuted"
   ],
   "note": "Holds only for environments that have a method seed, without stacking and without scaling (C139_unstacked_partial). Refuted: environments of gymnasium >= 0.27.1 (required by pyproject.toml) have no seed, so the creator always raises AttributeError (C139_created_refuted); FrameStack unpacks four values where gymnasium ObservationWrapper returns five, so step always raises (C139_step_refuted); FrameStack.reset stacks (observation, info) pairs that cannot be concatenated (C139_reset_refuted); scaled observations leave the declared space (C139_space_refuted). Assumed about libraries: gymnasium ObservationWrapper and the absence of seed, OpenCV ranges and sizes."
  },
  {
   "property": "C140",
   "status": "partial",
   "theorems": [
    "C140_episodes_partial",
    "C140_batch_partial",
    "C140_batch_refuted"
   ],
   "note": "Proved for every step when episodes end only by their length; with a termination function for every step but the first of each episode, because dict_step starts new episodes from the stale observation (see C71). C140_batch_refuted shows such a transition in a drawn batch."
  },
  {
   "property": "C141",
   "status": "proved",
   "theorems": [
    "C141_actor",
    "C141_transitions",
    "C141_dynamics"
   ],
   "note": "Networks work row by row; real numbers for floating point. The dynamics model's part is for rollouts of one step, and adds C135's conditions on the batch (two rows or more, the sizes the model was made for)."
  },
  {
   "property": "C142",
   "status": "partial",
   "theorems": [
    "C142_reward_partial",
    "C142_discriminator_partial",
    "C142_rollouts_refuted"
   ],
   "note": "Proved for the reward with any rollout length, and for the discriminator loss with single steps. Missing, and refuted: with rollouts of two or more steps the loss concatenates one row per step with one row per rollout and raises; a memory with a next observation for every step makes the reward raise instead. The discriminator and state maps work row by row; real numbers for floats."
  },
  {
   "property": "C143",
   "status": "proved",
   "theorems": [
    "C143_reconstructs"
   ],
   "note": "Encoder, decoder and condition work row by row. Real numbers for floats. The penalty is the one the code computes; that it is not the divergence is C97."
  },
  {
   "property": "C144",
   "status": "proved",
   "theorems": [
    "C144_listed"
   ],
   "note": "The threads of C65, restricted to creates whose savers change nothing but the path they are given, and deletes. The model lets other threads run between taking an item off the list and removing its file; the code holds the lock meanwhile, so every schedule of the code is among the model's."
  },
  {
   "property": "C145",
   "status": "partial",
   "theorems": [
    "C145_place_partial",
    "C145_register",
    "C145_place_refuted"
   ],
   "note": "Finding: a prefix with a slash is accepted. With prefix '/e/x' (os.path.join drops the directory) the files of a storage on /d are written to /e. Proved without a slash in prefix and extension: the place and the name of every created file, in every history. C145_register holds for every prefix."
  },
  {
   "property": "C146",
   "status": "proved",
   "theorems": [
    "C146_contrast"
   ],
   "note": "With a temperature (the default); without one the loss itself is wrong (C100). The two augmentations draw from their own sources, which are arbitrary. An image goes to the encoders as the list of its pixels. The optimizer step that follows is in C91."
  },
  {
   "property": "C147",
   "status": "proved",
   "theorems": [
    "C147_batches_happened"
   ],
   "note": "The other callbacks reach the policy's weights, but not the memory and the environments. The proxy has a minimum length of at least the loader's rollout length. The run is at most 2^53 notes long. The run may end in any way (also by an error or by the bound on looked-at turns). An observer's notes say what agents were asked and what was drawn; they are not part of the program."
  },
  {
   "property": "C148",
   "status": "partial",
   "theorems": [
    "C148_fifo",
    "C148_any_partial",
    "C148_random_ends",
    "C148_hangs_finding",
    "C148_refused_refuted"
   ],
   "note": "True with FIFO ejection. With uniform or coverage based ejection an episode that fits is stored as soon as the random choices have covered what is stored (C148_random_ends); until then the loop goes on. An episode longer than the memory is refused by FIFO ejection only: the uniform and coverage based ejectors then loop for ever, while the caller holds the lock of the table (C148_hangs_finding, C148_refused_refuted; emote/memory/uniform_strategy.py:79-95, emote/memory/coverage_based_strategy.py:76-92)."
  },
  {
   "property": "C149",
   "status": "proved",
   "theorems": [
    "C149_experiment_ends"
   ],
   "note": "proved for first-in first-out ejection; for random ejection C148 shows that adding can hang. Draws that do not suffice (the draw loop asks again) are excluded by a hypothesis on the outcome, and agent numbers by 64 bits."
  },
  {
   "property": "C150",
   "status": "proved",
   "theorems": [
    "C150_batches_happened",
    "C150_experiment_ends"
   ],
   "note": "schedules are by whole calls of collect_data: a batch drawn between two episodes that one memory.add stores, and an add between the loader's size check and its first batch, are not modelled. First-in first-out ejection, as in C149. C156 covers a batch drawn between two sequences of one memory.add at the level of the memory; C157 says when the thread adds and with which weights."
  },
  {
   "property": "C151",
   "status": "partial",
   "theorems": [
    "C151_thread_ended_partial",
    "C151_thread_left_running_refuted",
    "C151_failure_not_reported_refuted"
   ],
   "note": "FINDING: (1) when the begin_training of a callback after the collector raises, train() raises without calling end_training and the thread goes on collecting; (2) when collecting raises in the thread, only the thread dies: train() goes on with the old data and returns. Proved: once end_training was called on the collector its thread is gone."
  },
  {
   "property": "C152",
   "status": "proved",
   "theorems": [
    "C152_all_collected"
   ],
   "note": "a TrainingShutdownException raised in the collector itself (by the agent, say) is a request to end and excluded; the shutdown signal is off."
  },
  {
   "property": "C153",
   "status": "proved",
   "theorems": [
    "C153_targets_happened",
    "C153_targets_happened_threaded"
   ],
   "note": "grain of the schedule as in C150. Value networks work row by row (any function of the row number and the next observation)."
  },
  {
   "property": "C154",
   "status": "proved",
   "theorems": [
    "C154_critic_learns",
    "C154_critic_learns_threaded"
   ],
   "note": "On the worlds of C147 and C150 (grain of the schedule as there); the networks, the policy and the temperature are any functions and numbers, so also those at that moment of the training. Real arithmetic in the losses, as in C138. The action of a DQN has to be the number of an action of the network. A batch of no rollouts (whose mean is not a number) is excluded."
  },
  {
   "property": "C155",
   "status": "proved",
   "theorems": [
    "C155_actor_and_model_learn",
    "C155_actor_and_model_learn_threaded"
   ],
   "note": "On the worlds of C147 and C150 (grain of the schedule as there). The policy, the critics and the temperature are any functions and numbers. Real arithmetic in the losses, as in C141. A batch of no rollouts is excluded for the losses. That the loss of the dynamics model on such transitions measures its error is C141."
  },
  {
   "property": "C156",
   "status": "proved",
   "theorems": [
    "C156_in_progress",
    "C156_together",
    "C156_alone",
    "C156_batch_during_add"
   ],
   "note": "Uses of the table are complete calls (the lock makes them so, C134); the loop that collects the observations does not touch the table. If the call raises in the loop, nothing is added, while agent by agent the earlier ones would have been (C31): the claim is about what is found and about calls that return."
  },
  {
   "property": "C157",
   "status": "proved",
   "theorems": [
    "C157_collects_as_told",
    "C157_collects_all"
   ],
   "note": "C157_collects_as_told holds for every run, with failing collections allowed; C157_collects_all shows that none fails under the conditions of C150. The relation so_far is read off the trainer's trace; the turn in which the loader has no batch leaves no entry and is marked by the flag over. Modelling limits as for C150: one collect_data is one step of the thread (see C156 for batches drawn during an add)."
  },
  {
   "property": "C158",
   "status": "proved",
   "theorems": [
    "C158_keeps_yielding"
   ],
   "note": "Err Diverges is a draw that does not end (the sampler drew identities that are not in the memory from the random numbers given); the other calls of the threads are assumed to succeed and are whole calls (see C156 for an add in progress). Agent numbers below 2^63."
  },
  {
   "property": "C159",
   "status": "partial",
   "theorems": [
    "C159_joint_amid_partial",
    "C159_joint_stops_refuted"
   ],
   "note": "The partial theorem keeps the whole statement but adds, for each batch, that every memory has enough when its turn comes; the refutation shows the condition is needed (a collector that only adds episodes can end the iteration with RuntimeError). Unlike a MemoryLoader alone (C158), which checks once, a JointMemoryLoader makes a new generator, and so a new check, per batch. Loaders that share a memory: C162."
  },
  {
   "property": "C160",
   "status": "proved",
   "theorems": [
    "C160_never_runs_low",
    "C160_joint_keeps_yielding"
   ],
   "note": "Sampling may still diverge in the model when the given draws run out or are not draws of the sampler; the loader theorem says so (Err Diverges), as in C158. The bound is tight: the refutation of C159 has a capacity one below it."
  },
  {
   "property": "C161",
   "status": "proved",
   "theorems": [
    "C161_full_stays_nearly_full"
   ],
   "note": "Sequences longer than the capacity are allowed; then the bound is trivial. The example meets the bound exactly."
  },
  {
   "property": "C162",
   "status": "proved",
   "theorems": [
    "C162_shared_memory",
    "C162_shared_keeps_yielding"
   ],
   "note": "Says exactly when it stops; that a memory may run low is C159's refutation, and C160 says when it cannot."
  },
  {
   "property": "C163",
   "status": "partial",
   "theorems": [
    "C163_fifo_keeps_partial",
    "C163_fifo_forgets",
    "C163_random_drops_refuted"
   ],
   "note": "Proved for FIFO ejection; refuted for the random ejectors, which may drop the newest stored sequence and keep older ones. Growing the memory is allowed. A FIFO memory of fixed size forgets the sequence as soon as it and what followed do not fit."
  }
 ]
}