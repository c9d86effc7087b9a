{
 "claims": [
  {
   "property": "C01",
   "status": "proved",
   "theorems": [
    "C01_fifo",
    "C01_add_overwrites_only_oldest",
    "C01_update_total"
   ],
   "note": "every history of add/reset/update; sources of update are themselves reachable buffers"
  },
  {
   "property": "C02",
   "status": "proved",
   "theorems": [
    "C02_episode_report"
   ],
   "note": "rewards in an arbitrary type with an arbitrary addition, so floating point is covered; history of add and reset"
  },
  {
   "property": "C03",
   "status": "proved",
   "theorems": [
    "C03_prev_next"
   ],
   "note": ""
  },
  {
   "property": "C04",
   "status": "partial",
   "theorems": [
    "C04_unfinished_index",
    "C04_never_written_refuted"
   ],
   "note": "REFUTED in one corner: on a never-written buffer unfinished_index raises AttributeError instead of returning the empty array; proved for every state in which something was ever written"
  },
  {
   "property": "C05",
   "status": "proved",
   "theorems": [
    "C05_sample_all",
    "C05_sample_random"
   ],
   "note": ""
  },
  {
   "property": "C06",
   "status": "proved",
   "theorems": [
    "C06_stacking"
   ],
   "note": ""
  },
  {
   "property": "C07",
   "status": "proved",
   "theorems": [
    "C07_get_buffer_indices"
   ],
   "note": ""
  },
  {
   "property": "C08",
   "status": "proved",
   "theorems": [
    "C08_total",
    "C08_independent",
    "C08_content"
   ],
   "note": "every history of add (ids given or not, also negative and repeated ids) and reset; capacities may differ"
  },
  {
   "property": "C09",
   "status": "proved",
   "theorems": [
    "C09_prev_next",
    "C09_unfinished_index"
   ],
   "note": "unfinished_index proved once something was written (never-written managers raise AttributeError as in C04)"
  },
  {
   "property": "C10",
   "status": "proved",
   "theorems": [
    "C10_sample_all",
    "C10_sample_random"
   ],
   "note": "all batch sizes > 0 and 0; None is in C51's finding"
  },
  {
   "property": "C11",
   "status": "proved",
   "theorems": [
    "C11_vector_split",
    "C11_zero_rejected"
   ],
   "note": ""
  },
  {
   "property": "C12",
   "status": "proved",
   "theorems": [
    "C12_cached_buffer",
    "C12_prev_next"
   ],
   "note": "every history of well-formed add (distinct environments per call) and reset; main capacity > 0; C58 records what happens for repeated and negative ids"
  },
  {
   "property": "C13",
   "status": "proved",
   "theorems": [
    "C13_node_sums_and_reads",
    "C13_setitem_accepts"
   ],
   "note": "exact rationals for float64; numba loops as written"
  },
  {
   "property": "C14",
   "status": "proved",
   "theorems": [
    "C14_reduce_is_slice_sum"
   ],
   "note": "also covers empty slices and every legal negative end"
  },
  {
   "property": "C15",
   "status": "proved",
   "theorems": [
    "C15_prefix_sum_idx",
    "C15_prefix_rejects"
   ],
   "note": "also: a positive query always lands on a leaf of positive weight"
  },
  {
   "property": "C16",
   "status": "proved",
   "theorems": [
    "C16_weights",
    "C16_extremes",
    "C16_sampling",
    "C16_normalised_weights",
    "C16_manager",
    "C16_manager_add"
   ],
   "note": "Weights, extremes, sampling law and normalised importance weights, single buffer and manager; x**alpha, x**(-beta) are arbitrary positive functions, floats are exact rationals. For the manager the draws must be > 0 (C65)."
  },
  {
   "property": "C17",
   "status": "proved",
   "theorems": [
    "C17_restore",
    "C17_relabel"
   ],
   "note": "HERReplayBuffer with stack_num 1 and a scalar (row-wise) reward function; C17_restore for every call sequence incl. failing ones, C17_relabel for horizon at least the remaining episode length. HERVectorReplayBuffer is not modelled."
  },
  {
   "property": "C18",
   "status": "proved",
   "theorems": [
    "C18_split",
    "C18_sizes"
   ],
   "note": ""
  },
  {
   "property": "C19",
   "status": "partial",
   "theorems": [
    "C19_cat",
    "C19_cat_empty",
    "C19_cat_structure",
    "C19_cat_slice",
    "C19_stack",
    "C19_stack_row",
    "C19_getitem",
    "C19_getitem_range",
    "C19_getitem_empty",
    "C19_stack_partial"
   ],
   "note": "arrays at one path of equal kind and row shape, no None values; cat: structures equal, empty batches pad; stack: keys missing from a batch must look alike in the others (C19_stack_partial), equal layouts otherwise; other kinds see C92, C93"
  },
  {
   "property": "C20",
   "status": "partial",
   "theorems": [
    "C20_nested_unknown_refuted",
    "C20_setitem",
    "C20_setitem_reject",
    "C20_none"
   ],
   "note": "value arrays have the kind and shape of the assigned rows; REFUTED for an unknown key in a nested value: ValueError after other keys were written (C20_nested_unknown_refuted)"
  },
  {
   "property": "C21",
   "status": "proved",
   "theorems": [
    "C21_gae_closed_form",
    "C21_gae_recursion"
   ],
   "note": ""
  },
  {
   "property": "C22",
   "status": "proved",
   "theorems": [
    "C22_episodic_return_buffer",
    "C22_episodic_return_manager",
    "C22_full_batch",
    "C22_lambda_one"
   ],
   "note": ""
  },
  {
   "property": "C23",
   "status": "proved",
   "theorems": [
    "C23_nstep_buffer",
    "C23_nstep_manager"
   ],
   "note": ""
  },
  {
   "property": "C24",
   "status": "proved",
   "theorems": [
    "C24_return_to_go"
   ],
   "note": ""
  },
  {
   "property": "C25",
   "status": "partial",
   "theorems": [
    "C25_in_bounds",
    "C25_roundtrip_partial",
    "C25_narrow_box_refuted",
    "C25_unbounded_rejected"
   ],
   "note": "bounds, end points, monotonicity proved for every output; round trip proved for intervals at least eps=2^-23 wide; REFUTED for narrower non-empty intervals (scale is increased by eps). Exact arithmetic; tanh any monotone function into [-1,1]"
  },
  {
   "property": "C26",
   "status": "proved",
   "theorems": [
    "C26_soft_update",
    "C26_mismatch"
   ],
   "note": "exact rational arithmetic; modules as lists of parameter lists"
  },
  {
   "property": "C27",
   "status": "partial",
   "theorems": [
    "C27_update",
    "C27_exception",
    "C27_updating_left_set_refuted"
   ],
   "note": "REFUTED for raising callbacks (updating stays True); protocol proved for arbitrary callbacks, exceptions passed on"
  },
  {
   "property": "C28",
   "status": "partial",
   "theorems": [
    "C28_exact",
    "C28_terminates_partial",
    "C28_long_episode_refuted"
   ],
   "note": "PARTIAL: exactness is proved for every call that returns. That it returns is proved for episodes shorter than the sub-buffer; REFUTED beyond that (an episode as long as the sub-buffer raises ValueError)."
  },
  {
   "property": "C29",
   "status": "partial",
   "theorems": [
    "C29_rounds",
    "C29_terminates_partial",
    "C29_long_episode_refuted"
   ],
   "note": "REFUTED for long episodes (C29_long_episode_refuted): an episode that fills its sub-buffer and does not start at slot 0 makes collect(n_step=...) raise ValueError, as for n_episode. Counts proved for every call that returns (C29 theorems); that it returns is proved for episodes shorter than the sub-buffers."
  },
  {
   "property": "C30",
   "status": "proved",
   "theorems": [
    "C30_stored",
    "C30_sequence"
   ],
   "note": ""
  },
  {
   "property": "C31",
   "status": "partial",
   "theorems": [
    "C31_stats_partial",
    "C31_long_episode_refuted"
   ],
   "note": "REFUTED for episodes not shorter than the sub-buffer (length and hook batch are of the part that get_buffer_indices finds); proved for shorter ones."
  },
  {
   "property": "C32",
   "status": "proved",
   "theorems": [
    "C32_step",
    "C32_reset",
    "C32_pipelined",
    "C32_seed"
   ],
   "note": "Any deterministic environment, both worker classes (distinct ids); with subprocess workers also for repeated ids (sequential reference). Environments that raise are not modelled"
  },
  {
   "property": "C33",
   "status": "proved",
   "theorems": [
    "C33_partition",
    "C33_refused"
   ],
   "note": "Legal calls: distinct ids, seed only when nothing runs (see C83, C84). Every completion order/timeouts as an oracle; both worker classes"
  },
  {
   "property": "C34",
   "status": "proved",
   "theorems": [
    "C34_closed",
    "C34_close_once"
   ],
   "note": "Every operation on a closed venv raises AssertionError (a second close too) and leaves the state unchanged; close_env exactly once per worker over any operation sequence"
  },
  {
   "property": "C35",
   "status": "partial",
   "theorems": [
    "C35_epochs",
    "C35_env_step",
    "C35_steps",
    "C35_resume_refuted"
   ],
   "note": "Collectors/tests are oracles; REFUTED for resuming a complete run (one more epoch); otherwise proved for every configuration, stop function and schedule"
  },
  {
   "property": "C36",
   "status": "partial",
   "theorems": [
    "C36_best_partial",
    "C36_train_stop_refuted"
   ],
   "note": "REFUTED for runs stopped by a test during training (best_score overwritten by a lower one, best_epoch and the saved policy unchanged); proved otherwise"
  },
  {
   "property": "C37",
   "status": "proved",
   "theorems": [
    "C37_offpolicy",
    "C37_onpolicy",
    "C37_counter",
    "C37_stop",
    "C37_offline"
   ],
   "note": "Python round as ties-to-even on exact rationals"
  },
  {
   "property": "C38",
   "status": "proved",
   "theorems": [
    "C38_greedy",
    "C38_exploration",
    "C38_random_policy"
   ],
   "note": "argmax as first maximum; exact arithmetic; covers DQN greedy, epsilon-greedy and the random multi-agent policy"
  },
  {
   "property": "C39",
   "status": "proved",
   "theorems": [
    "C39_target"
   ],
   "note": "optimizer step an arbitrary function of both weights and batch"
  },
  {
   "property": "C40",
   "status": "proved",
   "theorems": [
    "C40_projection"
   ],
   "note": "exact arithmetic; every num_atoms > 1 and v_min < v_max"
  },
  {
   "property": "C41",
   "status": "proved",
   "theorems": [
    "C41_decode",
    "C41_encode"
   ],
   "note": "md_action decodes every flat action into the mixed-radix digits; encoding round trip both ways."
  },
  {
   "property": "C42",
   "status": "proved",
   "theorems": [
    "C42_dimensions",
    "C42_mesh",
    "C42_increasing"
   ],
   "note": "Mesh of evenly spaced points between low and high; increasing; cd_action maps grid indices to mesh points for 1-d and 2-d actions."
  },
  {
   "property": "C43",
   "status": "proved",
   "theorems": [
    "C43_forward",
    "C43_noise",
    "C43_process",
    "C43_learn"
   ],
   "note": "forward, exploration_noise, process_fn and learn: every agent's policy is applied to exactly its own rows in order and its outputs go back to exactly those rows; rewards are restored (no exception). Assumes every row's agent is known for forward and one action per row; agent ids distinct"
  },
  {
   "property": "C44",
   "status": "partial",
   "theorems": [
    "C44_movavg_partial",
    "C44_no_infinity",
    "C44_nan_refuted"
   ],
   "note": "REFUTED for NaN objects other than np.nan itself (identity test in the banned list); proved for finite values, infinities and np.nan; infinities never enter."
  },
  {
   "property": "C45",
   "status": "proved",
   "theorems": [
    "C45_running_stats",
    "C45_norm_clipped"
   ],
   "note": "Population mean/var/count over all batches (scalar data, exact rationals); clipping bound for norm with sqrt as parameter."
  },
  {
   "property": "C46",
   "status": "proved",
   "theorems": [
    "C46_rate_limit",
    "C46_coverage",
    "C46_restore"
   ],
   "note": "Rate limiting and coverage for arbitrary interleavings of the four scopes and saves; restore_data returns the counters of the last save carried out."
  },
  {
   "property": "C47",
   "status": "proved",
   "theorems": [
    "C47_restored",
    "C47_nested"
   ],
   "note": "arbitrary bodies, exceptions and nestings; flag of the policy module itself (submodules: C68)"
  },
  {
   "property": "C48",
   "status": "partial",
   "theorems": [
    "C48_roundtrip_partial",
    "C48_slash_refuted",
    "C48_slash_error_refuted",
    "C48_slash_lost_refuted",
    "C48_data_type_refuted",
    "C48_class_name_refuted"
   ],
   "note": "REFUTED for keys containing \"/\", for a number stored under \"__data_type__\" and for objects whose class is called ndarray or Tensor (C48_*_refuted). C48_roundtrip_partial proves the round trip for every other nested structure of dicts, batches, arrays, tensors, numbers and pickled objects; a Python number and the numpy scalar h5py returns for it are identified. A number is lost when another key begins with its name and \"/\": {\"a\": 3, \"a/b\": x} comes back as {\"a\": {\"b\": x}}."
  },
  {
   "property": "C49",
   "status": "partial",
   "theorems": [
    "C49_first_acceptable_partial",
    "C49_failed_search_refuted"
   ],
   "note": "REFUTED: a failed line search leaves the last rejected trial in the actor and reports step size 0; proved: the first acceptable trial is kept."
  },
  {
   "property": "C50",
   "status": "proved",
   "theorems": [
    "C50_posterior"
   ],
   "note": "Exact for every sequence of batches in any shuffled order, including the self-loops of add_done_loop; epsilon > 0."
  },
  {
   "property": "C51",
   "status": "partial",
   "theorems": [
    "C51_sample_none_is_permutation_refuted",
    "C51_sample_none_partial"
   ],
   "note": "REFUTED: np.random.choice draws with replacement; indices repeat and others are missing. C51_sample_none_partial: as many as stored, all of them if the draws are distinct."
  },
  {
   "property": "C52",
   "status": "partial",
   "theorems": [
    "C52_from_data_walk_refuted",
    "C52_from_data_reads_partial"
   ],
   "note": "REFUTED for prev/next: last_index stays 0 and the newest row wraps to the oldest; reads and sample_indices(0) are proved right"
  },
  {
   "property": "C53",
   "status": "partial",
   "theorems": [
    "C53_start_after_update_refuted",
    "C53_next_episode_partial"
   ],
   "note": "REFUTED: update() does not move _ep_start_idx. C53_next_episode_partial: right again after the first episode end."
  },
  {
   "property": "C54",
   "status": "partial",
   "theorems": [
    "C54_bad_ids_accepted_refuted",
    "C54_check_partial"
   ],
   "note": "REFUTED: the test uses `and`, so [3] and [0,7] are accepted; the exact acceptance condition is proved"
  },
  {
   "property": "C55",
   "status": "partial",
   "theorems": [
    "C55_dropnull_full_refuted",
    "C55_add_after_dropnull_refuted"
   ],
   "note": "REFUTED: _insertion_idx becomes the number of rows left, so the next add raises, whatever was dropped (C55_add_after_dropnull_refuted, for every buffer with data)"
  },
  {
   "property": "C56",
   "status": "partial",
   "theorems": [
    "C56_out_of_range_accepted",
    "C56_rejects_out_of_range_refuted",
    "C56_inside_partial"
   ],
   "note": "REFUTED: every interval beyond the last edge is accepted, whatever the edges. C56_inside_partial: with start inside a sub-buffer every stop outside it is refused."
  },
  {
   "property": "C57",
   "status": "proved",
   "theorems": [
    "C57_stacking"
   ],
   "note": ""
  },
  {
   "property": "C58",
   "status": "partial",
   "theorems": [
    "C58_main_only_whole_episodes_refuted",
    "C58_duplicate_ids_refuted"
   ],
   "note": "REFUTED: buffer_ids=[-1] writes an unfinished row to the main buffer; repeated ids report index -1 and corrupt last_index. C12_cached_buffer is the restriction to legal, distinct ids."
  },
  {
   "property": "C59",
   "status": "partial",
   "theorems": [
    "C59_own_episode_refuted"
   ],
   "note": "REFUTED: with v_s omitted, np.roll takes the value of the state before the batch's previous element, so the first step of an episode uses another episode's bootstrap value. Restriction proved in C22: with consistent v_s the advantages are target - v_s; with v_s omitted it holds for steps preceded by a step of the same episode; returns are always right."
  },
  {
   "property": "C60",
   "status": "partial",
   "theorems": [
    "C60_weight_above_one_refuted",
    "C60_small_alpha_partial"
   ],
   "note": "REFUTED: C60_weight_above_one_refuted (alpha=2, beta=1: weight 2); _min_prio is not raised to alpha. C60_small_alpha_partial: at most 1 whenever x <= pw x or 1 <= pw x for all x > 0 (exponents up to 1)."
  },
  {
   "property": "C61",
   "status": "partial",
   "theorems": [
    "C61_reset_stale_refuted",
    "C61_refilled_partial"
   ],
   "note": "REFUTED: after reset() stale indices are sampled. C61_refilled_partial: once as many transitions were added as the buffer held before the reset, only stored indices are drawn."
  },
  {
   "property": "C62",
   "status": "partial",
   "theorems": [
    "C62_sample_avail_refuted",
    "C62_all_partial",
    "C62_ignored_refuted"
   ],
   "note": "REFUTED: prioritized sampling ignores sample_avail. C62_ignored_refuted: for all options and positive batch sizes. C62_all_partial: batch sizes <= 0 honour it."
  },
  {
   "property": "C63",
   "status": "partial",
   "theorems": [
    "C63_set_beta_refuted",
    "C63_own_partial"
   ],
   "note": "REFUTED: set_beta of the vector buffer never changes the returned weights (for all arguments). C63_own_partial: the set_beta of PrioritizedReplayBuffer and PrioritizedReplayBufferManager does."
  },
  {
   "property": "C64",
   "status": "partial",
   "theorems": [
    "C64_update_empty_refuted",
    "C64_update_partial"
   ],
   "note": "REFUTED: reading index[0] of an empty array; IndexError in the model, undefined in numba-compiled code. C64_update_partial: non-empty sources, after any history."
  },
  {
   "property": "C65",
   "status": "partial",
   "theorems": [
    "C65_manager_draw_zero_refuted"
   ],
   "note": "REFUTED: draw exactly 0 with an empty first sub-buffer gives the unstored index 0; C16_manager is the restriction to draws in (0,1)."
  },
  {
   "property": "C66",
   "status": "partial",
   "theorems": [
    "C66_reward_uses_new_goal_refuted",
    "C66_saved_obs_next_partial"
   ],
   "note": "REFUTED for save_obs_next=False (C66_reward_uses_new_goal_refuted: the reward is computed with the original goal found in the next row); true with stored obs_next (C66_saved_obs_next_partial together with C17_relabel)."
  },
  {
   "property": "C67",
   "status": "partial",
   "theorems": [
    "C67_update_from_her_refuted",
    "C67_no_relabelling_partial"
   ],
   "note": "REFUTED (C67_update_from_her_refuted: the source relabels rows in sample_indices(0) and the relabelled rows are stored); true when no episode is selected for relabelling (C67_no_relabelling_partial)."
  },
  {
   "property": "C68",
   "status": "partial",
   "theorems": [
    "C68_homogeneous_partial",
    "C68_submodule_modes_refuted"
   ],
   "note": "REFUTED for trees with mixed modes; proved for trees in one mode"
  },
  {
   "property": "C69",
   "status": "partial",
   "theorems": [
    "C69_double_partial",
    "C69_nature_refuted"
   ],
   "note": "REFUTED for is_double=False (maximum over all logits, mask ignored); proved for double DQN"
  },
  {
   "property": "C70",
   "status": "partial",
   "theorems": [
    "C70_own_step_partial",
    "C70_two_step_refuted"
   ],
   "note": "REFUTED for n-step > 1: the distribution is taken at batch.obs_next (one step ahead); proved where the return reaches only its own step"
  },
  {
   "property": "C71",
   "status": "partial",
   "theorems": [
    "C71_initial_std_refuted",
    "C71_forgotten_partial"
   ],
   "note": "REFUTED: std is stored as variance; proved: initial values are forgotten after the first update."
  },
  {
   "property": "C72",
   "status": "partial",
   "theorems": [
    "C72_restored_test_refuted",
    "C72_counters_partial",
    "C72_train_update_partial"
   ],
   "note": "REFUTED for the test scope (counter restored from the epoch, logging is by env_step) and the info scope (not restored); proved for train and update."
  },
  {
   "property": "C73",
   "status": "partial",
   "theorems": [
    "C73_cg_partial",
    "C73_zero_gradient_refuted"
   ],
   "note": "REFUTED for b = 0 (0/0 gives NaN); proved for b <> 0: residuals are orthogonal, at most n of them, no division by zero, convergence in n steps (exact arithmetic)."
  },
  {
   "property": "C74",
   "status": "proved",
   "theorems": [
    "C74_flat_round_trip"
   ],
   "note": "Round trip in both directions."
  },
  {
   "property": "C75",
   "status": "partial",
   "theorems": [
    "C75_prior_modified_refuted",
    "C75_other_arrays_partial"
   ],
   "note": "REFUTED: trans_count += mutates the prior array in place; proved: no other array changes."
  },
  {
   "property": "C76",
   "status": "partial",
   "theorems": [
    "C76_unobserved_variance_refuted",
    "C76_unobserved_partial"
   ],
   "note": "REFUTED: the deviation of an unobserved pair changes and can become sqrt of a negative number (NaN) because the squared-sum lacks the prior's contribution; proved for counts, mean, squares."
  },
  {
   "property": "C77",
   "status": "partial",
   "theorems": [
    "C77_value_iteration_partial",
    "C77_discount_one_refuted"
   ],
   "note": "REFUTED for discount 1 (accepted by the constructor): oscillation forever; proved for discount < 1 with termination, error bound and greedy policy."
  },
  {
   "property": "C78",
   "status": "partial",
   "theorems": [
    "C78_state_dropped_refuted",
    "C78_state_kept_partial"
   ],
   "note": "REFUTED: an agent without rows in one call loses its state; kept for agents with rows"
  },
  {
   "property": "C79",
   "status": "partial",
   "theorems": [
    "C79_reward_lost_refuted",
    "C79_normal_partial"
   ],
   "note": "REFUTED: no try/finally around the loop, an exception leaves one agent's reward column in the buffer (normal return: C43_process). C79_normal_partial: every call that returns restores the array."
  },
  {
   "property": "C80",
   "status": "partial",
   "theorems": [
    "C80_sub_not_within_refuted",
    "C80_mode_not_restored_refuted",
    "C80_mode_partial"
   ],
   "note": "REFUTED: is_within_training_step is set on the manager only (sub-policies with deterministic_eval act deterministically while training), and train() leaves the manager's own flag so the sub-policies' mode is not restored; mode theorem for sub-policies in the manager's mode"
  },
  {
   "property": "C81",
   "status": "partial",
   "theorems": [
    "C81_dummy_wait_num_refuted",
    "C81_wait_num_partial",
    "C81_dummy_half_partial"
   ],
   "note": "REFUTED for DummyVectorEnv: the loop pops from the list it iterates over, returning ceil(k/2) results; proved for subprocess workers"
  },
  {
   "property": "C82",
   "status": "partial",
   "theorems": [
    "C82_nothing_waiting_refuted",
    "C82_waiting_partial"
   ],
   "note": "REFUTED: with nothing running, while not ready_conns never ends; proved when something is running and finishes"
  },
  {
   "property": "C83",
   "status": "partial",
   "theorems": [
    "C83_seed_running_refuted",
    "C83_seed_partial"
   ],
   "note": "REFUTED: no check for running environments; the pipe hands out the step result as the seed and vice versa. Proved when nothing is running"
  },
  {
   "property": "C84",
   "status": "partial",
   "theorems": [
    "C84_not_ready_partial",
    "C84_duplicate_ids_refuted"
   ],
   "note": "REFUTED for repeated ids: environment both waiting and ready. Not-ready ids are rejected (C33_refused). C84_not_ready_partial restates this for both cases."
  },
  {
   "property": "C85",
   "status": "partial",
   "theorems": [
    "C85_dummy_partial",
    "C85_stale_result_refuted"
   ],
   "note": "REFUTED: actions before the invalid id have been sent, the next step returns the stale result. C85_dummy_partial: with environments in the same process it holds after any steps, failed ones included."
  },
  {
   "property": "C86",
   "status": "partial",
   "theorems": [
    "C86_minibatches_refuted",
    "C86_divides_partial"
   ],
   "note": "REFUTED: the split merges the last batch, batch_size None counts 2; equal when the batch size divides the length (repeat 1)"
  },
  {
   "property": "C87",
   "status": "partial",
   "theorems": [
    "C87_no_reset_refuted",
    "C87_resets_partial"
   ],
   "note": "REFUTED: __iter__ always resets, so run() resets twice, or once with reset_prior_to_run=False; exact number of resets proved"
  },
  {
   "property": "C88",
   "status": "partial",
   "theorems": [
    "C88_counters_refuted",
    "C88_env_step_partial"
   ],
   "note": "REFUTED for gradient_step and env_episode; proved for epoch and env_step, and for restored counters"
  },
  {
   "property": "C89",
   "status": "partial",
   "theorems": [
    "C89_episode_per_test_refuted",
    "C89_given_partial"
   ],
   "note": "REFUTED: _collect_training_data asserts episode_per_test is not None even without a test collector"
  },
  {
   "property": "C90",
   "status": "partial",
   "theorems": [
    "C90_metric_refuted",
    "C90_no_metric_partial"
   ],
   "note": "REFUTED: the test during training calls test_episode without reward_metric; proved when the metric does not change the numbers"
  },
  {
   "property": "C91",
   "status": "partial",
   "theorems": [
    "C91_cat_inplace_partial",
    "C91_stack_inplace_partial",
    "C91_cat_inplace_refuted"
   ],
   "note": "REFUTED: with a key that is empty in only some of the batches cat_ raises ValueError or leaves arrays of different length; proved when there is no such key"
  },
  {
   "property": "C92",
   "status": "partial",
   "theorems": [
    "C92_cat_values_refuted",
    "C92_cat_values_partial"
   ],
   "note": "REFUTED: a key missing (empty) in one batch takes the kind of the first batch that has it, later float values are truncated; proved for equal kinds"
  },
  {
   "property": "C93",
   "status": "partial",
   "theorems": [
    "C93_stack_more_refuted",
    "C93_stack_more_partial"
   ],
   "note": "REFUTED: nested batches with different keys stack, but raise ValueError when a batch without the outer key is added; proved when the partial keys look alike"
  },
  {
   "property": "C94",
   "status": "partial",
   "theorems": [
    "C94_self_assign_partial",
    "C94_self_assign_refuted"
   ],
   "note": "REFUTED for batches that hold None (TypeError); proved for batches without None"
  },
  {
   "property": "C95",
   "status": "partial",
   "theorems": [
    "C95_hasnull",
    "C95_dropnull_partial",
    "C95_dropnull_refuted"
   ],
   "note": "REFUTED: rows of dimension one or more are flattened into the result, and if every row has a null the keys are lost; proved for one-dimensional arrays and at least one complete row"
  },
  {
   "property": "C96",
   "status": "partial",
   "theorems": [
    "C96_pickle_partial",
    "C96_pickle_refuted",
    "C96_pickle_self_refuted"
   ],
   "note": "REFUTED: __setstate__ calls __init__(**state), so a key called copy or batch_dict is lost and a key called self raises TypeError. C96_pickle_partial: with any other top-level keys the Batch is restored exactly."
  },
  {
   "property": "C97",
   "status": "partial",
   "theorems": [
    "C97_hidden_partial",
    "C97_tensor_refuted"
   ],
   "note": "REFUTED for torch tensors: tensor[index].zero_() changes a copy. Proved for arrays and Batches."
  },
  {
   "property": "C98",
   "status": "partial",
   "theorems": [
    "C98_neither_partial",
    "C98_both_refuted",
    "C98_zero_steps_refuted"
   ],
   "note": "REFUTED: both may be given (the loop stops at whichever comes first), and n_step=0 with n_episode=k collects with all environments and may return more than k episodes. Proved: neither is refused."
  },
  {
   "property": "C99",
   "status": "partial",
   "theorems": [
    "C99_whole_partial",
    "C99_episodes_partial",
    "C99_reset_refuted",
    "C99_unused_env_refuted"
   ],
   "note": "REFUTED: reset_before_collect, and the reset of unused environments at the end of an n_episode call, leave the buffer's episode open, so the steps before are counted with the next episode. Proved when no episode is in progress, which calls with n_episode >= N preserve."
  },
  {
   "property": "C100",
   "status": "partial",
   "theorems": [
    "C100_counters_partial",
    "C100_reset_refuted"
   ],
   "note": "REFUTED: reset_before_collect zeroes the counters. Proved without it."
  },
  {
   "property": "C101",
   "status": "partial",
   "theorems": [
    "C101_same_rows_partial",
    "C101_kept_refuted"
   ],
   "note": "REFUTED: after reset_buffer(keep_statistics=True) the return counts more rows than the length. Proved for buffers that were never reset that way."
  },
  {
   "property": "C102",
   "status": "partial",
   "theorems": [
    "C102_unchecked_partial",
    "C102_checked_refuted"
   ],
   "note": "REFUTED: set(new).difference(result) is non-empty for every new key, so with the default check any returned entry raises KeyError. Proved: without the check the last hook wins for each key."
  },
  {
   "property": "C103",
   "status": "proved",
   "theorems": [
    "C103_joined"
   ],
   "note": "Per environment the stored transitions are the run of this environment on its own with the actions answered for it, for every answering order and sequence of collect calls that return; at the end exactly the running environments have one action outstanding, answered for their current observation."
  },
  {
   "property": "C104",
   "status": "partial",
   "theorems": [
    "C104_never_partial",
    "C104_stateless_refuted",
    "C104_emptied"
   ],
   "note": "REFUTED: the entry stored per environment for a policy without hidden state is an empty Batch, and indexing an empty Batch raises IndexError (batch.py:746) in the first round (the following access to the hidden state would fail too). Random collection has no hidden state either. Proved: with such a policy no call of collect on a collector without hidden state ever returns."
  },
  {
   "property": "C105",
   "status": "partial",
   "theorems": [
    "C105_scalar_partial",
    "C105_actions_refuted"
   ],
   "note": "REFUTED: actions are kept in np.empty(env_num), a float vector: actions that are arrays do not fit (ValueError) and integer actions come back as floats. Proved: without array actions the stored actions are the answered ones converted to floats."
  },
  {
   "property": "C106",
   "status": "partial",
   "theorems": [
    "C106_reset_partial",
    "C106_reset_refuted"
   ],
   "note": "REFUTED: reset_env fetches results only once, so with fewer than half of the environments awaited (or with workers in the same process) some are still running when all are reset: AssertionError. Proved: with worker processes, no timeout and wait_num at least half of the environments, reset succeeds after any calls of collect (or waits for ever) and leaves no environment running."
  },
  {
   "property": "C107",
   "status": "partial",
   "theorems": [
    "C107_reset_env_refuted"
   ],
   "note": "REFUTED: reset_env updates neither the current observations nor the set of ready environments: the next collect acts on observations from before the reset and never steps the environments that were running. After reset() C103/C104 hold."
  },
  {
   "property": "C108",
   "status": "proved",
   "theorems": [
    "C108_counts"
   ],
   "note": "Every sequence of collect calls that return, episodes of every length."
  },
  {
   "property": "C109",
   "status": "proved",
   "theorems": [
    "C109_hidden"
   ],
   "note": "Hidden states in tensors are excluded: they are not reset (C97)."
  },
  {
   "property": "C110",
   "status": "proved",
   "theorems": [
    "C110_store",
    "C110_read_back"
   ],
   "note": "For histories whose values have one kind and shape per path and no None. C110_read_back reads a slot with Batch.__getitem__."
  },
  {
   "property": "C111",
   "status": "partial",
   "theorems": [
    "C111_first_type_refuted"
   ],
   "note": "REFUTED: the array of a key gets the type of the first value, so a later action 1/2 after an integer action 1 is stored as 0 (base.py:471-485 casts only rew and the flags). With one kind per key C110_read_back gives the value back."
  },
  {
   "property": "C112",
   "status": "partial",
   "theorems": [
    "C112_other_rows_partial",
    "C112_add_refuted"
   ],
   "note": "REFUTED: _update_state_pre_add runs before the write, so after an add that raises the buffer is longer by one and its new row is partly written (here obs is there, rew is 0). Restriction proved: rows other than the addressed ones never change, even when the write raises."
  },
  {
   "property": "C113",
   "status": "partial",
   "theorems": [
    "C113_add_partial",
    "C113_scale",
    "C113_order_refuted"
   ],
   "note": "REFUTED in general: __iadd__ pairs the values of both batches by position (zip over values()), so with keys in another order unrelated values are added; values added to an empty nested batch are ignored. Proved for equal key order (partial), and for numbers in full."
  },
  {
   "property": "C114",
   "status": "proved",
   "theorems": [
    "C114_comm",
    "C114_assoc",
    "C114_double",
    "C114_distr"
   ],
   "note": "Contents are exact rationals or NaN; rounding is not modelled. Both batches have equal keys, kinds and shapes."
  },
  {
   "property": "C115",
   "status": "partial",
   "theorems": [
    "C115_layout_partial",
    "C115_raises_refuted"
   ],
   "note": "REFUTED: the strict zip of __iadd__ raises after the common positions were added; a None or an array that cannot take the operand raises after the values before it were changed. Proved: keys, kinds and shapes never change."
  },
  {
   "property": "C116",
   "status": "partial",
   "theorems": [
    "C116_floats_partial",
    "C116_ints_refuted"
   ],
   "note": "REFUTED for integer arrays: __itruediv__ divides in place, which numpy refuses for integers, and __truediv__ works on a deep copy in the same way, so even batch / 2 raises. Proved for float arrays."
  },
  {
   "property": "C117",
   "status": "proved",
   "theorems": [
    "C117_setitem",
    "C117_empty"
   ],
   "note": "Arrays are at least one-dimensional for an index; scalars get index None only."
  },
  {
   "property": "C118",
   "status": "partial",
   "theorems": [
    "C118_existing",
    "C118_missing",
    "C118_nested",
    "C118_whole",
    "C118_dimensions_refuted"
   ],
   "note": "REFUTED for arrays of more than one dimension: a missing key is always created one-dimensional, so the write raises and the new key stays in the batch. Proved: existing keys of any dimension, missing keys for one-dimensional arrays, and calls without index."
  },
  {
   "property": "C119",
   "status": "partial",
   "theorems": [
    "C119_shape",
    "C119_shape_refuted"
   ],
   "note": "REFUTED: with a None the shape is [] and with a nested batch whose arrays have no rows it starts with 0, while the length ignores both. Proved for batches without None, empty batches and empty arrays."
  },
  {
   "property": "C120",
   "status": "proved",
   "theorems": [
    "C120_replace"
   ],
   "note": "The comparison with an empty batch is modelled as having no keys (DeepDiff of the two dicts)."
  },
  {
   "property": "C121",
   "status": "proved",
   "theorems": [
    "C121_binds",
    "C121_wrong_env"
   ],
   "note": ""
  },
  {
   "property": "C122",
   "status": "proved",
   "theorems": [
    "C122_values"
   ],
   "note": ""
  },
  {
   "property": "C123",
   "status": "partial",
   "theorems": [
    "C123_accepts",
    "C123_documented_refuted"
   ],
   "note": "REFUTED for three documented values: PPOParams documents dual_clip as c < 1 - eps_clip (typically 0 to 0.5) while PPOPolicy asserts dual_clip > 1; action_bound_method='tanh' is allowed for DDPG, REDQ, SAC and TD3 by the parameter classes but asserted away by DDPGPolicy; an integer alpha such as 1 is taken for a tuple (isinstance(alpha, float)) and raises TypeError. Proved: the exact set of values accepted, for all twelve algorithms."
  },
  {
   "property": "C124",
   "status": "partial",
   "theorems": [
    "C124_continuous",
    "C124_discrete_refuted"
   ],
   "note": "REFUTED for discrete actions: the default target is minus the number of actions, below any attainable entropy, so log_alpha of DiscreteSAC decreases in every step, by at least lr * n. Proved for continuous actions (plain gradient steps)."
  },
  {
   "property": "C125",
   "status": "partial",
   "theorems": [
    "C125_redq_refuted",
    "C125_sac_partial"
   ],
   "note": "REFUTED for REDQ: learn reads self._target_entropy and self._log_alpha, the constructor sets target_entropy and log_alpha, so the first actor update with automatic alpha raises AttributeError. Proved for SAC and DiscreteSAC."
  },
  {
   "property": "C126",
   "status": "partial",
   "theorems": [
    "C126_accepts",
    "C126_arguments",
    "C126_episodes_refuted",
    "C126_no_tests_refuted",
    "C126_checkpoints_refuted"
   ],
   "note": "REFUTED in three ways: a configuration with episode_per_collect is accepted, but create_trainer does not pass it, so the first collection raises ValueError; num_test_episodes = 0 is accepted with a warning, but the trainer's first test raises ValueError; off-policy trainers get no save_checkpoint_fn. C126_accepts gives the exact condition for acceptance, C126_arguments what does reach the trainer and when its requests are valid."
  },
  {
   "property": "C127",
   "status": "proved",
   "theorems": [
    "C127_counts"
   ],
   "note": "Proved for runs without stop callback; each collection is taken to have the same number of steps (C29 proves that a collection of n steps with m environments has ceil(n/m)*m)."
  },
  {
   "property": "C128",
   "status": "partial",
   "theorems": [
    "C128_onpolicy",
    "C128_offpolicy_refuted"
   ],
   "note": "REFUTED off-policy: the schedule counts collections, but the scheduler is stepped once per update; with q updates per collection the factor ends at 1-q, i.e. the learning rate becomes negative for q > 1. On-policy the property is proved."
  },
  {
   "property": "C129",
   "status": "partial",
   "theorems": [
    "C129_decay",
    "C129_zero_refuted"
   ],
   "note": "REFUTED only for decay_steps = 0, where the first call raises ZeroDivisionError; proved for all positive numbers of decay steps."
  },
  {
   "property": "C130",
   "status": "partial",
   "theorems": [
    "C130_result_refuted",
    "C130_order",
    "C130_restore",
    "C130_disk"
   ],
   "note": "REFUTED for the result: run() discards what trainer.run() returns, trainer_result is always None (so launchers return lists of None). Order, configured parts and what is left on disk are proved."
  },
  {
   "property": "C131",
   "status": "partial",
   "theorems": [
    "C131_distinct",
    "C131_overlap_refuted",
    "C131_registered_refuted"
   ],
   "note": "REFUTED: the test seeds of each experiment are training seeds of the next one, and a registered environment factory keeps its own seeds, so that all experiments use the same environment seeds. Proved: seeds of experiments, names and configured training seeds are pairwise different; within one experiment training and test seeds are disjoint."
  },
  {
   "property": "C132",
   "status": "partial",
   "theorems": [
    "C132_results",
    "C132_single_refuted"
   ],
   "note": "REFUTED for a single experiment, whose exception is not caught. For all other numbers of experiments proved for both launchers. Parallel execution is taken to return the outcomes in order (joblib)."
  },
  {
   "property": "C133",
   "status": "partial",
   "theorems": [
    "C133_restore",
    "C133_checkpoints",
    "C133_disabled",
    "C133_best_partial",
    "C133_items_refuted"
   ],
   "note": "REFUTED: the items have one file each, which every checkpoint overwrites, so restoring gives the best policy with the items of the last checkpoint. C133_restore is the exact result; without checkpoints (the off-policy factories) the items are those of the best policy. Parts of the policy outside the state dictionary are never restored."
  },
  {
   "property": "C134",
   "status": "partial",
   "theorems": [
    "C134_step",
    "C134_roundtrip_partial",
    "C134_lambda_refuted"
   ],
   "note": "REFUTED for LambdaLR (the schedulers of LRSchedulerFactoryLinear): load_state_dict updates __dict__, which replaces the lambda by None or a dict; the next step raises TypeError. Proved for schedulers without lambda. The behaviour of torch's schedulers is part of the model."
  },
  {
   "property": "C135",
   "status": "partial",
   "theorems": [
    "C135_clip",
    "C135_dual",
    "C135_bounds",
    "C135_loss",
    "C135_inside_refuted"
   ],
   "note": "REFUTED as stated for dual clipping: the constructor asserts dual_clip > 1.0 but not dual_clip > 1 + eps_clip; with 1 < c < 1 + eps the lower bound c*adv is active inside the clipping interval. The rest holds for all constants: C135_clip, C135_dual, C135_bounds."
  },
  {
   "property": "C136",
   "status": "proved",
   "theorems": [
    "C136_value"
   ],
   "note": ""
  },
  {
   "property": "C137",
   "status": "partial",
   "theorems": [
    "C137_normalised",
    "C137_rows",
    "C137_nan_refuted"
   ],
   "note": "REFUTED for minibatches with one row: torch's std of one value is NaN, so with batch_size 1 (or one row in the buffer) all advantages, hence the loss, are NaN. C137_rows: with merge_last a minibatch has one row only if batch_size is 1 or the batch has one row. C137_normalised: the property otherwise."
  },
  {
   "property": "C138",
   "status": "proved",
   "theorems": [
    "C138_steps"
   ],
   "note": ""
  },
  {
   "property": "C139",
   "status": "proved",
   "theorems": [
    "C139_max_batch"
   ],
   "note": ""
  },
  {
   "property": "C140",
   "status": "proved",
   "theorems": [
    "C140_returns"
   ],
   "note": ""
  },
  {
   "property": "C141",
   "status": "partial",
   "theorems": [
    "C141_once",
    "C141_repeat_refuted"
   ],
   "note": "REFUTED for recompute_advantage: each repetition after the first recomputes returns and counts all rows in ret_rms again. Holds without it (C141_once)."
  },
  {
   "property": "C142",
   "status": "proved",
   "theorems": [
    "C142_pg"
   ],
   "note": ""
  },
  {
   "property": "C143",
   "status": "partial",
   "theorems": [
    "C143_update",
    "C143_restore_refuted"
   ],
   "note": "REFUTED: Batch(orig_rew=batch.rew) keeps the array that += then modifies in place, so the original reward is restored exactly when no row got a bonus (C143_restore_refuted, for all models). The buffer's rewards are untouched (C143_update)."
  },
  {
   "property": "C144",
   "status": "partial",
   "theorems": [
    "C144_episodic",
    "C144_nstep_refuted"
   ],
   "note": "REFUTED for n-step learners (DQN, DDPG, TD3, SAC, ...): compute_nstep_return reads buffer.rew, so ICM has no effect on their returns, for every model and scale. For learners that use batch.rew (PG, A2C, PPO) the bonus enters linearly (C144_episodic)."
  },
  {
   "property": "C145",
   "status": "partial",
   "theorems": [
    "C145_train",
    "C145_eps",
    "C145_sampling",
    "C145_wrapped_refuted"
   ],
   "note": "REFUTED for the training-step flag: policy_within_training_step sets it on the outer policy only, so a wrapped policy with deterministic_eval=True takes the mode of its distribution while training. train and set_eps do reach the wrapped policy; C145_sampling is the exact condition."
  },
  {
   "property": "C146",
   "status": "partial",
   "theorems": [
    "C146_steps",
    "C146_few_rows",
    "C146_count_refuted",
    "C146_reward"
   ],
   "note": "REFUTED: with n rows there are n // (n // k) updates, between k and 2k-1, equal to k exactly when n mod k < n / k; with fewer than k rows learn fails with an AssertionError. Partition, expert batches and reward hold."
  },
  {
   "property": "C147",
   "status": "partial",
   "theorems": [
    "C147_errors",
    "C147_reversed_refuted"
   ],
   "note": "REFUTED for learners that do not set batch.weight: it still holds the importance weights, which are written back as priorities; the order of the priorities of the sampled transitions is reversed (for every history). Learners that store errors: C147_errors."
  },
  {
   "property": "C148",
   "status": "partial",
   "theorems": [
    "C148_column",
    "C148_not_wrapped",
    "C148_wrapped_refuted",
    "C148_vector_refuted",
    "C148_twice_refuted"
   ],
   "note": "REFUTED for a buffer that has wrapped around (rows get the return of another row), for a vector buffer with a sub-buffer that is not full (wrong row, IndexError on sampling), and for a second trainer on the same buffer (TypeError, duplicate key). True for a single buffer that is not full or whose next write goes to row 0 (C148_not_wrapped); C148_column gives the value of each row in general."
  },
  {
   "property": "C149",
   "status": "partial",
   "theorems": [
    "C149_targets",
    "C149_truncated_refuted"
   ],
   "note": "REFUTED: BCQ, CQL and CRR use batch.done, so a truncated row's target is its reward alone. Holds for rows that are not truncated."
  },
  {
   "property": "C150",
   "status": "proved",
   "theorems": [
    "C150_targets",
    "C150_clipped",
    "C150_forward"
   ],
   "note": "Networks and the decoder are arbitrary functions; done is used as in C149."
  },
  {
   "property": "C151",
   "status": "partial",
   "theorems": [
    "C151_rows",
    "C151_reshape_refuted",
    "C151_single",
    "C151_alpha"
   ],
   "note": "REFUTED for num_repeat_actions >= 2: the result of reshape is dropped, so log-sum-exp runs over three values at a time and the term is strictly smaller for every batch. True for num_repeat_actions = 1. logsumexp is any function that is symmetric and grows with each further value."
  },
  {
   "property": "C152",
   "status": "partial",
   "theorems": [
    "C152_range",
    "C152_constant_refuted"
   ],
   "note": "REFUTED: the code draws from uniform_(-min_action, max_action); for every range symmetric around 0 (the default) all actions are max_action, and with -min_action > max_action an error is raised."
  },
  {
   "property": "C153",
   "status": "partial",
   "theorems": [
    "C153_likely",
    "C153_large_values_refuted"
   ],
   "note": "REFUTED if two values differ by more than INF = 1e8 (the penalty of unlikely actions). Proved when all differences are smaller."
  },
  {
   "property": "C154",
   "status": "proved",
   "theorems": [
    "C154_bounded"
   ],
   "note": "NaN (None) exactly if the critic is zero on the whole batch."
  },
  {
   "property": "C155",
   "status": "proved",
   "theorems": [
    "C155_centred",
    "C155_weights"
   ],
   "note": "exp is any monotone function."
  },
  {
   "property": "C156",
   "status": "partial",
   "theorems": [
    "C156_product_refuted",
    "C156_example_refuted",
    "C156_equal_weights"
   ],
   "note": "REFUTED: log_prob has shape (B,), the weights shape (B, 1), so the product has shape (B, B) and the loss is the mean weight times the mean negated log probability. True if all weights are equal."
  },
  {
   "property": "C157",
   "status": "proved",
   "theorems": [
    "C157_midpoints",
    "C157_proposed",
    "C157_value"
   ],
   "note": "The categorical distribution is any vector of non-negative numbers with sum 1."
  },
  {
   "property": "C158",
   "status": "proved",
   "theorems": [
    "C158_zero",
    "C158_batch",
    "C158_shapes"
   ],
   "note": "Gradients are not modelled."
  },
  {
   "property": "C159",
   "status": "proved",
   "theorems": [
    "C159_no_crossing",
    "C159_between",
    "C159_huber"
   ],
   "note": "About the loss the code computes; existence of minimisers is not claimed."
  },
  {
   "property": "C160",
   "status": "proved",
   "theorems": [
    "C160_gradient"
   ],
   "note": "fraction_gradient is the code's gradient_of_taus; that this is the derivative of the 1-Wasserstein distance is from the paper and not proved."
  },
  {
   "property": "C161",
   "status": "partial",
   "theorems": [
    "C161_double",
    "C161_ignored_refuted"
   ],
   "note": "REFUTED: is_double is never read in QRDQN, IQN, FQF and C51; the online network always chooses. Holds for is_double=True or without a target network."
  },
  {
   "property": "C162",
   "status": "partial",
   "theorems": [
    "C162_branch",
    "C162_targets",
    "C162_discount_refuted",
    "C162_unfinished_refuted",
    "C162_single_row_refuted"
   ],
   "note": "REFUTED: the policy's discount factor is ignored (0.99 is used), the last stored step of a running episode is treated as terminal, and with one row and several branches squeeze() removes the row axis (one target and one priority per branch instead of one for the transition). C162_targets gives the value for more than one row."
  },
  {
   "property": "C163",
   "status": "partial",
   "theorems": [
    "C163_loss",
    "C163_cancel_refuted",
    "C163_one_branch"
   ],
   "note": "REFUTED for the priority with two or more branches: errors are summed with their signs. Holds for the loss, and for the priority with one branch."
  },
  {
   "property": "C164",
   "status": "partial",
   "theorems": [
    "C164_range",
    "C164_mask_refuted"
   ],
   "note": "REFUTED with a mask, which is added to the random action. Holds without a mask."
  },
  {
   "property": "C165",
   "status": "proved",
   "theorems": [
    "C165_nonneg"
   ],
   "note": "logsumexp is any function that is at least the maximum."
  },
  {
   "property": "C166",
   "status": "proved",
   "theorems": [
    "C166_ddpg",
    "C166_sac",
    "C166_redq",
    "C166_td3"
   ],
   "note": "DDPG, TD3, SAC / discrete SAC and REDQ, for every network, gradient function and optimizer that keeps the shapes of the parameters; deterministic networks."
  },
  {
   "property": "C167",
   "status": "proved",
   "theorems": [
    "C167_td3",
    "C167_redq",
    "C167_zero"
   ],
   "note": "TD3 and REDQ; a frequency of zero raises ZeroDivisionError in the first call (C167_zero)."
  },
  {
   "property": "C168",
   "status": "proved",
   "theorems": [
    "C168_gradients",
    "C168_accumulation"
   ],
   "note": "All four learners, any contents of the gradient fields."
  },
  {
   "property": "C169",
   "status": "partial",
   "theorems": [
    "C169_same_refuted",
    "C169_given"
   ],
   "note": "REFUTED when critic2 is not passed (the default): the second critic is a copy, is trained on the same batches, targets and weights with an optimizer of the same options, and stays equal to the first for ever, so min(Q1, Q2) = Q1 in TD3 and SAC (C169_same_refuted, every history). Holds of a critic that is passed (C169_given)."
  },
  {
   "property": "C170",
   "status": "partial",
   "theorems": [
    "C170_noise_partial",
    "C170_range_refuted"
   ],
   "note": "REFUTED for the range: the smoothed action is not clipped to the action range (C170_range_refuted); the distance and the minimum are proved (C170_noise_partial)."
  },
  {
   "property": "C171",
   "status": "proved",
   "theorems": [
    "C171_redq",
    "C171_dsac",
    "C171_lower"
   ],
   "note": "REDQ for every subset and both modes; discrete SAC as the mean over actions; lower bound."
  },
  {
   "property": "C172",
   "status": "partial",
   "theorems": [
    "C172_process_partial",
    "C172_restart_refuted"
   ],
   "note": "REFUTED for a size that is not a tuple and for a changed size: the process restarts at 0 (not x0) in every call (C172_restart_refuted); closed form proved for calls of one tuple size (C172_process_partial)."
  },
  {
   "property": "C173",
   "status": "partial",
   "theorems": [
    "C173_clone_partial",
    "C173_options_refuted"
   ],
   "note": "REFUTED: options changed after construction (schedulers, parameter groups) are lost, optim.defaults are used (C173_options_refuted); holds if they are unchanged (C173_clone_partial)."
  },
  {
   "property": "C174",
   "status": "partial",
   "theorems": [
    "C174_between_partial",
    "C174_cancel_refuted"
   ],
   "note": "REFUTED: opposite errors of two critics (of an ensemble) cancel (C174_cancel_refuted); the weight lies between the errors (C174_between_partial)."
  },
  {
   "property": "C175",
   "status": "partial",
   "theorems": [
    "C175_clip_partial",
    "C175_zero_refuted"
   ],
   "note": "REFUTED for max_grad_norm = 0.0, which does not clip, and for a missing module, which raises after the backward pass (C175_zero_refuted); positive maxima are proved (C175_clip_partial)."
  },
  {
   "property": "C176",
   "status": "proved",
   "theorems": [
    "C176_sizes",
    "C176_accepted"
   ],
   "note": ""
  },
  {
   "property": "C177",
   "status": "partial",
   "theorems": [
    "C177_lists",
    "C177_single",
    "C177_dropped_refuted",
    "C177_tuple_refuted"
   ],
   "note": "REFUTED: with a list of argument sets (norm_args or act_args) and a single layer class, MLP hands the whole list to every layer (common.py:98-100, 113-115), where it is neither tuple nor dict and is dropped without an error (common.py:32-46); a tuple of classes, which nothing excludes, raises TypeError. C177_lists holds when classes and arguments are both lists."
  },
  {
   "property": "C178",
   "status": "proved",
   "theorems": [
    "C178_dueling",
    "C178_atoms"
   ],
   "note": ""
  },
  {
   "property": "C179",
   "status": "proved",
   "theorems": [
    "C179_shape",
    "C179_concat"
   ],
   "note": ""
  },
  {
   "property": "C180",
   "status": "partial",
   "theorems": [
    "C180_plain",
    "C180_heads_refuted"
   ],
   "note": "REFUTED for dueling networks: the Q and V heads are built without linear_layer, so Net(linear_layer=NoisyLinear, dueling_param=...) has plain heads unless the head's own dict names it. C180_plain holds without dueling."
  },
  {
   "property": "C181",
   "status": "partial",
   "theorems": [
    "C181_values",
    "C181_sizes",
    "C181_default_refuted"
   ],
   "note": "REFUTED for the defaults: BranchingNet without common_hidden_sizes raises IndexError (common.py:519, common_hidden_sizes[-1] of an empty list). The values of a network that could be built satisfy the law (C181_values)."
  },
  {
   "property": "C182",
   "status": "proved",
   "theorems": [
    "C182_probs",
    "C182_uniform"
   ],
   "note": ""
  },
  {
   "property": "C183",
   "status": "proved",
   "theorems": [
    "C183_members"
   ],
   "note": ""
  },
  {
   "property": "C184",
   "status": "partial",
   "theorems": [
    "C184_batched",
    "C184_single_partial",
    "C184_ragged_refuted",
    "C184_listshape_refuted"
   ],
   "note": "REFUTED for a single observation with entries of different widths (ValueError) and for shapes that are ints or lists (a single observation is taken as a batch). Holds for batches and for single observations with equal widths and tuple shapes."
  },
  {
   "property": "C185",
   "status": "partial",
   "theorems": [
    "C185_present_partial",
    "C185_missing_refuted"
   ],
   "note": "REFUTED: a module without the attribute output_dim raises AttributeError whatever the alternative value is. Holds for modules that have the attribute (possibly None)."
  },
  {
   "property": "C186",
   "status": "proved",
   "theorems": [
    "C186_sequences",
    "C186_keys"
   ],
   "note": ""
  },
  {
   "property": "C187",
   "status": "partial",
   "theorems": [
    "C187_threads",
    "C187_prob_refuted"
   ],
   "note": "REFUTED for ActorProb: forward returns the state it was given, not the hidden state of the preprocessing network, so a recurrent preprocessing network starts anew in every step. Holds for the deterministic and the discrete actor."
  },
  {
   "property": "C188",
   "status": "proved",
   "theorems": [
    "C188_bounded",
    "C188_perturb",
    "C188_latent"
   ],
   "note": ""
  },
  {
   "property": "C189",
   "status": "partial",
   "theorems": [
    "C189_fits",
    "C189_obs_only_refuted"
   ],
   "note": "REFUTED for apply_preprocess_net_to_obs_only together with actions: the last layers are built for the output of the preprocessing network, not for that plus the action, so every call raises RuntimeError. Holds for all other combinations."
  },
  {
   "property": "C190",
   "status": "proved",
   "theorems": [
    "C190_noisy"
   ],
   "note": ""
  },
  {
   "property": "C191",
   "status": "proved",
   "theorems": [
    "C191_entries"
   ],
   "note": ""
  },
  {
   "property": "C192",
   "status": "proved",
   "theorems": [
    "C192_curiosity",
    "C192_loss"
   ],
   "note": ""
  },
  {
   "property": "C193",
   "status": "partial",
   "theorems": [
    "C193_actor",
    "C193_critic",
    "C193_discrete_refuted",
    "C193_envs"
   ],
   "note": "REFUTED for the default actor factory in discrete environments (C193_discrete_refuted): hidden sizes and activation are ignored; the actor always has two layers of 64 units with ReLU (highlevel/module/actor.py:142-146). Proved for continuous environments, for the specific factories and for all critics."
  },
  {
   "property": "C194",
   "status": "partial",
   "theorems": [
    "C194_actor",
    "C194_critic",
    "C194_reuse",
    "C194_reuse_refuted"
   ],
   "note": "REFUTED for critics that use the actor with learners that pass an action (see C194_reuse_refuted): the reused network makes a head that is too narrow for observation features and action, or a discrete critic that takes no action. Proved for actors and for critics of their own, and for reuse by the learners that pass the observation only."
  },
  {
   "property": "C195",
   "status": "partial",
   "theorems": [
    "C195_shared",
    "C195_copy",
    "C195_pickle_refuted"
   ],
   "note": "REFUTED after saving and loading an experiment, or sending it to another process (C195_pickle_refuted): the decorator makes a new future that the critic factory does not know, so a fresh experiment raises ValueError and one that was run uses an old actor's network. Proved for experiments in one process and for copies of builders."
  },
  {
   "property": "C196",
   "status": "partial",
   "theorems": [
    "C196_dist",
    "C196_softmax",
    "C196_dsac_refuted",
    "C196_dsac",
    "C196_kind"
   ],
   "note": "REFUTED for discrete SAC as made by its builder (C196_dsac_refuted): its policy takes the actor's output for logits while the default actor applies a softmax, so no action is more than e times as probable as any other. Proved for the distribution functions of the factories and for discrete SAC with an actor without softmax."
  },
  {
   "property": "C197",
   "status": "partial",
   "theorems": [
    "C197_default",
    "C197_no_dist_refuted"
   ],
   "note": "REFUTED for A2C, PPO, NPG and TRPO with an actor factory without distribution (C197_no_dist_refuted): the policy is created with None as distribution function; PG raises. Proved for the default factories of all agents."
  },
  {
   "property": "C198",
   "status": "partial",
   "theorems": [
    "C198_once",
    "C198_twice_refuted",
    "C198_trust",
    "C198_trust_refuted"
   ],
   "note": "REFUTED for critics that use the actor (C198_twice_refuted, C198_trust_refuted): in DDPG, SAC and TD3 the shared network is in two optimizers, and in NPG and TRPO the critic's regression moves the actor after its trust-region step. Proved for critics of their own."
  },
  {
   "property": "C199",
   "status": "partial",
   "theorems": [
    "C199_init",
    "C199_ensemble_refuted"
   ],
   "note": "REFUTED for ensembles of critics (C199_ensemble_refuted): EnsembleLinear is no nn.Linear, so init_linear_orthogonal changes nothing. Proved for all other factories."
  },
  {
   "property": "C200",
   "status": "proved",
   "theorems": [
    "C200_latest"
   ],
   "note": ""
  },
  {
   "property": "C201",
   "status": "proved",
   "theorems": [
    "C201_intermediate",
    "C201_unknown_size",
    "C201_icm"
   ],
   "note": ""
  },
  {
   "property": "C202",
   "status": "partial",
   "theorems": [
    "C202_copy",
    "C202_callbacks_refuted"
   ],
   "note": "REFUTED for epoch callbacks (C202_callbacks_refuted): the TrainerCallbacks object is shared with the experiments already built. Proved for name and optimizer, and for experiments built from copies."
  },
  {
   "property": "C203",
   "status": "partial",
   "theorems": [
    "C203_round_trip",
    "C203_setup",
    "C203_number_refuted",
    "C203_missing_key_refuted",
    "C203_broadcast_refuted"
   ],
   "note": "REFUTED in part (C203_number_refuted, C203_missing_key_refuted, C203_broadcast_refuted): observations that fit the space arrive as sent, whatever the memory contained. A number or a list instead of an array (what environments with a Discrete observation space return) is silently not written, so the reader gets the previous contents; keys missing from a dictionary keep the value of an earlier observation; an array of one element is spread over a whole row."
  },
  {
   "property": "C204",
   "status": "partial",
   "theorems": [
    "C204_same_answers",
    "C204_same_answers_refuted"
   ],
   "note": "REFUTED in part (C204_same_answers_refuted): for every sequence of calls both kinds of worker give the same answers and the same states, except that a missing attribute or render raises an AttributeError in one and returns None in the other, and seed returns [seed] in one and None in the other."
  },
  {
   "property": "C205",
   "status": "partial",
   "theorems": [
    "C205_actions",
    "C205_reset_seed_refuted"
   ],
   "note": "REFUTED in part (C205_reset_seed_refuted): reset(seed=...) of a vector environment seeds the action space of workers in other processes but not of DummyEnvWorker, whose send does not do what its reset does. Without such calls the actions agree (C205_actions)."
  },
  {
   "property": "C206",
   "status": "partial",
   "theorems": [
    "C206_arrays",
    "C206_dicts_refuted",
    "C206_collector",
    "C206_collector_refuted"
   ],
   "note": "REFUTED for dictionary observations (C206_dicts_refuted, C206_collector_refuted): ShArray.get returns a view, and np.stack of dictionaries keeps them, so every dictionary that a worker ever returned shows its latest observation; the collector, which builds the batch after the step, then stores the next observation as obs and as obs_next in every transition. Proved for array observations."
  },
  {
   "property": "C207",
   "status": "partial",
   "theorems": [
    "C207_statistics",
    "C207_off",
    "C207_dict_refuted"
   ],
   "note": "REFUTED for dictionary observations (C207_dict_refuted): the error message for tuples recommends them, but they raise a TypeError. Proved for arrays."
  },
  {
   "property": "C208",
   "status": "proved",
   "theorems": [
    "C208_shared",
    "C208_updating"
   ],
   "note": "Including test calls before the first training call, which use the initial statistics."
  },
  {
   "property": "C209",
   "status": "partial",
   "theorems": [
    "C209_rewards",
    "C209_stale_refuted",
    "C209_masks"
   ],
   "note": "REFUTED in part (C209_stale_refuted): an agent for which the environment reports no reward keeps its old one at every later step, also after a reset; what the list contains is the last reported reward (C209_rewards)."
  },
  {
   "property": "C210",
   "status": "partial",
   "theorems": [
    "C210_forwarded",
    "C210_drop_in_refuted",
    "C210_async_collector_refuted"
   ],
   "note": "REFUTED in part (C210_drop_in_refuted, C210_async_collector_refuted): the fields of BaseVectorEnv (env_num, workers, waiting_id, ready_id, is_closed, ...) are missing from wrappers, and AsyncCollector.reset_env raises an AttributeError with a wrapped environment. Reserved keys, length, is_async and methods are forwarded through any number of wrappers."
  },
  {
   "property": "C211",
   "status": "proved",
   "theorems": [
    "C211_box",
    "C211_discrete",
    "C211_rejected"
   ],
   "note": ""
  },
  {
   "property": "C212",
   "status": "proved",
   "theorems": [
    "C212_to_numpy",
    "C212_lists",
    "C212_idempotent",
    "C212_types"
   ],
   "note": ""
  },
  {
   "property": "C213",
   "status": "partial",
   "theorems": [
    "C213_to_torch",
    "C213_error_refuted",
    "C213_row_refuted"
   ],
   "note": "REFUTED (C213_error_refuted, C213_row_refuted): inside a Batch, None, scalars (e.g. every value of a row b[i] of one-dimensional arrays) and other objects raise AttributeError (batch.py:898-912 reads arr.device), although to_torch accepts the scalar itself. C213_to_torch proves exactly what is accepted."
  },
  {
   "property": "C214",
   "status": "partial",
   "theorems": [
    "C214_dtype",
    "C214_twice",
    "C214_batch_array_refuted",
    "C214_conversion"
   ],
   "note": "REFUTED (C214_batch_array_refuted): Batch.to_torch_ ignores dtype for numpy arrays (batch.py:899-900), so to_torch(batch, dtype) leaves their type unchanged and a second call changes it. C214_dtype and C214_twice prove what holds: outside containers and for tensors the type is right, and after two conversions everywhere."
  },
  {
   "property": "C215",
   "status": "proved",
   "theorems": [
    "C215_torch_numpy",
    "C215_numpy_torch"
   ],
   "note": ""
  },
  {
   "property": "C216",
   "status": "partial",
   "theorems": [
    "C216_fresh",
    "C216_shared",
    "C216_dict_refuted",
    "C216_cast"
   ],
   "note": "REFUTED for to_numpy of dicts (C216_dict_refuted): Batch(x) copies nothing (converter.py:28), so every array and cpu tensor in the dict is shared with the result at every level. C216_fresh proves the property for to_torch and for to_numpy of Batches, C216_shared what single arrays do."
  },
  {
   "property": "C217",
   "status": "proved",
   "theorems": [
    "C217_bounds",
    "C217_permutation",
    "C217_affine",
    "C217_concatenation",
    "C217_rows"
   ],
   "note": "Variance instead of standard deviation; exact rationals."
  },
  {
   "property": "C218",
   "status": "partial",
   "theorems": [
    "C218_sequential",
    "C218_joblib",
    "C218_single_refuted"
   ],
   "note": "REFUTED (C218_single_refuted): a single experiment is executed without protection, so its own exception is raised instead of RuntimeError, and an empty list raises 'All experiments failed' (launcher.py:76-87). C218_sequential and C218_joblib prove the rest for all lists of other lengths."
  },
  {
   "property": "C219",
   "status": "partial",
   "theorems": [
    "C219_flatten",
    "C219_collision_refuted"
   ],
   "note": "REFUTED (C219_collision_refuted): keys containing or starting with the delimiter collide and only the last number is kept (tensorboard.py:74-75). C219_flatten proves the property for keys without the delimiter."
  },
  {
   "property": "C220",
   "status": "partial",
   "theorems": [
    "C220_restore",
    "C220_conflict_refuted"
   ],
   "note": "REFUTED (C220_conflict_refuted): a tag whose path leads through an earlier tag makes restoring fail with AttributeError or IndexError (tensorboard.py:176-184). C220_restore proves the property if no tag is a prefix of another."
  },
  {
   "property": "C221",
   "status": "proved",
   "theorems": [
    "C221_round_trip",
    "C221_step_type"
   ],
   "note": ""
  },
  {
   "property": "C222",
   "status": "partial",
   "theorems": [
    "C222_fields",
    "C222_unknown_refuted"
   ],
   "note": "REFUTED (C222_unknown_refuted): a key is popped from the dictionary while it is iterated over (rliable_evaluation_hl.py:48-52), so any unknown key raises RuntimeError, or TypeError if its value is a nested dictionary such as pred_dist_std_array_stat, which is logged for Gaussian policies. C222_fields proves the property for known fields."
  },
  {
   "property": "C223",
   "status": "partial",
   "theorems": [
    "C223_columns",
    "C223_aligned",
    "C223_shifted_refuted",
    "C223_other_steps_refuted"
   ],
   "note": "REFUTED (C223_shifted_refuted, C223_other_steps_refuted): env_step is logged for every collect but returns only with finished episodes, so that returns are shown at the steps of earlier collects, and the steps are always those of the last run (rliable_evaluation_hl.py:150-156). C223_aligned proves the property when every collect finished an episode and the runs agree on the steps; C223_columns describes the result in general."
  },
  {
   "property": "C224",
   "status": "partial",
   "theorems": [
    "C224_nothing",
    "C224_layout",
    "C224_no_train_refuted"
   ],
   "note": "REFUTED (C224_no_train_refuted): test data only lead to ValueError (min of an empty list, rliable_evaluation_hl.py:170), runs without training scope (offline learning) to KeyError (line 132). C224_nothing proves the RuntimeError case."
  },
  {
   "property": "C225",
   "status": "partial",
   "theorems": [
    "C225_intervals",
    "C225_flush_refuted"
   ],
   "note": "REFUTED (C225_flush_refuted): load passes the options by position without info_interval (wandb.py:106-115), so write_flush=False is ignored. C225_intervals proves what is passed on correctly."
  },
  {
   "property": "C226",
   "status": "partial",
   "theorems": [
    "C226_wandb",
    "C226_interval_refuted"
   ],
   "note": "REFUTED (C226_interval_refuted): the tensorboard logger is created without save_interval (highlevel/logger.py:78-80), so every epoch is saved; 'pandas' is accepted and refused later. C226_wandb proves the property for wandb."
  },
  {
   "property": "C227",
   "status": "partial",
   "theorems": [
    "C227_restore",
    "C227_default_refuted"
   ],
   "note": "REFUTED (C227_default_refuted): without a checkpoint an error is raised instead of returning the defaults (wandb.py:163-167, utils/logger/base.py:141-149). C227_restore proves the property after a save."
  },
  {
   "property": "C228",
   "status": "partial",
   "theorems": [
    "C228_train_partial",
    "C228_missed_refuted"
   ],
   "note": "Proved after any history for all classes but FQF, BCQ (networks never switched) and DiscreteCRR with targets (recursive train switches them too). REFUTED in general: fqf.py:93 fraction_model and bcq.py:107 vae are not named in train(), so neither eval() nor train() ever reaches them; mapolicy.py:282-286 does not set the manager's own flag."
  },
  {
   "property": "C229",
   "status": "partial",
   "theorems": [
    "C229_targets_partial",
    "C229_targets_refuted"
   ],
   "note": "Proved for all histories for the other classes. REFUTED for DiscreteCRR (nn.Module.train is recursive, so the eval() of discrete_crr.py:92-94 is undone by the first train(True), and the targets are in training mode whenever it learns), for BCQ (eval() is never called on the copies, bcq.py:93-105) and for Rainbow with noisy layers (rainbow.py:58 puts the target into training mode for good; intended for the noise, but batch norm and dropout of the target follow)."
  },
  {
   "property": "C230",
   "status": "partial",
   "theorems": [
    "C230_within_partial",
    "C230_restored_partial",
    "C230_manager_refuted"
   ],
   "note": "Inside the blocks: proved for all classes but FQF and BCQ. Afterwards: proved for all policies without a manager after any first call (a noisy Rainbow target excepted). REFUTED for the multi-agent manager, universally: the flag that torch_train_mode saves never changes (see C80)."
  },
  {
   "property": "C231",
   "status": "partial",
   "theorems": [
    "C231_round_trip_partial",
    "C231_entries",
    "C231_manager_refuted",
    "C231_temperature_refuted"
   ],
   "note": "Round trip proved for what is registered with nn.Module. REFUTED: MultiAgentPolicyManager keeps its policies in a dict (mapolicy.py:110), so that its state_dict() and parameters() are empty for all sub-policies, and a checkpoint of it restores nothing; SAC's (REDQ's, CQL's) learned log_alpha is a plain tensor and is not saved either (sac.py:139-153)."
  },
  {
   "property": "C232",
   "status": "partial",
   "theorems": [
    "C232_buffers_refuted",
    "C232_soft_partial",
    "C232_sync"
   ],
   "note": "REFUTED for buffers: soft_update zips parameters() only (base.py:287-290), so batch norm statistics of a target stay those of its creation for ever, for all training steps; the target is used in evaluation mode, i.e. with them. With tau = 1 and equal buffers it is the same as load_state_dict. Convergence of parameters is C26."
  },
  {
   "property": "C233",
   "status": "partial",
   "theorems": [
    "C233_fresh_partial",
    "C233_sync_refuted",
    "C233_collect_refuted"
   ],
   "note": "REFUTED twice: at every synchronising update (the first included) load_state_dict copies the eps buffers too and overwrites the noise just drawn for the target, which then equals the online network in everything; and collect runs the network in evaluation mode (collector.py:472), where NoisyLinear adds no noise, so that noise never affects collected actions. Proved in between: fresh, disjoint draws, and weights of the last synchronisation."
  },
  {
   "property": "C234",
   "status": "proved",
   "theorems": [
    "C234_forward",
    "C234_target"
   ],
   "note": ""
  },
  {
   "property": "C235",
   "status": "proved",
   "theorems": [
    "C235_target",
    "C235_gradients"
   ],
   "note": ""
  },
  {
   "property": "C236",
   "status": "partial",
   "theorems": [
    "C236_loss",
    "C236_imitator_state_refuted",
    "C236_stateless_partial"
   ],
   "note": "REFUTED for the hidden state: the imitator gets the state returned by the Q-network (C236_imitator_state_refuted); C236_loss proves the statement about the losses, C236_stateless_partial the restriction to networks without state of their own."
  },
  {
   "property": "C237",
   "status": "partial",
   "theorems": [
    "C237_greedy_partial",
    "C237_mask_refuted"
   ],
   "note": "REFUTED: the mask is not looked at; C237_greedy_partial is the statement without masks."
  },
  {
   "property": "C238",
   "status": "partial",
   "theorems": [
    "C238_value",
    "C238_single_frame_refuted"
   ],
   "note": "REFUTED for single frames (assertion), which the recurrent actors accept; C238_value covers sequences."
  },
  {
   "property": "C239",
   "status": "partial",
   "theorems": [
    "C239_assign",
    "C239_shadow_refuted",
    "C239_sync",
    "C239_inner_refuted"
   ],
   "note": "REFUTED for attributes that wrapper and wrapped object both have (C239_shadow_refuted: the assignment goes inside, contrary to rule 1 of the docstring, and the old value is read back) and for base fields assigned on the wrapped object itself (C239_inner_refuted). Proved otherwise: C239_assign, C239_sync."
  },
  {
   "property": "C240",
   "status": "partial",
   "theorems": [
    "C240_reported",
    "C240_sequences",
    "C240_agents_refuted",
    "C240_nested_refuted"
   ],
   "note": "REFUTED for a wrapper around the statistics of several agents (C240_agents_refuted: none of their losses is reported) and for ICM inside ICM (C240_nested_refuted). Proved for all other nestings (C240_reported); PPO and GAIL report means, and gradient_steps among the losses (C240_sequences)."
  },
  {
   "property": "C241",
   "status": "partial",
   "theorems": [
    "C241_keys",
    "C241_collision_refuted",
    "C241_time",
    "C241_aggregator_refuted"
   ],
   "note": "REFUTED: ids that print alike (1 and '1') overwrite each other (C241_collision_refuted); update overwrites the aggregated time, so the aggregator has no effect, and an update without data for any agent raises ValueError (C241_aggregator_refuted). Proved: keys (C241_keys) and bounds of the aggregated time on construction (C241_time)."
  },
  {
   "property": "C242",
   "status": "partial",
   "theorems": [
    "C242_smoothed",
    "C242_raw",
    "C242_raw_refuted"
   ],
   "note": "REFUTED for wrappers and several agents: only train_time and smoothed_loss are logged (C242_raw_refuted). Proved: smoothed values (C242_smoothed), raw values of plain statistics (C242_raw)."
  },
  {
   "property": "C243",
   "status": "partial",
   "theorems": [
    "C243_counts",
    "C243_async_partial",
    "C243_times_refuted",
    "C243_update_refuted",
    "C243_instant_refuted"
   ],
   "note": "REFUTED: collectors other than AsyncCollector never add to collect_time, so collect and test times are always 0 and testing counts as training (C243_times_refuted); update time is not reset (C243_update_refuted); division by zero if no time has passed (C243_instant_refuted). Proved: counts, sums and speed (C243_counts), times for asynchronous collectors (C243_async_partial)."
  },
  {
   "property": "C244",
   "status": "proved",
   "theorems": [
    "C244_round",
    "C244_order"
   ],
   "note": "Floats as exact rationals."
  },
  {
   "property": "C245",
   "status": "proved",
   "theorems": [
    "C245_off_policy"
   ],
   "note": "Frame stacking off (stack_num 1, whole observations); the buffer is empty before the first call."
  },
  {
   "property": "C246",
   "status": "partial",
   "theorems": [
    "C246_no_next_partial",
    "C246_saved",
    "C246_no_next_refuted"
   ],
   "note": "REFUTED: at truncated steps and at the newest step of a sub-buffer the value is taken from the observation before the step; the targets agree for episodes that end with a terminal step, and C245/C247 give the targets in every case."
  },
  {
   "property": "C247",
   "status": "proved",
   "theorems": [
    "C247_on_policy"
   ],
   "note": "Frame stacking off; reward normalisation off; the buffer is empty before."
  },
  {
   "property": "C248",
   "status": "proved",
   "theorems": [
    "C248_policy_gradient"
   ],
   "note": "Frame stacking off; reward normalisation off; the buffer is empty before."
  },
  {
   "property": "C249",
   "status": "proved",
   "theorems": [
    "C249_info",
    "C249_dtype"
   ],
   "note": "Proved for infos whose entries at the same path agree in kind and shape (others give object arrays, not modelled) and whose partially missing keys look alike; the infos are parsed dicts."
  },
  {
   "property": "C250",
   "status": "proved",
   "theorems": [
    "C250_variance",
    "C250_zero",
    "C250_shape"
   ],
   "note": "Proved for the variance; the square root taken afterwards is left out. Batches of distributions have one dimension, other distributions are left out (dist.stddev is returned)."
  },
  {
   "property": "C251",
   "status": "proved",
   "theorems": [
    "C251_hook"
   ],
   "note": "Proved; an empty episode, which the collector does not produce, raises."
  },
  {
   "property": "C252",
   "status": "partial",
   "theorems": [
    "C252_validate",
    "C252_zero_refuted"
   ],
   "note": "REFUTED for sub-buffers of size zero: VectorReplayBuffer(0, n) is accepted although every add raises ZeroDivisionError, while a plain buffer of size zero is rejected. Proved, as an equivalence, for all buffers whose sub-buffers have room."
  },
  {
   "property": "C253",
   "status": "partial",
   "theorems": [
    "C253_collectors",
    "C253_zero_refuted"
   ],
   "note": "REFUTED for buffer_size=0: rejected for one training environment only; with several the collectors are created and the first add raises ZeroDivisionError (C252). Proved for buffer sizes greater than zero."
  },
  {
   "property": "C254",
   "status": "partial",
   "theorems": [
    "C254_policy",
    "C254_random_partial",
    "C254_clip_refuted",
    "C254_entry"
   ],
   "note": "REFUTED for random actions with action_bound_method=\"clip\" and action_scaling=False: map_action_inverse does not clip, a sample outside [-1, 1] is executed and stored although map_action would send another action for it. Proved for actions of the policy, and for random actions that map_action can reach (scaling with sides of at least eps, no bound method, or a space that is no Box)."
  },
  {
   "property": "C255",
   "status": "proved",
   "theorems": [
    "C255_forward",
    "C255_update"
   ],
   "note": "The learners are arbitrary functions of forward that keep the flag is_within_training_step; policies nested in ICM or the multi-agent manager have flags of their own, see C145 and C80."
  },
  {
   "property": "C256",
   "status": "proved",
   "theorems": [
    "C256_squashed"
   ],
   "note": "tanh is any function into [-1, 1] and log any function on the positive numbers; floating-point rounding is not modelled."
  },
  {
   "property": "C257",
   "status": "partial",
   "theorems": [
    "C257_box_partial",
    "C257_discrete",
    "C257_scalar_observation_refuted",
    "C257_shape_refuted",
    "C257_as_collected",
    "C257_broadcast"
   ],
   "note": "REFUTED: compute_action calls squeeze() and obs[None, :]. Observations without axes (discrete observation spaces, dicts) raise IndexError for every policy; an action of shape (1,) loses its axis without scaling, and an action of shape (n, 1) becomes an n x n matrix with scaling. Proved for all observations with an axis and all action shapes without axes of length 1, and as equality with what the collector executes; C257_discrete is complete for discrete actions."
  },
  {
   "property": "C258",
   "status": "partial",
   "theorems": [
    "C258_random_partial",
    "C258_clipped_refuted",
    "C258_start_refuted",
    "C258_spaces"
   ],
   "note": "REFUTED: RandomActionPolicy uses BasePolicy's default action_bound_method clip without scaling, so in a Box beyond [-1, 1] the executed actions are clipped to [-1, 1] (and may lie outside the box), and in Discrete spaces with start > 0 the drawn actions are not in the space. Proved for boxes inside [-1, 1] and for Discrete with start 0."
  },
  {
   "property": "C259",
   "status": "proved",
   "theorems": [
    "C259_calls",
    "C259_max_action_num",
    "C259_observation"
   ],
   "note": ""
  },
  {
   "property": "C260",
   "status": "partial",
   "theorems": [
    "C260_current_partial",
    "C260_solved_once",
    "C260_stale_refuted"
   ],
   "note": "REFUTED: solve_policy sets updated before solving, so when sampling or value iteration raises, the next call silently acts by the policy of the earlier posterior (or raises AttributeError). Proved whenever solving succeeds; C260_solved_once holds always."
  },
  {
   "property": "C261",
   "status": "partial",
   "theorems": [
    "C261_slice",
    "C261_unbatched_refuted"
   ],
   "note": "REFUTED for distributions without a batch: a slice of a Categorical keeps some classes and rescales their probabilities, a slice of Independent(Normal, 1) keeps some components; both raise no error. Proved for distributions over a batch: same class, parameters element by element, length, IndexError out of range."
  },
  {
   "property": "C262",
   "status": "partial",
   "theorems": [
    "C262_dist",
    "C262_event_refuted",
    "C262_nested_refuted",
    "C262_batch"
   ],
   "note": "REFUTED: dist_to_atleast_2d returns Independent(Normal, 1) without batch unchanged, so its batch_shape stays empty (the tests only use Independent(..., 0)); distributions in nested batches are put into object arrays of shape (1, 1); tensors become numpy arrays. Proved for distributions without event axes and for the values of the batch itself."
  },
  {
   "property": "C263",
   "status": "partial",
   "theorems": [
    "C263_rows",
    "C263_images_refuted"
   ],
   "note": "REFUTED: concatenating rows of arrays with three or more axes merges the first two axes. Proved: two axes are restored, one axis becomes (n, 1)."
  },
  {
   "property": "C264",
   "status": "partial",
   "theorems": [
    "C264_eq",
    "C264_equivalence",
    "C264_scalar_refuted",
    "C264_numpy"
   ],
   "note": "REFUTED for shapes: np.atleast_1d makes a number equal to the array of one number, None equal to [None], and an empty object array equal to an empty Batch. Proved otherwise, with DeepDiff's comparison of single arrays and of distributions as parameters; keys copy, batch_dict and self are excluded (C96)."
  },
  {
   "property": "C265",
   "status": "proved",
   "theorems": [
    "C265_restore",
    "C265_relabel",
    "C265_negative",
    "C265_set_batch"
   ],
   "note": "For any history of add / reset / sample calls with stack_num 1 the HER manager returns what the plain manager returns and saves the same state; one sampling relabels only sampled episodes of the sub-buffer they belong to. With a negative batch size the manager returns without restoring earlier relabellings, unlike a single HERReplayBuffer (C265_negative)."
  },
  {
   "property": "C266",
   "status": "proved",
   "theorems": [
    "C266_decay",
    "C266_constant"
   ],
   "note": "run over the event trace of TrainModel; schedules SetEps and LinearDecay with decay_steps > 0 (0: see C129)."
  },
  {
   "property": "C267",
   "status": "partial",
   "theorems": [
    "C267_tests_partial",
    "C267_no_callback_refuted"
   ],
   "note": "REFUTED without a test callback: only the tests made before any training use the epsilon of the policy, all others use the one set for training (universal). Proved with a test callback."
  },
  {
   "property": "C268",
   "status": "partial",
   "theorems": [
    "C268_test_only_refuted",
    "C268_none_partial"
   ],
   "note": "REFUTED: with a test callback and no train callback the test in reset sets epsilon before the first collection and nothing sets it back, so all training is done with the test epsilon (universal, with a test collector). Proved without any callback."
  },
  {
   "property": "C269",
   "status": "partial",
   "theorems": [
    "C269_calls_partial",
    "C269_once_refuted"
   ],
   "note": "REFUTED: train_fn is called before every collection, not once per epoch (base.py:496-501), e.g. twice in an epoch with two collections. Proved: exactly one call before each collection, with the epoch and the steps collected so far."
  },
  {
   "property": "C270",
   "status": "proved",
   "theorems": [
    "C270_threshold"
   ],
   "note": "should_stop for all thresholds and specs; comparison is >= although the docstring says exceed."
  },
  {
   "property": "C271",
   "status": "partial",
   "theorems": [
    "C271_reached_partial",
    "C271_initial_refuted"
   ],
   "note": "REFUTED: stop_fn is given best_reward, which includes the test before the training (base.py:287-303, 453): if that test reaches the threshold the training stops after one epoch whatever the later tests give (universal, score = mean). Proved: an early stop implies best_reward >= threshold, that of the first test with the best score unless a test during training stopped it."
  },
  {
   "property": "C272",
   "status": "proved",
   "theorems": [
    "C272_numbers"
   ],
   "note": "numpy >= 1.24 (nested lists of unequal lengths are refused without dtype=object); booleans left out"
  },
  {
   "property": "C273",
   "status": "partial",
   "theorems": [
    "C273_objects",
    "C273_mixed_refuted"
   ],
   "note": "REFUTED: in a list with only numbers and strings, both present, every number becomes a string ([1, 'a'] gives ['1', 'a']); proved when some other object such as None is in the list, or only strings"
  },
  {
   "property": "C274",
   "status": "partial",
   "theorems": [
    "C274_ragged",
    "C274_arrays_refuted"
   ],
   "note": "REFUTED for arrays with the same number of rows (other than one) and different further dimensions: TypeError; proved when the lengths differ"
  },
  {
   "property": "C275",
   "status": "partial",
   "theorems": [
    "C275_rows",
    "C275_empty_refuted"
   ],
   "note": "REFUTED: an empty dict gives no row and all later rows move up; proved for non-empty dicts of the same layout"
  },
  {
   "property": "C276",
   "status": "partial",
   "theorems": [
    "C276_fields",
    "C276_keys",
    "C276_dropped_refuted"
   ],
   "note": "REFUTED: a list with an element that is no dict, a number array, a number, string or other object is dropped without an error; proved for dicts and keywords"
  },
  {
   "property": "C277",
   "status": "partial",
   "theorems": [
    "C277_again_partial",
    "C277_rows_refuted"
   ],
   "note": "REFUTED: an object array without rows counts as a list of dicts and becomes an empty Batch; proved for all other values"
  },
  {
   "property": "C278",
   "status": "partial",
   "theorems": [
    "C278_transposed",
    "C278_none_refuted"
   ],
   "note": "REFUTED for None, which becomes an object array of None; proved for arrays with the same number of rows (object arrays with rows of non-zero length)"
  },
  {
   "property": "C279",
   "status": "partial",
   "theorems": [
    "C279_history",
    "C279_hidden_refuted",
    "C279_get"
   ],
   "note": "REFUTED for attributes a wrapper also has: set_env_attr writes to env.unwrapped and get_env_attr reads the outermost wrapper that has it, so the written value is never read; and for private attributes behind a wrapper, which gymnasium does not pass on. Proved for all others over all sequences of calls, including those that raise."
  },
  {
   "property": "C280",
   "status": "partial",
   "theorems": [
    "C280_written_refuted",
    "C280_atomic",
    "C280_success"
   ],
   "note": "REFUTED in synchronous mode: ids are not checked, so the environments before the first id out of range have been written when IndexError is raised. Proved for asynchronous mode and after close."
  },
  {
   "property": "C281",
   "status": "partial",
   "theorems": [
    "C281_dummy",
    "C281_subproc_refuted"
   ],
   "note": "REFUTED for environments in other processes: the subprocess answers None if there is no such attribute. Proved for environments in the same process."
  },
  {
   "property": "C282",
   "status": "partial",
   "theorems": [
    "C282_spaces",
    "C282_stepping_refuted"
   ],
   "note": "REFUTED in asynchronous mode: while one environment is stepping, reading a space raises AssertionError. Proved when none is stepping."
  },
  {
   "property": "C283",
   "status": "proved",
   "theorems": [
    "C283_created",
    "C283_succeeds",
    "C283_backend"
   ],
   "note": ""
  },
  {
   "property": "C284",
   "status": "proved",
   "theorems": [
    "C284_pool",
    "C284_gym"
   ],
   "note": ""
  },
  {
   "property": "C285",
   "status": "partial",
   "theorems": [
    "C285_watch",
    "C285_pool_refuted"
   ],
   "note": "REFUTED for EnvFactoryRegistered with an envpool factory: the number asked for is honoured, the environments are envpool's and the render mode is dropped, so nothing is shown. Proved without envpool."
  },
  {
   "property": "C286",
   "status": "proved",
   "theorems": [
    "C286_old",
    "C286_new"
   ],
   "note": ""
  },
  {
   "property": "C287",
   "status": "partial",
   "theorems": [
    "C287_continuous",
    "C287_discrete_refuted"
   ],
   "note": "REFUTED for the discrete type: DiscreteEnvironments does not look at the action space, so every environment with a Box of actions is taken as discrete with the shape of the Box as number of actions. Proved for the continuous type."
  },
  {
   "property": "C288",
   "status": "partial",
   "theorems": [
    "C288_uniform",
    "C288_first_refuted",
    "C288_matrix_refuted"
   ],
   "note": "REFUTED: max_action is high[0], so a larger bound of another component exceeds it, and for actions of several dimensions it is an array. Proved for a vector of equal bounds."
  },
  {
   "property": "C289",
   "status": "proved",
   "theorems": [
    "C289_accepts",
    "C289_type"
   ],
   "note": ""
  },
  {
   "property": "C290",
   "status": "partial",
   "theorems": [
    "C290_range",
    "C290_bcq_refuted"
   ],
   "note": "REFUTED for BCQ, which checks neither gamma nor tau (C290_bcq_refuted, for all parameters); proved for the other classes."
  },
  {
   "property": "C291",
   "status": "partial",
   "theorems": [
    "C291_positive",
    "C291_any_refuted",
    "C291_zero_refuted"
   ],
   "note": "REFUTED for DDPG, TD3, SAC, REDQ, CQL, DiscreteSAC and TD3BC: any integer is taken (C291_any_refuted), and with 0 the target ignores the rewards (C291_zero_refuted). Proved for the Q-learning classes."
  },
  {
   "property": "C292",
   "status": "partial",
   "theorems": [
    "C292_sac",
    "C292_box_refuted",
    "C292_discrete_refuted"
   ],
   "note": "REFUTED: only SAC, CQL and DiscreteSAC check (C292_sac). The other classes for discrete actions take a Box (C292_box_refuted), DDPG, TD3, TD3BC, REDQ and BCQ take a Discrete space if action_scaling is off (C292_discrete_refuted)."
  },
  {
   "property": "C293",
   "status": "partial",
   "theorems": [
    "C293_none",
    "C293_empty_refuted"
   ],
   "note": "REFUTED: the empty string that the documentation gives for no bounding raises ValueError in every class with the option (C293_empty_refuted); None works. Values are kept as given (C293_none)."
  },
  {
   "property": "C294",
   "status": "partial",
   "theorems": [
    "C294_float",
    "C294_int_refuted"
   ],
   "note": "REFUTED: an int raises TypeError, being subscripted as a tuple (C294_int_refuted); floats and proper tuples are equally accepted (C294_float)."
  },
  {
   "property": "C295",
   "status": "partial",
   "theorems": [
    "C295_trained",
    "C295_untrained_refuted"
   ],
   "note": "REFUTED: given critic2_optim without critic2, the second critic is a copy that no optimizer changes (C295_untrained_refuted); TD3 refuses only the other incomplete case. Proved for the remaining combinations."
  },
  {
   "property": "C296",
   "status": "proved",
   "theorems": [
    "C296_descent"
   ],
   "note": ""
  },
  {
   "property": "C297",
   "status": "proved",
   "theorems": [
    "C297_iterations"
   ],
   "note": ""
  },
  {
   "property": "C298",
   "status": "proved",
   "theorems": [
    "C298_trust"
   ],
   "note": ""
  },
  {
   "property": "C299",
   "status": "proved",
   "theorems": [
    "C299_npg",
    "C299_reports",
    "C299_compose",
    "C299_succeeds",
    "C299_zero"
   ],
   "note": ""
  },
  {
   "property": "C300",
   "status": "proved",
   "theorems": [
    "C300_certified",
    "C300_compose"
   ],
   "note": ""
  },
  {
   "property": "C301",
   "status": "proved",
   "theorems": [
    "C301_mixture_buffer",
    "C301_mixture_manager",
    "C301_extremes_buffer",
    "C301_monte_carlo"
   ],
   "note": ""
  },
  {
   "property": "C302",
   "status": "proved",
   "theorems": [
    "C302_contraction_buffer",
    "C302_contraction_manager"
   ],
   "note": ""
  },
  {
   "property": "C303",
   "status": "proved",
   "theorems": [
    "C303_consistent_buffer",
    "C303_consistent_manager"
   ],
   "note": ""
  },
  {
   "property": "C304",
   "status": "proved",
   "theorems": [
    "C304_range_buffer"
   ],
   "note": ""
  },
  {
   "property": "C305",
   "status": "proved",
   "theorems": [
    "C305_linear_gae",
    "C305_linear_nstep"
   ],
   "note": ""
  },
  {
   "property": "C306",
   "status": "proved",
   "theorems": [
    "C306_monotone_nstep",
    "C306_monotone_gae"
   ],
   "note": ""
  },
  {
   "property": "C307",
   "status": "proved",
   "theorems": [
    "C307_canonical",
    "C307_commute",
    "C307_join"
   ],
   "note": ""
  },
  {
   "property": "C308",
   "status": "proved",
   "theorems": [
    "C308_additive",
    "C308_delta"
   ],
   "note": ""
  },
  {
   "property": "C309",
   "status": "proved",
   "theorems": [
    "C309_interval",
    "C309_monotone",
    "C309_vectorised"
   ],
   "note": ""
  },
  {
   "property": "C310",
   "status": "proved",
   "theorems": [
    "C310_share"
   ],
   "note": ""
  },
  {
   "property": "C311",
   "status": "proved",
   "theorems": [
    "C311_compose"
   ],
   "note": ""
  },
  {
   "property": "C312",
   "status": "proved",
   "theorems": [
    "C312_all_rows",
    "C312_unshuffle"
   ],
   "note": ""
  },
  {
   "property": "C313",
   "status": "proved",
   "theorems": [
    "C313_associative"
   ],
   "note": ""
  },
  {
   "property": "C314",
   "status": "proved",
   "theorems": [
    "C314_cut_and_join"
   ],
   "note": ""
  },
  {
   "property": "C315",
   "status": "proved",
   "theorems": [
    "C315_read_back",
    "C315_overwrite",
    "C315_commute",
    "C315_frame"
   ],
   "note": ""
  },
  {
   "property": "C316",
   "status": "proved",
   "theorems": [
    "C316_thresholds",
    "C316_profile"
   ],
   "note": ""
  },
  {
   "property": "C317",
   "status": "proved",
   "theorems": [
    "C317_iqm",
    "C317_outlier",
    "C317_curve"
   ],
   "note": ""
  },
  {
   "property": "C318",
   "status": "partial",
   "theorems": [
    "C318_figures_partial",
    "C318_colors_refuted",
    "C318_name_refuted"
   ],
   "note": "REFUTED in general: the colours are not passed to the profile plot, and the legend is empty for a directory given with a trailing slash. Proved for the data plotted and for names of directories without trailing slash."
  },
  {
   "property": "C319",
   "status": "partial",
   "theorems": [
    "C319_scope_partial",
    "C319_both_refuted"
   ],
   "note": "REFUTED for scope 'both': both flags are ignored (figures are always shown and saved) and the training figures overwrite the test figures. Proved for a single scope."
  },
  {
   "property": "C320",
   "status": "proved",
   "theorems": [
    "C320_parts"
   ],
   "note": ""
  },
  {
   "property": "C321",
   "status": "proved",
   "theorems": [
    "C321_interleaving",
    "C321_grouping",
    "C321_order"
   ],
   "note": ""
  },
  {
   "property": "C322",
   "status": "proved",
   "theorems": [
    "C322_prefix"
   ],
   "note": ""
  },
  {
   "property": "C323",
   "status": "proved",
   "theorems": [
    "C323_compose_buffer",
    "C323_compose_manager"
   ],
   "note": ""
  },
  {
   "property": "C324",
   "status": "proved",
   "theorems": [
    "C324_order",
    "C324_units",
    "C324_range"
   ],
   "note": ""
  },
  {
   "property": "C325",
   "status": "proved",
   "theorems": [
    "C325_chunks",
    "C325_forgets"
   ],
   "note": ""
  },
  {
   "property": "C326",
   "status": "proved",
   "theorems": [
    "C326_identity",
    "C326_idempotent",
    "C326_linear",
    "C326_order",
    "C326_units",
    "C326_local",
    "C326_ends"
   ],
   "note": ""
  },
  {
   "property": "C327",
   "status": "proved",
   "theorems": [
    "C327_stack_cat",
    "C327_row",
    "C327_rows"
   ],
   "note": ""
  },
  {
   "property": "C328",
   "status": "proved",
   "theorems": [
    "C328_resume"
   ],
   "note": "Collectors, tests and what the logger restores are oracles; no stop function (tests differ after resuming, so a stop function may decide otherwise)"
  },
  {
   "property": "C329",
   "status": "partial",
   "theorems": [
    "C329_since_partial",
    "C329_best_refuted"
   ],
   "note": "REFUTED: reset calls save_best_fn for the resumed policy and starts best_score afresh, so the best policy saved before is overwritten by a worse one; proved for a resumed policy at least as good as the best before"
  },
  {
   "property": "C330",
   "status": "proved",
   "theorems": [
    "C330_order"
   ],
   "note": ""
  },
  {
   "property": "C331",
   "status": "proved",
   "theorems": [
    "C331_step",
    "C331_reset",
    "C331_order"
   ],
   "note": ""
  },
  {
   "property": "C332",
   "status": "proved",
   "theorems": [
    "C332_assoc",
    "C332_stored",
    "C332_copy"
   ],
   "note": ""
  },
  {
   "property": "C333",
   "status": "proved",
   "theorems": [
    "C333_all"
   ],
   "note": ""
  },
  {
   "property": "C334",
   "status": "proved",
   "theorems": [
    "C334_rowwise",
    "C334_order",
    "C334_parts"
   ],
   "note": ""
  },
  {
   "property": "C335",
   "status": "proved",
   "theorems": [
    "C335_collect"
   ],
   "note": ""
  },
  {
   "property": "C336",
   "status": "proved",
   "theorems": [
    "C336_collect",
    "C336_gae",
    "C336_nstep",
    "C336_end",
    "C336_sound"
   ],
   "note": ""
  },
  {
   "property": "C337",
   "status": "proved",
   "theorems": [
    "C337_obs",
    "C337_act"
   ],
   "note": ""
  },
  {
   "property": "C338",
   "status": "proved",
   "theorems": [
    "C338_gae",
    "C338_episodic",
    "C338_targets",
    "C338_env"
   ],
   "note": ""
  },
  {
   "property": "C339",
   "status": "proved",
   "theorems": [
    "C339_td3"
   ],
   "note": ""
  },
  {
   "property": "C340",
   "status": "proved",
   "theorems": [
    "C340_fqf",
    "C340_quantile",
    "C340_target",
    "C340_branching",
    "C340_bcq"
   ],
   "note": ""
  },
  {
   "property": "C341",
   "status": "proved",
   "theorems": [
    "C341_ops",
    "C341_reads"
   ],
   "note": ""
  },
  {
   "property": "C342",
   "status": "proved",
   "theorems": [
    "C342_uniform",
    "C342_parts",
    "C342_weights",
    "C342_beta"
   ],
   "note": ""
  },
  {
   "property": "C343",
   "status": "proved",
   "theorems": [
    "C343_her"
   ],
   "note": ""
  },
  {
   "property": "C344",
   "status": "proved",
   "theorems": [
    "C344_act",
    "C344_learn"
   ],
   "note": ""
  },
  {
   "property": "C345",
   "status": "proved",
   "theorems": [
    "C345_sac_td3",
    "C345_redq",
    "C345_offline",
    "C345_discrete"
   ],
   "note": ""
  },
  {
   "property": "C346",
   "status": "proved",
   "theorems": [
    "C346_ops",
    "C346_sample"
   ],
   "note": ""
  },
  {
   "property": "C347",
   "status": "proved",
   "theorems": [
    "C347_mask",
    "C347_exploration",
    "C347_icm"
   ],
   "note": ""
  },
  {
   "property": "C348",
   "status": "proved",
   "theorems": [
    "C348_data",
    "C348_stats"
   ],
   "note": ""
  },
  {
   "property": "C349",
   "status": "proved",
   "theorems": [
    "C349_episode"
   ],
   "note": ""
  },
  {
   "property": "C350",
   "status": "proved",
   "theorems": [
    "C350_greedy",
    "C350_random",
    "C350_target",
    "C350_quantile_target"
   ],
   "note": ""
  },
  {
   "property": "C351",
   "status": "proved",
   "theorems": [
    "C351_quantile",
    "C351_fraction",
    "C351_advantages",
    "C351_ppo",
    "C351_noise"
   ],
   "note": ""
  },
  {
   "property": "C352",
   "status": "proved",
   "theorems": [
    "C352_data"
   ],
   "note": ""
  },
  {
   "property": "C353",
   "status": "proved",
   "theorems": [
    "C353_tree",
    "C353_prio"
   ],
   "note": ""
  },
  {
   "property": "C354",
   "status": "proved",
   "theorems": [
    "C354_losses",
    "C354_critic",
    "C354_advantages"
   ],
   "note": ""
  },
  {
   "property": "C355",
   "status": "proved",
   "theorems": [
    "C355_add",
    "C355_scale",
    "C355_divide"
   ],
   "note": ""
  },
  {
   "property": "C356",
   "status": "proved",
   "theorems": [
    "C356_direction",
    "C356_npg",
    "C356_trpo",
    "C356_backwards"
   ],
   "note": ""
  },
  {
   "property": "C357",
   "status": "proved",
   "theorems": [
    "C357_isotropic",
    "C357_plain"
   ],
   "note": ""
  },
  {
   "property": "C358",
   "status": "proved",
   "theorems": [
    "C358_run",
    "C358_saved"
   ],
   "note": ""
  },
  {
   "property": "C359",
   "status": "proved",
   "theorems": [
    "C359_learn",
    "C359_values"
   ],
   "note": ""
  },
  {
   "property": "C360",
   "status": "proved",
   "theorems": [
    "C360_ratio",
    "C360_some_stay",
    "C360_zero"
   ],
   "note": ""
  },
  {
   "property": "C361",
   "status": "partial",
   "theorems": [
    "C361_start_refuted",
    "C361_axes_refuted",
    "C361_bounds_refuted",
    "C361_discrete_partial",
    "C361_other_partial",
    "C361_box_partial",
    "C361_reached_partial"
   ],
   "note": "REFUTED for discrete spaces which do not start at zero (a number outside the space has positive probability), for boxes of two or more axes (RuntimeError), for unbounded coordinates and for coordinates of one value. Proved for discrete spaces starting at zero and for bounded boxes of one axis."
  },
  {
   "property": "C362",
   "status": "proved",
   "theorems": [
    "C362_passed",
    "C362_instances",
    "C362_lr_option",
    "C362_builder"
   ],
   "note": ""
  },
  {
   "property": "C363",
   "status": "partial",
   "theorems": [
    "C363_positional_refuted",
    "C363_learn_partial"
   ],
   "note": "REFUTED for positional arguments, which ICMPolicy.learn drops. Proved for keyword arguments, with the statement about the loss."
  },
  {
   "property": "C364",
   "status": "partial",
   "theorems": [
    "C364_state_partial",
    "C364_manager_partial",
    "C364_reads_partial",
    "C364_unfilled_partial",
    "C364_set_batch_partial",
    "C364_unfinished_refuted"
   ],
   "note": "REFUTED for unfinished_index: in a copy the sub-buffers no longer view the manager's storage, so after anything was added, for every sub-buffer and transition one of the two outcomes (episode ends or not) makes unfinished_index of the copy wrong. Proved: state, reports, length, prev, next, rows and (unless sample_avail is used with stacking) samples agree; copies of never filled buffers behave as the buffer; set_batch repairs a copy."
  },
  {
   "property": "C365",
   "status": "partial",
   "theorems": [
    "C365_frozen_refuted",
    "C365_unfilled_partial"
   ],
   "note": "REFUTED: once anything was stored, no main row of a copy ever changes again, however many episodes end. Proved: a copy of a never filled cached buffer behaves as the buffer."
  },
  {
   "property": "C366",
   "status": "partial",
   "theorems": [
    "C366_frozen_refuted",
    "C366_reports_partial"
   ],
   "note": "REFUTED: main_buffer and buffers[0] are written to the file one by one, so in the loaded buffer main_buffer is another object than the sub-buffer that is sampled: no main row of the storage ever changes again and no place of the main buffer filled after loading is ever sampled (of a buffer saved empty, sampling raises ValueError). Proved: lengths, last indices, caches and all reports and errors of add are those of the saved buffer."
  },
  {
   "property": "C367",
   "status": "proved",
   "theorems": [
    "C367_reset",
    "C367_collect",
    "C367_memoryless",
    "C367_first_call",
    "C367_after_episodes"
   ],
   "note": ""
  },
  {
   "property": "C368",
   "status": "partial",
   "theorems": [
    "C368_obs_partial",
    "C368_next_kept_partial",
    "C368_next_read_partial",
    "C368_next_kept_refuted",
    "C368_vector_obs_partial",
    "C368_vector_next_kept_partial",
    "C368_vector_next_read_partial",
    "C368_vector_next_kept_refuted"
   ],
   "note": "REFUTED for next observations that are kept (ignore_obs_next=False): base.py:605-606 stacks the newest frames of the obs_next of the earlier rows of the episode, and prev stops at the episode's first row, so during the first k-1 transitions of every episode the first frame is missing from the stack: the first transition's next observation is read as k copies of its newest frame (C368_next_kept_refuted, for every k >= 2 whenever the first two frames differ). Proved: observations are recovered whenever the beginning of the episode or the k rows are stored; kept next observations once the episode has k stored rows; next observations read from the following row (ignore_obs_next=True) for every transition that does not end its episode and is not the newest."
  },
  {
   "property": "C369",
   "status": "proved",
   "theorems": [
    "C369_buffer",
    "C369_manager",
    "C369_join"
   ],
   "note": ""
  },
  {
   "property": "C370",
   "status": "proved",
   "theorems": [
    "C370_local",
    "C370_reads",
    "C370_renumber"
   ],
   "note": ""
  },
  {
   "property": "C371",
   "status": "proved",
   "theorems": [
    "C371_one_environment"
   ],
   "note": ""
  },
  {
   "property": "C372",
   "status": "proved",
   "theorems": [
    "C372_join",
    "C372_order",
    "C372_commute",
    "C372_last",
    "C372_buffers"
   ],
   "note": ""
  },
  {
   "property": "C373",
   "status": "proved",
   "theorems": [
    "C373_renumber"
   ],
   "note": ""
  },
  {
   "property": "C374",
   "status": "proved",
   "theorems": [
    "C374_capacity",
    "C374_vector"
   ],
   "note": ""
  },
  {
   "property": "C375",
   "status": "proved",
   "theorems": [
    "C375_init",
    "C375_number",
    "C375_shared",
    "C375_replace",
    "C375_act",
    "C375_no_agent",
    "C375_learn"
   ],
   "note": ""
  },
  {
   "property": "C376",
   "status": "proved",
   "theorems": [
    "C376_answers",
    "C376_seed",
    "C376_space",
    "C376_raise",
    "C376_wait"
   ],
   "note": ""
  },
  {
   "property": "C377",
   "status": "proved",
   "theorems": [
    "C377_act",
    "C377_learn"
   ],
   "note": ""
  },
  {
   "property": "C378",
   "status": "proved",
   "theorems": [
    "C378_capacity"
   ],
   "note": ""
  },
  {
   "property": "C379",
   "status": "partial",
   "theorems": [
    "C379_partition",
    "C379_step_partial",
    "C379_fewer_refuted",
    "C379_collector",
    "C379_returns_partial"
   ],
   "note": "REFUTED for fewer waiting environments than wait_num: ray.wait is asked for more results than there are handles and raises a ValueError, after the actions have been sent, so the environments count as waiting and step(None) raises again (C379_fewer_refuted). Proved when at least wait_num are waiting (C379_step_partial, C379_returns_partial), which a collector that steps every ready environment always ensures (C379_collector); and the partition into waiting and ready always (C379_partition)."
  },
  {
   "property": "C380",
   "status": "partial",
   "theorems": [
    "C380_none",
    "C380_batch",
    "C380_gauss",
    "C380_same_partial",
    "C380_mixed_refuted",
    "C380_dropped_refuted",
    "C380_warning"
   ],
   "note": "REFUTED for OUNoise when the ready environments change: with equally many, an environment goes on with the process of the one that was at its place before (C380_mixed_refuted); with another number all processes start again at 0 (C380_dropped_refuted). Proved for OUNoise while the same environments are ready (C380_same_partial) and for GaussianNoise always (C380_gauss); C380_none, C380_batch and C380_warning for the other cases."
  },
  {
   "property": "C381",
   "status": "proved",
   "theorems": [
    "C381_gauss",
    "C381_bounded",
    "C381_forget",
    "C381_contract"
   ],
   "note": ""
  },
  {
   "property": "C382",
   "status": "proved",
   "theorems": [
    "C382_once",
    "C382_order",
    "C382_one",
    "C382_illegal"
   ],
   "note": ""
  },
  {
   "property": "C383",
   "status": "proved",
   "theorems": [
    "C383_call",
    "C383_run",
    "C383_order"
   ],
   "note": ""
  },
  {
   "property": "C384",
   "status": "proved",
   "theorems": [
    "C384_step",
    "C384_bound"
   ],
   "note": ""
  },
  {
   "property": "C385",
   "status": "proved",
   "theorems": [
    "C385_apart",
    "C385_reset",
    "C385_waiting"
   ],
   "note": ""
  }
 ]
}