{"id": "C01", "title": "ReplayBuffer is a bounded FIFO of transitions", "statement": "After any sequence of add/reset/update calls, reading the buffer at sample_indices(0) returns exactly the most recent min(n, maxsize) transitions, oldest first and unmodified, len() is that count, and every new transition overwrites only the oldest one.", "quantifier": "every maxsize > 0, every sequence of add, update and reset operations, every transition payload", "why_tests_cant": "wrap-around happens at every combination of size, position and history; tests sample a handful of sizes", "anchors": ["tianshou/data/buffer/base.py:285-291", "tianshou/data/buffer/base.py:324-403", "tianshou/data/buffer/base.py:405-486", "tianshou/data/buffer/base.py:488-524"]}
{"id": "C02", "title": "add() reports the episode exactly", "statement": "add() returns the index where the transition was written; when it ends an episode it also returns the sum of the rewards and the number of the steps added since the previous episode end (or reset without keep_statistics), and the index at which that episode started; when it does not end an episode it returns return 0 and length 0.", "quantifier": "every history of add calls, every placement of terminated/truncated flags, every reward addition operator (including non-associative floating point)", "why_tests_cant": "the running statistics depend on the whole history and on where episode ends fall relative to the wrap-around", "anchors": ["tianshou/data/buffer/base.py:348-403", "tianshou/data/buffer/base.py:405-486"]}
{"id": "C03", "title": "prev() and next() walk one episode and never leave it", "statement": "For an index holding the transition number p of the log, prev gives the index of transition p-1 if that one is still stored and did not end an episode, otherwise the index itself; next gives the index of p+1 if p is not the newest transition and did not end an episode, otherwise the index itself.", "quantifier": "every reachable buffer state (any number of wrap-arounds), every stored index", "why_tests_cant": "off-by-one errors show only for particular alignments of the newest index, the episode ends and the wrap-around", "anchors": ["tianshou/data/buffer/base.py:307-322"]}
{"id": "C04", "title": "unfinished_index() finds exactly the open episode", "statement": "unfinished_index() is the index of the newest transition when the buffer is non-empty and that transition does not end an episode, and empty otherwise.", "quantifier": "every reachable buffer state", "why_tests_cant": "depends on the whole history of adds and on wrap-around", "anchors": ["tianshou/data/buffer/base.py:302-305", "tianshou/data/buffer/manager.py:85-91"]}
{"id": "C05", "title": "Sampled indices are always stored ones", "statement": "Whatever the random generator returns, sample_indices(n) yields indices of transitions currently stored; with sample_avail and stack_num > 1 each sampled index has stack_num stored transitions of the same episode ending at it (when sampling with n = 0 all such indices, oldest first, and nothing else).", "quantifier": "every reachable buffer state, every batch size, every random draw, every stack_num", "why_tests_cant": "random draws and wrap-arounds cannot be enumerated", "anchors": ["tianshou/data/buffer/base.py:488-524"]}
{"id": "C06", "title": "Frame stacking never mixes episodes", "statement": "get(index, key) with stack_num = k returns k entries, the last being the transition at index; each earlier one is the predecessor of the following one within the same episode, the oldest stored transition of the episode being repeated when fewer than k exist.", "quantifier": "every reachable buffer state, every index, every stack_num >= 1", "why_tests_cant": "needs every alignment of the episode start, overwritten region and wrap-around", "anchors": ["tianshou/data/buffer/base.py:536-582"]}
{"id": "C07", "title": "get_buffer_indices returns one sub-buffer's interval in order, or fails", "statement": "get_buffer_indices(start, stop) returns exactly the indices from start to stop-1, wrapping at the end of the sub-buffer that contains start, in that order, and raises ValueError when start and stop-1 are in different sub-buffers.", "quantifier": "every list of sub-buffer sizes, every start and stop", "why_tests_cant": "sizes and positions are unbounded; the boundary cases differ per layout", "anchors": ["tianshou/data/buffer/base.py:105-218", "tianshou/data/buffer/manager.py:55-58"]}
{"id": "C08", "title": "A manager behaves as independent buffers", "statement": "After any sequence of add calls on a ReplayBufferManager, each sub-buffer is in exactly the state (contents, insertion index, length, episode statistics) a stand-alone ReplayBuffer of its size has after receiving only the transitions routed to it, and the values returned by add are those of that buffer shifted by its offset.", "quantifier": "every number and size of sub-buffers, every sequence of add calls with any buffer_ids (including several transitions to the same buffer)", "why_tests_cant": "interleavings of writers to different sub-buffers are unbounded", "anchors": ["tianshou/data/buffer/manager.py:26-53", "tianshou/data/buffer/manager.py:131-193"]}
{"id": "C09", "title": "Manager prev/next/unfinished agree with each sub-buffer", "statement": "For an index inside sub-buffer b, the manager's prev and next return the sub-buffer's own prev/next shifted by its offset, and unfinished_index is the concatenation of the shifted ones of the sub-buffers; no index ever crosses a sub-buffer boundary.", "quantifier": "every reachable manager state, every index", "why_tests_cant": "requires all layouts and all fill levels", "anchors": ["tianshou/data/buffer/manager.py:85-125", "tianshou/data/buffer/manager.py:306-358"]}
{"id": "C10", "title": "Manager sampling covers exactly the stored transitions", "statement": "sample_indices(0) lists every stored transition of every sub-buffer once, sub-buffer by sub-buffer and oldest first; sample_indices(n) returns n indices, all of them stored.", "quantifier": "every reachable manager state, every random draw", "why_tests_cant": "the random split of the batch over the sub-buffers cannot be enumerated", "anchors": ["tianshou/data/buffer/manager.py:195-229"]}
{"id": "C11", "title": "VectorReplayBuffer splits the capacity evenly", "statement": "VectorReplayBuffer(total_size, n) has n sub-buffers of equal size ceil(total_size/n); the offsets are consecutive multiples of it and the sub-buffers tile the index range without gap or overlap.", "quantifier": "every total_size and n > 0", "why_tests_cant": "needs all pairs of sizes", "anchors": ["tianshou/data/buffer/vecbuf.py:33-37", "tianshou/data/buffer/manager.py:26-53"]}
{"id": "C12", "title": "CachedReplayBuffer's main buffer holds only whole episodes in completion order", "statement": "After any sequence of add calls, the main buffer's stored sequence is the newest maxsize transitions of the concatenation, in order of completion, of the finished episodes of all environments (each cut to its last cache-size transitions), and each cache holds exactly its environment's current unfinished episode.", "quantifier": "every number of environments, every interleaving of their steps, every cache and main size", "why_tests_cant": "interleavings of environments finishing at the same or different steps", "anchors": ["tianshou/data/buffer/cached.py:28-85"]}
{"id": "C13", "title": "SegmentTree keeps every inner node equal to the sum of its children", "statement": "After construction and any sequence of vectorised assignments, tree[i] = tree[2i] + tree[2i+1] for every inner node, and reading a leaf returns the last value assigned to it (0 if none); out-of-range indices are rejected and change nothing.", "quantifier": "every size, every sequence of index/value arrays (with repeated indices)", "why_tests_cant": "level-by-level vectorised updates with repeated parents; sizes are unbounded", "anchors": ["tianshou/data/utils/segtree.py:19-51", "tianshou/data/utils/segtree.py:95-102"]}
{"id": "C14", "title": "SegmentTree.reduce is the sum of the slice", "statement": "reduce(start, end) equals the sum of the leaf values in [start, end), with end None meaning the size and a negative end counted from the size.", "quantifier": "every reachable tree, every 0 <= start < end <= size", "why_tests_cant": "two-pointer climbing has many parity cases", "anchors": ["tianshou/data/utils/segtree.py:53-61", "tianshou/data/utils/segtree.py:104-117"]}
{"id": "C15", "title": "SegmentTree.get_prefix_sum_idx inverts the prefix sum", "statement": "For non-negative leaves and 0 <= v < total, get_prefix_sum_idx(v) is the smallest index i < size with sum of leaves [0..i] >= v; values outside that range are rejected.", "quantifier": "every reachable tree with non-negative leaves, every v", "why_tests_cant": "depends on all prefix sums; zero-weight leaves are the corner case", "anchors": ["tianshou/data/utils/segtree.py:63-82", "tianshou/data/utils/segtree.py:119-134"]}
{"id": "C16", "title": "PrioritizedReplayBuffer samples only stored transitions and updates only what it is told to", "statement": "A transition that was never added has weight 0 and is not sampled for any scalar draw in (0, total); update_weight changes the weight of exactly the given indices to (|w|+eps)^alpha, keeps max_prio an upper and min_prio a lower bound of all |w|+eps seen; new transitions get max_prio^alpha.", "quantifier": "every history of add and update_weight calls, every draw", "why_tests_cant": "the history and draws are unbounded", "anchors": ["tianshou/data/buffer/prio.py:25-112"]}
{"id": "C17", "title": "HER cache restoration undoes every rewrite", "statement": "After any sequence of samplings (which rewrite goals and rewards in place), the next add/reset/update/save/set_batch sees exactly the original, un-rewritten transitions; only goals (and rewards) of sampled indices' episodes are rewritten, to a goal achieved later in the same episode.", "quantifier": "every reachable HER buffer, every sampled index set and random draw", "why_tests_cant": "random goal selection, wrap-around and repeated sampling", "anchors": ["tianshou/data/buffer/her.py:48-195"]}
{"id": "C18", "title": "Batch.split visits every row exactly once", "statement": "The index sets produced by split(size, shuffle, merge_last) are a partition of range(len(batch)): each row appears in exactly one minibatch; without shuffle they are in order; every minibatch has length size except the last, which has length in [1, size] without merge_last and in [size, 2*size) with merge_last (when len >= size).", "quantifier": "every length, every size, every permutation returned by the generator", "why_tests_cant": "lengths and permutations are unbounded", "anchors": ["tianshou/data/batch.py:1208-1224"]}
{"id": "C19", "title": "Batch indexing, concatenation and stacking are mutually consistent", "statement": "For batches with equal key structure, cat([a, b])[i] is a[i] for i < len(a) and b[i-len(a)] otherwise, with len the sum; stack([b0..bn])[i] = bi; indexing commutes with key access; structures that conflict raise ValueError and keys missing on one side are zero-filled exactly at the rows of that side.", "quantifier": "every nested batch, every list of batches", "why_tests_cant": "nesting depth and key sets are unbounded", "anchors": ["tianshou/data/batch.py:722-746", "tianshou/data/batch.py:916-1042", "tianshou/data/batch.py:1050-1125"]}
{"id": "C20", "title": "Batch assignment writes only the addressed rows", "statement": "After batch[index] = value, the addressed rows equal value (missing keys are filled with zero/None/empty), other rows are unchanged and no key is added; a value with an unknown key raises ValueError before anything is written.", "quantifier": "every nested batch, index array and value", "why_tests_cant": "nesting depth and index patterns are unbounded", "anchors": ["tianshou/data/batch.py:777-801"]}
{"id": "C21", "title": "GAE equals the exponentially weighted sum of TD errors up to the episode end", "statement": "_gae_return(...)[i] = sum over l >= 0 of (gamma*lambda)^l * delta[i+l], the sum stopping after the first position with a set end flag; in particular it satisfies A[i] = delta[i] + gamma*lambda*(1-end[i])*A[i+1] and does not depend on any entry after that position.", "quantifier": "every length, all values, all end flags, every gamma and lambda", "why_tests_cant": "a closed form over every length and flag pattern", "anchors": ["tianshou/policy/base.py:760-806"]}
{"id": "C22", "title": "compute_episodic_return never leaks across episodes and bootstraps correctly", "statement": "On a batch taken in sample_indices(0) order, the return of a step depends only on later steps of its own episode: it is the lambda-return truncated at the end of the episode, bootstrapping with v_s_ of the last step unless that step is terminated (truncated and unfinished episodes bootstrap); with lambda = 1 it is the discounted sum of rewards plus the discounted bootstrap value.", "quantifier": "every reachable buffer (also multi sub-buffer), every value estimate, gamma, lambda", "why_tests_cant": "episode layouts and wrap-arounds are unbounded", "anchors": ["tianshou/policy/base.py:555-626"]}
{"id": "C23", "title": "n-step return looks ahead n steps or to the end of the episode", "statement": "compute_nstep_return gives, for each sampled index, sum_{k<m} gamma^k r_{t+k} + gamma^m * mask * Q(s_{t+m}), where m = min(n, number of stored steps until the episode ends or the newest step), Q is evaluated at the index reached, and mask is 0 exactly when that step is terminated.", "quantifier": "every reachable buffer, every index, every n >= 1, gamma and Q", "why_tests_cant": "n, the episode ends and the wrap-around interact", "anchors": ["tianshou/policy/base.py:628-721", "tianshou/policy/base.py:826-888"]}
{"id": "C24", "title": "Monte-Carlo return-to-go", "statement": "episode_mc_return_to_go(rewards, gamma)[t] = sum_{k>=t} gamma^(k-t) rewards[k], of the same length as the rewards.", "quantifier": "every episode length and gamma", "why_tests_cant": "closed form for all lengths", "anchors": ["tianshou/policy/base.py:809-823"]}
{"id": "C25", "title": "Actions sent to the environment respect the action space bounds", "statement": "With a Box space and action_scaling, map_action with bound method clip (or tanh) yields values in [low, high] for every network output, maps -1 to low and 1 to high, is monotone, and map_action(map_action_inverse(a)) = a for every a in [low, high] (clip or None).", "quantifier": "every network output, every bounds low < high", "why_tests_cant": "real-valued inputs cannot be enumerated", "anchors": ["tianshou/policy/base.py:367-428"]}
{"id": "C26", "title": "soft_update is a convex combination", "statement": "soft_update(tgt, src, tau) sets each target parameter to tau*src + (1-tau)*tgt: tau = 1 copies, tau = 0 keeps, 0 <= tau <= 1 keeps it between both, and n updates with fixed src leave the gap scaled by (1-tau)^n; src is never changed.", "quantifier": "all parameter values and tau, any number of updates", "why_tests_cant": "numeric domain is infinite", "anchors": ["tianshou/policy/base.py:287-290"]}
{"id": "C27", "title": "BasePolicy.update restores flags and respects the protocol", "statement": "update() on a None buffer returns an empty stat and touches nothing; otherwise it samples, calls process_fn, learn, post_process_fn in this order on the same indices, steps the lr scheduler once, and self.updating is False afterwards.", "quantifier": "every buffer, batch size and callback behaviour", "why_tests_cant": "callbacks are arbitrary", "anchors": ["tianshou/policy/base.py:482-553"]}
{"id": "C28", "title": "Collector with n_episode collects exactly n_episode episodes", "statement": "collect(n_episode=k) on N >= 1 ready envs returns exactly k finished episodes whatever the episode lengths, starting with min(k, N) environments, and each environment that is dropped is one that has just finished an episode.", "quantifier": "every k >= 1 and N (k >= N, or fewer with the surplus envs unused), every environment behaviour that terminates", "why_tests_cant": "episode-length combinations are unbounded (this guards the sampling-bias correction)", "anchors": ["tianshou/data/collector.py:433-517", "tianshou/data/collector.py:743-1061"]}
{"id": "C29", "title": "Collector with n_step collects whole rounds", "statement": "collect(n_step=n) performs ceil(n/N) rounds over the N environments: n_collected_steps = N*ceil(n/N), and n_collected_episodes is the number of episode ends among them.", "quantifier": "every n >= 1, N >= 1, every environment behaviour", "why_tests_cant": "unbounded counts", "anchors": ["tianshou/data/collector.py:743-1061"]}
{"id": "C30", "title": "Every collected transition is stored once, in its environment's sub-buffer", "statement": "During collect, the transition obtained from environment e is added to sub-buffer e, in the order produced, with obs equal to the observation the policy acted on and obs_next equal to what the environment returned; after an episode ends the next obs is the reset observation.", "quantifier": "every schedule of ready environments and episode ends", "why_tests_cant": "interleavings are unbounded", "anchors": ["tianshou/data/collector.py:743-1061"]}
{"id": "C31", "title": "CollectStats agree with the collected data", "statement": "n_collected_episodes equals the number of reported returns and lens, each being the reward sum and the length of that episode; the lens sum plus unfinished steps equals the number of steps; a rollout hook receives exactly the transitions of the finished episode.", "quantifier": "every run", "why_tests_cant": "unbounded runs; depends on episode length versus sub-buffer size", "anchors": ["tianshou/data/collector.py:102-250", "tianshou/data/collector.py:743-1061"]}
{"id": "C32", "title": "Vector environment routes actions and results by id", "statement": "step(actions, ids) in synchronous mode sends actions[j] to environment ids[j] and returns results in the same order with info env_id = ids[j]; reset(ids) and seed follow the same routing; seed(int k) gives env i the seed k+i.", "quantifier": "every number of envs, every id list, every environment behaviour", "why_tests_cant": "all id subsets and orders", "anchors": ["tianshou/env/venvs.py:186-342"]}
{"id": "C33", "title": "Asynchronous vector env: waiting and ready ids always partition the environments", "statement": "Whatever order workers finish in, after each step/reset waiting_id and ready_id are disjoint and together are all ids; no action is ever sent to an environment that is still running, and each result is returned exactly once with the env_id it belongs to.", "quantifier": "every schedule of worker completion, every sequence of legal step calls", "why_tests_cant": "schedules are non-deterministic", "anchors": ["tianshou/env/venvs.py:178-322"]}
{"id": "C34", "title": "A closed vector environment refuses further interaction", "statement": "After close(), reset/step/seed/render raise, close is idempotent in effect on workers, and nothing reaches the workers.", "quantifier": "every state and operation sequence", "why_tests_cant": "state-machine property over all sequences", "anchors": ["tianshou/env/venvs.py:111-114", "tianshou/env/venvs.py:353-362", "tianshou/env/worker/base.py:82-86"]}
{"id": "C35", "title": "Trainer performs the promised number of epochs and steps", "statement": "Unless stop_fn stops it, the trainer runs exactly max_epoch - start_epoch epochs; every epoch collects until at least step_per_epoch env steps, and env_step/gradient_step equal the numbers reported by the collectors and policy updates.", "quantifier": "every configuration and collector behaviour", "why_tests_cant": "runs are unbounded", "anchors": ["tianshou/trainer/base.py:263-415", "tianshou/trainer/base.py:458-529"]}
{"id": "C36", "title": "Trainer keeps the best test score", "statement": "After every test step best_reward/best_score is the maximum of the scores so far (ties keep the first), best_epoch is the epoch it was reached, and save_best_fn is called exactly on strict improvements (and initially).", "quantifier": "every sequence of test results", "why_tests_cant": "sequences are unbounded", "anchors": ["tianshou/trainer/base.py:417-456", "tianshou/trainer/base.py:532-574"]}
{"id": "C37", "title": "Off-policy update count", "statement": "After collecting n steps the off-policy trainer performs round(update_per_step * n) gradient updates; the on-policy trainer's gradient_step grows by 1 + int((len-0.1)//batch_size) = ceil(len/batch_size) per repeat.", "quantifier": "every n, ratio, len and batch size", "why_tests_cant": "numeric domains are unbounded", "anchors": ["tianshou/trainer/base.py:666-778"]}
{"id": "C38", "title": "Masked DQN actions are always legal", "statement": "With a mask, the greedy action of DQNPolicy and the epsilon-greedy random action are legal whenever the row has at least one legal action, whatever the logits; legal actions' values are unchanged.", "quantifier": "every batch, every logits, every mask with a legal action in each row, every random draw", "why_tests_cant": "logits are real-valued", "anchors": ["tianshou/policy/modelfree/dqn.py:158-164", "tianshou/policy/modelfree/dqn.py:238-254", "tianshou/policy/random.py:25-50"]}
{"id": "C39", "title": "The DQN target network is a delayed copy", "statement": "With target_update_freq = f > 0, before the k-th learn step the target weights are the online weights as they were before learn step f*floor(k/f); with f = 0 no target network is used.", "quantifier": "every sequence of learn calls, every optimizer behaviour", "why_tests_cant": "unbounded number of steps", "anchors": ["tianshou/policy/modelfree/dqn.py:86-120", "tianshou/policy/modelfree/dqn.py:212-234"]}
{"id": "C40", "title": "C51 projection preserves probability mass and mean", "statement": "The categorical projection in _target_dist maps a distribution on shifted atoms to one on the fixed support: entries are non-negative, the total mass is that of next_dist, and the expectation equals that of the clamped target atoms.", "quantifier": "every num_atoms > 1, v_min < v_max, target support and distribution", "why_tests_cant": "real-valued", "anchors": ["tianshou/policy/modelfree/c51.py:60-118"]}
{"id": "C41", "title": "MultiDiscreteToDiscrete is a bijection", "statement": "The wrapper maps {0..prod(nvec)-1} one-to-one onto the product space; each component is in range; the map is the mixed radix expansion.", "quantifier": "every nvec with positive entries", "why_tests_cant": "dimensions are unbounded", "anchors": ["tianshou/env/gym_wrappers.py:37-58"]}
{"id": "C42", "title": "ContinuousToDiscrete stays inside the box and reaches both ends", "statement": "Every discrete action is mapped to a point of the Box; index 0 is low and the last index is high in each dimension; the points are equally spaced and strictly increasing.", "quantifier": "every box and action_per_dim", "why_tests_cant": "dimensions and bounds unbounded", "anchors": ["tianshou/env/gym_wrappers.py:8-34"]}
{"id": "C43", "title": "Multi-agent policy manager returns each row's action from its own agent", "statement": "forward dispatches every row to the policy of its agent_id and the returned act row i is that policy's action for row i; each agent's sub-batch keeps the order; exploration noise and process_fn touch only the agent's own rows and restore the buffer's reward array.", "quantifier": "every batch and assignment of rows to agents", "why_tests_cant": "row/agent patterns are unbounded", "anchors": ["tianshou/policy/multiagent/mapolicy.py:120-280"]}
{"id": "C44", "title": "MovAvg is the mean of the last finite values", "statement": "After any sequence of add calls, the cache holds the last size finite values (all if size = 0) in order and get() is their mean (0.0 if none); infinities and NaN never enter.", "quantifier": "every sequence of values", "why_tests_cant": "sequences are unbounded", "anchors": ["tianshou/utils/statistics.py:7-66"]}
{"id": "C45", "title": "RunningMeanStd equals the statistics of all data seen", "statement": "After any sequence of batch updates (the first from count 0), mean and var are the population mean and variance of all the samples seen, in whatever batches they came.", "quantifier": "every sequence of non-empty batches", "why_tests_cant": "batching patterns are unbounded", "anchors": ["tianshou/utils/statistics.py:69-114"]}
{"id": "C46", "title": "Logger rate limiting", "statement": "log_train/test/update/info_data writes only if at least the interval has passed since the last write; with non-decreasing steps, any two writes are at least interval apart and any step at distance >= interval from the last write is written; save/restore round-trips the counters.", "quantifier": "every sequence of steps and intervals", "why_tests_cant": "sequences are unbounded", "anchors": ["tianshou/utils/logger/base.py:74-121", "tianshou/utils/logger/tensorboard.py:105-140"]}
{"id": "C47", "title": "torch_train_mode and policy_within_training_step restore the flags", "statement": "Nested use of the context managers restores the original flag on every exit path, normal or exceptional.", "quantifier": "every nesting and every exception point", "why_tests_cant": "all nestings and exits", "anchors": ["tianshou/utils/torch_utils.py:14-42"]}
{"id": "C48", "title": "HDF5 conversion round-trips", "statement": "from_hdf5(to_hdf5(x)) = x for every nested dict/Batch whose leaves are arrays, tensors, numbers or picklable objects.", "quantifier": "every nested value", "why_tests_cant": "nesting unbounded", "anchors": ["tianshou/data/utils/converter.py:93-165"]}
{"id": "C49", "title": "TRPO line search never leaves the actor outside the trust region", "statement": "After the line search the actor either satisfies kl < max_kl and an improved loss or has its original parameters (step size 0).", "quantifier": "every kl/loss behaviour, every max_backtracks", "why_tests_cant": "the line search can fail at any depth", "anchors": ["tianshou/policy/modelfree/trpo.py:140-175"]}
{"id": "C50", "title": "PSRL posterior statistics are exact", "statement": "After any sequence of learn calls the transition counts equal prior plus observed counts and the reward mean of a state-action pair is the epsilon-weighted average of the prior and all observed rewards.", "quantifier": "every sequence of batches", "why_tests_cant": "sequences unbounded", "anchors": ["tianshou/policy/modelbased/psrl.py:61-94", "tianshou/policy/modelbased/psrl.py:230-253"]}
{"id": "C51", "title": "sample_indices(None) enumerates the buffer", "statement": "sample_indices(None) returns every stored index exactly once, in some order (documented as: all available indices in random order).", "quantifier": "every reachable state and random draw", "why_tests_cant": "depends on every outcome of the random generator", "anchors": ["tianshou/data/buffer/base.py:488-524"]}
{"id": "C52", "title": "from_data builds the buffer that adding the data would build", "statement": "A buffer built by from_data reads, walks (prev/next) and samples like a buffer of the same capacity to which the same transitions were added.", "quantifier": "every list of transitions", "why_tests_cant": "data sets are unbounded", "anchors": ["tianshou/data/buffer/base.py:254-283", "tianshou/data/buffer/base.py:307-322"]}
{"id": "C53", "title": "Episode starts reported after update() are right", "statement": "After update() has moved whole episodes into a buffer, the next add() reports the index it writes to as the start of its new episode.", "quantifier": "every reachable pair of buffers", "why_tests_cant": "depends on the history of both buffers", "anchors": ["tianshou/data/buffer/base.py:324-346", "tianshou/data/buffer/base.py:348-403"]}
{"id": "C54", "title": "ReplayBuffer.add accepts only buffer id 0", "statement": "add(batch, buffer_ids) on a plain ReplayBuffer raises ValueError unless buffer_ids is exactly [0] and the batch has one row.", "quantifier": "every buffer_ids array and batch length", "why_tests_cant": "id arrays are unbounded", "anchors": ["tianshou/data/buffer/base.py:435-455"]}
{"id": "C55", "title": "dropnull leaves a usable buffer", "statement": "After dropnull() the buffer can be added to.", "quantifier": "every reachable state and set of null rows", "why_tests_cant": "depends on fill level and on which rows are null", "anchors": ["tianshou/data/buffer/base.py:645-649"]}
{"id": "C56", "title": "get_buffer_indices rejects an interval outside the buffer", "statement": "get_buffer_indices raises for start/stop that are not inside the same sub-buffer interval, in particular for indices beyond the last edge.", "quantifier": "every start and stop", "why_tests_cant": "the index space is unbounded", "anchors": ["tianshou/data/buffer/base.py:163-212", "tianshou/data/buffer/manager.py:55-58"]}
{"id": "C57", "title": "Frame stacks of vector buffers stay in one episode of one sub-buffer", "statement": "With stack_num > 1, indexing a ReplayBufferManager / VectorReplayBuffer returns, for each index, the frames of the same episode in the same sub-buffer, repeating the earliest one when the episode is too short; frames of other episodes or other environments never appear.", "quantifier": "every history of adds and resets, every list of stored indices, every stack_num", "why_tests_cant": "depends on how the histories of all sub-buffers interleave", "anchors": ["tianshou/data/buffer/manager.py:207-229", "tianshou/data/buffer/base.py:526-606"]}
{"id": "C58", "title": "Only whole episodes enter CachedReplayBuffer's main buffer, whatever buffer_ids are accepted", "statement": "For every buffer_ids that add accepts, transitions of unfinished episodes stay in the caches, and every stored transition is reported at the index where it is stored.", "quantifier": "every accepted buffer_ids array", "why_tests_cant": "id arrays are unbounded; negative and repeated ids are accepted", "anchors": ["tianshou/data/buffer/cached.py:61-85"]}
{"id": "C59", "title": "Advantages depend only on their own episode", "statement": "The advantage compute_episodic_return returns for a step depends only on the rewards, flags and values of that step's own episode, also when v_s is not passed.", "quantifier": "every batch, value estimate, gamma and lambda", "why_tests_cant": "needs every arrangement of episodes in a batch", "anchors": ["tianshou/policy/base.py:575-626"]}
{"id": "C60", "title": "Un-normalised importance weights follow the quoted formula", "statement": "get_weight returns (p_j/p_min)**(-beta) with p_min the smallest stored p = priority**alpha (the formula in its comment), hence a value of at most 1 for every stored transition.", "quantifier": "every history of adds and weight updates, every alpha and beta", "why_tests_cant": "only visible for alpha != 1 and particular priorities", "anchors": ["tianshou/data/buffer/prio.py:69-79", "tianshou/data/buffer/prio.py:81-90"]}
{"id": "C61", "title": "reset() of a prioritized buffer forgets the old weights", "statement": "After reset() and further adds, sample_indices returns only indices of stored transitions.", "quantifier": "every history with resets and every random draw", "why_tests_cant": "depends on the random draw and on what was stored before the reset", "anchors": ["tianshou/data/buffer/prio.py:49-67", "tianshou/data/buffer/base.py:285-291"]}
{"id": "C62", "title": "sample_avail is honoured by prioritized sampling", "statement": "With sample_avail and stack_num > 1 a PrioritizedReplayBuffer samples only indices whose whole frame stack is available, as ReplayBuffer does.", "quantifier": "every history, stack_num and random draw", "why_tests_cant": "depends on the random draw", "anchors": ["tianshou/data/buffer/prio.py:63-67", "tianshou/data/buffer/base.py:488-524"]}
{"id": "C63", "title": "PrioritizedVectorReplayBuffer.set_beta takes effect", "statement": "After set_beta(beta) the importance weights returned by the vector buffer use the new beta.", "quantifier": "every state and beta", "why_tests_cant": "existing tests never compare weights before and after", "anchors": ["tianshou/data/buffer/vecbuf.py:69-72", "tianshou/data/buffer/prio.py:69-79"]}
{"id": "C64", "title": "update() from an empty buffer is a no-op for prioritized buffers", "statement": "PrioritizedReplayBuffer.update(empty buffer) changes nothing and returns no indices, as for ReplayBuffer.", "quantifier": "every state", "why_tests_cant": "the read past the end in compiled code is silent", "anchors": ["tianshou/data/buffer/prio.py:49-52", "tianshou/data/utils/segtree.py:95-101"]}
{"id": "C65", "title": "A prioritized manager samples only stored transitions for every draw in [0, 1)", "statement": "sample_indices of a PrioritizedReplayBufferManager returns only stored indices for every value np.random.rand can return, 0 included.", "quantifier": "every history and draw", "why_tests_cant": "the draw 0.0 practically never occurs in tests", "anchors": ["tianshou/data/buffer/prio.py:63-67", "tianshou/data/buffer/manager.py:234-262", "tianshou/data/utils/segtree.py:119-134"]}
{"id": "C66", "title": "Relabelled rewards are computed with the new goal", "statement": "After a sampling, the reward of every relabelled transition is compute_reward_fn(achieved goal of the next observation, its new goal), whether or not obs_next is stored.", "quantifier": "every history, reward function and random draw", "why_tests_cant": "depends on random goals and on the buffer configuration", "anchors": ["tianshou/data/buffer/her.py:156-176"]}
{"id": "C67", "title": "update() from a HERReplayBuffer moves the original transitions", "statement": "update(source) with a HERReplayBuffer source stores the source's original transitions, as with a plain source.", "quantifier": "every pair of buffers and random draw", "why_tests_cant": "depends on the random relabelling of the source", "anchors": ["tianshou/data/buffer/her.py:71-75", "tianshou/data/buffer/base.py:324-346"]}
{"id": "C68", "title": "torch_train_mode restores the mode of every submodule", "statement": "After `with torch_train_mode(module, enabled)` every submodule of the module has the training flag it had before the block.", "quantifier": "every module tree and block", "why_tests_cant": "tests use freshly created modules whose submodules all share one mode", "anchors": ["tianshou/utils/torch_utils.py:14-22"]}
{"id": "C69", "title": "DQN targets bootstrap only from available actions", "statement": "_target_q returns, for every next observation whose mask has an available action, the target network's value of an available action.", "quantifier": "every batch, mask and pair of networks, double or not", "why_tests_cant": "values of masked actions are arbitrary network outputs", "anchors": ["tianshou/policy/modelfree/dqn.py:121-135"]}
{"id": "C70", "title": "The C51 target weights the n-step atoms by the distribution at the state they bootstrap from", "statement": "In _target_dist the atoms of batch.returns (discounted n-step returns) are weighted by the distribution at the observation reached after those n steps.", "quantifier": "every buffer history, index and estimation_step", "why_tests_cant": "needs estimation_step > 1 and a check against an independent n-step computation", "anchors": ["tianshou/policy/modelfree/c51.py:85-118", "tianshou/policy/base.py:628-721"]}
{"id": "C71", "title": "RunningMeanStd uses the given initial standard deviation", "statement": "A RunningMeanStd created with mean m and std s and not yet updated normalises x to (x - m) / s (up to epsilon and clipping); after the first update the initial values have no effect.", "quantifier": "all initial values, all data", "why_tests_cant": "Tests use the default std=1, for which variance and standard deviation agree.", "anchors": ["tianshou/utils/statistics.py:69-114"]}
{"id": "C72", "title": "A restored TensorboardLogger continues rate limiting where the saved one stopped", "statement": "After restore_data the writes of every scope, before and after the restoration together, are still at least the interval apart.", "quantifier": "every run before the save and after the restoration", "why_tests_cant": "needs two processes and a comparison of their event files", "anchors": ["tianshou/utils/logger/tensorboard.py:123-140", "tianshou/utils/logger/base.py:74-121"]}
{"id": "C73", "title": "Conjugate gradients solve the linear system", "statement": "For a linear symmetric positive definite operator A, _conjugate_gradients(b, nsteps) returns x with |b - A x|^2 below the tolerance when nsteps is at least the dimension, and 0 for b = 0.", "quantifier": "every dimension, operator, right-hand side", "why_tests_cant": "operators and dimensions are unbounded; a zero gradient does not occur in tests", "anchors": ["tianshou/policy/modelfree/npg.py:193-218"]}
{"id": "C74", "title": "Flat parameter vectors round-trip", "statement": "_set_from_flat_params(model, cat of flattened parameters) leaves the model unchanged, and for any flat vector of the right length reading the parameters back gives it, shapes unchanged.", "quantifier": "every list of parameter shapes and values", "why_tests_cant": "parameter lists are unbounded", "anchors": ["tianshou/policy/modelfree/npg.py:217-227"]}
{"id": "C75", "title": "PSRL learning does not modify the prior passed by the user", "statement": "learn leaves the trans_count_prior array unchanged, so a second policy built from the same array starts from the prior.", "quantifier": "every prior and sequence of batches", "why_tests_cant": "tests build one policy per prior array", "anchors": ["tianshou/policy/modelbased/psrl.py:49-59", "tianshou/policy/modelbased/psrl.py:61-97"]}
{"id": "C76", "title": "PSRL keeps the posterior of unobserved state-action pairs", "statement": "A state-action pair without observations keeps its prior counts, reward mean and reward standard deviation under learn.", "quantifier": "every prior, every sequence of batches", "why_tests_cant": "tests use the mean prior 0 and do not inspect the deviation", "anchors": ["tianshou/policy/modelbased/psrl.py:61-97"]}
{"id": "C77", "title": "PSRL value iteration terminates near the optimal values", "statement": "For every finite MDP and discount in [0, 1], value_iteration terminates and the result is within gamma/(1-gamma) times the last change of the fixed point; the policy is greedy up to the tie-breaking noise.", "quantifier": "every MDP, discount and tolerance", "why_tests_cant": "quantifies over all MDPs", "anchors": ["tianshou/policy/modelbased/psrl.py:112-140"]}
{"id": "C78", "title": "The multi-agent manager keeps every agent's hidden state between forward calls", "statement": "The state forward returns holds, for every agent that has had rows so far, the state its policy last returned.", "quantifier": "every sequence of forward calls with arbitrary agent ids", "why_tests_cant": "tests use stateless sub-policies", "anchors": ["tianshou/policy/multiagent/mapolicy.py:182-260"]}
{"id": "C79", "title": "The buffer's reward array survives an exception in a sub-policy's process_fn", "statement": "process_fn of the multi-agent manager leaves buffer.rew as it was, whether or not a sub-policy raises.", "quantifier": "every buffer, batch and set of sub-policies", "why_tests_cant": "tests do not make a sub-policy raise", "anchors": ["tianshou/policy/multiagent/mapolicy.py:120-161"]}
{"id": "C80", "title": "The multi-agent manager passes its modes on to the sub-policies", "statement": "Within torch_train_mode / policy_within_training_step on the manager every sub-policy has the requested mode, and afterwards the mode it had before.", "quantifier": "every manager, set of sub-policies, modes and body", "why_tests_cant": "tests check losses or rewards, not the modes of sub-policies", "anchors": ["tianshou/policy/multiagent/mapolicy.py:282-286", "tianshou/utils/torch_utils.py:14-42"]}
{"id": "C81", "title": "An asynchronous step returns at least wait_num results when enough environments are waiting", "statement": "step in asynchronous mode without a timeout returns at least min(wait_num, number of waiting environments) results.", "quantifier": "every worker class, schedule and call sequence", "why_tests_cant": "existing tests check DummyVectorEnv only with few environments waiting", "anchors": ["tianshou/env/venvs.py:282-301", "tianshou/env/worker/dummy.py:28-35", "tianshou/env/worker/subproc.py:194-211"]}
{"id": "C82", "title": "An asynchronous step(None) returns", "statement": "step(None) returns the results of running environments once they finish, and does not loop for ever.", "quantifier": "every state and schedule", "why_tests_cant": "non-termination cannot be observed by a test", "anchors": ["tianshou/env/venvs.py:282-301"]}
{"id": "C83", "title": "seed() in asynchronous mode does not mix up results", "statement": "seed gives environment i its seed and returns its answer, also when environments are running, and later steps return step results only.", "quantifier": "every state and schedule", "why_tests_cant": "depends on a running environment at the time of the call", "anchors": ["tianshou/env/venvs.py:324-342", "tianshou/env/worker/subproc.py:256-259"]}
{"id": "C84", "title": "Illegal ids in an asynchronous step are rejected", "statement": "Ids that are repeated or not ready raise before any action is sent.", "quantifier": "every id list and state", "why_tests_cant": "quantifies over id lists", "anchors": ["tianshou/env/venvs.py:186-191", "tianshou/env/venvs.py:282-290"]}
{"id": "C85", "title": "A synchronous step that raises has no effect", "statement": "If step raises because of an invalid id, later steps return the results of their own actions.", "quantifier": "every id list and state", "why_tests_cant": "needs a subprocess environment after a failed call", "anchors": ["tianshou/env/venvs.py:268-281"]}
{"id": "C86", "title": "The on-policy gradient_step counts the mini-batch updates", "statement": "After an on-policy update gradient_step has grown by the number of mini-batches the policy's learn method went through.", "quantifier": "every buffer length, batch size and repeat count", "why_tests_cant": "quantifies over lengths and batch sizes; the counter is only logged", "anchors": ["tianshou/trainer/base.py:761-766", "tianshou/policy/modelfree/pg.py:219-221"]}
{"id": "C87", "title": "run() resets exactly when asked to", "statement": "run(reset_prior_to_run=True) resets the collectors and tests the policy once before training; with False it does neither.", "quantifier": "every configuration and state", "why_tests_cant": "needs to observe the calls made to collectors over a whole run", "anchors": ["tianshou/trainer/base.py:614-643", "tianshou/trainer/base.py:311-313"]}
{"id": "C88", "title": "reset() returns a trainer to its initial counters", "statement": "After reset() without resume_from_log the epoch, env_step, env_episode and gradient_step are those of a new trainer.", "quantifier": "every state of the trainer", "why_tests_cant": "requires a second run of the same trainer", "anchors": ["tianshou/trainer/base.py:263-309"]}
{"id": "C89", "title": "Training without a test collector needs no test configuration", "statement": "A trainer without a test collector trains, whatever episode_per_test is (its documentation: the number of episodes for one evaluation).", "quantifier": "every configuration", "why_tests_cant": "quantifies over configurations", "anchors": ["tianshou/trainer/base.py:489-495"]}
{"id": "C90", "title": "stop_fn always judges returns after reward_metric", "statement": "Every test whose mean return is given to stop_fn or reported as best reward is first passed through reward_metric.", "quantifier": "every metric, stop function and sequence of test results", "why_tests_cant": "needs a metric under which a test during training differs", "anchors": ["tianshou/trainer/base.py:532-574", "tianshou/trainer/utils.py:17-41"]}
{"id": "C91", "title": "In-place concatenation and stacking agree with Batch.cat / Batch.stack", "statement": "b.cat_(l) and b.stack_(l) leave in b what Batch.cat([b, *l]) and Batch.stack([b, *l]) return.", "quantifier": "every non-empty batch and list of batches", "why_tests_cant": "quantifies over key structures; tests start from empty batches", "anchors": ["tianshou/data/batch.py:916-1042", "tianshou/data/batch.py:1050-1125"]}
{"id": "C92", "title": "Concatenation keeps the values of every batch", "statement": "Slicing Batch.cat(l) at the place of one of the batches gives its values back, whatever the numeric types are.", "quantifier": "every list of batches with equal structure", "why_tests_cant": "needs an integer array, a float array and an empty batch under one key", "anchors": ["tianshou/data/batch.py:974-983", "tianshou/data/batch.py:148-183"]}
{"id": "C93", "title": "Stacking accepts partial nested keys", "statement": "If batches can be stacked then they can be stacked together with a batch that lacks some of the keys.", "quantifier": "every list of batches", "why_tests_cant": "quantifies over nested key structures", "anchors": ["tianshou/data/batch.py:1110-1125"]}
{"id": "C94", "title": "Assigning a batch its own rows changes nothing", "statement": "b[index] = b[index] succeeds and leaves b as it was.", "quantifier": "every non-empty batch and valid index", "why_tests_cant": "tests do not assign to batches that hold None", "anchors": ["tianshou/data/batch.py:722-746", "tianshou/data/batch.py:777-801"]}
{"id": "C95", "title": "dropnull removes exactly the rows with a null", "statement": "b.dropnull() has the keys of b and, at every key, the rows of b in which no value is null.", "quantifier": "every batch", "why_tests_cant": "tests use one-dimensional arrays with at least one complete row", "anchors": ["tianshou/data/batch.py:1309-1337"]}
{"id": "C96", "title": "A pickled Batch is restored", "statement": "pickle.loads(pickle.dumps(b)) has the keys and values of b, whatever the keys are called.", "quantifier": "every Batch", "why_tests_cant": "quantifies over key names; batches are pickled by subprocess workers and by buffers saved with pickle", "anchors": ["tianshou/data/batch.py:636-660", "tianshou/data/batch.py:693-712"]}
{"id": "C97", "title": "Hidden state is reset at episode ends", "statement": "After a round of collect, the hidden state row of every environment that finished its episode is reset before the policy acts on the reset observation, and the other rows are kept.", "quantifier": "every recurrent policy, hidden state type and set of finished environments", "why_tests_cant": "no test collects with a recurrent policy and looks at its hidden state after an episode end", "anchors": ["tianshou/data/collector.py:900-905", "tianshou/data/collector.py:1064-1075"]}
{"id": "C98", "title": "Exactly one of n_step and n_episode is accepted", "statement": "collect raises ValueError unless exactly one of n_step and n_episode is given, and then collects what was asked for.", "quantifier": "every pair of arguments", "why_tests_cant": "tests only try the pairs that are refused", "anchors": ["tianshou/data/collector.py:433-470", "tianshou/data/collector.py:498-517"]}
{"id": "C99", "title": "Reported episodes are episodes of the environment", "statement": "Every reported episode length, return and hook batch is of one episode of one environment, from its reset to its end, whatever the sequence of collect calls and resets.", "quantifier": "every sequence of collect calls with and without reset_before_collect", "why_tests_cant": "needs a call that stops in mid-episode followed by one that resets", "anchors": ["tianshou/data/collector.py:466-468", "tianshou/data/collector.py:1024-1061"]}
{"id": "C100", "title": "collect_step and collect_episode count everything collected", "statement": "The counters of a collector grow by the number of steps and episodes of each collect call.", "quantifier": "every sequence of collect calls", "why_tests_cant": "tests do not read the counters after reset_before_collect", "anchors": ["tianshou/data/collector.py:371-401", "tianshou/data/collector.py:466-468"]}
{"id": "C101", "title": "Return, length and hook agree on the rows of an episode", "statement": "The return and the length reported for an episode and the rows given to the episode hook are of the same transitions.", "quantifier": "every history of the buffer, including resets", "why_tests_cant": "needs a buffer reset in mid-episode", "anchors": ["tianshou/data/collector.py:403-405", "tianshou/data/collector.py:950-990"]}
{"id": "C102", "title": "Merged hooks deliver the entries of all hooks", "statement": "EpisodeRolloutHookMerged returns the union of the dicts of its hooks and raises KeyError only if two hooks return the same key.", "quantifier": "every list of hooks", "why_tests_cant": "quantifies over hook outputs", "anchors": ["tianshou/data/collector.py:1475-1513"]}
{"id": "C103", "title": "Asynchronous collection joins what belongs together", "statement": "However the environments of an AsyncCollector overtake each other, each stored transition of an environment has the observation that was shown to the policy, the action (as the float to which it is converted) and hidden state answered for it, and the result of executing that action in this environment; per environment these form the run that the environment has on its own.", "quantifier": "every environment behaviour, policy with hidden states (for others see the next property), answering order and sequence of collect calls after a reset that return", "why_tests_cant": "depends on the order in which workers answer; tests use workers in the same process", "anchors": ["tianshou/data/collector.py:1162-1357", "tianshou/env/venvs.py:255-320"]}
{"id": "C104", "title": "Asynchronous collection works with every policy", "statement": "AsyncCollector.collect works with every policy that Collector.collect works with, including policies without hidden state and random=True.", "quantifier": "every policy", "why_tests_cant": "the AsyncCollector tests only use a policy that returns a hidden state", "anchors": ["tianshou/data/collector.py:1235-1249", "tianshou/data/collector.py:1270", "tianshou/data/collector.py:1299-1301", "tianshou/data/batch.py:722-746"]}
{"id": "C105", "title": "Asynchronous collection stores the policy's actions", "statement": "The actions in the buffer after AsyncCollector.collect are the actions that the policy answered.", "quantifier": "every action space", "why_tests_cant": "tests use scalar actions and do not look at their type", "anchors": ["tianshou/data/collector.py:1121", "tianshou/data/collector.py:1148", "tianshou/data/collector.py:1229"]}
{"id": "C106", "title": "An asynchronous collector can be reset at any time", "statement": "AsyncCollector.reset succeeds after any sequence of collect calls and then no environment is running.", "quantifier": "every number of environments, wait_num, worker class and answering order", "why_tests_cant": "tests wait for all but one environment", "anchors": ["tianshou/data/collector.py:1152-1160", "tianshou/env/venvs.py:255-320"]}
{"id": "C107", "title": "reset_env of an asynchronous collector takes effect", "statement": "After AsyncCollector.reset_env the next collect acts on the observations of the reset environments, and all of them take part.", "quantifier": "every history", "why_tests_cant": "the method is not tested on AsyncCollector", "anchors": ["tianshou/data/collector.py:1152-1160", "tianshou/data/collector.py:664-675", "tianshou/data/collector.py:1176-1199"]}
{"id": "C108", "title": "Asynchronous collection counts and reports its episodes", "statement": "AsyncCollector.collect stops in the first round in which n_step steps or n_episode episodes are reached (at most one per environment too many), its counts are those of the transitions it stored, and each reported return and length is the one of an episode that ended during the call, even if the episode is longer than the buffer or began in an earlier call.", "quantifier": "every environment behaviour, policy with hidden states, answering order and sequence of collect calls that return", "why_tests_cant": "episodes span several calls and overtake each other", "anchors": ["tianshou/data/collector.py:1296-1344"]}
{"id": "C109", "title": "Asynchronous collection keeps hidden states apart", "statement": "The hidden state that the policy of an AsyncCollector is given for an environment is the one it answered last for this environment, or its zero if the episode ended in between.", "quantifier": "every policy with hidden states in arrays or batches, answering order and sequence of collect calls that return", "why_tests_cant": "needs environments that overtake each other around episode ends", "anchors": ["tianshou/data/collector.py:1064-1075", "tianshou/data/collector.py:1235-1249", "tianshou/data/collector.py:1299-1334"]}
{"id": "C110", "title": "The storage of a buffer holds the latest write to every slot", "statement": "After any sequence of writes whose arrays fit together, single or stacked and with keys that appear only later or only sometimes, every path that was ever written has an array with one row per slot; row r is what the last write to r had there, and padding if that write had nothing there. Reading a slot gives back the transition.", "quantifier": "every number and order of writes, nested keys, shapes and slot numbers; values of one kind and shape per path", "why_tests_cant": "the keys of a transition may differ from step to step, the storage is allocated lazily in an exception handler", "anchors": ["tianshou/data/buffer/base.py:462-486", "tianshou/data/buffer/manager.py:150-187", "tianshou/data/batch.py:148-183", "tianshou/data/batch.py:231-248", "tianshou/data/batch.py:510-560"]}
{"id": "C111", "title": "A stored value keeps its type", "statement": "A value read from the buffer equals the value added.", "quantifier": "every sequence of adds", "why_tests_cant": "tests add values of one type", "anchors": ["tianshou/data/buffer/base.py:471-485", "tianshou/data/batch.py:148-183"]}
{"id": "C112", "title": "A write that raises leaves the buffer as it was", "statement": "If add raises, the buffer holds the same transitions as before, and no write, whether it raises or not, changes the rows of other slots.", "quantifier": "every buffer and every written batch", "why_tests_cant": "error paths that write part of a row", "anchors": ["tianshou/data/buffer/base.py:462-486", "tianshou/data/buffer/manager.py:150-187"]}
{"id": "C113", "title": "Adding batches adds the values under each key", "statement": "batch += other and batch + other add, element by element, the arrays found under the same keys; batch += number and batch *= number do so with the number; keys, types and shapes stay as they are.", "quantifier": "every nesting, shape and content", "why_tests_cant": "tests add batches built by the same code, with the keys in the same order", "anchors": ["tianshou/data/batch.py:803-852"]}
{"id": "C114", "title": "Batch arithmetic obeys the laws of its elements", "statement": "Addition of batches is commutative and associative, b + b is b * 2, and multiplication distributes over addition.", "quantifier": "every pair or triple of batches of the same layout", "why_tests_cant": "laws over all contents", "anchors": ["tianshou/data/batch.py:803-852"]}
{"id": "C115", "title": "A failing in-place operation leaves the batch as it was", "statement": "If +=, *= or /= raises, the batch is unchanged; whether or not it raises, keys, types and shapes stay.", "quantifier": "every batch and operand", "why_tests_cant": "error paths that have changed some values already", "anchors": ["tianshou/data/batch.py:803-852"]}
{"id": "C116", "title": "Dividing undoes multiplying", "statement": "batch /= number divides every element, and (batch * q) / q is batch for q other than 0.", "quantifier": "every batch of numbers", "why_tests_cant": "quantifies over types of arrays", "anchors": ["tianshou/data/batch.py:840-852"]}
{"id": "C117", "title": "empty_ clears the selected rows and nothing else", "statement": "Batch.empty_(index) sets the rows selected by the index to zero or None at every path, Batch.empty_() everything; other rows, None values, keys, types and shapes stay; on batches without None it is the assignment of an empty batch.", "quantifier": "every nested batch, every integer, array or slice index", "why_tests_cant": "nested keys with different types, all indices", "anchors": ["tianshou/data/batch.py:1134-1165"]}
{"id": "C118", "title": "set_array_at_key writes the rows and keeps the rest", "statement": "With an index it writes the rows of an existing array, or creates a missing key with the default value in the other rows; without an index it sets the key exactly if the lengths agree; other keys are unchanged.", "quantifier": "every batch, array, index and default value", "why_tests_cant": "tests use one-dimensional arrays", "anchors": ["tianshou/data/batch.py:1268-1304"]}
{"id": "C119", "title": "Length and shape agree", "statement": "len(batch) is the first entry of batch.shape and the number of rows of the shortest array.", "quantifier": "every batch with at least one key", "why_tests_cant": "depends on nesting, None and empty arrays", "anchors": ["tianshou/data/batch.py:1171-1206"]}
{"id": "C120", "title": "replace_empty_batches_by_none replaces exactly the empty batches", "statement": "Every empty batch below the root becomes None at every depth, and nothing else changes.", "quantifier": "every nested batch", "why_tests_cant": "arbitrary nesting", "anchors": ["tianshou/data/batch.py:1339-1352"]}
{"id": "C121", "title": "Parameters fit the constructors of the policies", "statement": "For each of the twelve algorithms with an agent factory, all documented values of its parameters are turned into keyword arguments that the constructor of its policy accepts: none unknown, none twice, none missing; and the wrong kind of action space is refused.", "quantifier": "every algorithm and every assignment of its parameters", "why_tests_cant": "tests run each algorithm with one set of parameters and a few of the transformers", "anchors": ["tianshou/highlevel/params/policy_params.py:23-636", "tianshou/highlevel/agent.py:259-628"]}
{"id": "C122", "title": "Parameters reach the policy under their own names", "statement": "Each parameter arrives at the policy unchanged, or replaced by the value that it stands for in the environments at hand (automatic alpha, noise scaled by the action, default scaling); the schedulers of all optimizers with a factory are joined into one in the order actor, critic, second critic, and every network is passed with its own optimizer.", "quantifier": "every algorithm, every assignment of parameters, every environment", "why_tests_cant": "tests do not look at the arguments", "anchors": ["tianshou/highlevel/params/policy_params.py:62-214", "tianshou/highlevel/params/policy_params.py:223-636", "tianshou/highlevel/agent.py:272-296", "tianshou/highlevel/agent.py:335-348", "tianshou/highlevel/agent.py:465-478", "tianshou/highlevel/agent.py:585-605", "tianshou/highlevel/params/alpha.py:23-36", "tianshou/highlevel/params/noise.py:26-29", "tianshou/highlevel/params/env_param.py:28-30"]}
{"id": "C123", "title": "A policy can be created exactly for the documented parameter values", "statement": "The policy is created for exactly the parameter values that the parameter classes document.", "quantifier": "every algorithm, every assignment of parameters, every environment", "why_tests_cant": "range checks in four layers of constructors; tests use defaults", "anchors": ["tianshou/highlevel/params/policy_params.py:354-377", "tianshou/highlevel/params/policy_params.py:269-279", "tianshou/policy/base.py:203-226", "tianshou/policy/modelfree/ppo.py:118-121", "tianshou/policy/modelfree/ddpg.py:78-91", "tianshou/policy/modelfree/redq.py:86-137", "tianshou/policy/modelfree/sac.py:118-168", "tianshou/policy/modelfree/iqn.py:77-87"]}
{"id": "C124", "title": "The automatic entropy coefficient steers the entropy towards its target", "statement": "With the default automatic alpha the coefficient grows if and only if the entropy is below the target, and the target is one that the policy can attain.", "quantifier": "every action space and every sequence of batches", "why_tests_cant": "the direction and the attainability of the target concern the limit of training", "anchors": ["tianshou/highlevel/params/alpha.py:23-36", "tianshou/highlevel/env.py:283", "tianshou/policy/modelfree/sac.py:245-252", "tianshou/policy/modelfree/discrete_sac.py:166-172"]}
{"id": "C125", "title": "An automatic entropy coefficient can be tuned", "statement": "If a policy is created with automatic alpha, its updates can adjust the coefficient.", "quantifier": "every algorithm with the parameter alpha", "why_tests_cant": "REDQ is tested with a fixed alpha", "anchors": ["tianshou/policy/modelfree/redq.py:118-137", "tianshou/policy/modelfree/redq.py:212-218", "tianshou/policy/modelfree/sac.py:141-158"]}
{"id": "C126", "title": "A sampling configuration determines the trainer", "statement": "Every accepted sampling configuration yields a trainer that has its numbers and whose collections, tests and checkpoints follow them.", "quantifier": "every sampling configuration, number of CPUs, on-policy and off-policy", "why_tests_cant": "tests use step_per_collect and several test episodes only", "anchors": ["tianshou/highlevel/config.py:168-192", "tianshou/highlevel/agent.py:164-252", "tianshou/data/collector.py:498-512"]}
{"id": "C127", "title": "Epochs, steps and updates of a training run are as documented", "statement": "A run makes num_epochs epochs of ceil(s/c) collections each, where c is the number of steps of one collection: e*ceil(s/c)*c environment steps in total, with one update call per collection on-policy and round(update_per_step*c) off-policy.", "quantifier": "every configuration and every size of the collections", "why_tests_cant": "all combinations of sizes that do not divide each other", "anchors": ["tianshou/highlevel/config.py:16-35", "tianshou/highlevel/config.py:69-85", "tianshou/highlevel/config.py:109-122", "tianshou/trainer/base.py:315-415"]}
{"id": "C128", "title": "The linear schedule keeps the learning rate between zero and its initial value", "statement": "With LRSchedulerFactoryLinear the factor of the learning rate falls evenly from 1 towards 0 over the updates of the whole training run.", "quantifier": "every configuration, on-policy and off-policy", "why_tests_cant": "needs complete training runs", "anchors": ["tianshou/highlevel/params/lr_scheduler.py:20-35", "tianshou/policy/base.py:548-550"]}
{"id": "C129", "title": "The linear decay of epsilon", "statement": "Epsilon falls linearly from eps_train at step 0 to eps_train_final at decay_steps and stays there.", "quantifier": "every initial and final value, every number of decay steps and every step", "why_tests_cant": "all steps", "anchors": ["tianshou/highlevel/trainer.py:97-118"]}
{"id": "C130", "title": "An experiment does what its configuration says, in order, and returns the result of the training", "statement": "run() seeds, creates, restores, collects initially, trains and watches in this order, exactly the parts that are configured, leaves nothing on disk with persistence disabled, does not touch an existing directory, and returns the trainer's result.", "quantifier": "every configuration and outcome of the training", "why_tests_cant": "tests run default configurations and do not look at the result", "anchors": ["tianshou/highlevel/experiment.py:216-454"]}
{"id": "C131", "title": "The experiments of a seeded collection have non-overlapping seeds and unique names", "statement": "build_seeded_collection gives n experiments with pairwise different seeds, names and seeds of environments.", "quantifier": "every base configuration and number of experiments", "why_tests_cant": "tests look at the names of few experiments", "anchors": ["tianshou/highlevel/experiment.py:187-200", "tianshou/highlevel/experiment.py:664-690", "tianshou/highlevel/env.py:488-501", "tianshou/env/venvs.py:324-350"]}
{"id": "C132", "title": "Launchers return the results of the successful experiments", "statement": "launch() returns the results of the successful experiments in order, and raises RuntimeError exactly if all fail, sequentially as in parallel.", "quantifier": "every list of experiments and every pattern of failures", "why_tests_cant": "all patterns of failures", "anchors": ["tianshou/evaluation/launcher.py:53-137"]}
{"id": "C133", "title": "The best policy is restored with what was saved with it", "statement": "Restoring from the directory of a run gives the parameters of the last best policy and the items (such as observation statistics) saved with it; checkpoints of epochs are kept apart; with persistence disabled nothing is written.", "quantifier": "every sequence of training, best saves and checkpoints, both modes", "why_tests_cant": "interleavings of saves", "anchors": ["tianshou/highlevel/persistence.py:42-154", "tianshou/highlevel/agent.py:195-196", "tianshou/highlevel/agent.py:241"]}
{"id": "C134", "title": "A group of learning rate schedulers steps, saves and restores all of them", "statement": "step() steps each scheduler once; loading the saved state gives back the schedulers; a state of another length is an error.", "quantifier": "every group of schedulers", "why_tests_cant": "tests load schedulers of one kind", "anchors": ["tianshou/utils/lr_scheduler.py:4-40"]}
{"id": "C135", "title": "The clipped surrogate objective of PPO", "statement": "Each entry of the objective is the advantage times the importance ratio clipped from above (advantage >= 0) or from below (advantage < 0); it equals ratio*advantage within the clipping interval, is never above it, and dual clipping bounds it from below by c*advantage.", "quantifier": "every clipping constant, ratio and advantage", "why_tests_cant": "all ratios and advantages, and the interplay of both clippings", "anchors": ["tianshou/policy/modelfree/ppo.py:191-200"]}
{"id": "C136", "title": "Value clipping of PPO", "statement": "The clipped value is within eps_clip of the old one, the clipped loss is never below the unclipped one, and they agree if the value moved by at most eps_clip.", "quantifier": "every old value, new value and return", "why_tests_cant": "all values", "anchors": ["tianshou/policy/modelfree/ppo.py:203-212"]}
{"id": "C137", "title": "Normalised advantages are finite, centred and ordered like the advantages", "statement": "With advantage normalisation every minibatch has advantages that sum to zero, keep their order and do not depend on a common offset.", "quantifier": "every batch, batch size and permutation", "why_tests_cant": "all sizes of minibatches", "anchors": ["tianshou/policy/modelfree/ppo.py:183-190", "tianshou/data/batch.py:1208-1224"]}
{"id": "C138", "title": "Each repetition uses every row exactly once", "statement": "learn makes repeat*max(1, n/batch_size) gradient steps; in every repetition each row is in exactly one minibatch.", "quantifier": "every batch, batch size, number of repetitions and sequence of permutations", "why_tests_cant": "all sizes and permutations", "anchors": ["tianshou/policy/modelfree/ppo.py:169-235", "tianshou/policy/modelfree/a2c.py:160-194", "tianshou/policy/modelfree/pg.py:210-231"]}
{"id": "C139", "title": "max_batchsize does not change the result", "statement": "Values, returns, advantages and log probabilities do not depend on max_batchsize.", "quantifier": "every batch and every two positive values of max_batchsize", "why_tests_cant": "all pairs of sizes", "anchors": ["tianshou/policy/modelfree/a2c.py:118-132", "tianshou/policy/modelfree/ppo.py:160-164"]}
{"id": "C140", "title": "Returns are advantages plus values", "statement": "After process_fn, return = advantage + value for each row, in units of rewards if rewards are normalised.", "quantifier": "every batch, critic and state of the running statistics", "why_tests_cant": "all states of the statistics", "anchors": ["tianshou/policy/modelfree/a2c.py:118-156", "tianshou/policy/base.py:575-626"]}
{"id": "C141", "title": "Every collected row enters the running statistics of the returns once", "statement": "Over any sequence of updates the number of samples in ret_rms is the number of collected rows.", "quantifier": "every sequence of updates", "why_tests_cant": "effect of the flag recompute_advantage on statistics over several repetitions", "anchors": ["tianshou/policy/modelfree/a2c.py:133-152", "tianshou/policy/modelfree/ppo.py:155-157", "tianshou/policy/modelfree/ppo.py:181-182"]}
{"id": "C142", "title": "The returns of the policy gradient are standardised with the statistics before the update", "statement": "With reward normalisation PGPolicy standardises the Monte Carlo returns by the running statistics before adding them to these; otherwise they are raw.", "quantifier": "every batch and state of the statistics", "why_tests_cant": "all states", "anchors": ["tianshou/policy/modelfree/pg.py:127-173"]}
{"id": "C143", "title": "ICM restores the original reward after an update", "statement": "post_process_fn sets batch.rew to the rewards that were sampled; the rewards in the buffer are never changed.", "quantifier": "every wrapped policy, model, reward scale and batch", "why_tests_cant": "identity of arrays: the saved array is the one that is modified in place", "anchors": ["tianshou/policy/modelbased/icm.py:124-151"]}
{"id": "C144", "title": "The intrinsic reward reaches the wrapped policy", "statement": "With ICM every return of the wrapped policy grows by the discounted intrinsic rewards of the rest of its episode.", "quantifier": "every wrapped policy, buffer, batch and model", "why_tests_cant": "all episode layouts; some learners read rewards from the buffer instead of the batch", "anchors": ["tianshou/policy/modelbased/icm.py:124-137", "tianshou/policy/base.py:575-626", "tianshou/policy/base.py:629-721"]}
{"id": "C145", "title": "A policy wrapped in ICM behaves in training as on its own", "statement": "Training mode, exploration epsilon and the training-step flag reach the wrapped policy.", "quantifier": "every nesting of wrappers", "why_tests_cant": "the flag is an attribute of the outer object", "anchors": ["tianshou/policy/modelbased/icm.py:86-115", "tianshou/utils/torch_utils.py:25-42", "tianshou/policy/modelfree/pg.py:198-206"]}
{"id": "C146", "title": "GAIL updates the discriminator disc_update_num times with every row once", "statement": "Each call of learn makes disc_update_num discriminator steps on a partition of the batch, and the learned reward is positive and grows with the logit.", "quantifier": "every batch size, disc_update_num, permutation and expert buffer", "why_tests_cant": "all pairs of sizes", "anchors": ["tianshou/policy/imitation/gail.py:141-198"]}
{"id": "C147", "title": "After an update the priorities are those of the learner's errors", "statement": "post_process_fn gives the sampled transitions the priorities of the errors computed by the learner, or leaves them alone if it computes none.", "quantifier": "every history of a prioritized buffer, sample and learner", "why_tests_cant": "all histories; whether batch.weight still holds the importance weights", "anchors": ["tianshou/policy/base.py:482-502", "tianshou/data/buffer/prio.py:63-113"]}
{"id": "C148", "title": "Calibrated CQL compares with the return of the same transition", "statement": "process_buffer gives every stored row the discounted return-to-go of its own transition.", "quantifier": "every history of a replay buffer or vector buffer, every discount", "why_tests_cant": "all positions of the ring's start; the column is in order of age, not of storage", "anchors": ["tianshou/policy/imitation/cql.py:212-235", "tianshou/trainer/base.py:183-186"]}
{"id": "C149", "title": "Offline learners bootstrap after a time limit", "statement": "The targets of BCQ, CQL and discrete CRR bootstrap from the next state unless it is terminal.", "quantifier": "every batch", "why_tests_cant": "truncated rows in all positions", "anchors": ["tianshou/policy/imitation/bcq.py:168-196", "tianshou/policy/imitation/cql.py:277-290", "tianshou/policy/imitation/discrete_crr.py:120-132"]}
{"id": "C150", "title": "BCQ takes the best of the actions sampled for the same observation", "statement": "The target of a row uses the maximum over the actions decoded for its own next observation, of the soft clipped double value; forward returns a candidate of highest value.", "quantifier": "every batch, number of samples, lmbda in [0, 1] and critics", "why_tests_cant": "alignment of the repeated rows for all sizes", "anchors": ["tianshou/policy/imitation/bcq.py:137-149", "tianshou/policy/imitation/bcq.py:168-196"]}
{"id": "C151", "title": "The CQL regulariser is the log-sum-exp of all sampled actions of a row", "statement": "For each row the log-sum-exp runs over the 3 * num_repeat values of its random, current and next actions, each at least the return of the row if calibrated.", "quantifier": "every batch and num_repeat_actions", "why_tests_cant": "shape of an intermediate tensor; all sizes", "anchors": ["tianshou/policy/imitation/cql.py:177-211", "tianshou/policy/imitation/cql.py:300-369"]}
{"id": "C152", "title": "The random actions of CQL are uniform in the action range", "statement": "Random actions are drawn between min_action and max_action.", "quantifier": "every action range", "why_tests_cant": "all ranges", "anchors": ["tianshou/policy/imitation/cql.py:300-306"]}
{"id": "C153", "title": "Discrete BCQ chooses the best action among the likely ones", "statement": "The chosen action has probability at least tau times the highest one, and the highest value among such actions.", "quantifier": "all values, logits and thresholds", "why_tests_cant": "all values", "anchors": ["tianshou/policy/imitation/discrete_bcq.py:128-148"]}
{"id": "C154", "title": "The value term of TD3+BC is normalised", "statement": "The term lies in [-alpha, alpha] and does not change if the critic is scaled by a positive number.", "quantifier": "every batch of values", "why_tests_cant": "all scales, the zero batch", "anchors": ["tianshou/policy/imitation/td3_bc.py:107-125"]}
{"id": "C155", "title": "Advantages and weights of CRR", "statement": "The advantages average to zero under the policy; weights lie in [0, bound] and do not decrease with the advantage.", "quantifier": "all values, policies and increasing functions in place of exp", "why_tests_cant": "all values", "anchors": ["tianshou/policy/imitation/discrete_crr.py:134-146"]}
{"id": "C156", "title": "CRR weights every transition by its own advantage", "statement": "The actor loss is the mean of the negated log probabilities, each times the weight of the same transition.", "quantifier": "every batch", "why_tests_cant": "broadcasting of shapes (B,) and (B, 1)", "anchors": ["tianshou/policy/imitation/discrete_crr.py:133-147"]}
{"id": "C157", "title": "Fractions of the quantile learners", "statement": "QRDQN's fractions are equally spaced, symmetric and strictly between 0 and 1; FQF's proposed fractions increase from 0 to 1 with midpoints between them, and the value of an action is the mean of its quantile values under the proposed probabilities.", "quantifier": "every number of quantiles, every probability vector", "why_tests_cant": "all sizes and probabilities", "anchors": ["tianshou/policy/modelfree/qrdqn.py:83-88", "tianshou/utils/net/discrete.py:274-295", "tianshou/policy/modelfree/fqf.py:136-141"]}
{"id": "C158", "title": "The quantile Huber loss is zero only for equal distributions", "statement": "The loss of a row and its new priority are non-negative, zero exactly if all current and target values are equal, and depend on differences only.", "quantifier": "all quantile values, targets and fractions in (0, 1)", "why_tests_cant": "all values", "anchors": ["tianshou/policy/modelfree/qrdqn.py:107-131", "tianshou/policy/modelfree/iqn.py:133-161", "tianshou/policy/modelfree/fqf.py:158-180", "tianshou/policy/imitation/discrete_cql.py:95-112"]}
{"id": "C159", "title": "Optimal quantiles do not cross", "statement": "Minimisers of the quantile Huber loss are ordered like their fractions and lie between the smallest and largest target.", "quantifier": "every target sample and pair of fractions", "why_tests_cant": "quantifies over all minimisers", "anchors": ["tianshou/policy/modelfree/qrdqn.py:118-125"]}
{"id": "C160", "title": "Gradient of the fractions in FQF", "statement": "If quantile values increase, the gradient of the inner fraction i is 2 q_i - z_i - z_(i+1).", "quantifier": "every number of fractions and increasing values", "why_tests_cant": "all sizes", "anchors": ["tianshou/policy/modelfree/fqf.py:181-206"]}
{"id": "C161", "title": "is_double selects double Q-learning in the distributional learners", "statement": "With is_double=False the action of the target is chosen by the network that evaluates it, with is_double=True by the online network.", "quantifier": "all networks", "why_tests_cant": "all values", "anchors": ["tianshou/policy/modelfree/qrdqn.py:90-102", "tianshou/policy/modelfree/iqn.py:44", "tianshou/policy/modelfree/fqf.py:97-110"]}
{"id": "C162", "title": "Targets of branching DQN", "statement": "The target of every row is its reward plus, unless the next state is terminal, the discounted mean over branches of the value of the chosen action.", "quantifier": "every batch size, number of branches, discount and networks", "why_tests_cant": "batch size one; the unused discount", "anchors": ["tianshou/policy/modelfree/bdq.py:97-147"]}
{"id": "C163", "title": "Loss and priority of branching DQN", "statement": "Loss and priority of a transition are zero only if all branches meet their targets.", "quantifier": "all errors", "why_tests_cant": "all sign patterns", "anchors": ["tianshou/policy/modelfree/bdq.py:165-184"]}
{"id": "C164", "title": "Exploration of branching DQN stays in range", "statement": "After exploration every branch's action is one of its actions.", "quantifier": "all draws, masks and actions", "why_tests_cant": "all draws", "anchors": ["tianshou/policy/modelfree/bdq.py:188-204"]}
{"id": "C165", "title": "The conservative term of discrete CQL is non-negative", "statement": "logsumexp minus the value of the data's action is at least zero on average and does not change if a constant is added to all values.", "quantifier": "all values", "why_tests_cant": "all values", "anchors": ["tianshou/policy/imitation/discrete_cql.py:113-117"]}
{"id": "C166", "title": "Target networks are moving averages of the online networks", "statement": "After n calls of learn every target parameter is (1 - tau)^n times its first value plus the sum of tau (1 - tau)^(n-1-k) times the online parameter after call k; in TD3 only calls divisible by update_actor_freq count. No call raises.", "quantifier": "all networks, gradients, optimizers, tau and sequences of batches", "why_tests_cant": "all lengths of training; all optimizers", "anchors": ["tianshou/policy/modelfree/ddpg.py:131-134", "tianshou/policy/modelfree/td3.py:122-127", "tianshou/policy/modelfree/sac.py:181-183", "tianshou/policy/modelfree/redq.py:144-146"]}
{"id": "C167", "title": "Delayed updates of the actor", "statement": "TD3 updates actor and targets in the calls 0, f, 2f, ..., REDQ the actor in every d-th call; all other calls leave them alone and report the last actor loss.", "quantifier": "all sequences of calls and frequencies", "why_tests_cant": "all lengths and frequencies", "anchors": ["tianshou/policy/modelfree/td3.py:144-163", "tianshou/policy/modelfree/redq.py:195-239"]}
{"id": "C168", "title": "Every optimizer step uses the gradient of its own loss", "statement": "Gradients that the actor's loss leaves in the critics, or left from before, do not enter any step.", "quantifier": "all networks, losses, optimizers and contents of the gradient fields", "why_tests_cant": "hidden state in the gradient fields", "anchors": ["tianshou/policy/modelfree/ddpg.py:172-197", "tianshou/policy/modelfree/td3.py:144-163", "tianshou/policy/modelfree/sac.py:226-262", "tianshou/policy/modelfree/discrete_sac.py:135-184", "tianshou/policy/modelfree/redq.py:195-239"]}
{"id": "C169", "title": "The two critics are two estimates", "statement": "The minimum of two critics differs from the first in general, also if critic2 is not passed.", "quantifier": "all training histories", "why_tests_cant": "all histories; a test sees values that look plausible", "anchors": ["tianshou/policy/modelfree/td3.py:102-108", "tianshou/policy/modelfree/sac.py:131-135", "tianshou/policy/imitation/bcq.py:100-106"]}
{"id": "C170", "title": "Target policy smoothing", "statement": "The smoothed target action is within noise_clip of the target actor's action and in the action range; the target is the smaller of the two values.", "quantifier": "all draws, actions and critics", "why_tests_cant": "all draws", "anchors": ["tianshou/policy/modelfree/td3.py:128-141"]}
{"id": "C171", "title": "Soft targets of SAC, discrete SAC and REDQ", "statement": "REDQ's target lies between the extreme values of the ensemble minus the entropy term for every subset, and does not depend on the draw if the subset is the ensemble; discrete SAC's is the mean of SAC's over actions.", "quantifier": "all values, subsets and probabilities", "why_tests_cant": "all subsets", "anchors": ["tianshou/policy/modelfree/redq.py:177-193", "tianshou/policy/modelfree/discrete_sac.py:117-128", "tianshou/policy/modelfree/sac.py:211-224"]}
{"id": "C172", "title": "OUNoise is an Ornstein-Uhlenbeck process", "statement": "Value k of the noise is mu + (1 - alpha)^k (x0 - mu) plus the discounted sum of the draws.", "quantifier": "all parameters, sizes, draws and numbers of calls", "why_tests_cant": "all numbers of calls; kinds of the size argument", "anchors": ["tianshou/exploration/random.py:35-82"]}
{"id": "C173", "title": "A cloned optimizer has the configuration of the old one", "statement": "clone_optimizer returns a new optimizer of the same class and options.", "quantifier": "all optimizers", "why_tests_cant": "options changed after construction", "anchors": ["tianshou/utils/optim.py:33-69"]}
{"id": "C174", "title": "A transition has priority zero only if every critic is exact", "statement": "The new weight lies between the errors of the critics and is zero only if all are.", "quantifier": "all errors", "why_tests_cant": "all sign patterns", "anchors": ["tianshou/policy/modelfree/td3.py:148", "tianshou/policy/modelfree/sac.py:230", "tianshou/policy/modelfree/discrete_sac.py:159", "tianshou/policy/modelfree/redq.py:203"]}
{"id": "C175", "title": "optim_step clips the gradient", "statement": "The step uses the gradient of the loss, scaled to a norm of at most max_grad_norm if that is given.", "quantifier": "all gradients, norms and maxima", "why_tests_cant": "all values, zero included", "anchors": ["tianshou/utils/optim.py:8-30"]}
{"id": "C176", "title": "The layers of an MLP fit together", "statement": "Every MLP that can be built has the linear layers input, hidden sizes, output in that order, maps rows of input_dim to rows of its attribute output_dim, and can be built exactly if the lists of layer classes and arguments have one entry per hidden layer.", "quantifier": "all sizes and all ways to pass classes and arguments", "why_tests_cant": "all combinations of argument kinds and sizes", "anchors": ["tianshou/utils/net/common.py:21-46", "tianshou/utils/net/common.py:74-135"]}
{"id": "C177", "title": "Constructor arguments given per layer reach the layers", "statement": "Layer j gets the j-th entry of norm_layer, norm_args, activation and act_args; no argument is dropped.", "quantifier": "all argument kinds", "why_tests_cant": "argument kinds no test combines", "anchors": ["tianshou/utils/net/common.py:89-118"]}
{"id": "C178", "title": "Dueling networks", "statement": "The mean of the values over the actions is the state value (for every atom), differences between actions and the greedy action are those of the advantages, and a constant added to the advantages changes nothing.", "quantifier": "all values", "why_tests_cant": "all values and sizes", "anchors": ["tianshou/utils/net/common.py:276-286"]}
{"id": "C179", "title": "Net maps a batch to [batch, actions(, atoms)]", "statement": "Whatever the layer arguments, with or without dueling; its attribute output_dim is the number of actions times atoms; with concat the input is state and action and the width the last hidden size.", "quantifier": "all shapes, sizes, arguments and batches", "why_tests_cant": "all combinations", "anchors": ["tianshou/utils/net/common.py:206-289"]}
{"id": "C180", "title": "linear_layer is used for every linear layer of Net", "statement": "All linear layers of a Net are made by the given linear_layer.", "quantifier": "all arguments", "why_tests_cant": "combination with dueling_param", "anchors": ["tianshou/utils/net/common.py:234-261"]}
{"id": "C181", "title": "Branching networks", "statement": "In every branch the mean of the values is the state value and differences are those of the branch; the default arguments give a network.", "quantifier": "all values and sizes", "why_tests_cant": "all values; default arguments", "anchors": ["tianshou/utils/net/common.py:483-566"]}
{"id": "C182", "title": "Actors return probabilities", "statement": "The output of a discrete actor with softmax is a probability distribution ordered as the logits; RandomActor's is uniform.", "quantifier": "all logits and exponential functions", "why_tests_cant": "all logits", "anchors": ["tianshou/utils/net/discrete.py:61-82", "tianshou/utils/net/common.py:668-680"]}
{"id": "C183", "title": "Members of an ensemble are independent networks", "statement": "Member e of a network of EnsembleLinear layers computes what the plain network with the weights e computes.", "quantifier": "all weights, inputs, sizes and activations", "why_tests_cant": "all sizes and weights", "anchors": ["tianshou/utils/net/common.py:418-450"]}
{"id": "C184", "title": "Dict observations are concatenated in the order of the keys", "statement": "A batch becomes one row per observation with the flattened entries in the order of keys, and so does one observation without batch axis; the width is new_state_shape.", "quantifier": "all shapes, keys and batches", "why_tests_cant": "all shapes; spellings of a shape", "anchors": ["tianshou/utils/net/common.py:569-613"]}
{"id": "C185", "title": "get_output_dim falls back to the given value", "statement": "The attribute is returned if present (and must match the given value), the given value otherwise.", "quantifier": "all modules and values", "why_tests_cant": "modules without the attribute", "anchors": ["tianshou/utils/net/common.py:691-724"]}
{"id": "C186", "title": "A recurrent network sees a sequence as its steps", "statement": "One call with a batch of sequences gives the outputs and the state of feeding the observations one by one with the returned states; a state without its keys is rejected.", "quantifier": "all cells, layers, batch sizes, lengths and states", "why_tests_cant": "all lengths and states", "anchors": ["tianshou/utils/net/common.py:318-374", "tianshou/utils/net/continuous.py:303-349"]}
{"id": "C187", "title": "Actors pass on the hidden state", "statement": "In a rollout the preprocessing network sees in every step the state it returned in the step before.", "quantifier": "all networks and rollouts", "why_tests_cant": "a test with a stateless network cannot see it", "anchors": ["tianshou/utils/net/continuous.py:71-86", "tianshou/utils/net/continuous.py:242-261", "tianshou/utils/net/discrete.py:61-82"]}
{"id": "C188", "title": "Actions lie in the range", "statement": "The outputs of Actor, bounded ActorProb, Perturbation and VAE lie within max_action; a conditioned sigma within its limits; a perturbation is at most phi * max_action.", "quantifier": "all networks and inputs", "why_tests_cant": "all values", "anchors": ["tianshou/utils/net/continuous.py:71-86", "tianshou/utils/net/continuous.py:242-261", "tianshou/utils/net/continuous.py:443-448", "tianshou/utils/net/continuous.py:515-529"]}
{"id": "C189", "title": "A critic accepts what it was built for", "statement": "A critic of observation and action can be evaluated, with the preprocessing network applied to both or to the observation only.", "quantifier": "all networks and sizes", "why_tests_cant": "the option is only exercised without actions", "anchors": ["tianshou/utils/net/continuous.py:121-178", "tianshou/highlevel/module/critic.py:183-213"]}
{"id": "C190", "title": "Noisy layers", "statement": "In evaluation a noisy layer is the plain layer; in training it is the plain layer plus the factorised noise.", "quantifier": "all weights, noise and inputs", "why_tests_cant": "all values", "anchors": ["tianshou/utils/net/discrete.py:321-378"]}
{"id": "C191", "title": "Entries of quantile networks", "statement": "Entry [b, a, n] of the output is the value of action a at fraction n of observation b and depends on nothing else.", "quantifier": "all networks, fractions and sizes", "why_tests_cant": "all sizes: reshapes may mix rows", "anchors": ["tianshou/utils/net/discrete.py:142-158", "tianshou/utils/net/discrete.py:199-215", "tianshou/utils/net/discrete.py:292-295"]}
{"id": "C192", "title": "Curiosity is zero exactly for predicted transitions", "statement": "The loss of the curiosity module is non-negative, zero exactly if the forward model predicts the next features, and an action out of range raises.", "quantifier": "all networks and transitions", "why_tests_cant": "all values", "anchors": ["tianshou/utils/net/discrete.py:418-435"]}
{"id": "C193", "title": "Modules have the sizes that were asked for", "statement": "The actors and critics made by the factories of the high-level interface have the hidden sizes and the activation that were configured.", "quantifier": "all sizes, activations and environments", "why_tests_cant": "tests build the defaults", "anchors": ["tianshou/highlevel/module/actor.py:120-148", "tianshou/highlevel/module/actor.py:168-180", "tianshou/highlevel/module/actor.py:206-226", "tianshou/highlevel/module/actor.py:243-256", "tianshou/highlevel/module/critic.py:79-106", "tianshou/highlevel/module/critic.py:114-132", "tianshou/highlevel/module/critic.py:140-161"]}
{"id": "C194", "title": "The parts of an agent fit each other", "statement": "The actor maps observations to outputs of the size of the action, and each critic can be evaluated with the arguments that its learner passes.", "quantifier": "all agents, environments, sizes and factories", "why_tests_cant": "the combinations are too many to run", "anchors": ["tianshou/highlevel/module/critic.py:183-212", "tianshou/highlevel/module/critic.py:248-269", "tianshou/highlevel/module/critic.py:276-303", "tianshou/highlevel/agent.py:323-351", "tianshou/highlevel/agent.py:447-478", "tianshou/highlevel/agent.py:561-612"]}
{"id": "C195", "title": "Critics that use the actor share its network", "statement": "A critic set to use the actor has the very network of the actor of the same run; other critics share nothing with it; copies of a builder are independent; this survives saving.", "quantifier": "all sequences of builder calls, copies and runs", "why_tests_cant": "aliasing through several objects", "anchors": ["tianshou/highlevel/module/actor.py:264-289", "tianshou/highlevel/module/critic.py:183-212", "tianshou/highlevel/experiment.py:525-526", "tianshou/highlevel/experiment.py:831-858"]}
{"id": "C196", "title": "Output and distribution agree", "statement": "The distribution function of an actor factory interprets the output of the actor as what it is, so that actions are sampled from the softmax of the last layer.", "quantifier": "all factories and outputs", "why_tests_cant": "a double softmax only makes the policy flatter", "anchors": ["tianshou/highlevel/params/dist_fn.py:22-57", "tianshou/highlevel/module/actor.py:154-156", "tianshou/highlevel/module/actor.py:258-261", "tianshou/policy/modelfree/discrete_sac.py:94-115"]}
{"id": "C197", "title": "Agents are created for the right environments", "statement": "Creating an agent for a type of environment that it does not support, or with an actor that it cannot use, raises; otherwise it succeeds.", "quantifier": "all agents and environments", "why_tests_cant": "all combinations", "anchors": ["tianshou/highlevel/env.py:34-46", "tianshou/highlevel/agent.py:272-296", "tianshou/highlevel/agent.py:323-351", "tianshou/highlevel/agent.py:399-419", "tianshou/highlevel/agent.py:496-530", "tianshou/highlevel/module/actor.py:120-148"]}
{"id": "C198", "title": "Every parameter has one optimizer", "statement": "Each part of actor and critics is given to exactly one optimizer, and the regression of the critic in NPG and TRPO leaves the actor alone.", "quantifier": "all agents and factories", "why_tests_cant": "sharing shows only in the dynamics of training", "anchors": ["tianshou/highlevel/module/module_opt.py:8-29", "tianshou/highlevel/agent.py:323-351", "tianshou/highlevel/agent.py:447-478", "tianshou/policy/modelfree/npg.py:126-185"]}
{"id": "C199", "title": "Initialisation reaches the layers", "statement": "The orthogonal initialisation that the factories ask for applies to all linear layers of the module, and only the mean layer of a Gaussian actor is scaled.", "quantifier": "all sizes and factories", "why_tests_cant": "initial values are random", "anchors": ["tianshou/highlevel/module/core.py:12-20", "tianshou/highlevel/module/actor.py:82-96", "tianshou/highlevel/module/critic.py:276-303"]}
{"id": "C200", "title": "The last setting of a builder counts", "statement": "After any sequence of calls of a builder's methods, each factory is the one set last, or the default.", "quantifier": "all sequences of calls", "why_tests_cant": "all sequences", "anchors": ["tianshou/highlevel/experiment.py:702-747", "tianshou/highlevel/experiment.py:831-858", "tianshou/highlevel/experiment.py:902-931"]}
{"id": "C201", "title": "Intermediate modules announce their size", "statement": "The output size that an intermediate module announces is the size of its output, so the quantile network on top of it fits; the ICM factory accepts exactly discrete actions.", "quantifier": "all factories, sizes and environments", "why_tests_cant": "all sizes", "anchors": ["tianshou/highlevel/module/actor.py:296-299", "tianshou/highlevel/module/special.py:22-31", "tianshou/highlevel/params/policy_wrapper.py:49-77"]}
{"id": "C202", "title": "Built experiments are fixed", "statement": "What is set on a builder after an experiment was built does not change that experiment.", "quantifier": "all sequences of calls", "why_tests_cant": "aliasing between objects", "anchors": ["tianshou/highlevel/experiment.py:516-523", "tianshou/highlevel/experiment.py:525-526", "tianshou/highlevel/experiment.py:592-632", "tianshou/highlevel/experiment.py:645-662"]}
{"id": "C203", "title": "Observations survive shared memory", "statement": "An observation written to shared memory by the environment's process is read by the main process as it was, for any space of arrays, tuples and dictionaries and whatever the memory contained.", "quantifier": "all spaces, observations and previous contents", "why_tests_cant": "the tests have a few spaces; stale contents and broadcasting show only in special cases", "anchors": ["tianshou/env/worker/subproc.py:18-30", "tianshou/env/worker/subproc.py:50-65", "tianshou/env/worker/subproc.py:68-74", "tianshou/env/worker/subproc.py:83-94", "tianshou/env/worker/subproc.py:180-192"]}
{"id": "C204", "title": "Workers of all kinds answer alike", "statement": "A worker in another process, with or without shared memory, gives the same answers as one in the same process for every sequence of calls, and its environment goes through the same states.", "quantifier": "all environments and sequences of calls", "why_tests_cant": "sequences are unbounded", "anchors": ["tianshou/env/worker/subproc.py:77-138", "tianshou/env/worker/subproc.py:214-263", "tianshou/env/worker/dummy.py:17-52"]}
{"id": "C205", "title": "Seeding the action space does not depend on the kind of worker", "statement": "After the same calls of reset, seed and sample, the action spaces of workers in other processes and of those in the same process give the same actions.", "quantifier": "all sequences of calls and seeds", "why_tests_cant": "needs the comparison of two implementations after each sequence", "anchors": ["tianshou/env/worker/subproc.py:214-220", "tianshou/env/worker/subproc.py:240-259", "tianshou/env/worker/dummy.py:23-26", "tianshou/env/worker/dummy.py:37-49", "tianshou/env/venvs.py:212-214"]}
{"id": "C206", "title": "Returned observations stay as they were", "statement": "An observation returned by a vector environment does not change when the environment makes further steps; the collector stores it with the observation that followed it.", "quantifier": "all sequences of steps of all workers", "why_tests_cant": "aliasing with shared memory", "anchors": ["tianshou/env/worker/subproc.py:63-65", "tianshou/env/venvs.py:229-232", "tianshou/env/venvs.py:312-315", "tianshou/data/collector.py:825-867"]}
{"id": "C207", "title": "Observations are normalised with their own statistics", "statement": "VectorEnvNormObs keeps mean and variance of every observation it has returned and normalises each with the statistics so far.", "quantifier": "all sequences of observations", "why_tests_cant": "the tests compare a few steps", "anchors": ["tianshou/env/venv_wrappers.py:81-97", "tianshou/env/venv_wrappers.py:99-107", "tianshou/env/venv_wrappers.py:109-112"]}
{"id": "C208", "title": "Test environments share the statistics of training", "statement": "With shared statistics, test environments (update_obs_rms=False) are normalised with those of training and do not change them, for every interleaving of training and testing.", "quantifier": "all interleavings", "why_tests_cant": "interleavings", "anchors": ["tianshou/env/venv_wrappers.py:75-79", "tianshou/env/venv_wrappers.py:109-120"]}
{"id": "C209", "title": "Rewards of a multi-agent game belong to the agents", "statement": "The reward list of PettingZooEnv has for each agent the reward that the environment reported for it in this step, and its mask the legal actions.", "quantifier": "all environments and sequences of steps and resets", "why_tests_cant": "agents leave in the middle of a game only in special environments", "anchors": ["tianshou/env/pettingzoo_env.py:38-69", "tianshou/env/pettingzoo_env.py:71-95", "tianshou/env/pettingzoo_env.py:97-120"]}
{"id": "C210", "title": "Wrapped vector environments can replace the environment inside", "statement": "Attributes and methods of a vector environment are available on its wrapper, as the comment there says.", "quantifier": "all numbers of wrappers, all attributes", "why_tests_cant": "no test uses a wrapper with an asynchronous collector", "anchors": ["tianshou/env/venv_wrappers.py:11-28", "tianshou/env/venvs.py:120-129", "tianshou/data/collector.py:1152-1160"]}
{"id": "C211", "title": "Space information describes the space", "statement": "The minimal and maximal action of SpaceInfo bound every action of the space and are attained; the dimension is the number of components or of actions.", "quantifier": "all boxes and discrete spaces", "why_tests_cant": "all bounds", "anchors": ["tianshou/utils/space_info.py:22-48", "tianshou/utils/space_info.py:61-83"]}
{"id": "C212", "title": "to_numpy keeps keys, types, shapes and numbers", "statement": "to_numpy replaces every tensor, array and number by an array with the same type, shape and numbers at the same keys, leaves no tensor, and is idempotent; lists of numbers or tensors become one array.", "quantifier": "all nested dicts and Batches", "why_tests_cant": "nesting and types are unbounded", "anchors": ["tianshou/data/utils/converter.py:16-34", "tianshou/data/batch.py:868-879", "tianshou/data/batch.py:190-228"]}
{"id": "C213", "title": "to_torch converts everything it can and reports the rest as TypeError", "statement": "to_torch succeeds exactly for tensors, numeric arrays and numbers and for containers of these, gives tensors on the requested device at the same keys, and raises TypeError for anything else.", "quantifier": "all nested dicts and Batches, types and devices", "why_tests_cant": "nesting and kinds of values", "anchors": ["tianshou/data/utils/converter.py:37-65", "tianshou/data/batch.py:881-914"]}
{"id": "C214", "title": "to_torch gives the requested type", "statement": "Every tensor in the result of to_torch(x, dtype) has the type dtype, so that converting once more changes nothing; to_torch_as(x, y) gives the type and device of y.", "quantifier": "all nested values, types and devices", "why_tests_cant": "tests of Batches pass no dtype or check only tensors", "anchors": ["tianshou/data/utils/converter.py:37-65", "tianshou/data/utils/converter.py:68-75", "tianshou/data/batch.py:890-914"]}
{"id": "C215", "title": "Converting to torch and back is the identity", "statement": "to_numpy(to_torch(x)) has the same contents as to_numpy(x), and tensors are recovered from their numpy form.", "quantifier": "all nested values and devices", "why_tests_cant": "nesting and types", "anchors": ["tianshou/data/utils/converter.py:16-34", "tianshou/data/utils/converter.py:37-65"]}
{"id": "C216", "title": "Converted containers do not share memory with the argument", "statement": "The arrays in the result of to_numpy or to_torch of a dict or Batch are copies; only single arrays and tensors are shared.", "quantifier": "all nested dicts and Batches", "why_tests_cant": "aliasing shows only when the result is written to", "anchors": ["tianshou/data/utils/converter.py:25-28", "tianshou/data/utils/converter.py:56-59", "tianshou/data/batch.py:1367-1384"]}
{"id": "C217", "title": "Summary statistics describe the sequence", "statement": "The minimum and maximum are elements bounding the others, the mean lies between them, the variance is at most (max-mean)(mean-min) and zero only for constant sequences; the order is irrelevant, rescaling and concatenation behave as they should.", "quantifier": "all sequences of rationals", "why_tests_cant": "all sequences", "anchors": ["tianshou/data/stats.py:26-43", "tianshou/data/stats.py:46-57"]}
{"id": "C218", "title": "A launcher returns the results of the experiments that did not fail", "statement": "All experiments are run, the results of the successful ones are returned in order whatever the others did, RuntimeError is raised only if all failed, and parallel and sequential launchers agree.", "quantifier": "all lists of experiments and patterns of failure", "why_tests_cant": "patterns of failures", "anchors": ["tianshou/evaluation/launcher.py:53-58", "tianshou/evaluation/launcher.py:60-74", "tianshou/evaluation/launcher.py:76-87", "tianshou/evaluation/launcher.py:93-103", "tianshou/evaluation/launcher.py:126-137"]}
{"id": "C219", "title": "Flattened log data keep every number under its path", "statement": "prepare_dict_for_logging maps the joined path of every number of a nested dictionary to that number, without collisions and without other entries.", "quantifier": "all nested dictionaries", "why_tests_cant": "nesting and keys", "anchors": ["tianshou/utils/logger/tensorboard.py:47-86"]}
{"id": "C220", "title": "Restored log data contain every tag", "statement": "restore_logged_data finds under the path of every tag the values logged for it, whatever tags there are.", "quantifier": "all event files", "why_tests_cant": "the tags depend on the user's statistics", "anchors": ["tianshou/utils/logger/tensorboard.py:142-194"]}
{"id": "C221", "title": "Writing and restoring is the identity on histories", "statement": "After any sequence of writes, every tag has the values and steps of its writes in order, and restoring gives them as arrays.", "quantifier": "all sequences of writes", "why_tests_cant": "sequences", "anchors": ["tianshou/utils/logger/tensorboard.py:88-100", "tianshou/utils/logger/tensorboard.py:142-194"]}
{"id": "C222", "title": "Unknown fields of logged data are ignored", "statement": "LoggedCollectStats.from_data_dict takes the known fields and ignores the others.", "quantifier": "all logged data", "why_tests_cant": "depends on the statistics that a policy logs", "anchors": ["tianshou/evaluation/rliable_evaluation_hl.py:41-53"]}
{"id": "C223", "title": "Loaded runs are aligned with the environment steps", "statement": "load_from_disk gives a table whose cell is what the run logged at the step of the column, as many columns as all runs have, and only steps below the bound.", "quantifier": "all sets of runs, logs and bounds", "why_tests_cant": "tests load runs of equal length without gaps", "anchors": ["tianshou/evaluation/rliable_evaluation_hl.py:75-198"]}
{"id": "C224", "title": "Missing training or test data are only warned about", "statement": "load_from_disk raises RuntimeError if there is neither test nor training data, and otherwise returns what there is.", "quantifier": "all sets of runs", "why_tests_cant": "tests have both kinds of data", "anchors": ["tianshou/evaluation/rliable_evaluation_hl.py:75-198"]}
{"id": "C225", "title": "The wandb logger honours its options", "statement": "After load, the intervals and write_flush given to WandbLogger are those of the tensorboard logger that writes the data.", "quantifier": "all options", "why_tests_cant": "flushing is not observed by tests", "anchors": ["tianshou/utils/logger/wandb.py:48-96", "tianshou/utils/logger/wandb.py:106-115", "tianshou/utils/logger/wandb.py:117-123", "tianshou/utils/logger/tensorboard.py:88-100"]}
{"id": "C226", "title": "The logger factory passes its options on", "statement": "A logger created by LoggerFactoryDefault saves checkpoints at the interval of the factory, and every accepted type can be created.", "quantifier": "all options", "why_tests_cant": "tests use the defaults", "anchors": ["tianshou/highlevel/logger.py:37-53", "tianshou/highlevel/logger.py:55-82", "tianshou/highlevel/logger.py:99-106", "tianshou/utils/logger/tensorboard.py:105-121"]}
{"id": "C227", "title": "The wandb logger restores the checkpoint saved last", "statement": "restore_data returns epoch, environment step and gradient step of the last saved checkpoint, and the defaults if there is none.", "quantifier": "all sequences of saves and intervals", "why_tests_cant": "needs the wandb service", "anchors": ["tianshou/utils/logger/wandb.py:131-161", "tianshou/utils/logger/wandb.py:163-185"]}
{"id": "C228", "title": "train(mode) switches all online networks and no target network", "statement": "For every policy class, after any history of train, eval, collect and update calls, train(b) puts every online network into mode b and leaves every target network as it is.", "quantifier": "all policy classes, histories and modes", "why_tests_cant": "tests train for a few steps and check rewards; modes matter only for dropout, batch norm or noisy layers", "anchors": ["tianshou/policy/modelfree/dqn.py:111-115", "tianshou/policy/modelfree/ddpg.py:124-129", "tianshou/policy/modelfree/td3.py:116-121", "tianshou/policy/modelfree/sac.py:174-179", "tianshou/policy/imitation/bcq.py:117-123", "tianshou/policy/imitation/discrete_bcq.py:114-118", "tianshou/policy/imitation/cql.py:159-165", "tianshou/policy/modelbased/icm.py:86-91", "tianshou/policy/multiagent/mapolicy.py:282-286"]}
{"id": "C229", "title": "Target networks are in evaluation mode at all times", "statement": "Whatever is called on a policy, its target networks are in evaluation mode, during collect and learn as well as between them.", "quantifier": "all policy classes and histories", "why_tests_cant": "no test looks at the mode of a target network", "anchors": ["tianshou/policy/modelfree/dqn.py:97-99", "tianshou/policy/modelfree/ddpg.py:101-106", "tianshou/policy/imitation/bcq.py:93-105", "tianshou/policy/imitation/discrete_crr.py:90-97", "tianshou/policy/modelfree/rainbow.py:50-59"]}
{"id": "C230", "title": "Networks are in evaluation mode while collecting, in training mode while learning, and afterwards as before", "statement": "Within collect all online networks are in evaluation mode, within learn in training mode, and both calls leave all modes as they were.", "quantifier": "all policies, nested curiosity policies and managers, and histories", "why_tests_cant": "tests do not look at modes", "anchors": ["tianshou/data/collector.py:472-479", "tianshou/policy/base.py:546-547", "tianshou/utils/torch_utils.py:14-22"]}
{"id": "C231", "title": "A policy's state dict holds all that was learned", "statement": "Loading the state dict of one policy into another of the same structure makes the other equal to the first.", "quantifier": "all object structures and values", "why_tests_cant": "tests save and restore single-agent policies and compare rewards", "anchors": ["tianshou/policy/multiagent/mapolicy.py:84-111", "tianshou/policy/modelfree/sac.py:139-153", "tianshou/policy/modelbased/icm.py:57-84"]}
{"id": "C232", "title": "Target networks follow their online networks", "statement": "After soft updates a target network approaches the online network, parameters and buffers alike, as it does with load_state_dict.", "quantifier": "all networks, training steps and tau", "why_tests_cant": "networks in tests have no buffers", "anchors": ["tianshou/policy/base.py:287-290", "tianshou/policy/modelfree/dqn.py:117-119", "tianshou/policy/imitation/discrete_crr.py:103-105"]}
{"id": "C233", "title": "Rainbow draws independent noise for the online and the target network, and noise drives exploration", "statement": "In every update online and target network use fresh noise of their own, and while data for training is collected the noise affects the actions.", "quantifier": "all networks, frequencies, numbers of updates and histories", "why_tests_cant": "tests use few steps and cannot see which draws a network uses", "anchors": ["tianshou/policy/modelfree/rainbow.py:13-27", "tianshou/policy/modelfree/rainbow.py:50-59", "tianshou/policy/modelfree/c51.py:119-137", "tianshou/utils/net/discrete.py:365-378"]}
{"id": "C234", "title": "IQN evaluates its networks at the sampled fractions", "statement": "A forward pass uses target_sample_size, online_sample_size or sample_size fractions depending on network and mode; the entry of action k and sample j is the network's value of k at fraction j of that observation; the action is the best available one on average, and the target distribution consists of the evaluating network's values of that action.", "quantifier": "all networks, sizes, draws, masks and batches", "why_tests_cant": "all sizes and networks; order of entries after view and transpose", "anchors": ["tianshou/policy/modelfree/iqn.py:102-131", "tianshou/utils/net/discrete.py:199-215", "tianshou/policy/modelfree/qrdqn.py:90-102"]}
{"id": "C235", "title": "FQF evaluates both networks at the fractions proposed by the online network", "statement": "The action of the target is the best one in expectation under the proposed probabilities, the target values are those of the target network at the same fractions, and the gradient of every inner fraction is 2 z(tau) minus the two neighbouring values if the quantile function increases.", "quantifier": "all networks, numbers of fractions and actions, masks and batches", "why_tests_cant": "all networks and sizes", "anchors": ["tianshou/policy/modelfree/fqf.py:97-110", "tianshou/policy/modelfree/fqf.py:113-153", "tianshou/policy/modelfree/fqf.py:155-219", "tianshou/utils/net/discrete.py:292-318"]}
{"id": "C236", "title": "Losses of discrete BCQ", "statement": "All parts of the loss are non-negative; the Q loss is zero exactly if all values of taken actions are on target, the penalty exactly if all logits are zero, and shifting the logits changes only the penalty; Q-network and imitator are evaluated for the same observation and hidden state.", "quantifier": "all networks, states, batches and penalties", "why_tests_cant": "all values; recurrent imitators", "anchors": ["tianshou/policy/imitation/discrete_bcq.py:128-148", "tianshou/policy/imitation/discrete_bcq.py:150-179"]}
{"id": "C237", "title": "Branching DQN respects action masks", "statement": "The greedy action of every branch is the best one allowed by the mask of the observation.", "quantifier": "all values and masks", "why_tests_cant": "no test has masks for branches", "anchors": ["tianshou/policy/modelfree/bdq.py:149-163"]}
{"id": "C238", "title": "The recurrent critic accepts what the recurrent actor accepts", "statement": "For sequences the value of a row depends on its frames and action only; single frames are accepted as by the actor.", "quantifier": "all networks, sequences and actions", "why_tests_cant": "all sequences", "anchors": ["tianshou/utils/net/continuous.py:379-407", "tianshou/utils/net/continuous.py:303-349"]}
{"id": "C239", "title": "A wrapper of training statistics behaves like one object", "statement": "Assigning to an attribute that exists changes this attribute and no other, the value assigned is read back, base fields have the same value on all levels, and a new attribute is an error.", "quantifier": "all nestings of wrappers, attributes and sequences of assignments", "why_tests_cant": "tests use one wrapper and two assignments", "anchors": ["tianshou/policy/base.py:73-130", "tianshou/policy/modelbased/icm.py:21-33"]}
{"id": "C240", "title": "Training statistics report all losses", "statement": "The losses reported are exactly the public attributes that are set, other than train_time and smoothed_loss, with sequences counting as their mean; wrappers report the losses of the wrapped statistics and their own.", "quantifier": "all statistics, wrapped any number of times", "why_tests_cant": "tests look at single classes", "anchors": ["tianshou/policy/base.py:49-70", "tianshou/policy/base.py:90-96", "tianshou/policy/modelfree/ppo.py:21-45", "tianshou/policy/imitation/gail.py:187-198", "tianshou/policy/modelbased/icm.py:21-33", "tianshou/policy/multiagent/mapolicy.py:40-48"]}
{"id": "C241", "title": "Statistics of several agents keep the agents apart", "statement": "Every loss of an agent is reported under agent/loss and nothing else is reported; the training time is aggregated from those of the agents as requested.", "quantifier": "all agents, names, losses and aggregators", "why_tests_cant": "tests have fixed names and one aggregator", "anchors": ["tianshou/policy/multiagent/mapolicy.py:19-48", "tianshou/policy/multiagent/mapolicy.py:268-277", "tianshou/policy/base.py:541-553"]}
{"id": "C242", "title": "Smoothed losses are means of the last 100 values and raw losses are logged", "statement": "After every update the smoothed value of a loss is the mean of the last 100 values reported under its name, and what is logged contains the losses of the update.", "quantifier": "all sequences of updates with changing sets of losses", "why_tests_cant": "runs in tests have fewer updates and one kind of statistics", "anchors": ["tianshou/trainer/base.py:578-604", "tianshou/utils/statistics.py:40-56"]}
{"id": "C243", "title": "The timing information of a training run adds up", "statement": "Total time, steps and episodes are those since the last reset; train, test, collect and update times are the times spent in these activities since then.", "quantifier": "all sequences of collecting, testing, updating and resetting with any durations", "why_tests_cant": "times are not compared in tests", "anchors": ["tianshou/trainer/utils.py:41-87", "tianshou/trainer/base.py:256-277", "tianshou/data/collector.py:399-401", "tianshou/data/collector.py:1344-1347"]}
{"id": "C244", "title": "Rounding a dict for printing", "statement": "Keys and values that are not floats are kept, a float is replaced by the nearest multiple of 10^-precision (the even one of two), order is kept and rounding twice changes nothing.", "quantifier": "all dicts and precisions", "why_tests_cant": "all values", "anchors": ["tianshou/utils/logging.py:4-17"]}
{"id": "C245", "title": "Off-policy targets are those of the environments' own trajectories", "statement": "After any calls of collect() that ask for steps (or one that asks for episodes), every row of a sampled batch is a step that one environment made, among the newest that fit in its sub-buffer, and its n-step target is the textbook n-step target along that environment's trajectory: it does not pass an episode end, adds nothing after a terminal step and bootstraps from the observation the environment returned otherwise.", "quantifier": "all environments, policies, numbers of environments, capacities, step counts, critics, random draws, gamma and n", "why_tests_cant": "composition of collector, vector buffer, sampling and return computation; interleavings and wrap-around are unbounded", "anchors": ["tianshou/policy/base.py:506-553", "tianshou/policy/modelfree/ddpg.py:136-156", "tianshou/data/collector.py:743-1061", "tianshou/data/buffer/manager.py:127-233", "tianshou/policy/base.py:628-721"]}
{"id": "C246", "title": "Not saving next observations does not change the targets", "statement": "A buffer with ignore_obs_next=True gives the same n-step and TD(lambda) targets as one that saves obs_next.", "quantifier": "all runs, critics, gamma, lambda and n", "why_tests_cant": "differs only at truncated and newest steps", "anchors": ["tianshou/data/buffer/base.py:584-628", "tianshou/policy/base.py:628-721", "tianshou/policy/modelfree/a2c.py:118-156"]}
{"id": "C247", "title": "On-policy returns and advantages are those of the environments' own trajectories", "statement": "After collecting into an empty buffer the batch of an on-policy update is, environment after environment and oldest step first, what the environments did; the returns are the TD(lambda) targets along each environment's trajectory and the advantages their difference to the critic's value.", "quantifier": "all environments, policies, numbers of environments, capacities, step counts, critics, gamma and lambda", "why_tests_cant": "composition of collector, vector buffer and return computation", "anchors": ["tianshou/policy/modelfree/a2c.py:108-116", "tianshou/policy/modelfree/a2c.py:118-156", "tianshou/policy/base.py:575-626", "tianshou/data/collector.py:743-1061"]}
{"id": "C248", "title": "Policy-gradient returns are discounted reward sums of the environments' own trajectories", "statement": "The returns of PGPolicy for a collected buffer are the discounted sums of the rewards up to the end of each environment's episode; steps whose episode was cut off or truncated get the discounted mean of the running statistics in addition.", "quantifier": "all environments, policies, capacities, step counts, means and gamma", "why_tests_cant": "composition of collector, vector buffer and return computation", "anchors": ["tianshou/policy/modelfree/pg.py:127-173", "tianshou/policy/base.py:575-626", "tianshou/data/collector.py:743-1061"]}
{"id": "C249", "title": "The batch of infos has one row for every environment", "statement": "_HACKY_create_info_batch stacks the infos of all environments: row i holds what info i contains and padding where it has nothing, also if infos are empty; infos that are all empty give an empty batch, and an array that has no object dtype is rejected.", "quantifier": "all lists of infos whose entries agree in kind and shape, any number of them empty", "why_tests_cant": "which infos are empty differs from run to run", "anchors": ["tianshou/data/collector.py:267-293", "tianshou/data/batch.py:1050-1125", "tianshou/data/batch.py:777-801"]}
{"id": "C250", "title": "Standard deviations of categorical actions", "statement": "The square of what get_stddev_from_dist returns for a Categorical is the variance of the action number: E[a^2] - E[a]^2, not negative, zero exactly for a deterministic choice, at most ((K-1)/2)^2; a batch of B distributions gives a column of B values.", "quantifier": "all probability vectors and batches", "why_tests_cant": "all real vectors", "anchors": ["tianshou/data/collector.py:78-99"]}
{"id": "C251", "title": "The Monte Carlo hook adds the returns of the episode", "statement": "EpisodeRolloutHookMCReturn accepts exactly the discount factors in [0, 1] and returns for every non-empty episode the discounted return to go of every step and, at every step, the return of the whole episode.", "quantifier": "all discount factors and episodes", "why_tests_cant": "all lengths and rewards", "anchors": ["tianshou/data/collector.py:1457-1472", "tianshou/policy/base.py:809-823"]}
{"id": "C252", "title": "The check of the buffer at construction of a collector is exact", "statement": "A collector accepts a buffer if and only if the buffer can take whatever the environments hand over, in any number of steps.", "quantifier": "all kinds and sizes of buffers, numbers of environments and sequences of steps", "why_tests_cant": "tests have a few combinations", "anchors": ["tianshou/data/collector.py:310-339", "tianshou/data/collector.py:341-361", "tianshou/data/buffer/base.py:405-486", "tianshou/data/buffer/manager.py:131-193", "tianshou/data/buffer/cached.py:46-85"]}
{"id": "C253", "title": "The collectors of an experiment fit their environments", "statement": "create_train_test_collector creates collectors for every configuration: the buffer for training has room for buffer_size transitions (less than one more per environment) and the configured settings, only training adds exploration noise, and both buffers take whatever their environments hand over; a buffer size of zero is rejected.", "quantifier": "all buffer sizes, numbers of environments and settings", "why_tests_cant": "experiments in tests use few configurations", "anchors": ["tianshou/highlevel/agent.py:94-134", "tianshou/data/buffer/vecbuf.py:33-37", "tianshou/data/collector.py:310-361"]}
{"id": "C254", "title": "The stored action is one that the policy maps to the executed action", "statement": "For actions of the policy and for random actions, map_action applied to what is stored gives what is executed; random actions are samples from the action space of their environment and do not depend on policy, observations or hidden state; the hidden state of the policy is returned and stored.", "quantifier": "all policies, action spaces, bound methods, noise, samples, sets of ready environments", "why_tests_cant": "values and settings are unbounded", "anchors": ["tianshou/data/collector.py:677-740", "tianshou/policy/base.py:367-400", "tianshou/policy/base.py:402-428"]}
{"id": "C255", "title": "Actions are the mode exactly in deterministic evaluation", "statement": "The policies with a distribution return the actor's output and hidden state, its distribution and as action the mode of the distribution exactly if deterministic_eval is set and the policy is not within a training step, a sample otherwise; update does not depend on deterministic_eval.", "quantifier": "all actors, distributions, draws, flags, learners", "why_tests_cant": "networks and draws are arbitrary", "anchors": ["tianshou/policy/modelfree/pg.py:175-207", "tianshou/policy/modelfree/discrete_sac.py:102-116", "tianshou/policy/base.py:506-553"]}
{"id": "C256", "title": "Squashed actions and their log probabilities belong together", "statement": "The action of SAC and REDQ is the tanh of one draw, with entries in [-1, 1]; the returned log probability is the Gaussian one of the same draw minus the sum of log(1 - a^2 + eps) over the entries of the returned action, always finite, and SAC and REDQ compute the same.", "quantifier": "all actors, draws, batch sizes, action dimensions, eps > 0", "why_tests_cant": "values are unbounded and saturation is rare", "anchors": ["tianshou/policy/modelfree/sac.py:24-38", "tianshou/policy/modelfree/sac.py:186-209", "tianshou/policy/modelfree/redq.py:148-175"]}
{"id": "C257", "title": "compute_action returns the action to execute", "statement": "For every observation compute_action returns an action of the action space's shape (an int for discrete spaces) that is the action of forward, bounded and scaled into the action space, as the collector would execute it.", "quantifier": "all policies, observations and action shapes, bound methods, with and without scaling", "why_tests_cant": "shapes are unbounded", "anchors": ["tianshou/policy/base.py:292-315", "tianshou/policy/base.py:367-400"]}
{"id": "C258", "title": "The random policy acts at random in the action space", "statement": "The actions of RandomActionPolicy that are executed are those drawn from the action space, one for every observation.", "quantifier": "all Box and Discrete spaces, numbers of observations, draws", "why_tests_cant": "spaces are unbounded", "anchors": ["tianshou/policy/base.py:735-753", "tianshou/utils/net/common.py:668-688", "tianshou/policy/base.py:367-400"]}
{"id": "C259", "title": "Forward passes of DQN", "statement": "Every call of forward evaluates the network named by model at the unwrapped observation and returns its raw output, hidden state and the greedy actions of the masked values; no call changes the networks; max_action_num is set by the first call and never changes, and exploration noise can be added after any call.", "quantifier": "all networks, observations, masks, sequences of calls", "why_tests_cant": "sequences of calls are unbounded", "anchors": ["tianshou/policy/modelfree/dqn.py:166-210", "tianshou/policy/modelfree/dqn.py:238-254"]}
{"id": "C260", "title": "PSRL acts by the posterior of all it has learned", "statement": "After learning, all calls of forward until the next learning use one policy, solved once from a sample of the posterior of exactly the data learned so far.", "quantifier": "all histories of calls and updates, posteriors, solvers", "why_tests_cant": "histories are unbounded", "anchors": ["tianshou/policy/modelbased/psrl.py:102-110", "tianshou/policy/modelbased/psrl.py:142-150", "tianshou/policy/modelbased/psrl.py:209-228"]}
{"id": "C261", "title": "Slicing a distribution selects elements of the batch", "statement": "A slice of a distribution over a batch is of the same class, has as many elements as were selected and each element has the parameters of the selected one; indices out of range and distributions without a batch are refused.", "quantifier": "all Categorical, Normal and Independent distributions (nested), shapes and indices", "why_tests_cant": "shapes and indices are unbounded", "anchors": ["tianshou/data/batch.py:266-278", "tianshou/data/batch.py:281-285", "tianshou/data/batch.py:722-746"]}
{"id": "C262", "title": "to_at_least_2d gives every value a batch axis", "statement": "dist_to_atleast_2d makes a distribution without batch the only element of a batch of one and leaves others alone, and to_at_least_2d does so for every distribution and gives every array at least two axes, without other changes.", "quantifier": "all distributions, nested batches, arrays", "why_tests_cant": "tests use no event axes and no nesting", "anchors": ["tianshou/data/batch.py:288-302", "tianshou/data/batch.py:1354-1364", "tianshou/data/batch.py:1367-1384"]}
{"id": "C263", "title": "Rows made two-dimensional concatenate to the batch", "statement": "Applying to_at_least_2d to the rows of a batch makes them concatenable along the first axis, which gives back the batch.", "quantifier": "all arrays", "why_tests_cant": "numbers of axes and rows are unbounded", "anchors": ["tianshou/data/batch.py:1354-1364"]}
{"id": "C264", "title": "Equality of batches", "statement": "Two batches are equal if and only if they have the same keys at every level and the same arrays, of the same shapes, whatever the order of the keys and whether values are arrays or tensors; it is an equivalence relation and only the empty batch equals the empty batch.", "quantifier": "all nested batches and comparisons of arrays", "why_tests_cant": "structures are unbounded", "anchors": ["tianshou/data/batch.py:748-767", "tianshou/data/batch.py:661-667", "tianshou/data/batch.py:868-879", "tianshou/data/batch.py:1367-1384"]}
{"id": "C265", "title": "Relabelling in a HER buffer manager is undone and stays in its sub-buffer", "statement": "After any sequence of calls a HERReplayBufferManager has returned what a plain manager returns, and what it saves, or works on in the next add or reset, are the original transitions; a sampling relabels only episodes with sampled transitions, each with a goal achieved later in the same episode of the same sub-buffer, and restores everything that was relabelled before.", "quantifier": "all histories, capacities, draws and reward functions", "why_tests_cant": "histories and random draws are unbounded", "anchors": ["tianshou/data/buffer/manager.py:265-303", "tianshou/data/buffer/manager.py:195-229", "tianshou/data/buffer/her.py:87-188", "tianshou/data/buffer/vecbuf.py:85-89"]}
{"id": "C266", "title": "Every training collection explores as scheduled", "statement": "With an epoch train callback that sets epsilon, constant or with linear decay, the k-th training collection of a run is made with the epsilon of the schedule at the number of environment steps collected before it, whatever the tests and their callback do to the policy.", "quantifier": "all trainers with a training collector, schedules, collections, tests and test callbacks", "why_tests_cant": "runs are unbounded and tests change the same policy in between", "anchors": ["tianshou/highlevel/trainer.py:83-118", "tianshou/trainer/base.py:489-501", "tianshou/trainer/base.py:458-487", "tianshou/policy/modelfree/dqn.py:107-109"]}
{"id": "C267", "title": "Tests are not affected by the exploration of training", "statement": "Every test of a run is made with the epsilon of the test callback or, without one, with that of the policy.", "quantifier": "all trainers with a training collector, train callbacks, collections and tests", "why_tests_cant": "runs are unbounded", "anchors": ["tianshou/highlevel/trainer.py:125-130", "tianshou/trainer/utils.py:17-30", "tianshou/trainer/base.py:417-430"]}
{"id": "C268", "title": "Training is not affected by the test callback", "statement": "Without a train callback every training collection of a run is made with the epsilon of the policy.", "quantifier": "all trainers with a training collector, test callbacks, collections and tests", "why_tests_cant": "the effect shows only in the exploration", "anchors": ["tianshou/highlevel/trainer.py:125-130", "tianshou/trainer/utils.py:17-30", "tianshou/trainer/base.py:263-309", "tianshou/highlevel/agent.py:217-228"]}
{"id": "C269", "title": "The train callback is called once at the beginning of each epoch", "statement": "In every epoch the epoch train callback is called once, before the data collection phase, with the number of the epoch and the environment steps so far.", "quantifier": "all trainers with a training collector, epochs and collections", "why_tests_cant": "tests use one collection per epoch or do not count", "anchors": ["tianshou/highlevel/trainer.py:24-37", "tianshou/trainer/base.py:330-376", "tianshou/trainer/base.py:489-501"]}
{"id": "C270", "title": "The reward threshold of the stop callback", "statement": "EpochStopCallbackRewardThreshold stops for exactly the mean rewards that reach the given threshold or else that of the environment, and raises for every mean if there is neither.", "quantifier": "all thresholds, environments and rewards", "why_tests_cant": "values are unbounded", "anchors": ["tianshou/highlevel/trainer.py:133-153"]}
{"id": "C271", "title": "Training stops when a test reaches the threshold", "statement": "With a reward threshold a run ends before its last epoch only if the policy reached the threshold in the test of the epoch it stopped at.", "quantifier": "all trainers with a stop callback, collections and tests", "why_tests_cant": "runs are unbounded", "anchors": ["tianshou/trainer/base.py:417-456", "tianshou/trainer/base.py:532-574", "tianshou/trainer/base.py:263-309", "tianshou/highlevel/trainer.py:133-153"]}
{"id": "C272", "title": "Nested lists of numbers become the array of those numbers", "statement": "A list or tuple of numbers, nested to any depth with the same number of elements everywhere, is stored in a Batch as the array of those numbers in the same places, of ints if and only if there are numbers and all are ints.", "quantifier": "all nested lists of numbers", "why_tests_cant": "shapes and depths are unbounded", "anchors": ["tianshou/data/batch.py:122-145", "tianshou/data/batch.py:190-228"]}
{"id": "C273", "title": "Lists of objects keep their elements", "statement": "A regularly nested list of numbers, strings, None and other objects, not all numbers, is stored in a Batch as the object array of its elements as they are.", "quantifier": "all regularly nested lists", "why_tests_cant": "mixtures of types are unbounded, tests use few", "anchors": ["tianshou/data/batch.py:122-145", "tianshou/data/batch.py:190-228"]}
{"id": "C274", "title": "Ragged lists are stored as object arrays", "statement": "A list of lists or arrays that do not have the same dimensions is stored in a Batch as the object array of those lists and arrays.", "quantifier": "all lists of lists and of arrays of numbers", "why_tests_cant": "shapes are unbounded", "anchors": ["tianshou/data/batch.py:122-145", "tianshou/data/batch.py:190-228"]}
{"id": "C275", "title": "A Batch of a list of dicts gives the dicts back", "statement": "A Batch made of a list, tuple or object array of dicts or batches with the same layout has one row for each, and row i holds the values of dict i.", "quantifier": "all lists of dicts", "why_tests_cant": "structures and lengths are unbounded", "anchors": ["tianshou/data/batch.py:80-97", "tianshou/data/batch.py:190-228", "tianshou/data/batch.py:636-658", "tianshou/data/batch.py:1050-1062"]}
{"id": "C276", "title": "What is given to the Batch constructor is stored or refused", "statement": "Batch(dict, key=value, ...) stores every value, parsed, under its key, keywords winning over the dict, and raises for keys that are not strings and for arguments that it cannot store.", "quantifier": "all arguments", "why_tests_cant": "arguments are arbitrary objects", "anchors": ["tianshou/data/batch.py:636-658", "tianshou/data/batch.py:186-187", "tianshou/data/batch.py:80-97"]}
{"id": "C277", "title": "Parsing a stored value changes nothing", "statement": "Assigning to a key of a Batch the value it has changes nothing, and Batch(batch) has the values of the batch.", "quantifier": "all batches", "why_tests_cant": "special values are easily missed", "anchors": ["tianshou/data/batch.py:80-97", "tianshou/data/batch.py:190-228", "tianshou/data/batch.py:636-658", "tianshou/data/batch.py:681-683", "tianshou/data/batch.py:777-782"]}
{"id": "C278", "title": "The infos of envpool environments as dicts", "statement": "A dict of arrays with one row per environment is turned into an array with one dict per environment, and a Batch made of those dicts has the values given.", "quantifier": "all nested dicts of arrays", "why_tests_cant": "structures are unbounded", "anchors": ["tianshou/data/collector.py:263-264", "tianshou/data/batch.py:678-679", "tianshou/data/batch.py:661-667", "tianshou/data/batch.py:769-775"]}
{"id": "C279", "title": "Attributes of environments have the value last written", "statement": "After any calls of set_env_attr, with any ids and whether or not they raised, get_env_attr gives for each environment the value last written to it or else the one it had, in the order of the ids.", "quantifier": "all stacks of wrappers, attributes and sequences of calls", "why_tests_cant": "sequences are unbounded, and tests use environments without wrappers", "anchors": ["tianshou/env/venvs.py:131-176", "tianshou/env/worker/dummy.py:20-22", "tianshou/env/worker/subproc.py:173-178"]}
{"id": "C280", "title": "set_env_attr writes to all of the environments or none", "statement": "A call of set_env_attr that raises has changed no environment.", "quantifier": "all vector environments and ids", "why_tests_cant": "tests do not look at the state after an exception", "anchors": ["tianshou/env/venvs.py:155-191"]}
{"id": "C281", "title": "Reading an attribute that an environment does not have raises", "statement": "get_env_attr raises AttributeError if an environment it asks does not have the attribute.", "quantifier": "all vector environments and attributes", "why_tests_cant": "tests read attributes that exist", "anchors": ["tianshou/env/venvs.py:131-153", "tianshou/env/worker/dummy.py:18-19", "tianshou/env/worker/subproc.py:130-133", "tianshou/env/worker/subproc.py:173-175"]}
{"id": "C282", "title": "The spaces of a vector environment can always be read", "statement": "While a vector environment is open its action_space, observation_space and other gym attributes are the lists of those of the environments.", "quantifier": "all vector environments and states", "why_tests_cant": "tests read the spaces between steps", "anchors": ["tianshou/env/venvs.py:120-129", "tianshou/env/venvs.py:131-153", "tianshou/env/venvs.py:186-191"]}
{"id": "C283", "title": "create_envs creates the environments asked for", "statement": "EnvFactoryRegistered.create_envs gives the numbers of training and test environments asked for, in vector environments of the type of the factory with consecutive seeds from the seed of their purpose, a watch environment if and only if asked for, and the class that suits the action space; it succeeds for all positive numbers and usable spaces.", "quantifier": "all factories, tasks, spaces and numbers", "why_tests_cant": "combinations are unbounded", "anchors": ["tianshou/highlevel/env.py:81-103", "tianshou/highlevel/env.py:377-414", "tianshou/highlevel/env.py:479-501"]}
{"id": "C284", "title": "Environments are made with the arguments given", "statement": "Every environment of a vector environment is made with the keyword arguments of the factory and the render mode for its purpose; with envpool the same but for the render mode.", "quantifier": "all factories, modes and keyword arguments", "why_tests_cant": "arguments are unbounded", "anchors": ["tianshou/highlevel/env.py:324-361", "tianshou/highlevel/env.py:469-501"]}
{"id": "C285", "title": "Watch environments are single and in the same process", "statement": "In WATCH mode a vector environment is always of type DUMMY with a single environment.", "quantifier": "all factories and numbers of environments", "why_tests_cant": "tests do not watch", "anchors": ["tianshou/highlevel/env.py:377-389", "tianshou/highlevel/env.py:488-501"]}
{"id": "C286", "title": "Environment factories saved with one seed can be loaded", "statement": "Loading the state of an EnvFactoryRegistered with the old attribute seed gives one with that seed for training and test and everything else as it was; other states are kept, and states with both are refused.", "quantifier": "all states", "why_tests_cant": "states are unbounded", "anchors": ["tianshou/highlevel/env.py:456-467"]}
{"id": "C287", "title": "from_factory_and_type checks the type of the environments", "statement": "Environments.from_factory_and_type raises if the environments are not of the given type.", "quantifier": "all factories and types", "why_tests_cant": "tests use matching types", "anchors": ["tianshou/highlevel/env.py:122-158", "tianshou/highlevel/env.py:245-259", "tianshou/highlevel/env.py:274-283"]}
{"id": "C288", "title": "max_action bounds all actions", "statement": "The max_action of continuous environments is a number that no upper bound of the action space exceeds.", "quantifier": "all action spaces", "why_tests_cant": "tests use environments with equal bounds", "anchors": ["tianshou/highlevel/env.py:201-209", "tianshou/highlevel/env.py:245-259"]}
{"id": "C289", "title": "Policies accept exactly the documented parameters", "statement": "The constructor of each policy class succeeds exactly when the parameters are in the domains asserted by the class and its bases (discount, rate, estimation step, atoms, quantiles, sample sizes, lambda, clipping, ensemble, temperature) and the options of actions suit the action space.", "quantifier": "all 27 classes and all parameters", "why_tests_cant": "combinations are unbounded", "anchors": ["tianshou/policy/base.py:191-246", "tianshou/policy/modelfree/dqn.py:60-105", "tianshou/policy/modelfree/ddpg.py:60-118", "tianshou/policy/modelfree/sac.py:95-168", "tianshou/policy/modelfree/redq.py:62-137"]}
{"id": "C290", "title": "Discount factors and target rates are in [0, 1]", "statement": "A policy that was constructed has gamma and, if it has target networks, tau in [0, 1], as given.", "quantifier": "all classes and parameters", "why_tests_cant": "tests use usual values", "anchors": ["tianshou/policy/imitation/bcq.py:61-115", "tianshou/policy/modelfree/dqn.py:60-105", "tianshou/policy/modelfree/pg.py:85-125", "tianshou/policy/modelfree/ddpg.py:60-118"]}
{"id": "C291", "title": "The estimation step of a policy is positive", "statement": "A policy that estimates returns over n steps was constructed with a positive n.", "quantifier": "all classes and parameters", "why_tests_cant": "tests use positive steps", "anchors": ["tianshou/policy/modelfree/dqn.py:60-105", "tianshou/policy/modelfree/ddpg.py:60-118", "tianshou/policy/base.py:628-721"]}
{"id": "C292", "title": "Policies refuse action spaces they cannot handle", "statement": "A policy class for discrete actions refuses a Box, and one for continuous actions a Discrete action space.", "quantifier": "all classes and action spaces", "why_tests_cant": "tests use matching spaces", "anchors": ["tianshou/policy/modelfree/sac.py:136-168", "tianshou/policy/modelfree/ddpg.py:60-118", "tianshou/policy/modelfree/dqn.py:60-105", "tianshou/policy/modelfree/discrete_sac.py:54-100", "tianshou/policy/imitation/bcq.py:61-115"]}
{"id": "C293", "title": "action_bound_method takes the documented values", "statement": "Of the policies with the option action_bound_method each takes \"clip\", \"tanh\" (where documented), None and the documented empty string for no bounding, and keeps it as given.", "quantifier": "all classes and values", "why_tests_cant": "tests use the defaults", "anchors": ["tianshou/policy/base.py:191-246", "tianshou/policy/modelfree/sac.py:60-94", "tianshou/policy/modelfree/ddpg.py:60-118"]}
{"id": "C294", "title": "Temperatures are numbers or learnable", "statement": "SAC, CQL, DiscreteSAC and REDQ take any number as alpha, or a tuple with a learnable log_alpha of shape [1].", "quantifier": "all parameters", "why_tests_cant": "tests use floats", "anchors": ["tianshou/policy/modelfree/sac.py:136-158", "tianshou/policy/modelfree/redq.py:117-137"]}
{"id": "C295", "title": "The second critic is trained by its optimizer", "statement": "In every policy with two critics the optimizer of the second critic changes the parameters of that critic.", "quantifier": "all classes and combinations of the optional arguments", "why_tests_cant": "tests give both arguments or none", "anchors": ["tianshou/policy/modelfree/td3.py:63-114", "tianshou/policy/modelfree/sac.py:95-161", "tianshou/policy/imitation/bcq.py:61-115", "tianshou/policy/imitation/cql.py:82-157"]}
{"id": "C296", "title": "The search direction of NPG and TRPO is a direction of descent", "statement": "For every symmetric positive semidefinite second derivative of the divergence and every non-zero gradient the conjugate gradient iterations with damping give, after any positive number of them, a direction whose product with the gradient is negative, at least as much as that of the best step along the gradient.", "quantifier": "all dimensions, gradients, second derivatives and numbers of iterations", "why_tests_cant": "dimensions and matrices are unbounded", "anchors": ["tianshou/policy/modelfree/npg.py:126-191", "tianshou/policy/modelfree/npg.py:193-215"]}
{"id": "C297", "title": "More conjugate gradient iterations never hurt", "statement": "The quadratic model of the loss at the result of more iterations is at most that of fewer, and negative after the first.", "quantifier": "all dimensions, gradients and numbers of iterations", "why_tests_cant": "dimensions and matrices are unbounded", "anchors": ["tianshou/policy/modelfree/npg.py:186-215"]}
{"id": "C298", "title": "The initial step of TRPO is the largest in the trust region", "statement": "The number under the root of the step size is defined and positive; steps along the search direction have a damped second order divergence of at most max_kl exactly up to the root, and then an undamped one strictly below max_kl.", "quantifier": "all dimensions, gradients, second derivatives, bounds and steps", "why_tests_cant": "numbers are unbounded", "anchors": ["tianshou/policy/modelfree/trpo.py:119-142", "tianshou/policy/modelfree/npg.py:186-191"]}
{"id": "C299", "title": "NPG steps once per minibatch and the critic as often as asked", "statement": "learn of NPG makes one natural gradient step of the actor per minibatch and repetition, each at the parameters it then has, and optim_critic_iters (at least 1) steps of the critic, reports one loss of each kind and one divergence for each, and succeeds as long as no gradient vanishes; with optim_critic_iters 0 it raises.", "quantifier": "all losses, networks, batches and repetitions", "why_tests_cant": "runs are unbounded", "anchors": ["tianshou/policy/modelfree/npg.py:126-184"]}
{"id": "C300", "title": "Reported step sizes of TRPO certify the update", "statement": "For each minibatch for which learn of TRPO reports a step size other than 0, the actor was moved by that size along the search direction to parameters with smaller surrogate loss and a divergence below max_kl, which is the one reported.", "quantifier": "all losses, divergences, networks and batches", "why_tests_cant": "runs are unbounded", "anchors": ["tianshou/policy/modelfree/trpo.py:106-199"]}
{"id": "C301", "title": "Lambda-returns are averages of n-step returns", "statement": "The targets of compute_episodic_return are the averages, with the weights (1-lambda) lambda^(n-1), of the n-step returns that compute_nstep_return computes from the same values; with lambda 0 they are the 1-step returns, with lambda 1 the returns over whole episodes, and episode_mc_return_to_go is the case of values 0.", "quantifier": "all buffers reachable by adding steps, batches of whole episodes, values, gamma and lambda", "why_tests_cant": "two code paths are compared on unboundedly many buffers", "anchors": ["tianshou/policy/base.py:575-626", "tianshou/policy/base.py:628-721", "tianshou/policy/base.py:760-888"]}
{"id": "C302", "title": "Returns contract errors of the values", "statement": "If two value functions are at most e apart, n-step returns are at most gamma^m e apart, m the number of steps used, equal if the last of them is terminal, and the targets of compute_episodic_return at most gamma e.", "quantifier": "all buffers, values, gamma and lambda in [0, 1], numbers of steps", "why_tests_cant": "value functions are unbounded", "anchors": ["tianshou/policy/base.py:575-626", "tianshou/policy/base.py:628-721"]}
{"id": "C303", "title": "Consistent values are fixed points", "statement": "If the values satisfy the Bellman equation along the stored steps, the targets of compute_episodic_return and all n-step returns are the values and all advantages are 0.", "quantifier": "all buffers, consistent values, gamma, lambda and numbers of steps", "why_tests_cant": "value functions are unbounded", "anchors": ["tianshou/policy/base.py:575-626", "tianshou/policy/base.py:628-721"]}
{"id": "C304", "title": "Returns stay in the range of the values", "statement": "With rewards between (1-gamma) lo and (1-gamma) hi and values between lo <= 0 and hi >= 0 all targets and n-step returns are between lo and hi.", "quantifier": "all buffers, values, gamma and lambda in [0, 1]", "why_tests_cant": "values are unbounded", "anchors": ["tianshou/policy/base.py:575-626", "tianshou/policy/base.py:628-721"]}
{"id": "C305", "title": "Returns are linear in rewards and values", "statement": "The advantages of _gae_return and the results of _nstep_return for a linear combination of two sets of rewards and values are that combination of the two results.", "quantifier": "all arrays, coefficients, end flags and indices", "why_tests_cant": "numbers are unbounded", "anchors": ["tianshou/policy/base.py:760-806", "tianshou/policy/base.py:826-888"]}
{"id": "C306", "title": "Returns are monotone", "statement": "Raising rewards or values of next states never lowers an n-step return or an advantage; raising the values of the states never raises an advantage.", "quantifier": "all arrays, gamma and lambda >= 0", "why_tests_cant": "numbers are unbounded", "anchors": ["tianshou/policy/base.py:760-806", "tianshou/policy/base.py:826-888"]}
{"id": "C307", "title": "A segment tree is determined by its entries", "statement": "Histories of assignments that leave the same entries leave the same tree; assignments to disjoint indices commute, and two assignments are one with the joined arrays.", "quantifier": "all sizes and sequences of assignments", "why_tests_cant": "histories are unbounded", "anchors": ["tianshou/data/utils/segtree.py:35-51", "tianshou/data/utils/segtree.py:95-101"]}
{"id": "C308", "title": "Sums of slices of a segment tree add up", "statement": "reduce(a, b) + reduce(b, c) = reduce(a, c), reduce(i, i+1) is the entry i, and writing one entry changes the sum of a slice by the difference if it contains the entry and not at all otherwise.", "quantifier": "all sizes, histories and slices", "why_tests_cant": "histories are unbounded", "anchors": ["tianshou/data/utils/segtree.py:35-61", "tianshou/data/utils/segtree.py:95-116"]}
{"id": "C309", "title": "get_prefix_sum_idx partitions the range by the entries", "statement": "On non-negative entries a positive query gets an index exactly if it lies in the half-open interval between the sums before and after the entry; greater queries get indices that are not smaller; a query with an array is the queries with its entries.", "quantifier": "all sizes, histories and queries", "why_tests_cant": "histories and queries are unbounded", "anchors": ["tianshou/data/utils/segtree.py:63-82", "tianshou/data/utils/segtree.py:119-133"]}
{"id": "C310", "title": "Prioritized draws are proportional to the weights", "statement": "The uniform draws for which the prioritized sampling takes an index form an interval whose length is the share of the weight of the index in the sum of the weights.", "quantifier": "all sizes, histories of weights and draws", "why_tests_cant": "tests compare frequencies", "anchors": ["tianshou/data/buffer/prio.py:63-67", "tianshou/data/utils/segtree.py:53-82"]}
{"id": "C311", "title": "Indexing a batch twice is indexing it once", "statement": "For a batch whose arrays have n rows, b[I][J] is b[K], where K takes through I what J takes: for index arrays, slices and (as the second index) integers, negative ones included; nested batches and empty ones alike.", "quantifier": "all nested batches, row counts and pairs of indices in range", "why_tests_cant": "batches, indices and nesting are unbounded", "anchors": ["tianshou/data/batch.py:722-746"]}
{"id": "C312", "title": "Selecting all rows is the identity and shuffles can be undone", "statement": "b[0:n] and b[arange(n)] are b, and indexing by a permutation and then by its inverse gives b.", "quantifier": "all nested batches and permutations", "why_tests_cant": "permutations are unbounded", "anchors": ["tianshou/data/batch.py:722-746"]}
{"id": "C313", "title": "Concatenation of batches is associative", "statement": "Concatenating two groups of batches of the same structure and then the two results gives the same arrays, padding included, as concatenating all of them at once.", "quantifier": "all groups of well-typed batches of the same structure", "why_tests_cant": "groups and structures are unbounded", "anchors": ["tianshou/data/batch.py:916-983", "tianshou/data/batch.py:985-1042", "tianshou/data/batch.py:1044-1048"]}
{"id": "C314", "title": "Cutting a batch up and concatenating gives it back", "statement": "Concatenating the slices between consecutive cuts of a batch, empty slices included, gives a batch with the same keys and arrays.", "quantifier": "all well-typed nested batches and sorted cuts", "why_tests_cant": "cuts and structures are unbounded", "anchors": ["tianshou/data/batch.py:722-746", "tianshou/data/batch.py:916-983", "tianshou/data/batch.py:985-1042", "tianshou/data/batch.py:1044-1048"]}
{"id": "C315", "title": "Laws of item assignment", "statement": "What is assigned to distinct rows is what reading them gives (padding for keys that the value lacks); assigning to the same rows again forgets the first assignment, assignments to disjoint rows commute, and other rows read as before.", "quantifier": "all nested batches, indices and assignable values", "why_tests_cant": "batches, values and indices are unbounded", "anchors": ["tianshou/data/batch.py:722-746", "tianshou/data/batch.py:777-801"]}
{"id": "C316", "title": "Thresholds and performance profiles", "statement": "Without given thresholds there are 101 evenly spaced ones from the smallest to the largest return of the scope; the profile gives for each the fraction of runs whose final return is larger, so it falls from at most 1 to 0.", "quantifier": "all tables of returns and thresholds", "why_tests_cant": "runs, steps and thresholds are unbounded", "anchors": ["tianshou/evaluation/rliable_evaluation_hl.py:200-233", "tianshou/evaluation/rliable_evaluation_hl.py:301-305"]}
{"id": "C317", "title": "Interquartile means of runs", "statement": "The value of the curve at a step is the interquartile mean of the runs' returns at it: between the smallest and the largest, independent of the order of the runs, unaffected by how good the best of at least four runs is, following changes of unit, and the plain mean of fewer than four runs.", "quantifier": "all tables of returns", "why_tests_cant": "the number of runs is unbounded", "anchors": ["tianshou/evaluation/rliable_evaluation_hl.py:269-270"]}
{"id": "C318", "title": "Figures show the requested data under the right name and colour", "statement": "eval_results plots the curve and the profile of the requested scope, named as asked for or after the experiment directory, in the colours given.", "quantifier": "all results, names, directories and colours", "why_tests_cant": "plots are not tested", "anchors": ["tianshou/evaluation/rliable_evaluation_hl.py:200-233", "tianshou/evaluation/rliable_evaluation_hl.py:235-329"]}
{"id": "C319", "title": "load_and_eval_experiments plots what the flags say", "statement": "Figures are shown exactly if show_plots and saved exactly if save_plots; with neither the results are only loaded.", "quantifier": "all directories, flags and scopes", "why_tests_cant": "the combinations are not tested", "anchors": ["tianshou/evaluation/rliable_evaluation_hl.py:332-356"]}
{"id": "C320", "title": "Collecting in parts", "statement": "Two collections of steps without a reset in between are one collection of the steps made in the first and those asked for in the second: the same environments, buffer, policy, observations, hidden states and counters afterwards, the same calls of the policy and episodes for the hook, and statistics that are those of the two together.", "quantifier": "all environments, policies, hooks, buffers, numbers of steps and collector states", "why_tests_cant": "the law speaks about all splits of a collection; tests collect once", "anchors": ["tianshou/data/collector.py:433-496", "tianshou/data/collector.py:743-1061"]}
{"id": "C321", "title": "Interleaved writing of sub-buffers", "statement": "It does not matter how adds and resets of different sub-buffers are interleaved, grouped into calls or ordered within a call: histories that are the same for every sub-buffer lead to the same manager and the same reports.", "quantifier": "all sub-buffer sizes, options and pairs of histories", "why_tests_cant": "the number of interleavings is unbounded", "anchors": ["tianshou/data/buffer/manager.py:70-75", "tianshou/data/buffer/manager.py:131-193"]}
{"id": "C322", "title": "A training is the beginning of every longer one", "statement": "With the same collections and tests, a run with fewer epochs does exactly what a run with more epochs does first: its epochs, collections, updates, tests and savings are the beginning of those of the longer run, and all of them if the stop function ended it.", "quantifier": "all kinds of trainer, configurations, numbers of epochs, collection and test results", "why_tests_cant": "epochs are unbounded; tests make a single run", "anchors": ["tianshou/trainer/base.py:315-415", "tianshou/trainer/base.py:614-643"]}
{"id": "C323", "title": "n-step returns compose", "statement": "Returns of n + k steps are returns of n steps bootstrapped from returns of k steps: if the value of every step after which its episode goes on is replaced by the k-step return of the following step, n-step returns are the (n + k)-step returns of the original values.", "quantifier": "all buffers and managers reachable by adds, all positions, values, discounts and n, k >= 1", "why_tests_cant": "all buffers, n and k; tests compare fixed examples", "anchors": ["tianshou/policy/base.py:628-721", "tianshou/policy/base.py:826-888"]}
{"id": "C324", "title": "Running statistics do not depend on order and batches", "statement": "RunningMeanStd gives the same mean, variance and count whatever the order of the samples, their split into batches and its initial values; scaling and shifting samples scales and shifts the statistics; the variance is never negative and the mean stays in the range of the samples.", "quantifier": "all sequences of non-empty batches of rational samples", "why_tests_cant": "orders and splits are unbounded", "anchors": ["tianshou/utils/statistics.py:69-114"]}
{"id": "C325", "title": "Moving averages do not depend on how numbers are grouped", "statement": "Adding numbers to a MovAvg in one call is adding them in two; a window forgets everything before its last size numbers.", "quantifier": "all sizes, caches and numbers (including infinities and NaN)", "why_tests_cant": "groupings are unbounded", "anchors": ["tianshou/utils/statistics.py:7-66"]}
{"id": "C326", "title": "Laws of the C51 projection", "statement": "The projection of a return distribution onto the support leaves distributions on the support unchanged (so it is idempotent), is linear in the probabilities, does not depend on the order of atoms or on the unit of values, splits a return between its two neighbouring atoms in proportion to nearness, and sends returns outside to the ends.", "quantifier": "all supports of at least 2 atoms, returns and probabilities", "why_tests_cant": "rational-valued universally quantified laws", "anchors": ["tianshou/policy/modelfree/c51.py:85-118"]}
{"id": "C327", "title": "Laws of stacking batches", "statement": "Stacking two groups of batches and concatenating the stacks is stacking all of them; row i of a stack is batch i; stacking the rows of a batch gives the batch back.", "quantifier": "all nested batches of equal layout whose arrays agree in kind and row shape", "why_tests_cant": "nesting and numbers of batches are unbounded", "anchors": ["tianshou/data/batch.py:722-746", "tianshou/data/batch.py:916-1042", "tianshou/data/batch.py:1050-1125"]}
{"id": "C328", "title": "A resumed training continues where the saved one ended", "statement": "A training without stop function ended after some epoch and resumed from the counters saved last performs, in both parts together, the epochs, collections, calls of train_fn, updates and saves of counters of the training in one go, and ends with the same counters.", "quantifier": "all kinds of trainers, configurations without stop function, collections, tests and numbers of epochs before and after", "why_tests_cant": "interruptions can occur after any epoch of arbitrarily long trainings", "anchors": ["tianshou/trainer/base.py:263-309", "tianshou/trainer/base.py:315-415", "tianshou/trainer/base.py:614-643"]}
{"id": "C329", "title": "Resuming does not lose the best policy", "statement": "After resuming a training, what save_best_fn has saved last and the reported best score are at least as good as the best before the interruption.", "quantifier": "all resumed trainings without stop function and test results", "why_tests_cant": "the results of tests before and after the interruption are arbitrary", "anchors": ["tianshou/trainer/base.py:263-309", "tianshou/trainer/base.py:417-456"]}
{"id": "C330", "title": "What PSRL learns does not depend on how the data arrive", "statement": "Two ways of cutting the same transitions into batches for learn, in any order within and across batches, lead to the same transition counts, reward counts, means, sums of squares and variances.", "quantifier": "all tables, priors with positive epsilon and transitions with valid indices, with and without done loops", "why_tests_cant": "orders and splits of data are unbounded", "anchors": ["tianshou/policy/modelbased/psrl.py:61-94", "tianshou/policy/modelbased/psrl.py:230-253"]}
{"id": "C331", "title": "Steps and resets of a synchronous vector environment compose", "statement": "Stepping (or resetting) some environments and then others leaves the same vector environment and gives the same results as doing all in one call - for all ids with subprocess workers, for calls that share no environment with dummy workers - and with distinct environments the order of ids and actions only permutes the results.", "quantifier": "all environments (state machines), worker states, ids (also negative) and actions", "why_tests_cant": "all partitions and orders of ids; pending results and histories are arbitrary", "anchors": ["tianshou/env/venvs.py:178-184", "tianshou/env/venvs.py:195-235", "tianshou/env/venvs.py:237-322"]}
{"id": "C332", "title": "Moving buffers into buffers is associative", "statement": "Moving buffer x and then buffer y into b by update is moving y into x and the result into b: exactly the same buffer and reported positions if x has room for both, the same stored transitions in the same order if x is at least as large as b; moving into a new buffer that is large enough copies the contents.", "quantifier": "all buffers reached by adds, resets and updates, of all capacities", "why_tests_cant": "all histories, wrap-around positions and capacities", "anchors": ["tianshou/data/buffer/base.py:324-346", "tianshou/data/buffer/base.py:488-524"]}
{"id": "C333", "title": "An asynchronous step in which all finish is a synchronous step", "statement": "If nothing is running and an asynchronous step of subprocess environments returns a result for every environment it was asked to step, then - whatever the order and the rounds in which they finished - all workers are in the state the synchronous step leaves them in, the results are those of the synchronous step up to order, nothing is running and the same environments are ready.", "quantifier": "all environments, ids, actions, wait_num, timeouts and orders of finishing", "why_tests_cant": "orders of finishing are chosen by the operating system", "anchors": ["tianshou/env/venvs.py:237-322", "tianshou/env/worker/subproc.py:194-211"]}
{"id": "C334", "title": "The multi-agent manager acts row by row if its policies do", "statement": "If every agent's policy treats the rows of a batch one by one, the manager gives every row what the policy of its agent gives that row alone: the actions do not depend on the order of the rows, on the order in which agents were registered or on how the batch is cut into parts.", "quantifier": "all numbers of agents, assignments of rows to agents, row-wise policies and states", "why_tests_cant": "all interleavings of agents in a batch", "anchors": ["tianshou/policy/multiagent/mapolicy.py:182-259"]}
{"id": "C335", "title": "Changes of rewards and flags commute with collecting", "statement": "Let the environments change their rewards by a function that respects zero and addition (such as scaling, or choosing one agent's reward) and their flags without changing whether an episode ends: collecting from them gives exactly the collector, buffer, statistics, episodes given to the hook and errors that result from changing, in the same way, what is collected from the unchanged environments.", "quantifier": "all environments, policies, hooks that do not look at the change, buffers, numbers of steps or episodes, reward types and changes", "why_tests_cant": "relates two whole runs of arbitrary length", "anchors": ["tianshou/data/collector.py:743-1061", "tianshou/data/buffer/manager.py:131-193", "tianshou/data/buffer/base.py:348-403"]}
{"id": "C336", "title": "TruncatedAsTerminated removes exactly the bootstrapping after truncations", "statement": "Collecting from environments in the wrapper stores the same data with terminated set at truncated rows, with the same actions, statistics and bookkeeping; the GAE and n-step returns computed from them are those of the unwrapped data with the values of states after truncations set to 0, so that no value of a state after the end of an episode is used.", "quantifier": "all environments, policies, collected data, indices, value functions, discount factors and numbers of steps", "why_tests_cant": "compares runs with and without the wrapper and all value functions", "anchors": ["tianshou/env/gym_wrappers.py:61-80", "tianshou/policy/base.py:555-573", "tianshou/policy/base.py:575-626", "tianshou/policy/base.py:628-721"]}
{"id": "C337", "title": "Wrapping the environment is wrapping the policy", "statement": "Collecting from environments whose observations and infos are transformed by a wrapper gives what the same policy preceded by the transformation collects from the bare environments, with transformed rows in the buffer and in the episodes given to the hook; and collecting with a wrapper of actions gives exactly what the policy followed by the transformation collects.", "quantifier": "all environments, transformations (that respect the choice of the last frame), policies, hooks, buffers, stacking options and numbers of steps or episodes", "why_tests_cant": "relates two whole runs of arbitrary length", "anchors": ["tianshou/data/collector.py:677-740", "tianshou/data/collector.py:743-1061", "tianshou/env/gym_wrappers.py:8-58", "tianshou/data/buffer/manager.py:131-193"]}
{"id": "C338", "title": "Potential-based shaping changes no advantage", "statement": "If a potential of the state is used to shape the rewards (r + gamma * phi(next) - phi), with no bonus for what follows a terminated step, then GAE with value functions lowered by the potential gives exactly the same advantages, the returns of an episode and the n-step targets are lowered by the potential of the state they start from, and a shaped environment gives these rewards.", "quantifier": "all rewards, potentials, value functions, gamma, lambda, flags, numbers of steps, indices and buffers", "why_tests_cant": "relates two computations for every potential function", "anchors": ["tianshou/policy/base.py:760-806", "tianshou/policy/base.py:575-626", "tianshou/policy/base.py:628-721", "tianshou/policy/base.py:826-888"]}
{"id": "C339", "title": "TD3 without its additions is DDPG", "statement": "TD3 with a single critic given, no target noise and an actor update at every call gives, over any number of updates, the actor, critic, target networks, optimizer states, priorities and losses of DDPG.", "quantifier": "all networks, optimizers of standard classes with default options, minibatches, draws and numbers of updates", "why_tests_cant": "holds of whole sequences of updates", "anchors": ["tianshou/policy/modelfree/ddpg.py:181-210", "tianshou/policy/modelfree/td3.py:102-163"]}
{"id": "C340", "title": "Value-based learners coincide where one specialises another", "statement": "FQF with equal proposed fractions uses the midpoints and the mean of QRDQN; QRDQN with one quantile has the target of double DQN and half the Huber loss; double DQN without a target network is plain DQN; branching DQN with one branch has the target of DQN; discrete BCQ without a threshold acts as DQN.", "quantifier": "all values, numbers of actions and fractions, target and double options, imitation logits", "why_tests_cant": "relates different classes for all inputs", "anchors": ["tianshou/policy/modelfree/qrdqn.py:90-131", "tianshou/policy/modelfree/fqf.py:138-139", "tianshou/utils/net/discrete.py:238-251", "tianshou/policy/modelfree/dqn.py:121-135", "tianshou/policy/modelfree/bdq.py:98-114", "tianshou/policy/imitation/discrete_bcq.py:128-148"]}
{"id": "C341", "title": "A vector buffer with one sub-buffer is a replay buffer", "statement": "VectorReplayBuffer(n, 1) and ReplayBuffer(n) hold the same data and return the same values or errors for every sequence of adds and resets; then their lengths, unfinished indices, samples of a given size with the same draws, and for stored indices the neighbours and rows read, are the same.", "quantifier": "all capacities, options, sequences of adds and resets, indices, sample sizes and draws", "why_tests_cant": "sequences of operations of every length", "anchors": ["tianshou/data/buffer/manager.py:67-125", "tianshou/data/buffer/manager.py:131-193", "tianshou/data/buffer/manager.py:195-229", "tianshou/data/buffer/manager.py:306-358", "tianshou/data/buffer/base.py:348-436", "tianshou/data/buffer/vecbuf.py:33-37"]}
{"id": "C342", "title": "With alpha 0 a prioritized buffer samples uniformly", "statement": "With alpha 0, whatever was added, moved in or given new weights, the interval of uniform draws is cut into equal parts, one for each stored index, all importance weights are equal and 1 if normalised; with beta 0 they are 1 for every alpha.", "quantifier": "all capacities, sequences of adds, updates and new weights, sample sizes and draws in [0, 1)", "why_tests_cant": "all sequences of operations and all draws", "anchors": ["tianshou/data/buffer/prio.py:25-106", "tianshou/data/utils/segtree.py:30-82"]}
{"id": "C343", "title": "Without relabelling a HER buffer is a replay buffer", "statement": "If no episode is chosen for relabelling, as with future_k = 1, a HER buffer holds after any sequence of calls, also right after a sampling, exactly what a plain buffer holds and returns the same.", "quantifier": "all sequences of add, reset, update and sample, horizons, draws, capacities and reward functions", "why_tests_cant": "sequences of calls of every length", "anchors": ["tianshou/data/buffer/her.py:48-188"]}
{"id": "C344", "title": "A multi-agent manager with one agent is the policy of the agent", "statement": "With one agent whose rows make up the whole batch, forward, exploration noise, process_fn and learn of the manager give what the agent's policy gives for the whole batch, with the same errors, and the buffer's rewards are put back.", "quantifier": "all policies, noise, processing and learning functions, batches that are not empty, and states", "why_tests_cant": "all policies", "anchors": ["tianshou/policy/multiagent/mapolicy.py:120-278"]}
{"id": "C345", "title": "Targets of the actor-critic learners coincide where one specialises another", "statement": "With alpha 0 and the target actor's action SAC has the target of TD3 without noise; REDQ with both of two critics drawn has SAC's target, and with one critic, or equal ones, min and mean give the same; CQL's one-step targets are rewards plus discounted SAC targets; BCQ with one sampled action and lambda 1 has CQL's targets without entropy term; discrete SAC and discrete CRR with a policy that always takes one action use the value of that action.", "quantifier": "all networks, states, values, alpha, gamma, lengths of batches and actions", "why_tests_cant": "relates different classes for all inputs", "anchors": ["tianshou/policy/modelfree/sac.py:211-224", "tianshou/policy/modelfree/td3.py:128-141", "tianshou/policy/modelfree/redq.py:177-193", "tianshou/policy/imitation/cql.py:277-290", "tianshou/policy/imitation/bcq.py:169-196", "tianshou/policy/modelfree/discrete_sac.py:117-128", "tianshou/policy/imitation/discrete_crr.py:125-132"]}
{"id": "C346", "title": "A prioritized vector buffer with one sub-buffer is a prioritized buffer", "statement": "PrioritizedVectorReplayBuffer(n, 1) and PrioritizedReplayBuffer(n) hold the same data and weights and return the same values or errors for every sequence of adds and new weights, and then draw the same samples.", "quantifier": "all capacities, options, exponents, sequences of adds and weights, sample sizes and draws", "why_tests_cant": "sequences of operations of every length", "anchors": ["tianshou/data/buffer/prio.py:25-90", "tianshou/data/buffer/manager.py:131-193", "tianshou/data/buffer/manager.py:247-262", "tianshou/data/buffer/vecbuf.py:40-66"]}
{"id": "C347", "title": "Neutral options change nothing", "statement": "A mask that allows every action changes neither the greedy actions, the targets nor the exploration of DQN; with eps 0 no action is replaced, also when the early return for eps close to 0 is not taken; a curiosity module with reward_scale 0 leaves what the wrapped policy processes and learns as it is.", "quantifier": "all values, masks, actions, draws in [0, 1), wrapped policies, curiosity models and batches", "why_tests_cant": "all values and wrapped policies", "anchors": ["tianshou/policy/modelfree/dqn.py:121-135", "tianshou/policy/modelfree/dqn.py:158-164", "tianshou/policy/modelfree/dqn.py:238-254", "tianshou/policy/modelbased/icm.py:124-151"]}
{"id": "C348", "title": "Collecting from several environments is collecting from each", "statement": "With a policy that acts row by row, any number of n_step collections from N environments leaves every environment, its current observation and its sub-buffer as collecting the N-th part of the steps (rounded up) from that environment alone would; and if the episodes fit into the sub-buffers, the reported returns, lengths and rows of episodes are those of the N separate collections in some order, the numbers of steps and episodes their sums.", "quantifier": "all environments, row-wise policies, hooks, capacities, contents of the buffer, numbers of environments, numbers of steps and sequences of calls", "why_tests_cant": "relates N+1 whole runs of arbitrary length", "anchors": ["tianshou/data/collector.py:743-1061", "tianshou/data/collector.py:677-740", "tianshou/data/buffer/manager.py:131-193"]}
{"id": "C349", "title": "With as many environments as episodes each contributes its next episode", "statement": "Asked for at most as many episodes as there are environments, with a policy that acts row by row, the collector stores for each of the first environments exactly its next episode, however long the episodes are, and leaves the environment as collecting one episode from it alone does.", "quantifier": "all environments, row-wise policies, hooks, capacities, contents of the buffer and numbers of episodes", "why_tests_cant": "relates whole runs of arbitrary length", "anchors": ["tianshou/data/collector.py:743-1061", "tianshou/data/collector.py:677-740", "tianshou/data/buffer/manager.py:131-193"]}
{"id": "C350", "title": "Greedy choices depend only on the order of values", "statement": "If all values are changed by one strictly increasing function, the greedy actions of DQN, masked or not, and the actions of the random policy stay, and the targets are changed by that function; double DQN with a target network follows the target network's values only. QR-DQN's targets follow every change of unit and origin.", "quantifier": "all strictly increasing functions, values, masks, target and double options", "why_tests_cant": "all functions and values", "anchors": ["tianshou/policy/modelfree/dqn.py:121-135", "tianshou/policy/modelfree/dqn.py:158-164", "tianshou/policy/modelfree/dqn.py:203-209", "tianshou/policy/random.py:25-54", "tianshou/policy/modelfree/qrdqn.py:90-102"]}
{"id": "C351", "title": "Losses, advantages and noise follow a change of unit and origin", "statement": "Quantile losses and priorities and PPO's value loss depend only on differences of values; the gradient of FQF's fractions and PPO's clipped objective scale with the unit; normalised advantages depend neither on the origin nor, with eps in the same unit, on the unit; Ornstein-Uhlenbeck noise scales with its mean and deviation over a whole run.", "quantifier": "all values, fractions, ratios, clipping options, units greater than 0, origins and sequences of calls", "why_tests_cant": "all units and sequences of calls", "anchors": ["tianshou/policy/modelfree/qrdqn.py:117-126", "tianshou/policy/modelfree/fqf.py:183-203", "tianshou/policy/modelfree/ppo.py:188-212", "tianshou/exploration/random.py:71-82"]}
{"id": "C352", "title": "What is collected from an environment does not depend on the other environments", "statement": "If two vector environments of any sizes contain the same environment, at any places, and policies that act row by row treat the two places alike, then after sequences of n_step collections of equally many rounds that environment is in the same state with the same observation and its sub-buffers hold the same.", "quantifier": "all environments, numbers and places of environments, row-wise policies, hooks, capacities, contents of buffers, numbers of steps and sequences of calls", "why_tests_cant": "relates two whole runs of arbitrary length", "anchors": ["tianshou/data/collector.py:743-1061", "tianshou/data/collector.py:677-740", "tianshou/data/buffer/manager.py:131-193"]}
{"id": "C353", "title": "Prioritized sampling does not depend on the unit of the weights", "statement": "Multiplying all entries of a segment tree by a positive number multiplies its sums and leaves the search for prefix sums as it is; a prioritized buffer whose weights, with eps and the initial maximum and minimum, are given in another unit draws the same indices and returns the same normalised importance weights, whatever is added or updated.", "quantifier": "all units greater than 0, trees, weights, exponents, indices and draws", "why_tests_cant": "all trees and weights", "anchors": ["tianshou/data/utils/segtree.py:35-134", "tianshou/data/buffer/prio.py:46-106"]}
{"id": "C354", "title": "Losses do not depend on the order of the rows", "statement": "Changing the order of the rows of a minibatch, with their weights, leaves the losses of PPO, of the quantile learners, branching DQN, discrete BCQ and CQL, TD3+BC and of the critics of DDPG, TD3 and SAC as they are; errors, priorities and normalised advantages move with their rows.", "quantifier": "all minibatches, weights, permutations and networks", "why_tests_cant": "all permutations of minibatches of every size", "anchors": ["tianshou/policy/modelfree/ppo.py:188-200", "tianshou/policy/modelfree/qrdqn.py:117-126", "tianshou/policy/modelfree/bdq.py:165-184", "tianshou/policy/imitation/discrete_bcq.py:150-179", "tianshou/policy/imitation/discrete_cql.py:99-118", "tianshou/policy/imitation/td3_bc.py:115-117", "tianshou/policy/modelfree/ddpg.py:181-197"]}
{"id": "C355", "title": "Arithmetic of batches acts row by row", "statement": "The rows of the sum of two batches, for an integer, an index array or a slice, are the sums of their rows, and the rows of a batch to which a number is added or which is multiplied or divided by one are the rows changed in that way; with the same errors for rows that do not exist.", "quantifier": "all nested batches of numbers of equal layout, indices and numbers", "why_tests_cant": "all nestings, shapes and indices", "anchors": ["tianshou/data/batch.py:722-746", "tianshou/data/batch.py:803-851"]}
{"id": "C356", "title": "Natural gradients do not depend on the coordinates of the parameters", "statement": "Writing gradient, curvature, loss and divergence in other orthonormal coordinates of the actor's parameters, for instance in another order, gives the same search direction in those coordinates, and learning by NPG and TRPO ends at the same parameters in those coordinates with the same critic, reports and step sizes.", "quantifier": "all changes of orthonormal coordinates, gradients, curvatures, losses, divergences, minibatches and options", "why_tests_cant": "all dimensions and coordinates", "anchors": ["tianshou/policy/modelfree/npg.py:126-227", "tianshou/policy/modelfree/trpo.py:106-199"]}
{"id": "C357", "title": "With equal curvature in all directions NPG is plain gradient descent", "statement": "If the divergence curves equally in all directions the search direction is the negative gradient divided by the damped curvature after any positive number of iterations, and learning by NPG makes one step of plain gradient descent for each minibatch, with the step size divided by the damped curvature.", "quantifier": "all curvatures of at least 0, gradients other than 0, step sizes, minibatches and numbers of iterations", "why_tests_cant": "all dimensions and gradients", "anchors": ["tianshou/policy/modelfree/npg.py:126-215"]}
{"id": "C358", "title": "A HER vector buffer with one sub-buffer is a HER buffer", "statement": "A HERVectorReplayBuffer with one sub-buffer returns, from every sequence of adding single transitions, resetting and sampling with relabelling, what a HERReplayBuffer of its capacity returns, holds the same rows, relabelled or not, and the same rows to put back, saves the same rows and raises the same errors.", "quantifier": "all capacities, sequences of calls, goals, reward functions and random choices", "why_tests_cant": "all sequences of calls", "anchors": ["tianshou/data/buffer/manager.py:278-303", "tianshou/data/buffer/her.py:48-188", "tianshou/data/buffer/vecbuf.py:85-89"]}
{"id": "C359", "title": "PSRL does not depend on the numbering of the states", "statement": "Learning from transitions with renumbered states and actions gives the same posterior with renumbered states and actions and raises in the same cases; value iteration with renumbered states gives the same values and actions, with renumbered states, after the same number of sweeps.", "quantifier": "all renumberings, priors, batches, transition probabilities, rewards, discount factors and noise", "why_tests_cant": "all numbers of states and renumberings", "anchors": ["tianshou/policy/modelbased/psrl.py:61-140", "tianshou/policy/modelbased/psrl.py:230-253"]}
{"id": "C360", "title": "HER alters at most future_k - 1 episodes for each one left unaltered", "statement": "For future_k of at least 1, the episodes which a HER buffer alters on sampling are distinct sampled ones, at most future_k - 1 for each one left unaltered (so the promised at most future_k), and altering one more would exceed this. Some sampled episode always stays unaltered, a single one is never altered, with future_k = 1 none is, and future_k = 0 raises ZeroDivisionError.", "quantifier": "all future_k, numbers of episodes and random choices", "why_tests_cant": "all numbers of episodes and random choices", "anchors": ["tianshou/data/buffer/her.py:33-46", "tianshou/data/buffer/her.py:133-143"]}
{"id": "C361", "title": "create_uniform_action_dist samples as the action space does", "statement": "Sampling from the distribution that create_uniform_action_dist makes for an action space and a batch size is equivalent to sampling a batch with action_space.sample(): it has batch_size rows, every sample is an action, each discrete action has the same probability, and for the same random numbers a box gives the same action.", "quantifier": "all Box and Discrete spaces and batch sizes", "why_tests_cant": "all spaces and random numbers", "anchors": ["tianshou/utils/torch_utils.py:58-77"]}
{"id": "C362", "title": "Optimizer factories pass on parameters, learning rate and options", "statement": "The optimizer made by a factory gets all parameters of the module, the learning rate asked for, once, and exactly the options given; the Adam and RMSprop factories make what the general factory makes of these classes with the same options; a learning rate among the options raises TypeError. The builder uses the optimizer set last, and with none set, or the default set without arguments, Adam with the defaults of its factory.", "quantifier": "all factories, options, parameters, learning rates and sequences of builder calls", "why_tests_cant": "all options and sequences of builder calls", "anchors": ["tianshou/highlevel/optim.py:17-93", "tianshou/highlevel/experiment.py:564-590", "tianshou/highlevel/experiment.py:638-643"]}
{"id": "C363", "title": "ICM passes its learning arguments to the inner policy", "statement": "ICMPolicy.learn calls the inner policy's learn with all its arguments, raises what it raises, reports its statistics unchanged, and its own loss is lr_scale times a mix of the inverse and the forward loss: the inverse loss for forward_loss_weight 0, the forward loss for 1, between the two in between.", "quantifier": "all inner policies, batches, arguments, weights and scales", "why_tests_cant": "all inner policies and arguments", "anchors": ["tianshou/policy/modelbased/icm.py:153-176"]}
{"id": "C364", "title": "A copy of a vector buffer behaves as the buffer", "statement": "After pickling, deep-copying or saving and loading a buffer manager between any of its calls, the copy does what the buffer itself would do: it accepts the same transitions with the same reports, holds the same rows, samples the same indices and has the same unfinished_index.", "quantifier": "all sub-buffer capacities, options, sequences of add, reset and copy, and random choices", "why_tests_cant": "all sequences of calls and copies", "anchors": ["tianshou/data/buffer/base.py:233-251", "tianshou/data/buffer/manager.py:70-91", "tianshou/data/buffer/manager.py:131-229"]}
{"id": "C365", "title": "A copy of a cached buffer stores the episodes that end", "statement": "A CachedReplayBuffer that was pickled or deep-copied puts each episode that ends in a cache into its main buffer, as the original does, so that it can be sampled and read.", "quantifier": "all capacities, numbers of caches, options and sequences of add", "why_tests_cant": "all sequences of calls", "anchors": ["tianshou/data/buffer/manager.py:77-83", "tianshou/data/buffer/cached.py:46-85"]}
{"id": "C366", "title": "A cached buffer loaded from a file stores the episodes that end", "statement": "A CachedReplayBuffer that was saved with save_hdf5 and loaded with load_hdf5 counts, reports, stores and samples the episodes that end after loading as the saved buffer would.", "quantifier": "all capacities, numbers of caches, options, sequences of add and random choices", "why_tests_cant": "all sequences of calls", "anchors": ["tianshou/data/buffer/base.py:245-251", "tianshou/data/buffer/cached.py:46-85", "tianshou/data/utils/converter.py:93-165"]}
{"id": "C367", "title": "A reset collector starts afresh", "statement": "What a Collector collects after reset(), or with reset_before_collect, depends only on its environments, policy and buffer: not on earlier observations, hidden states and counts. The first call of the policy gets the observations of the reset and no hidden state. If environments start alike after every reset, resetting the buffer as well leaves two collectors of the same sizes equal but for rows that no longer count. After collecting whole episodes a collector stands as after resetting its environments.", "quantifier": "all environments, policies, hooks, options, states of the collector and numbers of steps or episodes", "why_tests_cant": "all pasts of a collector", "anchors": ["tianshou/data/collector.py:371-421", "tianshou/data/collector.py:650-662", "tianshou/data/collector.py:778-812", "tianshou/data/collector.py:1048-1061"]}
{"id": "C368", "title": "Restacking recovers the observations of a frame-stacking environment", "statement": "If an environment shows stacks of k frames and a buffer is made with save_only_last_obs and stack_num = k, reading a transition gives the observation and the next observation that were added, as long as the beginning of its episode or the rows of its k frames are stored.", "quantifier": "all numbers of frames, capacities, episodes, options and stored positions, in buffers and vector buffers", "why_tests_cant": "all histories of transitions", "anchors": ["tianshou/data/buffer/base.py:455-463", "tianshou/data/buffer/base.py:536-582", "tianshou/data/buffer/base.py:602-609", "tianshou/data/buffer/manager.py:131-190"]}
{"id": "C369", "title": "Frame stacks overlap", "statement": "A stack of k + 1 frames without its oldest frame is the stack of k frames at the same index; its newest frame is the row itself; without it the stack is that of k frames at prev(index). Stacks of several indices are those of each index.", "quantifier": "all buffers and vector buffers in all states, numbers of frames and indices", "why_tests_cant": "all states of a buffer", "anchors": ["tianshou/data/buffer/base.py:536-582", "tianshou/data/buffer/base.py:307-314", "tianshou/data/buffer/manager.py:92-108"]}
{"id": "C370", "title": "Parts of a vector buffer do not depend on the others and on their numbers", "statement": "What a part of a ReplayBufferManager / VectorReplayBuffer holds, reports and returns when read depends only on its capacity and the calls meant for it, not on the number of parts and what the others hold or are sent. Renumbering the parts and the buffer_ids renumbers the contents and moves the reported indices.", "quantifier": "all capacities, numbers of parts, renumberings, options and sequences of add and reset", "why_tests_cant": "all pairs of histories", "anchors": ["tianshou/data/buffer/manager.py:93-127", "tianshou/data/buffer/manager.py:131-190"]}
{"id": "C371", "title": "With one environment a cached buffer holds between episodes what a replay buffer holds", "statement": "After whole episodes, none longer than the cache, a CachedReplayBuffer with one environment holds in its main buffer what a ReplayBuffer of the main size given the same transitions holds, at the same indices; its cache is empty. Reads, prev, next and the reports of the additions that end an episode agree.", "quantifier": "all main and cache sizes, options and sequences of whole episodes not longer than the cache", "why_tests_cant": "all histories", "anchors": ["tianshou/data/buffer/cached.py:46-85", "tianshou/data/buffer/base.py:324-346", "tianshou/data/buffer/base.py:348-403", "tianshou/data/buffer/base.py:405-486"]}
{"id": "C372", "title": "Order and grouping of priority updates", "statement": "PrioritizedReplayBuffer.update_weight on two lists of indices in one call leaves the same tree, largest and smallest priority as two calls. Updates of disjoint indices commute, the order of distinct indices within a call does not matter, and of two updates of the same indices the second decides all weights.", "quantifier": "all states of prioritized buffers and vector buffers, all legal indices, weights, alpha and eps", "why_tests_cant": "all pairs of updates", "anchors": ["tianshou/data/buffer/prio.py:46-61", "tianshou/data/buffer/prio.py:81-90", "tianshou/data/utils/segtree.py:35-51", "tianshou/data/utils/segtree.py:95-101"]}
{"id": "C373", "title": "The main buffer of a cached buffer does not depend on the numbers of the environments", "statement": "If the environments of a CachedReplayBuffer get other numbers, in a buffer with as many or more caches, then the same calls leave the same main buffer at the same indices; the cache of an environment moves to its new number. Reports, rows read, prev and next agree at corresponding indices.", "quantifier": "all sizes, options, numbers of environments, injective renumberings and sequences of add and reset", "why_tests_cant": "all pairs of histories", "anchors": ["tianshou/data/buffer/cached.py:22-85", "tianshou/data/buffer/manager.py:93-190"]}
{"id": "C374", "title": "Spare capacity makes no difference", "statement": "While never more rows are added between resets than fit, the capacity of a ReplayBuffer makes no difference: additions report the same, and sampling, indexing with or without frame stacks, prev and next give the same. The parts of a vector buffer with other capacities hold and return the same rows at the same places in the part.", "quantifier": "all capacities, options, random draws and sequences of add and reset that overwrite nothing", "why_tests_cant": "all pairs of capacities", "anchors": ["tianshou/data/buffer/base.py:285-293", "tianshou/data/buffer/base.py:348-486", "tianshou/data/buffer/base.py:488-628", "tianshou/data/buffer/manager.py:93-193"]}
{"id": "C375", "title": "Replacing a policy of a multi-agent manager touches one agent", "statement": "A MultiAgentPolicyManager holds the given policy for each agent, and each distinct policy knows its agent; a shared one knows the last. After replace_policy for an agent, its rows are acted on, processed and learned by the new policy; actions, states, data and statistics of all other agents stay. An id that is no agent's changes no action.", "quantifier": "all managers, agents, policies, batches and states", "why_tests_cant": "all policies and batches", "anchors": ["tianshou/policy/multiagent/mapolicy.py:84-111", "tianshou/policy/multiagent/mapolicy.py:114-117", "tianshou/policy/multiagent/mapolicy.py:119-161", "tianshou/policy/multiagent/mapolicy.py:165-180", "tianshou/policy/multiagent/mapolicy.py:182-259", "tianshou/policy/multiagent/mapolicy.py:262-278", "tianshou/policy/base.py:258-260"]}
{"id": "C376", "title": "Ray workers answer like dummy workers", "statement": "If the environment's reset and step do not raise, a RayEnvWorker answers every sequence of calls as a DummyEnvWorker does, whenever its actor runs them, except that seed() returns None. An exception of a step appears in recv instead of send, and one of the reset in seed() never. wait returns the first wait_num workers whose results are ready, in order.", "quantifier": "all environments, sequences of calls and schedules of the actor", "why_tests_cant": "all interleavings", "anchors": ["tianshou/env/worker/ray.py:26-79", "tianshou/env/worker/dummy.py:10-55", "tianshou/env/worker/base.py:11-86"]}
{"id": "C377", "title": "The multi-agent manager does not depend on the names of the agents", "statement": "If the agents of a MultiAgentPolicyManager get other names and the policies, reward columns, rows and states move with them, forward and exploration_noise give the same actions, process_fn the same data, restores the same rewards and raises the same errors, and learn the same statistics, each under the new names.", "quantifier": "all injective renamings, policies, batches and states", "why_tests_cant": "all pairs of names", "anchors": ["tianshou/policy/multiagent/mapolicy.py:119-161", "tianshou/policy/multiagent/mapolicy.py:165-180", "tianshou/policy/multiagent/mapolicy.py:182-259", "tianshou/policy/multiagent/mapolicy.py:262-278"]}
{"id": "C378", "title": "Spare capacity makes no difference to prioritized sampling", "statement": "While no more rows are added or moved in than fit, the capacity of a PrioritizedReplayBuffer makes no difference: the same calls are legal and leave the same weights, largest and smallest priority; the same draws give the same indices, with the same weights in the batch, normalised or not. The size of the tree, a power of two, does not show.", "quantifier": "all capacities, alpha, beta, eps, draws and sequences of add, update and update_weight that overwrite nothing", "why_tests_cant": "all pairs of capacities", "anchors": ["tianshou/data/buffer/prio.py:25-106", "tianshou/data/utils/segtree.py:19-101"]}
{"id": "C379", "title": "An asynchronous step with Ray workers returns what is there", "statement": "An asynchronous step of RayVectorEnv returns the results of wait_num of the waiting environments, or of all of them if fewer are waiting, each of the action sent to it last; these become ready and the others go on waiting, so that every environment is always one or the other.", "quantifier": "all numbers of environments, values of wait_num, timeouts, sequences of steps and orders in which results arrive", "why_tests_cant": "all schedules", "anchors": ["tianshou/env/venvs.py:186-191", "tianshou/env/venvs.py:288-310", "tianshou/env/worker/ray.py:47-65"]}
{"id": "C380", "title": "Exploration noise of DDPG follows each environment", "statement": "The noise that DDPGPolicy.exploration_noise adds to the actions of a collector is, for every environment, a noise process of its own: independent draws with GaussianNoise, an Ornstein-Uhlenbeck process of the environment's draws with OUNoise, whichever environments are ready in the other steps. Without noise, and for actions in a batch, the actions stay as they are.", "quantifier": "all parameters of the noise, draws, actions and sequences of sets of ready environments", "why_tests_cant": "all sequences of ready environments", "anchors": ["tianshou/policy/modelfree/ddpg.py:214-224", "tianshou/exploration/random.py:23-82", "tianshou/data/collector.py:704-711"]}
{"id": "C381", "title": "Bounds and special cases of the Ornstein-Uhlenbeck noise", "statement": "Whichever environments are ready, OUNoise with theta dt = 1 is GaussianNoise; with theta dt in [0, 1] and draws in [-z, z] the noise stays within m of mu whenever m theta dt >= sigma sqrt(dt) z and the starting values are that near; noises that differ only in their start approach each other by the factor 1 - theta dt in every step; and after a change of the number of ready environments the noise does not depend on anything before.", "quantifier": "all parameters, starting values, draws and sequences of sets of ready environments", "why_tests_cant": "all sequences of calls", "anchors": ["tianshou/exploration/random.py:23-82", "tianshou/policy/modelfree/ddpg.py:214-224"]}
{"id": "C382", "title": "Every action sent to Ray workers is answered once", "statement": "In every sequence of asynchronous steps of RayVectorEnv that name ready environments, also when some of them raise, every action sent is either answered exactly once, under its own environment, or still in work in an environment that is waiting; an environment has at most one action in work and its answers come in the order of its actions. A step that names an environment that is not ready raises an AssertionError and changes nothing.", "quantifier": "all numbers of environments, values of wait_num, timeouts, sequences of steps and orders in which results arrive", "why_tests_cant": "all schedules", "anchors": ["tianshou/env/venvs.py:186-191", "tianshou/env/venvs.py:288-310", "tianshou/env/worker/ray.py:47-65"]}
{"id": "C383", "title": "The exploration noise of an agent does not depend on the other agents", "statement": "MultiAgentPolicyManager.exploration_noise over DDPG policies gives the rows of every agent the noise of its own policy: over any sequence of calls an agent's actions and the state of its noise are those of its policy called alone with its rows, in calls without rows of the agent its noise does not advance, rows of no known agent stay as they are, and the order of the agents makes no difference.", "quantifier": "all policies with or without noise, agents of the rows, actions, draws and sequences of calls", "why_tests_cant": "all sequences of turns", "anchors": ["tianshou/policy/multiagent/mapolicy.py:165-180", "tianshou/policy/modelfree/ddpg.py:214-224", "tianshou/exploration/random.py:23-82"]}
{"id": "C384", "title": "No environment with Ray workers is starved", "statement": "If the result of a waiting environment of RayVectorEnv is there, every asynchronous step that returns either returns it or lets exactly wait_num of the environments before it in waiting_id go first, and nothing gets in before it, however often the other environments are stepped. So it is returned at the latest by the step after which wait_num times the number of steps exceeds the number of environments that were before it.", "quantifier": "all numbers of environments, values of wait_num, timeouts, sequences of steps and orders in which results arrive", "why_tests_cant": "all schedules", "anchors": ["tianshou/env/venvs.py:288-310", "tianshou/env/worker/ray.py:47-65"]}
{"id": "C385", "title": "Resets do not mix up the answers of Ray workers", "statement": "However steps and resets of ready environments of an asynchronous RayVectorEnv follow each other, every action is answered exactly once by a step, under its own environment, or still in work in a waiting environment, and the resets return exactly the answers to resets, in order. A reset of ready environments leaves waiting and ready environments and the work in progress as they were; one that names any other environment raises an AssertionError and changes nothing.", "quantifier": "all numbers of environments, values of wait_num, timeouts, sequences of steps and resets and orders in which results arrive", "why_tests_cant": "all schedules", "anchors": ["tianshou/env/venvs.py:186-191", "tianshou/env/venvs.py:195-235", "tianshou/env/venvs.py:288-310", "tianshou/env/worker/ray.py:47-65"]}
