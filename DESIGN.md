# Machine-checked model of tianshou (Rocq/Coq 8.16.1)

This directory holds executable Gallina models of parts of tianshou (source in `/repo`, read
as text, never run) and theorems about them.

## Layout

`rocq/theories/` has one group of files per part of the code base.

* `<Part>Model.v` - definitions only. Every definition has a comment naming the file and lines
  it models and the simplifications made. No proofs (except `Defined` decidability).
* `<Part>Proofs.v` - supporting lemmas.
* `<Part>Properties.v` - only the property theorems, closed by `exact <lemma>`, each followed by
  `Print Assumptions` and by one or more `Example`s showing that the hypotheses are satisfied by
  a concrete non-trivial case.
* `Py.v`, `Num.v` - shared vocabulary: results with Python exceptions as values, Python/NumPy
  indexing, exact rationals.

`MANIFEST.json` maps every property of `properties.jsonl` to its theorems. `seeded/LOG.jsonl`
records the mutations that were tried against the model.

## Trusted base

* The Coq kernel (8.16.1), re-checked with `coqchk` by `vcheck`.
* Axioms: the development aims at none at all. `Print Assumptions` is printed under every
  property theorem and must read "Closed under the global context"; an exception, if any, is a
  standard-library axiom and is listed at the end of this file.
* The reading of the Python code. Nothing ties the model to the code except the citation beside
  each definition.
* Arithmetic: integers are unbounded `Z`/`nat`; NumPy integers do not overflow in the model.
  Reals are exact rationals (`Qc`, canonical rationals with Leibniz equality). Floating-point
  rounding is therefore *not* modelled, except where a theorem is stated for an arbitrary
  (uninterpreted) addition, which then covers floats as well (add()'s running return).
  `np.sqrt`, `exp`, `tanh`, `x**alpha` are uninterpreted functions passed as section variables,
  with the hypotheses used written in the theorem.
* Randomness: every draw of `np.random`/`torch` is an explicit argument (an oracle), universally
  quantified; only the documented range of the draw is assumed.
* Environments, policies, networks, optimisers, hooks are arbitrary functions (section variables
  or explicit arguments), universally quantified.
* Aliasing: the places where the code relies on (or suffers from) NumPy views are modelled
  explicitly (manager storage shared with the sub-buffers, the `ready_conns` list of
  `DummyEnvWorker.wait`, the fancy-indexed copy in `_reset_hidden_state_based_on_type`); elsewhere
  values are immutable.
* Not modelled: wall-clock time, processes/pipes/shared memory (only the bookkeeping around them),
  GPU placement, numba compilation, HDF5/pickle byte formats, torch autograd, plotting/printing,
  the networks, environments factories and loggers of the `highlevel` API.

A property that the faithful model violates is not weakened: a theorem `..._refuted` exhibits a
witness, and the strongest true restriction is proved next to it. These are listed under
"Findings" below.

## What is modelled

| files in `rocq/theories` | code in `/repo/tianshou` | left out |
|----|----|----|
| `Py`, `Num`, `PyLemmas` | Python results/exceptions, list indexing, rationals | - |
| `SegTree*` | `data/utils/segtree.py`, all of it | numba, float rounding |
| `Buffer*`, `GetIndices*` | `data/buffer/base.py` | pickling, repr, the key check of `add` beyond presence (allocation: see `Store*`) |
| `BatchOps*` | `data/batch.py` 803-852 (arithmetic), 1134-1165 (`empty_`), 1192-1206 (`shape`), 1268-1304 (`set_array_at_key`), 1339-1352 | boolean arrays, numpy scalars, rounding, torch tensors |
| `Store*` | `data/buffer/base.py` 471-485 and `manager.py` 171-184 on the Batch model: lazily allocated `_meta`, keys that pop up later, `alloc_by_keys_diff`, casts | `None` values in transitions |
| `Manager*` | `data/buffer/manager.py` (`ReplayBufferManager`), `vecbuf.py` sizes | `HERReplayBufferManager` |
| `Cached*` | `data/buffer/cached.py` | - |
| `Prio*` | `data/buffer/prio.py`, `PrioritizedReplayBufferManager`, `PrioritizedVectorReplayBuffer` | real powers (arbitrary positive functions) |
| `Her*` | `data/buffer/her.py` | `stack_num` > 1, managers of HER buffers |
| `Batch*`, `Split*` | `data/batch.py`: construction, indexing, assignment, `cat`, `stack`, `split`, `dropnull`, pickling | torch tensors as a separate kind, object arrays inside a column, `to_torch`/`to_numpy` |
| `Hdf*` | `data/utils/converter.py` `to_hdf5`/`from_hdf5` | the byte format and pickle of leaves (assumed inverse) |
| `Returns*` | `policy/base.py` `compute_episodic_return`, `compute_nstep_return`, GAE and n-step kernels | float rounding |
| `Policy*` | `policy/base.py` `map_action`, `map_action_inverse`, `update`, `soft_update`, context managers of `utils/torch_utils.py` | losses, autograd |
| `Dqn*` | `policy/modelfree/dqn.py`, `c51.py` (projection), `policy/random.py` | networks (arbitrary functions) |
| `Trpo*` | `policy/modelfree/trpo.py` line search, `npg.py` flat parameters and conjugate gradients | autograd |
| `Psrl*` | `policy/modelbased/psrl.py` | sampling from Dirichlet/normal (oracles) |
| `Ma*` | `policy/multiagent/mapolicy.py` | PettingZoo wrapper |
| `Collect*` | `data/collector.py` `Collector`, hooks, `EpisodeRolloutHookMerged` | wall-clock, rendering |
| `Async*` | `data/collector.py` `AsyncCollector`, on top of the vector environment model with arbitrary answering orders | exceptions in environments, action arrays of shape (n, 1), further keys in a policy's answer |
| `Venv*` | `env/venvs.py`, `env/worker/dummy.py`, `subproc.py` bookkeeping | processes, pipes, shared memory bytes, ray |
| `Wrap*` | `env/gym_wrappers.py` | gymnasium itself |
| `Train*` | `trainer/base.py`, `trainer/utils.py` (`test_episode`, `gather_info`) | collectors and policies (oracles), progress bars |
| `Stat*` | `utils/statistics.py` | - |
| `Log*` | `utils/logger/base.py`, `tensorboard.py` save/restore | event files as an append-only list; wandb |

| `Params*` | highlevel/params/{policy_params, alpha, noise, env_param}.py, the policy-creating methods of highlevel/agent.py, the signatures and argument checks of the 12 policy constructors, the tuning of alpha in SAC, discrete SAC, REDQ | creation of networks and optimizers (opaque), policy wrappers (ICM), warnings; Adam (plain gradient steps instead) |
| `Exper*` | highlevel/config.py, create_trainer and collectors of highlevel/agent.py, highlevel/{experiment, persistence, trainer}.py, params/lr_scheduler.py, env.py (seeding), evaluation/launcher.py, utils/lr_scheduler.py | builders other than seeded collections, loggers, pickling, envpool, joblib itself; torch schedulers and files as simple models |
| `Onpol*` | policy/modelfree/{pg, a2c, ppo}.py: process_fn, _compute_returns, learn (objective, value clipping, advantage normalisation, minibatches, running statistics) | forward passes, gradients and optimizers (arbitrary functions), learning-rate schedulers, NaN arithmetic beyond `None` |
| `Icm*` | policy/modelbased/icm.py, the discriminator part of policy/imitation/gail.py, BasePolicy.post_process_fn with prioritized buffers | networks, losses and optimizers (arbitrary functions); that the wrapped policy does not write to `batch.rew` |
| `Offline*` | policy/imitation/{bcq, cql, td3_bc, discrete_bcq, discrete_crr}.py: process_buffer, targets, regulariser, random actions, masking, weights, actor losses | networks and gradients (arbitrary functions), optimizer steps, the VAE loss of BCQ, the Lagrange multiplier step of CQL |
| `Quant*` | policy/modelfree/{qrdqn, iqn, fqf, bdq}.py: fractions, values, targets, losses, priorities, exploration; the loss of discrete CQL; FractionProposalNetwork | networks and gradients (arbitrary functions), the cosine embedding |
| `Actor*` | policy/modelfree/{ddpg, td3, sac, discrete_sac, redq}.py: constructors' copies, learn (optimizers, gradient fields, targets, delays, statistics), targets; utils/optim.py; exploration/random.py | the values of networks and gradients (arbitrary functions), dropout, several parameter groups, tuning of alpha (`Params*`), tanh correction of log probabilities |
| `Net*` | utils/net/common.py (miniblock, MLP, Net, Recurrent, EnsembleLinear, BranchingNet, get_dict_state_decorator, RandomActor, get_output_dim), continuous.py (Actor, Critic, ActorProb, Perturbation, VAE), discrete.py (Actor, ImplicitQuantileNetwork, NoisyLinear, IntrinsicCuriosityModule) | weights are arbitrary functions of a row (no batch normalisation), LSTM is an arbitrary cell; device and dtype left out |
| `Fact*` | highlevel/module/{core, actor, critic, intermediate, special}.py, params/dist_fn.py, the policies' creation in highlevel/agent.py, the mixins and copies of highlevel/experiment.py, EnvType and shapes of highlevel/env.py | parameter values of modules (sizes, initialisation and identities only), devices, the other agents' parameters (`High*`) |
| `Work*` | env/worker/{base, dummy, subproc}.py (shared memory, requests, seeding), views in env/venvs.py and what the collector stores of them, env/venv_wrappers.py, env/pettingzoo_env.py, utils/space_info.py | pipes and processes (one request after the other), ray workers, gym versions, infos of PettingZoo |
| `Conv*` | data/utils/converter.py (to_numpy, to_torch, to_torch_as), Batch.to_numpy_/to_torch_, _parse_value, apply_values_transform of data/batch.py | lists of dicts, nested lists, distributions; rounding of floating point types |
| `Eval*` | data/stats.py, evaluation/launcher.py, loading of runs in evaluation/rliable_evaluation_hl.py, nested data, writing and restoring in utils/logger/tensorboard.py, utils/logger/wandb.py, highlevel/logger.py | single precision of logged numbers, histograms and figures, reservoir sampling of events, joblib and the wandb service, rliable plots |
| `Mode*` | train/eval of all policies, their target networks, torch_train_mode in collect and update, what a state dict holds, soft_update and load_state_dict, the noise of policy/modelfree/rainbow.py | single submodules of a network with modes of their own, shapes in state dicts, optimizers |
| `Restrict*` | prio.py:112-113; uses the models of `Buffer*`, `Prio*`, `GetIndices*`, `Ma*`, `Venv*` | positive restrictions of C51, C56, C62, C63, C64, C79, C84, C85 |
| `Dist*` | ImplicitQuantileNetwork, FullQuantileFunction of utils/net/discrete.py, forward and _target_q of policy/modelfree/iqn.py and fqf.py, losses of policy/imitation/discrete_bcq.py, forward of bdq.py, RecurrentCritic | cosine embedding and linear layers (any function), autograd |
| `Tstat*` | TrainingStats and its wrapper (policy/base.py:36-130), MapTrainingStats, statistics of PPO, GAIL and ICM, smoothing and logging of updates in trainer/base.py, gather_info of trainer/utils.py, utils/logging.py | attributes of classes (methods), float rounding, the minimal duration 1e-9, best-reward fields of InfoStats |
| `E2e*` | one policy update on a collected buffer: update/process_fn of policy/base.py, modelfree/ddpg.py, a2c.py, pg.py on top of `Collect*`, `Manager*`, `Returns*` | frame stacks, reward normalisation, random target policies; several calls that ask for episodes |
| `Setup*` | data/collector.py (construction, buffer check, info batch, actions of one step, stddev of Categorical, Monte Carlo hook), highlevel/agent.py (collectors) | rendering, other distributions, object arrays from ragged infos |
| `Fwd*` | `BasePolicy.compute_action`, `map_action` of arrays of any shape, `RandomActionPolicy`, `PGPolicy.forward`, `DiscreteSACPolicy.forward`, `SACPolicy.forward`, `correct_log_prob_gaussian_tanh`, `REDQPolicy.forward`, `DQNPolicy.forward`, `PSRLModel.solve_policy`, `PSRLModel.__call__` | networks, distributions and draws are parameters; arrays are a shape and an entry function, with broadcasting and `squeeze` |
| `View*` | `data/batch.py` get_sliced_dist, get_len_of_dist, dist_to_atleast_2d, to_at_least_2d, `__eq__`, to_dict | How DeepDiff compares two single arrays or two distributions (parameters); gradients |
| `Hmgr*` | `HERReplayBufferManager`, `HERVectorReplayBuffer` | stacked frames, HDF5 encoding |
| `Cbk*` | highlevel/trainer.py (epsilon and stop callbacks), trainer/utils.py test_episode (test_fn) | callbacks act on the epsilon of the policy along the events of a run of `TrainModel`; the log line of the linear decay and policies without set_eps are left out |
| `Parse*` | `_is_batch_set`, `_to_array_with_correct_type`, `_parse_value`, `_assert_type_keys`, `Batch.__init__`, `__setattr__`, `__setitem__` with a key, `to_dict`, `to_list_of_dicts`, `__iter__`, `_dict_of_arr_to_arr_of_dicts`: nested lists, ragged lists, lists of arrays and of dicts, object arrays | tensors and distributions (see `Conv*`, `View*`), booleans, batches inside lists of other things, objects with `__array__`, copy (see `Conv*`) |
| `Attr*` | `env/venvs.py` `__getattribute__`, `get_env_attr`, `set_env_attr`, `_wrap_id`, `_assert_id`; the attribute parts of the dummy and subprocess workers | wrappers are layers of plain attributes; gymnasium passes on names without a leading underscore |
| `Envf*` | `highlevel/env.py`: `VectorEnvType.create_venv`, `Environments`, `ContinuousEnvironments`, `DiscreteEnvironments`, `EnvPoolFactory`, `EnvFactory`, `EnvFactoryRegistered` | `gymnasium.make` is an arbitrary function that may raise; what envpool makes is described by the call |
| `Ctor*` | constructors of the 27 policy classes: parameter checks, action space checks, options kept, second critic and its optimizer | networks and optimizers are numbers of parameters; warnings left out; other arguments are only stored |
| `Npg*` | `policy/modelfree/npg.py` `_MVP`, `learn`; `policy/modelfree/trpo.py` `learn`: search direction, step size, the loops over minibatches, critic steps, reported numbers | gradients, Hessians, losses and divergences are arbitrary functions; exact arithmetic; the square root is any function; actor and critic share no parameters |
| `Laws*` | laws of `compute_episodic_return`, `compute_nstep_return`, `_gae_return`, `_nstep_return` (model in `Returns*`) | as in `Returns*` |
| `Treelaw*` | laws of `SegmentTree` and of prioritized draws (models in `SegTree*`, `Prio*`) | as in `SegTree*`, `Prio*` |
| `Batlaw*` | laws of the functions of `Batch*`: `Batch.__getitem__`, `__setitem__`, `cat` | no new definitions of code; "the same batch" means the same keys and arrays at every path, whatever the order of keys |
| `Rli*` | evaluation/rliable_evaluation_hl.py: _get_rliable_data, eval_results, load_and_eval_experiments | confidence intervals; axes of the caller; library functions (trim_mean, performance profile) as their definitions |
| `Comp*` | laws of composition: `Collector.collect` in parts, interleaved adds of a `ReplayBufferManager`, trainings of different length | as in `Collect*`, `Manager*`, `Train*` |
| `Alg*` | laws of `compute_nstep_return`, `RunningMeanStd`, `MovAvg` and `C51Policy._target_dist` (models in `Returns*`, `Stat*`, `Dqn*`) | as in those parts |
| `Stlaw*` | laws of `Batch.stack` with `cat` and `__getitem__` (models in `Batch*`) | as in `Batch*`; equal layouts |
| `Rsm*` | resuming a training: `BaseTrainer.reset` with `resume_from_log` and the epochs after it (model in `Train*`) | as in `Train*`; what is restored is what was saved last |
| `Psrlaw*` | order and grouping of the data given to `PSRLPolicy.learn` (model in `Psrl*`) | as in `Psrl*` |
| `Venlaw*` | laws of `BaseVectorEnv.step` and `reset` in synchronous mode (model in `Venv*`) | as in `Venv*` |
| `Mrg*` | laws of `ReplayBuffer.update` (model in `Buffer*`) | as in `Buffer*`; source and target are different objects |
| `Malaw*` | `MultiAgentPolicyManager.forward` with row-wise policies (model in `Ma*`) | as in `Ma*` |
| `Tat*` | `TruncatedAsTerminated`; changes of rewards and flags under collector, buffer manager and return computations (models in `Collect*`, `Manager*`, `Returns*`) | as in these; the wrapper's version check is left out |
| `Wrp*` | wrappers of observations and actions under the collector (model in `Collect*`) | as in `Collect*`; the wrapper is a pure function of the observation, info or action |
| `Pot*` | potential-based shaping of rewards under GAE, episodic returns and n-step targets (models in `Returns*`) | as in `Returns*` |
| `Spc*` | special cases in which two components coincide: TD3/DDPG, FQF/QRDQN/DQN/BDQ/BCQ, vector buffer of one/replay buffer (models in `Actor*`, `Quant*`, `Dqn*`, `Offline*`, `Manager*`) | as in these |
| `Deg*` | prioritized buffers with alpha or beta 0, HER without relabelling, the multi-agent manager with one agent (models in `Prio*`, `Her*`, `Ma*`) | as in these |
| `Neu*` | options that change nothing (full masks, eps 0, reward_scale 0) and targets that coincide between SAC, TD3, REDQ, CQL, BCQ, discrete SAC and CRR; the prioritized vector buffer with one sub-buffer (models in `Actor*`, `Offline*`, `Prio*`, `Dqn*`, `Icm*`) | as in these |
| `Sep*` | collecting from several environments compared with collecting from each alone (models in `Collect*`, `Manager*`) | as in these |
| `Aff*` | order-preserving changes of values in DQN and QR-DQN; changes of unit and origin in quantile losses, FQF, PPO, normalised advantages and OU noise (models in `Dqn*`, `Quant*`, `Onpol*`, `Actor*`) | as in these |
| `Inv*` | independence of other environments in collecting, of the unit of priorities, and of the order of rows in losses (models in `Collect*`, `SegTree*`, `Prio*` and those of the learners) | as in these |
| `Row*` | batch arithmetic and indexing commute (models in `Batch*`, `BatchOps*`) | as in these |
| `Iso*` | NPG and TRPO in other orthonormal coordinates and with equal curvature (models in `Trpo*`, `Npg*`) | as in these |
| `Hone*` | HERVectorReplayBuffer with one sub-buffer (models in `Her*`, `Hmgr*`) | `stack_num` 1, samples of a given size |
| `Ren*` | renumbering of states and actions in PSRL (model in `Psrl*`) | as there |
| `Sml*` | her.py: number and choice of altered episodes; `create_uniform_action_dist`; highlevel/optim.py with the builder settings; `ICMPolicy.learn` | exact arithmetic (floats could round the number of altered episodes down); networks and the inner policy arbitrary |
| `Snap*` | pickled, deep-copied and reloaded buffer managers and pickled or deep-copied cached buffers, with the sub-buffers' views (manager.py, cached.py) | arrays that are views of others are copied by themselves, as NumPy does; the HDF5 copy of a cached buffer is in `Hload*` |
| `Hload*` | CachedReplayBuffer after `save_hdf5`/`load_hdf5`: `main_buffer` is an object of its own (base.py, cached.py) | as in `Snap*` |
| `Fresh*` | what resetting a Collector forgets (model in `Collect*`) | as there |
| `Frame*` | frame-stacking environments with `save_only_last_obs` and `stack_num` (model in `Buffer*`) | as there; a frame-stacking environment is described by what it shows |
| `Ovl*` | relations between frame stacks (models in `Buffer*`, `Manager*`) | as there |
| `Renum*` | independence of the parts of a manager and their numbering (model in `Manager*`) | as there |
| `Onec*` | a cached buffer of one environment against a replay buffer (models in `Buffer*`, `Cached*`) | as there |
| `Pord*` | order of priority updates (models in `SegTree*`, `Prio*`) | as there |
| `Cren*` | renumbered environments of a cached buffer (model in `Cached*`) | as there |
| `Spare*` | buffers of different capacities (models in `Buffer*`, `Manager*`) | as there |
| `Repl*` | mapolicy.py `__init__`, `replace_policy`, base.py `set_agent_id` | policy objects as numbers, the dict of policies in insertion order |
| `Ray*` | ray.py `RayEnvWorker` beside dummy.py `DummyEnvWorker` | the actor runs its queue in order at arbitrary times; environments without a seed method |
| `Manum*` | renamed agents of the multi-agent manager (model in `Ma*`) | as there |
| `Spprio*` | prioritized buffers of different capacities (model in `Prio*`) | as there |
| `Aray*` | asynchronous steps of RayVectorEnv over the wait of Ray workers (`Ray*`) | stacking of the results; recv is reduced to the handle it asks for |
| `Expn*` | DDPGPolicy.exploration_noise in a collector, over OUNoise (`Actor*`) | actions have one component; each further one behaves alike |
| `Oulim*` | bounds and special cases of OUNoise (models in `Actor*`, `Expn*`) | as there |
| `Aonce*` | histories of asynchronous steps of RayVectorEnv (model in `Aray*`) | as there |
| `Manoise*` | MultiAgentPolicyManager.exploration_noise over DDPG policies (`Expn*`) | actions have one component; no policy object serves two agents |
| `Afair*` | sequences of asynchronous steps of RayVectorEnv that return (model in `Aray*`) | as there |
| `Aresr*` | resets between asynchronous steps of RayVectorEnv (`Aray*`, `Aonce*`) | checks and stacking of the results |
## Plan per property

| id | model | proof |
|----|-------|-------|
| C01 | `BufferModel`: state scalars + slot list; `add`, `update`, `reset` | invariant linking state to the log of all transitions; refinement to a bounded list queue (`lastn`) over `fold_left` |
| C02 | same, rewards in an arbitrary type with an arbitrary `radd` | same invariant; spec = fold over the log since the last episode end |
| C03 | `prev`/`next` with Python `%` on `Z` | invariant gives slot <-> log position; arithmetic |
| C04 | `unfinished_index` | corollary of the invariant |
| C05 | `sample_indices` with oracle draws, `sample_avail` filter loop | membership in the stored set; iterating `prev` characterised by log positions |
| C06 | `get` loop over `stack_num` | iterated `prev` |
| C07 | `get_buffer_indices`, `searchsorted` on edge lists | case analysis on edges; refutation for degenerate intervals if any |
| C08 | `ManagerModel`: flat storage + list of scalar states | simulation: sub-buffer `k` of the manager = stand-alone buffer fed with the projection of the trace |
| C09 | `_prev_index`, `_next_index` loops over the sub-buffers | per-index reduction to C03 functions |
| C10 | manager `sample_indices` | enumeration lemma over the sub-buffers |
| C11 | `VectorReplayBuffer.__init__` | arithmetic |
| C12 | `CachedModel`: main + caches, `add` with `update`/`reset` of the cache | invariant relating main to the log of moved episodes (uses C01 for `update`) |
| C13 | `SegTreeModel`: array as list, vectorised `_setitem` loop with fuel `bound` levels | invariant by level; read-over-write |
| C14 | `_reduce` loop | loop invariant on the remaining node interval |
| C15 | `_get_prefix_sum_idx` descent | loop invariant: prefix sums of subtrees |
| C16 | `PrioModel` on top of the segment tree; power functions uninterpreted | invariants over op sequences |
| C17 | `HERModel` rewrite/restore | restore . rewrite = id; goal index in same episode |
| C18 | `BatchModel.split` | induction on the number of chunks |
| C19, C20 | `BatchModel`: tree of columns (arrays = lists of rows) | structural induction on the tree |
| C21, C22, C24 | `ReturnsModel` on `Qc` | induction from the right; composed with the buffer log |
| C23 | `ReturnsModel`, `nstep` on buffer `next` | iterated `next` characterised by log positions |
| C25 | `PolicyModel.map_action` on `Qc` | order reasoning; tanh as an uninterpreted function into (-1,1) |
| C26 | `soft_update` on lists of `Qc` | ring + induction |
| C27 | `update` as a function over a trace of calls | case analysis; flags on normal path only (an exception leaves `updating` set - finding) |
| C28-C31 | `CollectorModel`: loop of `Collector._collect` with fuel, envs as oracles, manager as buffer | invariants of the loop |
| C32-C34 | `VenvModel`: `BaseVectorEnv.step/reset/seed/close` with a completion oracle | invariant over op sequences |
| C35-C37 | `TrainerModel` | invariants over epochs |
| C38-C40 | `DqnModel`, `C51Model` on `Qc` | order reasoning; partition of unity of hat functions |
| C41, C42 | `WrapperModel` | mixed-radix induction; arithmetic |
| C43 | `MAPolicyModel` | scatter/gather lemma |
| C44, C45 | `StatsModel` | induction over the updates (field arithmetic for C45) |
| C46 | `LoggerModel` | induction over steps |
| C47 | context managers as functions on command trees with exceptions | structural induction |
| C48 | `Hdf5Model` tree conversion | structural induction; partial: byte formats and pickle are assumed inverse |
| C49 | `TrpoModel` line search loop | expected refutation (failed search keeps the last trial parameters) plus the part that holds |
| C50 | `PsrlModel` on `Qc` | induction over observes |

Properties after C50 were added as the model grew; they use the models above and are listed with
their theorems below.

## Print Assumptions

Every theorem named in `MANIFEST.json` prints "Closed under the global context": no axiom of the
standard library or of any other library is used. (Sections are closed before the theorems, so
section variables appear as explicit quantifiers of the statements.)

## Status of every property

Proved 183, partial 202, not applicable 0; 976 theorems in all. "Partial" with a `_refuted` theorem
means that the property as a user would state it is false of the code as read; the witness is the
finding, and the other theorems say how much of it holds.

| id | property | status | theorems | remarks |
|----|----|----|----|----|
| C01 | ReplayBuffer is a bounded FIFO of transitions | proved | `C01_fifo`, `C01_add_overwrites_only_oldest`, `C01_update_total` | every history of add/reset/update; sources of update are themselves reachable buffers |
| C02 | add() reports the episode exactly | proved | `C02_episode_report` | rewards in an arbitrary type with an arbitrary addition, so floating point is covered; history of add and reset |
| C03 | prev() and next() walk one episode and never leave it | proved | `C03_prev_next` |  |
| C04 | unfinished_index() finds exactly the open episode | partial | `C04_unfinished_index`, `C04_never_written_refuted` | REFUTED in one corner: on a never-written buffer unfinished_index raises AttributeError instead of returning the empty array; proved for every state in which something was ever written |
| C05 | Sampled indices are always stored ones | proved | `C05_sample_all`, `C05_sample_random` |  |
| C06 | Frame stacking never mixes episodes | proved | `C06_stacking` |  |
| C07 | get_buffer_indices returns one sub-buffer's interval in order, or fails | proved | `C07_get_buffer_indices` |  |
| C08 | A manager behaves as independent buffers | proved | `C08_total`, `C08_independent`, `C08_content` | every history of add (ids given or not, also negative and repeated ids) and reset; capacities may differ |
| C09 | Manager prev/next/unfinished agree with each sub-buffer | proved | `C09_prev_next`, `C09_unfinished_index` | unfinished_index proved once something was written (never-written managers raise AttributeError as in C04) |
| C10 | Manager sampling covers exactly the stored transitions | proved | `C10_sample_all`, `C10_sample_random` | all batch sizes > 0 and 0; None is in C51's finding |
| C11 | VectorReplayBuffer splits the capacity evenly | proved | `C11_vector_split`, `C11_zero_rejected` |  |
| C12 | CachedReplayBuffer's main buffer holds only whole episodes in completion order | proved | `C12_cached_buffer`, `C12_prev_next` | every history of well-formed add (distinct environments per call) and reset; main capacity > 0; C58 records what happens for repeated and negative ids |
| C13 | SegmentTree keeps every inner node equal to the sum of its children | proved | `C13_node_sums_and_reads`, `C13_setitem_accepts` | exact rationals for float64; numba loops as written |
| C14 | SegmentTree.reduce is the sum of the slice | proved | `C14_reduce_is_slice_sum` | also covers empty slices and every legal negative end |
| C15 | SegmentTree.get_prefix_sum_idx inverts the prefix sum | proved | `C15_prefix_sum_idx`, `C15_prefix_rejects` | also: a positive query always lands on a leaf of positive weight |
| C16 | PrioritizedReplayBuffer samples only stored transitions and updates only what it is told to | proved | `C16_weights`, `C16_extremes`, `C16_sampling`, `C16_normalised_weights`, `C16_manager`, `C16_manager_add` | Weights, extremes, sampling law and normalised importance weights, single buffer and manager; x**alpha, x**(-beta) are arbitrary positive functions, floats are exact rationals. For the manager the draws must be > 0 (C65). |
| C17 | HER cache restoration undoes every rewrite | proved | `C17_restore`, `C17_relabel` | HERReplayBuffer with stack_num 1 and a scalar (row-wise) reward function; C17_restore for every call sequence incl. failing ones, C17_relabel for horizon at least the remaining episode length. HERVectorReplayBuffer is not modelled. |
| C18 | Batch.split visits every row exactly once | proved | `C18_split`, `C18_sizes` |  |
| C19 | Batch indexing, concatenation and stacking are mutually consistent | partial | `C19_cat`, `C19_cat_empty`, `C19_cat_structure`, `C19_cat_slice`, `C19_stack`, `C19_stack_row`, `C19_getitem`, `C19_getitem_range`, `C19_getitem_empty`, `C19_stack_partial` | arrays at one path of equal kind and row shape, no None values; cat: structures equal, empty batches pad; stack: keys missing from a batch must look alike in the others (C19_stack_partial), equal layouts otherwise; other kinds see C92, C93 |
| C20 | Batch assignment writes only the addressed rows | partial | `C20_nested_unknown_refuted`, `C20_setitem`, `C20_setitem_reject`, `C20_none` | value arrays have the kind and shape of the assigned rows; REFUTED for an unknown key in a nested value: ValueError after other keys were written (C20_nested_unknown_refuted) |
| C21 | GAE equals the exponentially weighted sum of TD errors up to the episode end | proved | `C21_gae_closed_form`, `C21_gae_recursion` |  |
| C22 | compute_episodic_return never leaks across episodes and bootstraps correctly | proved | `C22_episodic_return_buffer`, `C22_episodic_return_manager`, `C22_full_batch`, `C22_lambda_one` |  |
| C23 | n-step return looks ahead n steps or to the end of the episode | proved | `C23_nstep_buffer`, `C23_nstep_manager` |  |
| C24 | Monte-Carlo return-to-go | proved | `C24_return_to_go` |  |
| C25 | Actions sent to the environment respect the action space bounds | partial | `C25_in_bounds`, `C25_roundtrip_partial`, `C25_narrow_box_refuted`, `C25_unbounded_rejected` | bounds, end points, monotonicity proved for every output; round trip proved for intervals at least eps=2^-23 wide; REFUTED for narrower non-empty intervals (scale is increased by eps). Exact arithmetic; tanh any monotone function into [-1,1] |
| C26 | soft_update is a convex combination | proved | `C26_soft_update`, `C26_mismatch` | exact rational arithmetic; modules as lists of parameter lists |
| C27 | BasePolicy.update restores flags and respects the protocol | partial | `C27_update`, `C27_exception`, `C27_updating_left_set_refuted` | REFUTED for raising callbacks (updating stays True); protocol proved for arbitrary callbacks, exceptions passed on |
| C28 | Collector with n_episode collects exactly n_episode episodes | partial | `C28_exact`, `C28_terminates_partial`, `C28_long_episode_refuted` | PARTIAL: exactness is proved for every call that returns. That it returns is proved for episodes shorter than the sub-buffer; REFUTED beyond that (an episode as long as the sub-buffer raises ValueError). |
| C29 | Collector with n_step collects whole rounds | partial | `C29_rounds`, `C29_terminates_partial`, `C29_long_episode_refuted` | REFUTED for long episodes (C29_long_episode_refuted): an episode that fills its sub-buffer and does not start at slot 0 makes collect(n_step=...) raise ValueError, as for n_episode. Counts proved for every call that returns (C29 theorems); that it returns is proved for episodes shorter than the sub-buffers. |
| C30 | Every collected transition is stored once, in its environment's sub-buffer | proved | `C30_stored`, `C30_sequence` |  |
| C31 | CollectStats agree with the collected data | partial | `C31_stats_partial`, `C31_long_episode_refuted` | REFUTED for episodes not shorter than the sub-buffer (length and hook batch are of the part that get_buffer_indices finds); proved for shorter ones. |
| C32 | Vector environment routes actions and results by id | proved | `C32_step`, `C32_reset`, `C32_pipelined`, `C32_seed` | Any deterministic environment, both worker classes (distinct ids); with subprocess workers also for repeated ids (sequential reference). Environments that raise are not modelled |
| C33 | Asynchronous vector env: waiting and ready ids always partition the environments | proved | `C33_partition`, `C33_refused` | Legal calls: distinct ids, seed only when nothing runs (see C83, C84). Every completion order/timeouts as an oracle; both worker classes |
| C34 | A closed vector environment refuses further interaction | proved | `C34_closed`, `C34_close_once` | Every operation on a closed venv raises AssertionError (a second close too) and leaves the state unchanged; close_env exactly once per worker over any operation sequence |
| C35 | Trainer performs the promised number of epochs and steps | partial | `C35_epochs`, `C35_env_step`, `C35_steps`, `C35_resume_refuted` | Collectors/tests are oracles; REFUTED for resuming a complete run (one more epoch); otherwise proved for every configuration, stop function and schedule |
| C36 | Trainer keeps the best test score | partial | `C36_best_partial`, `C36_train_stop_refuted` | REFUTED for runs stopped by a test during training (best_score overwritten by a lower one, best_epoch and the saved policy unchanged); proved otherwise |
| C37 | Off-policy update count | proved | `C37_offpolicy`, `C37_onpolicy`, `C37_counter`, `C37_stop`, `C37_offline` | Python round as ties-to-even on exact rationals |
| C38 | Masked DQN actions are always legal | proved | `C38_greedy`, `C38_exploration`, `C38_random_policy` | argmax as first maximum; exact arithmetic; covers DQN greedy, epsilon-greedy and the random multi-agent policy |
| C39 | The DQN target network is a delayed copy | proved | `C39_target` | optimizer step an arbitrary function of both weights and batch |
| C40 | C51 projection preserves probability mass and mean | proved | `C40_projection` | exact arithmetic; every num_atoms > 1 and v_min < v_max |
| C41 | MultiDiscreteToDiscrete is a bijection | proved | `C41_decode`, `C41_encode` | md_action decodes every flat action into the mixed-radix digits; encoding round trip both ways. |
| C42 | ContinuousToDiscrete stays inside the box and reaches both ends | proved | `C42_dimensions`, `C42_mesh`, `C42_increasing` | Mesh of evenly spaced points between low and high; increasing; cd_action maps grid indices to mesh points for 1-d and 2-d actions. |
| C43 | Multi-agent policy manager returns each row's action from its own agent | proved | `C43_forward`, `C43_noise`, `C43_process`, `C43_learn` | forward, exploration_noise, process_fn and learn: every agent's policy is applied to exactly its own rows in order and its outputs go back to exactly those rows; rewards are restored (no exception). Assumes every row's agent is known for forward and one action per row; agent ids distinct |
| C44 | MovAvg is the mean of the last finite values | partial | `C44_movavg_partial`, `C44_no_infinity`, `C44_nan_refuted` | REFUTED for NaN objects other than np.nan itself (identity test in the banned list); proved for finite values, infinities and np.nan; infinities never enter. |
| C45 | RunningMeanStd equals the statistics of all data seen | proved | `C45_running_stats`, `C45_norm_clipped` | Population mean/var/count over all batches (scalar data, exact rationals); clipping bound for norm with sqrt as parameter. |
| C46 | Logger rate limiting | proved | `C46_rate_limit`, `C46_coverage`, `C46_restore` | Rate limiting and coverage for arbitrary interleavings of the four scopes and saves; restore_data returns the counters of the last save carried out. |
| C47 | torch_train_mode and policy_within_training_step restore the flags | proved | `C47_restored`, `C47_nested` | arbitrary bodies, exceptions and nestings; flag of the policy module itself (submodules: C68) |
| C48 | HDF5 conversion round-trips | partial | `C48_roundtrip_partial`, `C48_slash_refuted`, `C48_slash_error_refuted`, `C48_slash_lost_refuted`, `C48_data_type_refuted`, `C48_class_name_refuted` | REFUTED for keys containing "/", for a number stored under "__data_type__" and for objects whose class is called ndarray or Tensor (C48_*_refuted). C48_roundtrip_partial proves the round trip for every other nested structure of dicts, batches, arrays, tensors, numbers and pickled objects; a Python number and the numpy scalar h5py returns for it are identified. A number is lost when another key begins with its name and "/": {"a": 3, "a/b": x} comes back as {"a": {"b": x}}. |
| C49 | TRPO line search never leaves the actor outside the trust region | partial | `C49_first_acceptable_partial`, `C49_failed_search_refuted` | REFUTED: a failed line search leaves the last rejected trial in the actor and reports step size 0; proved: the first acceptable trial is kept. |
| C50 | PSRL posterior statistics are exact | proved | `C50_posterior` | Exact for every sequence of batches in any shuffled order, including the self-loops of add_done_loop; epsilon > 0. |
| C51 | sample_indices(None) enumerates the buffer | partial | `C51_sample_none_is_permutation_refuted`, `C51_sample_none_partial` | REFUTED: np.random.choice draws with replacement; indices repeat and others are missing. C51_sample_none_partial: as many as stored, all of them if the draws are distinct. |
| C52 | from_data builds the buffer that adding the data would build | partial | `C52_from_data_walk_refuted`, `C52_from_data_reads_partial` | REFUTED for prev/next: last_index stays 0 and the newest row wraps to the oldest; reads and sample_indices(0) are proved right |
| C53 | Episode starts reported after update() are right | partial | `C53_start_after_update_refuted`, `C53_next_episode_partial` | REFUTED: update() does not move _ep_start_idx. C53_next_episode_partial: right again after the first episode end. |
| C54 | ReplayBuffer.add accepts only buffer id 0 | partial | `C54_bad_ids_accepted_refuted`, `C54_check_partial` | REFUTED: the test uses `and`, so [3] and [0,7] are accepted; the exact acceptance condition is proved |
| C55 | dropnull leaves a usable buffer | partial | `C55_dropnull_full_refuted`, `C55_add_after_dropnull_refuted` | REFUTED: _insertion_idx becomes the number of rows left, so the next add raises, whatever was dropped (C55_add_after_dropnull_refuted, for every buffer with data) |
| C56 | get_buffer_indices rejects an interval outside the buffer | partial | `C56_out_of_range_accepted`, `C56_rejects_out_of_range_refuted`, `C56_inside_partial` | REFUTED: every interval beyond the last edge is accepted, whatever the edges. C56_inside_partial: with start inside a sub-buffer every stop outside it is refused. |
| C57 | Frame stacks of vector buffers stay in one episode of one sub-buffer | proved | `C57_stacking` |  |
| C58 | Only whole episodes enter CachedReplayBuffer's main buffer, whatever buffer_ids are accepted | partial | `C58_main_only_whole_episodes_refuted`, `C58_duplicate_ids_refuted` | REFUTED: buffer_ids=[-1] writes an unfinished row to the main buffer; repeated ids report index -1 and corrupt last_index. C12_cached_buffer is the restriction to legal, distinct ids. |
| C59 | Advantages depend only on their own episode | partial | `C59_own_episode_refuted` | REFUTED: with v_s omitted, np.roll takes the value of the state before the batch's previous element, so the first step of an episode uses another episode's bootstrap value. Restriction proved in C22: with consistent v_s the advantages are target - v_s; with v_s omitted it holds for steps preceded by a step of the same episode; returns are always right. |
| C60 | Un-normalised importance weights follow the quoted formula | partial | `C60_weight_above_one_refuted`, `C60_small_alpha_partial` | REFUTED: C60_weight_above_one_refuted (alpha=2, beta=1: weight 2); _min_prio is not raised to alpha. C60_small_alpha_partial: at most 1 whenever x <= pw x or 1 <= pw x for all x > 0 (exponents up to 1). |
| C61 | reset() of a prioritized buffer forgets the old weights | partial | `C61_reset_stale_refuted`, `C61_refilled_partial` | REFUTED: after reset() stale indices are sampled. C61_refilled_partial: once as many transitions were added as the buffer held before the reset, only stored indices are drawn. |
| C62 | sample_avail is honoured by prioritized sampling | partial | `C62_sample_avail_refuted`, `C62_all_partial`, `C62_ignored_refuted` | REFUTED: prioritized sampling ignores sample_avail. C62_ignored_refuted: for all options and positive batch sizes. C62_all_partial: batch sizes <= 0 honour it. |
| C63 | PrioritizedVectorReplayBuffer.set_beta takes effect | partial | `C63_set_beta_refuted`, `C63_own_partial` | REFUTED: set_beta of the vector buffer never changes the returned weights (for all arguments). C63_own_partial: the set_beta of PrioritizedReplayBuffer and PrioritizedReplayBufferManager does. |
| C64 | update() from an empty buffer is a no-op for prioritized buffers | partial | `C64_update_empty_refuted`, `C64_update_partial` | REFUTED: reading index[0] of an empty array; IndexError in the model, undefined in numba-compiled code. C64_update_partial: non-empty sources, after any history. |
| C65 | A prioritized manager samples only stored transitions for every draw in [0, 1) | partial | `C65_manager_draw_zero_refuted` | REFUTED: draw exactly 0 with an empty first sub-buffer gives the unstored index 0; C16_manager is the restriction to draws in (0,1). |
| C66 | Relabelled rewards are computed with the new goal | partial | `C66_reward_uses_new_goal_refuted`, `C66_saved_obs_next_partial` | REFUTED for save_obs_next=False (C66_reward_uses_new_goal_refuted: the reward is computed with the original goal found in the next row); true with stored obs_next (C66_saved_obs_next_partial together with C17_relabel). |
| C67 | update() from a HERReplayBuffer moves the original transitions | partial | `C67_update_from_her_refuted`, `C67_no_relabelling_partial` | REFUTED (C67_update_from_her_refuted: the source relabels rows in sample_indices(0) and the relabelled rows are stored); true when no episode is selected for relabelling (C67_no_relabelling_partial). |
| C68 | torch_train_mode restores the mode of every submodule | partial | `C68_homogeneous_partial`, `C68_submodule_modes_refuted` | REFUTED for trees with mixed modes; proved for trees in one mode |
| C69 | DQN targets bootstrap only from available actions | partial | `C69_double_partial`, `C69_nature_refuted` | REFUTED for is_double=False (maximum over all logits, mask ignored); proved for double DQN |
| C70 | The C51 target weights the n-step atoms by the distribution at the state they bootstrap from | partial | `C70_own_step_partial`, `C70_two_step_refuted` | REFUTED for n-step > 1: the distribution is taken at batch.obs_next (one step ahead); proved where the return reaches only its own step |
| C71 | RunningMeanStd uses the given initial standard deviation | partial | `C71_initial_std_refuted`, `C71_forgotten_partial` | REFUTED: std is stored as variance; proved: initial values are forgotten after the first update. |
| C72 | A restored TensorboardLogger continues rate limiting where the saved one stopped | partial | `C72_restored_test_refuted`, `C72_counters_partial`, `C72_train_update_partial` | REFUTED for the test scope (counter restored from the epoch, logging is by env_step) and the info scope (not restored); proved for train and update. |
| C73 | Conjugate gradients solve the linear system | partial | `C73_cg_partial`, `C73_zero_gradient_refuted` | REFUTED for b = 0 (0/0 gives NaN); proved for b <> 0: residuals are orthogonal, at most n of them, no division by zero, convergence in n steps (exact arithmetic). |
| C74 | Flat parameter vectors round-trip | proved | `C74_flat_round_trip` | Round trip in both directions. |
| C75 | PSRL learning does not modify the prior passed by the user | partial | `C75_prior_modified_refuted`, `C75_other_arrays_partial` | REFUTED: trans_count += mutates the prior array in place; proved: no other array changes. |
| C76 | PSRL keeps the posterior of unobserved state-action pairs | partial | `C76_unobserved_variance_refuted`, `C76_unobserved_partial` | REFUTED: the deviation of an unobserved pair changes and can become sqrt of a negative number (NaN) because the squared-sum lacks the prior's contribution; proved for counts, mean, squares. |
| C77 | PSRL value iteration terminates near the optimal values | partial | `C77_value_iteration_partial`, `C77_discount_one_refuted` | REFUTED for discount 1 (accepted by the constructor): oscillation forever; proved for discount < 1 with termination, error bound and greedy policy. |
| C78 | The multi-agent manager keeps every agent's hidden state between forward calls | partial | `C78_state_dropped_refuted`, `C78_state_kept_partial` | REFUTED: an agent without rows in one call loses its state; kept for agents with rows |
| C79 | The buffer's reward array survives an exception in a sub-policy's process_fn | partial | `C79_reward_lost_refuted`, `C79_normal_partial` | REFUTED: no try/finally around the loop, an exception leaves one agent's reward column in the buffer (normal return: C43_process). C79_normal_partial: every call that returns restores the array. |
| C80 | The multi-agent manager passes its modes on to the sub-policies | partial | `C80_sub_not_within_refuted`, `C80_mode_not_restored_refuted`, `C80_mode_partial` | REFUTED: is_within_training_step is set on the manager only (sub-policies with deterministic_eval act deterministically while training), and train() leaves the manager's own flag so the sub-policies' mode is not restored; mode theorem for sub-policies in the manager's mode |
| C81 | An asynchronous step returns at least wait_num results when enough environments are waiting | partial | `C81_dummy_wait_num_refuted`, `C81_wait_num_partial`, `C81_dummy_half_partial` | REFUTED for DummyVectorEnv: the loop pops from the list it iterates over, returning ceil(k/2) results; proved for subprocess workers |
| C82 | An asynchronous step(None) returns | partial | `C82_nothing_waiting_refuted`, `C82_waiting_partial` | REFUTED: with nothing running, while not ready_conns never ends; proved when something is running and finishes |
| C83 | seed() in asynchronous mode does not mix up results | partial | `C83_seed_running_refuted`, `C83_seed_partial` | REFUTED: no check for running environments; the pipe hands out the step result as the seed and vice versa. Proved when nothing is running |
| C84 | Illegal ids in an asynchronous step are rejected | partial | `C84_not_ready_partial`, `C84_duplicate_ids_refuted` | REFUTED for repeated ids: environment both waiting and ready. Not-ready ids are rejected (C33_refused). C84_not_ready_partial restates this for both cases. |
| C85 | A synchronous step that raises has no effect | partial | `C85_dummy_partial`, `C85_stale_result_refuted` | REFUTED: actions before the invalid id have been sent, the next step returns the stale result. C85_dummy_partial: with environments in the same process it holds after any steps, failed ones included. |
| C86 | The on-policy gradient_step counts the mini-batch updates | partial | `C86_minibatches_refuted`, `C86_divides_partial` | REFUTED: the split merges the last batch, batch_size None counts 2; equal when the batch size divides the length (repeat 1) |
| C87 | run() resets exactly when asked to | partial | `C87_no_reset_refuted`, `C87_resets_partial` | REFUTED: __iter__ always resets, so run() resets twice, or once with reset_prior_to_run=False; exact number of resets proved |
| C88 | reset() returns a trainer to its initial counters | partial | `C88_counters_refuted`, `C88_env_step_partial` | REFUTED for gradient_step and env_episode; proved for epoch and env_step, and for restored counters |
| C89 | Training without a test collector needs no test configuration | partial | `C89_episode_per_test_refuted`, `C89_given_partial` | REFUTED: _collect_training_data asserts episode_per_test is not None even without a test collector |
| C90 | stop_fn always judges returns after reward_metric | partial | `C90_metric_refuted`, `C90_no_metric_partial` | REFUTED: the test during training calls test_episode without reward_metric; proved when the metric does not change the numbers |
| C91 | In-place concatenation and stacking agree with Batch.cat / Batch.stack | partial | `C91_cat_inplace_partial`, `C91_stack_inplace_partial`, `C91_cat_inplace_refuted` | REFUTED: with a key that is empty in only some of the batches cat_ raises ValueError or leaves arrays of different length; proved when there is no such key |
| C92 | Concatenation keeps the values of every batch | partial | `C92_cat_values_refuted`, `C92_cat_values_partial` | REFUTED: a key missing (empty) in one batch takes the kind of the first batch that has it, later float values are truncated; proved for equal kinds |
| C93 | Stacking accepts partial nested keys | partial | `C93_stack_more_refuted`, `C93_stack_more_partial` | REFUTED: nested batches with different keys stack, but raise ValueError when a batch without the outer key is added; proved when the partial keys look alike |
| C94 | Assigning a batch its own rows changes nothing | partial | `C94_self_assign_partial`, `C94_self_assign_refuted` | REFUTED for batches that hold None (TypeError); proved for batches without None |
| C95 | dropnull removes exactly the rows with a null | partial | `C95_hasnull`, `C95_dropnull_partial`, `C95_dropnull_refuted` | REFUTED: rows of dimension one or more are flattened into the result, and if every row has a null the keys are lost; proved for one-dimensional arrays and at least one complete row |
| C96 | A pickled Batch is restored | partial | `C96_pickle_partial`, `C96_pickle_refuted`, `C96_pickle_self_refuted` | REFUTED: __setstate__ calls __init__(**state), so a key called copy or batch_dict is lost and a key called self raises TypeError. C96_pickle_partial: with any other top-level keys the Batch is restored exactly. |
| C97 | Hidden state is reset at episode ends | partial | `C97_hidden_partial`, `C97_tensor_refuted` | REFUTED for torch tensors: tensor[index].zero_() changes a copy. Proved for arrays and Batches. |
| C98 | Exactly one of n_step and n_episode is accepted | partial | `C98_neither_partial`, `C98_both_refuted`, `C98_zero_steps_refuted` | REFUTED: both may be given (the loop stops at whichever comes first), and n_step=0 with n_episode=k collects with all environments and may return more than k episodes. Proved: neither is refused. |
| C99 | Reported episodes are episodes of the environment | partial | `C99_whole_partial`, `C99_episodes_partial`, `C99_reset_refuted`, `C99_unused_env_refuted` | REFUTED: reset_before_collect, and the reset of unused environments at the end of an n_episode call, leave the buffer's episode open, so the steps before are counted with the next episode. Proved when no episode is in progress, which calls with n_episode >= N preserve. |
| C100 | collect_step and collect_episode count everything collected | partial | `C100_counters_partial`, `C100_reset_refuted` | REFUTED: reset_before_collect zeroes the counters. Proved without it. |
| C101 | Return, length and hook agree on the rows of an episode | partial | `C101_same_rows_partial`, `C101_kept_refuted` | REFUTED: after reset_buffer(keep_statistics=True) the return counts more rows than the length. Proved for buffers that were never reset that way. |
| C102 | Merged hooks deliver the entries of all hooks | partial | `C102_unchecked_partial`, `C102_checked_refuted` | REFUTED: set(new).difference(result) is non-empty for every new key, so with the default check any returned entry raises KeyError. Proved: without the check the last hook wins for each key. |
| C103 | Asynchronous collection joins what belongs together | proved | `C103_joined` | Per environment the stored transitions are the run of this environment on its own with the actions answered for it, for every answering order and sequence of collect calls that return; at the end exactly the running environments have one action outstanding, answered for their current observation. |
| C104 | Asynchronous collection works with every policy | partial | `C104_never_partial`, `C104_stateless_refuted`, `C104_emptied` | REFUTED: the entry stored per environment for a policy without hidden state is an empty Batch, and indexing an empty Batch raises IndexError (batch.py:746) in the first round (the following access to the hidden state would fail too). Random collection has no hidden state either. Proved: with such a policy no call of collect on a collector without hidden state ever returns. |
| C105 | Asynchronous collection stores the policy's actions | partial | `C105_scalar_partial`, `C105_actions_refuted` | REFUTED: actions are kept in np.empty(env_num), a float vector: actions that are arrays do not fit (ValueError) and integer actions come back as floats. Proved: without array actions the stored actions are the answered ones converted to floats. |
| C106 | An asynchronous collector can be reset at any time | partial | `C106_reset_partial`, `C106_reset_refuted` | REFUTED: reset_env fetches results only once, so with fewer than half of the environments awaited (or with workers in the same process) some are still running when all are reset: AssertionError. Proved: with worker processes, no timeout and wait_num at least half of the environments, reset succeeds after any calls of collect (or waits for ever) and leaves no environment running. |
| C107 | reset_env of an asynchronous collector takes effect | partial | `C107_reset_env_refuted` | REFUTED: reset_env updates neither the current observations nor the set of ready environments: the next collect acts on observations from before the reset and never steps the environments that were running. After reset() C103/C104 hold. |
| C108 | Asynchronous collection counts and reports its episodes | proved | `C108_counts` | Every sequence of collect calls that return, episodes of every length. |
| C109 | Asynchronous collection keeps hidden states apart | proved | `C109_hidden` | Hidden states in tensors are excluded: they are not reset (C97). |
| C110 | The storage of a buffer holds the latest write to every slot | proved | `C110_store`, `C110_read_back` | For histories whose values have one kind and shape per path and no None. C110_read_back reads a slot with Batch.__getitem__. |
| C111 | A stored value keeps its type | partial | `C111_first_type_refuted` | REFUTED: the array of a key gets the type of the first value, so a later action 1/2 after an integer action 1 is stored as 0 (base.py:471-485 casts only rew and the flags). With one kind per key C110_read_back gives the value back. |
| C112 | A write that raises leaves the buffer as it was | partial | `C112_other_rows_partial`, `C112_add_refuted` | REFUTED: _update_state_pre_add runs before the write, so after an add that raises the buffer is longer by one and its new row is partly written (here obs is there, rew is 0). Restriction proved: rows other than the addressed ones never change, even when the write raises. |
| C113 | Adding batches adds the values under each key | partial | `C113_add_partial`, `C113_scale`, `C113_order_refuted` | REFUTED in general: __iadd__ pairs the values of both batches by position (zip over values()), so with keys in another order unrelated values are added; values added to an empty nested batch are ignored. Proved for equal key order (partial), and for numbers in full. |
| C114 | Batch arithmetic obeys the laws of its elements | proved | `C114_comm`, `C114_assoc`, `C114_double`, `C114_distr` | Contents are exact rationals or NaN; rounding is not modelled. Both batches have equal keys, kinds and shapes. |
| C115 | A failing in-place operation leaves the batch as it was | partial | `C115_layout_partial`, `C115_raises_refuted` | REFUTED: the strict zip of __iadd__ raises after the common positions were added; a None or an array that cannot take the operand raises after the values before it were changed. Proved: keys, kinds and shapes never change. |
| C116 | Dividing undoes multiplying | partial | `C116_floats_partial`, `C116_ints_refuted` | REFUTED for integer arrays: __itruediv__ divides in place, which numpy refuses for integers, and __truediv__ works on a deep copy in the same way, so even batch / 2 raises. Proved for float arrays. |
| C117 | empty_ clears the selected rows and nothing else | proved | `C117_setitem`, `C117_empty` | Arrays are at least one-dimensional for an index; scalars get index None only. |
| C118 | set_array_at_key writes the rows and keeps the rest | partial | `C118_existing`, `C118_missing`, `C118_nested`, `C118_whole`, `C118_dimensions_refuted` | REFUTED for arrays of more than one dimension: a missing key is always created one-dimensional, so the write raises and the new key stays in the batch. Proved: existing keys of any dimension, missing keys for one-dimensional arrays, and calls without index. |
| C119 | Length and shape agree | partial | `C119_shape`, `C119_shape_refuted` | REFUTED: with a None the shape is [] and with a nested batch whose arrays have no rows it starts with 0, while the length ignores both. Proved for batches without None, empty batches and empty arrays. |
| C120 | replace_empty_batches_by_none replaces exactly the empty batches | proved | `C120_replace` | The comparison with an empty batch is modelled as having no keys (DeepDiff of the two dicts). |
| C121 | Parameters fit the constructors of the policies | proved | `C121_binds`, `C121_wrong_env` |  |
| C122 | Parameters reach the policy under their own names | proved | `C122_values` |  |
| C123 | A policy can be created exactly for the documented parameter values | partial | `C123_accepts`, `C123_documented_refuted` | REFUTED for three documented values: PPOParams documents dual_clip as c < 1 - eps_clip (typically 0 to 0.5) while PPOPolicy asserts dual_clip > 1; action_bound_method='tanh' is allowed for DDPG, REDQ, SAC and TD3 by the parameter classes but asserted away by DDPGPolicy; an integer alpha such as 1 is taken for a tuple (isinstance(alpha, float)) and raises TypeError. Proved: the exact set of values accepted, for all twelve algorithms. |
| C124 | The automatic entropy coefficient steers the entropy towards its target | partial | `C124_continuous`, `C124_discrete_refuted` | REFUTED for discrete actions: the default target is minus the number of actions, below any attainable entropy, so log_alpha of DiscreteSAC decreases in every step, by at least lr * n. Proved for continuous actions (plain gradient steps). |
| C125 | An automatic entropy coefficient can be tuned | partial | `C125_redq_refuted`, `C125_sac_partial` | REFUTED for REDQ: learn reads self._target_entropy and self._log_alpha, the constructor sets target_entropy and log_alpha, so the first actor update with automatic alpha raises AttributeError. Proved for SAC and DiscreteSAC. |
| C126 | A sampling configuration determines the trainer | partial | `C126_accepts`, `C126_arguments`, `C126_episodes_refuted`, `C126_no_tests_refuted`, `C126_checkpoints_refuted` | REFUTED in three ways: a configuration with episode_per_collect is accepted, but create_trainer does not pass it, so the first collection raises ValueError; num_test_episodes = 0 is accepted with a warning, but the trainer's first test raises ValueError; off-policy trainers get no save_checkpoint_fn. C126_accepts gives the exact condition for acceptance, C126_arguments what does reach the trainer and when its requests are valid. |
| C127 | Epochs, steps and updates of a training run are as documented | proved | `C127_counts` | Proved for runs without stop callback; each collection is taken to have the same number of steps (C29 proves that a collection of n steps with m environments has ceil(n/m)*m). |
| C128 | The linear schedule keeps the learning rate between zero and its initial value | partial | `C128_onpolicy`, `C128_offpolicy_refuted` | REFUTED off-policy: the schedule counts collections, but the scheduler is stepped once per update; with q updates per collection the factor ends at 1-q, i.e. the learning rate becomes negative for q > 1. On-policy the property is proved. |
| C129 | The linear decay of epsilon | partial | `C129_decay`, `C129_zero_refuted` | REFUTED only for decay_steps = 0, where the first call raises ZeroDivisionError; proved for all positive numbers of decay steps. |
| C130 | An experiment does what its configuration says, in order, and returns the result of the training | partial | `C130_result_refuted`, `C130_order`, `C130_restore`, `C130_disk` | REFUTED for the result: run() discards what trainer.run() returns, trainer_result is always None (so launchers return lists of None). Order, configured parts and what is left on disk are proved. |
| C131 | The experiments of a seeded collection have non-overlapping seeds and unique names | partial | `C131_distinct`, `C131_overlap_refuted`, `C131_registered_refuted` | REFUTED: the test seeds of each experiment are training seeds of the next one, and a registered environment factory keeps its own seeds, so that all experiments use the same environment seeds. Proved: seeds of experiments, names and configured training seeds are pairwise different; within one experiment training and test seeds are disjoint. |
| C132 | Launchers return the results of the successful experiments | partial | `C132_results`, `C132_single_refuted` | REFUTED for a single experiment, whose exception is not caught. For all other numbers of experiments proved for both launchers. Parallel execution is taken to return the outcomes in order (joblib). |
| C133 | The best policy is restored with what was saved with it | partial | `C133_restore`, `C133_checkpoints`, `C133_disabled`, `C133_best_partial`, `C133_items_refuted` | REFUTED: the items have one file each, which every checkpoint overwrites, so restoring gives the best policy with the items of the last checkpoint. C133_restore is the exact result; without checkpoints (the off-policy factories) the items are those of the best policy. Parts of the policy outside the state dictionary are never restored. |
| C134 | A group of learning rate schedulers steps, saves and restores all of them | partial | `C134_step`, `C134_roundtrip_partial`, `C134_lambda_refuted` | REFUTED for LambdaLR (the schedulers of LRSchedulerFactoryLinear): load_state_dict updates __dict__, which replaces the lambda by None or a dict; the next step raises TypeError. Proved for schedulers without lambda. The behaviour of torch's schedulers is part of the model. |
| C135 | The clipped surrogate objective of PPO | partial | `C135_clip`, `C135_dual`, `C135_bounds`, `C135_loss`, `C135_inside_refuted` | REFUTED as stated for dual clipping: the constructor asserts dual_clip > 1.0 but not dual_clip > 1 + eps_clip; with 1 < c < 1 + eps the lower bound c*adv is active inside the clipping interval. The rest holds for all constants: C135_clip, C135_dual, C135_bounds. |
| C136 | Value clipping of PPO | proved | `C136_value` |  |
| C137 | Normalised advantages are finite, centred and ordered like the advantages | partial | `C137_normalised`, `C137_rows`, `C137_nan_refuted` | REFUTED for minibatches with one row: torch's std of one value is NaN, so with batch_size 1 (or one row in the buffer) all advantages, hence the loss, are NaN. C137_rows: with merge_last a minibatch has one row only if batch_size is 1 or the batch has one row. C137_normalised: the property otherwise. |
| C138 | Each repetition uses every row exactly once | proved | `C138_steps` |  |
| C139 | max_batchsize does not change the result | proved | `C139_max_batch` |  |
| C140 | Returns are advantages plus values | proved | `C140_returns` |  |
| C141 | Every collected row enters the running statistics of the returns once | partial | `C141_once`, `C141_repeat_refuted` | REFUTED for recompute_advantage: each repetition after the first recomputes returns and counts all rows in ret_rms again. Holds without it (C141_once). |
| C142 | The returns of the policy gradient are standardised with the statistics before the update | proved | `C142_pg` |  |
| C143 | ICM restores the original reward after an update | partial | `C143_update`, `C143_restore_refuted` | REFUTED: Batch(orig_rew=batch.rew) keeps the array that += then modifies in place, so the original reward is restored exactly when no row got a bonus (C143_restore_refuted, for all models). The buffer's rewards are untouched (C143_update). |
| C144 | The intrinsic reward reaches the wrapped policy | partial | `C144_episodic`, `C144_nstep_refuted` | REFUTED for n-step learners (DQN, DDPG, TD3, SAC, ...): compute_nstep_return reads buffer.rew, so ICM has no effect on their returns, for every model and scale. For learners that use batch.rew (PG, A2C, PPO) the bonus enters linearly (C144_episodic). |
| C145 | A policy wrapped in ICM behaves in training as on its own | partial | `C145_train`, `C145_eps`, `C145_sampling`, `C145_wrapped_refuted` | REFUTED for the training-step flag: policy_within_training_step sets it on the outer policy only, so a wrapped policy with deterministic_eval=True takes the mode of its distribution while training. train and set_eps do reach the wrapped policy; C145_sampling is the exact condition. |
| C146 | GAIL updates the discriminator disc_update_num times with every row once | partial | `C146_steps`, `C146_few_rows`, `C146_count_refuted`, `C146_reward` | REFUTED: with n rows there are n // (n // k) updates, between k and 2k-1, equal to k exactly when n mod k < n / k; with fewer than k rows learn fails with an AssertionError. Partition, expert batches and reward hold. |
| C147 | After an update the priorities are those of the learner's errors | partial | `C147_errors`, `C147_reversed_refuted` | REFUTED for learners that do not set batch.weight: it still holds the importance weights, which are written back as priorities; the order of the priorities of the sampled transitions is reversed (for every history). Learners that store errors: C147_errors. |
| C148 | Calibrated CQL compares with the return of the same transition | partial | `C148_column`, `C148_not_wrapped`, `C148_wrapped_refuted`, `C148_vector_refuted`, `C148_twice_refuted` | REFUTED for a buffer that has wrapped around (rows get the return of another row), for a vector buffer with a sub-buffer that is not full (wrong row, IndexError on sampling), and for a second trainer on the same buffer (TypeError, duplicate key). True for a single buffer that is not full or whose next write goes to row 0 (C148_not_wrapped); C148_column gives the value of each row in general. |
| C149 | Offline learners bootstrap after a time limit | partial | `C149_targets`, `C149_truncated_refuted` | REFUTED: BCQ, CQL and CRR use batch.done, so a truncated row's target is its reward alone. Holds for rows that are not truncated. |
| C150 | BCQ takes the best of the actions sampled for the same observation | proved | `C150_targets`, `C150_clipped`, `C150_forward` | Networks and the decoder are arbitrary functions; done is used as in C149. |
| C151 | The CQL regulariser is the log-sum-exp of all sampled actions of a row | partial | `C151_rows`, `C151_reshape_refuted`, `C151_single`, `C151_alpha` | REFUTED for num_repeat_actions >= 2: the result of reshape is dropped, so log-sum-exp runs over three values at a time and the term is strictly smaller for every batch. True for num_repeat_actions = 1. logsumexp is any function that is symmetric and grows with each further value. |
| C152 | The random actions of CQL are uniform in the action range | partial | `C152_range`, `C152_constant_refuted` | REFUTED: the code draws from uniform_(-min_action, max_action); for every range symmetric around 0 (the default) all actions are max_action, and with -min_action > max_action an error is raised. |
| C153 | Discrete BCQ chooses the best action among the likely ones | partial | `C153_likely`, `C153_large_values_refuted` | REFUTED if two values differ by more than INF = 1e8 (the penalty of unlikely actions). Proved when all differences are smaller. |
| C154 | The value term of TD3+BC is normalised | proved | `C154_bounded` | NaN (None) exactly if the critic is zero on the whole batch. |
| C155 | Advantages and weights of CRR | proved | `C155_centred`, `C155_weights` | exp is any monotone function. |
| C156 | CRR weights every transition by its own advantage | partial | `C156_product_refuted`, `C156_example_refuted`, `C156_equal_weights` | REFUTED: log_prob has shape (B,), the weights shape (B, 1), so the product has shape (B, B) and the loss is the mean weight times the mean negated log probability. True if all weights are equal. |
| C157 | Fractions of the quantile learners | proved | `C157_midpoints`, `C157_proposed`, `C157_value` | The categorical distribution is any vector of non-negative numbers with sum 1. |
| C158 | The quantile Huber loss is zero only for equal distributions | proved | `C158_zero`, `C158_batch`, `C158_shapes` | Gradients are not modelled. |
| C159 | Optimal quantiles do not cross | proved | `C159_no_crossing`, `C159_between`, `C159_huber` | About the loss the code computes; existence of minimisers is not claimed. |
| C160 | Gradient of the fractions in FQF | proved | `C160_gradient` | fraction_gradient is the code's gradient_of_taus; that this is the derivative of the 1-Wasserstein distance is from the paper and not proved. |
| C161 | is_double selects double Q-learning in the distributional learners | partial | `C161_double`, `C161_ignored_refuted` | REFUTED: is_double is never read in QRDQN, IQN, FQF and C51; the online network always chooses. Holds for is_double=True or without a target network. |
| C162 | Targets of branching DQN | partial | `C162_branch`, `C162_targets`, `C162_discount_refuted`, `C162_unfinished_refuted`, `C162_single_row_refuted` | REFUTED: the policy's discount factor is ignored (0.99 is used), the last stored step of a running episode is treated as terminal, and with one row and several branches squeeze() removes the row axis (one target and one priority per branch instead of one for the transition). C162_targets gives the value for more than one row. |
| C163 | Loss and priority of branching DQN | partial | `C163_loss`, `C163_cancel_refuted`, `C163_one_branch` | REFUTED for the priority with two or more branches: errors are summed with their signs. Holds for the loss, and for the priority with one branch. |
| C164 | Exploration of branching DQN stays in range | partial | `C164_range`, `C164_mask_refuted` | REFUTED with a mask, which is added to the random action. Holds without a mask. |
| C165 | The conservative term of discrete CQL is non-negative | proved | `C165_nonneg` | logsumexp is any function that is at least the maximum. |
| C166 | Target networks are moving averages of the online networks | proved | `C166_ddpg`, `C166_sac`, `C166_redq`, `C166_td3` | DDPG, TD3, SAC / discrete SAC and REDQ, for every network, gradient function and optimizer that keeps the shapes of the parameters; deterministic networks. |
| C167 | Delayed updates of the actor | proved | `C167_td3`, `C167_redq`, `C167_zero` | TD3 and REDQ; a frequency of zero raises ZeroDivisionError in the first call (C167_zero). |
| C168 | Every optimizer step uses the gradient of its own loss | proved | `C168_gradients`, `C168_accumulation` | All four learners, any contents of the gradient fields. |
| C169 | The two critics are two estimates | partial | `C169_same_refuted`, `C169_given` | REFUTED when critic2 is not passed (the default): the second critic is a copy, is trained on the same batches, targets and weights with an optimizer of the same options, and stays equal to the first for ever, so min(Q1, Q2) = Q1 in TD3 and SAC (C169_same_refuted, every history). Holds of a critic that is passed (C169_given). |
| C170 | Target policy smoothing | partial | `C170_noise_partial`, `C170_range_refuted` | REFUTED for the range: the smoothed action is not clipped to the action range (C170_range_refuted); the distance and the minimum are proved (C170_noise_partial). |
| C171 | Soft targets of SAC, discrete SAC and REDQ | proved | `C171_redq`, `C171_dsac`, `C171_lower` | REDQ for every subset and both modes; discrete SAC as the mean over actions; lower bound. |
| C172 | OUNoise is an Ornstein-Uhlenbeck process | partial | `C172_process_partial`, `C172_restart_refuted` | REFUTED for a size that is not a tuple and for a changed size: the process restarts at 0 (not x0) in every call (C172_restart_refuted); closed form proved for calls of one tuple size (C172_process_partial). |
| C173 | A cloned optimizer has the configuration of the old one | partial | `C173_clone_partial`, `C173_options_refuted` | REFUTED: options changed after construction (schedulers, parameter groups) are lost, optim.defaults are used (C173_options_refuted); holds if they are unchanged (C173_clone_partial). |
| C174 | A transition has priority zero only if every critic is exact | partial | `C174_between_partial`, `C174_cancel_refuted` | REFUTED: opposite errors of two critics (of an ensemble) cancel (C174_cancel_refuted); the weight lies between the errors (C174_between_partial). |
| C175 | optim_step clips the gradient | partial | `C175_clip_partial`, `C175_zero_refuted` | REFUTED for max_grad_norm = 0.0, which does not clip, and for a missing module, which raises after the backward pass (C175_zero_refuted); positive maxima are proved (C175_clip_partial). |
| C176 | The layers of an MLP fit together | proved | `C176_sizes`, `C176_accepted` |  |
| C177 | Constructor arguments given per layer reach the layers | partial | `C177_lists`, `C177_single`, `C177_dropped_refuted`, `C177_tuple_refuted` | REFUTED: with a list of argument sets (norm_args or act_args) and a single layer class, MLP hands the whole list to every layer (common.py:98-100, 113-115), where it is neither tuple nor dict and is dropped without an error (common.py:32-46); a tuple of classes, which nothing excludes, raises TypeError. C177_lists holds when classes and arguments are both lists. |
| C178 | Dueling networks | proved | `C178_dueling`, `C178_atoms` |  |
| C179 | Net maps a batch to [batch, actions(, atoms)] | proved | `C179_shape`, `C179_concat` |  |
| C180 | linear_layer is used for every linear layer of Net | partial | `C180_plain`, `C180_heads_refuted` | REFUTED for dueling networks: the Q and V heads are built without linear_layer, so Net(linear_layer=NoisyLinear, dueling_param=...) has plain heads unless the head's own dict names it. C180_plain holds without dueling. |
| C181 | Branching networks | partial | `C181_values`, `C181_sizes`, `C181_default_refuted` | REFUTED for the defaults: BranchingNet without common_hidden_sizes raises IndexError (common.py:519, common_hidden_sizes[-1] of an empty list). The values of a network that could be built satisfy the law (C181_values). |
| C182 | Actors return probabilities | proved | `C182_probs`, `C182_uniform` |  |
| C183 | Members of an ensemble are independent networks | proved | `C183_members` |  |
| C184 | Dict observations are concatenated in the order of the keys | partial | `C184_batched`, `C184_single_partial`, `C184_ragged_refuted`, `C184_listshape_refuted` | REFUTED for a single observation with entries of different widths (ValueError) and for shapes that are ints or lists (a single observation is taken as a batch). Holds for batches and for single observations with equal widths and tuple shapes. |
| C185 | get_output_dim falls back to the given value | partial | `C185_present_partial`, `C185_missing_refuted` | REFUTED: a module without the attribute output_dim raises AttributeError whatever the alternative value is. Holds for modules that have the attribute (possibly None). |
| C186 | A recurrent network sees a sequence as its steps | proved | `C186_sequences`, `C186_keys` |  |
| C187 | Actors pass on the hidden state | partial | `C187_threads`, `C187_prob_refuted` | REFUTED for ActorProb: forward returns the state it was given, not the hidden state of the preprocessing network, so a recurrent preprocessing network starts anew in every step. Holds for the deterministic and the discrete actor. |
| C188 | Actions lie in the range | proved | `C188_bounded`, `C188_perturb`, `C188_latent` |  |
| C189 | A critic accepts what it was built for | partial | `C189_fits`, `C189_obs_only_refuted` | REFUTED for apply_preprocess_net_to_obs_only together with actions: the last layers are built for the output of the preprocessing network, not for that plus the action, so every call raises RuntimeError. Holds for all other combinations. |
| C190 | Noisy layers | proved | `C190_noisy` |  |
| C191 | Entries of quantile networks | proved | `C191_entries` |  |
| C192 | Curiosity is zero exactly for predicted transitions | proved | `C192_curiosity`, `C192_loss` |  |
| C193 | Modules have the sizes that were asked for | partial | `C193_actor`, `C193_critic`, `C193_discrete_refuted`, `C193_envs` | REFUTED for the default actor factory in discrete environments (C193_discrete_refuted): hidden sizes and activation are ignored; the actor always has two layers of 64 units with ReLU (highlevel/module/actor.py:142-146). Proved for continuous environments, for the specific factories and for all critics. |
| C194 | The parts of an agent fit each other | partial | `C194_actor`, `C194_critic`, `C194_reuse`, `C194_reuse_refuted` | REFUTED for critics that use the actor with learners that pass an action (see C194_reuse_refuted): the reused network makes a head that is too narrow for observation features and action, or a discrete critic that takes no action. Proved for actors and for critics of their own, and for reuse by the learners that pass the observation only. |
| C195 | Critics that use the actor share its network | partial | `C195_shared`, `C195_copy`, `C195_pickle_refuted` | REFUTED after saving and loading an experiment, or sending it to another process (C195_pickle_refuted): the decorator makes a new future that the critic factory does not know, so a fresh experiment raises ValueError and one that was run uses an old actor's network. Proved for experiments in one process and for copies of builders. |
| C196 | Output and distribution agree | partial | `C196_dist`, `C196_softmax`, `C196_dsac_refuted`, `C196_dsac`, `C196_kind` | REFUTED for discrete SAC as made by its builder (C196_dsac_refuted): its policy takes the actor's output for logits while the default actor applies a softmax, so no action is more than e times as probable as any other. Proved for the distribution functions of the factories and for discrete SAC with an actor without softmax. |
| C197 | Agents are created for the right environments | partial | `C197_default`, `C197_no_dist_refuted` | REFUTED for A2C, PPO, NPG and TRPO with an actor factory without distribution (C197_no_dist_refuted): the policy is created with None as distribution function; PG raises. Proved for the default factories of all agents. |
| C198 | Every parameter has one optimizer | partial | `C198_once`, `C198_twice_refuted`, `C198_trust`, `C198_trust_refuted` | REFUTED for critics that use the actor (C198_twice_refuted, C198_trust_refuted): in DDPG, SAC and TD3 the shared network is in two optimizers, and in NPG and TRPO the critic's regression moves the actor after its trust-region step. Proved for critics of their own. |
| C199 | Initialisation reaches the layers | partial | `C199_init`, `C199_ensemble_refuted` | REFUTED for ensembles of critics (C199_ensemble_refuted): EnsembleLinear is no nn.Linear, so init_linear_orthogonal changes nothing. Proved for all other factories. |
| C200 | The last setting of a builder counts | proved | `C200_latest` |  |
| C201 | Intermediate modules announce their size | proved | `C201_intermediate`, `C201_unknown_size`, `C201_icm` |  |
| C202 | Built experiments are fixed | partial | `C202_copy`, `C202_callbacks_refuted` | REFUTED for epoch callbacks (C202_callbacks_refuted): the TrainerCallbacks object is shared with the experiments already built. Proved for name and optimizer, and for experiments built from copies. |
| C203 | Observations survive shared memory | partial | `C203_round_trip`, `C203_setup`, `C203_number_refuted`, `C203_missing_key_refuted`, `C203_broadcast_refuted` | REFUTED in part (C203_number_refuted, C203_missing_key_refuted, C203_broadcast_refuted): observations that fit the space arrive as sent, whatever the memory contained. A number or a list instead of an array (what environments with a Discrete observation space return) is silently not written, so the reader gets the previous contents; keys missing from a dictionary keep the value of an earlier observation; an array of one element is spread over a whole row. |
| C204 | Workers of all kinds answer alike | partial | `C204_same_answers`, `C204_same_answers_refuted` | REFUTED in part (C204_same_answers_refuted): for every sequence of calls both kinds of worker give the same answers and the same states, except that a missing attribute or render raises an AttributeError in one and returns None in the other, and seed returns [seed] in one and None in the other. |
| C205 | Seeding the action space does not depend on the kind of worker | partial | `C205_actions`, `C205_reset_seed_refuted` | REFUTED in part (C205_reset_seed_refuted): reset(seed=...) of a vector environment seeds the action space of workers in other processes but not of DummyEnvWorker, whose send does not do what its reset does. Without such calls the actions agree (C205_actions). |
| C206 | Returned observations stay as they were | partial | `C206_arrays`, `C206_dicts_refuted`, `C206_collector`, `C206_collector_refuted` | REFUTED for dictionary observations (C206_dicts_refuted, C206_collector_refuted): ShArray.get returns a view, and np.stack of dictionaries keeps them, so every dictionary that a worker ever returned shows its latest observation; the collector, which builds the batch after the step, then stores the next observation as obs and as obs_next in every transition. Proved for array observations. |
| C207 | Observations are normalised with their own statistics | partial | `C207_statistics`, `C207_off`, `C207_dict_refuted` | REFUTED for dictionary observations (C207_dict_refuted): the error message for tuples recommends them, but they raise a TypeError. Proved for arrays. |
| C208 | Test environments share the statistics of training | proved | `C208_shared`, `C208_updating` | Including test calls before the first training call, which use the initial statistics. |
| C209 | Rewards of a multi-agent game belong to the agents | partial | `C209_rewards`, `C209_stale_refuted`, `C209_masks` | REFUTED in part (C209_stale_refuted): an agent for which the environment reports no reward keeps its old one at every later step, also after a reset; what the list contains is the last reported reward (C209_rewards). |
| C210 | Wrapped vector environments can replace the environment inside | partial | `C210_forwarded`, `C210_drop_in_refuted`, `C210_async_collector_refuted` | REFUTED in part (C210_drop_in_refuted, C210_async_collector_refuted): the fields of BaseVectorEnv (env_num, workers, waiting_id, ready_id, is_closed, ...) are missing from wrappers, and AsyncCollector.reset_env raises an AttributeError with a wrapped environment. Reserved keys, length, is_async and methods are forwarded through any number of wrappers. |
| C211 | Space information describes the space | proved | `C211_box`, `C211_discrete`, `C211_rejected` |  |
| C212 | to_numpy keeps keys, types, shapes and numbers | proved | `C212_to_numpy`, `C212_lists`, `C212_idempotent`, `C212_types` |  |
| C213 | to_torch converts everything it can and reports the rest as TypeError | partial | `C213_to_torch`, `C213_error_refuted`, `C213_row_refuted` | REFUTED (C213_error_refuted, C213_row_refuted): inside a Batch, None, scalars (e.g. every value of a row b[i] of one-dimensional arrays) and other objects raise AttributeError (batch.py:898-912 reads arr.device), although to_torch accepts the scalar itself. C213_to_torch proves exactly what is accepted. |
| C214 | to_torch gives the requested type | partial | `C214_dtype`, `C214_twice`, `C214_batch_array_refuted`, `C214_conversion` | REFUTED (C214_batch_array_refuted): Batch.to_torch_ ignores dtype for numpy arrays (batch.py:899-900), so to_torch(batch, dtype) leaves their type unchanged and a second call changes it. C214_dtype and C214_twice prove what holds: outside containers and for tensors the type is right, and after two conversions everywhere. |
| C215 | Converting to torch and back is the identity | proved | `C215_torch_numpy`, `C215_numpy_torch` |  |
| C216 | Converted containers do not share memory with the argument | partial | `C216_fresh`, `C216_shared`, `C216_dict_refuted`, `C216_cast` | REFUTED for to_numpy of dicts (C216_dict_refuted): Batch(x) copies nothing (converter.py:28), so every array and cpu tensor in the dict is shared with the result at every level. C216_fresh proves the property for to_torch and for to_numpy of Batches, C216_shared what single arrays do. |
| C217 | Summary statistics describe the sequence | proved | `C217_bounds`, `C217_permutation`, `C217_affine`, `C217_concatenation`, `C217_rows` | Variance instead of standard deviation; exact rationals. |
| C218 | A launcher returns the results of the experiments that did not fail | partial | `C218_sequential`, `C218_joblib`, `C218_single_refuted` | REFUTED (C218_single_refuted): a single experiment is executed without protection, so its own exception is raised instead of RuntimeError, and an empty list raises 'All experiments failed' (launcher.py:76-87). C218_sequential and C218_joblib prove the rest for all lists of other lengths. |
| C219 | Flattened log data keep every number under its path | partial | `C219_flatten`, `C219_collision_refuted` | REFUTED (C219_collision_refuted): keys containing or starting with the delimiter collide and only the last number is kept (tensorboard.py:74-75). C219_flatten proves the property for keys without the delimiter. |
| C220 | Restored log data contain every tag | partial | `C220_restore`, `C220_conflict_refuted` | REFUTED (C220_conflict_refuted): a tag whose path leads through an earlier tag makes restoring fail with AttributeError or IndexError (tensorboard.py:176-184). C220_restore proves the property if no tag is a prefix of another. |
| C221 | Writing and restoring is the identity on histories | proved | `C221_round_trip`, `C221_step_type` |  |
| C222 | Unknown fields of logged data are ignored | partial | `C222_fields`, `C222_unknown_refuted` | REFUTED (C222_unknown_refuted): a key is popped from the dictionary while it is iterated over (rliable_evaluation_hl.py:48-52), so any unknown key raises RuntimeError, or TypeError if its value is a nested dictionary such as pred_dist_std_array_stat, which is logged for Gaussian policies. C222_fields proves the property for known fields. |
| C223 | Loaded runs are aligned with the environment steps | partial | `C223_columns`, `C223_aligned`, `C223_shifted_refuted`, `C223_other_steps_refuted` | REFUTED (C223_shifted_refuted, C223_other_steps_refuted): env_step is logged for every collect but returns only with finished episodes, so that returns are shown at the steps of earlier collects, and the steps are always those of the last run (rliable_evaluation_hl.py:150-156). C223_aligned proves the property when every collect finished an episode and the runs agree on the steps; C223_columns describes the result in general. |
| C224 | Missing training or test data are only warned about | partial | `C224_nothing`, `C224_layout`, `C224_no_train_refuted` | REFUTED (C224_no_train_refuted): test data only lead to ValueError (min of an empty list, rliable_evaluation_hl.py:170), runs without training scope (offline learning) to KeyError (line 132). C224_nothing proves the RuntimeError case. |
| C225 | The wandb logger honours its options | partial | `C225_intervals`, `C225_flush_refuted` | REFUTED (C225_flush_refuted): load passes the options by position without info_interval (wandb.py:106-115), so write_flush=False is ignored. C225_intervals proves what is passed on correctly. |
| C226 | The logger factory passes its options on | partial | `C226_wandb`, `C226_interval_refuted` | REFUTED (C226_interval_refuted): the tensorboard logger is created without save_interval (highlevel/logger.py:78-80), so every epoch is saved; 'pandas' is accepted and refused later. C226_wandb proves the property for wandb. |
| C227 | The wandb logger restores the checkpoint saved last | partial | `C227_restore`, `C227_default_refuted` | REFUTED (C227_default_refuted): without a checkpoint an error is raised instead of returning the defaults (wandb.py:163-167, utils/logger/base.py:141-149). C227_restore proves the property after a save. |
| C228 | train(mode) switches all online networks and no target network | partial | `C228_train_partial`, `C228_missed_refuted` | Proved after any history for all classes but FQF, BCQ (networks never switched) and DiscreteCRR with targets (recursive train switches them too). REFUTED in general: fqf.py:93 fraction_model and bcq.py:107 vae are not named in train(), so neither eval() nor train() ever reaches them; mapolicy.py:282-286 does not set the manager's own flag. |
| C229 | Target networks are in evaluation mode at all times | partial | `C229_targets_partial`, `C229_targets_refuted` | Proved for all histories for the other classes. REFUTED for DiscreteCRR (nn.Module.train is recursive, so the eval() of discrete_crr.py:92-94 is undone by the first train(True), and the targets are in training mode whenever it learns), for BCQ (eval() is never called on the copies, bcq.py:93-105) and for Rainbow with noisy layers (rainbow.py:58 puts the target into training mode for good; intended for the noise, but batch norm and dropout of the target follow). |
| C230 | Networks are in evaluation mode while collecting, in training mode while learning, and afterwards as before | partial | `C230_within_partial`, `C230_restored_partial`, `C230_manager_refuted` | Inside the blocks: proved for all classes but FQF and BCQ. Afterwards: proved for all policies without a manager after any first call (a noisy Rainbow target excepted). REFUTED for the multi-agent manager, universally: the flag that torch_train_mode saves never changes (see C80). |
| C231 | A policy's state dict holds all that was learned | partial | `C231_round_trip_partial`, `C231_entries`, `C231_manager_refuted`, `C231_temperature_refuted` | Round trip proved for what is registered with nn.Module. REFUTED: MultiAgentPolicyManager keeps its policies in a dict (mapolicy.py:110), so that its state_dict() and parameters() are empty for all sub-policies, and a checkpoint of it restores nothing; SAC's (REDQ's, CQL's) learned log_alpha is a plain tensor and is not saved either (sac.py:139-153). |
| C232 | Target networks follow their online networks | partial | `C232_buffers_refuted`, `C232_soft_partial`, `C232_sync` | REFUTED for buffers: soft_update zips parameters() only (base.py:287-290), so batch norm statistics of a target stay those of its creation for ever, for all training steps; the target is used in evaluation mode, i.e. with them. With tau = 1 and equal buffers it is the same as load_state_dict. Convergence of parameters is C26. |
| C233 | Rainbow draws independent noise for the online and the target network, and noise drives exploration | partial | `C233_fresh_partial`, `C233_sync_refuted`, `C233_collect_refuted` | REFUTED twice: at every synchronising update (the first included) load_state_dict copies the eps buffers too and overwrites the noise just drawn for the target, which then equals the online network in everything; and collect runs the network in evaluation mode (collector.py:472), where NoisyLinear adds no noise, so that noise never affects collected actions. Proved in between: fresh, disjoint draws, and weights of the last synchronisation. |
| C234 | IQN evaluates its networks at the sampled fractions | proved | `C234_forward`, `C234_target` |  |
| C235 | FQF evaluates both networks at the fractions proposed by the online network | proved | `C235_target`, `C235_gradients` |  |
| C236 | Losses of discrete BCQ | partial | `C236_loss`, `C236_imitator_state_refuted`, `C236_stateless_partial` | REFUTED for the hidden state: the imitator gets the state returned by the Q-network (C236_imitator_state_refuted); C236_loss proves the statement about the losses, C236_stateless_partial the restriction to networks without state of their own. |
| C237 | Branching DQN respects action masks | partial | `C237_greedy_partial`, `C237_mask_refuted` | REFUTED: the mask is not looked at; C237_greedy_partial is the statement without masks. |
| C238 | The recurrent critic accepts what the recurrent actor accepts | partial | `C238_value`, `C238_single_frame_refuted` | REFUTED for single frames (assertion), which the recurrent actors accept; C238_value covers sequences. |
| C239 | A wrapper of training statistics behaves like one object | partial | `C239_assign`, `C239_shadow_refuted`, `C239_sync`, `C239_inner_refuted` | REFUTED for attributes that wrapper and wrapped object both have (C239_shadow_refuted: the assignment goes inside, contrary to rule 1 of the docstring, and the old value is read back) and for base fields assigned on the wrapped object itself (C239_inner_refuted). Proved otherwise: C239_assign, C239_sync. |
| C240 | Training statistics report all losses | partial | `C240_reported`, `C240_sequences`, `C240_agents_refuted`, `C240_nested_refuted` | REFUTED for a wrapper around the statistics of several agents (C240_agents_refuted: none of their losses is reported) and for ICM inside ICM (C240_nested_refuted). Proved for all other nestings (C240_reported); PPO and GAIL report means, and gradient_steps among the losses (C240_sequences). |
| C241 | Statistics of several agents keep the agents apart | partial | `C241_keys`, `C241_collision_refuted`, `C241_time`, `C241_aggregator_refuted` | REFUTED: ids that print alike (1 and '1') overwrite each other (C241_collision_refuted); update overwrites the aggregated time, so the aggregator has no effect, and an update without data for any agent raises ValueError (C241_aggregator_refuted). Proved: keys (C241_keys) and bounds of the aggregated time on construction (C241_time). |
| C242 | Smoothed losses are means of the last 100 values and raw losses are logged | partial | `C242_smoothed`, `C242_raw`, `C242_raw_refuted` | REFUTED for wrappers and several agents: only train_time and smoothed_loss are logged (C242_raw_refuted). Proved: smoothed values (C242_smoothed), raw values of plain statistics (C242_raw). |
| C243 | The timing information of a training run adds up | partial | `C243_counts`, `C243_async_partial`, `C243_times_refuted`, `C243_update_refuted`, `C243_instant_refuted` | REFUTED: collectors other than AsyncCollector never add to collect_time, so collect and test times are always 0 and testing counts as training (C243_times_refuted); update time is not reset (C243_update_refuted); division by zero if no time has passed (C243_instant_refuted). Proved: counts, sums and speed (C243_counts), times for asynchronous collectors (C243_async_partial). |
| C244 | Rounding a dict for printing | proved | `C244_round`, `C244_order` | Floats as exact rationals. |
| C245 | Off-policy targets are those of the environments' own trajectories | proved | `C245_off_policy` | Frame stacking off (stack_num 1, whole observations); the buffer is empty before the first call. |
| C246 | Not saving next observations does not change the targets | partial | `C246_no_next_partial`, `C246_saved`, `C246_no_next_refuted` | REFUTED: at truncated steps and at the newest step of a sub-buffer the value is taken from the observation before the step; the targets agree for episodes that end with a terminal step, and C245/C247 give the targets in every case. |
| C247 | On-policy returns and advantages are those of the environments' own trajectories | proved | `C247_on_policy` | Frame stacking off; reward normalisation off; the buffer is empty before. |
| C248 | Policy-gradient returns are discounted reward sums of the environments' own trajectories | proved | `C248_policy_gradient` | Frame stacking off; reward normalisation off; the buffer is empty before. |
| C249 | The batch of infos has one row for every environment | proved | `C249_info`, `C249_dtype` | Proved for infos whose entries at the same path agree in kind and shape (others give object arrays, not modelled) and whose partially missing keys look alike; the infos are parsed dicts. |
| C250 | Standard deviations of categorical actions | proved | `C250_variance`, `C250_zero`, `C250_shape` | Proved for the variance; the square root taken afterwards is left out. Batches of distributions have one dimension, other distributions are left out (dist.stddev is returned). |
| C251 | The Monte Carlo hook adds the returns of the episode | proved | `C251_hook` | Proved; an empty episode, which the collector does not produce, raises. |
| C252 | The check of the buffer at construction of a collector is exact | partial | `C252_validate`, `C252_zero_refuted` | REFUTED for sub-buffers of size zero: VectorReplayBuffer(0, n) is accepted although every add raises ZeroDivisionError, while a plain buffer of size zero is rejected. Proved, as an equivalence, for all buffers whose sub-buffers have room. |
| C253 | The collectors of an experiment fit their environments | partial | `C253_collectors`, `C253_zero_refuted` | REFUTED for buffer_size=0: rejected for one training environment only; with several the collectors are created and the first add raises ZeroDivisionError (C252). Proved for buffer sizes greater than zero. |
| C254 | The stored action is one that the policy maps to the executed action | partial | `C254_policy`, `C254_random_partial`, `C254_clip_refuted`, `C254_entry` | REFUTED for random actions with action_bound_method="clip" and action_scaling=False: map_action_inverse does not clip, a sample outside [-1, 1] is executed and stored although map_action would send another action for it. Proved for actions of the policy, and for random actions that map_action can reach (scaling with sides of at least eps, no bound method, or a space that is no Box). |
| C255 | Actions are the mode exactly in deterministic evaluation | proved | `C255_forward`, `C255_update` | The learners are arbitrary functions of forward that keep the flag is_within_training_step; policies nested in ICM or the multi-agent manager have flags of their own, see C145 and C80. |
| C256 | Squashed actions and their log probabilities belong together | proved | `C256_squashed` | tanh is any function into [-1, 1] and log any function on the positive numbers; floating-point rounding is not modelled. |
| C257 | compute_action returns the action to execute | partial | `C257_box_partial`, `C257_discrete`, `C257_scalar_observation_refuted`, `C257_shape_refuted`, `C257_as_collected`, `C257_broadcast` | REFUTED: compute_action calls squeeze() and obs[None, :]. Observations without axes (discrete observation spaces, dicts) raise IndexError for every policy; an action of shape (1,) loses its axis without scaling, and an action of shape (n, 1) becomes an n x n matrix with scaling. Proved for all observations with an axis and all action shapes without axes of length 1, and as equality with what the collector executes; C257_discrete is complete for discrete actions. |
| C258 | The random policy acts at random in the action space | partial | `C258_random_partial`, `C258_clipped_refuted`, `C258_start_refuted`, `C258_spaces` | REFUTED: RandomActionPolicy uses BasePolicy's default action_bound_method clip without scaling, so in a Box beyond [-1, 1] the executed actions are clipped to [-1, 1] (and may lie outside the box), and in Discrete spaces with start > 0 the drawn actions are not in the space. Proved for boxes inside [-1, 1] and for Discrete with start 0. |
| C259 | Forward passes of DQN | proved | `C259_calls`, `C259_max_action_num`, `C259_observation` |  |
| C260 | PSRL acts by the posterior of all it has learned | partial | `C260_current_partial`, `C260_solved_once`, `C260_stale_refuted` | REFUTED: solve_policy sets updated before solving, so when sampling or value iteration raises, the next call silently acts by the policy of the earlier posterior (or raises AttributeError). Proved whenever solving succeeds; C260_solved_once holds always. |
| C261 | Slicing a distribution selects elements of the batch | partial | `C261_slice`, `C261_unbatched_refuted` | REFUTED for distributions without a batch: a slice of a Categorical keeps some classes and rescales their probabilities, a slice of Independent(Normal, 1) keeps some components; both raise no error. Proved for distributions over a batch: same class, parameters element by element, length, IndexError out of range. |
| C262 | to_at_least_2d gives every value a batch axis | partial | `C262_dist`, `C262_event_refuted`, `C262_nested_refuted`, `C262_batch` | REFUTED: dist_to_atleast_2d returns Independent(Normal, 1) without batch unchanged, so its batch_shape stays empty (the tests only use Independent(..., 0)); distributions in nested batches are put into object arrays of shape (1, 1); tensors become numpy arrays. Proved for distributions without event axes and for the values of the batch itself. |
| C263 | Rows made two-dimensional concatenate to the batch | partial | `C263_rows`, `C263_images_refuted` | REFUTED: concatenating rows of arrays with three or more axes merges the first two axes. Proved: two axes are restored, one axis becomes (n, 1). |
| C264 | Equality of batches | partial | `C264_eq`, `C264_equivalence`, `C264_scalar_refuted`, `C264_numpy` | REFUTED for shapes: np.atleast_1d makes a number equal to the array of one number, None equal to [None], and an empty object array equal to an empty Batch. Proved otherwise, with DeepDiff's comparison of single arrays and of distributions as parameters; keys copy, batch_dict and self are excluded (C96). |
| C265 | Relabelling in a HER buffer manager is undone and stays in its sub-buffer | proved | `C265_restore`, `C265_relabel`, `C265_negative`, `C265_set_batch` | For any history of add / reset / sample calls with stack_num 1 the HER manager returns what the plain manager returns and saves the same state; one sampling relabels only sampled episodes of the sub-buffer they belong to. With a negative batch size the manager returns without restoring earlier relabellings, unlike a single HERReplayBuffer (C265_negative). |
| C266 | Every training collection explores as scheduled | proved | `C266_decay`, `C266_constant` | run over the event trace of TrainModel; schedules SetEps and LinearDecay with decay_steps > 0 (0: see C129). |
| C267 | Tests are not affected by the exploration of training | partial | `C267_tests_partial`, `C267_no_callback_refuted` | REFUTED without a test callback: only the tests made before any training use the epsilon of the policy, all others use the one set for training (universal). Proved with a test callback. |
| C268 | Training is not affected by the test callback | partial | `C268_test_only_refuted`, `C268_none_partial` | REFUTED: with a test callback and no train callback the test in reset sets epsilon before the first collection and nothing sets it back, so all training is done with the test epsilon (universal, with a test collector). Proved without any callback. |
| C269 | The train callback is called once at the beginning of each epoch | partial | `C269_calls_partial`, `C269_once_refuted` | REFUTED: train_fn is called before every collection, not once per epoch (base.py:496-501), e.g. twice in an epoch with two collections. Proved: exactly one call before each collection, with the epoch and the steps collected so far. |
| C270 | The reward threshold of the stop callback | proved | `C270_threshold` | should_stop for all thresholds and specs; comparison is >= although the docstring says exceed. |
| C271 | Training stops when a test reaches the threshold | partial | `C271_reached_partial`, `C271_initial_refuted` | REFUTED: stop_fn is given best_reward, which includes the test before the training (base.py:287-303, 453): if that test reaches the threshold the training stops after one epoch whatever the later tests give (universal, score = mean). Proved: an early stop implies best_reward >= threshold, that of the first test with the best score unless a test during training stopped it. |
| C272 | Nested lists of numbers become the array of those numbers | proved | `C272_numbers` | numpy >= 1.24 (nested lists of unequal lengths are refused without dtype=object); booleans left out |
| C273 | Lists of objects keep their elements | partial | `C273_objects`, `C273_mixed_refuted` | REFUTED: in a list with only numbers and strings, both present, every number becomes a string ([1, 'a'] gives ['1', 'a']); proved when some other object such as None is in the list, or only strings |
| C274 | Ragged lists are stored as object arrays | partial | `C274_ragged`, `C274_arrays_refuted` | REFUTED for arrays with the same number of rows (other than one) and different further dimensions: TypeError; proved when the lengths differ |
| C275 | A Batch of a list of dicts gives the dicts back | partial | `C275_rows`, `C275_empty_refuted` | REFUTED: an empty dict gives no row and all later rows move up; proved for non-empty dicts of the same layout |
| C276 | What is given to the Batch constructor is stored or refused | partial | `C276_fields`, `C276_keys`, `C276_dropped_refuted` | REFUTED: a list with an element that is no dict, a number array, a number, string or other object is dropped without an error; proved for dicts and keywords |
| C277 | Parsing a stored value changes nothing | partial | `C277_again_partial`, `C277_rows_refuted` | REFUTED: an object array without rows counts as a list of dicts and becomes an empty Batch; proved for all other values |
| C278 | The infos of envpool environments as dicts | partial | `C278_transposed`, `C278_none_refuted` | REFUTED for None, which becomes an object array of None; proved for arrays with the same number of rows (object arrays with rows of non-zero length) |
| C279 | Attributes of environments have the value last written | partial | `C279_history`, `C279_hidden_refuted`, `C279_get` | REFUTED for attributes a wrapper also has: set_env_attr writes to env.unwrapped and get_env_attr reads the outermost wrapper that has it, so the written value is never read; and for private attributes behind a wrapper, which gymnasium does not pass on. Proved for all others over all sequences of calls, including those that raise. |
| C280 | set_env_attr writes to all of the environments or none | partial | `C280_written_refuted`, `C280_atomic`, `C280_success` | REFUTED in synchronous mode: ids are not checked, so the environments before the first id out of range have been written when IndexError is raised. Proved for asynchronous mode and after close. |
| C281 | Reading an attribute that an environment does not have raises | partial | `C281_dummy`, `C281_subproc_refuted` | REFUTED for environments in other processes: the subprocess answers None if there is no such attribute. Proved for environments in the same process. |
| C282 | The spaces of a vector environment can always be read | partial | `C282_spaces`, `C282_stepping_refuted` | REFUTED in asynchronous mode: while one environment is stepping, reading a space raises AssertionError. Proved when none is stepping. |
| C283 | create_envs creates the environments asked for | proved | `C283_created`, `C283_succeeds`, `C283_backend` |  |
| C284 | Environments are made with the arguments given | proved | `C284_pool`, `C284_gym` |  |
| C285 | Watch environments are single and in the same process | partial | `C285_watch`, `C285_pool_refuted` | REFUTED for EnvFactoryRegistered with an envpool factory: the number asked for is honoured, the environments are envpool's and the render mode is dropped, so nothing is shown. Proved without envpool. |
| C286 | Environment factories saved with one seed can be loaded | proved | `C286_old`, `C286_new` |  |
| C287 | from_factory_and_type checks the type of the environments | partial | `C287_continuous`, `C287_discrete_refuted` | REFUTED for the discrete type: DiscreteEnvironments does not look at the action space, so every environment with a Box of actions is taken as discrete with the shape of the Box as number of actions. Proved for the continuous type. |
| C288 | max_action bounds all actions | partial | `C288_uniform`, `C288_first_refuted`, `C288_matrix_refuted` | REFUTED: max_action is high[0], so a larger bound of another component exceeds it, and for actions of several dimensions it is an array. Proved for a vector of equal bounds. |
| C289 | Policies accept exactly the documented parameters | proved | `C289_accepts`, `C289_type` |  |
| C290 | Discount factors and target rates are in [0, 1] | partial | `C290_range`, `C290_bcq_refuted` | REFUTED for BCQ, which checks neither gamma nor tau (C290_bcq_refuted, for all parameters); proved for the other classes. |
| C291 | The estimation step of a policy is positive | partial | `C291_positive`, `C291_any_refuted`, `C291_zero_refuted` | REFUTED for DDPG, TD3, SAC, REDQ, CQL, DiscreteSAC and TD3BC: any integer is taken (C291_any_refuted), and with 0 the target ignores the rewards (C291_zero_refuted). Proved for the Q-learning classes. |
| C292 | Policies refuse action spaces they cannot handle | partial | `C292_sac`, `C292_box_refuted`, `C292_discrete_refuted` | REFUTED: only SAC, CQL and DiscreteSAC check (C292_sac). The other classes for discrete actions take a Box (C292_box_refuted), DDPG, TD3, TD3BC, REDQ and BCQ take a Discrete space if action_scaling is off (C292_discrete_refuted). |
| C293 | action_bound_method takes the documented values | partial | `C293_none`, `C293_empty_refuted` | REFUTED: the empty string that the documentation gives for no bounding raises ValueError in every class with the option (C293_empty_refuted); None works. Values are kept as given (C293_none). |
| C294 | Temperatures are numbers or learnable | partial | `C294_float`, `C294_int_refuted` | REFUTED: an int raises TypeError, being subscripted as a tuple (C294_int_refuted); floats and proper tuples are equally accepted (C294_float). |
| C295 | The second critic is trained by its optimizer | partial | `C295_trained`, `C295_untrained_refuted` | REFUTED: given critic2_optim without critic2, the second critic is a copy that no optimizer changes (C295_untrained_refuted); TD3 refuses only the other incomplete case. Proved for the remaining combinations. |
| C296 | The search direction of NPG and TRPO is a direction of descent | proved | `C296_descent` |  |
| C297 | More conjugate gradient iterations never hurt | proved | `C297_iterations` |  |
| C298 | The initial step of TRPO is the largest in the trust region | proved | `C298_trust` |  |
| C299 | NPG steps once per minibatch and the critic as often as asked | proved | `C299_npg`, `C299_reports`, `C299_compose`, `C299_succeeds`, `C299_zero` |  |
| C300 | Reported step sizes of TRPO certify the update | proved | `C300_certified`, `C300_compose` |  |
| C301 | Lambda-returns are averages of n-step returns | proved | `C301_mixture_buffer`, `C301_mixture_manager`, `C301_extremes_buffer`, `C301_monte_carlo` |  |
| C302 | Returns contract errors of the values | proved | `C302_contraction_buffer`, `C302_contraction_manager` |  |
| C303 | Consistent values are fixed points | proved | `C303_consistent_buffer`, `C303_consistent_manager` |  |
| C304 | Returns stay in the range of the values | proved | `C304_range_buffer` |  |
| C305 | Returns are linear in rewards and values | proved | `C305_linear_gae`, `C305_linear_nstep` |  |
| C306 | Returns are monotone | proved | `C306_monotone_nstep`, `C306_monotone_gae` |  |
| C307 | A segment tree is determined by its entries | proved | `C307_canonical`, `C307_commute`, `C307_join` |  |
| C308 | Sums of slices of a segment tree add up | proved | `C308_additive`, `C308_delta` |  |
| C309 | get_prefix_sum_idx partitions the range by the entries | proved | `C309_interval`, `C309_monotone`, `C309_vectorised` |  |
| C310 | Prioritized draws are proportional to the weights | proved | `C310_share` |  |
| C311 | Indexing a batch twice is indexing it once | proved | `C311_compose` |  |
| C312 | Selecting all rows is the identity and shuffles can be undone | proved | `C312_all_rows`, `C312_unshuffle` |  |
| C313 | Concatenation of batches is associative | proved | `C313_associative` |  |
| C314 | Cutting a batch up and concatenating gives it back | proved | `C314_cut_and_join` |  |
| C315 | Laws of item assignment | proved | `C315_read_back`, `C315_overwrite`, `C315_commute`, `C315_frame` |  |
| C316 | Thresholds and performance profiles | proved | `C316_thresholds`, `C316_profile` |  |
| C317 | Interquartile means of runs | proved | `C317_iqm`, `C317_outlier`, `C317_curve` |  |
| C318 | Figures show the requested data under the right name and colour | partial | `C318_figures_partial`, `C318_colors_refuted`, `C318_name_refuted` | REFUTED in general: the colours are not passed to the profile plot, and the legend is empty for a directory given with a trailing slash. Proved for the data plotted and for names of directories without trailing slash. |
| C319 | load_and_eval_experiments plots what the flags say | partial | `C319_scope_partial`, `C319_both_refuted` | REFUTED for scope 'both': both flags are ignored (figures are always shown and saved) and the training figures overwrite the test figures. Proved for a single scope. |
| C320 | Collecting in parts | proved | `C320_parts` |  |
| C321 | Interleaved writing of sub-buffers | proved | `C321_interleaving`, `C321_grouping`, `C321_order` |  |
| C322 | A training is the beginning of every longer one | proved | `C322_prefix` |  |
| C323 | n-step returns compose | proved | `C323_compose_buffer`, `C323_compose_manager` |  |
| C324 | Running statistics do not depend on order and batches | proved | `C324_order`, `C324_units`, `C324_range` |  |
| C325 | Moving averages do not depend on how numbers are grouped | proved | `C325_chunks`, `C325_forgets` |  |
| C326 | Laws of the C51 projection | proved | `C326_identity`, `C326_idempotent`, `C326_linear`, `C326_order`, `C326_units`, `C326_local`, `C326_ends` |  |
| C327 | Laws of stacking batches | proved | `C327_stack_cat`, `C327_row`, `C327_rows` |  |
| C328 | A resumed training continues where the saved one ended | proved | `C328_resume` | Collectors, tests and what the logger restores are oracles; no stop function (tests differ after resuming, so a stop function may decide otherwise) |
| C329 | Resuming does not lose the best policy | partial | `C329_since_partial`, `C329_best_refuted` | REFUTED: reset calls save_best_fn for the resumed policy and starts best_score afresh, so the best policy saved before is overwritten by a worse one; proved for a resumed policy at least as good as the best before |
| C330 | What PSRL learns does not depend on how the data arrive | proved | `C330_order` |  |
| C331 | Steps and resets of a synchronous vector environment compose | proved | `C331_step`, `C331_reset`, `C331_order` |  |
| C332 | Moving buffers into buffers is associative | proved | `C332_assoc`, `C332_stored`, `C332_copy` |  |
| C333 | An asynchronous step in which all finish is a synchronous step | proved | `C333_all` |  |
| C334 | The multi-agent manager acts row by row if its policies do | proved | `C334_rowwise`, `C334_order`, `C334_parts` |  |
| C335 | Changes of rewards and flags commute with collecting | proved | `C335_collect` |  |
| C336 | TruncatedAsTerminated removes exactly the bootstrapping after truncations | proved | `C336_collect`, `C336_gae`, `C336_nstep`, `C336_end`, `C336_sound` |  |
| C337 | Wrapping the environment is wrapping the policy | proved | `C337_obs`, `C337_act` |  |
| C338 | Potential-based shaping changes no advantage | proved | `C338_gae`, `C338_episodic`, `C338_targets`, `C338_env` |  |
| C339 | TD3 without its additions is DDPG | proved | `C339_td3` |  |
| C340 | Value-based learners coincide where one specialises another | proved | `C340_fqf`, `C340_quantile`, `C340_target`, `C340_branching`, `C340_bcq` |  |
| C341 | A vector buffer with one sub-buffer is a replay buffer | proved | `C341_ops`, `C341_reads` |  |
| C342 | With alpha 0 a prioritized buffer samples uniformly | proved | `C342_uniform`, `C342_parts`, `C342_weights`, `C342_beta` |  |
| C343 | Without relabelling a HER buffer is a replay buffer | proved | `C343_her` |  |
| C344 | A multi-agent manager with one agent is the policy of the agent | proved | `C344_act`, `C344_learn` |  |
| C345 | Targets of the actor-critic learners coincide where one specialises another | proved | `C345_sac_td3`, `C345_redq`, `C345_offline`, `C345_discrete` |  |
| C346 | A prioritized vector buffer with one sub-buffer is a prioritized buffer | proved | `C346_ops`, `C346_sample` |  |
| C347 | Neutral options change nothing | proved | `C347_mask`, `C347_exploration`, `C347_icm` |  |
| C348 | Collecting from several environments is collecting from each | proved | `C348_data`, `C348_stats` |  |
| C349 | With as many environments as episodes each contributes its next episode | proved | `C349_episode` |  |
| C350 | Greedy choices depend only on the order of values | proved | `C350_greedy`, `C350_random`, `C350_target`, `C350_quantile_target` |  |
| C351 | Losses, advantages and noise follow a change of unit and origin | proved | `C351_quantile`, `C351_fraction`, `C351_advantages`, `C351_ppo`, `C351_noise` |  |
| C352 | What is collected from an environment does not depend on the other environments | proved | `C352_data` |  |
| C353 | Prioritized sampling does not depend on the unit of the weights | proved | `C353_tree`, `C353_prio` |  |
| C354 | Losses do not depend on the order of the rows | proved | `C354_losses`, `C354_critic`, `C354_advantages` |  |
| C355 | Arithmetic of batches acts row by row | proved | `C355_add`, `C355_scale`, `C355_divide` |  |
| C356 | Natural gradients do not depend on the coordinates of the parameters | proved | `C356_direction`, `C356_npg`, `C356_trpo`, `C356_backwards` |  |
| C357 | With equal curvature in all directions NPG is plain gradient descent | proved | `C357_isotropic`, `C357_plain` |  |
| C358 | A HER vector buffer with one sub-buffer is a HER buffer | proved | `C358_run`, `C358_saved` |  |
| C359 | PSRL does not depend on the numbering of the states | proved | `C359_learn`, `C359_values` |  |
| C360 | HER alters at most future_k - 1 episodes for each one left unaltered | proved | `C360_ratio`, `C360_some_stay`, `C360_zero` |  |
| C361 | create_uniform_action_dist samples as the action space does | partial | `C361_start_refuted`, `C361_axes_refuted`, `C361_bounds_refuted`, `C361_discrete_partial`, `C361_other_partial`, `C361_box_partial`, `C361_reached_partial` | REFUTED for discrete spaces which do not start at zero (a number outside the space has positive probability), for boxes of two or more axes (RuntimeError), for unbounded coordinates and for coordinates of one value. Proved for discrete spaces starting at zero and for bounded boxes of one axis. |
| C362 | Optimizer factories pass on parameters, learning rate and options | proved | `C362_passed`, `C362_instances`, `C362_lr_option`, `C362_builder` |  |
| C363 | ICM passes its learning arguments to the inner policy | partial | `C363_positional_refuted`, `C363_learn_partial` | REFUTED for positional arguments, which ICMPolicy.learn drops. Proved for keyword arguments, with the statement about the loss. |
| C364 | A copy of a vector buffer behaves as the buffer | partial | `C364_state_partial`, `C364_manager_partial`, `C364_reads_partial`, `C364_unfilled_partial`, `C364_set_batch_partial`, `C364_unfinished_refuted` | REFUTED for unfinished_index: in a copy the sub-buffers no longer view the manager's storage, so after anything was added, for every sub-buffer and transition one of the two outcomes (episode ends or not) makes unfinished_index of the copy wrong. Proved: state, reports, length, prev, next, rows and (unless sample_avail is used with stacking) samples agree; copies of never filled buffers behave as the buffer; set_batch repairs a copy. |
| C365 | A copy of a cached buffer stores the episodes that end | partial | `C365_frozen_refuted`, `C365_unfilled_partial` | REFUTED: once anything was stored, no main row of a copy ever changes again, however many episodes end. Proved: a copy of a never filled cached buffer behaves as the buffer. |
| C366 | A cached buffer loaded from a file stores the episodes that end | partial | `C366_frozen_refuted`, `C366_reports_partial` | REFUTED: main_buffer and buffers[0] are written to the file one by one, so in the loaded buffer main_buffer is another object than the sub-buffer that is sampled: no main row of the storage ever changes again and no place of the main buffer filled after loading is ever sampled (of a buffer saved empty, sampling raises ValueError). Proved: lengths, last indices, caches and all reports and errors of add are those of the saved buffer. |
| C367 | A reset collector starts afresh | proved | `C367_reset`, `C367_collect`, `C367_memoryless`, `C367_first_call`, `C367_after_episodes` |  |
| C368 | Restacking recovers the observations of a frame-stacking environment | partial | `C368_obs_partial`, `C368_next_kept_partial`, `C368_next_read_partial`, `C368_next_kept_refuted`, `C368_vector_obs_partial`, `C368_vector_next_kept_partial`, `C368_vector_next_read_partial`, `C368_vector_next_kept_refuted` | REFUTED for next observations that are kept (ignore_obs_next=False): base.py:605-606 stacks the newest frames of the obs_next of the earlier rows of the episode, and prev stops at the episode's first row, so during the first k-1 transitions of every episode the first frame is missing from the stack: the first transition's next observation is read as k copies of its newest frame (C368_next_kept_refuted, for every k >= 2 whenever the first two frames differ). Proved: observations are recovered whenever the beginning of the episode or the k rows are stored; kept next observations once the episode has k stored rows; next observations read from the following row (ignore_obs_next=True) for every transition that does not end its episode and is not the newest. |
| C369 | Frame stacks overlap | proved | `C369_buffer`, `C369_manager`, `C369_join` |  |
| C370 | Parts of a vector buffer do not depend on the others and on their numbers | proved | `C370_local`, `C370_reads`, `C370_renumber` |  |
| C371 | With one environment a cached buffer holds between episodes what a replay buffer holds | proved | `C371_one_environment` |  |
| C372 | Order and grouping of priority updates | proved | `C372_join`, `C372_order`, `C372_commute`, `C372_last`, `C372_buffers` |  |
| C373 | The main buffer of a cached buffer does not depend on the numbers of the environments | proved | `C373_renumber` |  |
| C374 | Spare capacity makes no difference | proved | `C374_capacity`, `C374_vector` |  |
| C375 | Replacing a policy of a multi-agent manager touches one agent | proved | `C375_init`, `C375_number`, `C375_shared`, `C375_replace`, `C375_act`, `C375_no_agent`, `C375_learn` |  |
| C376 | Ray workers answer like dummy workers | proved | `C376_answers`, `C376_seed`, `C376_space`, `C376_raise`, `C376_wait` |  |
| C377 | The multi-agent manager does not depend on the names of the agents | proved | `C377_act`, `C377_learn` |  |
| C378 | Spare capacity makes no difference to prioritized sampling | proved | `C378_capacity` |  |
| C379 | An asynchronous step with Ray workers returns what is there | partial | `C379_partition`, `C379_step_partial`, `C379_fewer_refuted`, `C379_collector`, `C379_returns_partial` | REFUTED for fewer waiting environments than wait_num: ray.wait is asked for more results than there are handles and raises a ValueError, after the actions have been sent, so the environments count as waiting and step(None) raises again (C379_fewer_refuted). Proved when at least wait_num are waiting (C379_step_partial, C379_returns_partial), which a collector that steps every ready environment always ensures (C379_collector); and the partition into waiting and ready always (C379_partition). |
| C380 | Exploration noise of DDPG follows each environment | partial | `C380_none`, `C380_batch`, `C380_gauss`, `C380_same_partial`, `C380_mixed_refuted`, `C380_dropped_refuted`, `C380_warning` | REFUTED for OUNoise when the ready environments change: with equally many, an environment goes on with the process of the one that was at its place before (C380_mixed_refuted); with another number all processes start again at 0 (C380_dropped_refuted). Proved for OUNoise while the same environments are ready (C380_same_partial) and for GaussianNoise always (C380_gauss); C380_none, C380_batch and C380_warning for the other cases. |
| C381 | Bounds and special cases of the Ornstein-Uhlenbeck noise | proved | `C381_gauss`, `C381_bounded`, `C381_forget`, `C381_contract` |  |
| C382 | Every action sent to Ray workers is answered once | proved | `C382_once`, `C382_order`, `C382_one`, `C382_illegal` |  |
| C383 | The exploration noise of an agent does not depend on the other agents | proved | `C383_call`, `C383_run`, `C383_order` |  |
| C384 | No environment with Ray workers is starved | proved | `C384_step`, `C384_bound` |  |
| C385 | Resets do not mix up the answers of Ray workers | proved | `C385_apart`, `C385_reset`, `C385_waiting` |  |

## Findings

Properties that the code violates (each has a `_refuted` theorem with a concrete witness):

* C04, unfinished_index() finds exactly the open episode: REFUTED in one corner: on a never-written buffer unfinished_index raises AttributeError instead of returning the empty array; proved for every state in which something was ever written
* C20, Batch assignment writes only the addressed rows: value arrays have the kind and shape of the assigned rows; REFUTED for an unknown key in a nested value: ValueError after other keys were written (C20_nested_unknown_refuted)
* C25, Actions sent to the environment respect the action space bounds: bounds, end points, monotonicity proved for every output; round trip proved for intervals at least eps=2^-23 wide; REFUTED for narrower non-empty intervals (scale is increased by eps). Exact arithmetic; tanh any monotone function into [-1,1]
* C27, BasePolicy.update restores flags and respects the protocol: REFUTED for raising callbacks (updating stays True); protocol proved for arbitrary callbacks, exceptions passed on
* C28, Collector with n_episode collects exactly n_episode episodes: PARTIAL: exactness is proved for every call that returns. That it returns is proved for episodes shorter than the sub-buffer; REFUTED beyond that (an episode as long as the sub-buffer raises ValueError).
* C29, Collector with n_step collects whole rounds: REFUTED for long episodes (C29_long_episode_refuted): an episode that fills its sub-buffer and does not start at slot 0 makes collect(n_step=...) raise ValueError, as for n_episode. Counts proved for every call that returns (C29 theorems); that it returns is proved for episodes shorter than the sub-buffers.
* C31, CollectStats agree with the collected data: REFUTED for episodes not shorter than the sub-buffer (length and hook batch are of the part that get_buffer_indices finds); proved for shorter ones.
* C35, Trainer performs the promised number of epochs and steps: Collectors/tests are oracles; REFUTED for resuming a complete run (one more epoch); otherwise proved for every configuration, stop function and schedule
* C36, Trainer keeps the best test score: REFUTED for runs stopped by a test during training (best_score overwritten by a lower one, best_epoch and the saved policy unchanged); proved otherwise
* C44, MovAvg is the mean of the last finite values: REFUTED for NaN objects other than np.nan itself (identity test in the banned list); proved for finite values, infinities and np.nan; infinities never enter.
* C48, HDF5 conversion round-trips: REFUTED for keys containing "/", for a number stored under "__data_type__" and for objects whose class is called ndarray or Tensor (C48_*_refuted). C48_roundtrip_partial proves the round trip for every other nested structure of dicts, batches, arrays, tensors, numbers and pickled objects; a Python number and the numpy scalar h5py returns for it are identified. A number is lost when another key begins with its name and "/": {"a": 3, "a/b": x} comes back as {"a": {"b": x}}.
* C49, TRPO line search never leaves the actor outside the trust region: REFUTED: a failed line search leaves the last rejected trial in the actor and reports step size 0; proved: the first acceptable trial is kept.
* C51, sample_indices(None) enumerates the buffer: REFUTED: np.random.choice draws with replacement; indices repeat and others are missing. C51_sample_none_partial: as many as stored, all of them if the draws are distinct.
* C52, from_data builds the buffer that adding the data would build: REFUTED for prev/next: last_index stays 0 and the newest row wraps to the oldest; reads and sample_indices(0) are proved right
* C53, Episode starts reported after update() are right: REFUTED: update() does not move _ep_start_idx. C53_next_episode_partial: right again after the first episode end.
* C54, ReplayBuffer.add accepts only buffer id 0: REFUTED: the test uses `and`, so [3] and [0,7] are accepted; the exact acceptance condition is proved
* C55, dropnull leaves a usable buffer: REFUTED: _insertion_idx becomes the number of rows left, so the next add raises, whatever was dropped (C55_add_after_dropnull_refuted, for every buffer with data)
* C56, get_buffer_indices rejects an interval outside the buffer: REFUTED: every interval beyond the last edge is accepted, whatever the edges. C56_inside_partial: with start inside a sub-buffer every stop outside it is refused.
* C58, Only whole episodes enter CachedReplayBuffer's main buffer, whatever buffer_ids are accepted: REFUTED: buffer_ids=[-1] writes an unfinished row to the main buffer; repeated ids report index -1 and corrupt last_index. C12_cached_buffer is the restriction to legal, distinct ids.
* C59, Advantages depend only on their own episode: REFUTED: with v_s omitted, np.roll takes the value of the state before the batch's previous element, so the first step of an episode uses another episode's bootstrap value. Restriction proved in C22: with consistent v_s the advantages are target - v_s; with v_s omitted it holds for steps preceded by a step of the same episode; returns are always right.
* C60, Un-normalised importance weights follow the quoted formula: REFUTED: C60_weight_above_one_refuted (alpha=2, beta=1: weight 2); _min_prio is not raised to alpha. C60_small_alpha_partial: at most 1 whenever x <= pw x or 1 <= pw x for all x > 0 (exponents up to 1).
* C61, reset() of a prioritized buffer forgets the old weights: REFUTED: after reset() stale indices are sampled. C61_refilled_partial: once as many transitions were added as the buffer held before the reset, only stored indices are drawn.
* C62, sample_avail is honoured by prioritized sampling: REFUTED: prioritized sampling ignores sample_avail. C62_ignored_refuted: for all options and positive batch sizes. C62_all_partial: batch sizes <= 0 honour it.
* C63, PrioritizedVectorReplayBuffer.set_beta takes effect: REFUTED: set_beta of the vector buffer never changes the returned weights (for all arguments). C63_own_partial: the set_beta of PrioritizedReplayBuffer and PrioritizedReplayBufferManager does.
* C64, update() from an empty buffer is a no-op for prioritized buffers: REFUTED: reading index[0] of an empty array; IndexError in the model, undefined in numba-compiled code. C64_update_partial: non-empty sources, after any history.
* C65, A prioritized manager samples only stored transitions for every draw in [0, 1): REFUTED: draw exactly 0 with an empty first sub-buffer gives the unstored index 0; C16_manager is the restriction to draws in (0,1).
* C66, Relabelled rewards are computed with the new goal: REFUTED for save_obs_next=False (C66_reward_uses_new_goal_refuted: the reward is computed with the original goal found in the next row); true with stored obs_next (C66_saved_obs_next_partial together with C17_relabel).
* C67, update() from a HERReplayBuffer moves the original transitions: REFUTED (C67_update_from_her_refuted: the source relabels rows in sample_indices(0) and the relabelled rows are stored); true when no episode is selected for relabelling (C67_no_relabelling_partial).
* C68, torch_train_mode restores the mode of every submodule: REFUTED for trees with mixed modes; proved for trees in one mode
* C69, DQN targets bootstrap only from available actions: REFUTED for is_double=False (maximum over all logits, mask ignored); proved for double DQN
* C70, The C51 target weights the n-step atoms by the distribution at the state they bootstrap from: REFUTED for n-step > 1: the distribution is taken at batch.obs_next (one step ahead); proved where the return reaches only its own step
* C71, RunningMeanStd uses the given initial standard deviation: REFUTED: std is stored as variance; proved: initial values are forgotten after the first update.
* C72, A restored TensorboardLogger continues rate limiting where the saved one stopped: REFUTED for the test scope (counter restored from the epoch, logging is by env_step) and the info scope (not restored); proved for train and update.
* C73, Conjugate gradients solve the linear system: REFUTED for b = 0 (0/0 gives NaN); proved for b <> 0: residuals are orthogonal, at most n of them, no division by zero, convergence in n steps (exact arithmetic).
* C75, PSRL learning does not modify the prior passed by the user: REFUTED: trans_count += mutates the prior array in place; proved: no other array changes.
* C76, PSRL keeps the posterior of unobserved state-action pairs: REFUTED: the deviation of an unobserved pair changes and can become sqrt of a negative number (NaN) because the squared-sum lacks the prior's contribution; proved for counts, mean, squares.
* C77, PSRL value iteration terminates near the optimal values: REFUTED for discount 1 (accepted by the constructor): oscillation forever; proved for discount < 1 with termination, error bound and greedy policy.
* C78, The multi-agent manager keeps every agent's hidden state between forward calls: REFUTED: an agent without rows in one call loses its state; kept for agents with rows
* C79, The buffer's reward array survives an exception in a sub-policy's process_fn: REFUTED: no try/finally around the loop, an exception leaves one agent's reward column in the buffer (normal return: C43_process). C79_normal_partial: every call that returns restores the array.
* C80, The multi-agent manager passes its modes on to the sub-policies: REFUTED: is_within_training_step is set on the manager only (sub-policies with deterministic_eval act deterministically while training), and train() leaves the manager's own flag so the sub-policies' mode is not restored; mode theorem for sub-policies in the manager's mode
* C81, An asynchronous step returns at least wait_num results when enough environments are waiting: REFUTED for DummyVectorEnv: the loop pops from the list it iterates over, returning ceil(k/2) results; proved for subprocess workers
* C82, An asynchronous step(None) returns: REFUTED: with nothing running, while not ready_conns never ends; proved when something is running and finishes
* C83, seed() in asynchronous mode does not mix up results: REFUTED: no check for running environments; the pipe hands out the step result as the seed and vice versa. Proved when nothing is running
* C84, Illegal ids in an asynchronous step are rejected: REFUTED for repeated ids: environment both waiting and ready. Not-ready ids are rejected (C33_refused). C84_not_ready_partial restates this for both cases.
* C85, A synchronous step that raises has no effect: REFUTED: actions before the invalid id have been sent, the next step returns the stale result. C85_dummy_partial: with environments in the same process it holds after any steps, failed ones included.
* C86, The on-policy gradient_step counts the mini-batch updates: REFUTED: the split merges the last batch, batch_size None counts 2; equal when the batch size divides the length (repeat 1)
* C87, run() resets exactly when asked to: REFUTED: __iter__ always resets, so run() resets twice, or once with reset_prior_to_run=False; exact number of resets proved
* C88, reset() returns a trainer to its initial counters: REFUTED for gradient_step and env_episode; proved for epoch and env_step, and for restored counters
* C89, Training without a test collector needs no test configuration: REFUTED: _collect_training_data asserts episode_per_test is not None even without a test collector
* C90, stop_fn always judges returns after reward_metric: REFUTED: the test during training calls test_episode without reward_metric; proved when the metric does not change the numbers
* C91, In-place concatenation and stacking agree with Batch.cat / Batch.stack: REFUTED: with a key that is empty in only some of the batches cat_ raises ValueError or leaves arrays of different length; proved when there is no such key
* C92, Concatenation keeps the values of every batch: REFUTED: a key missing (empty) in one batch takes the kind of the first batch that has it, later float values are truncated; proved for equal kinds
* C93, Stacking accepts partial nested keys: REFUTED: nested batches with different keys stack, but raise ValueError when a batch without the outer key is added; proved when the partial keys look alike
* C94, Assigning a batch its own rows changes nothing: REFUTED for batches that hold None (TypeError); proved for batches without None
* C95, dropnull removes exactly the rows with a null: REFUTED: rows of dimension one or more are flattened into the result, and if every row has a null the keys are lost; proved for one-dimensional arrays and at least one complete row
* C96, A pickled Batch is restored: REFUTED: __setstate__ calls __init__(**state), so a key called copy or batch_dict is lost and a key called self raises TypeError. C96_pickle_partial: with any other top-level keys the Batch is restored exactly.
* C97, Hidden state is reset at episode ends: REFUTED for torch tensors: tensor[index].zero_() changes a copy. Proved for arrays and Batches.
* C98, Exactly one of n_step and n_episode is accepted: REFUTED: both may be given (the loop stops at whichever comes first), and n_step=0 with n_episode=k collects with all environments and may return more than k episodes. Proved: neither is refused.
* C99, Reported episodes are episodes of the environment: REFUTED: reset_before_collect, and the reset of unused environments at the end of an n_episode call, leave the buffer's episode open, so the steps before are counted with the next episode. Proved when no episode is in progress, which calls with n_episode >= N preserve.
* C100, collect_step and collect_episode count everything collected: REFUTED: reset_before_collect zeroes the counters. Proved without it.
* C101, Return, length and hook agree on the rows of an episode: REFUTED: after reset_buffer(keep_statistics=True) the return counts more rows than the length. Proved for buffers that were never reset that way.
* C102, Merged hooks deliver the entries of all hooks: REFUTED: set(new).difference(result) is non-empty for every new key, so with the default check any returned entry raises KeyError. Proved: without the check the last hook wins for each key.
* C104, Asynchronous collection works with every policy: REFUTED: the entry stored per environment for a policy without hidden state is an empty Batch, and indexing an empty Batch raises IndexError (batch.py:746) in the first round (the following access to the hidden state would fail too). Random collection has no hidden state either. Proved: with such a policy no call of collect on a collector without hidden state ever returns.
* C105, Asynchronous collection stores the policy's actions: REFUTED: actions are kept in np.empty(env_num), a float vector: actions that are arrays do not fit (ValueError) and integer actions come back as floats. Proved: without array actions the stored actions are the answered ones converted to floats.
* C106, An asynchronous collector can be reset at any time: REFUTED: reset_env fetches results only once, so with fewer than half of the environments awaited (or with workers in the same process) some are still running when all are reset: AssertionError. Proved: with worker processes, no timeout and wait_num at least half of the environments, reset succeeds after any calls of collect (or waits for ever) and leaves no environment running.
* C107, reset_env of an asynchronous collector takes effect: REFUTED: reset_env updates neither the current observations nor the set of ready environments: the next collect acts on observations from before the reset and never steps the environments that were running. After reset() C103/C104 hold.
* C111, A stored value keeps its type: REFUTED: the array of a key gets the type of the first value, so a later action 1/2 after an integer action 1 is stored as 0 (base.py:471-485 casts only rew and the flags). With one kind per key C110_read_back gives the value back.
* C112, A write that raises leaves the buffer as it was: REFUTED: _update_state_pre_add runs before the write, so after an add that raises the buffer is longer by one and its new row is partly written (here obs is there, rew is 0). Restriction proved: rows other than the addressed ones never change, even when the write raises.
* C113, Adding batches adds the values under each key: REFUTED in general: __iadd__ pairs the values of both batches by position (zip over values()), so with keys in another order unrelated values are added; values added to an empty nested batch are ignored. Proved for equal key order (partial), and for numbers in full.
* C115, A failing in-place operation leaves the batch as it was: REFUTED: the strict zip of __iadd__ raises after the common positions were added; a None or an array that cannot take the operand raises after the values before it were changed. Proved: keys, kinds and shapes never change.
* C116, Dividing undoes multiplying: REFUTED for integer arrays: __itruediv__ divides in place, which numpy refuses for integers, and __truediv__ works on a deep copy in the same way, so even batch / 2 raises. Proved for float arrays.
* C118, set_array_at_key writes the rows and keeps the rest: REFUTED for arrays of more than one dimension: a missing key is always created one-dimensional, so the write raises and the new key stays in the batch. Proved: existing keys of any dimension, missing keys for one-dimensional arrays, and calls without index.
* C119, Length and shape agree: REFUTED: with a None the shape is [] and with a nested batch whose arrays have no rows it starts with 0, while the length ignores both. Proved for batches without None, empty batches and empty arrays.
* C123, A policy can be created exactly for the documented parameter values: REFUTED for three documented values: PPOParams documents dual_clip as c < 1 - eps_clip (typically 0 to 0.5) while PPOPolicy asserts dual_clip > 1; action_bound_method='tanh' is allowed for DDPG, REDQ, SAC and TD3 by the parameter classes but asserted away by DDPGPolicy; an integer alpha such as 1 is taken for a tuple (isinstance(alpha, float)) and raises TypeError. Proved: the exact set of values accepted, for all twelve algorithms.
* C124, The automatic entropy coefficient steers the entropy towards its target: REFUTED for discrete actions: the default target is minus the number of actions, below any attainable entropy, so log_alpha of DiscreteSAC decreases in every step, by at least lr * n. Proved for continuous actions (plain gradient steps).
* C125, An automatic entropy coefficient can be tuned: REFUTED for REDQ: learn reads self._target_entropy and self._log_alpha, the constructor sets target_entropy and log_alpha, so the first actor update with automatic alpha raises AttributeError. Proved for SAC and DiscreteSAC.
* C126, A sampling configuration determines the trainer: REFUTED in three ways: a configuration with episode_per_collect is accepted, but create_trainer does not pass it, so the first collection raises ValueError; num_test_episodes = 0 is accepted with a warning, but the trainer's first test raises ValueError; off-policy trainers get no save_checkpoint_fn. C126_accepts gives the exact condition for acceptance, C126_arguments what does reach the trainer and when its requests are valid.
* C128, The linear schedule keeps the learning rate between zero and its initial value: REFUTED off-policy: the schedule counts collections, but the scheduler is stepped once per update; with q updates per collection the factor ends at 1-q, i.e. the learning rate becomes negative for q > 1. On-policy the property is proved.
* C129, The linear decay of epsilon: REFUTED only for decay_steps = 0, where the first call raises ZeroDivisionError; proved for all positive numbers of decay steps.
* C130, An experiment does what its configuration says, in order, and returns the result of the training: REFUTED for the result: run() discards what trainer.run() returns, trainer_result is always None (so launchers return lists of None). Order, configured parts and what is left on disk are proved.
* C131, The experiments of a seeded collection have non-overlapping seeds and unique names: REFUTED: the test seeds of each experiment are training seeds of the next one, and a registered environment factory keeps its own seeds, so that all experiments use the same environment seeds. Proved: seeds of experiments, names and configured training seeds are pairwise different; within one experiment training and test seeds are disjoint.
* C132, Launchers return the results of the successful experiments: REFUTED for a single experiment, whose exception is not caught. For all other numbers of experiments proved for both launchers. Parallel execution is taken to return the outcomes in order (joblib).
* C133, The best policy is restored with what was saved with it: REFUTED: the items have one file each, which every checkpoint overwrites, so restoring gives the best policy with the items of the last checkpoint. C133_restore is the exact result; without checkpoints (the off-policy factories) the items are those of the best policy. Parts of the policy outside the state dictionary are never restored.
* C134, A group of learning rate schedulers steps, saves and restores all of them: REFUTED for LambdaLR (the schedulers of LRSchedulerFactoryLinear): load_state_dict updates __dict__, which replaces the lambda by None or a dict; the next step raises TypeError. Proved for schedulers without lambda. The behaviour of torch's schedulers is part of the model.
* C135, The clipped surrogate objective of PPO: REFUTED as stated for dual clipping: the constructor asserts dual_clip > 1.0 but not dual_clip > 1 + eps_clip; with 1 < c < 1 + eps the lower bound c*adv is active inside the clipping interval. The rest holds for all constants: C135_clip, C135_dual, C135_bounds.
* C137, Normalised advantages are finite, centred and ordered like the advantages: REFUTED for minibatches with one row: torch's std of one value is NaN, so with batch_size 1 (or one row in the buffer) all advantages, hence the loss, are NaN. C137_rows: with merge_last a minibatch has one row only if batch_size is 1 or the batch has one row. C137_normalised: the property otherwise.
* C141, Every collected row enters the running statistics of the returns once: REFUTED for recompute_advantage: each repetition after the first recomputes returns and counts all rows in ret_rms again. Holds without it (C141_once).
* C143, ICM restores the original reward after an update: REFUTED: Batch(orig_rew=batch.rew) keeps the array that += then modifies in place, so the original reward is restored exactly when no row got a bonus (C143_restore_refuted, for all models). The buffer's rewards are untouched (C143_update).
* C144, The intrinsic reward reaches the wrapped policy: REFUTED for n-step learners (DQN, DDPG, TD3, SAC, ...): compute_nstep_return reads buffer.rew, so ICM has no effect on their returns, for every model and scale. For learners that use batch.rew (PG, A2C, PPO) the bonus enters linearly (C144_episodic).
* C145, A policy wrapped in ICM behaves in training as on its own: REFUTED for the training-step flag: policy_within_training_step sets it on the outer policy only, so a wrapped policy with deterministic_eval=True takes the mode of its distribution while training. train and set_eps do reach the wrapped policy; C145_sampling is the exact condition.
* C146, GAIL updates the discriminator disc_update_num times with every row once: REFUTED: with n rows there are n // (n // k) updates, between k and 2k-1, equal to k exactly when n mod k < n / k; with fewer than k rows learn fails with an AssertionError. Partition, expert batches and reward hold.
* C147, After an update the priorities are those of the learner's errors: REFUTED for learners that do not set batch.weight: it still holds the importance weights, which are written back as priorities; the order of the priorities of the sampled transitions is reversed (for every history). Learners that store errors: C147_errors.
* C148, Calibrated CQL compares with the return of the same transition: REFUTED for a buffer that has wrapped around (rows get the return of another row), for a vector buffer with a sub-buffer that is not full (wrong row, IndexError on sampling), and for a second trainer on the same buffer (TypeError, duplicate key). True for a single buffer that is not full or whose next write goes to row 0 (C148_not_wrapped); C148_column gives the value of each row in general.
* C149, Offline learners bootstrap after a time limit: REFUTED: BCQ, CQL and CRR use batch.done, so a truncated row's target is its reward alone. Holds for rows that are not truncated.
* C151, The CQL regulariser is the log-sum-exp of all sampled actions of a row: REFUTED for num_repeat_actions >= 2: the result of reshape is dropped, so log-sum-exp runs over three values at a time and the term is strictly smaller for every batch. True for num_repeat_actions = 1. logsumexp is any function that is symmetric and grows with each further value.
* C152, The random actions of CQL are uniform in the action range: REFUTED: the code draws from uniform_(-min_action, max_action); for every range symmetric around 0 (the default) all actions are max_action, and with -min_action > max_action an error is raised.
* C153, Discrete BCQ chooses the best action among the likely ones: REFUTED if two values differ by more than INF = 1e8 (the penalty of unlikely actions). Proved when all differences are smaller.
* C156, CRR weights every transition by its own advantage: REFUTED: log_prob has shape (B,), the weights shape (B, 1), so the product has shape (B, B) and the loss is the mean weight times the mean negated log probability. True if all weights are equal.
* C161, is_double selects double Q-learning in the distributional learners: REFUTED: is_double is never read in QRDQN, IQN, FQF and C51; the online network always chooses. Holds for is_double=True or without a target network.
* C162, Targets of branching DQN: REFUTED: the policy's discount factor is ignored (0.99 is used), the last stored step of a running episode is treated as terminal, and with one row and several branches squeeze() removes the row axis (one target and one priority per branch instead of one for the transition). C162_targets gives the value for more than one row.
* C163, Loss and priority of branching DQN: REFUTED for the priority with two or more branches: errors are summed with their signs. Holds for the loss, and for the priority with one branch.
* C164, Exploration of branching DQN stays in range: REFUTED with a mask, which is added to the random action. Holds without a mask.
* C169, The two critics are two estimates: REFUTED when critic2 is not passed (the default): the second critic is a copy, is trained on the same batches, targets and weights with an optimizer of the same options, and stays equal to the first for ever, so min(Q1, Q2) = Q1 in TD3 and SAC (C169_same_refuted, every history). Holds of a critic that is passed (C169_given).
* C170, Target policy smoothing: REFUTED for the range: the smoothed action is not clipped to the action range (C170_range_refuted); the distance and the minimum are proved (C170_noise_partial).
* C172, OUNoise is an Ornstein-Uhlenbeck process: REFUTED for a size that is not a tuple and for a changed size: the process restarts at 0 (not x0) in every call (C172_restart_refuted); closed form proved for calls of one tuple size (C172_process_partial).
* C173, A cloned optimizer has the configuration of the old one: REFUTED: options changed after construction (schedulers, parameter groups) are lost, optim.defaults are used (C173_options_refuted); holds if they are unchanged (C173_clone_partial).
* C174, A transition has priority zero only if every critic is exact: REFUTED: opposite errors of two critics (of an ensemble) cancel (C174_cancel_refuted); the weight lies between the errors (C174_between_partial).
* C175, optim_step clips the gradient: REFUTED for max_grad_norm = 0.0, which does not clip, and for a missing module, which raises after the backward pass (C175_zero_refuted); positive maxima are proved (C175_clip_partial).
* C177, Constructor arguments given per layer reach the layers: REFUTED: with a list of argument sets (norm_args or act_args) and a single layer class, MLP hands the whole list to every layer (common.py:98-100, 113-115), where it is neither tuple nor dict and is dropped without an error (common.py:32-46); a tuple of classes, which nothing excludes, raises TypeError. C177_lists holds when classes and arguments are both lists.
* C180, linear_layer is used for every linear layer of Net: REFUTED for dueling networks: the Q and V heads are built without linear_layer, so Net(linear_layer=NoisyLinear, dueling_param=...) has plain heads unless the head's own dict names it. C180_plain holds without dueling.
* C181, Branching networks: REFUTED for the defaults: BranchingNet without common_hidden_sizes raises IndexError (common.py:519, common_hidden_sizes[-1] of an empty list). The values of a network that could be built satisfy the law (C181_values).
* C184, Dict observations are concatenated in the order of the keys: REFUTED for a single observation with entries of different widths (ValueError) and for shapes that are ints or lists (a single observation is taken as a batch). Holds for batches and for single observations with equal widths and tuple shapes.
* C185, get_output_dim falls back to the given value: REFUTED: a module without the attribute output_dim raises AttributeError whatever the alternative value is. Holds for modules that have the attribute (possibly None).
* C187, Actors pass on the hidden state: REFUTED for ActorProb: forward returns the state it was given, not the hidden state of the preprocessing network, so a recurrent preprocessing network starts anew in every step. Holds for the deterministic and the discrete actor.
* C189, A critic accepts what it was built for: REFUTED for apply_preprocess_net_to_obs_only together with actions: the last layers are built for the output of the preprocessing network, not for that plus the action, so every call raises RuntimeError. Holds for all other combinations.
* C193, Modules have the sizes that were asked for: REFUTED for the default actor factory in discrete environments (C193_discrete_refuted): hidden sizes and activation are ignored; the actor always has two layers of 64 units with ReLU (highlevel/module/actor.py:142-146). Proved for continuous environments, for the specific factories and for all critics.
* C194, The parts of an agent fit each other: REFUTED for critics that use the actor with learners that pass an action (see C194_reuse_refuted): the reused network makes a head that is too narrow for observation features and action, or a discrete critic that takes no action. Proved for actors and for critics of their own, and for reuse by the learners that pass the observation only.
* C195, Critics that use the actor share its network: REFUTED after saving and loading an experiment, or sending it to another process (C195_pickle_refuted): the decorator makes a new future that the critic factory does not know, so a fresh experiment raises ValueError and one that was run uses an old actor's network. Proved for experiments in one process and for copies of builders.
* C196, Output and distribution agree: REFUTED for discrete SAC as made by its builder (C196_dsac_refuted): its policy takes the actor's output for logits while the default actor applies a softmax, so no action is more than e times as probable as any other. Proved for the distribution functions of the factories and for discrete SAC with an actor without softmax.
* C197, Agents are created for the right environments: REFUTED for A2C, PPO, NPG and TRPO with an actor factory without distribution (C197_no_dist_refuted): the policy is created with None as distribution function; PG raises. Proved for the default factories of all agents.
* C198, Every parameter has one optimizer: REFUTED for critics that use the actor (C198_twice_refuted, C198_trust_refuted): in DDPG, SAC and TD3 the shared network is in two optimizers, and in NPG and TRPO the critic's regression moves the actor after its trust-region step. Proved for critics of their own.
* C199, Initialisation reaches the layers: REFUTED for ensembles of critics (C199_ensemble_refuted): EnsembleLinear is no nn.Linear, so init_linear_orthogonal changes nothing. Proved for all other factories.
* C202, Built experiments are fixed: REFUTED for epoch callbacks (C202_callbacks_refuted): the TrainerCallbacks object is shared with the experiments already built. Proved for name and optimizer, and for experiments built from copies.
* C203, Observations survive shared memory: REFUTED in part (C203_number_refuted, C203_missing_key_refuted, C203_broadcast_refuted): observations that fit the space arrive as sent, whatever the memory contained. A number or a list instead of an array (what environments with a Discrete observation space return) is silently not written, so the reader gets the previous contents; keys missing from a dictionary keep the value of an earlier observation; an array of one element is spread over a whole row.
* C204, Workers of all kinds answer alike: REFUTED in part (C204_same_answers_refuted): for every sequence of calls both kinds of worker give the same answers and the same states, except that a missing attribute or render raises an AttributeError in one and returns None in the other, and seed returns [seed] in one and None in the other.
* C205, Seeding the action space does not depend on the kind of worker: REFUTED in part (C205_reset_seed_refuted): reset(seed=...) of a vector environment seeds the action space of workers in other processes but not of DummyEnvWorker, whose send does not do what its reset does. Without such calls the actions agree (C205_actions).
* C206, Returned observations stay as they were: REFUTED for dictionary observations (C206_dicts_refuted, C206_collector_refuted): ShArray.get returns a view, and np.stack of dictionaries keeps them, so every dictionary that a worker ever returned shows its latest observation; the collector, which builds the batch after the step, then stores the next observation as obs and as obs_next in every transition. Proved for array observations.
* C207, Observations are normalised with their own statistics: REFUTED for dictionary observations (C207_dict_refuted): the error message for tuples recommends them, but they raise a TypeError. Proved for arrays.
* C209, Rewards of a multi-agent game belong to the agents: REFUTED in part (C209_stale_refuted): an agent for which the environment reports no reward keeps its old one at every later step, also after a reset; what the list contains is the last reported reward (C209_rewards).
* C210, Wrapped vector environments can replace the environment inside: REFUTED in part (C210_drop_in_refuted, C210_async_collector_refuted): the fields of BaseVectorEnv (env_num, workers, waiting_id, ready_id, is_closed, ...) are missing from wrappers, and AsyncCollector.reset_env raises an AttributeError with a wrapped environment. Reserved keys, length, is_async and methods are forwarded through any number of wrappers.
* C213, to_torch converts everything it can and reports the rest as TypeError: REFUTED (C213_error_refuted, C213_row_refuted): inside a Batch, None, scalars (e.g. every value of a row b[i] of one-dimensional arrays) and other objects raise AttributeError (batch.py:898-912 reads arr.device), although to_torch accepts the scalar itself. C213_to_torch proves exactly what is accepted.
* C214, to_torch gives the requested type: REFUTED (C214_batch_array_refuted): Batch.to_torch_ ignores dtype for numpy arrays (batch.py:899-900), so to_torch(batch, dtype) leaves their type unchanged and a second call changes it. C214_dtype and C214_twice prove what holds: outside containers and for tensors the type is right, and after two conversions everywhere.
* C216, Converted containers do not share memory with the argument: REFUTED for to_numpy of dicts (C216_dict_refuted): Batch(x) copies nothing (converter.py:28), so every array and cpu tensor in the dict is shared with the result at every level. C216_fresh proves the property for to_torch and for to_numpy of Batches, C216_shared what single arrays do.
* C218, A launcher returns the results of the experiments that did not fail: REFUTED (C218_single_refuted): a single experiment is executed without protection, so its own exception is raised instead of RuntimeError, and an empty list raises 'All experiments failed' (launcher.py:76-87). C218_sequential and C218_joblib prove the rest for all lists of other lengths.
* C219, Flattened log data keep every number under its path: REFUTED (C219_collision_refuted): keys containing or starting with the delimiter collide and only the last number is kept (tensorboard.py:74-75). C219_flatten proves the property for keys without the delimiter.
* C220, Restored log data contain every tag: REFUTED (C220_conflict_refuted): a tag whose path leads through an earlier tag makes restoring fail with AttributeError or IndexError (tensorboard.py:176-184). C220_restore proves the property if no tag is a prefix of another.
* C222, Unknown fields of logged data are ignored: REFUTED (C222_unknown_refuted): a key is popped from the dictionary while it is iterated over (rliable_evaluation_hl.py:48-52), so any unknown key raises RuntimeError, or TypeError if its value is a nested dictionary such as pred_dist_std_array_stat, which is logged for Gaussian policies. C222_fields proves the property for known fields.
* C223, Loaded runs are aligned with the environment steps: REFUTED (C223_shifted_refuted, C223_other_steps_refuted): env_step is logged for every collect but returns only with finished episodes, so that returns are shown at the steps of earlier collects, and the steps are always those of the last run (rliable_evaluation_hl.py:150-156). C223_aligned proves the property when every collect finished an episode and the runs agree on the steps; C223_columns describes the result in general.
* C224, Missing training or test data are only warned about: REFUTED (C224_no_train_refuted): test data only lead to ValueError (min of an empty list, rliable_evaluation_hl.py:170), runs without training scope (offline learning) to KeyError (line 132). C224_nothing proves the RuntimeError case.
* C225, The wandb logger honours its options: REFUTED (C225_flush_refuted): load passes the options by position without info_interval (wandb.py:106-115), so write_flush=False is ignored. C225_intervals proves what is passed on correctly.
* C226, The logger factory passes its options on: REFUTED (C226_interval_refuted): the tensorboard logger is created without save_interval (highlevel/logger.py:78-80), so every epoch is saved; 'pandas' is accepted and refused later. C226_wandb proves the property for wandb.
* C227, The wandb logger restores the checkpoint saved last: REFUTED (C227_default_refuted): without a checkpoint an error is raised instead of returning the defaults (wandb.py:163-167, utils/logger/base.py:141-149). C227_restore proves the property after a save.
* C228, train(mode) switches all online networks and no target network: Proved after any history for all classes but FQF, BCQ (networks never switched) and DiscreteCRR with targets (recursive train switches them too). REFUTED in general: fqf.py:93 fraction_model and bcq.py:107 vae are not named in train(), so neither eval() nor train() ever reaches them; mapolicy.py:282-286 does not set the manager's own flag.
* C229, Target networks are in evaluation mode at all times: Proved for all histories for the other classes. REFUTED for DiscreteCRR (nn.Module.train is recursive, so the eval() of discrete_crr.py:92-94 is undone by the first train(True), and the targets are in training mode whenever it learns), for BCQ (eval() is never called on the copies, bcq.py:93-105) and for Rainbow with noisy layers (rainbow.py:58 puts the target into training mode for good; intended for the noise, but batch norm and dropout of the target follow).
* C230, Networks are in evaluation mode while collecting, in training mode while learning, and afterwards as before: Inside the blocks: proved for all classes but FQF and BCQ. Afterwards: proved for all policies without a manager after any first call (a noisy Rainbow target excepted). REFUTED for the multi-agent manager, universally: the flag that torch_train_mode saves never changes (see C80).
* C231, A policy's state dict holds all that was learned: Round trip proved for what is registered with nn.Module. REFUTED: MultiAgentPolicyManager keeps its policies in a dict (mapolicy.py:110), so that its state_dict() and parameters() are empty for all sub-policies, and a checkpoint of it restores nothing; SAC's (REDQ's, CQL's) learned log_alpha is a plain tensor and is not saved either (sac.py:139-153).
* C232, Target networks follow their online networks: REFUTED for buffers: soft_update zips parameters() only (base.py:287-290), so batch norm statistics of a target stay those of its creation for ever, for all training steps; the target is used in evaluation mode, i.e. with them. With tau = 1 and equal buffers it is the same as load_state_dict. Convergence of parameters is C26.
* C233, Rainbow draws independent noise for the online and the target network, and noise drives exploration: REFUTED twice: at every synchronising update (the first included) load_state_dict copies the eps buffers too and overwrites the noise just drawn for the target, which then equals the online network in everything; and collect runs the network in evaluation mode (collector.py:472), where NoisyLinear adds no noise, so that noise never affects collected actions. Proved in between: fresh, disjoint draws, and weights of the last synchronisation.
* C236, Losses of discrete BCQ: REFUTED for the hidden state: the imitator gets the state returned by the Q-network (C236_imitator_state_refuted); C236_loss proves the statement about the losses, C236_stateless_partial the restriction to networks without state of their own.
* C237, Branching DQN respects action masks: REFUTED: the mask is not looked at; C237_greedy_partial is the statement without masks.
* C238, The recurrent critic accepts what the recurrent actor accepts: REFUTED for single frames (assertion), which the recurrent actors accept; C238_value covers sequences.
* C239, A wrapper of training statistics behaves like one object: REFUTED for attributes that wrapper and wrapped object both have (C239_shadow_refuted: the assignment goes inside, contrary to rule 1 of the docstring, and the old value is read back) and for base fields assigned on the wrapped object itself (C239_inner_refuted). Proved otherwise: C239_assign, C239_sync.
* C240, Training statistics report all losses: REFUTED for a wrapper around the statistics of several agents (C240_agents_refuted: none of their losses is reported) and for ICM inside ICM (C240_nested_refuted). Proved for all other nestings (C240_reported); PPO and GAIL report means, and gradient_steps among the losses (C240_sequences).
* C241, Statistics of several agents keep the agents apart: REFUTED: ids that print alike (1 and '1') overwrite each other (C241_collision_refuted); update overwrites the aggregated time, so the aggregator has no effect, and an update without data for any agent raises ValueError (C241_aggregator_refuted). Proved: keys (C241_keys) and bounds of the aggregated time on construction (C241_time).
* C242, Smoothed losses are means of the last 100 values and raw losses are logged: REFUTED for wrappers and several agents: only train_time and smoothed_loss are logged (C242_raw_refuted). Proved: smoothed values (C242_smoothed), raw values of plain statistics (C242_raw).
* C243, The timing information of a training run adds up: REFUTED: collectors other than AsyncCollector never add to collect_time, so collect and test times are always 0 and testing counts as training (C243_times_refuted); update time is not reset (C243_update_refuted); division by zero if no time has passed (C243_instant_refuted). Proved: counts, sums and speed (C243_counts), times for asynchronous collectors (C243_async_partial).
* C246, Not saving next observations does not change the targets: REFUTED: at truncated steps and at the newest step of a sub-buffer the value is taken from the observation before the step; the targets agree for episodes that end with a terminal step, and C245/C247 give the targets in every case.
* C252, The check of the buffer at construction of a collector is exact: REFUTED for sub-buffers of size zero: VectorReplayBuffer(0, n) is accepted although every add raises ZeroDivisionError, while a plain buffer of size zero is rejected. Proved, as an equivalence, for all buffers whose sub-buffers have room.
* C253, The collectors of an experiment fit their environments: REFUTED for buffer_size=0: rejected for one training environment only; with several the collectors are created and the first add raises ZeroDivisionError (C252). Proved for buffer sizes greater than zero.
* C254, The stored action is one that the policy maps to the executed action: REFUTED for random actions with action_bound_method="clip" and action_scaling=False: map_action_inverse does not clip, a sample outside [-1, 1] is executed and stored although map_action would send another action for it. Proved for actions of the policy, and for random actions that map_action can reach (scaling with sides of at least eps, no bound method, or a space that is no Box).
* C257, compute_action returns the action to execute: REFUTED: compute_action calls squeeze() and obs[None, :]. Observations without axes (discrete observation spaces, dicts) raise IndexError for every policy; an action of shape (1,) loses its axis without scaling, and an action of shape (n, 1) becomes an n x n matrix with scaling. Proved for all observations with an axis and all action shapes without axes of length 1, and as equality with what the collector executes; C257_discrete is complete for discrete actions.
* C258, The random policy acts at random in the action space: REFUTED: RandomActionPolicy uses BasePolicy's default action_bound_method clip without scaling, so in a Box beyond [-1, 1] the executed actions are clipped to [-1, 1] (and may lie outside the box), and in Discrete spaces with start > 0 the drawn actions are not in the space. Proved for boxes inside [-1, 1] and for Discrete with start 0.
* C260, PSRL acts by the posterior of all it has learned: REFUTED: solve_policy sets updated before solving, so when sampling or value iteration raises, the next call silently acts by the policy of the earlier posterior (or raises AttributeError). Proved whenever solving succeeds; C260_solved_once holds always.
* C261, Slicing a distribution selects elements of the batch: REFUTED for distributions without a batch: a slice of a Categorical keeps some classes and rescales their probabilities, a slice of Independent(Normal, 1) keeps some components; both raise no error. Proved for distributions over a batch: same class, parameters element by element, length, IndexError out of range.
* C262, to_at_least_2d gives every value a batch axis: REFUTED: dist_to_atleast_2d returns Independent(Normal, 1) without batch unchanged, so its batch_shape stays empty (the tests only use Independent(..., 0)); distributions in nested batches are put into object arrays of shape (1, 1); tensors become numpy arrays. Proved for distributions without event axes and for the values of the batch itself.
* C263, Rows made two-dimensional concatenate to the batch: REFUTED: concatenating rows of arrays with three or more axes merges the first two axes. Proved: two axes are restored, one axis becomes (n, 1).
* C264, Equality of batches: REFUTED for shapes: np.atleast_1d makes a number equal to the array of one number, None equal to [None], and an empty object array equal to an empty Batch. Proved otherwise, with DeepDiff's comparison of single arrays and of distributions as parameters; keys copy, batch_dict and self are excluded (C96).
* C267, Tests are not affected by the exploration of training: REFUTED without a test callback: only the tests made before any training use the epsilon of the policy, all others use the one set for training (universal). Proved with a test callback.
* C268, Training is not affected by the test callback: REFUTED: with a test callback and no train callback the test in reset sets epsilon before the first collection and nothing sets it back, so all training is done with the test epsilon (universal, with a test collector). Proved without any callback.
* C269, The train callback is called once at the beginning of each epoch: REFUTED: train_fn is called before every collection, not once per epoch (base.py:496-501), e.g. twice in an epoch with two collections. Proved: exactly one call before each collection, with the epoch and the steps collected so far.
* C271, Training stops when a test reaches the threshold: REFUTED: stop_fn is given best_reward, which includes the test before the training (base.py:287-303, 453): if that test reaches the threshold the training stops after one epoch whatever the later tests give (universal, score = mean). Proved: an early stop implies best_reward >= threshold, that of the first test with the best score unless a test during training stopped it.
* C273, Lists of objects keep their elements: REFUTED: in a list with only numbers and strings, both present, every number becomes a string ([1, 'a'] gives ['1', 'a']); proved when some other object such as None is in the list, or only strings
* C274, Ragged lists are stored as object arrays: REFUTED for arrays with the same number of rows (other than one) and different further dimensions: TypeError; proved when the lengths differ
* C275, A Batch of a list of dicts gives the dicts back: REFUTED: an empty dict gives no row and all later rows move up; proved for non-empty dicts of the same layout
* C276, What is given to the Batch constructor is stored or refused: REFUTED: a list with an element that is no dict, a number array, a number, string or other object is dropped without an error; proved for dicts and keywords
* C277, Parsing a stored value changes nothing: REFUTED: an object array without rows counts as a list of dicts and becomes an empty Batch; proved for all other values
* C278, The infos of envpool environments as dicts: REFUTED for None, which becomes an object array of None; proved for arrays with the same number of rows (object arrays with rows of non-zero length)
* C279, Attributes of environments have the value last written: REFUTED for attributes a wrapper also has: set_env_attr writes to env.unwrapped and get_env_attr reads the outermost wrapper that has it, so the written value is never read; and for private attributes behind a wrapper, which gymnasium does not pass on. Proved for all others over all sequences of calls, including those that raise.
* C280, set_env_attr writes to all of the environments or none: REFUTED in synchronous mode: ids are not checked, so the environments before the first id out of range have been written when IndexError is raised. Proved for asynchronous mode and after close.
* C281, Reading an attribute that an environment does not have raises: REFUTED for environments in other processes: the subprocess answers None if there is no such attribute. Proved for environments in the same process.
* C282, The spaces of a vector environment can always be read: REFUTED in asynchronous mode: while one environment is stepping, reading a space raises AssertionError. Proved when none is stepping.
* C285, Watch environments are single and in the same process: REFUTED for EnvFactoryRegistered with an envpool factory: the number asked for is honoured, the environments are envpool's and the render mode is dropped, so nothing is shown. Proved without envpool.
* C287, from_factory_and_type checks the type of the environments: REFUTED for the discrete type: DiscreteEnvironments does not look at the action space, so every environment with a Box of actions is taken as discrete with the shape of the Box as number of actions. Proved for the continuous type.
* C288, max_action bounds all actions: REFUTED: max_action is high[0], so a larger bound of another component exceeds it, and for actions of several dimensions it is an array. Proved for a vector of equal bounds.
* C290, Discount factors and target rates are in [0, 1]: REFUTED for BCQ, which checks neither gamma nor tau (C290_bcq_refuted, for all parameters); proved for the other classes.
* C291, The estimation step of a policy is positive: REFUTED for DDPG, TD3, SAC, REDQ, CQL, DiscreteSAC and TD3BC: any integer is taken (C291_any_refuted), and with 0 the target ignores the rewards (C291_zero_refuted). Proved for the Q-learning classes.
* C292, Policies refuse action spaces they cannot handle: REFUTED: only SAC, CQL and DiscreteSAC check (C292_sac). The other classes for discrete actions take a Box (C292_box_refuted), DDPG, TD3, TD3BC, REDQ and BCQ take a Discrete space if action_scaling is off (C292_discrete_refuted).
* C293, action_bound_method takes the documented values: REFUTED: the empty string that the documentation gives for no bounding raises ValueError in every class with the option (C293_empty_refuted); None works. Values are kept as given (C293_none).
* C294, Temperatures are numbers or learnable: REFUTED: an int raises TypeError, being subscripted as a tuple (C294_int_refuted); floats and proper tuples are equally accepted (C294_float).
* C295, The second critic is trained by its optimizer: REFUTED: given critic2_optim without critic2, the second critic is a copy that no optimizer changes (C295_untrained_refuted); TD3 refuses only the other incomplete case. Proved for the remaining combinations.
* C318, Figures show the requested data under the right name and colour: REFUTED in general: the colours are not passed to the profile plot, and the legend is empty for a directory given with a trailing slash. Proved for the data plotted and for names of directories without trailing slash.
* C319, load_and_eval_experiments plots what the flags say: REFUTED for scope 'both': both flags are ignored (figures are always shown and saved) and the training figures overwrite the test figures. Proved for a single scope.
* C329, Resuming does not lose the best policy: REFUTED: reset calls save_best_fn for the resumed policy and starts best_score afresh, so the best policy saved before is overwritten by a worse one; proved for a resumed policy at least as good as the best before
* C361, create_uniform_action_dist samples as the action space does: REFUTED for discrete spaces which do not start at zero (a number outside the space has positive probability), for boxes of two or more axes (RuntimeError), for unbounded coordinates and for coordinates of one value. Proved for discrete spaces starting at zero and for bounded boxes of one axis.
* C363, ICM passes its learning arguments to the inner policy: REFUTED for positional arguments, which ICMPolicy.learn drops. Proved for keyword arguments, with the statement about the loss.
* C364, A copy of a vector buffer behaves as the buffer: REFUTED for unfinished_index: in a copy the sub-buffers no longer view the manager's storage, so after anything was added, for every sub-buffer and transition one of the two outcomes (episode ends or not) makes unfinished_index of the copy wrong. Proved: state, reports, length, prev, next, rows and (unless sample_avail is used with stacking) samples agree; copies of never filled buffers behave as the buffer; set_batch repairs a copy.
* C365, A copy of a cached buffer stores the episodes that end: REFUTED: once anything was stored, no main row of a copy ever changes again, however many episodes end. Proved: a copy of a never filled cached buffer behaves as the buffer.
* C366, A cached buffer loaded from a file stores the episodes that end: REFUTED: main_buffer and buffers[0] are written to the file one by one, so in the loaded buffer main_buffer is another object than the sub-buffer that is sampled: no main row of the storage ever changes again and no place of the main buffer filled after loading is ever sampled (of a buffer saved empty, sampling raises ValueError). Proved: lengths, last indices, caches and all reports and errors of add are those of the saved buffer.
* C368, Restacking recovers the observations of a frame-stacking environment: REFUTED for next observations that are kept (ignore_obs_next=False): base.py:605-606 stacks the newest frames of the obs_next of the earlier rows of the episode, and prev stops at the episode's first row, so during the first k-1 transitions of every episode the first frame is missing from the stack: the first transition's next observation is read as k copies of its newest frame (C368_next_kept_refuted, for every k >= 2 whenever the first two frames differ). Proved: observations are recovered whenever the beginning of the episode or the k rows are stored; kept next observations once the episode has k stored rows; next observations read from the following row (ignore_obs_next=True) for every transition that does not end its episode and is not the newest.
* C379, An asynchronous step with Ray workers returns what is there: REFUTED for fewer waiting environments than wait_num: ray.wait is asked for more results than there are handles and raises a ValueError, after the actions have been sent, so the environments count as waiting and step(None) raises again (C379_fewer_refuted). Proved when at least wait_num are waiting (C379_step_partial, C379_returns_partial), which a collector that steps every ready environment always ensures (C379_collector); and the partition into waiting and ready always (C379_partition).
* C380, Exploration noise of DDPG follows each environment: REFUTED for OUNoise when the ready environments change: with equally many, an environment goes on with the process of the one that was at its place before (C380_mixed_refuted); with another number all processes start again at 0 (C380_dropped_refuted). Proved for OUNoise while the same environments are ready (C380_same_partial) and for GaussianNoise always (C380_gauss); C380_none, C380_batch and C380_warning for the other cases.

## Noted while reading, not modelled

* BDQ: the configured discount factor is not used in the target.
* REDQ: automatic alpha reads attributes that are never set.
* `Collector.collect` accepts a negative `n_step`.
