{"id": "C01", "title": "Buffer write places exactly the given slice", "statement": "Buffer.update_buffer(updates, start) with a start at which the update fits changes exactly the entries start..start+len-1 along the cursor dimension to the entries of updates, and leaves every other entry, the shape, the name and the cursor unchanged.", "quantifier": "every buffer rank and shape, every cursor dimension, every update shape that fits, every start, every index", "why_tests_cant": "A test writes one full-size array; the claim is about every rank, axis, offset and index at once.", "anchors": ["src/flowMC/resource/buffers.py:Buffer.update_buffer", "src/flowMC/resource/buffers.py:Buffer.__init__"]}
{"id": "C02", "title": "Buffer overrun: silently shifted, or refused, never resized", "statement": "update_buffer never changes the buffer's shape. If the update is not larger than the buffer in any dimension but start+len exceeds the extent, no error is raised and the last len slots are overwritten instead of the requested ones; if it is larger in some dimension or has another rank the call raises and the buffer is unchanged.", "quantifier": "every shape, start (including negative and past the end) and update", "why_tests_cant": "Overruns are never exercised by tests; the clamping rule must be known for every start.", "anchors": ["src/flowMC/resource/buffers.py:Buffer.update_buffer"]}
{"id": "C03", "title": "State update is a key-wise overwrite", "statement": "State.update(keys, values) pairs keys with values up to the shorter list; afterwards each paired key reads the last value paired with it and every other key reads what it read before.", "quantifier": "every state dictionary and every pair of lists, including duplicates and unequal lengths", "why_tests_cant": "Unequal lengths and duplicate keys are a combinatorial space no test enumerates.", "anchors": ["src/flowMC/resource/states.py:State.update", "src/flowMC/strategy/update_state.py:UpdateState.__call__"]}
{"id": "C04", "title": "Sampler construction precedence and keyword safety", "statement": "Sampler(...) uses resources/strategies/strategy_order when both resources and strategies are given, otherwise the bundle's, and raises ValueError when neither is available; extra keyword arguments can change only non-dunder names already defined on the class (verbose, logging, outdir, methods) and never n_dim, n_chains, rng_key, resources, strategies or strategy_order; unknown keywords are ignored.", "quantifier": "every combination of provided/omitted arguments and every set of extra keywords", "why_tests_cant": "The space of keyword dictionaries is unbounded.", "anchors": ["src/flowMC/Sampler.py:Sampler.__init__"]}
{"id": "C05", "title": "Sampler.sample runs the strategies in order, threading key, resources and position", "statement": "Sampler.sample executes exactly the strategies named in strategy_order, in that order, each receiving the key and position returned by its predecessor and the same user data; a name that is not registered raises ValueError at its turn, after all and only the preceding strategies took effect; a strategy that raises stops the run with the effects so far kept; a strategy_order that is not a list raises AssertionError before anything runs.", "quantifier": "every strategy order (any length), every strategy behaviour, every failure position", "why_tests_cant": "Quantifies over all schedules and crash points.", "anchors": ["src/flowMC/Sampler.py:Sampler.sample"]}
{"id": "C06", "title": "Sampler.sample does not advance the sampler's own key", "statement": "Sampler.sample always starts from the key given at construction: a second call feeds its strategies the same key sequence, so identical strategies on identical resources and positions repeat the same draws (calls are not independent).", "quantifier": "every sampler, every number of repeated calls, every strategy behaviour", "why_tests_cant": "Needs a statement over all histories of calls.", "anchors": ["src/flowMC/Sampler.py:Sampler.sample"]}
{"id": "C07", "title": "A stepping strategy touches only its three target buffers and its own cursor", "statement": "Calling TakeSerialSteps/TakeGroupSteps modifies only the three buffers that the State resource currently names, and its own current_position; all other resources, the State, other strategies' positions and the resource dictionary itself are unchanged. If a name is missing or has the wrong kind, the call raises with nothing modified.", "quantifier": "every resource dictionary, state, aliasing pattern, kernel and outcome (including errors)", "why_tests_cant": "Frame conditions quantify over everything that must not change.", "anchors": ["src/flowMC/strategy/take_steps.py:TakeSteps.__call__"]}
{"id": "C08", "title": "Recorded samples land at the right chain, step and thinning", "statement": "After a successful stepping call, slot current_position+j of chain c in the position / log-prob / acceptance buffers holds the (j*thinning)-th step of chain c produced by that call, for every kept j, and the position returned for chain c is the last kept sample of chain c.", "quantifier": "every number of chains, steps, thinning, dimension, cursor at which the write fits", "why_tests_cant": "Index arithmetic over all sizes.", "anchors": ["src/flowMC/strategy/take_steps.py:TakeSteps.__call__"]}
{"id": "C09", "title": "Chain batching is invisible", "statement": "The samples produced by a stepping call do not depend on chain_batch_size: for every value (0, 1, or any batch that does or does not divide the number of chains) the returned key, positions and buffer contents equal those of the unbatched call.", "quantifier": "every chain_batch_size, number of chains and kernel", "why_tests_cant": "A test checks one batch size and only the shape.", "anchors": ["src/flowMC/strategy/take_steps.py:TakeSteps.__call__"]}
{"id": "C10", "title": "Chains do not influence each other in stepping strategies", "statement": "The samples of chain c depend only on chain c's index (its random key), its own initial position, and the shared kernel, logpdf and data: changing the other chains' starting points leaves the samples, log-densities, acceptances and returned position of chain c unchanged.", "quantifier": "every pair of initial ensembles, every chain, every kernel", "why_tests_cant": "Non-interference is a property of pairs of runs.", "anchors": ["src/flowMC/strategy/take_steps.py:TakeSteps.__call__", "src/flowMC/strategy/take_steps.py:TakeSerialSteps.sample"]}
{"id": "C11", "title": "Recorded log-probability is the log-density of the recorded position", "statement": "In every entry written by TakeSerialSteps with GaussianRandomWalk, MALA or HMC, and by TakeGroupSteps with NFProposal (for a logpdf that does not read data['n_steps']), the recorded log-prob equals logpdf(recorded position, data).", "quantifier": "every chain length, start, kernel parameters, random outcome and target", "why_tests_cant": "An invariant along unbounded trajectories with arbitrary random draws.", "anchors": ["src/flowMC/strategy/take_steps.py:TakeSerialSteps.sample", "src/flowMC/strategy/take_steps.py:TakeGroupSteps.sample", "src/flowMC/resource/kernel/MALA.py:MALA.kernel", "src/flowMC/resource/kernel/HMC.py:HMC.kernel", "src/flowMC/resource/kernel/Gaussian_random_walk.py:GaussianRandomWalk.kernel", "src/flowMC/resource/kernel/NF_proposal.py:NFProposal.kernel"]}
{"id": "C12", "title": "Thinning: exact when it divides the number of steps, lossy otherwise", "statement": "A stepping call writes ceil(n_steps/thinning) slots but advances current_position by floor(n_steps/thinning). When thinning divides n_steps consecutive calls tile the buffer without gap or overlap; when it does not, the next call overwrites the last slot of the previous one. The chain continues from the last recorded sample, so up to thinning-1 trailing steps are dropped.", "quantifier": "every n_steps >= 1, thinning >= 1 and number of consecutive calls", "why_tests_cant": "Divisibility edge cases over all sizes and call histories.", "anchors": ["src/flowMC/strategy/take_steps.py:TakeSteps.__call__"]}
{"id": "C13", "title": "Kernel accept/reject contract", "statement": "Each kernel call (random walk, MALA, HMC, each step of the flow proposal) returns either the proposal with the proposal's log-density and do_accept=True, or the current position with the current log-density and do_accept=False, and accepts exactly when log(u) is less than the kernel's log acceptance ratio.", "quantifier": "every arithmetic (including IEEE special values), state, key and target", "why_tests_cant": "Must hold on every branch for every numeric value.", "anchors": ["src/flowMC/resource/kernel/Gaussian_random_walk.py:GaussianRandomWalk.kernel", "src/flowMC/resource/kernel/MALA.py:MALA.kernel", "src/flowMC/resource/kernel/HMC.py:HMC.kernel", "src/flowMC/resource/kernel/NF_proposal.py:NFProposal.kernel"]}
{"id": "C14", "title": "Undefined or impossible proposals are never accepted", "statement": "From a position with finite log-density, a proposal whose log-density is NaN or -inf (or, for MALA/HMC, whose gradient or energy is NaN) is rejected by every kernel; hence a chain started at a finite log-density never records a NaN or -inf log-density, at any length.", "quantifier": "every target with NaN/-inf regions, every trajectory length, every draw", "why_tests_cant": "Quantifies over all targets, draws and lengths under IEEE special-value rules.", "anchors": ["src/flowMC/resource/kernel/Gaussian_random_walk.py:GaussianRandomWalk.kernel", "src/flowMC/resource/kernel/MALA.py:MALA.kernel", "src/flowMC/resource/kernel/HMC.py:HMC.kernel", "src/flowMC/resource/kernel/NF_proposal.py:NFProposal.kernel"]}
{"id": "C15", "title": "Acceptance probability is min(1, exp ratio)", "statement": "Over a uniform draw u in [0,1), the probability that a kernel with log-ratio r accepts is min(1, exp r); the expectation of any function of the next state is the corresponding mixture of its values at the proposal and at the current state.", "quantifier": "every real ratio r and every test function", "why_tests_cant": "A statement about a continuous distribution of draws.", "anchors": ["src/flowMC/resource/kernel/Gaussian_random_walk.py:GaussianRandomWalk.kernel", "src/flowMC/resource/kernel/MALA.py:MALA.kernel", "src/flowMC/resource/kernel/NF_proposal.py:NFProposal.kernel", "src/flowMC/resource/kernel/HMC.py:HMC.kernel"]}
{"id": "C16", "title": "Gaussian random walk satisfies detailed balance", "statement": "For target density exp(logpdf), the random-walk proposal density times acceptance probability is symmetric between any two points, for scalar and per-parameter step sizes.", "quantifier": "every dimension, target, pair of points and step size", "why_tests_cant": "Requires an identity for all pairs of states.", "anchors": ["src/flowMC/resource/kernel/Gaussian_random_walk.py:GaussianRandomWalk.kernel"]}
{"id": "C17", "title": "MALA satisfies detailed balance", "statement": "With a scalar (or diagonal-matrix) step size the log-ratio computed by the MALA kernel is log target(y) q(y->x) / (target(x) q(x->y)) for the Langevin Gaussian proposal q that the kernel actually draws from, hence target(x) q(x,y) a(x,y) is symmetric; a one-dimensional array of step sizes is rejected with an error.", "quantifier": "every dimension, differentiable target, pair of points and step size", "why_tests_cant": "Identity for all states; wrong sign or swapped arguments pass statistical tests on small step sizes.", "anchors": ["src/flowMC/resource/kernel/MALA.py:MALA.kernel"]}
{"id": "C18", "title": "Flow proposal satisfies detailed balance as an independence sampler", "statement": "For each step of the flow proposal kernel with proposal density proportional to exp(model.log_prob), target(x) q(y) a(x,y) is symmetric; an additive constant in model.log_prob does not change any decision.", "quantifier": "every target, model, pair of points, chain length", "why_tests_cant": "Identity for all states.", "anchors": ["src/flowMC/resource/kernel/NF_proposal.py:NFProposal.kernel"]}
{"id": "C19", "title": "HMC integrator is reversible", "statement": "Running the HMC leapfrog from the end point with negated momentum returns exactly to the start point with negated momentum, for every potential gradient, metric, step size and number of leapfrog steps.", "quantifier": "every n_leapfrog, dimension, potential, condition matrix, start", "why_tests_cant": "A test checks one Gaussian with identity metric up to tolerance.", "anchors": ["src/flowMC/resource/kernel/HMC.py:HMC.leapfrog_kernel", "src/flowMC/resource/kernel/HMC.py:HMC.leapfrog_step"]}
{"id": "C20", "title": "HMC preserves phase-space volume and satisfies detailed balance in phase space", "statement": "The leapfrog map has Jacobian determinant 1 and exp(-H(z)) times the acceptance probability is symmetric under the (momentum-flipped) leapfrog map.", "quantifier": "every dimension, differentiable gradient, step size, number of steps, phase point", "why_tests_cant": "An identity over a continuum of states.", "anchors": ["src/flowMC/resource/kernel/HMC.py:HMC.kernel", "src/flowMC/resource/kernel/HMC.py:HMC.leapfrog_step"]}
{"id": "C21", "title": "HMC kinetic energy matches its momentum distribution only for diagonal metrics", "statement": "For a diagonal condition matrix the kinetic energy used in the acceptance test is the one whose Boltzmann density is the Gaussian the momenta are drawn from (covariance = inverse condition matrix); for a symmetric condition matrix with a non-zero off-diagonal entry it is not; the default scalar condition_matrix=1 makes the kernel raise.", "quantifier": "every dimension and symmetric condition matrix", "why_tests_cant": "Tests only use the identity matrix.", "anchors": ["src/flowMC/resource/kernel/HMC.py:HMC.__init__", "src/flowMC/resource/kernel/HMC.py:HMC.kernel"]}
{"id": "C22", "title": "Flow-proposal batching of the log-density is invisible", "statement": "The log-densities of the proposals used by the flow kernel are logpdf(proposal_i, data) for every i in order, for every n_steps and every positive batch size, dividing or not.", "quantifier": "every n_steps, batch size, target", "why_tests_cant": "Boundary arithmetic for all sizes.", "anchors": ["src/flowMC/resource/kernel/NF_proposal.py:NFProposal.kernel"]}
{"id": "C23", "title": "Flow sampling yields exactly n_steps proposals with matching flow densities", "statement": "sample_flow returns exactly n_steps proposals, each a draw of the model, and the i-th flow log-density is model.log_prob of the i-th proposal, for every n_steps and positive batch size; no internal batch exceeds the batch size.", "quantifier": "every n_steps >= 1, batch size >= 1 and model", "why_tests_cant": "Ceil/floor edge cases over all sizes.", "anchors": ["src/flowMC/resource/kernel/NF_proposal.py:NFProposal.sample_flow"]}
{"id": "C24", "title": "Global steps evaluate the target with an extra data['n_steps'] entry", "statement": "During TakeGroupSteps the proposals are evaluated with data extended (or overwritten) by key 'n_steps', while the starting position is evaluated with the user's data; all other keys are passed through unchanged, so a target that does not read 'n_steps' sees the user's data, and one that does can have its recorded log-prob differ from logpdf(position, user data).", "quantifier": "every data dictionary and target", "why_tests_cant": "Depends on arbitrary user dictionaries.", "anchors": ["src/flowMC/strategy/take_steps.py:TakeGroupSteps.sample", "src/flowMC/resource/kernel/NF_proposal.py:NFProposal.kernel"]}
{"id": "C25", "title": "Rational-quadratic spline is a strictly increasing bijection of the line", "statement": "For strictly increasing knots and positive slopes the spline is continuous, strictly increasing and onto the real line, equals the knot values at the knots and is linear outside the range.", "quantifier": "every number of bins, knot positions, slopes and input", "why_tests_cant": "Analytic property for all real inputs and parameters.", "anchors": ["src/flowMC/resource/model/nf_model/rqSpline.py:_rational_quadratic_spline_fwd"]}
{"id": "C26", "title": "Spline inverse undoes the spline", "statement": "The inverse spline applied to the spline's output returns the input, and conversely, for every real input (inside bins, at knots, outside the range), as long as the discriminant is not below the smallest normal float at which the code clips it.", "quantifier": "every number of bins, knots, slopes, input", "why_tests_cant": "Tests cannot cover all inputs; branch selection in the quadratic root matters at measure-zero points.", "anchors": ["src/flowMC/resource/model/nf_model/rqSpline.py:_rational_quadratic_spline_inv", "src/flowMC/resource/model/nf_model/rqSpline.py:_safe_quadratic_root"]}
{"id": "C27", "title": "Spline log-determinant is the log of its derivative", "statement": "The second output of the spline is ln of the derivative of the first at every real input including knots and range ends, and the inverse's log-determinant at y is minus the forward one at the preimage.", "quantifier": "every real input and parameters", "why_tests_cant": "A derivative identity everywhere, including at the gluing points.", "anchors": ["src/flowMC/resource/model/nf_model/rqSpline.py:_rational_quadratic_spline_fwd", "src/flowMC/resource/model/nf_model/rqSpline.py:_rational_quadratic_spline_inv"]}
{"id": "C28", "title": "Any conditioner output gives a valid spline", "statement": "For every real network output, the spline parameters built from it have strictly increasing knots from range_min to range_max, each bin at least min_bin_size, and slopes at least min_knot_slope, provided num_bins*min_bin_size < range size; zero outputs give slope one.", "quantifier": "every network output, number of bins, range", "why_tests_cant": "All real vectors of any size.", "anchors": ["src/flowMC/resource/model/nf_model/rqSpline.py:RQSpline.get_params", "src/flowMC/resource/model/nf_model/rqSpline.py:_normalize_bin_sizes", "src/flowMC/resource/model/nf_model/rqSpline.py:_normalize_knot_slopes"]}
{"id": "C29", "title": "Coupling layers are exactly invertible with opposite log-determinants", "statement": "For every 0/1 mask and every conditioner, a masked coupling layer (affine, scalar affine or spline inner map) followed by its inverse, in either order, is the identity and the two log-determinants sum to zero; masked coordinates are passed through unchanged. The same holds for AffineCoupling.", "quantifier": "every dimension, mask, conditioner network, input", "why_tests_cant": "Quantifies over all networks and inputs.", "anchors": ["src/flowMC/resource/model/common.py:MaskedCouplingLayer", "src/flowMC/resource/model/common.py:MLPAffine", "src/flowMC/resource/model/common.py:ScalarAffine", "src/flowMC/resource/model/nf_model/realNVP.py:AffineCoupling"]}
{"id": "C30", "title": "Flows are exactly invertible (RealNVP always; RQSpline only with untrained scalar-affine layers)", "statement": "For RealNVP with any number of layers, model.inverse(model.forward(x)) = x and model.forward(model.inverse(z)) = z, with log-determinants summing to zero. MaskedCouplingRQSpline has the same property as long as its scalar affine layers keep their initial values (scale = shift = 0); after training moves them it does not (inverse undoes the two inner maps in forward order), and it would if each layer undid the spline before the affine map.", "quantifier": "every number of layers, parameters, input", "why_tests_cant": "Induction over depth for all inputs.", "anchors": ["src/flowMC/resource/model/nf_model/realNVP.py:RealNVP.forward", "src/flowMC/resource/model/nf_model/realNVP.py:RealNVP.inverse", "src/flowMC/resource/model/nf_model/rqSpline.py:MaskedCouplingRQSpline.forward", "src/flowMC/resource/model/nf_model/rqSpline.py:MaskedCouplingRQSpline.inverse"]}
{"id": "C31", "title": "Flow log-determinant is the log absolute Jacobian determinant", "statement": "The log-determinant accumulated by the flows equals ln|det J| of the whole map, for every dimension and depth, wherever the conditioners are differentiable.", "quantifier": "every dimension, depth, parameters and input", "why_tests_cant": "Needs multivariate calculus for all sizes.", "anchors": ["src/flowMC/resource/model/common.py:MaskedCouplingLayer.forward", "src/flowMC/resource/model/nf_model/realNVP.py:RealNVP.forward", "src/flowMC/resource/model/nf_model/rqSpline.py:MaskedCouplingRQSpline.forward"]}
{"id": "C32", "title": "Flow log_prob is the log-density of flow samples up to one additive constant", "statement": "model.log_prob(x) equals the true log-density at x of the points model.sample produces, plus the constant sum of log standard deviations of the data whitening (zero iff their product is one), so log_prob differences (Metropolis ratios) are exact; a sample drawn from latent z is the point whose latent image is z. RealNVP.log_prob always uses the standard normal, so with a custom base_dist of another shape the differences are wrong, while MaskedCouplingRQSpline uses base_dist.", "quantifier": "every model, data mean/covariance with positive variances, and point", "why_tests_cant": "A density identity for all points and models.", "anchors": ["src/flowMC/resource/model/nf_model/realNVP.py:RealNVP.log_prob", "src/flowMC/resource/model/nf_model/rqSpline.py:MaskedCouplingRQSpline.log_prob", "src/flowMC/resource/model/nf_model/rqSpline.py:MaskedCouplingRQSpline.sample"]}
{"id": "C33", "title": "Masks cover every coordinate", "statement": "In RealNVP and MaskedCouplingRQSpline every coordinate is transformed by exactly one of any two consecutive layers; the number of spline bins recovered from the conditioner's shape is the number requested.", "quantifier": "every number of features, layer index and bin count", "why_tests_cant": "All sizes (including 1 feature and odd sizes).", "anchors": ["src/flowMC/resource/model/nf_model/realNVP.py:RealNVP.__init__", "src/flowMC/resource/model/nf_model/rqSpline.py:MaskedCouplingRQSpline.__init__", "src/flowMC/resource/model/nf_model/rqSpline.py:RQSpline.__init__"]}
{"id": "C34", "title": "Training returns the model of the best epoch", "statement": "NFModel.train returns loss values whose i-th entry is the i-th epoch's loss, and the (model, optimizer state) pair right after the first epoch whose loss is minimal among losses below 1e9; epochs with NaN loss are never selected; if no epoch has a loss below 1e9 the untouched original model and state are returned.", "quantifier": "every number of epochs and loss sequence (including NaN)", "why_tests_cant": "All loss histories.", "anchors": ["src/flowMC/resource/model/nf_model/base.py:NFModel.train"]}
{"id": "C35", "title": "An epoch uses each example at most once, in full batches", "statement": "With 0 < batch_size <= n examples, an epoch performs exactly n // batch_size updates on disjoint batches of exactly batch_size examples, leaving out n mod batch_size examples; with batch_size > n it performs one update on the whole data; batch_size 0 raises.", "quantifier": "every data size, batch size and permutation", "why_tests_cant": "All sizes and permutations.", "anchors": ["src/flowMC/resource/model/nf_model/base.py:NFModel.train_epoch"]}
{"id": "C36", "title": "TrainModel trains only on recorded, finite, recent samples", "statement": "Every row passed to training is a row of the training buffer with all coordinates finite; when every chain has the same number of finite rows, the pool is exactly the last history_window finite rows of each chain; exactly n_max_examples rows are drawn; when the total is not a multiple of n_chains the call raises with nothing modified, and when chains have unequal counts with divisible total, rows of different chains are mixed before windowing.", "quantifier": "every buffer content, window, number of examples", "why_tests_cant": "Arbitrary buffer contents including partial fills and NaN.", "anchors": ["src/flowMC/strategy/train_model.py:TrainModel.__call__"]}
{"id": "C37", "title": "TrainModel's effects", "statement": "TrainModel replaces the model and optimizer state by the trained ones, appends the loss values at the loss buffer's cursor and advances it by n_epochs, returns the position unchanged, and modifies nothing else (in particular not the sample buffers).", "quantifier": "every resource dictionary, history of calls", "why_tests_cant": "Frame conditions over all states and histories.", "anchors": ["src/flowMC/strategy/train_model.py:TrainModel.__call__"]}
{"id": "C38", "title": "Replica exchange permutes walkers and keeps log-densities attached", "statement": "An exchange sweep returns a permutation of the walkers of each chain; each returned log-density is the (untempered) logpdf of the returned position at the same index; walkers of different chains are never mixed.", "quantifier": "every number of temperatures, positions, draws", "why_tests_cant": "All permutations and sizes.", "anchors": ["src/flowMC/strategy/parallel_tempering.py:ParallelTempering._exchange", "src/flowMC/strategy/parallel_tempering.py:ParallelTempering._exchange_step_body"]}
{"id": "C39", "title": "Replica exchange satisfies detailed balance", "statement": "Each adjacent swap's acceptance satisfies detailed balance for the product of tempered densities exp(logpdf/T_i + logprior), for any positive temperatures (ordered or not).", "quantifier": "every pair of temperatures, positions, likelihood, prior", "why_tests_cant": "Identity over all states.", "anchors": ["src/flowMC/strategy/parallel_tempering.py:ParallelTempering._exchange_step_body", "src/flowMC/resource/logPDF.py:TemperedPDF.tempered_log_pdf"]}
{"id": "C40", "title": "Temperature adaptation keeps the cold and hot ends and the interior order", "statement": "Any number of adaptations keeps the first temperature (1) and the last fixed, keeps all temperatures but the last strictly increasing and all positive; but the second-to-last may exceed the last, so the whole ladder need not stay sorted.", "quantifier": "every ladder, every sequence of acceptance histories of any length", "why_tests_cant": "All histories of adaptation.", "anchors": ["src/flowMC/strategy/parallel_tempering.py:ParallelTempering._adapt_temperature"]}
{"id": "C41", "title": "Parallel tempering strategy: training adapts, production freezes the tempered ensemble", "statement": "In training, the call stores walkers 1.. of the exchanged ensemble and the adapted temperatures and returns walker 0 of each chain; in production neither temperatures nor stored tempered positions change, so every production call restarts the hot walkers from the same frozen positions and a swap duplicates a frozen walker into the cold chain while discarding the cold one (the joint ensemble is not preserved).", "quantifier": "every resource dictionary, ensemble and number of calls", "why_tests_cant": "Over all histories of calls.", "anchors": ["src/flowMC/strategy/parallel_tempering.py:ParallelTempering.__call__"]}
{"id": "C42", "title": "Tempered density at temperature one, and consistency of targets", "statement": "tempered_log_pdf at T=1 is logpdf+logprior while the tempered resource called directly is logpdf alone; in the PT bundle the local/global steppers therefore target logpdf and the cold tempered walker targets logpdf+logprior: their acceptance rules agree for all states iff the prior is constant.", "quantifier": "every likelihood, prior, point, temperature", "why_tests_cant": "All functions and points.", "anchors": ["src/flowMC/resource/logPDF.py:TemperedPDF.tempered_log_pdf", "src/flowMC/resource_strategy_bundle/RQSpline_MALA_PT.py:RQSpline_MALA_PT_Bundle.__init__"]}
{"id": "C43", "title": "Adam optimisation respects the box", "statement": "For n_steps >= 1 every optimized coordinate lies between its lower and upper bound or is NaN (no NaN arises if updates are not NaN); gradients are evaluated only at the start point and at points inside the box; resources are unchanged; incompatible bounds raise ValueError; with n_steps = 0 positions are returned unchanged even outside the box.", "quantifier": "every objective, optimiser update rule, number of steps, bounds shape", "why_tests_cant": "All objectives and step counts.", "anchors": ["src/flowMC/strategy/optimization.py:AdamOptimization"]}
{"id": "C44", "title": "Bundle schedules are closed and phase-ordered", "statement": "Every name in the bundle's strategy_order is a registered strategy; training steps all precede the reset and state switch, which precede all production steps; the model trainer occurs exactly n_training_loops times, never in production.", "quantifier": "every n_training_loops, n_production_loops", "why_tests_cant": "All loop counts.", "anchors": ["src/flowMC/resource_strategy_bundle/RQSpline_MALA.py:RQSpline_MALA_Bundle.__init__", "src/flowMC/resource_strategy_bundle/RQSpline_MALA_PT.py:RQSpline_MALA_PT_Bundle.__init__"]}
{"id": "C45", "title": "A bundle run fills the buffers exactly, in chronological order", "statement": "When the thinnings divide the step counts, after Sampler.sample on a fresh bundle the training (production) position and log-prob buffers contain, for each chain, the concatenation over loops of the kept local samples then the kept global samples of that loop, every slot written exactly once; local (global) acceptances are recorded at exactly the local (global) slots and the remaining slots stay -inf.", "quantifier": "every number of loops, steps, thinning, chains; every kernel and training outcome", "why_tests_cant": "End-to-end index bookkeeping over all sizes.", "anchors": ["src/flowMC/resource_strategy_bundle/RQSpline_MALA.py:RQSpline_MALA_Bundle.__init__", "src/flowMC/Sampler.py:Sampler.sample", "src/flowMC/strategy/take_steps.py:TakeSteps.__call__"]}
{"id": "C46", "title": "Production is non-adaptive", "statement": "During the production phase of a bundle run the model, optimizer, the flow kernel's model, the training buffers, the loss buffer (and for PT the temperatures) do not change; during training each global step uses the model produced by the training immediately before it.", "quantifier": "every number of loops and every outcome", "why_tests_cant": "All histories.", "anchors": ["src/flowMC/resource_strategy_bundle/RQSpline_MALA.py:RQSpline_MALA_Bundle.__init__", "src/flowMC/resource_strategy_bundle/RQSpline_MALA_PT.py:RQSpline_MALA_PT_Bundle.__init__"]}
{"id": "C47", "title": "Re-running a bundle sampler is not a fresh run", "statement": "A second Sampler.sample on the same bundle leaves all training-phase buffers exactly as the first run left them (its training-phase samples are written over the production buffers, which its production phase then rewrites).", "quantifier": "every configuration and every outcome of both runs", "why_tests_cant": "All histories.", "anchors": ["src/flowMC/Sampler.py:Sampler.sample", "src/flowMC/resource_strategy_bundle/RQSpline_MALA.py:RQSpline_MALA_Bundle.__init__"]}
{"id": "C48", "title": "Saving and loading resources", "statement": "Loading a saved Buffer restores its name and data but always resets cursor and cursor dimension to 0, so a buffer with another cursor dimension is not restored; loading a saved State never returns a State equal to the saved one: it raises ValueError unless object arrays may be unpickled, and otherwise returns an object whose data is the saved name and whose name is the saved data.", "quantifier": "every buffer and state", "why_tests_cant": "All contents.", "anchors": ["src/flowMC/resource/buffers.py:Buffer.save_resource", "src/flowMC/resource/buffers.py:Buffer.load_resource", "src/flowMC/resource/states.py:State.save_resource", "src/flowMC/resource/states.py:State.load_resource"]}
{"id": "C49", "title": "Random streams of different chains, steps and strategies are disjoint", "statement": "The keys under which a run's random numbers are drawn for different chains, steps, temperatures and strategy calls are pairwise distinct descendants of the user's key, none of which is both consumed and passed on; the draws that decide a proposal and its acceptance come from different keys.", "quantifier": "every schedule, number of chains and steps", "why_tests_cant": "All schedules and sizes.", "anchors": ["src/flowMC/strategy/take_steps.py:TakeSteps.__call__", "src/flowMC/strategy/parallel_tempering.py:ParallelTempering.__call__", "src/flowMC/strategy/train_model.py:TrainModel.__call__", "src/flowMC/resource/kernel/NF_proposal.py:NFProposal.kernel"]}
{"id": "C50", "title": "LogPDF variables and pytree round trip", "statement": "LogPDF(n_dims=n) has n distinct variables x_0..x_{n-1}; given variables take precedence; neither raises ValueError; flattening and unflattening LogPDF / TemperedPDF reproduces it.", "quantifier": "every n and variable list", "why_tests_cant": "All sizes.", "anchors": ["src/flowMC/resource/logPDF.py:LogPDF.__init__", "src/flowMC/resource/logPDF.py:LogPDF.tree_flatten", "src/flowMC/resource/logPDF.py:TemperedPDF.tree_unflatten"]}
{"id": "C51", "title": "Flow-matching path interpolates noise to data with the right velocity", "statement": "With the conditional OT scheduler the path is x0 at t=0 and x1 at t=1, and the returned velocity is its time derivative at every t.", "quantifier": "every x0, x1, t", "why_tests_cant": "All reals.", "anchors": ["src/flowMC/resource/model/flowmatching/base.py:Path.sample", "src/flowMC/resource/model/flowmatching/base.py:CondOTScheduler.__call__"]}
{"id": "C52", "title": "Flow-matching log_prob evaluates the base density at the wrong end", "statement": "Solver.log_prob adds the divergence integral to the base log-density of its argument x1 rather than of the ODE-transported x0, so for any field that moves points between different base densities it is not the log-density of the model's samples (e.g. any constant field c != 0); FlowMatchingModel.log_prob does include the whitening Jacobian.", "quantifier": "every field; counterexample family: all constant fields", "why_tests_cant": "Needs an argument for all exact solvers.", "anchors": ["src/flowMC/resource/model/flowmatching/base.py:Solver.log_prob", "src/flowMC/resource/model/flowmatching/base.py:Solver.sample", "src/flowMC/resource/model/flowmatching/base.py:FlowMatchingModel.log_prob"]}
{"id": "C53", "title": "Weight decay acts on parameters without gradients, and breaks trained RealNVP models", "statement": "The optimiser multiplies every parameter whose gradient is always zero by (1 - learning_rate * 1e-4) per step. RealNVP keeps its coupling masks, and every flow its data mean and covariance, among those parameters: after one training step mask entries 1 lie strictly between 0 and 1, the coupling layer's inverse no longer inverts it and its reported log-determinant is wrong, and the whitened training data no longer have mean 0 and variance 1 but (1-r) mu/sqrt(r v) and 1/r with r = (1 - learning_rate/10000)^steps.", "quantifier": "every learning rate below 10000, number of steps, gradient history, parameter vector, data set and dimension", "why_tests_cant": "The effect is of order 1e-7 per step, below test tolerances, and depends on all training histories.", "anchors": ["src/flowMC/resource/optimizer.py:Optimizer", "src/flowMC/resource/model/common.py:MaskedCouplingLayer", "src/flowMC/resource/model/nf_model/realNVP.py:RealNVP", "src/flowMC/resource/model/nf_model/base.py:NFModel.train_step"]}
{"id": "C54", "title": "Freshly constructed networks and flows are well formed, invertible and normalised", "statement": "MLP(shape) raises IndexError for fewer than two sizes and otherwise maps to vectors of the last size, with n_input/n_output the first/last size; it is differentiable everywhere with tanh and off the kinks with relu. A RealNVP just built by its constructor, whatever its sizes and key, has an exact inverse and its log_prob is exactly the log-density of its samples (at points where no relu is at its kink). A MaskedCouplingRQSpline just built with the default range and at least one hidden layer has, at every point, an exact inverse and an exact log_prob for any positive base density: the numerical clipping inside the spline inverse never acts.", "quantifier": "every dimension, number of layers, hidden sizes, number of bins below 200000, key and point", "why_tests_cant": "All sizes, keys and points; invertibility and densities need analysis, not samples.", "anchors": ["src/flowMC/resource/model/common.py:MLP", "src/flowMC/resource/model/nf_model/realNVP.py:RealNVP.__init__", "src/flowMC/resource/model/nf_model/rqSpline.py:MaskedCouplingRQSpline.__init__"]}
{"id": "C55", "title": "Base distributions: log_prob is the density of sample", "statement": "For a Gaussian with mean mu and covariance cov = L L^T, samples are mu + L z with z standard normal, and log_prob(x) is the logarithm of the density of these samples, equal to -1/2 (x-mu).cov^-1(x-mu) - n/2 ln 2pi - 1/2 ln det cov. Composable.log_prob of a concatenation of blocks is the sum of the parts' log_prob on their blocks; Composable.sample returns a dict from partition names to the parts' samples, with a different key for each part.", "quantifier": "every dimension, mean, Cholesky factor with positive diagonal, point, key, number of samples, list of parts and partitions with distinct names", "why_tests_cant": "All covariances, points and compositions; densities need Jacobian determinants.", "anchors": ["src/flowMC/resource/model/common.py:Gaussian", "src/flowMC/resource/model/common.py:Composable"]}
{"id": "C56", "title": "Flow-matching training uses each example at most once per epoch, in full batches, and returns the best epoch", "statement": "An epoch of FlowMatchingModel.train cuts a permutation of the data into floor(n/batch_size) full batches (or uses all of it once when there are fewer examples than the batch size) and makes one optimiser update per batch; each example is the point at its time on the straight line from its noise vector to its whitened sample, with the velocity of that line as target; the loss is the mean squared error over batch and coordinates; train returns the model after the first epoch whose loss is the smallest, and only a batch size of zero makes it fail.", "quantifier": "every model, data set, batch size, epoch count, random key and optimiser update", "why_tests_cant": "All data sets, batch sizes, permutations and update rules.", "anchors": ["src/flowMC/resource/model/flowmatching/base.py:FlowMatchingModel.train", "src/flowMC/resource/model/flowmatching/base.py:FlowMatchingModel.train_epoch", "src/flowMC/resource/model/flowmatching/base.py:FlowMatchingModel.loss_fn"]}
{"id": "C57", "title": "Statistics taken from training data whiten it", "statement": "When a flow takes its mean and covariance from data with at least two rows and no constant column, all variances are positive and the whitened data has mean 0 and variance 1 in every coordinate; a constant column gets variance 0, so whitening divides by zero there.", "quantifier": "every data set of any size and dimension", "why_tests_cant": "All data sets.", "anchors": ["src/flowMC/resource/model/nf_model/base.py:NFModel.train", "src/flowMC/resource/model/nf_model/realNVP.py:RealNVP.log_prob", "src/flowMC/resource/model/nf_model/rqSpline.py:MaskedCouplingRQSpline.log_prob"]}
{"id": "C58", "title": "Gradient clipping and bias correction", "statement": "The optimiser uses gradients of Euclidean norm below 1 unchanged and rescales longer ones to norm 1; while a parameter's clipped gradient is a constant c, every step from the first on subtracts learning_rate * (c/(|c|+1e-8) + 1e-4 * value).", "quantifier": "every gradient vector, parameter vector, number of steps and optimiser constants with 0 <= b1, b2 < 1, eps > 0", "why_tests_cant": "All gradient vectors and histories.", "anchors": ["src/flowMC/resource/optimizer.py:Optimizer"]}
{"id": "C59", "title": "No two parameter arrays of a new model share random numbers", "statement": "In a freshly built MLP every entry of the i-th hidden weight matrix is one standard normal draw times sqrt(scale/inputs), all drawn from a stream of that layer's own; its bias and the last layer are made by the default initialiser from their own keys. All streams of an MLP, of a RealNVP (two networks per layer) and of a MaskedCouplingRQSpline descend from the constructor's key, are pairwise disjoint, and are the only random numbers the model depends on.", "quantifier": "every shape, number of layers, key, and every assignment of random numbers to keys", "why_tests_cant": "Absence of key reuse is a statement about all sizes and all streams; equal-looking weights are invisible to a test of outputs.", "anchors": ["src/flowMC/resource/model/common.py:MLP.__init__", "src/flowMC/resource/model/nf_model/realNVP.py:RealNVP.__init__", "src/flowMC/resource/model/nf_model/rqSpline.py:MaskedCouplingRQSpline.__init__"]}
{"id": "C60", "title": "Global steps with the repository's flows are balanced against what the flow really proposes, until training breaks the spline flow", "statement": "Balance against given proposal densities holds exactly when exp(log_prob) is proportional to them. For a RealNVP with its 0/1 masks and differentiable networks, and for a MaskedCouplingRQSpline whose affine parts are at their initial zero (in particular freshly built ones), global-step acceptance satisfies detailed balance between target and the true density of the flow's samples (standard normal noise pushed through sampling). Once training moves a spline layer's shift away from zero, or the optimiser's weight decay a RealNVP mask away from 0/1, the balance fails, because sampling and log_prob disagree.", "quantifier": "every dimension, number of layers, network, data statistics, target, pair of points and key; refutations for every nonzero shift / every number of optimiser steps and every target", "why_tests_cant": "Balance is an identity over all pairs of points and all trained parameters; a biased acceptance shows up only statistically.", "anchors": ["src/flowMC/resource/kernel/NF_proposal.py:NFProposal.kernel", "src/flowMC/resource/model/nf_model/realNVP.py:RealNVP.sample", "src/flowMC/resource/model/nf_model/rqSpline.py:MaskedCouplingRQSpline.sample"]}
{"id": "C61", "title": "The training loss is the negative log-likelihood up to a constant, and belongs to the model before the update", "statement": "The loss a training step reports is minus the mean log_prob of the batch under the model before the update: for RealNVP and the spline flow this is minus the mean log-density minus the sum of the log standard deviations of the data statistics, so between models with equal statistics a smaller loss is a larger likelihood. An epoch's recorded loss is that of its last batch before its last update; the model returned by train is one optimiser update after the model with the smallest recorded loss, so it need not have that loss and can be worse on the data than the model it was given.", "quantifier": "every flow, batch, data set, batch size, number of epochs and key; refutation for a concrete flow with its true gradient, every key", "why_tests_cant": "Universal over models and data; the off-by-one between loss and model is invisible when training improves every step.", "anchors": ["src/flowMC/resource/model/nf_model/base.py:NFModel.loss_fn", "src/flowMC/resource/model/nf_model/base.py:NFModel.train_step", "src/flowMC/resource/model/nf_model/base.py:NFModel.train_epoch", "src/flowMC/resource/model/nf_model/base.py:NFModel.train"]}
{"id": "C62", "title": "A flow saved after any training comes back identical, and only into a model of the same sizes", "statement": "save_model(path) after any history of train calls, followed by load_model(path) on a new model built with the same constructor sizes (any key, for the spline any interval), returns exactly the saved model, whatever else is saved under other paths before or after. Loading into a RealNVP with other sizes raises, as does loading a path never saved to or a file of the other class. For the spline model only a prefix of the conditioner's layer widths is checked: a file of a deeper conditioner whose widths continue the receiver's is accepted and silently cut.", "quantifier": "every training history, size, key, file-system content, sequence of later saves and path", "why_tests_cant": "Universal over histories and pairs of sizes; the silently accepted truncated file needs a specific coincidence of sizes.", "anchors": ["src/flowMC/resource/model/nf_model/base.py:NFModel.save_model", "src/flowMC/resource/model/nf_model/base.py:NFModel.load_model"]}
{"id": "C63", "title": "to_precision converts every array and nothing else, and turns the spline model's masks into trained parameters", "statement": "to_precision succeeds exactly for float16, bfloat16, float32 and float64 in any letter case and raises ValueError otherwise; the result has every array converted to that dtype and every other leaf unchanged, so it computes the same flow and base distribution when the conversion is exact on the values. The boolean masks of the spline model become floating-point arrays, so after to_precision('float32') every optimiser step multiplies their entries by 1 - lr/10000, which never happens to a model that was not converted.", "quantifier": "every model, name, rounding function, learning rate and training history", "why_tests_cant": "Universal over models and names; the mask decay appears only in later training, by one part in ten thousand times the learning rate per step.", "anchors": ["src/flowMC/resource/model/nf_model/base.py:NFModel.to_precision"]}
{"id": "C64", "title": "Training changes the values of floating-point arrays only", "statement": "The tree of leaves a constructor builds computes the flow with the constructor's layers, networks and masks; after any history of train calls the model has the same leaves in the same order with the same shapes and dtypes, with non-array and boolean leaves unchanged. The spline model's masks are therefore those of its constructor for ever; a RealNVP's mask entries are multiplied by (1 - lr/10000)^T where T is the number of optimiser steps leading to the returned model (at least one unless train returned its argument), and the data mean and covariance it returns are those of one of the data sets it was trained on, shrunk by that factor.", "quantifier": "every size, key, optimiser, sequence of train calls with their data, keys, epochs and batch sizes; every gradient that vanishes on the stop_gradient leaves", "why_tests_cant": "Holds for every history of calls, not for one training run.", "anchors": ["src/flowMC/resource/model/nf_model/base.py:NFModel.train_step", "src/flowMC/resource/model/nf_model/base.py:NFModel.train", "src/flowMC/resource/model/nf_model/realNVP.py:RealNVP.__init__", "src/flowMC/resource/model/nf_model/rqSpline.py:MaskedCouplingRQSpline.__init__"]}
{"id": "C65", "title": "log_prob of a spline flow stays exact through any training, with respect to a shrunken base", "statement": "After any history of train calls on data sets with no constant coordinate, at every point the spline model's transformation reports the logarithm of its Jacobian determinant and log_prob is, up to the constant sum of log standard deviations, the log-density of points whose latent image follows its base distribution; that base is the centred normal with covariance (1 - lr/10000)^T times the identity instead of the standard normal.", "quantifier": "every size with at least one bin, interval longer than bins/10000, key, learning rate below 10000, training history and point", "why_tests_cant": "Universal over trained parameters and points; numerical checks at a few points cannot exclude a wrong determinant elsewhere.", "anchors": ["src/flowMC/resource/model/nf_model/rqSpline.py:MaskedCouplingRQSpline.log_prob", "src/flowMC/resource/model/nf_model/base.py:NFModel.train", "src/flowMC/resource/model/common.py:Gaussian.log_prob"]}
{"id": "C66", "title": "A stepping call that fails leaves a resumable state", "statement": "A stepping strategy call that raises, for whatever reason, leaves all resources and the strategy as they were, or (when the log-probability or the acceptance buffer refuses its update) has recorded the new positions, and possibly their log-densities, in the slots reserved for them and nothing else: the acceptance buffer, current_position, all other objects and all other slots are unchanged, so the next call writes the same slots again.", "quantifier": "every strategy configuration, kernel, key, start and resource contents, and every point at which the call can raise", "why_tests_cant": "All failure points of a call with several in-place writes.", "anchors": ["src/flowMC/strategy/take_steps.py:TakeSteps.__call__", "src/flowMC/resource/buffers.py:Buffer.update_buffer"]}
{"id": "C67", "title": "Files of saved buffers and states", "statement": "save_resource(path) writes exactly one file, path + name with .npz appended unless it is there already; a buffer saved and loaded from that file, after any saves to other files, has the same name and data (with cursor and cursor_dim reset). Two saves share a file exactly if path + name agree or differ by an added .npz. The argument given to save_resource names that file only for an empty name and a path ending in .npz, and otherwise load_resource raises. A State's file is refused by Buffer.load_resource. All buffers of a bundle can be saved with one path and loaded back.", "quantifier": "every path, name, content and sequence of saves", "why_tests_cant": "All names and histories of saves.", "anchors": ["src/flowMC/resource/buffers.py:Buffer.save_resource", "src/flowMC/resource/buffers.py:Buffer.load_resource", "src/flowMC/resource/states.py:State.save_resource"]}
{"id": "C68", "title": "get_distribution is the histogram of all slots, and is refused while any slot is unwritten", "statement": "Buffer.get_distribution(n_bins) raises ValueError for zero bins and whenever some slot is NaN or infinite, hence for every buffer with a slot that was never written, and for both acceptance buffers of each phase after any completed bundle run with local and global steps. Otherwise (exact arithmetic) it returns n_bins + 1 equally spaced edges from the smallest to the largest slot (v - 1/2 to v + 1/2 if all slots equal v; 0 to 1 if there are none) and for each bin the number of slots in it, even when the bin index NumPy first computes is off by one through rounding; the counts add up to the number of slots.", "quantifier": "every buffer content, shape and number of bins; every bundle configuration and run", "why_tests_cant": "Universal over contents; the refusal after a run concerns all configurations.", "anchors": ["src/flowMC/resource/buffers.py:Buffer.get_distribution", "src/flowMC/resource_strategy_bundle/RQSpline_MALA.py:RQSpline_MALA_Bundle.__init__"]}
{"id": "C69", "title": "No history of calls creates, removes, renames, resizes or retypes a resource", "statement": "Any call of a repository strategy, returning or raising, and any sequence of Sampler.sample calls on a bundle leaves the same mutable objects (buffers with the same name, shape and cursor_dim, states with at least the keys they had, optimisers with the same transformation) and the same resource names bound to the same objects or values of the same kind; so after any history all buffers of a bundle can be saved with one path and loaded back.", "quantifier": "every strategy, configuration, resource contents, arguments, outcome and sequence of sample calls", "why_tests_cant": "All histories including failing calls.", "anchors": ["src/flowMC/Sampler.py:Sampler.sample", "src/flowMC/strategy/take_steps.py:TakeSteps.__call__", "src/flowMC/strategy/train_model.py:TrainModel.__call__", "src/flowMC/strategy/parallel_tempering.py:ParallelTempering.__call__"]}
{"id": "C70", "title": "A run of either bundle leaves its own spline flow trained once per loop on recorded finite positions, with valid structure and density", "statement": "For every set of constructor arguments meeting the documented shape conditions, the spline flow and optimiser that RQSpline_MALA_Bundle and RQSpline_MALA_PT_Bundle build satisfy the standing conditions assumed of flow models, so C45-C47 apply to them with nothing assumed of the flow. After a successful Sampler.sample, the resources model, global_sampler and optimizer hold one history: the tree built from the bundle key, trained n_training_loops times with AdamW of the given learning rate, each time on n_max_examples rows that are finite positions recorded in positions_training. The resulting flow keeps masks, range and shape, can be saved and loaded into a newly built flow of the same sizes, and (exact arithmetic) log_prob is the log density of C65 as long as the stored variances are positive; its samples are then, wherever the flow is invertible, the points whose latent images are the base draws.", "quantifier": "every constructor argument, target, data, initial position, key and successful run", "why_tests_cant": "All configurations and complete runs.", "anchors": ["src/flowMC/resource_strategy_bundle/RQSpline_MALA.py:RQSpline_MALA_Bundle.__init__", "src/flowMC/resource_strategy_bundle/RQSpline_MALA_PT.py:RQSpline_MALA_PT_Bundle.__init__", "src/flowMC/strategy/train_model.py:TrainModel.__call__", "src/flowMC/Sampler.py:Sampler.sample"]}
{"id": "C71", "title": "A bundle run either returns or was refused by its training, and never fails on targets that rule out non-finite positions", "statement": "Sampling with RQSpline_MALA_Bundle or RQSpline_MALA_PT_Bundle from initial positions of the right shape, with positive counts and a step size MALA accepts, either returns or raises TypeError or ValueError from the training of one of the training loops: TypeError when the number of finite positions recorded so far is not a multiple of n_chains, ValueError when there is none. No other error occurs, and none in the production phase. If the target (and with tempering the prior) evaluates to NaN or -inf at every position with a non-finite coordinate and the initial positions are finite, the run always returns.", "quantifier": "all keys, targets, data, step sizes, counts, numbers of loops, initial positions, flows and whatever training does to the flow; IEEE arithmetic laws for the last part", "why_tests_cant": "Absence of every other failure over all keys, lengths of runs and learned flows is a universal statement; a test run only shows one schedule.", "anchors": ["src/flowMC/resource_strategy_bundle/RQSpline_MALA.py: RQSpline_MALA_Bundle", "src/flowMC/resource_strategy_bundle/RQSpline_MALA_PT.py: RQSpline_MALA_PT_Bundle", "src/flowMC/Sampler.py: Sampler.sample", "src/flowMC/strategy/train_model.py: TrainModel.__call__", "src/flowMC/strategy/parallel_tempering.py: ParallelTempering.__call__"]}
{"id": "C72", "title": "At any time every recorded sample is a position with the target's value there, inside the target's support", "statement": "After any calls of Sampler.sample on either bundle (returned or raised), and between any two strategies of a further call, every slot of the position and log-probability buffers of both phases is either untouched (-inf) or holds a position together with the target's value at that position for the data of one of the calls (with tempering too: never a tempered value); acceptance flags are -inf, 0 or 1. If the target (and with tempering the prior) is NaN or -inf outside a region and all calls start inside, no recorded position is outside.", "quantifier": "every configuration, key, data, number of calls, initial positions (also of a wrong number of chains), outcome, and point between two strategies", "why_tests_cant": "A crash or error can happen at any strategy of any call; a test sees a few histories.", "anchors": ["src/flowMC/Sampler.py: Sampler.sample", "src/flowMC/strategy/take_steps.py: TakeSteps.__call__", "src/flowMC/strategy/parallel_tempering.py: ParallelTempering.__call__", "src/flowMC/resource_strategy_bundle/RQSpline_MALA.py", "src/flowMC/resource_strategy_bundle/RQSpline_MALA_PT.py"]}
{"id": "C73", "title": "Temperatures stay a ladder from one in floating-point arithmetic", "statement": "At any time (after any calls, returned or raised, and between strategies) the temperatures of the parallel-tempering bundle start at 1, end at max_temperature, and all but the last never decrease and are at least 1, or have become NaN - under floating-point rounding and overflow. In single precision the initial temperatures linspace(1, max_temperature, n) are such a ladder (exactly 1 first, exactly max_temperature last, never decreasing) for 2 to 2^20+1 temperatures whenever (n-1)(M+1) <= 2^21 (M-1); for a maximum closer to 1 they can decrease. Hence a target that is NaN or -inf outside a region keeps every recorded position inside even when the prior is proper or flat outside.", "quantifier": "every history of exchange outcomes and adaptations, number of temperatures and chains, every arithmetic with the order laws (binary32 is one), every call history", "why_tests_cant": "Adaptation compounds over unboundedly many loops and rounding differs for every ladder.", "anchors": ["src/flowMC/strategy/parallel_tempering.py: ParallelTempering._adapt_temperature", "src/flowMC/resource_strategy_bundle/RQSpline_MALA_PT.py", "src/flowMC/resource/logPDF.py: TemperedPDF.tempered_log_pdf"]}
{"id": "C74", "title": "MALA with a full matrix as step size does not target the given density", "statement": "MALA accepts a square matrix as step_size. It proposes x + (dt squared entry by entry) grad/2 + dt z and accepts as if the proposal had covariance dt squared entry by entry. For a diagonal matrix (nonzero entries) the call is that of the diagonal step size (C13-C17). For every invertible matrix with a nonzero off-diagonal entry (whose squared entries form a positive definite matrix) detailed balance fails: on some log-linear target there are, from every point, two opposite moves both accepted with probability one whose densities do not balance. A matrix that is not n x n raises.", "quantifier": "every dimension, invertible matrix, position, key, noise vector and uniform draw; exact real arithmetic", "why_tests_cant": "A test samples one target with one step size; with a wrong covariance the chain still runs and its histograms look plausible.", "anchors": ["src/flowMC/resource/kernel/MALA.py: MALA.kernel"]}
{"id": "C75", "title": "A misconfigured strategy raises the first problem it meets and changes nothing", "statement": "When a strategy is called with names that do not fit the resources it raises before touching anything: the first problem in the order State, its three entries, the three buffers they name, kernel, target (steppers); model, data buffer, optimizer (training); kernel, tempered target, position and temperature buffers, State (parallel tempering); State (state updates) is reported as KeyError if the name or entry is missing and AssertionError if the resource or entry is of another kind, and every resource, buffer, cursor and State is as before. A serial stepper given a kernel that is not a one-step kernel, a group stepper given one that is not a flow kernel, or either given a target that is not a LogPDF, raises and leaves everything unchanged whenever there is at least one chain.", "quantifier": "every resource dictionary, configuration, key, data and positions", "why_tests_cant": "The combinations of missing and wrong entries and what was written before the failure cannot be enumerated.", "anchors": ["src/flowMC/strategy/take_steps.py: TakeSteps.__call__", "src/flowMC/strategy/train_model.py: TrainModel.__call__", "src/flowMC/strategy/parallel_tempering.py: ParallelTempering.__call__", "src/flowMC/strategy/update_state.py: UpdateState.__call__"]}
{"id": "C76", "title": "Only differences of the log-density matter", "statement": "Adding a constant to the target log-density (an unnormalised density is enough), and with parallel tempering another constant to the log-prior, changes nothing a user observes except the recorded log-probabilities, which move by that constant: every kernel makes the same proposal and decision, AdamOptimization the same path, and after any calls of Sampler.sample on either bundle (returned or raised), and between any two strategies of a further call, returned key and positions or the exception, positions, acceptance flags, losses, flow, optimiser, State, cursors, temperatures and tempered ensemble are the same. Exact arithmetic; in binary32 the underlying identities fail.", "quantifier": "every target, prior, constant, configuration, key, data, initial positions, number of calls and point between two strategies; every arithmetic with the four cancellation laws (reals, integers)", "why_tests_cant": "A test compares two runs for one constant and one target; that no decision anywhere depends on the constant is a statement about all runs.", "anchors": ["src/flowMC/resource/kernel: GaussianRandomWalk, MALA, HMC, NFProposal", "src/flowMC/strategy/take_steps.py: TakeSteps.__call__", "src/flowMC/strategy/parallel_tempering.py: ParallelTempering.__call__", "src/flowMC/strategy/optimization.py: AdamOptimization", "src/flowMC/resource_strategy_bundle/RQSpline_MALA.py", "src/flowMC/resource_strategy_bundle/RQSpline_MALA_PT.py"]}
{"id": "C77", "title": "The data reach the sampler only through the target", "statement": "If, at every point, the target g on the data d' has the value and the gradient of the target f on the data d (also with the entry \"n_steps\" that TakeGroupSteps writes into both), then every kernel step, every chain of TakeSerialSteps and TakeGroupSteps, AdamOptimization, and any history of Sampler.sample calls with either bundle (for the tempered one: also the priors agree) give the same key, positions or exception and leave the same objects and resources, bit for bit; in particular it makes no difference whether the data are passed to sample or closed over by the log-density.", "quantifier": "every number format (including IEEE single precision), random stream, pair of targets, priors and data dicts that agree, bundle configuration, history of calls (returning or raising), number of strategies of a further call, key and position", "why_tests_cant": "Ranges over all pairs of targets and data and all histories, including calls that raise midway.", "anchors": ["src/flowMC/Sampler.py:Sampler.sample", "src/flowMC/strategy/take_steps.py:TakeGroupSteps.sample", "src/flowMC/strategy/parallel_tempering.py:ParallelTempering.__call__", "src/flowMC/strategy/optimization.py:AdamOptimization.optimize", "src/flowMC/resource/logPDF.py:LogPDF.__call__"]}
{"id": "C78", "title": "The spline flow is numerically safe in IEEE single precision", "statement": "In IEEE binary32 arithmetic, for any finite conditioner outputs the knot positions are finite, run exactly from range_min to range_max and consecutive knots are at least 2^-16 apart; with conditioner outputs up to 2^30 and arguments up to 2^60 the value and log-derivative of the spline and of its inverse are finite, a point of the range is mapped into the range (up to 2^-14 above its upper end forward, 2^-19 for the inverse), and a coupling layer returns finite values and log-determinant and passes the masked coordinates through unchanged. A tanh network with moderate parameters is such a conditioner; the repository's range (-10, 10), minimal bin size and slope (1e-4) with up to 16 bins are such settings.", "quantifier": "every conditioner output, argument, dimension up to 2^24, layer index, number of bins up to 16, range within [-10, 10], network of any depth with widths up to 2^16, and every library exponential, logarithm and tanh satisfying a few enclosures", "why_tests_cant": "Ranges over all float32 parameters and arguments, including the extreme ones where softmax underflows, bins degenerate and the quadratic's discriminant rounds to a negative number.", "anchors": ["src/flowMC/resource/model/nf_model/rqSpline.py:_normalize_bin_sizes", "src/flowMC/resource/model/nf_model/rqSpline.py:_normalize_knot_slopes", "src/flowMC/resource/model/nf_model/rqSpline.py:_rational_quadratic_spline_fwd", "src/flowMC/resource/model/nf_model/rqSpline.py:_rational_quadratic_spline_inv", "src/flowMC/resource/model/nf_model/rqSpline.py:RQSpline.get_params", "src/flowMC/resource/model/common.py:MaskedCouplingLayer", "src/flowMC/resource/model/common.py:MLP.__call__"]}
{"id": "C79", "title": "The target is invariant under the sampler's moves", "statement": "If a chain's state is distributed over finitely many points with weights proportional to the target's density, then after any number of steps it still is: for random-walk, MALA and HMC (diagonal mass matrix) chains at every step, for the flow proposals at every global step, and for the production phase of a bundle in every recorded production slot (local or global) and in the returned position, whatever the preceding training produced. The randomness is ideal and finite: the two halves of a split are independent, normal draws take finitely many values with probabilities proportional to the normal density, acceptance tests have the right probabilities, the flow draws independent points with probabilities proportional to exp(log_prob).", "quantifier": "every target, data, finite state set, step size, mass matrix, flow model, batch size, thinning, number of chains, loops and steps, step index, recorded slot, observable, preceding training run and ideal random source", "why_tests_cant": "Invariance is a statement about exact probabilities over all random keys and all histories; a test can only compare finite-sample averages with a tolerance.", "anchors": ["src/flowMC/resource/kernel/Gaussian_random_walk.py:GaussianRandomWalk.kernel", "src/flowMC/resource/kernel/MALA.py:MALA.kernel", "src/flowMC/resource/kernel/HMC.py:HMC.kernel", "src/flowMC/resource/kernel/NF_proposal.py:NFProposal.kernel", "src/flowMC/strategy/take_steps.py:TakeSerialSteps.sample", "src/flowMC/strategy/take_steps.py:TakeGroupSteps.sample", "src/flowMC/resource_strategy_bundle/RQSpline_MALA.py:RQSpline_MALA_Bundle"]}
{"id": "C80", "title": "Parallel tempering leaves the product of the tempered densities invariant", "statement": "If the walkers of a chain are jointly distributed over finitely many points with weights the product of the tempered densities (walker j at temperature j), then after a training call of parallel tempering (kernel steps of every walker at its own temperature, then the exchange sweep) the returned position and the stored walkers of that chain are again so distributed. In training and in production, when the first temperature is 1, the position the call returns for the chain has density proportional to exp(logpdf + log_prior). The randomness is ideal and finite as in C79: independent keys for the walkers and the sweep, right acceptance probabilities. (In production the hot walkers are not stored back, so the joint statement is about training calls only.)", "quantifier": "every target, prior, data, finite state set, temperature ladder, number of chains and steps, one-step kernel (random walk, MALA, HMC with diagonal mass matrix), contents of the other chains and of the rest of the memory, observable and ideal random source", "why_tests_cant": "Invariance is a statement about exact probabilities over all random keys and all ensembles; a test can only compare finite-sample averages with a tolerance.", "anchors": ["src/flowMC/strategy/parallel_tempering.py:ParallelTempering.__call__", "src/flowMC/strategy/parallel_tempering.py:ParallelTempering._individual_step_body", "src/flowMC/strategy/parallel_tempering.py:ParallelTempering._exchange", "src/flowMC/resource/logPDF.py:TemperedPDF.tempered_log_pdf"]}
{"id": "C81", "title": "Repeated parallel tempering in production loses the target", "statement": "In production parallel tempering moves the hot walkers but does not store them, so every call starts from the same hot walkers. The position returned by one call still has the target density (C80), but there is a configuration (two temperatures 1 and 2, one Langevin step, ideal independent keys, walkers distributed with the product of the tempered densities) in which the position returned by a second production call, made with a fresh independent key from what the first call left, does not have the target density.", "quantifier": "existence of a production configuration meeting every hypothesis of C80; first call: every observable; second call: some observable, average over all keys of both calls", "why_tests_cant": "The defect is a small bias of exact probabilities (1/5 against 387/1920 in the configuration proved), invisible to a finite-sample comparison with a tolerance; no single run is wrong.", "anchors": ["src/flowMC/strategy/parallel_tempering.py:ParallelTempering.__call__", "src/flowMC/resource_strategy_bundle/RQSpline_MALA_PT.py:RQSpline_MALA_PT_Bundle"]}
{"id": "C82", "title": "A longer run extends a shorter one, and batching is invisible for whole runs", "statement": "Take two RQSpline_MALA (or RQSpline_MALA_PT) bundles with the same settings except for the numbers of training and production loops, the chain batch size, and the flow kernel's batch size where all global proposals fit into one batch. Sampled with the same key, start positions and data, their training samples, log densities, acceptance records and losses agree in every slot both runs have; if the numbers of training loops are equal, so do the production records, and the final model and optimiser are equal (and the final temperatures with tempering); if the production loops are equal too, the returned key and positions are equal. Without the condition on the flow batch size this is false: a batch size smaller than the number of proposals changes the samples.", "quantifier": "every pair of bundle configurations that differ only in those settings, every key, start, data, target, random generator and flow, every memory the two successful runs leave", "why_tests_cant": "A test compares two configurations for one seed; the claim is about every pair of loop counts and batch sizes, and about every entry of every buffer of the two runs.", "anchors": ["src/flowMC/resource_strategy_bundle/RQSpline_MALA.py:RQSpline_MALA_Bundle", "src/flowMC/resource_strategy_bundle/RQSpline_MALA_PT.py:RQSpline_MALA_PT_Bundle", "src/flowMC/strategy/take_steps.py:TakeSteps.__call__", "src/flowMC/resource/kernel/NF_proposal.py:NFProposal.sample_flow", "src/flowMC/Sampler.py:Sampler.sample"]}
{"id": "C83", "title": "Chains meet only through the trained flow and the temperatures", "statement": "Sample one RQSpline_MALA bundle twice with the same key and data from two sets of starting positions that agree in chain i and may differ in all others. Then chain i records the same positions, log densities and acceptance flags in the local slots of its first training loop; with no training loops its whole production record, the returned key and its returned position are the same in both runs; with training loops they are the same whenever the two trained models are equal and chain i ended training in the same position (with tempering: and the final temperatures and chain i's stored walkers are equal). So during production no chain reads another one. The condition is needed: with a flow that learns from the samples, another chain's start can change chain i.", "quantifier": "every bundle configuration (with and without tempering), key, data, target, random generator and flow, every pair of starts agreeing in chain i, every chain i, every pair of successful runs", "why_tests_cant": "Independence is a statement about pairs of runs over all values of the other chains; a test varies a few starts for one seed and cannot exclude a read across chains that those starts do not expose.", "anchors": ["src/flowMC/strategy/take_steps.py:TakeSteps.__call__", "src/flowMC/strategy/take_steps.py:TakeSerialSteps.sample", "src/flowMC/strategy/take_steps.py:TakeGroupSteps.sample", "src/flowMC/strategy/parallel_tempering.py:ParallelTempering.__call__", "src/flowMC/resource_strategy_bundle/RQSpline_MALA.py:RQSpline_MALA_Bundle", "src/flowMC/resource_strategy_bundle/RQSpline_MALA_PT.py:RQSpline_MALA_PT_Bundle"]}
{"id": "C84", "title": "Convergence: from every start the samples approach the target, at a rate set by the flow's coverage", "statement": "Suppose the target lives on finitely many states, the flow draws from a finite set containing them with probabilities proportional to exp(log_prob), and the randomness is ideal. If no state is more than W times likelier under the normalised target than under the flow, then W >= 1 and, from EVERY starting state, the expectation of any observable g at global step j (counting from 0) differs from the target's mean of g by at most (1 - 1/W)^(j+1) (max g - min g); such a W always exists, so the expectation converges to the target's mean. In the production phase of RQSpline_MALA, whatever training did, the same holds for the position recorded in every slot with the number of global steps behind that slot as the exponent, and for the returned position with (production loops) x (global steps up to the last one kept); the local steps in between never undo the progress.", "quantifier": "every target on finitely many states, flow, observable, starting state, step index, number of steps, ideal key source, bundle configuration, chain and production slot", "why_tests_cant": "Convergence from every start is a statement about expectations over all randomness and arbitrarily long runs; a statistical test sees one sample path of one target and cannot distinguish a slowly mixing or subtly non-converging sampler.", "anchors": ["src/flowMC/strategy/take_steps.py:TakeGroupSteps.sample", "src/flowMC/resource/kernel/NF_proposal.py:NFProposal.kernel", "src/flowMC/resource/kernel/NF_proposal.py:NFProposal.sample_flow", "src/flowMC/resource/kernel/MALA.py:MALA.kernel", "src/flowMC/resource_strategy_bundle/RQSpline_MALA.py:RQSpline_MALA_Bundle"]}
{"id": "C85", "title": "Law of large numbers: averages over the samples estimate the target's mean, from every start", "statement": "Suppose the target lives on finitely many states, the flow draws from a finite set containing them with probabilities proportional to exp(log_prob), no state is more than W times likelier under the normalised target than under the flow, and the randomness is ideal. Then from every starting state the average of any observable g over the n positions of n global steps has mean square error at most (2W - 1)(max g - min g)^2 / n as an estimate of the target's mean, and is off by delta or more with probability at most that over delta^2. For the production phase of RQSpline_MALA, whatever training did, the average of g over ALL positions a chain records in production (local and global, after thinning) has bias at most W (max g - min g) / loops and mean square error at most (2W + 1)(max g - min g)^2 / loops, with the corresponding bound for the probability of a large error.", "quantifier": "every target on finitely many states, flow, observable, starting state, number of steps, ideal key source, bundle configuration (steps, thinning, loops), chain and error size", "why_tests_cant": "This is what every use of the samples relies on, and it is a statement about the joint distribution of arbitrarily many dependent samples; a statistical test of one run can neither establish a rate nor cover all targets, starts and configurations.", "anchors": ["src/flowMC/strategy/take_steps.py:TakeGroupSteps.sample", "src/flowMC/strategy/take_steps.py:TakeSerialSteps.sample", "src/flowMC/resource/kernel/NF_proposal.py:NFProposal.kernel", "src/flowMC/resource/kernel/MALA.py:MALA.kernel", "src/flowMC/resource_strategy_bundle/RQSpline_MALA.py:RQSpline_MALA_Bundle"]}
{"id": "C86", "title": "The units of the parameters do not matter", "statement": "Measure the parameters in other units and from other origins (y_i = a_i x_i + b_i), converting the target (its gradient is per new unit), the kernel's scales (step sizes are lengths; HMC's condition matrix and the Cholesky factor of its inverse; a scalar step becomes a vector or a diagonal matrix) and the starting positions. In exact arithmetic, with the same keys, every step of the random walk, MALA (scalar, diagonal or full matrix) and HMC then makes the same accept decision, returns the same log-probability and the converted position; hence so do all chains of TakeSerialSteps for any number of steps and any chain batch size, all chains of TakeGroupSteps when the flow draws the converted samples and its density is per new unit, and the ensemble steps and exchanges of parallel tempering. (Where a matrix couples two coordinates they need the same unit, because the code reads the condition matrix through column sums and squares the step matrix entry by entry.)", "quantifier": "every dimension, non-zero units, origins, target, step size or matrix, number of leapfrog steps, key, start, number of steps and chains, batch size, flow, temperature ladder", "why_tests_cant": "It compares two runs over all choices of units and all targets; a wrong power of the step in a drift or covariance, or a density normalised in the wrong place, changes decisions only for some draws.", "anchors": ["src/flowMC/resource/kernel/Gaussian_random_walk.py:GaussianRandomWalk.kernel", "src/flowMC/resource/kernel/MALA.py:MALA.kernel", "src/flowMC/resource/kernel/HMC.py:HMC.kernel", "src/flowMC/resource/kernel/NF_proposal.py:NFProposal.kernel", "src/flowMC/strategy/take_steps.py:TakeSerialSteps.sample", "src/flowMC/strategy/take_steps.py:TakeGroupSteps.sample", "src/flowMC/strategy/parallel_tempering.py:ParallelTempering"]}
{"id": "C87", "title": "Production chains are independent of one another, and pooling more of them sharpens the estimate", "statement": "If jax.random.split gives the chains independent keys in every loop, then after any training that succeeded, and from any starting positions, what the chains leave behind in production (everything each records in the buffers, and the position it ends in) is mutually independent across chains: expectations of products of functions of single chains' results factor. On a finite state space with a flow covering the target (no state more than W times likelier under the target than under the flow), the average of a bounded observable over the production records of all chains pooled has mean square error at most (2W+1)(hi-lo)^2/(loops*chains) + (W(hi-lo)/loops)^2, so the statistical part of the error falls with the number of chains and the bias with the number of loops.", "quantifier": "every number of chains, loops, local and global steps, thinning, target, flow, starting positions, observable, family of functions of the chains' results, ideal key source", "why_tests_cant": "Independence is a statement about the joint distribution of all chains over all keys; a key shared by two chains leaves every single chain correct and every marginal test green.", "anchors": ["src/flowMC/strategy/take_steps.py:TakeSteps.__call__", "src/flowMC/strategy/take_steps.py:TakeSerialSteps.sample", "src/flowMC/strategy/take_steps.py:TakeGroupSteps.sample", "src/flowMC/resource_strategy_bundle/RQSpline_MALA.py:RQSpline_MALA_Bundle", "src/flowMC/Sampler.py:Sampler.sample"]}
{"id": "C88", "title": "A whole bundle run does not depend on the units of the parameters", "statement": "Run RQSpline_MALA_Bundle (or RQSpline_MALA_PT_Bundle) twice from the same keys, once with a target and once with the same target in other units (target, gradient, prior, MALA steps and initial positions converted), with a flow that learns the converted flow from converted data. Then the two runs are one run in two units: same returned key; converted positions in every slot of the training and production buffers, converted final positions and tempered walkers; the same log-probabilities, acceptance entries, losses, temperatures and optimiser state; a converted trained flow. For the bundles with their own spline flow this holds for all positive scalings y_i = s_i x_i: mean and covariance kept by the flow are the converted ones and all its other parameters are the same numbers. For a shift of the origin it fails: the optimiser decays the stored mean and covariance, so after T steps the coordinate the trained flow sees is off by (1-r) b_i / sqrt(r v_i). The first training must keep some epoch (a loss below 10^9) and the conversion must not carry training positions across the largest finite number.", "quantifier": "every key, target, prior, scaling, number of chains, steps, loops, epochs, temperatures, thinning, hidden sizes, bins, layers, learning rate, initialisation, random generator", "why_tests_cant": "It relates two complete runs, including everything the flow learned in between, for every target and unit; a scale left out anywhere (in a proposal, in the whitening, in the statistics, in an exchange) only changes efficiency or bias and no single run looks wrong.", "anchors": ["src/flowMC/resource_strategy_bundle/RQSpline_MALA.py:RQSpline_MALA_Bundle", "src/flowMC/resource_strategy_bundle/RQSpline_MALA_PT.py:RQSpline_MALA_PT_Bundle", "src/flowMC/resource/model/nf_model/base.py:NFModel.train", "src/flowMC/resource/model/nf_model/rqSpline.py:MaskedCouplingRQSpline.log_prob", "src/flowMC/resource/kernel/MALA.py:MALA.kernel", "src/flowMC/strategy/train_model.py:TrainModel.__call__"]}
{"id": "C89", "title": "A RealNVP layer in single precision goes there and back, and computes its formula, up to rounding", "statement": "In IEEE single precision, for layer i of a RealNVP flow whose two conditioner networks give outputs of moderate size (proved for the repository's relu MLP with one hidden layer, widths up to 2^16 and parameters up to 2^12), and coordinates up to 2^40: forward then inverse, and inverse then forward, return the held coordinates (first half for even layers, second half for odd ones) as the same numbers and every other coordinate to within 2^-17 (|x| + |t|) + 2^-140 (t: the shift added and removed); nothing overflows or becomes NaN; the two log-determinants are exactly opposite. Each pass computes (x + t) exp(tanh s), respectively y exp(-tanh s) - t, to a relative 2^-19. Assumed of the library: exp accurate to 2^-20 on [-1, 1]; tanh finite, in [-1, 1], equal at both zeros.", "quantifier": "every layer index, number of coordinates, network, input, rounding pattern", "why_tests_cant": "Rounding errors depend on the input; a test samples a few of them, and the case of signed zeros in the masked context (the two passes see contexts that differ in the sign of a zero) is easy to miss.", "anchors": ["src/flowMC/resource/model/common.py:MaskedCouplingLayer", "src/flowMC/resource/model/common.py:MLPAffine", "src/flowMC/resource/model/common.py:MLP", "src/flowMC/resource/model/nf_model/realNVP.py:RealNVP.__init__"]}
{"id": "C90", "title": "A small enough step is accepted", "statement": "For random walk (scalar or vector step), MALA (scalar, diagonal or full matrix step) and HMC (any number of leapfrog steps, any condition matrix), a target whose log-density is continuous and whose gradient is bounded near x, and any key: there is a threshold such that with the step size multiplied by any smaller factor the step from x is accepted, lands as near x as wanted and records the log-density there. The same for all steps of a chain of any length, and for all chains of TakeSerialSteps with any chain batch size: the acceptance rate is 1.", "quantifier": "every kernel of these kinds, target, position, key, number of steps and chains, chain batch size, and every factor below the threshold", "why_tests_cant": "The threshold depends on target, position and key; a test checks one step size. A drift, proposal density or energy inconsistent with the others (a factor dt for dt squared, a missing 1/2) can still give plausible acceptance at the sizes tried.", "anchors": ["src/flowMC/resource/kernel/Gaussian_random_walk.py:kernel", "src/flowMC/resource/kernel/MALA.py:kernel", "src/flowMC/resource/kernel/HMC.py:kernel", "src/flowMC/resource/kernel/HMC.py:leapfrog_kernel", "src/flowMC/strategy/take_steps.py:TakeSerialSteps"]}
{"id": "C91", "title": "What the step size costs on Gaussian targets", "statement": "For a target with independent Gaussian coordinates of precision lam_i and HMC with condition matrix column sums c_i: if step^2 c_i lam_i <= 4 th with th < 1 then after any number of leapfrog steps the energy is within a factor 1/(1-th) of its start, and the acceptance probability is at least exp(-th/(1-th) E0), E0 the initial energy, whatever the number of leapfrog steps. If one coordinate has step^2 c_i lam_i > 4 then, off one line of momenta, the acceptance probability tends to 0 as the number of leapfrog steps grows. For MALA and any target the log acceptance ratio is the change of log-density minus its trapezoidal estimate from the two gradients, plus the sum of step^2 (|g(x)|^2 - |g(y)|^2)/8; on a Gaussian target the trapezoid terms vanish, so moves towards the mode are always accepted, whatever the step size.", "quantifier": "every dimension, Gaussian target, step size, condition matrix, number of leapfrog steps, position, momentum or Gaussian draw; every target for the trapezoidal identity", "why_tests_cant": "The bound has to hold for every number of leapfrog steps, and the rejection above the threshold is a limit; tests run a few lengths at one step size.", "anchors": ["src/flowMC/resource/kernel/HMC.py:leapfrog_kernel", "src/flowMC/resource/kernel/HMC.py:leapfrog_step", "src/flowMC/resource/kernel/HMC.py:kernel", "src/flowMC/resource/kernel/MALA.py:kernel"]}
{"id": "C92", "title": "How far the optimisers reach", "statement": "AdamOptimization with learning rate lr moves a coordinate that starts inside its bounds by at most 7.3 lr per step and never leaves the bounds, for every target, gradient, noise level and key; its first step moves every coordinate by almost exactly lr along the gradient times one common noise factor, so when that factor is negative the step goes against the gradient. In flow training with momentum b in [0, 0.9], one optimiser step after any history moves a parameter by at most lr (reach(b) + |parameter|/10000), reach(0.9) < 7.3, and through any history of training calls on any data no parameter (other than the data statistics) exceeds the larger of its initial size and 10000 reach(b): 73000 for the flow left by a run of RQSpline_MALA.", "quantifier": "every target, gradient sequence, noise, key, number of steps and epochs, data set, learning rate in [0, 10000], momentum in [0, 0.9]", "why_tests_cant": "The bound holds for the worst gradient sequence, found by no finite sample of sequences; boundedness over any number of epochs is an invariant of the pair of parameters and optimiser moments.", "anchors": ["src/flowMC/strategy/optimization.py:AdamOptimization", "src/flowMC/strategy/optimization.py:optimize", "src/flowMC/resource/optimizer.py:Optimizer", "src/flowMC/resource/nf_model/base.py:train_step", "src/flowMC/resource/nf_model/base.py:train"]}
{"id": "C93", "title": "A flow close to the target accepts; a flow equal to it forgets", "statement": "If the flow's log-density is, up to a constant, within e of the target's, every step of the global proposal is accepted with probability at least exp(-2e) wherever the chain stands: it moves at every step whose uniform number is below exp(-2e). If e = 0 a call of the global sampler stores the flow's draws themselves, all accepted, and everything it returns and stores is the same from any starting positions. Conversely, where the flow puts too little mass chains stand still: if the log-weight of the position exceeds that of every drawn point by b, all steps with uniform number at least exp(-b) are rejections.", "quantifier": "every flow model, target, dimension, data, key, number of steps and chains, starting positions, batch sizes, e and b", "why_tests_cant": "It quantifies over all pairs of densities within e of each other and over all starting positions and draws; a test fixes one flow and one target.", "anchors": ["src/flowMC/resource/kernel/NF_proposal.py:NFProposal.kernel", "src/flowMC/resource/kernel/NF_proposal.py:NFProposal.sample_flow", "src/flowMC/strategy/take_steps.py:TakeGroupSteps"]}
{"id": "C94", "title": "In a parallel tempering call only the two coldest walkers reach the sampler", "statement": "An exchange sweep brings a walker down by at most one temperature (a point found at the hottest of m temperatures needs m-1 calls to reach the chain), while the cold walker can rise to the hottest in one sweep. So the positions a call returns depend only on the current positions, each chain's first stored walker and the two lowest temperatures; in production, where stored walkers are frozen, this holds over any number of calls: everything above the second temperature is computed and never used. Neighbours at temperatures T, T' exchange with probability at least exp(-|1/T - 1/T'| |difference of their log-densities|), and surely when the hotter one is the better one.", "quantifier": "every ensemble, number of temperatures and chains, kernel, target, prior, key sequence, contents of the tempered buffers; every arithmetic (the two probabilities: exact reals)", "why_tests_cant": "Independence from stored state is a relation between all pairs of runs, over any number of calls.", "anchors": ["src/flowMC/strategy/parallel_tempering.py:ParallelTempering.__call__", "src/flowMC/strategy/parallel_tempering.py:ParallelTempering._exchange", "src/flowMC/strategy/parallel_tempering.py:ParallelTempering._exchange_step_body"]}
{"id": "C95", "title": "The global acceptance rate measures how close the flow is to the target", "statement": "For a chain distributed as the target, the expected acceptance of every global step lies between omega^2 and omega, where omega (1 minus the total variation distance) is the mass the flow and the target have in common. So the recorded acceptance certifies the flow: no probability computed from flow samples is off by more than 1 minus the rate, and a rate of 1 means the flow is the target on its states.", "quantifier": "every flow with ideal randomness on finitely many points (drawing in proportion to its own log_prob), target, proposal batch size, number and index of steps, event or [0,1]-valued observable", "why_tests_cant": "It bounds an expectation over all draws by a distance between distributions, for every pair of them; a run observes single accepts.", "anchors": ["src/flowMC/resource/kernel/NF_proposal.py:NFProposal.kernel", "src/flowMC/resource/kernel/NF_proposal.py:NFProposal.sample_flow", "src/flowMC/strategy/take_steps.py:TakeGroupSteps.sample"]}
{"id": "C96", "title": "What flow samples are worth: never more than independent ones, never less than one in 2W-1", "statement": "The positions recorded by a global call, for a chain distributed as the target, are never negatively correlated; their covariance depends on their distance only and falls by the factor 1-1/W or more per step, where W bounds how much likelier a state is under the target than under the flow. So the mean square error of an average over n recorded positions lies between variance/n and (2W-1) variance/n, and is exactly variance/n when the flow is the target.", "quantifier": "every flow with ideal randomness on finitely many points, target, observable, coverage factor W, proposal batch size, number of steps and pair of positions", "why_tests_cant": "Signs and decay of covariances are statements about all draws, observables and numbers of steps; an estimate from samples has an error of its own.", "anchors": ["src/flowMC/resource/kernel/NF_proposal.py:NFProposal.kernel", "src/flowMC/resource/kernel/NF_proposal.py:NFProposal.sample_flow", "src/flowMC/strategy/take_steps.py:TakeGroupSteps.sample"]}
{"id": "C97", "title": "The distance to the target never grows", "statement": "Whatever distribution a chain starts from, no local step (random walk, MALA, HMC) increases its total variation distance to the target, and every global step shrinks it by the factor 1-1/W at least, where no state is more than W times likelier under the target than under the flow. In the production phase of a bundle, after any training, the position in slot s is within (1-1/W)^g delta of the target for a start within delta, g being the number of global steps behind that slot; so is the returned position.", "quantifier": "every start distribution on the states, kernel, step, target, flow with ideal randomness on finitely many points, coverage factor W, bundle configuration, training history, chain and slot", "why_tests_cant": "Total variation is a supremum over all events and over all draws; a run shows one draw of one chain.", "anchors": ["src/flowMC/resource/kernel/NF_proposal.py:NFProposal.kernel", "src/flowMC/resource/kernel/MALA.py:MALA.kernel", "src/flowMC/resource/kernel/HMC.py:HMC.kernel", "src/flowMC/resource/kernel/Gaussian_random_walk.py:GaussianRandomWalk.kernel", "src/flowMC/strategy/take_steps.py:TakeSerialSteps.sample", "src/flowMC/strategy/take_steps.py:TakeGroupSteps.sample", "src/flowMC/resource_strategy_bundle/RQSpline_MALA.py:RQSpline_MALA_Bundle"]}
{"id": "C98", "title": "The samplers are reversible", "statement": "For a chain distributed as the target, whatever is observed of the start and all recorded positions of a call has the same expectation when the path is read backwards: for any number of local steps (random walk, MALA, HMC with a diagonal mass matrix) and for any number of global steps, whatever the proposal batch size. So positions an even number of local steps apart are never negatively correlated, the less the farther apart, and covariances depend on the distance only.", "quantifier": "every target on finitely many states, local kernel with ideal randomness of one law per step, flow with ideal randomness, number of steps, batch size, function of the whole path, observable and pair of positions", "why_tests_cant": "It equates expectations over all draws of arbitrary functions of whole paths; a run shows one path, in one direction.", "anchors": ["src/flowMC/resource/kernel/MALA.py:MALA.kernel", "src/flowMC/resource/kernel/HMC.py:HMC.kernel", "src/flowMC/resource/kernel/Gaussian_random_walk.py:GaussianRandomWalk.kernel", "src/flowMC/resource/kernel/NF_proposal.py:NFProposal.kernel", "src/flowMC/strategy/take_steps.py:TakeSerialSteps.sample", "src/flowMC/strategy/take_steps.py:TakeGroupSteps.sample"]}
{"id": "C99", "title": "Parallel tempering with a single temperature is the local sampler", "statement": "A successful parallel-tempering call whose temperature buffer holds one temperature T moves every chain exactly as n_steps of the local kernel on the target tempered at T, with a key of that chain's own, in training as in production; T is not adapted. Any number of such calls is a run of the local sampler in pieces of n_steps, chain by chain.", "quantifier": "every kernel, tempered target, temperature, number of chains and of steps, key sequence, positions, training flag and number arithmetic", "why_tests_cant": "It equates two programs on all inputs and for any number of calls in both phases.", "anchors": ["src/flowMC/strategy/parallel_tempering.py:ParallelTempering.__call__", "src/flowMC/strategy/parallel_tempering.py:ParallelTempering._individal_step", "src/flowMC/strategy/take_steps.py:TakeSerialSteps.sample"]}
{"id": "C100", "title": "Thinning never pays", "statement": "For a chain that has reached the target, the average of any quantity over all positions of a call is at least as accurate (in mean square) as the average over every t-th of them, t being the thinning: for local steps (random walk, MALA, HMC with a diagonal mass matrix) and for global steps. An average over all positions of a local call is at least as accurate as one independent draw from the target. For global steps thinning by t costs at most the factor t. What a stepping strategy keeps is every t-th position.", "quantifier": "every target on finitely many states, local kernel or flow with ideal randomness, thinning dividing the number of steps, number of steps, batch size and observable", "why_tests_cant": "It compares mean square errors over all draws, for every observable and every number of steps; a run shows one error of each kind.", "anchors": ["src/flowMC/strategy/take_steps.py:TakeSteps.__call__", "src/flowMC/strategy/take_steps.py:TakeSerialSteps.sample", "src/flowMC/strategy/take_steps.py:TakeGroupSteps.sample"]}
