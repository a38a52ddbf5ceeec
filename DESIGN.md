# Formal model of flowMC in Rocq (Coq 8.16.1)

## 1. Approach

The Python code is transcribed function by function into Gallina (`rocq/theories/M_*.v`).
Every definition carries a comment with the file and lines it models and the simplifications made.
The model is *parametric in the arithmetic*: a record `num` packages a carrier and the operations
the code uses (`+ - * / exp log sqrt tanh < <= isfinite`). The same definitions are then used three ways:

* **any arithmetic** - bookkeeping theorems (buffers, cursors, schedules, batching, frames, training
  loops) are proved for an arbitrary `num`, so they hold for IEEE floats of any precision;
* **IEEE special values** - theorems about NaN/-inf use a small record of laws `num_laws`
  (`x < NaN` is false, NaN propagates, ...), proved to hold both for extended reals with NaN and for
  Flocq's `binary32` format with round-to-nearest-even;
* **exact reals** - detailed balance, invertibility, derivative, Jacobian theorems use the instance
  over Coq's standard-library `R`.

Randomness is an oracle record `rng` (`split`, `normal`, `uniform`, `permutation`, `choice`):
theorems quantify over all oracles, or state the JAX facts they need as hypotheses (e.g. "permutation
returns a permutation"). Key-stream theorems instantiate keys as paths in the split tree.

Python objects with in-place mutation (Buffer, State, Optimizer, stepper cursors) live in a heap and are
reached through a resource dictionary of references, so aliasing is modelled. A strategy is a function
in a state-and-exception monad: when it raises, the heap keeps the effects made so far (crash points
are observable). User-supplied functions (log-densities with their gradients, networks, optimiser
updates) are universally quantified.

## 2. Per-property plan

| id | model | proof |
|----|-------|-------|
| C01,C02 | arrays = shape + index function; `dynamic_update_slice_in_dim` with JAX's negative-index and clamping rule | pointwise case analysis, induction over rank |
| C03 | dict as association list, `zip` + insertion | induction over the key list vs. "last matching pair" spec |
| C04 | constructor as a decision function, `setattr` over kwargs | case analysis, induction over kwargs |
| C05,C06 | `sample` = monadic fold over the order | induction over the order against a relational "runs in order" spec |
| C07-C10,C12 | `TakeSteps.__call__` in the heap monad | symbolic execution of the monad, list lemmas for stride/chunks |
| C11,C13,C14 | the four kernels over generic `num`; scans as list recursion | invariant by induction over steps |
| C15 | acceptance event over u in [0,1) | Riemann integral of a step function |
| C16-C18,C39 | kernels at the real instance | algebra of exp/ln, min |
| C19,C20 | leapfrog as composition of kicks and drifts | palindromic composition; Jacobian determinants with mathcomp matrices |
| C21 | broadcasted kinetic energy vs. quadratic form | sums over indices; counterexample |
| C22,C23 | ceil-division batching | list lemmas |
| C24 | data dictionaries | dictionary lemmas; counterexample |
| C25-C28 | spline functions at the real instance | bin selection lemma, monotonicity and quadratic-root algebra, gluing of derivatives |
| C29,C30,C32,C33 | coupling layers, RealNVP, RQSpline | pointwise on vectors, induction over layers |
| C31 | Jacobian of coupling layers and of compositions | determinant by permutation expansion, multiplicativity, chain rule |
| C34,C35 | training loop with oracle `train_step` | loop invariant |
| C36,C37 | TrainModel in the heap monad | list lemmas, symbolic execution |
| C38,C40,C41,C42 | parallel tempering | induction over sweep / adaptation history |
| C43 | Adam loop with oracle update | invariant |
| C44-C47 | the two bundles' constructors and schedules | refinement of the run to a buffer-free functional specification |
| C48 | save/load as functions to a file record | evaluation, counterexample |
| C49 | keys as paths | non-interference + prefix-incomparability |
| C50 | constructors, flatten/unflatten | induction |
| C51,C52 | conditional-OT path; diffrax fixed-step Runge-Kutta loop with an abstract tableau, the network as a function with its Jacobian | derivative; closed form of log_prob; counterexample family (constant fields) |
| C56 | train / train_epoch of the flow-matching model | induction on batches and epochs |
| C57 | data statistics (mean, covariance) over the reals | algebra of finite sums |
| C54 | MLP, RealNVP and MaskedCouplingRQSpline constructors (eqx.nn.Linear's initialiser external, shape law and entries in [-1, 1]) | induction over the shape list; chain rule along the layers; bound on tanh networks gives the slope bound of C28, then C30-C32 |
| C55 | Gaussian (cholesky external, forward substitution modelled), Composable | forward substitution solves the triangular system uniquely; Jacobian of the inverse map and determinant of a triangular matrix; induction over parts |
| C53 | clip_by_global_norm + adamw on the flattened parameter vector; masks and statistics as its coordinates | induction over steps; strict concavity of ln for the log-determinant; algebra of means and variances |
| C58 | the same optimiser model | algebra; induction over steps with the moments' closed form |
| C59 | the constructors with keys as paths | induction over the shape list and the layers; prefix-incomparability of paths |
| C60 | `M_Model`: the two flows as NFModel objects with the default base distribution, used by the flow kernel | change of variables plus C18; explicit pair of tail points for the refutation |
| C61 | `M_Model`: loss_fn and train_step; the epoch and training loops of `M_Strategies` instantiated with them | induction over the updates of an epoch; C32 summed over the batch; computed counterexample with true derivative |
| C62 | `M_Tree`: modules as lists of leaves, save_model/load_model on a dictionary of files | training keeps the kinds of leaves (C64); deserialisation succeeds iff the kinds of the file start with those of the receiver |
| C63 | `M_Tree`: to_precision with an abstract rounding | leaf by leaf; converted masks are floating-point leaves with zero gradient, so C64's decay applies |
| C64 | `M_Tree`: constructors as leaves, ravel/unravel, AdamW step on all floating-point leaves, train | invariant over train calls; per-entry recursion of the optimiser on entries with zero gradient and momentum |
| C65 | the flow computed by trained leaves | C31/C32 hold for any weights; C64 supplies masks, shapes and positive statistics of the trained model |
| C66 | `take_steps` in `M_Strategies` (state survives exceptions) | case analysis on where the monadic call raises; the write lemmas of C01/C08 |
| C67 | `M_Files`: np.savez's file naming and a dictionary of files | string suffix arithmetic; induction over later saves |
| C68 | `M_Files`: np.histogram with NumPy's index computation and correction, truncation abstract | NaN/infinity invariants of the running minimum and maximum; exact reals for the bin of a value, with an index conversion that may be off by one either way (`near_trunc`), so that NumPy's correction is used; C45 for the acceptance buffers |
| C69 | all strategies and the Sampler loop | a reflexive, transitive relation between worlds preserved by every monadic operation; induction over the order and over the calls |
| C70 | `M_Spline`: the two bundles with the flow and optimiser their constructors build | the shape lemmas of the tree's sample/log_prob discharge `run_ok`; C45's reference run is read off as a chain of `train` calls; C62/C64/C65 apply to its result |
| C71 | `M_Bundle`, `M_PT`, `M_Strategies`, `M_Spline` | Progress proof: every strategy of the bundle is shown to succeed on the reference world of C45 whatever its buffers hold, except the trainer, whose two refusals are characterised by the recorded positions (Spec_Prog.stops_early). Induction over loops; finiteness invariant for the chains and the stored tempered walkers (MALA and flow proposals are never accepted at an impossible density). Instances: a binary32 run with spline flow and tempering, a run over the reals, and both errors on the executable instance. |
| C72 | M_Bundle, M_Strategies, M_PT | Invariant over worlds (`P_Hist2.inv`, `P_Hist3.inv_pt`), kept by every strategy of either bundle whatever its outcome, hence by any history of calls and any prefix of a further call. Support: Metropolis steps never accept a NaN or -inf target (C22-C26), tempered ones because the prior term makes the sum NaN or -inf. |
| C73 | M_PT, M_Bundle, Float32b | Induction over the adaptation loop and over histories from the order laws `Spec_Order.OrderLaws`, which are proved for Flocq's binary32 (`Float32b.B32_order`); combined with the history invariant of C72. exp is assumed never negative (`exp_nonneg`), and in the general theorems the initial ladder to be one; for binary32 that is proved from rounding-error bounds for all settings in `good_ladder` (P_Order2), with a computed counterexample just above 1 (`C73_initial_refuted`). |
| C74 | M_Mala | Linear algebra over the reals with an arbitrary Cholesky routine satisfying `Spec_TreeR.chol_law` (one exists: `P_Tree14.chol_exists`). Diagonal case by uniqueness of the factor; refutation by constructing, for any matrix with an off-diagonal entry, a gradient and displacement on which both acceptance probabilities are 1 and the move densities differ. |
| C75 | M_Strategies, M_PT | Unfolding each call up to its first lookup failure; the specification is an independent list of the lookups in the documented order (`Spec_Errors.first_error`). |
| C76 | M_Kernels, M_Mala, M_Strategies, M_PT, M_Bundle | Relational simulation: two worlds equal except for the targets and the two log-probability buffers (entries both -inf or shifted); every strategy of both bundles preserves the relation and ends alike (`P_Shift2.sim`), then induction over strategies and calls. Uses only the four cancellation laws `Spec_Shift.ShiftLaws`, proved for the reals and shown to fail for binary32. |
| C77 | M_Kernels, M_Mala, M_Strategies, M_PT, M_Bundle | The same kind of simulation without any law of arithmetic: equal heaps, equal resources but for the targets (`P_Data.sim`); every strategy preserves it; induction over strategies and calls. `C77_closure` is the corollary a user needs: data passed or built in. |
| C78 | M_Flow, M_Net over Float32 | Flocq binary32, every operation rounded: interval enclosures with representable end points (`Float32t`), error bounds for sums and products of at most 16 terms, case analysis on the bins. The library's exp, log and tanh are assumed only to satisfy `Spec_FSpline.lib_ok` and `tanh_ok` (shown satisfiable by correctly rounded functions). Sums are taken from the right, one term at a time; XLA may use another order, which is not modelled. |
| C79 | M_Kernels, M_Strategies, M_Bundle over exact reals | Random keys are abstract expectations (`Spec_Inv.expect`: linear, normalised functionals); `splits2`, `gaussian_on`, `step_source`, `flow_source`, `loops_source` say what an ideal finite random source is. Detailed balance (C16, C17, C20, and the flow's ratio) plus an involution on (state, draw) pairs gives one-step invariance; induction over steps, thinning and loops gives the rest. Finite state sets replace integrals (the measure-theoretic version on R^n is not in the model). The hypotheses are met by an explicit tree-shaped source and three-state target (`P_InvEx`). |
| C80 | M_PT (ParallelTempering.__call__) over exact reals | Same ideal sources as C79 (`Spec_InvPT.tempering_source`: walkers' keys and the sweep's key are independent). One-step invariance of each walker's kernel (C79) gives invariance of the product under the moves; each exchange decision satisfies detailed balance for the product (C39), by induction over the sweep. C41 connects this to the memory after the call (`ensemble_after`, `returned_row`). Not claimed: invariance over several production calls (the code does not store the hot walkers back in production), and over adaptation of the ladder. Met by an explicit source and the bundle's own memory with temperatures 1 and 4. |
| C81 | M_PT in production (memory unchanged by the call, C41), M_Bundle's memory | A refutation: an explicit ideal key source (`P_InvBad.Ebad`), states 0 and 1, likelihood 1 and 4, flat prior, temperatures 1 and 2. The law of one call is computed exactly (moves, then one exchange) from the C80 lemmas; the average of the indicator of 0 is 3/15 after one call (the target's) and 387/1920 after two. `Spec_InvPT.call_again` chains the second call to the positions and memory the first one left. |
| C82 | M_Bundle over M_Strategies, M_PT (whole runs of two bundles) | Both runs are refined by the reference runs of C50-C58 (`chains_run`, `training_set`, one program over prefixes of the loops); those references are deterministic functions of settings in which chain batch size does not occur (`P_Ext`: `chains_run_det`, `training_eq`, `production_eq`), and a run with more loops has the shorter one as a prefix. The restriction on the flow batch size is shown necessary by a computed pair of runs (`C82_flow_batch_refuted`). |
| C83 | M_Bundle over M_Strategies, M_PT (two runs of one bundle from different starts) | Both runs are refined by the reference runs of C50-C58; the reference step of chain i is a function of chain i's position, the key split for it and the model (`P_Chain`: `first_steps`, `no_training`, `after_training`, generic in what runs before the local steps), tempering of chain i a function of its own walkers and the temperatures (`update_det1`). `C83_training_refuted` computes two runs in which a learning flow carries the other chain's start over. |
| C84 | M_Kernels (`group_sample`, MALA), M_Bundle production phase, randomness as in C79 (ideal, finite) | `contracts rho`: one step maps an observable with values in an interval to one with values in an interval rho times as long. A Metropolis step never enlarges the interval (`metro_range`); a flow step contracts by 1 - 1/W because every state is reached with probability at least its target probability over W (`flow_op_contracts`); composition over steps and production loops (`chain_contracts`, `crow_contracts`), then invariance (C79) pins the interval to the target's mean (`converge`). |
| C85 | as C84, with whole paths instead of single positions | Path expectations respect order on paths inside the states (`xmono`: `serial_mono`, `scan_mono`, `rows_mono`, by induction over the key splits). The square of the sum of a centred observable is expanded at the first step (or loop): own square, twice the product with the conditional mean of the rest (bounded by the geometric series of C84), and the rest by induction (`path_square`, `rows_square`); Chebyshev gives the probability (`from_sum`). |
| C86 | kernels, chain samplers, flow kernel and tempering functions of M_Kernels, M_Mala, M_Strategies, M_PT in the exact-real instance | Two runs side by side with the relation y_i = a_i x_i + b_i. MALA through the Gaussian log-density (`mvn_is_gauss`), whose normalisation cancels in the ratio; HMC by induction over leapfrog rows with momenta p_i / a_i; full-matrix MALA because the norm of L^-1 v depends on L L^T only (`norm_scaled`); chains, batches, flow batches and exchanges by induction. |
| C87 | the production phase of the RQSpline-MALA bundle (M_Bundle, M_Strategies), ideal key sources (`splits_all`: the keys of split(key, n) are mutually independent) | Induction over the loops: the chain-specific keys factor out of the joint expectation one split at a time (`loop_all`), the carried key by the induction hypothesis. The pooled error by expanding the square of the sum over chains, with C85's per-chain bounds on the diagonal and independence off it. |
| C88 | the two bundles (M_Bundle, M_Strategies, M_PT) and their instances with the spline flow (M_Spline, M_Tree, M_Net) in the exact-real instance | Two runs side by side, related record by record with C86's lemmas; C45/C47 decompose each run into loops, the training sets are related because the same chains, steps and permutation choose them and finiteness agrees (`same_range`), and the flow relation (`flows_convert`) is kept by statistics and training steps. For the spline flow the relation is `stats_in_units` (equal leaves except mean and covariance, which scale): the whitened batch is the same, so loss and gradient are (`gradient_through_whitening` is all that is used of automatic differentiation), the optimiser step acts coordinate by coordinate, and on the statistics only by the decay factor. Shifts of the origin are outside the spline theorem because that decay pulls the stored mean to 0 (C53): `C88_origin_refuted` computes the offset (`spline_trained` is the flow after `train` has set the statistics and made the optimiser steps of the given batches). A complete pair of runs with two training loops meets all hypotheses (`C88_case_run`); a learning flow meets `flows_convert` (`C88_case_learning`). |
| C89 | `coupling_fwd`, `coupling_inv`, `mlp_affine`, `realnvp_mask` (M_Flow) and `mlp_call` (M_Net) in the binary32 instance (Flocq) | relative errors composed factor by factor (`near k h a b`: \|a - b\| <= k\|b\| + h); exp s times exp(-s) is 1 in the reals; round-to-nearest is odd, so the log-determinants are opposite; the second context is the first up to signs of zero, and sums, products and relu of such contexts give the same numbers. Rounding of whole flows is not bounded: the error of one layer passes through the next layer's networks, whose conditioning is arbitrary. |
| C90 | `grw_kernel`, `mala_kernel`, `hmc_kernel` (M_Kernels), `mat_mala_kernel` (M_Mala), `serial_sample`, `run_chains` (M_Strategies) in exact reals | proposals move by at most s*A and the log-ratio differs from the difference of log-densities by at most s*C (MALA: the terms z^2 of the two proposal densities cancel; matrix steps: \|L^-1 v\|^2 is invariant under the common scale and L^-1 is linear; HMC: induction on the leapfrog operations, all of which stay near the start), below -ln u for small s; chains by induction with half the radius at each step. Draws of exactly 0 are excluded by hypothesis (ln 0 is not -inf in the real instance). |
| C91 | `leapfrog`, `hmc_kernel`, `mala_kernel` (M_Kernels) in exact reals | on a quadratic target one Verlet step is a linear map of each coordinate (from C19); it preserves lam(1 - s/4)q^2 + c p^2 exactly (s = step^2 c lam), which lies between (1 - th) and 1 times the energy; above the threshold the form factors and p - al q is multiplied by rho with rho^2 > 1 at each step, so the energy exceeds any bound (Bernoulli). MALA: the two Gaussian log-densities expanded coordinate by coordinate (`field`). |
| C92 | `adam_optimization` (M_Adam: AdamOptimization with the solver it builds, optax.adam), `adamw_step` (M_Net), `train` (M_Strategies) on trees of leaves (M_Tree) in exact reals | invariant of the moments mu^2 <= K nu, K the fixed point of K = (1-b1)^2/(1-b2) + b1^2/b2 K (a weighted AM-GM), and (1 - b1^t)^2 >= 1 - b2^t by induction, give \|update\| <= sqrt K; projection onto a box does not move a point away from a point of the box; with weight decay w a step is p -> (1 - lr w) p + lr w (-u/w), a convex combination, so max(\|p\|, reach/w) never grows; lifted to training histories by the invariant rule of C64. |
| C93 | `nfp_kernel`, `group_sample`, `take_group_steps` (M_Kernels, M_Strategies) in exact reals | induction on the steps of a chain: its position is the start or a draw, of the flow's dimension, with its log-density beside it (C11, C13), so each log-ratio is a difference of two log-weights, within 2e of 0; with e = 0 every step is accepted and the outputs are the draws, whatever the start; with log-weights b lower at all draws every ratio is at most -b. |
| C94 | `parallel_tempering`, `exchange`, `exchange_scan` (M_PT) in every arithmetic | from the specification of a sweep proved in C38 and of a call proved in C41: invariant of the scan over adjacent pairs (indices below the scan position are final, those above untouched, the one at the position came from below); two runs agreeing up to index J+1 take the same decisions up to J; induction over calls with the world unchanged in production. |
| C95 | `nfp_kernel`, `sample_flow`, `group_sample` (M_Kernels, M_Strategies) in exact reals, randomness as in C79 | the joint law of (state, proposal) makes the accepted mass of a step the sum over pairs of min(p(x) q(y), p(y) q(x)) (`first_rate`); stationarity (C79's one-step lemma) carries this to every later step (`scan_rate`); the sum is at least the square and at most the first power of sum min(p, q) by comparing terms; the bias bound integrates min(p, q) against the observable from below. |
| C96 | as C95 | on paths a call is the iterate of the independence sampler's operator T (`two_lag`); T is self-adjoint and a contraction for the target's inner product (Dirichlet form), and positive because min is a positive semidefinite kernel (`min_psd`, induction removing the least element); coverage bounds the Dirichlet form from below by variance/W; Cauchy-Schwarz for the form (g, T h) gives the decay at odd lags; the mean square error is the double sum of covariances, compared with the diagonal and with the geometric series. |
| C97 | as C84, with a start distribution instead of a start point | the distance to an invariant target is a supremum over observables with values in [0,1]; a linear operator that keeps ranges maps such observables to such observables, one that contracts ranges by rho maps them to rho times such an observable plus a constant (`off_op`); the local kernels keep ranges (`metro_range`), the flow step and the whole production phase contract them (`flow_op_contracts`, `cblocks`); invariance is C79. |
| C98 | as C79; local steps with keys of one law (`same_law`) | the flow of probability along undoable moves is symmetric as a measure on pairs (`flow_sym`), so each kernel's operator is self-adjoint (`metro_self`, `ideal_self`; the flow's is by C96's Dirichlet form); linear operators that look at the states only are matrices (`op_matrix`), and balanced matrices give paths that read the same backwards (`backward`: induction, turning the first step around and appending it at the end); even lags are squares, and Jensen makes them shrink. |
| C99 | `parallel_tempering`, `ensemble_step`, `exchange`, `adapt_temperature` (M_PT) over any numbers | instance of C41's description of a call with an empty sweep; the setting is preserved, so induction over the calls. |
| C100 | as C98; the kept positions are those whose index is a multiple of t (`every`), errors are mean squares for a chain distributed as the target | the average over all positions is the average of t averages over every t-th position, with t different offsets; these have one and the same mean square error because covariances depend on the distance only (`PE_cov`), and the square of an average is at most the average of the squares (`total_sq_le`); for global steps no covariance is negative (C96), so dropping the cross terms loses at most the factor t. |

Properties that are false outside a boundary are stated with that boundary, and the failure is proved as
a theorem with suffix `_refuted` (a concrete witness).

## 3. Trusted base

### 3.1 Logic
* Coq 8.16.1's kernel, including `vm_compute` (used in `Example`s and a few computed lemmas).
* Axioms: only those of Coq's standard library, listed theorem by theorem in section 4.
  `sig_forall_dec`, `sig_not_dec`, `functional_extensionality_dep` and `classic` come with `Reals`
  (and Coquelicot's/Flocq's use of it); `constructive_indefinite_description` comes with `ClassicalEpsilon`
  (used in `MxR.v` to equip `R` with the decidable equality and choice mathcomp's determinants need).
  No axiom, `Parameter`, functor, module type, `Admitted`, unsafe flag or plugin is added.
* Libraries used: Coq standard library, Coquelicot (derivatives, integrals), Flocq (binary32),
  mathcomp (determinants, only in `MxR.v`).

### 3.2 Reading of the Python sources
The `M_*.v` files are a hand transcription. `M_Core` = buffers, states, logPDF, Sampler, resource
dictionary, save/load; `M_Kernels` = the four kernels; `M_Strategies` = take_steps, train_model,
lambda_function, update_state, optimization, NF training loop; `M_PT` = tempered density and
parallel tempering; `M_Bundle` = the two bundles; `M_Flow` = coupling layers, splines, RealNVP,
RQSpline; `M_Net` = MLP, constructors of the flows, Gaussian/Composable, optimiser; `M_Model` = the two flows as
NFModel objects (sample, log_prob, loss, training step, data statistics); `M_Tree` = those models as trees of leaves, their
files, to_precision and training; `M_FM` = flow matching; `M_Files` = files of buffers and states, histograms;
`M_Spline` = the two bundles with the constructor arguments users give and the spline flow they build.

### 3.3 External behaviour taken as stated (definitions, not axioms)
* JAX/NumPy: `vmap` = map, `lax.scan` = left fold with outputs, `dynamic_update_slice` index rules,
  boolean-mask indexing, broadcasting of the shapes that occur, `jnp.cov`/`mean`, `reshape`.
* `jax.random`: an oracle record `Rng`; key-stream theorems (C49, C59) instantiate keys as paths in the
  split tree, where `split(key, n)[i]` is child `i` (the i-th of n is identified with the i-th of m; this
  identification only makes streams *less* distinct, so separation results are not weakened by it).
* `eqx.nn.Linear` initialiser, `cholesky`, automatic differentiation and user functions are universally
  quantified; theorems state what they need of them: `permutation_law`, `choice_law`, `uniform_law`,
  `normal_shape`, `grad_shape`, `linear_law`, `linear_bounded`, `cholesky_shape`, `keeps_dim`, `run_ok`.
* optax: `clip_by_global_norm(1)` followed by `adamw` with its default constants, on the model's
  floating-point leaves flattened to one vector; `optax.adam` of AdamOptimization
  with its defaults (b1 = 0.9, b2 = 0.999, eps = 1e-8, eps_root = 0, bias correction), in M_Adam.
* diffrax: fixed-step explicit Runge-Kutta with an abstract tableau, step direction from `t1 - t0`,
  end-point clipping with relative tolerance 1e-6 and the `max_steps` failure.
* equinox: `tree_serialise_leaves` writes the array and Python-scalar leaves in order and the reader checks
  kind, dtype and shape; `filter_value_and_grad` differentiates with respect to floating-point arrays only.
* NumPy: `savez` appends `.npz` unless present and replaces an existing file, `load` opens exactly the given name
  and refuses object arrays; `histogram` computes the outer edges, `linspace` edges and the truncated scaled offset
  with its correction by one (NumPy 2's extra refusal of edges that coincide in floating point is not modelled).
* Python: dictionaries keep insertion order; exceptions keep the effects made before them.

### 3.4 Arithmetic
Theorems over an arbitrary `Num` hold for every arithmetic. Theorems with hypothesis `NumLaws` use facts
about NaN, infinities and comparison; `NumLaws` is *proved* for Flocq's binary32 (`Float32.v`, `B32_laws`)
and for the extended instances, so those theorems apply to IEEE arithmetic. Theorems at `RNum`
are about exact real arithmetic: floating-point rounding is not modelled in them; `isfinite` there means
absolute value below 2^128 and the buffers' initial `-inf` is the number -2^128.

### 3.5 Not modelled
`__repr__`, `print_parameters`, progress bars and printing; `jit` compilation and donation; wall-clock and
memory behaviour; the byte format of equinox files (a file is its list of records); `Sampler.serialize/deserialize`
(bodies `raise NotImplementedError`), `SequentialMonteCarlo` (stub); plotting. AD gradients
are given functions (the theorems that need them to be derivatives say so).

## 4. Print Assumptions, theorem by theorem

Generated from `Print Assumptions` on every theorem of MANIFEST.json; the axioms are all from Coq's standard library.

### Closed under the global context (no axioms) - 204 theorems

`C01_update_places_slice`, `C02_negative_start_counts_from_the_end`, `C02_never_resized`, `C02_overrun_lands_on_last_slots`, `C02_refused_leaves_everything`, `C03_state_update_overwrites`, `C03_update_strategy`, `C04_keywords`, `C04_precedence`, `C05_deterministic`, `C05_not_a_list`, `C05_runs_in_order`, `C05_trace_is_a_prefix`, `C05_unknown_name`, `C06_key_never_advances`, `C06_repository_strategies_qualify`, `C06_second_call_same_keys`, `C07_frame`, `C07_missing_name`, `C08_call_succeeds`, `C08_flow_kernel_qualifies`, `C08_samples_recorded`, `C08_serial_kernels_qualify`, `C09_batching_invisible`, `C100_kept`, `C10_chains_independent`, `C11_global_steps`, `C11_local_steps`, `C12_consecutive_calls`, `C12_lossy`, `C12_slot_count`, `C12_tiling`, `C13_flow_proposal`, `C13_hmc`, `C13_mala`, `C13_mala_raises`, `C13_random_walk`, `C13_random_walk_raises`, `C14_flow_kernel`, `C14_global_steps`, `C14_hmc_energy`, `C14_local_kernels`, `C14_local_steps`, `C14_mala_gradient`, `C22_batched_logpdf`, `C23_raises`, `C23_sample_flow`, `C24_extra_entry`, `C24_recorded_can_differ`, `C33_num_bins`, `C34_best_epoch`, `C34_succeeds`, `C35_batch_size_zero`, `C35_full_batches`, `C35_small_data`, `C36_fresh_buffer_refused`, `C36_refused`, `C36_training_set`, `C36_unwritten_slots`, `C37_effects`, `C37_failed_call_changes_nothing`, `C37_history`, `C38_exchange_permutes`, `C40_ends_fixed`, `C41_call`, `C41_kernels_keep_dim`, `C41_production_frozen`, `C41_truth`, `C43_ascends`, `C43_bounds_validated`, `C43_gradients_inside`, `C43_inside_box`, `C43_no_nan`, `C43_no_steps`, `C43_resources_unchanged`, `C44_base_schedule`, `C44_constructor`, `C44_pt_schedule`, `C45_base_run`, `C45_pt_run`, `C45_tempered_steps`, `C46_base_production_frozen`, `C46_pt_production_frozen`, `C47_base_second_run`, `C47_one_flag_per_slot_refuted`, `C47_pt_second_run`, `C47_training_buffers_kept`, `C48_buffer_not_restored_refuted`, `C48_buffer_roundtrip`, `C48_state_never_restored`, `C49_bundle_streams`, `C49_call_streams`, `C49_flow_chain`, `C49_global_call`, `C49_kernel_draws`, `C49_local_call`, `C49_run_streams`, `C49_serial_chain`, `C49_tempered_chain`, `C49_tempering_call`, `C49_training_call`, `C50_default_names`, `C50_precedence`, `C50_pytree_roundtrip`, `C54_mlp_shape`, `C55_composable_sample`, `C56_best_epoch`, `C56_full_batches`, `C56_small_data`, `C56_succeeds`, `C59_mlp_parameters`, `C59_reads`, `C59_streams_apart`, `C61_epoch_loss`, `C61_returned_model`, `C62_classes`, `C62_missing`, `C62_realnvp_round_trip`, `C62_realnvp_sizes`, `C62_rqspline_round_trip`, `C62_rqspline_sizes`, `C63_arrays`, `C63_names`, `C63_same_model`, `C64_base_mark`, `C64_realnvp_frame`, `C64_realnvp_tree`, `C64_rqspline_frame`, `C64_rqspline_tree`, `C64_spline_masks`, `C66_failed_steps`, `C67_all_buffers`, `C67_bundle_names`, `C67_file_name`, `C67_missing`, `C67_own_argument`, `C67_round_trip`, `C67_same_file`, `C67_state_file`, `C68_acceptances`, `C68_fresh`, `C68_no_bins`, `C68_not_finite`, `C69_base_bundle`, `C69_base_saved`, `C69_bundle_strategies`, `C69_pt_bundle`, `C69_pt_saved`, `C69_samplers`, `C69_strategies`, `C70_arguments`, `C70_conditions`, `C70_pt_arguments`, `C70_pt_trained`, `C70_result`, `C70_trained`, `C71_base_outcome`, `C71_base_returns`, `C71_finite_run_goes_on`, `C71_pt_outcome`, `C71_pt_returns`, `C71_spline_returns`, `C72_base_honest`, `C72_base_support`, `C72_pt_honest`, `C72_pt_support`, `C72_value`, `C73_adaptations`, `C73_at_least_one`, `C73_bundle`, `C73_pt_support`, `C74_wrong_shape`, `C75_group_kind`, `C75_serial_kind`, `C75_steps`, `C75_tempering`, `C75_training`, `C75_update_state`, `C76_base`, `C76_group`, `C76_kernels`, `C76_optimizer`, `C76_pt`, `C76_serial`, `C77_base`, `C77_closure`, `C77_group`, `C77_kernels`, `C77_optimizer`, `C77_pt`, `C77_serial`, `C82_base`, `C82_flow_batch_refuted`, `C82_pt`, `C83_base`, `C83_pt`, `C83_training_refuted`, `C94_call`, `C94_cold_end`, `C94_down`, `C94_production`, `C94_up`, `C99_call`, `C99_calls`

### `ClassicalDedekindReals.sig_forall_dec`, `FunctionalExtensionality.functional_extensionality_dep` - 1 theorems

`C74_covariance`

### `ClassicalDedekindReals.sig_forall_dec`, `ClassicalDedekindReals.sig_not_dec`, `Classical_Prop.classic`, `FunctionalExtensionality.functional_extensionality_dep` - 158 theorems

`C100_global`, `C15_flow_proposal`, `C15_hmc`, `C15_mala`, `C15_random_walk`, `C16_all_pairs`, `C16_proposal_density`, `C16_random_walk_balance`, `C17_all_pairs`, `C17_mala_balance`, `C17_mala_ratio`, `C17_proposal_density`, `C17_vector_step_raises`, `C18_constant_invisible`, `C18_flow_balance`, `C19_reversible`, `C19_velocity_is_gradient`, `C19_velocity_verlet`, `C20_all_momenta`, `C20_phase_space_balance`, `C21_dense_metric_refuted`, `C21_scalar_metric_raises`, `C25_continuous`, `C25_knots`, `C25_linear_outside`, `C25_onto`, `C25_strictly_increasing`, `C26_forward_of_inverse`, `C26_inverse_of_forward`, `C27_inverse_logdet`, `C27_logdet`, `C28_default_well_conditioned`, `C28_valid`, `C28_zero_slope`, `C29_affine_coupling`, `C29_affine_coupling_pass`, `C29_mlp_affine`, `C29_pass_through`, `C29_rqspline`, `C29_scalar_affine`, `C30_realnvp`, `C30_rqspline_swapped_order`, `C30_rqspline_trained_refuted`, `C30_rqspline_untrained_affine`, `C31_rqspline_layer_differentiable`, `C32_samples`, `C33_first_masks`, `C33_realnvp_masks`, `C33_rqspline_masks`, `C39_exchange_balance`, `C39_sweep_invariant`, `C40_gap_law`, `C40_interior_order`, `C40_sorted_refuted`, `C41_ensemble_preserved_refuted`, `C42_bundle_targets`, `C42_gradient`, `C42_same_acceptance_iff_flat_prior`, `C42_unit_temperature`, `C43_objective`, `C51_endpoints`, `C51_line`, `C51_velocity`, `C52_backward`, `C52_constant_fields`, `C52_dopri5`, `C52_fresh_model`, `C52_right_iff`, `C52_shift_inverse`, `C52_shift_samples`, `C52_time_fields`, `C52_value`, `C52_whitening`, `C53_decay`, `C53_masks_leave_binary`, `C53_trained_base_covariance`, `C53_trained_statistics`, `C54_mlp_value`, `C55_composable`, `C55_samples`, `C56_examples`, `C56_loss`, `C57_constant_column`, `C57_flow_matching`, `C57_positive`, `C57_whitened`, `C58_clip`, `C58_clip_bound`, `C58_constant_gradient`, `C60_balance_iff`, `C61_returned_not_recorded_refuted`, `C61_shift_gradient`, `C63_masks_become_parameters`, `C64_realnvp_masks`, `C64_statistics`, `C68_binary32`, `C68_histogram`, `C73_binary32`, `C73_bundle_binary32`, `C73_initial_binary32`, `C73_initial_refuted`, `C73_support_binary32`, `C74_diagonal`, `C74_outcome`, `C78_defaults`, `C78_forward`, `C78_inverse`, `C78_knots`, `C78_layer`, `C78_network`, `C79_flow`, `C79_langevin`, `C79_production`, `C79_production_end`, `C79_random_walk`, `C84_flow`, `C84_limit`, `C84_production`, `C84_production_end`, `C85_flow`, `C85_production`, `C86_group`, `C87_independent`, `C87_pooled`, `C88_origin_refuted`, `C89_layer`, `C89_network`, `C89_value`, `C91_hmc_acceptance`, `C91_hmc_energy`, `C91_hmc_unstable`, `C91_mala_closer`, `C91_mala_gaussian`, `C91_mala_trapezoid`, `C92_bundle`, `C92_first_step`, `C92_optimization`, `C92_training_bounded`, `C92_training_step`, `C92_wrong_way`, `C93_exact`, `C93_forgets`, `C93_probability`, `C93_step`, `C93_stuck`, `C94_better_comes_down`, `C94_price`, `C95_bias`, `C95_perfect`, `C95_rate`, `C96_correlation`, `C96_decay`, `C96_exact`, `C96_stationary`, `C96_worth`, `C97_global`, `C97_production`, `C98_global`

### `ClassicalDedekindReals.sig_forall_dec`, `ClassicalDedekindReals.sig_not_dec`, `ClassicalEpsilon.constructive_indefinite_description`, `Classical_Prop.classic`, `FunctionalExtensionality.functional_extensionality_dep` - 56 theorems

`C100_local`, `C100_one`, `C20_target_balance`, `C20_volume`, `C21_diagonal_metric`, `C31_affine_coupling`, `C31_realnvp`, `C31_realnvp_pointwise`, `C31_rqspline`, `C32_realnvp`, `C32_realnvp_custom_base_refuted`, `C32_rqspline`, `C52_not_the_sample_density_refuted`, `C52_shift_right_iff`, `C53_trained_base_refuted`, `C53_trained_realnvp_refuted`, `C54_fresh_realnvp`, `C54_fresh_rqspline`, `C54_mlp_differentiable`, `C55_density`, `C55_formula`, `C60_fresh_realnvp_balance`, `C60_fresh_rqspline_balance`, `C60_realnvp_balance`, `C60_realnvp_trained_refuted`, `C60_rqspline_trained_refuted`, `C60_rqspline_zero_affine_balance`, `C61_maximum_likelihood`, `C61_realnvp_objective`, `C61_rqspline_objective`, `C65_base`, `C65_log_prob`, `C65_realnvp_base`, `C70_log_prob`, `C74_acceptance`, `C74_all_pairs`, `C74_balance_fails`, `C74_full_matrix_refuted`, `C79_hmc`, `C80_returned`, `C80_training`, `C81_production_twice`, `C86_kernels`, `C86_serial`, `C86_tempering`, `C88_bundle`, `C88_pt_bundle`, `C88_spline`, `C88_spline_pt`, `C90_all_chains`, `C90_chain`, `C90_step`, `C97_local`, `C98_even`, `C98_local`, `C98_stationary`
