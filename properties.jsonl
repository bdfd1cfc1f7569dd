{"id": "C01", "title": "Q(true) is a faithful distance", "statement": "The loss reported as Q(true) is never negative, and with positive uncertainties it is zero exactly when the product of contributions and profiles reproduces every cell of the data matrix.", "quantifier": "every matrix size, every data, uncertainty, contribution and profile matrix of reals with non-zero uncertainties", "why_tests_cant": "A test evaluates the loss on a handful of matrices; the claim is an equivalence over all matrices of all sizes.", "anchors": ["esat/metrics.py:q_loss", "esat/metrics.py:calculate_Q", "rust/lib.rs:calculate_q_cpu"]}
{"id": "C02", "title": "Q(robust) never exceeds Q(true)", "statement": "For every positive robust cut-off alpha, 0 <= Q(robust) <= Q(true); the two are equal exactly when no uncertainty-scaled residual exceeds alpha; a cell with scaled residual s contributes s^2 when s<=alpha and alpha*s otherwise.", "quantifier": "every matrix size, every data/uncertainty/contribution/profile matrix with positive uncertainties, every alpha>0 (the 1e-12 floor on the robust uncertainty is shown never to matter when U>=1e-12)", "why_tests_cant": "The inequality must hold for every residual pattern; the masking order in the code (the mask is recomputed after it was overwritten) makes spot checks unconvincing.", "anchors": ["esat/metrics.py:qr_loss", "rust/lib.rs:calculate_q_robust_cpu"]}
{"id": "C03", "title": "Robust uncertainties only down-weight outliers", "statement": "The adjusted uncertainty matrix returned with Q(robust) is never smaller than the input uncertainty, equals it for every cell whose scaled residual is at most alpha, and re-evaluating the plain loss with the adjusted uncertainty gives Q(robust).", "quantifier": "every matrix size, every data/uncertainty/contribution/profile matrix with positive uncertainties, every alpha>0", "why_tests_cant": "Relates two different outputs of the function on every cell of every matrix.", "anchors": ["esat/metrics.py:qr_loss"]}
{"id": "C04", "title": "Per-factor Q values add up to Q(true)", "statement": "When every modelled concentration is positive, the per-factor Q values before rounding sum to Q(true) and the reported (4-decimal) values sum to it within 0.00005 per factor; a cell whose modelled concentration is zero or negative is evaluated against 1e-12 instead.", "quantifier": "every matrix size and number of factors, every matrix with positive reconstruction, every rounding within half a unit of the fourth decimal", "why_tests_cant": "A sum over a symbolic number of factors and cells.", "anchors": ["esat/metrics.py:q_factor"]}
{"id": "C05", "title": "LS-NMF keeps the solution non-negative", "statement": "Starting from non-negative data, contributions and profiles, every LS-NMF iteration that does not divide by zero keeps both matrices non-negative; starting strictly positive with strictly positive data no iteration ever divides by zero and both matrices stay strictly positive forever. An entry that is exactly zero stays exactly zero.", "quantifier": "every matrix size, every positive weight matrix, every number of iterations, every hold/delay setting", "why_tests_cant": "Quantifies over all iteration counts and all real matrices.", "anchors": ["esat/model/ls_nmf.py:LSNMF.update", "rust/lib.rs:ls_nmf_update_cpu"]}
{"id": "C06", "title": "LS-NMF never increases Q(true)", "statement": "Every LS-NMF iteration, with the profile held or not, leaves Q(true) no larger than it was (exact arithmetic); therefore the Q history of a training run is non-increasing.", "quantifier": "every matrix size, every non-negative data matrix, positive contributions and profiles, positive uncertainties, every number of iterations and hold/delay schedule", "why_tests_cant": "Monotonicity of a multiplicative update is a theorem about all real matrices (majorisation argument); sampling cannot establish it.", "anchors": ["esat/model/ls_nmf.py:LSNMF.update", "rust/lib.rs:ls_nmf_update_cpu", "esat/model/sa.py:SA.train"]}
{"id": "C07", "title": "Held profiles are untouched", "statement": "With hold_h set (and no delay that expires) the profile matrix after any number of training iterations equals the initial profile matrix exactly, for both update algorithms.", "quantifier": "every matrix size, every input, every number of iterations", "why_tests_cant": "All iteration counts and all inputs.", "anchors": ["esat/model/ls_nmf.py:LSNMF.update", "rust/lib.rs:ls_nmf_update_cpu", "rust/lib.rs:ws_nmf_update_cpu", "esat/model/sa.py:SA.train"]}
{"id": "C08", "title": "An exact factorisation is a fixed point of LS-NMF", "statement": "If contributions times profiles already reproduces the data exactly, an LS-NMF iteration returns the same two matrices, so training cannot move away from a perfect solution.", "quantifier": "every matrix size, every positive factorisation, every positive weight matrix", "why_tests_cant": "Universal over all factorisations.", "anchors": ["esat/model/ls_nmf.py:LSNMF.update"]}
{"id": "C09", "title": "LS-NMF does not depend on labelling or units", "statement": "Permuting samples, features or factors of the inputs permutes the outputs of an LS-NMF iteration in the same way and leaves Q unchanged; changing the unit of a feature (scaling that column of data, uncertainty and profile by c>0) scales the profile column of the result by c and leaves contributions and Q unchanged. The same holds for a whole training with the compiled and with the Python engine: the losses, the number of iterations, the convergence verdict and the events are the same, and the factors are permuted and rescaled in the same way; samples may be given units of their own as well.", "quantifier": "every matrix size, every permutation (as a bijection on indices), every positive scale per feature and per sample, every number of iterations, every training configuration", "why_tests_cant": "All permutations and all scales of all inputs.", "anchors": ["esat/model/ls_nmf.py:LSNMF.update", "esat/metrics.py:q_loss"]}
{"id": "C10", "title": "WS-NMF contribution step is the weighted least-squares optimum", "statement": "For every profile matrix, the contribution matrix produced by the WS-NMF step has the smallest possible Q(true) among all real contribution matrices for that profile matrix, and it does not depend on the previous contributions.", "quantifier": "every matrix size, every real data, every positive uncertainty, every profile matrix (singular ones included), every inverse routine that returns a generalised inverse", "why_tests_cant": "Optimality over an infinite set of competitors.", "anchors": ["esat/model/ws_nmf.py:WSNMF.update", "rust/lib.rs:ws_nmf_update_cpu"]}
{"id": "C11", "title": "WS-NMF profile step: well defined for non-negative data, not for negative data", "statement": "With non-negative data the WS-NMF profile update takes square roots of positive quotients only, so profiles stay non-negative (strictly positive if they were); with negative data, the documented use of the method, there are inputs on which it takes the square root of a negative number so the profile becomes NaN after one iteration.", "quantifier": "every matrix size and all real inputs for the positive part; an explicit one-cell input for the negative part", "why_tests_cant": "The positive part is universal; the negative part contradicts the documentation and is not covered by any test.", "anchors": ["esat/model/ws_nmf.py:WSNMF.update", "rust/lib.rs:ws_nmf_update_cpu", "esat/model/sa.py:SA.__init__"]}
{"id": "C12", "title": "Rust matrix inverse is the inverse", "statement": "The adjugate-over-determinant inverse written for the Rust GPU path (no update calls it at present), if its one-element tensors could be read as scalars, returns for every square matrix of size >=2 with non-zero determinant the true two-sided inverse, and an error for a zero determinant, never a wrong matrix. As the tensor library refuses that reading, the function as written returns an error for every matrix.", "quantifier": "every square matrix of size at least 2 over a field", "why_tests_cant": "Cofactor expansion correctness for every size.", "anchors": ["rust/lib.rs:calculate_inverse", "rust/lib.rs:calculate_adjoint", "rust/lib.rs:calculate_determinant", "rust/lib.rs:extract_minor"]}
{"id": "C13", "title": "Training is bounded and its Q history is complete", "statement": "A training run performs at most max_iter iterations; the Q history has exactly one entry per iteration performed, in order; the reported final Q is its last entry; without convergence exactly max_iter iterations are performed (compiled engine).", "quantifier": "every update step, every loss function (including NaN values), every max_iter, window and tolerance", "why_tests_cant": "All histories of losses, including non-finite ones.", "anchors": ["rust/lib.rs:ls_nmf_update_cpu", "rust/lib.rs:ws_nmf_update_cpu", "esat/model/sa.py:SA.train"]}
{"id": "C14", "title": "Convergence means what it says", "statement": "The compiled engine reports convergence at iteration i exactly when i is the first iteration at which at least converge_n losses exist and the loss converge_n-1 iterations earlier minus the current loss is below converge_delta; with converge_n<=1 and a positive tolerance it stops after one iteration; a run is never reported as converged on a NaN loss; since the difference is signed, a loss that rose over the window (even to infinity) does count as converged.", "quantifier": "every sequence of losses, every converge_n (including 0 and negative), every tolerance, every max_iter", "why_tests_cant": "Quantifies over all infinite loss sequences.", "anchors": ["rust/lib.rs:ls_nmf_update_cpu", "rust/lib.rs:ws_nmf_update_cpu"]}
{"id": "C15", "title": "hold_h / delay_h schedule", "statement": "The profile matrix is updated at iteration i (counted from 0) exactly when hold_h is off, or delay_h>0 and i>delay_h; hence delay_h has no effect unless hold_h is on, and with hold_h on the first profile update happens after delay_h+1 (not delay_h) held iterations. The pure-Python and compiled engines agree on this schedule.", "quantifier": "every iteration index, every hold_h, every integer delay_h", "why_tests_cant": "All iteration indices and delays.", "anchors": ["rust/lib.rs:ls_nmf_update_cpu", "esat/model/sa.py:SA.train"]}
{"id": "C16", "title": "Python engine and compiled engine: where they agree", "statement": "Given the same update step and finite losses, the pure-Python engine and the compiled engine produce the same matrices and the same Q history unless the compiled engine converges at the very first eligible iteration (index converge_n-1), in which case the Python engine runs longer; with converge_n<=0 the Python engine raises IndexError; the reported number of steps of an unconverged run is max_iter in Python and max_iter-1 in the compiled engine.", "quantifier": "every update step, loss sequence, window, tolerance and max_iter", "why_tests_cant": "Equivalence of two programs over all inputs.", "anchors": ["rust/lib.rs:ls_nmf_update_cpu", "esat/model/sa.py:SA.train"]}
{"id": "C17", "title": "Retraining with the Python engine accumulates stale status", "statement": "In the pure-Python engine a second call of train on the same model never clears the converged flag and adds to the step counter: after any history of calls the counter is the sum over calls and the flag is true if any call converged; the compiled engine reports the last call only.", "quantifier": "every finite sequence of train calls", "why_tests_cant": "All call histories.", "anchors": ["esat/model/sa.py:SA.train"]}
{"id": "C18", "title": "Memory layout seen by the compiled engine", "statement": "For data, uncertainty and weight arrays in column-major memory, and contribution/profile arrays in row-major memory, the compiled engine computes on exactly the user's matrices and returns exactly its result. A row-major data array with at least two rows and two columns is seen by the engine with its cells rearranged (a different matrix for some data), although all results are reported against the original.", "quantifier": "every matrix size, every cell", "why_tests_cant": "Index arithmetic over all sizes; the tests only compare finiteness.", "anchors": ["rust/lib.rs:ls_nmf", "rust/lib.rs:ws_nmf", "rust/lib.rs:na_to_ndarray", "esat/model/sa.py:SA.train"]}
{"id": "C19", "title": "Feeding a trained matrix back to the compiled engine", "statement": "The contribution and profile arrays returned by a compiled training run are column-major; passing them unchanged into another compiled run (retraining, bootstrap with keep_H, displacement, perturbation) makes the engine start from a rearranged matrix: entry (i,j) of the engine's start equals the entry of the trained matrix obtained by re-reading column-major memory row by row; the two agree for all matrices only when there is one row or one column.", "quantifier": "every matrix size", "why_tests_cant": "Index arithmetic over all sizes.", "anchors": ["rust/lib.rs:ls_nmf", "esat/model/sa.py:SA.train", "esat/error/bootstrap.py:Bootstrap._train", "esat/error/displacement.py:Displacement.__init__"]}
{"id": "C20", "title": "Weights are finite and positive for any uncertainties", "statement": "After construction every uncertainty that is not NaN is at least 1e-12 and every weight is the positive reciprocal of its square; zero and negative uncertainties are silently replaced, so the documented rejection of negative uncertainties never happens.", "quantifier": "every uncertainty matrix including zeros, negatives and NaN", "why_tests_cant": "All matrices, and the unreachability of an error branch.", "anchors": ["esat/model/sa.py:SA.__init__", "esat/model/sa.py:SA.__validate"]}
{"id": "C21", "title": "Initial profiles are strictly positive", "statement": "After initialisation every non-NaN profile entry is strictly positive, whatever the method, the random draws or the user's floating-point matrix, and a user matrix of the right shape is edited in place; contributions drawn by the column-mean method for ls-nmf are strictly positive as well. A zero in an integer-typed user matrix stays zero, and with 'update' or k-means the contributions can be negative although the model is accepted and run by the LS-NMF engine. Drawn profiles are the root of the feature's mean over k times the draw, drawn contributions the same with the sample's mean, 'update' gives V times the transposed profiles, k-means gives the centroids and 1/k outside a sample's cluster; given profiles that are too few replace the first drawn ones (a single column being repeated over the features) and every feature is then divided by its total.", "quantifier": "every random stream, every user-provided matrix, every shape, both initialisation families", "why_tests_cant": "All random streams.", "anchors": ["esat/model/sa.py:SA.initialize"]}
{"id": "C22", "title": "Training refuses exactly the invalid configurations", "statement": "When the user supplies profiles and contributions, train returns -1 exactly when data, uncertainty, profiles or contributions contain NaN, or the uncertainty or contribution shape is wrong, and otherwise runs on exactly those matrices (after flooring). Data in which some feature has a negative mean are always refused with the default initialisation, for both methods. With finite data and the default initialisation, train returns -1 exactly when the uncertainties contain NaN or have another shape, or the mean of some feature or of some sample is negative. Matrices replaced on the object after initialisation are not checked again.", "quantifier": "every combination of shapes and NaN/negative contents", "why_tests_cant": "A complete decision table over all inputs.", "anchors": ["esat/model/sa.py:SA.__validate", "esat/model/sa.py:SA.train"]}
{"id": "C23", "title": "Seeding fewer profiles than factors does not keep them", "statement": "Profiles passed with fewer rows than factors are inserted and then every column of the combined matrix is divided by its sum and floored at 1e-12: a column of positive entries then sums to one, and a seeded entry is kept unchanged only if its column already summed to one; a negative random remainder can wipe out a positive seed; more rows than factors, or another number of features, raises an error.", "quantifier": "every seed matrix, every random remainder", "why_tests_cant": "All matrices.", "anchors": ["esat/model/sa.py:SA.initialize"]}
{"id": "C24", "title": "Batch training picks the best model", "statement": "After a successful batch run best_model is the index of the first model whose selected loss (robust or true) is minimal among all non-NaN losses; every other model's loss is at least as large or NaN. If all losses are NaN or infinite best_model is -2, an index no caller expects.", "quantifier": "every list of results, every loss including NaN and infinities, both selection modes", "why_tests_cant": "All result lists with IEEE comparison semantics.", "anchors": ["esat/model/batch_sa.py:BatchSA.train"]}
{"id": "C25", "title": "Batch results do not depend on scheduling", "statement": "In parallel mode result i is the model trained with the i-th drawn seed whatever order the workers finish in, there are exactly as many results as models, and for the same settings (two-dimensional or absent seed matrices, no delay, no time limit, at least one model and at least two when verbose) sequential mode produces the same list and the same best model. A verbose batch of one model with a NaN loss succeeds in parallel mode and fails in sequential mode.", "quantifier": "every completion order, every number of models, every random stream", "why_tests_cant": "All interleavings of worker completions.", "anchors": ["esat/model/batch_sa.py:BatchSA.train", "esat/model/batch_sa.py:_train_task"]}
{"id": "C26", "title": "Sequential batch ignores delay_h", "statement": "A sequential batch trains every model as if delay_h were left at its default, whereas a parallel batch passes it on; hence the two modes produce different models for some update step whenever hold_h is on and delay_h is positive and smaller than the number of iterations.", "quantifier": "every configuration; explicit witness of disagreement", "why_tests_cant": "Relates two code paths over all configurations.", "anchors": ["esat/model/batch_sa.py:BatchSA.train"]}
{"id": "C27", "title": "Batches larger than 127 models fail", "statement": "With the compiled engine a batch of n models trains successfully only if n<=127, since the model index is passed as an 8-bit integer; for n>127 train reports failure and, in sequential mode, keeps the first 127 models as results without a best model.", "quantifier": "every number of models", "why_tests_cant": "Threshold behaviour for all n; tests use few models.", "anchors": ["esat/model/batch_sa.py:BatchSA.train", "rust/lib.rs:ls_nmf"]}
{"id": "C28", "title": "Batch time limit wraps at one day", "statement": "The per-model limit is checked only in sequential mode, after a model has finished, against the seconds-within-the-day of its duration: a model is rejected exactly when (duration mod 24h) exceeds the limit, so a model running 24 hours and a minute passes a limit of two minutes.", "quantifier": "every duration and limit", "why_tests_cant": "Durations of days cannot be tested.", "anchors": ["esat/model/batch_sa.py:BatchSA.train"]}
{"id": "C29", "title": "Block bootstrap produces a dataset of the original size from real samples", "statement": "With a block size of at most half the samples (and more than two samples when overlapping: two samples raise ValueError), the resampled index list has exactly as many entries as samples, every entry is a valid sample index, and it is a concatenation of runs of consecutive samples; the three resampled matrices use the same index list row by row.", "quantifier": "every number of samples, every block size >=1, every random stream, overlapping or not", "why_tests_cant": "All sizes and random streams.", "anchors": ["esat/error/bootstrap.py:Bootstrap._block_resample"]}
{"id": "C30", "title": "Which samples a block bootstrap can draw", "statement": "For every sample outside the last block some random stream draws it, and no stream ever draws a sample of the last block (non-overlapping); in overlapping mode the last two samples are never drawn and all others can be; when the block size is exactly half of the samples every non-overlapping bootstrap is two copies of the first half.", "quantifier": "every number of samples, every block size, every random stream", "why_tests_cant": "Universal negative statement over all random streams.", "anchors": ["esat/error/bootstrap.py:Bootstrap._block_resample"]}
{"id": "C31", "title": "Oversized bootstrap blocks crash instead of shrinking", "statement": "If the block size exceeds half the number of samples, resampling always raises (TypeError, since the block size is set to a float; for overlapping blocks on at most three samples or an empty dataset another exception), never returns a resample, the stored block size has been replaced by the float, and every later call on the same object raises too.", "quantifier": "every N and block size with block size > N/2, both modes", "why_tests_cant": "Universal over the whole region of inputs.", "anchors": ["esat/error/bootstrap.py:Bootstrap._block_resample"]}
{"id": "C32", "title": "Bootstrap factor mapping is the best correlation", "statement": "Each bootstrap factor is matched to a base factor of maximal R-squared (own index on ties, otherwise the first), and reported as mapped exactly when that R-squared reaches the threshold, provided its own R-squared is not NaN; if it is NaN the factor is never mapped. Mapping by contributions gives the same table as mapping by profiles whenever no factor's contributions add up to zero, and a factor that is unchanged up to scale maps to itself with R-squared 1.", "quantifier": "every correlation matrix including NaN entries, every threshold", "why_tests_cant": "All matrices with NaN semantics.", "anchors": ["esat/error/bootstrap.py:Bootstrap.map_contributions", "esat/error/bootstrap.py:Bootstrap.map_factors"]}
{"id": "C33", "title": "Bootstrap mapping table accounts for every run", "statement": "In the mapping table each row (mapped counts plus unmapped) sums to the number of runs, all counts are non-negative, and the table does not depend on the order in which parallel runs finish and equals the sequential one (the list of Q(robust) values, however, comes in completion order).", "quantifier": "every number of runs and factors, every mapping outcome, every completion order", "why_tests_cant": "All interleavings.", "anchors": ["esat/error/bootstrap.py:Bootstrap._build_table", "esat/error/bootstrap.py:Bootstrap._train"]}
{"id": "C34", "title": "Compiling or showing bootstrap results alters the models", "statement": "Building the statistics zeroes every bootstrap profile entry below 1e-8 in place and showing a factor zeroes every base-model profile entry below 1e-5 in place, so results are not read-only: a second display is idempotent, but the base model's profile changed exactly at those entries.", "quantifier": "every profile matrix, every sequence of displays", "why_tests_cant": "Aliasing effect over all call histories.", "anchors": ["esat/error/bootstrap.py:Bootstrap._factor_statistics", "esat/error/bootstrap.py:Bootstrap.show_factor_results"]}
{"id": "C35", "title": "Displacement results are within tolerance when the search stops early", "statement": "For each dQ target T (32, 16, 8, 4 in DISP; 4, 2, 1, 0.5 in BS-DISP): an increase search that stops before its 100th step and a decrease search that stops before its 26th report a dQ in [T-threshold, T] (or NaN); the dQ reported is the change at the reported profile value; the value lies strictly between 1 and 2^101 times (increase) or 0 and 1 times (decrease) its base value; for a positive profile and non-negative contributions the reported percentages, the reported contributions and their clamped forms therefore bracket the base values: minimum <= base <= maximum.", "quantifier": "every loss as a function of the modifier (NaN and infinities included), every target list and threshold, every model", "why_tests_cant": "The search is driven by an arbitrary function of the modifier.", "anchors": ["esat/error/displacement.py:Displacement._increase_disp", "esat/error/displacement.py:Displacement._decrease_disp", "esat/error/displacement.py:Displacement._compile_results"]}
{"id": "C36", "title": "Displacement always terminates within a fixed budget", "statement": "Whatever the loss, an increase search ends after at most 100 evaluations for the upper bound and 100 per target, a decrease search after at most 26 per target: its own limit of 50 steps is never reached because the step falls below 1e-8 first. max_search does not limit the searches: for a factor without contributions the increase search of every target takes 100 steps, whatever smaller limit is given.", "quantifier": "every loss including NaN, every threshold", "why_tests_cant": "Termination for every loss function.", "anchors": ["esat/error/displacement.py:Displacement._increase_disp", "esat/error/displacement.py:Displacement._decrease_disp"]}
{"id": "C37", "title": "Displacement search succeeds for the model's loss", "statement": "The loss change is exactly a quadratic A(m-1)^2+B(m-1)+C of the modifier m with A >= 0 given by the data. If some power of two up to 2^100 reaches the largest target, the change at the base is at most the smallest target minus the threshold and slope times bracket is at most threshold*2^100, then every increase target is met with dQ in [T-threshold, T]; the decrease search succeeds for every Lipschitz change with constant at most threshold*2^26 that reaches the targets at zero. If the change never reaches a target (for example a factor that contributes nothing) the search still reports a value for each target, after 100 steps, with a dQ below the target and no flag.", "quantifier": "every data set, target list and threshold; every Lipschitz loss, monotone or not", "why_tests_cant": "Convergence of bisection for all such functions.", "anchors": ["esat/error/displacement.py:Displacement._increase_disp", "esat/error/displacement.py:Displacement._decrease_disp"]}
{"id": "C38", "title": "Displacement swap table: columns and counts", "statement": "In sequential mode column k of the swap table counts the swaps of factor k and every count is twice the number of searched features; in parallel mode columns are assigned in order of first completion, so for some completion order the table's columns are permuted; swap counts never exceed totals; a second run doubles the counts.", "quantifier": "every number of factors/features, every completion order, every swap outcome", "why_tests_cant": "All interleavings.", "anchors": ["esat/error/displacement.py:Displacement._compile_results", "esat/error/displacement.py:Displacement._run_all_increase_disp"]}
{"id": "C39", "title": "Displacement summary labels rows in reverse", "statement": "The swap percentage table is filled with the largest dQ first but labelled with the smallest dQ first, in the summary and in the saved file: row r is labelled with the dQ of row 3-r, so no row is labelled correctly.", "quantifier": "every swap table", "why_tests_cant": "A labelling claim for all tables.", "anchors": ["esat/error/displacement.py:Displacement.summary", "esat/error/displacement.py:Displacement.save", "esat/error/displacement.py:Displacement._compile_results"]}
{"id": "C40", "title": "BS-DISP summary statistics omit the last bootstrap run", "statement": "The compiled BS-DISP ranges and averages are taken over the first stored run together with runs 1..n-1, so with runs stored in order the first counts twice and the last never influences any range, average or drop count (n >= 2); the lower profile bounds of all runs but the first are ignored in favour of their base profiles. Within what is used minimum <= mean <= maximum. The swap and count tables and the number of runs with swaps cover every run once whatever the order; best-fit swaps are zero exactly when every bootstrap run mapped every factor to itself. The order in which parallel runs finish reaches the ranges and averages only through which run finished first, and does reach them: with the same seed and the same run results another finishing order gives other ranges.", "quantifier": "every number of runs, storage order and displacement result", "why_tests_cant": "Universal over all result tables.", "anchors": ["esat/error/bs_disp.py:BSDISP.__compile_results"]}
{"id": "C41", "title": "Constraint registry", "statement": "Adding a constraint succeeds exactly when its indices are admitted and its label is unused, appends it, and otherwise leaves the registry unchanged; over every history of additions and removals at most one constraint exists per element (and at most one with an unknown target); adding then removing restores the registry; removing an unknown label raises and changes nothing else. The factor index of a sample constraint is compared with the number of samples: an out-of-range factor index is accepted and training then raises, and with more factors than samples valid indices are refused.", "quantifier": "every sequence of add/remove operations, every index", "why_tests_cant": "All operation histories.", "anchors": ["esat/rotational/constrained.py:ConstrainedModel.add_constraint", "esat/rotational/constrained.py:ConstrainedModel.remove_constraint"]}
{"id": "C42", "title": "Effect of each constraint type", "statement": "In every reachable registry with in-range indices, after the differences are added each constrained cell is: 0 for 'set to zero'; the base value for 'set to base value'; for 'define limits' the minimum if it was below it, 2*value-max if it was above the maximum (moving away), and doubled if it was inside; between current value and target for 'pull to value'; at most half for 'pull down'; at least the current value for 'pull up'; unchanged for an unknown type. All other cells keep the difference from the expressions. 'define limits' meets its limits exactly when the value was below the minimum or its double is inside.", "quantifier": "every registry, current solution, limits and base solution", "why_tests_cant": "All reals and all registries.", "anchors": ["esat/rotational/constrained.py:ConstrainedModel._apply_constraints"]}
{"id": "C43", "title": "Pull searches: direction, bounds and budget", "statement": "Every search evaluates the loss at most 31 times per phase. Pull-down multiplies a positive value by a factor in (0, 1/2] whatever the dQ limit (the limit is not respected), and turns 0 into 1e-8; it evaluates at most 26 values (its own limit of 30 steps is never reached), and if it stops before the 26th the change of the loss is neither above the limit nor more than 100 below it. Pull-up multiplies by a factor in [1, 2^30] and, unless it runs out of evaluations, ends with dQ within 100 below the limit; if doubling reaches a limit of at most 100 the value is unchanged. Pull-to returns the target if its dQ is below the limit and otherwise a value strictly between; pulling upwards it walks towards the target and ends over the limit whenever the limit is exceeded from the midpoint on. It stops exactly when the change is within 100 below the limit, after 31 values, when the second value to try would be within 1e-8 of zero (not of the first value), or when halving has made the move to the next value at most 1e-8.", "quantifier": "every loss function, every current value, target and limit", "why_tests_cant": "Arbitrary loss functions.", "anchors": ["esat/rotational/constrained.py:ConstrainedModel._pull_up_value", "esat/rotational/constrained.py:ConstrainedModel._pull_down_value", "esat/rotational/constrained.py:ConstrainedModel._pull_to_value"]}
{"id": "C44", "title": "Factor estimation does not hold data out", "statement": "The test error of a sample is the mean squared residual over every cell of the data, whatever the hold-out fraction and random draws; the train error is the mean over the cells that were not drawn for testing (NaN when there is none); the fitted model sees all the data in both cases. That the test error measures the held-out cells is false.", "quantifier": "every shape with at least one cell, every data matrix, hold-out fraction, random stream and fitted model", "why_tests_cant": "Universal over random streams; the code's own tests only run it.", "anchors": ["esat/estimator.py:FactorEstimator._get_mask", "esat/estimator.py:FactorEstimator._random_sample"]}
{"id": "C45", "title": "Estimated factor count", "statement": "When every factor count was sampled and every mean error is positive, the estimate is the first factor count k minimising error(k) * k^k_coef, in the requested range; if any factor count received no sample (or has a NaN error) the estimate is -1; the completion order of the parallel samples changes neither the table nor the estimate; a factor count whose (rounded) error is 0 is never chosen: the estimate is then the first count with non-zero error, or -1 when all are 0; a range of one factor count raises.", "quantifier": "every error table, every assignment of samples to factor counts, every completion order, every coefficient, ranges from 1 up", "why_tests_cant": "All interleavings and NaN patterns.", "anchors": ["esat/estimator.py:FactorEstimator.run", "esat/estimator.py:FactorEstimator._results", "esat/estimator.py:FactorEstimator._update_pbar"]}
{"id": "C46", "title": "Feature categories are applied exactly once", "statement": "After any history of category changes (on columns that are still present) and data requests, the processed data contain, in file order, the columns that are neither dropped, nor location columns, nor last set to 'bad'; data are the stored values in single precision; uncertainties are the stored values in single precision, times three (rounded) exactly when the feature's last accepted category is 'weak'. Requests never change the stored data, so repeating them gives the same answer. set_category answers True exactly for a given feature name and one of the three lower-case names. It also accepts a name that is not a column (or is a dropped or location column), after which every data request raises KeyError. Loading marks every feature 'strong' whatever its signal-to-noise ratio (sn_threshold is not used, and neither is drop_nans).", "quantifier": "every sequence of operations, every numeric dataset, every drop and location column set", "why_tests_cant": "All operation histories.", "anchors": ["esat/data/datahandler.py:DataHandler.set_category", "esat/data/datahandler.py:DataHandler._set_dataset", "esat/data/datahandler.py:DataHandler.get_data", "esat/data/datahandler.py:DataHandler._load_data"]}
{"id": "C47", "title": "Missing rows are dropped only if both matrices miss them", "statement": "A sample is removed from the processed data exactly when it has a missing value among the selected features in the data and also one in the uncertainties; a sample missing in only one of them is kept with its NaN, so the processed data can contain NaN.", "quantifier": "every pattern of missing values", "why_tests_cant": "All patterns.", "anchors": ["esat/data/datahandler.py:DataHandler._set_dataset"]}
{"id": "C48", "title": "Location split is a partition", "statement": "Splitting by numeric location columns without missing values yields one non-empty handler per distinct location (coordinates compared after rounding to five decimals), the handlers' samples together are exactly the input samples, each handler holds exactly the samples of its location in input order, and the location columns remain ordinary features of the new handlers. If some location value is missing the split raises ZeroDivisionError.", "quantifier": "every dataset and location column, every idempotent rounding", "why_tests_cant": "All datasets.", "anchors": ["esat/data/datahandler.py:DataHandler.split_locations", "esat/data/datahandler.py:DataHandler.load_dataframe", "esat/data/datahandler.py:DataHandler._load_data"]}
{"id": "C49", "title": "Block-length estimator", "statement": "The flat-top kernel is 1 up to one half in absolute value, falls linearly to 0 at 1 and stays 0. A lagged matrix holds, for each variable and lag, exactly the series delayed by that lag, and the fill value above it. For each series the chosen lag is the start of the first run of five autocorrelations below 2 sqrt(log10(n)/n); failing that, one less than the last lag above that bound; failing that, the estimator raises. The stationary and circular lengths are (G^2/S^2)^(1/3) n^(1/3) and (3/2 G^2/S^2)^(1/3) n^(1/3), with G and S the kernel-weighted sums of the autocovariances, both capped at ceil(min(3 sqrt n, n/3)); they are NaN or between 0 and the cap, the stationary one never longer, and neither depends on the unit or offset of the series. A constant or too short series raises. The block size of a data handler is the floor of the mean circular length, between 0 and the cap, when all features have one; otherwise a fifth of the number of features, so it is 0 for fewer than five features with a constant one among them.", "quantifier": "every number of samples, every list of real series, every real argument of the kernel", "why_tests_cant": "All reals, sizes and lags; the two fallbacks only show on series without significant correlations.", "anchors": ["esat/model/recombinator.py:lam", "esat/model/recombinator.py:mlag", "esat/model/recombinator.py:optimal_block_length", "esat/data/datahandler.py:_determine_optimal_block"]}
{"id": "C50", "title": "Swap detection between factor sets", "statement": "Two factor sets are reported as swapped exactly when some factor has, for a pair of different positions, a strictly better squared correlation than with its own position. Consequences: a factor set compared with any rescaled, shifted or sign-flipped copy of itself is never reported; a non-trivial permutation of factors no two of which are perfectly correlated is always reported; factors whose profile is constant (NaN correlation) are never reported.", "quantifier": "every pair of factor sets of any size, including constant profiles", "why_tests_cant": "All matrices.", "anchors": ["esat/utils.py:compare_all_factors"]}
{"id": "C51", "title": "Core budget", "statement": "A positive number of cores given by the user is used as is and any other given number means exactly one; without one the number of worker processes is max(1, trunc(0.75*min(cores, available memory // bytes per model))) with 96 bytes per data cell, 32 per factor-matrix row or column entry and 150 MiB per model. In particular it is never below one, never above three quarters of the cores (unless that is below one), and is not the documented cores-1.", "quantifier": "every dataset size, memory amount and core count", "why_tests_cant": "All sizes.", "anchors": ["esat/utils.py:memory_estimate", "esat/model/batch_sa.py:BatchSA.__init__"]}
{"id": "C52", "title": "Reported RMSE divides by fourteen", "statement": "The feature RMSE equals, to four digits, the true root mean square error multiplied by sqrt(m)/14: it is correct for every dataset with exactly 196 samples, too large above and too small below whenever the difference is visible at four digits. The mean and variance columns are the mean and population variance of data and estimate to four digits.", "quantifier": "every number of samples, every residual vector", "why_tests_cant": "Universal claim over sizes.", "anchors": ["esat/data/analysis.py:ModelAnalysis.features_metrics"]}
{"id": "C53", "title": "Shares, contributions and stacked bars add up", "statement": "Normalised factor profiles sum to 100 for every feature with non-zero total, lie in [0,100], are proportional to the profile values and keep their order; a feature with only zeros gives NaN. Contributions in the profile plot average 1, those in the G-space plot sum to 1 and those of the contribution plot sum to 100. Bars are the factor's mass and add to the mass of the model. The per-factor matrices add to the estimate; the per-factor fractions add to estimate over data (not to the whole). The pie chart lists exactly the factors above the threshold; only negative thresholds are refused.", "quantifier": "every profile and contribution matrix of any size", "why_tests_cant": "All matrices and sizes.", "anchors": ["esat/data/analysis.py:ModelAnalysis.plot_factor_fingerprints", "esat/data/analysis.py:ModelAnalysis.plot_factor_profile", "esat/data/analysis.py:ModelAnalysis.plot_g_space", "esat/data/analysis.py:ModelAnalysis.plot_factor_contributions", "esat/data/analysis.py:ModelAnalysis.plot_factor_composition", "esat/data/analysis.py:ModelAnalysis.plot_factor_surface"]}
{"id": "C54", "title": "Synthetic data and uncertainties", "statement": "Generated data and uncertainties are positive numbers whatever noise, outliers, profiles and contributions, provided the outlier magnitude is not zero; a magnitude of zero gives NaN. A cell is multiplied by the magnitude exactly when its draw is below p/2, divided when above 1-p/2 and otherwise deviates from the model by exactly the noise drawn (non-positive values become 1e-12). The uncertainty is the data times the relative uncertainty drawn, or 1e-4 when that is not positive.", "quantifier": "every random stream, every p in [0,1], every profile and contribution matrix", "why_tests_cant": "All random streams.", "anchors": ["eval/simulator.py:Simulator._generate_data"]}
{"id": "C55", "title": "Model comparison finds the best one-to-one assignment", "statement": "compare tries exactly the one-to-one arrangements of the smaller set of factors in the larger and reports a model and arrangement whose average squared correlation (of the profiles for the text H, the contributions for W, the shares for WH, the mean of the three for any other text) is the largest of all models and arrangements, the first model on ties; NaN averages are never chosen and the best must be positive, otherwise the call raises TypeError. For every model its own best is recorded, or nothing if no average is positive. A batch containing the base solution in any order and scale (with non-constant factors) is found with average exactly 1. A failed model before a successful one raises KeyError, failed models at the end are ignored; with a single processor the call always raises. The Q printed for the base solution uses the data as uncertainties.", "quantifier": "every number of factors, every set of models, every method", "why_tests_cant": "Exponentially many arrangements, all models.", "anchors": ["eval/factor_comparison.py:FactorCompare.compare", "eval/factor_comparison.py:FactorCompare.combine_factors", "eval/factor_comparison.py:FactorCompare.print_results"]}
{"id": "C56", "title": "Catalog groups every factor exactly once", "statement": "With a threshold below 1 (error) or above 0 (correlation) adding never fails: a factor joins the first entry with the best mean value over its members if that value meets the threshold, otherwise it starts a new entry; other entries are untouched. After any sequence of additions the entries together hold exactly the factors added, each once, none is empty, and their number grew by the number returned. With other thresholds adding raises KeyError exactly when the catalog is not empty and no entry is better than error 1 or correlation 0. add_batch adds the factors of exactly the models whose Q does not exceed the multiple of the smallest Q (all without exclusion). A candidate whose contributions are a times and profile b times those of every member has error |1 - a| with the entry and correlations 1. The documented threshold with every member is not enforced (only the mean). The model count after a batch of N models is N rounded down to an even number, also after further batches of that size: one model makes the percentages divide by zero, three models give 150 %. The table of a catalog filled from nothing (threshold in [0,1) for errors, (0,1] for correlations) has one row per entry, its counts add up to the number of factors added, its mean values meet the threshold, and a row stands before one with a larger count only if their rounded percentages agree; the table raises exactly when factors were added and the model count is zero.", "quantifier": "every sequence of factors, every threshold and method, every batch", "why_tests_cant": "Unbounded sequences.", "anchors": ["eval/factor_catalog.py:FactorCatalog.add_factor", "eval/factor_catalog.py:FactorCatalog.add_batch", "eval/factor_catalog.py:FactorCatalog.to_df"]}
{"id": "C57", "title": "perturb_percent has no effect", "statement": "With percentage and spread given as floats or non-empty lists (spread not negative), perturbing multiplies every cell by its log-normal draw, whatever percentage was asked for (even 0); the multiplier is exp(spread * normal draw), the result is positive, and non-positive uncertainties become 1e-12. A list of the wrong length counts with its first element. Spread 0 changes no positive cell. An integer percentage or spread raises TypeError. A tuple or array of percentages shorter than the number of features leaves the remaining features unperturbed, with recorded multiplier 0.", "quantifier": "every matrix, percentage, spread and random stream", "why_tests_cant": "Universal over random streams.", "anchors": ["eval/perturbation.py:Perturbation.perturb"]}
{"id": "C58", "title": "What saving writes and returns", "statement": "For a relative path or missing directory every save writes nothing and returns None (the simulator False). As pickle, saving a solution, batch, displacement or BS-DISP returns the .pkl path, loading it gives the object back and no other file changes; the bootstrap does the same but returns None, against its documentation. As text a solution writes exactly its five files if feature names are given; without them (the default) it raises TypeError after two files and leaves the third empty. A batch saved model by model writes exactly the files of the successful models, numbered by position. BS-DISP saved as text leaves the bootstrap's metadata in place of its own and returns the path of a pickle file it did not write. A constrained model returns None and its pickle file loads as the solution inside it. A directory argument that is a file raises and changes nothing; a file name taken by a directory raises, and a pickle save then changes nothing.", "quantifier": "every file system, path, name and object", "why_tests_cant": "All paths, names and file-system states.", "anchors": ["esat/model/sa.py:SA.save", "esat/model/sa.py:SA.load", "esat/model/batch_sa.py:BatchSA.save", "esat/error/bootstrap.py:Bootstrap.save", "esat/error/displacement.py:Displacement.save", "esat/error/bs_disp.py:BSDISP.save", "esat/rotational/constrained.py:ConstrainedModel.save", "eval/simulator.py:Simulator.save"]}
{"id": "C59", "title": "All-zero samples or features break LS-NMF", "statement": "If some sample has only zero data values, every LS-NMF run of at least two iterations divides by zero (NaN results), whatever the start; the same holds for an all-zero feature when profiles are updated in the first two iterations. With an all-zero sample (window and max_iter at least two) the compiled engine spends all its iterations without converging and returns NaN; the Python engine stops at the second iteration at the latest. Conversely, with at least one positive value per sample and per feature and a positive start this never happens.", "quantifier": "every matrix size, every weights, every start, every number of iterations >= 2", "why_tests_cant": "Universal failure over all starts and random seeds.", "anchors": ["esat/model/ls_nmf.py:LSNMF.update", "rust/lib.rs:ls_nmf_update_cpu"]}
{"id": "C60", "title": "LS-NMF training always converges", "statement": "In exact arithmetic, for non-negative data without an all-zero sample or feature, non-zero uncertainties, a strictly positive start and a positive tolerance, training with LS-NMF always ends as converged, provided max_iter exceeds K*(converge_n-1) where K windows suffice to make K*converge_delta larger than the starting Q; the iteration at which it stops is at most that bound, the result is finite and strictly positive, and its Q is at most the starting Q. The pure-Python engine needs one more iteration, with the same guarantees for its result.", "quantifier": "every matrix size, all data/uncertainties/starts meeting the conditions, every tolerance, window, hold schedule", "why_tests_cant": "A termination guarantee for all inputs; tests only see particular runs converge.", "anchors": ["rust/lib.rs:ls_nmf_update_cpu", "esat/model/sa.py:SA.train", "esat/model/ls_nmf.py:LSNMF.update"]}
{"id": "C61", "title": "Progress callback completes exactly once", "statement": "With max_iter>0 the compiled engine delivers exactly one progress event flagged as completed; it is the last event and carries the final iteration index and final loss; every earlier event is flagged as not completed, whatever the timing of the progress interval.", "quantifier": "every loss sequence, every timing of the wall clock, every window and tolerance", "why_tests_cant": "Depends on wall-clock timing and on where convergence happens.", "anchors": ["rust/lib.rs:ls_nmf_update_cpu", "rust/lib.rs:ws_nmf_update_cpu"]}
{"id": "C62", "title": "WS-NMF may raise Q unless contributions are non-negative", "statement": "A WS-NMF iteration never raises Q(true) when the profile is held or when the contributions it computes are non-negative; without that, one iteration can move from an exact reproduction of non-negative data (Q=0) to a positive Q.", "quantifier": "every matrix size, every data, every positive uncertainty, every generalised inverse; an explicit 2x2 input for the negative part", "why_tests_cant": "A universal inequality over real matrices, with the exact side condition.", "anchors": ["esat/model/ws_nmf.py:WSNMF.update", "rust/lib.rs:ws_nmf_update_cpu"]}
{"id": "C63", "title": "Bootstraps larger than 127 runs fail", "statement": "A bootstrap of n runs completes only if n<=127, since the run number is passed to the compiled engine as an 8-bit integer; for larger n the run raises, parallel mode keeps no result of that call and sequential mode keeps the first 127 without compiling them.", "quantifier": "every number of runs, every completion order", "why_tests_cant": "Threshold behaviour for all n.", "anchors": ["esat/error/bootstrap.py:Bootstrap._train", "esat/error/bootstrap.py:Bootstrap._p_train", "rust/lib.rs:ls_nmf"]}
{"id": "C64", "title": "Parallel displacement fails beyond 127 profile cells", "statement": "In parallel displacement each task trains under model number factor*len(features)+feature+1, which the engine takes as a signed byte: the run completes if and only if all these numbers are at most 127; with all n features and k factors, if and only if k*n <= 127. The sequential run is not limited.", "quantifier": "every number of factors, every list of features", "why_tests_cant": "Tests use few factors and features.", "anchors": ["esat/error/displacement.py:Displacement._increase_disp_p", "esat/error/displacement.py:Displacement._decrease_disp_p", "rust/lib.rs:ls_nmf"]}
{"id": "C65", "title": "When a BS-DISP run completes", "statement": "On a machine with two processors or more (C137) BS-DISP completes if and only if it is not asked to run the displacements in parallel, there are between 1 and 127 bootstrap runs and every displacement model number factor*len(features)+feature+1 is at most 127; its parallel mode always raises, because the pool passes one tuple to a function of eight parameters.", "quantifier": "every setting", "why_tests_cant": "The mode is not exercised by the tests; the limits need large inputs.", "anchors": ["esat/error/bs_disp.py:BSDISP.run", "esat/error/bs_disp.py:BSDISP._parallel_disp"]}
{"id": "C66", "title": "System of equations for expressions", "statement": "For expressions whose elements are not repeated, row i of the linear system applied to a solution is expression i evaluated on the matrices after the differences are added, and the right-hand side is the plain sum of the current values of its elements; hence an exact solution makes the expression equal to that sum, and never 0 when the values are positive. A repeated element counts with its first coefficient only. Elements that no expression names are not moved. The reported evaluation is the signed sum with sample elements read at transposed position.", "quantifier": "every list of expressions, every current solution", "why_tests_cant": "All expressions and matrices.", "anchors": ["esat/rotational/constrained.py:ConstrainedModel._map_expressions", "esat/rotational/constrained.py:ConstrainedModel._apply_expressions", "esat/rotational/constrained.py:ConstrainedModel.evaluate_expressions"]}
{"id": "C67", "title": "dQ budget of expressions", "statement": "The differences of the expressions are scaled by 0.98^j for the first j <= 100 whose change of the main loss is below the summed limit; if there is none they are zero. At most 102 evaluations; NaN changes never qualify.", "quantifier": "every loss function and limit", "why_tests_cant": "All loss functions.", "anchors": ["esat/rotational/constrained.py:ConstrainedModel._apply_expressions"]}
{"id": "C68", "title": "Constrained training loop", "statement": "With at least one constraint or expression, training stops at the first iteration j >= converge_n at which the last converge_n values of Q(true)+Q(aux) are all finite and pairwise within converge_delta, or after max_iterations; converge_steps is that index, the histories have one entry per iteration, converged tells which. NaN losses never converge; a window of 0 raises. Without constraints and expressions nothing is trained. The Q(main) plot shows Q(true) values and twice as many values as iterations.", "quantifier": "every update rule, loss sequence, window, tolerance and iteration limit", "why_tests_cant": "All loss sequences.", "anchors": ["esat/rotational/constrained.py:ConstrainedModel.train", "esat/rotational/constrained.py:ConstrainedModel.plot_Q"]}
{"id": "C69", "title": "What survives a constrained iteration", "statement": "An element set to zero is exactly zero after every LS-NMF iteration; matrices stay non-negative when pull-up limits and pull-to targets are non-negative and the expression step keeps W non-negative. An element set to its base value does not keep that value. With one factor, setting a sample's contribution to zero makes the update divide by zero.", "quantifier": "every data set, registry and current solution", "why_tests_cant": "All matrices and registries.", "anchors": ["esat/rotational/constrained.py:ConstrainedModel.train", "esat/model/ls_nmf.py:LSNMF.update"]}
{"id": "C70", "title": "Q(aux)", "statement": "Q(aux) is non-negative and zero exactly when the solution equals base plus differences; when an iteration lands exactly on its target, Q(aux) is the squared distance of the previous iterate from the base solution (divided by the squared softness), so it is not 0 in general.", "quantifier": "every matrices, every non-zero softness", "why_tests_cant": "All reals.", "anchors": ["esat/rotational/constrained.py:ConstrainedModel._Qaux_loss"]}
{"id": "C71", "title": "Delta columns of the factor estimation table", "statement": "The Delta MSE of a factor count is the error of the previous count minus its own (NaN for the first); the Delta Ratio of an interior factor count is its delta over the next count's delta times 1.01 times the largest delta in the table, NaN for the first and last count; both columns have one entry per factor count.", "quantifier": "every error table with at least two entries and a non-zero next delta", "why_tests_cant": "Universal over tables.", "anchors": ["esat/estimator.py:FactorEstimator._results"]}
{"id": "C72", "title": "Merging handlers", "statement": "merge succeeds exactly for a non-empty list of handlers with as many labels, all with the same columns in the same order; otherwise nothing changes. On success the samples are those of the given handlers in order followed by the handler's own, each tagged with its label ('self' for its own), and the categories are unchanged. Afterwards requesting the processed data raises (the tag column is text), and merging another handler with the original columns is refused.", "quantifier": "every handler, list of handlers and labels", "why_tests_cant": "All histories.", "anchors": ["esat/data/datahandler.py:DataHandler.merge", "esat/data/datahandler.py:DataHandler._set_dataset"]}
{"id": "C73", "title": "Zeros are not replaced by a small positive number", "statement": "Zero data and zero uncertainties are still zero in the processed data, because the replacement value (the smallest positive double) is zero in single precision; data of magnitude below 2^-150 also become zero.", "quantifier": "every dataset, every category", "why_tests_cant": "Depends on the rounding of one constant for all cells.", "anchors": ["esat/data/datahandler.py:DataHandler._set_dataset"]}
{"id": "C74", "title": "Signal-to-noise ratio", "statement": "The reported S/N of a feature is the sum, over the samples with both value and uncertainty, of max(0,(value-uncertainty)/uncertainty), divided by the number of all samples including those with missing values.", "quantifier": "every dataset with positive uncertainties and any pattern of missing values", "why_tests_cant": "All datasets.", "anchors": ["esat/data/datahandler.py:DataHandler._load_data"]}
{"id": "C75", "title": "Detected time step of a dataset", "statement": "min_timestep gives a daily step for fewer than three samples and when the smallest difference between consecutive samples, the last difference not looked at, is one hour up to the second; otherwise it gives no value.", "quantifier": "every sequence of sample times", "why_tests_cant": "All sequences.", "anchors": ["esat/utils.py:min_timestep"]}
{"id": "C76", "title": "Model numbers in the batch plots", "statement": "The loss plot and, with a data handler, the residual plot label the model at position p of the batch p+1 and show the best model first; the loss distribution labels it p. Without a data handler the residual plot numbers models after dropping the failed ones: label and initial visibility are then right exactly when no earlier model failed, otherwise another model is shown as the best.", "quantifier": "every list of results with any pattern of failed models", "why_tests_cant": "All patterns of failures.", "anchors": ["esat/data/analysis.py:BatchAnalysis.plot_loss", "esat/data/analysis.py:BatchAnalysis.plot_loss_distribution", "esat/data/analysis.py:BatchAnalysis.plot_temporal_residuals"]}
{"id": "C77", "title": "Statistics table", "statement": "Slope and intercept are those of the unique least-squares line of predictions on observations, SE Regression is the root mean square distance of the predictions to it, r2 lies in [0,1], is the share of variance the line explains and is 1 exactly for predictions that are an affine function of the observations; a perfect model has slope 1, intercept 0, r2 1 and both errors 0. SE is 0 exactly when all residuals are equal (a constant bias is invisible); constant predictions get r2 0. The Anderson-Darling entry is the largest level at which normality is not rejected. The Shapiro and KS entries are Yes exactly for p-values of at least five per cent. The feature analysed is given by index, else by first occurrence of its name; residual rows are those exceeding the threshold many uncertainties, all for the default.", "quantifier": "every pair of series of any length with non-constant observations, every list of critical values, every list of feature names", "why_tests_cant": "Universal over series.", "anchors": ["esat/data/analysis.py:ModelAnalysis.calculate_statistics", "esat/data/analysis.py:ModelAnalysis.plot_estimated_observed", "esat/data/analysis.py:ModelAnalysis.plot_residual_histogram"]}
{"id": "C78", "title": "Contribution curves of the simulator", "statement": "update_contribution succeeds exactly when the factor index exists (negative counts from the end), the scale is not negative and the curve can be drawn: always for increasing, decreasing and uniform, for a frequency in (0,1] for logistic, and for periodic when enough points per period remain. It replaces one column by curve plus scaled noise with non-positive values replaced by 1e-12, changes nothing else, and in particular does not regenerate data (contrary to its documentation). All curves but the uniform one stay between minimum and maximum (given in either order); the uniform one ignores the minimum. The increasing curve rises from minimum to maximum in equal steps, decreasing is its mirror image and the periodic curve touches the minimum.", "quantifier": "every number of samples, frequency, bounds, scale and random stream", "why_tests_cant": "Infinite parameter space; success depends on integer arithmetic.", "anchors": ["eval/simulator.py:Simulator.update_contribution"]}
{"id": "C79", "title": "Profiles, time steps and comparison plot of the simulator", "statement": "Profiles are positive in all cases; random ones are below one, with between one and all-but-one contributing factor for every feature; a simulator with one factor cannot be created. A custom matrix of the right shape is used as given (non-positive cells become 1e-12), fewer rows replace the first rows, one column is repeated, any other shape raises. There is exactly one time step per sample, one minute apart, the last in the minute before midnight, for every time of day. The comparison plots treat model index 0 as not given.", "quantifier": "every size, random stream, custom matrix and clock reading", "why_tests_cant": "All sizes, draws and times.", "anchors": ["eval/simulator.py:Simulator.generate_profiles", "eval/simulator.py:Simulator.__init__", "eval/simulator.py:Simulator.plot_comparison"]}
{"id": "C80", "title": "Factor mapping of perturbed models", "statement": "The reported mapping goes from the perturbed model's factors to the base model's: entry c is the base factor with the best value for perturbed factor c. It is used in the other direction: for a model with the base model's factors in another order (factor s(j) is base factor j), mapping is the inverse of s, the reported values are the errors of factor j with factor s^-1(j), and they are all zero exactly when s is its own inverse; the normalised profiles put beside the base factors are those of base factor s^-1(s^-1(j)); a rotation of three identical factors reports non-zero errors. When two factors prefer the same base factor the mapping returned is not one-to-one, the optimal matching that is computed does not change it, and no value reported is a plain number (-1 from the third factor on). The mass-based comparison is the squared correlation of the profiles; contributions play no role while the first factor contributes, and it is NaN when it does not or the profiles are all zero. If a value for a perturbed factor is NaN, the first base factor with NaN is chosen. With the method corr a model whose factors are the base model's in another order and with other scales is mapped by the inverse of that order, with correlation 1 for each pair, as long as no base contribution is constant or an affine image of another.", "quantifier": "every number of factors, every pair of models, every permutation", "why_tests_cant": "Needs all permutations; symmetric test data hide the direction.", "anchors": ["eval/factor_comparison.py:FactorCompareV2.determine_map", "eval/factor_comparison.py:FactorCompareV2.calculate_correlation_matrix", "eval/perturbation.py:Perturbation.compare"]}
{"id": "C81", "title": "PMF5 output cannot be loaded", "statement": "load_pmf_output never returns a comparison: a missing file gives None, and for all existing files it raises (KeyError for well-formed ones, because the species name column is treated as a factor; ValueError if a value under a factor in the lines read is no number), unless a contribution column is called species.", "quantifier": "every file content", "why_tests_cant": "All files.", "anchors": ["eval/factor_comparison.py:FactorCompare.load_pmf_output"]}
{"id": "C82", "title": "Catalog look-ups", "statement": "With the default method and profile_only, correlations are treated as errors: a factor with the same profile as the only entry starts a new entry, an uncorrelated one joins it. compare_factor looks for the largest positive value for every method, so with the default method it reports the entry with the largest mean error and a catalog compared with its own only entry finds nothing. check_matrix reports the first entry with the largest positive mean squared correlation, or none.", "quantifier": "every catalog, factor, threshold and method", "why_tests_cant": "All catalogs and factors.", "anchors": ["eval/factor_catalog.py:FactorCatalog.add_factor", "eval/factor_catalog.py:FactorCatalog.compare_factor", "eval/factor_catalog.py:FactorCatalog.check_matrix"]}
{"id": "C83", "title": "What the JSON files keep", "statement": "Data saved to JSON come back the same (numpy scalars as plain numbers) exactly when they contain no array or other object; each such part is silently replaced by null, against the encoder's documentation. So the results file of a bootstrap keeps row numbers and mappings of every run but no model: files written for different models are identical.", "quantifier": "every value, every list of bootstrap runs", "why_tests_cant": "All nested values.", "anchors": ["esat/utils.py:np_encoder", "esat/error/bootstrap.py:Bootstrap.save"]}
{"id": "C84", "title": "Signs in floating point", "statement": "LS-NMF in IEEE arithmetic, for any order of summation and with or without fused operations: from non-negative data, weights and starting factors every factor entry and every reported loss is a number with clear sign bit or NaN; the weights computed from the uncertainties always qualify. An entry that starts at zero is zero or NaN at the end. Positive finite inputs do not guarantee positive factors: an underflow can make them NaN in the first iteration.", "quantifier": "every format, size, matrix, evaluation order, number of iterations", "why_tests_cant": "All floating-point inputs and summation orders.", "anchors": ["rust/lib.rs:ls_nmf_update_cpu", "rust/lib.rs:calculate_q_cpu", "esat/model/ls_nmf.py:LSNMF.update", "esat/model/sa.py:SA.train"]}
{"id": "C85", "title": "NaN is permanent", "statement": "Once an entry of W or H is NaN, the compiled run continues to max_iter, never reports convergence, all further losses are NaN and the factors returned contain NaN; the Python engine stops at that iteration at the latest. A sample whose weights are all zero makes its row of W NaN in the first iteration, so every loss of the run is NaN (the Python engine stops after that one iteration); likewise a feature, unless profiles are held. In single precision an uncertainty of 2^64 or more has weight exactly zero.", "quantifier": "every format, size, matrix, evaluation order, iteration", "why_tests_cant": "All inputs and all evaluation orders.", "anchors": ["rust/lib.rs:ls_nmf_update_cpu", "rust/lib.rs:calculate_q_cpu", "esat/model/ls_nmf.py:LSNMF.update", "esat/model/sa.py:SA.train", "esat/model/sa.py:SA.__init__"]}
{"id": "C86", "title": "Convergence tolerance below the float spacing", "statement": "In arithmetic with prec bits, if the tolerance is at most 2^e and all losses are at least 2^(e+prec-1), a run is reported converged exactly when some loss (Python engine: leaving out the first) is not smaller than the loss a window earlier, whatever the tolerance. In the compiled engine with the default tolerance 0.1 this is the case for losses from 1048576 upwards.", "quantifier": "every update, loss sequence, window and tolerance", "why_tests_cant": "All loss sequences.", "anchors": ["rust/lib.rs:ls_nmf_update_cpu", "rust/lib.rs:calculate_q_cpu", "esat/model/ls_nmf.py:LSNMF.update", "esat/model/sa.py:SA.train"]}
{"id": "C87", "title": "Every run converges or meets NaN", "statement": "For LS-NMF, WS-NMF or any replacement update in floating point, with a finite first loss and a positive tolerance: the run is reported converged within K windows of iterations, K the number of half tolerances in the first loss (Python engine: the second loss, one iteration more), or a NaN loss appears by then. No property of the update is needed.", "quantifier": "every update, size, matrix, evaluation order of the loss, window and tolerance", "why_tests_cant": "Unbounded runs.", "anchors": ["rust/lib.rs:ls_nmf_update_cpu", "rust/lib.rs:calculate_q_cpu", "esat/model/ls_nmf.py:LSNMF.update", "esat/model/sa.py:SA.train"]}
{"id": "C88", "title": "Accuracy of the reported loss", "statement": "Non-negative numbers added in floating point in any order give a result within (1-2^-prec)^(N-1) and (1+2^-prec)^(N-1) times the exact sum, and do not overflow if the upper bound is representable; so the loss reported by any engine is that close to the sum of the squared scaled residuals it computed. The loss of LS-NMF can rise from one iteration to the next in single precision.", "quantifier": "every list, every order, every engine", "why_tests_cant": "All inputs and summation orders.", "anchors": ["rust/lib.rs:ls_nmf_update_cpu", "rust/lib.rs:calculate_q_cpu", "esat/model/ls_nmf.py:LSNMF.update", "esat/model/sa.py:SA.train"]}
{"id": "C89", "title": "Training on a CUDA device never succeeds", "statement": "When a CUDA device is present and use_gpu is on (the default of SA), every call of train with at least one iteration, for either method and any input, returns False and leaves the model exactly as it was; a batch of such models returns False with no results. The LS-NMF update fails by its shapes unless samples, features and factors are equally many, the WS-NMF update whenever H is updated, and the loss always fails; where they succeed, the LS-NMF update of matrices in the right orientation is that of the CPU, and the WS-NMF update applies the multiplicative rule of LS-NMF to W, not the least-squares step. Without a device, or with use_gpu off, train succeeds whenever the CPU engine does and holds its result.", "quantifier": "every method, size, matrix, option, batch size and completion order", "why_tests_cant": "Needs a CUDA device; all shapes.", "anchors": ["rust/lib.rs:ls_nmf", "rust/lib.rs:ws_nmf", "rust/lib.rs:ls_nmf_update_gpu", "rust/lib.rs:ws_nmf_update_gpu", "rust/lib.rs:calculate_q_gpu", "esat/model/sa.py:SA.train", "esat/model/batch_sa.py:BatchSA.train"]}
{"id": "C90", "title": "A GPU run of no iterations", "statement": "With max_iter <= 0 on a CUDA device train reports success, not converged, zero steps and an empty loss history. LS-NMF returns the same W and H; WS-NMF returns arrays of the same shape whose entry (i,j) is the entry of the row-major memory at column-major position (i,j), so with two rows and columns W and H change although nothing was trained.", "quantifier": "every size and matrix", "why_tests_cant": "Needs a CUDA device; all shapes.", "anchors": ["rust/lib.rs:ls_nmf", "rust/lib.rs:ws_nmf", "rust/lib.rs:ls_nmf_update_gpu", "rust/lib.rs:ws_nmf_update_gpu", "rust/lib.rs:calculate_q_gpu", "esat/model/sa.py:SA.train", "esat/model/batch_sa.py:BatchSA.train"]}
{"id": "C91", "title": "What a command line run leaves behind", "statement": "esat run on a project whose configured directory is the absolute project directory ends normally whenever data and training do, leaves the pickled batch and the tables of every successful model in its output directory, touches nothing else, and every later analysis command gets exactly the model of the trained batch it asks for. When the configured directory is relative (setup records it as typed), the run trains everything, ends normally and saves nothing: no later command finds a model. When configured and given directory differ, the analysis commands find the solution and run-error and run-constrained fail.", "quantifier": "every project directory, configuration, file system and training result", "why_tests_cant": "Needs sequences of commands over a file system and configurations no test fixes.", "anchors": ["esat/cli/esat_cli.py:run", "esat/cli/esat_cli.py:setup", "esat/cli/esat_cli.py:get_batchsa", "esat/cli/esat_cli.py:get_model_analysis", "esat/model/batch_sa.py:BatchSA.save"]}
{"id": "C92", "title": "How configuration text is understood", "statement": "Normalised initialisation and the simulator's outliers are on for every non-empty text, False included; parallel and verbose are on exactly for the word true in any capitalisation. A missing data file ends the program; the extension after the last dot is matched exactly; an index column is looked up by name, so the default 0 fails unless both files have a column named 0. Data that cannot be opened end the run before anything is trained or written.", "quantifier": "every text, configuration and pair of files", "why_tests_cant": "Quantifies over all texts.", "anchors": ["esat/cli/esat_cli.py:run", "esat/cli/esat_cli.py:get_config", "esat/model/batch_sa.py:BatchSA.__init__", "esat/configs.py", "esat/data/datahandler.py:DataHandler._read_data", "eval/simulator.py:Simulator"]}
{"id": "C93", "title": "Which error results the command line shows", "statement": "The error analysis commands only end with a notice unless all three methods are selected; then they show the saved displacement. After no sequence of commands and edits of data and configuration files do they show a bootstrap or a bootstrap-displacement.", "quantifier": "every command sequence, configuration, flag combination and initial file system", "why_tests_cant": "All command sequences.", "anchors": ["esat/cli/esat_cli.py:error_summary", "esat/cli/esat_cli.py:error_results", "esat/cli/esat_cli.py:get_error_model"]}
{"id": "C94", "title": "What run-error runs", "statement": "Without a flag nothing happens. Displacement and bootstrap use the selected model (-1: the best), the configured features (none: all), and the optimal block and the model's seed where -1 is configured; the results can be loaded again, their tables are written, nothing outside the error directory changes. Bootstrap-displacement fails without --bs unless a bootstrap file is configured, always fails when parallel is true, uses the bootstrap of the bs section (its own run number, block and seed have no effect) and the features of the disp section. A configured bootstrap file that is missing or relative is silently replaced by a new bootstrap. With a constrained configuration no command sequence makes run-error succeed.", "quantifier": "every project, configuration, flag combination and command sequence", "why_tests_cant": "All configurations and command sequences.", "anchors": ["esat/cli/esat_cli.py:run_error", "esat/error/bs_disp.py:BSDISP.__init__"]}
{"id": "C95", "title": "What run-constrained applies, and that it cannot be analysed", "statement": "Exactly the constraints whose index is not [-1, -1] and lies within range are applied, the first for each cell, and exactly the expressions containing none of factor:-1, feature:-1, sample:-1 (so factor:-10 is left out too). Iteration and convergence settings that are not given are the batch's. A completed run leaves the pickled solution, not the constrained model, and every analysis-constrained command then fails; no command sequence makes one succeed.", "quantifier": "every configuration, model size and command sequence", "why_tests_cant": "All configurations and command sequences.", "anchors": ["esat/cli/esat_cli.py:run_constrained", "esat/cli/esat_cli.py:get_constrained_model", "esat/rotational/constrained.py:ConstrainedModel.add_constraint"]}
{"id": "C96", "title": "Simulator configuration, model and factor numbers", "statement": "In an absolute directory the simulator configuration counts once: afterwards the saved simulator is used whatever the configuration says, and a run trains on it, not on the configured data files. A model number of -1 is the best model, others count from 0 and negative ones from the end. Factors are numbered from 1, so the default 0 of the profile, g-space and surface commands shows nothing; analysis-input plot-timeseries always fails.", "quantifier": "every file system, configuration, batch and number", "why_tests_cant": "All states and numbers.", "anchors": ["esat/cli/esat_cli.py:get_sim", "esat/cli/esat_cli.py:get_model_analysis", "esat/cli/esat_cli.py:solution_factor_profile", "esat/cli/esat_cli.py:solution_g_space", "esat/cli/esat_cli.py:solution_factor_surface"]}
{"id": "C97", "title": "Only matching data and uncertainties are loaded", "statement": "A loaded handler holds exactly the labels that have a non-empty row in both files, in file order, each position pairing the two rows of one label. Loading succeeds exactly when the columns are the same in the same order, every row without a partner is empty, and the complete rows come in the same order in both files (and at least one exists); otherwise it raises. Rows and columns are not matched by name. Files with the same labels are loaded position by position.", "quantifier": "every pair of labelled files without text and any labels, for each behaviour of pandas on labels of one file only", "why_tests_cant": "All files, labels and orders.", "anchors": ["esat/data/datahandler.py:DataHandler._load_data"]}
{"id": "C98", "title": "Plotting data of many samples", "statement": "Up to max_plotting_n samples the plots show the data, otherwise and for handlers made from frames no data plot shows anything. With more samples the constructor raises exactly when some column has no known value or the same value just below position k(c-1)/N and just above (k+1)(c-1)/N of its c sorted known values: never for distinct values, always when a value occurs 1 + 2(c-1)/N times (4 times among 15000 with the default 10000). A time series index is reduced modulo the number of rows, so -1 raises and with few rows another feature is shown. The plot of estimated against observed values fails once rows have been dropped.", "quantifier": "every data set, bin number, selection and number of rows", "why_tests_cant": "All data sets; the failures depend on order statistics.", "anchors": ["esat/data/datahandler.py:DataHandler._aggregate_data", "esat/data/datahandler.py:DataHandler.load_dataframe", "esat/data/datahandler.py:DataHandler.plot_data_uncertainty", "esat/data/datahandler.py:DataHandler.plot_feature_data", "esat/data/datahandler.py:DataHandler.plot_feature_timeseries", "esat/data/analysis.py:ModelAnalysis.plot_estimated_observed"]}
{"id": "C99", "title": "Bootstrap distributions go by factor number, not by mapping", "statement": "The box plots of factor f hold, run by run, the values of each run's own factor number f, whatever base factor it was mapped to: the percentage to two decimals, the contribution to the nearest 0.0001 of the data's unit and never below it (all contributions under 0.00015 look alike). When a run finds the factors in another order the mapping follows them and the boxes do not. A factor outside 1..k gives a message; without runs the plots raise.", "quantifier": "every base model, list of runs, factor number and relabelling", "why_tests_cant": "All runs and orders of factors.", "anchors": ["esat/error/bootstrap.py:Bootstrap._calculate_factors", "esat/error/bootstrap.py:Bootstrap._factor_statistics", "esat/error/bootstrap.py:Bootstrap.plot_factor", "esat/error/bootstrap.py:Bootstrap.plot_contribution"]}
{"id": "C100", "title": "Error bars contain the base model", "statement": "The displacement plots of a valid factor and any dQ show one bar per feature, in order; the marker is the base model's share or contribution and lies inside its bar, whose ends are what the two searches stored for the dQ shown; features left out have bars without height; the shares of a feature add up to 100 over the factors. BS-DISP bars cover the first stored run and runs 1..n-1; the profile marker is the first stored run, not an average. An invalid dQ shows dQ 4 for DISP and 0.5 for BS-DISP's plot_results, but 4 in its two plots. The summary shows the methods given in order at dQ 4 for both, the markers of the last method's base model, nothing for BS-DISP alone, and raises when an earlier method lacks the factor or has no runs; the base model need not lie in its bootstrap bar.", "quantifier": "every model, search outcome, feature selection, order of runs, factor and dQ", "why_tests_cant": "All models and search results.", "anchors": ["esat/error/displacement.py:Displacement._compile_results", "esat/error/displacement.py:Displacement.plot_results", "esat/error/displacement.py:Displacement.plot_profile", "esat/error/displacement.py:Displacement.plot_contribution", "esat/error/bs_disp.py:BSDISP.plot_results", "esat/error/bs_disp.py:BSDISP.plot_profile", "esat/error/bs_disp.py:BSDISP.plot_contribution", "esat/error/error.py:Error.plot_summary"]}
{"id": "C101", "title": "What is logged as the largest dQ decrease", "statement": "The number logged is minus the largest increase of Q over all displaced cells, targets and directions, and 0 if Q never increased: it is never positive, and a refit that lowered Q leaves no trace. For BS-DISP the same holds over the first stored run and runs 1..n-1, and the number of Q drops counts those of runs 1..n-1 in which some refit raised Q.", "quantifier": "every table of refitted Q values, feature selection and order of runs", "why_tests_cant": "All outcomes of the refits.", "anchors": ["esat/error/displacement.py:Displacement.summary", "esat/error/displacement.py:Displacement._compile_results", "esat/error/bs_disp.py:BSDISP.summary"]}
{"id": "C102", "title": "What training does to Q(robust)", "statement": "LS-NMF training lowers Q(true); models are compared by Q(robust). After any number of iterations Q(robust) is at most the Q(true) of the start, and has not grown if no starting residual exceeded the cut-off of robust_alpha uncertainties. In general Q(robust) can grow: one outlier can pull the fit away from all other data.", "quantifier": "every data set with non-negative values and positive uncertainties, starting point, cut-off, hold pattern and number of iterations", "why_tests_cant": "All data, starts and iteration counts; a test sees a few runs.", "anchors": ["rust/lib.rs:ls_nmf_update_cpu", "esat/model/sa.py:SA.train"]}
{"id": "C103", "title": "What a stalled run has reached", "statement": "If an LS-NMF iteration leaves Q(true) unchanged and all entries are positive, then no other contributions fit better with these profiles and (unless held) no other profiles fit better with these contributions, not even with negative entries. It need not be the best factorization, and with a zero entry not even one of the blocks need be optimal. Two factors that start alike stay alike in every iteration.", "quantifier": "every data set, uncertainties, state and alternative matrices", "why_tests_cant": "The claim ranges over all competing matrices.", "anchors": ["rust/lib.rs:ls_nmf_update_cpu", "esat/model/ls_nmf.py:LSNMF.update"]}
{"id": "C104", "title": "Converged means the fit has settled", "statement": "Over any N LS-NMF iterations the summed squared change of the fitted values, in units of their uncertainties, is at most 2N times the drop of Q(true). If a run reports convergence, then over its last converge_n - 1 iterations Q(true) dropped by less than converge_delta and the fit moved by at most 2 (converge_n - 1) converge_delta. No fitted value is ever further from its datum than sqrt(starting Q(true)) uncertainties.", "quantifier": "every data set, start, hold pattern, convergence setting and number of iterations", "why_tests_cant": "All runs; relates the stopping rule to the result over all states.", "anchors": ["rust/lib.rs:ls_nmf_update_cpu", "esat/model/sa.py:SA.train"]}
{"id": "C105", "title": "What the factor plots show", "statement": "plot_factor_profile with a factor number from 1 to the number of factors shows that factor's share of each feature's total in percent, the mass of each feature it accounts for, and its contributions relative to their mean; any other number shows nothing. plot_all_factors shows the same for every factor, in order; the fingerprints, G-space, contribution, composition and surface plots show the values of the factors asked for and nothing for numbers out of range. All plots with the model number in their title raise TypeError if the analysis was made without one (the default). Contribution curves are described as they are before pandas averages them over time steps, for data for which that succeeds at all (C130). Deviations: plot_all_factors counts its factor_list from 0, plot_all_factors_3d(plot_type='both') always raises IndexError, and plot_factor_surface ignores a feature unless factor_idx=None is given.", "quantifier": "every trained solution, factor and feature number, list of factors, substitute matrices and threshold", "why_tests_cant": "All solutions and arguments; the tests of the plots only check that nothing is raised.", "anchors": ["esat/data/analysis.py:ModelAnalysis.plot_factor_profile", "esat/data/analysis.py:ModelAnalysis.plot_all_factors", "esat/data/analysis.py:ModelAnalysis.plot_all_factors_3d", "esat/data/analysis.py:ModelAnalysis.plot_factor_surface"]}
{"id": "C106", "title": "Estimates in the plots are those of the first plot", "statement": "plot_estimated_observed shows the observations and the estimates, with the line that fits them best of all lines (least squares) and a one-to-one line through every observation; plot_estimated_timeseries, where it succeeds (C130), shows for each time step the means of both and the mean residual. In both, the estimates are those of the model at the first of these plots drawn on the analysis object: a model put in or trained again later is not shown.", "quantifier": "every sequence of plots and model changes on one analysis object, all data and features", "why_tests_cant": "Ranges over all histories of an analysis object and over all competing lines.", "anchors": ["esat/data/analysis.py:ModelAnalysis.plot_estimated_observed", "esat/data/analysis.py:ModelAnalysis.plot_estimated_timeseries"]}
{"id": "C107", "title": "A solution is never unique", "statement": "Neither Q(true) nor Q(robust) changes when contributions are multiplied by an invertible matrix and profiles by its inverse. For every solution with positive entries and any two factors with different profiles there is a whole interval of other positive solutions with the same fit, whose profiles of one factor are pairwise not proportional. If LS-NMF has stalled at a positive solution, it is stalled at each of its positive rotations: started there, any number of iterations changes nothing.", "quantifier": "every data set, positive solution, pair of factors and invertible matrix", "why_tests_cant": "Ranges over a continuum of solutions.", "anchors": ["esat/metrics.py:q_loss", "rust/lib.rs:ls_nmf_update_cpu"]}
{"id": "C108", "title": "Percentages of features depend on the scale of the starting matrices", "statement": "Measuring a factor in another unit (contributions times c, profile divided by c) leaves every product, loss, mass bar and normalised contribution as it is, and LS-NMF training carries the unit through unchanged. The '% of Features' of the profile, fingerprint, pie and composition plots is computed from the profiles alone and does depend on it: for every positive result, factor, feature and number between 0 and 100 there is a start with the same products from which the same training gives the same fit with exactly that percentage. It is not the factor's share of the feature's mass.", "quantifier": "every data set, start, number of iterations, factor, feature and percentage", "why_tests_cant": "Ranges over all rescalings of all starts and over all runs.", "anchors": ["esat/data/analysis.py:ModelAnalysis.plot_factor_profile", "esat/data/analysis.py:ModelAnalysis.plot_factor_contributions", "rust/lib.rs:ls_nmf_update_cpu"]}
{"id": "C109", "title": "A default run from start to end", "statement": "For non-negative data with no all-zero sample or feature, stored by columns (as pandas gives it), SA(V, U, factors).train() with the compiled LS-NMF engine and default initialisation runs whatever the random draws and the uncertainties: all contributions and profiles are positive; WH is their product; the reported Q(true) is the misfit of exactly these matrices to the user's data with uncertainties raised to at least 1e-12, is the last entry of the loss history, and is at most the misfit of the starting matrices; the history never rises; 0 <= Q(robust) <= Q(true); the history has one entry per iteration, converge_steps is one less, and a run that did not converge used all iterations; with Q(start) < K * converge_delta and more than K * (converge_n - 1) iterations it converges.", "quantifier": "every data set, uncertainties, draws, settings and progress timing", "why_tests_cant": "Composes validation, initialisation, memory transfer and an unbounded loop over all inputs.", "anchors": ["esat/model/sa.py:SA.__init__", "esat/model/sa.py:SA.initialize", "esat/model/sa.py:SA.train", "rust/lib.rs:ls_nmf"]}
{"id": "C110", "title": "History and reported losses for data stored by rows", "statement": "For data in any memory order and starting matrices given by the caller, the compiled run trains on the arrays as re-read column by column (data) and row by row (factors): its history is their loss and decides convergence, while the reported Q(true), Q(robust) and WH are computed from the user's own data and the returned matrices. For row-major data (any plain numpy array) the reported Q(true) therefore need not be the last entry of the history, and training can turn a perfect solution into a wrong one. Without the compiled module (Python engine) an LS-NMF run iterates on the caller's own values however they are stored, its history is their loss, and it stops with NaN exactly when an iteration divides by zero.", "quantifier": "every data set, memory order, starting matrices and settings", "why_tests_cant": "Ranges over all arrays, memory orders and run lengths.", "anchors": ["esat/model/sa.py:SA.train", "rust/lib.rs:ls_nmf"]}
{"id": "C111", "title": "Calling train again", "statement": "A second call of train on a trained model (compiled engine) starts from the contributions and profiles it returned, re-read row by row from their column-major memory: start entry (a,j) of the profiles is entry ((a*n+j) mod k, (a*n+j) div k) of the trained ones. With hold_h the profiles come back rearranged in this way, so a perfect model can lose its fit.", "quantifier": "every trained model, settings of both calls and number of iterations", "why_tests_cant": "Ranges over all models and over sequences of runs.", "anchors": ["esat/model/sa.py:SA.train", "rust/lib.rs:ls_nmf"]}
{"id": "C112", "title": "How the text of an expression is understood", "statement": "An expression written as documented, (c*[factor:F|feature:E]) terms with one character between the parentheses, =, anything, a comma and a dQ limit, is read as exactly these terms in order: factor F and element E are read as integers in decimal with an optional sign, the coefficient as a float, negated if and only if the character before the parenthesis is a minus sign and the term is not the first. What stands before the first and after the last parenthesis, the right-hand side, and everything after the dQ limit have no effect. More than one character between two terms (such as spaces around the sign) raises IndexError, and so does a text without an equals sign or without a comma after it; a left-hand side without parentheses is silently read as having no terms. The texts read as whole numbers are exactly: blanks, a sign or none, decimal digits with single underscores between them, blanks. All occurrences of one label share one unknown with its coefficients in order; with one spelling per element this is the system solved in training, while two spellings of the same element (feature:2 and feature:02) become two unknowns.", "quantifier": "every text, every number of terms and expressions, and every float reader", "why_tests_cant": "Ranges over all texts.", "anchors": ["esat/rotational/constrained.py:ConstrainedModel._map_expressions", "esat/rotational/constrained.py:ConstrainedModel.add_expression"]}
{"id": "C113", "title": "What a constrained model keeps and tabulates", "statement": "Over every history of adding and removing constraints and expressions and calling train: every text is accepted as an expression, removal is by position and ignores positions outside the list; the parsed expressions are those present at the latest call of train that could read them, and the solution is that of the latest call that completed (failed calls and later changes of the lists leave them). The constraint table has one row per constraint present now, in the order added, with base and solution value to four decimals, its target and dQ; it raises without a solution or if a sample constraint's second index is not that of a factor. The expression table has one row per expression parsed, with coefficients and values in both solutions if no element is repeated, and lists every element once; it raises TypeError before any parse, ValueError without expressions and AttributeError without a solution, and IndexError with one if an element lies outside the matrices. So constraints added after training are tabulated though they played no part, removed expressions remain, and after a failed training the expressions are not those of the solution shown.", "quantifier": "every history of operations, data, text and solution", "why_tests_cant": "Ranges over all histories.", "anchors": ["esat/rotational/constrained.py:ConstrainedModel.add_expression", "esat/rotational/constrained.py:ConstrainedModel.remove_expression", "esat/rotational/constrained.py:ConstrainedModel.train", "esat/rotational/constrained.py:ConstrainedModel.evaluate_constraints", "esat/rotational/constrained.py:ConstrainedModel.evaluate_expressions"]}
{"id": "C114", "title": "Plots of a constrained model", "statement": "With a solution, the profile plot of factor f (from 1) shows for base and constrained solution each feature's share in per cent to two decimals, its concentration, and contributions with average 1; an invalid number draws nothing, but the two plots called by themselves count 0 and below from the last factor. Elements of expressions are never highlighted. Fingerprints stack all factors to 100 for every feature, and raise for more than ten factors. The G-space plot puts the first factor on the abscissa and the second on the ordinate, as shares of the total (not with average 1 as titled), and titles each axis with the other factor's number; changes lead from base to constrained point; a missing factor number raises TypeError. The pie of a feature has exactly the factors above the threshold. Curves over time are described before pandas averages them over time steps, for data for which that succeeds (C130). Without a completed training every plot raises.", "quantifier": "every solution, factor number, feature and threshold", "why_tests_cant": "Ranges over all solutions and arguments.", "anchors": ["esat/rotational/constrained.py:ConstrainedModel.plot_profile_contributions", "esat/rotational/constrained.py:ConstrainedModel.plot_profile", "esat/rotational/constrained.py:ConstrainedModel.plot_contributions", "esat/rotational/constrained.py:ConstrainedModel.plot_factor_fingerprints", "esat/rotational/constrained.py:ConstrainedModel.plot_g_space", "esat/rotational/constrained.py:ConstrainedModel.plot_factor_contributions"]}
{"id": "C115", "title": "How far LS-NMF in floating point is from exact LS-NMF", "statement": "For data, weights and factors without negative, infinite or NaN entries, and as long as the exact products, sums and quotients of an iteration are zero or well inside the normal range of the format, an LS-NMF update computed in IEEE arithmetic in any order of summation, with or without fused operations, gives finite non-negative entries, each within a relative error of 2(2m+k+4) rounding units (profiles) or 2(2n+k+4) (contributions) of the exact multiplicative update of the same factors (m samples, n features, k factors; unit 2^-24 in binary32). Hence the root of Q(true) plus the weighted norm of the data grows at most by the factor 1+2(2m+2n+2k+8) units per iteration, over a whole run of either engine including held profiles and early stopping: rounding cannot make a fit worse by more than this.", "quantifier": "every format, size, data, weights, starting factors, evaluation order, number of iterations and stopping rule", "why_tests_cant": "Ranges over all inputs, all evaluation orders and unbounded numbers of iterations; a test sees one order on one machine.", "anchors": ["esat/model/ls_nmf.py:LSNMF.update", "esat/model/sa.py:SA.train", "rust/lib.rs:ls_nmf_update_cpu"]}
{"id": "C116", "title": "Whole WS-NMF runs", "statement": "When ws-nmf is asked for, or ls-nmf is asked for and some value is negative, training with the compiled module runs WS-NMF iterations on the arrays as they are re-read from memory, stops at the first iteration that meets the criterion, records their losses, and reports Q(true) and Q(robust) of the user's own data for the matrices it returns. The starting contributions, and their memory order, have no influence on anything reported after one or more iterations. With the profiles held throughout (data stored by columns) the profiles come back unchanged, the contributions minimise Q over all real matrices, every entry of the history is that minimum, and the run ends after max(1, converge_n) iterations if converge_delta > 0 and after max_iter otherwise. On non-negative data stored by columns a default ws-nmf run never produces NaN: profiles stay positive, the reported Q is the last entry of the history. With the default start training is refused (for either method) exactly when a feature or a sample has a negative total, so not all data with negative values can be trained that way. Without the compiled module every run that needs ws-nmf and has an iteration to do ends in a TypeError, because WSNMF.update does not accept hold_h.", "quantifier": "every size, data, uncertainties, starting matrices, memory orders, settings, random draws, and every inverse routine", "why_tests_cant": "Relates the constructor's choice of engine, the starting matrices, memory layout, loop and reported values for all inputs and unbounded runs.", "anchors": ["esat/model/sa.py:SA.__init__", "esat/model/sa.py:SA.initialize", "esat/model/sa.py:SA.train", "esat/model/ws_nmf.py:WSNMF.update", "rust/lib.rs:ws_nmf_update_cpu"]}
{"id": "C117", "title": "Progress reports of a parallel batch", "statement": "With a progress callback, parallel batch training lets each process put its reports in a queue that a thread empties while the models train. For every order in which processes and threads take their steps: when train returns with success and the callback does not raise, the callback has been called with every report of every model, each once and in the model's order, with nothing else, and is not called afterwards; these are the calls of sequential mode in some order; each model's last report and only that one says completed and carries its final iteration and loss. At any earlier moment, and whatever fails, the callback has seen a beginning of each model's reports. train always returns, and its success does not depend on the callback, on the number of processes or on the order of events. Three things differ from sequential mode: once the callback raises it is not called again although train still succeeds; when one model raises, reports of finished models can be lost, where sequential mode shows everything up to and including the reports of the model that raised; and a callback that cannot be pickled makes the batch fail without any report.", "quantifier": "every number of models and processes, all reports, all failing models, all callbacks and every interleaving of processes, listener thread and main thread", "why_tests_cant": "Tests see a few schedules; the claim is about all interleavings of processes and threads.", "anchors": ["esat/model/batch_sa.py:BatchSA.train", "esat/model/batch_sa.py:_train_task", "esat/model/batch_sa.py:_progress_listener", "rust/lib.rs:ls_nmf_update_cpu"]}
{"id": "C118", "title": "The robust loss in floating point", "statement": "In IEEE arithmetic of any format, for positive finite uncertainties, a positive robust_alpha and finite residuals: (1) the Python engine's Q(robust), added up in whatever order Q(true) is, is at most Q(true) without any rounding slack and is not NaN, and is the same number bit for bit when no scaled residual exceeds robust_alpha; (2) both engines use the same robust residuals, none above the plain scaled residual, the 1e-12 floor of the Python engine never acts on a cell that counts, and no updated uncertainty is below the original; (3) barring underflow and overflow Q(robust) of either engine is within 2(mn+11) units of rounding (relative) of the sum over cells of x^2 for |x| <= robust_alpha and robust_alpha*|x| beyond, x being the computed residual over its uncertainty; (4) the compiled engine adds up the two losses in different orders, so there Q(robust) can exceed Q(true) by rounding errors of summation, but no more. An outlier whose scaled residual overflows counts nothing in Q(robust), and an infinite residual makes Q(robust) NaN.", "quantifier": "every format, all matrices, all sizes, every robust_alpha and every order of summation", "why_tests_cant": "Tests compare a few numbers with a tolerance; the claim is about every rounding and every order of summation.", "anchors": ["esat/metrics.py:qr_loss", "esat/metrics.py:q_loss", "rust/lib.rs:calculate_q_robust_cpu", "rust/lib.rs:matrix_merge", "rust/lib.rs:calculate_q_cpu"]}
{"id": "C119", "title": "Imputing missing values", "statement": "No DataImputer can be created: with scikit-learn installed the constructor raises NameError (the imports bind only the names they list, not sklearn), without it ImportError. For an object made in another way, impute refuses an unknown strategy with ValueError before anything else and returns nothing without a handler; with any missing_value other than None, NaN by default included, every strategy ends in AttributeError; with missing_value=None it succeeds exactly when every column of data and uncertainties has a value (ValueError otherwise), keeps every given value, and marks exactly the cells missing in either table; the strategy mean puts the mean of the given values of the column, data and uncertainties separately, so between the smallest and the largest.", "quantifier": "both states of the scikit-learn installation, all tables of all sizes, all strategies and missing values, any values put in by the other strategies", "why_tests_cant": "The tests of the imputer need scikit-learn and fail in the constructor or are skipped; they cannot show that no argument makes it work.", "anchors": ["esat/data/impute.py:DataImputer", "esat/data/impute.py:DataImputer.impute"]}
{"id": "C120", "title": "Comparison with a PMF5 solution", "statement": "CompareAnalyzer: (1) the fingerprints have a bar per factor, last factor first, showing the factor's share in percent of the total of every feature, PMF by its own numbers, LS-NMF and WS-NMF by the mapping; the stacks reach 100 % for every solution exactly when the mapping lists every factor once; a feature whose total is zero has no numbers. (2) The pies show the named feature, or the one at feature_i counted round and round, sliced by each solution's own factor numbers: the mapping has no effect, so one label means different factors. A plain list of feature names raises KeyError, only an array works. (3) Factor profiles can be drawn for at most six factors. (4) The curves of a factor are its parts of the feature and add up to the whole reconstruction over a mapping that lists every factor once; they are named after the PMF rows for all solutions. (5) The reconstruction plot shows daily means; a name that is not a feature falls back to feature_i as a Python index and raises IndexError outside the list. (6) The residual table gives smallest, mean and largest difference of rows with equal time stamps and counts those at least as large as the threshold, although it is headed as larger.", "quantifier": "all solutions, numbers of factors, features and samples, all mappings, feature names, numbers and thresholds", "why_tests_cant": "There are no tests of this class; plots of one data set cannot show for which mappings and numbers of factors they are right.", "anchors": ["esat/data/test_tools.py:CompareAnalyzer"]}
{"id": "C121", "title": "What a bootstrap run trains on", "statement": "For a base model as the compiled LS-NMF engine leaves it and a block size that works: runs 1 to 127 complete and later ones raise, so a bootstrap of up to 127 runs records every run once in whatever order the workers finish, and a larger one records nothing. A run trains on the drawn samples, data and uncertainties by the same indices, with the iteration limit and convergence settings of the base model, nothing held and contributions freshly drawn; its history, convergence and results are those of LS-NMF from that start. With keep_H the start is not the base profile matrix but its values re-read row by row (values non-positive made 1e-12); so with no iterations the profiles come back scrambled. With data stored by columns and no empty drawn sample or feature the results are positive, and fit the drawn data at least as well as the start. A feature measured only in the last block (the last two samples with overlapping blocks) makes every run of two or more iterations NaN and maps nothing. The mapping of finite results compares summed contributions with the base model.", "quantifier": "all data and uncertainties, sizes, base models, draws, block sizes, seeds, both resampling modes, memory orders, iteration settings, orders in which workers finish", "why_tests_cant": "The tests run the bootstrap on one data set for a few runs and check that results exist; that the kept profiles are rearranged at the boundary to the compiled engine shows in no shape or status.", "anchors": ["esat/error/bootstrap.py:Bootstrap._train", "esat/error/bootstrap.py:Bootstrap._p_train", "esat/model/sa.py:SA.initialize", "esat/model/sa.py:SA.train", "rust/lib.rs:ls_nmf"]}
{"id": "C122", "title": "What a displacement refit starts from", "statement": "For a base model as the compiled LS-NMF engine leaves it, the refit after displacing cell (f, j) completes for model numbers from -128 to 127 and raises otherwise; it uses the data, uncertainties and settings of the base model and fresh contributions. Its profiles start from the base profiles raised by 1e-12, with the displaced cell, re-read row by row: of k factors and n features the displaced value lands in cell ((jk+f)/n, (jk+f) mod n) and nowhere else, which is (f, j) itself only if j(k-1) = f(n-1). With data stored by columns and no empty sample or feature the result is positive and fits at least as well as that start. The swap flag is set exactly when a refitted profile correlates better with another raised base profile than with its own; a displacement of nothing can be flagged before any iteration.", "quantifier": "all base models, cells, displaced values, draws, settings and model numbers", "why_tests_cant": "The tests run DISP on one solution and look at the shape of the results; which cell of the starting matrix is displaced inside the compiled engine cannot be seen from them.", "anchors": ["esat/error/displacement.py:Displacement.__init__", "esat/error/displacement.py:Displacement._increase_disp", "esat/error/displacement.py:Displacement._decrease_disp", "esat/utils.py:compare_all_factors", "esat/model/sa.py:SA.initialize"]}
{"id": "C123", "title": "What a perturbed model starts from", "statement": "For a base model as the compiled LS-NMF engine leaves it, a perturbed model completes for numbers up to 127 and raises beyond; it trains on the data of the base model and the perturbed uncertainties with the settings of the analysis. Both its starting matrices are those of the base model re-read row by row, not those of the base model; so even with unperturbed uncertainties an exact base model is not returned. With data stored by columns, positive base contributions and no empty sample or feature the results are positive and fit at least as well as that start.", "quantifier": "all base models, uncertainties, settings, memory orders and model numbers", "why_tests_cant": "A test on one data set cannot tell a change caused by the perturbation from one caused by the rearranged start.", "anchors": ["eval/perturbation.py:Perturbation._parallel_perturb", "eval/perturbation.py:Perturbation.run", "esat/model/sa.py:SA.initialize"]}
{"id": "C124", "title": "A whole batch from data to best model", "statement": "A batch of 1 to 127 LS-NMF models on non-negative data always succeeds in parallel mode, verbose or not, in whatever order the workers finish: member i trains from the draws of seed i (or the given profiles as the engine reads them) with the batch's settings and reports what a single run does; the best model is the first with the smallest selected loss. Sequential mode gives the same members and best model when delay_h is -1. With data stored by columns and no empty sample or feature every member has positive matrices and fits at least as well as its start, and the selected loss of the best model is at most the misfit of every starting point of the batch; for data stored by rows this is false. A batch of more than 127 models fails: parallel mode keeps nothing, sequential mode keeps the first 127 members and no new best model.", "quantifier": "all data and uncertainties, sizes, numbers of models, seeds and draws, given profiles in either memory order, settings, verbosity, selection criteria, orders in which workers finish, run times", "why_tests_cant": "The tests train a handful of models on one data set; no finite set of seeds and schedules shows that the best index is valid and that no member can be worse than its start.", "anchors": ["esat/model/batch_sa.py:BatchSA.train", "esat/model/batch_sa.py:_train_task", "esat/model/sa.py:SA.initialize", "esat/model/sa.py:SA.train", "rust/lib.rs:ls_nmf"]}
{"id": "C125", "title": "WS-NMF in IEEE arithmetic", "statement": "For any order of summation, with or without fused operations, and whatever the inverse returns: no profile entry of a WS-NMF run is ever less than zero, and a zero one stays zero or becomes NaN. The contributions at the start are not read, so NaN there is harmless. One NaN profile entry makes every contribution, and unless profiles are held every profile, NaN in the next iteration; one infinite or NaN contribution makes all profiles NaN in its own iteration; a NaN among data or weights makes its sample's contributions NaN and, if nothing is held, everything. After that the compiled run does all max_iter iterations with NaN losses and does not converge; finite data with negative values, the documented use, can end like this. The split into positive and negative contributions is exact up to half the largest number, and for non-negative data well inside the range of the format the computed profiles are within 4m+2k+7 roundings of the exact formula.", "quantifier": "every size, format, data, weights, start, inverse, order of summation, hold and stopping settings", "why_tests_cant": "Rounding and NaN propagation depend on the summation order of the linear algebra library and the CPU; tests see one library, one CPU and a few matrices.", "anchors": ["esat/model/ws_nmf.py:WSNMF.update", "rust/lib.rs:ws_nmf_update_cpu", "esat/model/sa.py:SA.train"]}
{"id": "C126", "title": "Comparing a batch with the simulated truth, and plotting it", "statement": "Simulator.compare without a selected model keeps the batch, compares all models and prints the mapping of the model whose mapping has the highest average R2 of all models and mappings; when the model with the lowest loss is another one its own best mapping is printed as well, and KeyError is raised if none of its mappings scores above zero; with no positive score anywhere TypeError is raised. A selected model is looked up in the earlier comparison, not in the batch given. After a comparison plot_comparison draws one figure per factor of the smaller side, each paired with a different factor of the other side as in the mapping, showing shares in per cent and the R2 of that pair; model 0 cannot be asked for: it stands for the best one. plot_profile_comparison draws the same figures up to the first pair with R2 equal to 1, where it raises IndexError, so a batch that recovers the truth up to scale and order cannot be plotted; with a single factor it raises ZeroDivisionError.", "quantifier": "every number of factors, samples, features and models, every truth and every batch whose models were all trained, every chosen model index", "why_tests_cant": "Which model and mapping win is an extremum over all permutations of all models; the failures depend on exact correlations and on the history of calls.", "anchors": ["eval/simulator.py:Simulator.compare", "eval/simulator.py:Simulator.plot_comparison", "eval/simulator.py:Simulator.plot_profile_comparison", "eval/factor_comparison.py:FactorCompare.print_results"]}
{"id": "C127", "title": "The simulator's own source apportionment", "statement": "get_data leaves in syn_sa the generated data, the uncertainties raised to at least 1e-12, the simulator's own contribution and profile arrays, their product and both losses of the truth. Where nothing is clipped these losses are functions of the noise, outlier and uncertainty draws alone: the same for every truth and every number of factors. Until the next get_data the data, product and losses stay as they are whatever is called, but the contributions of syn_sa always are the simulator's array: update_contribution changes them and leaves product and losses behind. The SA stays consistent as long as no contribution is updated and nobody writes into its two arrays; new profiles go into a new array. Custom profiles of the right shape are not copied: their non-positive cells are overwritten in the caller's matrix and later writes of the caller change the simulator. The robust loss is stored as a pair, so the summary of syn_sa raises TypeError.", "quantifier": "every number of factors, samples and features, every draw, every sequence of profile, contribution, data and array-writing calls", "why_tests_cant": "The losses depend on random draws, and sharing shows only in sequences of calls; tests look at one call on one seed.", "anchors": ["eval/simulator.py:Simulator._create_sa", "eval/simulator.py:Simulator.get_data", "eval/simulator.py:Simulator.generate_profiles", "eval/simulator.py:Simulator.update_contribution", "esat/model/sa.py:SA.summary"]}
{"id": "C128", "title": "Comparing perturbed models with the base model", "statement": "When every factor of every perturbed model has its own best base factor, compare succeeds with each method: perturb_W and perturb_H hold the shares of the factors in every sample and feature, in the order of the mapping; the values are those of the pairs; the table is about the second factor only and gives base share, mean, difference in percent of the average of the two, spread and range, with min <= mean <= max and a difference between -200 and 200, which is set to zero where the mean is below 1e-6. The multiplier statistics are the averages over the models of the five percentiles, ascending and within the range of the multipliers. Both series of the contribution bars add up to 100 percent. As soon as two factors of one model share their best base factor, compare raises ValueError and keeps arrays and table of the comparison before; with one factor it raises IndexError after storing the arrays. Models that are the base model in another order are compared with the right factors when the order is its own inverse. The metric figure shows for factor i the value of the base factor the mapping names, not of factor i. A feature that no factor of some perturbed model contains has NaN for mean, difference, spread and range. The method's name is put in lower case only as argument of compare.", "quantifier": "every base model and list of perturbed models, every number of factors, samples, features and models, every method and every result of scipy's matching", "why_tests_cant": "Statistics over trained random models have no expected values to test against; which factor a figure shows depends on the permutation found.", "anchors": ["eval/perturbation.py:Perturbation.compare", "eval/perturbation.py:Perturbation.plot_norm_perturb_contributions", "eval/perturbation.py:Perturbation.plot_average_source_contributions", "eval/perturbation.py:Perturbation.plot_correlation_metrics", "eval/perturbation.py:Perturbation.plot_perturbed_factor", "eval/factor_comparison.py:FactorCompareV2.determine_map"]}
{"id": "C129", "title": "The bootstrap tables", "statement": "show_factor_results(f) shows for every feature the base model's value of factor f (zero below 1e-5) and mean, standard deviation, 5, 25, 50, 75 and 95 percent values over the runs of the values of the factor with the same number, where the runs' values are rounded to 4 decimals first and all results to 6. The percentiles ascend and lie with the mean within the range of the values; with one run the standard deviation is NaN. Within IQR is true exactly when the base value, not rounded, lies between the 25 and 75 percent values. So for runs that all reproduce the base model it is true exactly for values below 1e-5 or with at most 4 decimals, and for features whose values are below 5e-5 in all runs the line shows zeros and Within IQR only says whether the base value is below 1e-5. A factor outside 1..k shows nothing, before run KeyError is raised. show_q_table gives the base model's Qrobust and least value, quartiles and largest value over the runs, ascending, rounded to integers; it needs a finite Qrobust.", "quantifier": "every base model, every list of runs with finite losses and nonnegative profiles, every factor and number of features", "why_tests_cant": "The rounding makes the flag depend on the digits of the base profile; tests run bootstraps on one dataset and do not look at the figures.", "anchors": ["esat/error/bootstrap.py:Bootstrap.show_factor_results", "esat/error/bootstrap.py:Bootstrap.show_q_table", "esat/error/bootstrap.py:Bootstrap._factor_statistics"]}
{"id": "C130", "title": "Plots over time", "statement": "plot_factor_profile, plot_estimated_timeseries and plot_factor_contributions of an analysis and plot_profile_contributions and plot_factor_contributions of a constrained model draw their curves exactly when there are at most two samples or the smallest difference between consecutive times, the last one not counted, is one hour to the second; otherwise they raise AttributeError, the first two without any figure, the others after the profile or the pie. For samples at equal intervals that means hourly data only: with daily data no factor profile can be plotted. Where a curve is drawn it has one point for every day from the first to the last sample, the mean over the day's samples, and no value for a day without any. The failed plot of estimates nevertheless fixes the estimates later plots show (C106). plot_feature_timeseries of the handler never fails this way: it shows daily means at any interval, over the samples that have a value for every feature, shown or not.", "quantifier": "every list of sample times in any order, solution, constrained solution, data, factor, feature and threshold", "why_tests_cant": "The tests never look at the figures and cannot cover all intervals; the outcome hinges on a branch for exactly one hour and on a missing return value that pandas only rejects later.", "anchors": ["esat/utils.py:min_timestep", "esat/data/analysis.py:ModelAnalysis.plot_factor_profile", "esat/data/analysis.py:ModelAnalysis.plot_estimated_timeseries", "esat/data/analysis.py:ModelAnalysis.plot_factor_contributions", "esat/rotational/constrained.py:ConstrainedModel.plot_contributions", "esat/rotational/constrained.py:ConstrainedModel.plot_factor_contributions", "esat/data/datahandler.py:DataHandler.plot_feature_timeseries"]}
{"id": "C131", "title": "Plots of features", "statement": "plot_feature_data shows, for two valid feature numbers (a message otherwise), exactly the samples with both values finite, with the least-squares line of these points; its one-to-one line is y = x at every point. The axes start at 0: a point is inside them exactly when neither value is negative. The correlation heat map is symmetric; each cell is the Pearson correlation over the samples with both values finite, between -1 and 1, of size 1 exactly when one feature is a linear function of the other, 1 on the diagonal, and empty exactly when one of the two is constant over those samples. plot_ridgeline draws for each feature, at its number times the spacing (the even share of the height, kept between the two limits), the average of normal densities around its values on evenly spaced points from the least to the greatest value, always above its base line. On the default logarithmic axis it uses positive values only, and one feature without two different positive values, for instance one never detected, makes the whole plot fail; on the linear axis features with fewer than two values are left out, but one constant feature makes it fail.", "quantifier": "every data set including NaN and infinite values, pair of feature numbers, height, limits of the spacing and number of grid points", "why_tests_cant": "The tests only check that figures are returned for one well-behaved data set; the failures depend on single features and the claims about lines and densities are statements about all data.", "anchors": ["esat/data/datahandler.py:DataHandler.plot_feature_data", "esat/data/datahandler.py:DataHandler.plot_feature_correlation_heatmap", "esat/data/datahandler.py:DataHandler.plot_ridgeline"]}
{"id": "C132", "title": "Reported Q(true) against the exact Q(true) of the returned factors", "statement": "For finite data, positive finite uncertainties and factors without negative, infinite or NaN entries whose products stay in the normal range, a finite Q(true) computed in IEEE arithmetic (any order of summation, fused operations or not, subnormal results included) has a root that differs from the root of the exact Q(true) of the same factors by at most 2(mn+k+3) rounding units of that root plus the root of the sum of squared data over uncertainties, plus 4 times the root of mn times half the smallest positive number (m samples, n features, k factors). It is finite whenever the square of the sum of these two roots is at most 1/64 of the overflow threshold. The loss a run of either engine reports for its factors is that accurate, and of two models the one with the smaller reported loss is, up to both errors, the one with the smaller exact loss. A reported loss of zero does not mean an exact fit.", "quantifier": "every format, size with 2(mn+k+3) <= 2^prec, data, uncertainties, factors, evaluation order and run", "why_tests_cant": "The tests compare the loss with the same formula in the same arithmetic; a bound against exact arithmetic for all data and evaluation orders is a statement about rounding.", "anchors": ["rust/lib.rs:calculate_q_cpu", "esat/metrics.py:q_loss", "esat/model/batch_sa.py:BatchSA.train"]}
{"id": "C133", "title": "Simulator commands of the command line", "statement": "In a project with a simulator configuration under an absolute path, the first command builds the simulator and saves it with its first draw of the data; from then on, whatever commands are run and whatever is edited, the saved data files hold that first draw, and every run and every estimate uses the second draw of the same simulator, never the saved data and never a changed configuration. Under a relative path nothing is saved, run uses the second draw of a simulator built anew, and plot never shows anything. With an unreadable pickle generate reports success and the other commands raise AttributeError. compare without a loadable batch raises TypeError. Before the first successful comparison plot shows nothing; after it plot shows the truth beside the best-correlated model of the batch compared last, even if other batches have been run since.", "quantifier": "every project state, generator, simulator configuration, trainer and sequence of commands and edits", "why_tests_cant": "The tests call single commands; which draw is used after arbitrary sequences of commands, edits and failures is a property of all histories.", "anchors": ["esat/cli/esat_cli.py:get_sim", "esat/cli/esat_cli.py:generate_sim", "esat/cli/esat_cli.py:compare_sim", "esat/cli/esat_cli.py:plot_sim", "esat/cli/esat_cli.py:run", "esat/cli/esat_cli.py:estimate", "eval/simulator.py:Simulator.get_data"]}
{"id": "C134", "title": "How near to optimal a converged LS-NMF run is", "statement": "In exact arithmetic, an LS-NMF iteration that lowers Q(true) by d ends at most 2 c S sqrt(d) above the Q(true) of any other contributions (with the new profiles) whose entries differ from those before the iteration by at most a share c, and, if profiles are not held, of any other profiles (with the old contributions) within a share c; S is the root of the sum of squares of the fitted values in uncertainties. The sum of each entry times the absolute partial derivative of Q(true) is at most 2 S sqrt(d). S is at most the data's own such size plus the root of Q(true). So a run of either engine that reports convergence with converge_delta is within 2 c (size of the data + root of the starting Q(true)) sqrt(converge_delta) of the best such contributions and profiles. Among the first T iterations from positive matrices there is one where the sum of entry times absolute derivative is at most 2 (size of the data + root of the starting Q(true)) sqrt(starting Q(true) / T). A small gain does not mean a small distance to the best contributions: with a small entry the gain is small while other contributions gain as much as one likes more.", "quantifier": "all sizes, non-negative data, non-zero uncertainties, starts, hold schedules, convergence settings and shares", "why_tests_cant": "A quantitative guarantee against all competing solutions; a test compares with finitely many.", "anchors": ["esat/model/ls_nmf.py:LSNMF.update", "rust/lib.rs:ls_nmf_update_cpu", "rust/lib.rs:calculate_q_cpu", "esat/model/sa.py:SA.train"]}
{"id": "C135", "title": "What LS-NMF training approaches if it is never stopped", "statement": "In exact arithmetic and from positive matrices: if the entries of the factors settle, no non-negative contributions fit the limit's profiles better than the limit's own, and, unless profiles are held for good, no non-negative profiles fit the limit's contributions better; this includes entries that tend to zero. The losses tend to Q(true) of the limit and none is below it. Whether or not the entries settle, at every state the run comes back to arbitrarily closely every profile entry is zero or has derivative zero, and so has every contribution if all modelled concentrations are positive there and every factor contributes. The limit need not be the best solution: factors that start alike stay alike.", "quantifier": "all sizes, non-negative data without empty rows or columns, non-zero uncertainties, positive starts, hold schedules, infinite runs and subsequences", "why_tests_cant": "A statement about infinite executions and all competing matrices.", "anchors": ["esat/model/ls_nmf.py:LSNMF.update", "rust/lib.rs:ls_nmf_update_cpu", "esat/model/sa.py:SA.train"]}
{"id": "C136", "title": "With held profiles training tends to the best contributions", "statement": "In exact arithmetic, with hold_h and profiles held throughout, positive starting contributions, and profiles (zeros allowed) such that every factor has a measured feature in every sample, no LS-NMF iteration fails, and after T + 1 iterations Q(true) exceeds that of any non-negative contributions W2 by at most P / T, where P = 2 sum W2[i,a] c[i,a] ln(S / (c[i,a] W1[i,a])), c[i,a] the sum over features of V H / U^2, S the sum of squared data over squared uncertainties and W1 the contributions after the first iteration. So Q(true) comes arbitrarily close to the best attainable with these profiles. The same bound holds for the loss either engine reports last, with T one less than the iterations done.", "quantifier": "all sizes, data, uncertainties, profiles, starts, convergence settings and competing contributions", "why_tests_cant": "A rate of convergence to the global optimum over all competing matrices.", "anchors": ["esat/model/ls_nmf.py:LSNMF.update", "rust/lib.rs:ls_nmf_update_cpu", "esat/model/sa.py:SA.train"]}
{"id": "C137", "title": "Process pools, and calling an error estimate again", "statement": "On a machine with one processor a parallel bootstrap with the default number of processes, a factor estimation, a model comparison, a perturbation analysis and BS-DISP raise ValueError, because they ask for 0 processes; a displacement and a bootstrap with a given number of processes start on every machine. A bootstrap call uses the next n numbers of its generator, run i the i-th of them in both modes, and replaces the results of the call before: the same call again gives other results. A call that cannot start keeps the results but has used its numbers. BS-DISP ignores the number of cores given; the bootstrap it makes is run in the first call only, and with one processor every later call in the default mode raises IndexError, for it never runs the bootstrap again. Repeated calls of BS-DISP give the same displacements, but the counts of Q drops and of swaps are added up, so they can exceed the number of runs. A perturbation analysis keeps the given base model, or the one trained in its first call (also if that call raises); its models stand in order of their number, each call takes the next numbers of the generator, and more than 128 models make the call raise and keep the old ones.", "quantifier": "every number of processors, runs and calls, every generator, order of arrival and work of the processes", "why_tests_cant": "Depends on the machine and on the history of calls.", "anchors": ["esat/error/bootstrap.py:Bootstrap._train", "esat/error/bs_disp.py:BSDISP.run", "esat/error/bs_disp.py:BSDISP.__compile_results", "esat/error/displacement.py:Displacement.__init__", "eval/perturbation.py:Perturbation.run", "esat/estimator.py:FactorEstimator.run", "eval/factor_comparison.py:FactorCompare.compare"]}
{"id": "C138", "title": "Calling a factor estimation and plotting it", "statement": "A call of run on a machine with two processors or more, for at least two factor counts and with samples that all finish, completes; the plot then shows at every factor count of the range the mean test error, train error and Q(true) over the samples of this call with that count the drop of the test error from the count before (none for the first), the estimate score and, between the ends, the ratio of two successive drops times 1.01 times the largest drop, whatever the order of arrival, with a red line at the estimate and a black one at the actual count unless that is 0. A call takes the numbers of the generator after those of earlier calls, 2 plus one per row of the data for each sample. It raises exactly when there is one processor, fewer than two counts, or a sample that raises; then the table and the estimate of the previous call stay under the new range, so the plot shows them at wrong factor counts. Without samples the call completes with NaN errors and estimate -1.", "quantifier": "every range, number of samples, generator, order of arrival and history of calls", "why_tests_cant": "Depends on the machine, the scheduling and the history of calls.", "anchors": ["esat/estimator.py:FactorEstimator.run", "esat/estimator.py:FactorEstimator._results", "esat/estimator.py:FactorEstimator.plot"]}
{"id": "C139", "title": "Comparing a PMF solution with an LS-NMF and a WS-NMF solution", "statement": "For profile tables whose rows are the features in their order and mappings that name a column for every factor: the pies show for the feature asked for (an unknown one: the one of the number given, modulo their number) the share of every factor of each solution under the solution's own numbering, shares that sum to 1; the fingerprints show the factors last first with the matched ones at the same place, and the bars of a feature stack to 100 if the mapping names every column once; the normalised profiles show the same shares for up to six factors and raise for more; the series of one factor show contribution times profile of the matched factors for the features asked for, and any text but all raises; the series of a feature show the daily means of the fitted data and of the input; the histograms show input minus fitted data with the smallest, mean and largest value and the number of at least the threshold in size, and nothing at all (no error) if input and solutions have no common time. For these two views, without a name or with an unknown one the feature of the number given is shown, counted from the end if negative, and any other number raises. Features given as a list instead of an array never give a pie. Slices of the same number are not matched factors; with a column named twice the bars do not stack to 100; with species in another order a line is that of another species.", "quantifier": "every solution, mapping, feature, threshold and set of times", "why_tests_cant": "Quantifies over all solutions and mappings; the figures are only looked at by eye.", "anchors": ["esat/data/test_tools.py:CompareAnalyzer.plot_factor_contribution", "esat/data/test_tools.py:CompareAnalyzer.plot_fingerprints", "esat/data/test_tools.py:CompareAnalyzer.plot_factors", "esat/data/test_tools.py:CompareAnalyzer.plot_feature_timeseries", "esat/data/test_tools.py:CompareAnalyzer.timeseries_plot", "esat/data/test_tools.py:CompareAnalyzer.feature_histogram"]}
{"id": "C140", "title": "With held profiles the contributions settle at best ones", "statement": "In exact arithmetic, with hold_h and profiles held throughout, positive starting contributions, and profiles (zeros allowed) such that every factor has a measured feature in every sample, every entry of the contributions tends to a limit as the LS-NMF iterations go on, and no non-negative contributions have a smaller Q(true) than the limit (entries may tend to zero). If no profile can be made up from the others, the limit is the only best one and does not depend on the starting contributions, so not on the seed. For every eps there is a number of iterations after which the contributions returned by either engine are within eps of the limit in every entry, however the run is told to stop. If a profile can be made up from others the limit does depend on the start: two factors with one profile keep the shares they start with.", "quantifier": "every data set, uncertainties, held profiles, positive start, tolerance and stopping rule", "why_tests_cant": "A statement about limits of all runs; tests see finitely many iterations of some.", "anchors": ["esat/model/sa.py:SA.train", "esat/model/ls_nmf.py:LSNMF.update", "rust/lib.rs:ls_nmf_update_cpu"]}
{"id": "C141", "title": "What WS-NMF training approaches", "statement": "In exact arithmetic, with non-negative data and an inversion routine that returns a generalised inverse: if the entries of the WS-NMF contributions and profiles settle as the iterations go on, then no contributions of any sign have a smaller Q(true) with the limit's profiles, and the losses tend to Q(true) of the limit. If profiles are not held for good, a contribution of the limit is negative only where the sample has no data in any species of that factor's profile; so with data that are positive throughout and no profile that vanishes, every contribution of the limit is non-negative although WS-NMF does not constrain them and single iterations do produce negative ones; and then, from a positive start, no non-negative profiles have a smaller Q(true) with the limit's contributions. With zeros in the data this fails: there is a state the iteration never leaves with negative contributions and profiles that are not the best non-negative ones.", "quantifier": "every data set, uncertainties, start, hold schedule and inversion routine", "why_tests_cant": "A statement about limits of all runs; tests see finitely many iterations of some.", "anchors": ["esat/model/ws_nmf.py:WSNMF.update", "rust/lib.rs:ws_nmf_update_cpu"]}
{"id": "C142", "title": "WS-NMF and the labelling, the units of samples and the inversion routine", "statement": "In exact arithmetic, let the weighted normal matrix of every sample be invertible at every step of a WS-NMF run. Then the result does not depend on the starting contributions nor on which inversion routine is used (LU, SVD, pseudo-inverse: anything that returns the inverse of an invertible matrix). Renumbering the samples, the features and the factors, and multiplying the data and the uncertainties of each sample by a positive number of its own, renumbers the contributions and the profiles after any number of iterations and any hold schedule, multiplies the contributions of each sample by its number, leaves the profiles' values as they were, leaves Q(true) the same, and one run fails exactly if the other does. The unit of a feature does matter: with one feature's data, uncertainties and starting profile doubled, the profile after one iteration is not the doubled one, because the small number added in the profile step is not rescaled.", "quantifier": "every data set, uncertainties, start, hold schedule, number of iterations, renumbering, sample scaling and pair of inversion routines", "why_tests_cant": "Quantifies over all renumberings, scalings and inversion routines of all data sets.", "anchors": ["esat/model/ws_nmf.py:WSNMF.update", "rust/lib.rs:ws_nmf_update_cpu"]}
{"id": "C143", "title": "Repeated samples and features act as weights", "statement": "In exact arithmetic, let a table contain samples and features several times, with uncertainties that are not zero, and let the start repeat in the same way. An LS-NMF training on it, with the compiled or the Python engine, gives the same losses, number of iterations, convergence verdict and events as a training on the table with every sample and feature once in which the uncertainties are divided by the square root of the product of the numbers of times their sample and their feature occur; the contributions and profiles are those of that training, repeated, and one training breaks down exactly if the other does. So a block bootstrap data set is fitted as the original data set with other uncertainties, and samples that occur twice get the same contributions. For WS-NMF the same holds of repeated samples for any number of iterations, from any starting contributions, if the weighted normal matrices are invertible; with repeated features it is not exact, because the small number added in the profile step is not weighted. Q(robust) of the repeated table is not that of the weighted one, because the cap is applied to each occurrence by itself.", "quantifier": "every data set, uncertainties, start, pattern of repetitions, training configuration, and pair of inversion routines", "why_tests_cant": "Quantifies over all patterns of repetition of all data sets and over whole training runs.", "anchors": ["esat/model/ls_nmf.py:LSNMF.update", "esat/model/ws_nmf.py:WSNMF.update", "rust/lib.rs:ls_nmf_update_cpu", "esat/model/sa.py:SA.train", "esat/error/bootstrap.py:Bootstrap._block_resample", "esat/metrics.py:qr_loss"]}
{"id": "C144", "title": "Factors that are copies of each other, and factors that are zero", "statement": "In exact arithmetic, two factors whose contributions are proportional and whose profiles are proportional at the start of an LS-NMF training keep both proportions, with the same constants, through any number of iterations and any hold schedule. More generally, a start in which each of k factors is split into parts (any number, any non-zero shares whose products add up to one) is trained, by the compiled and by the Python engine, exactly as the k factors are: the same losses, number of iterations, convergence verdict, events and product, and the same breakdown, and the factors of the result are the parts of the k-factor result with the shares of the start. So additional factors that start as copies never improve a fit. An iteration breaks down (division by zero) if the profile of some factor is zero, or if its contributions are and the profiles are not held. In WS-NMF with two proportional profiles, or a zero profile beside another one, no sample's normal matrix has an inverse.", "quantifier": "every data set, weights, start, split, hold schedule, number of iterations and training configuration", "why_tests_cant": "Quantifies over all ways of splitting factors and over whole training runs.", "anchors": ["esat/model/ls_nmf.py:LSNMF.update", "esat/model/ws_nmf.py:WSNMF.update", "rust/lib.rs:ls_nmf_update_cpu", "rust/lib.rs:ws_nmf_update_cpu", "esat/model/sa.py:SA.train"]}
{"id": "C145", "title": "Stricter stopping settings never give a worse fit", "statement": "Whatever the update and the loss, a training with a larger converge_delta or a smaller max_iter stops at the same iteration or earlier than one with the same converge_n and start; its loss history is the beginning of the other's, and its factors are those the other run passes through at that iteration. This holds for the compiled engine and, with converge_n at least 1, for the Python engine. In IEEE arithmetic it holds for any two tolerances of the engine's format, whatever is not a number in the losses. For LS-NMF in exact arithmetic on non-negative data without empty samples or features and a positive start, a larger converge_n is stricter as well, and the final Q(true) of the stricter run is never larger. If the loss does not fall all the time (as WS-NMF's need not), a larger converge_n can stop a training earlier.", "quantifier": "every update and loss, data set, start, hold schedule and pair of stopping settings", "why_tests_cant": "Compares two runs for all pairs of settings and all inputs.", "anchors": ["rust/lib.rs:ls_nmf_update_cpu", "rust/lib.rs:ws_nmf_update_cpu", "esat/model/sa.py:SA.train"]}
{"id": "C146", "title": "Multiplying all uncertainties by one number", "statement": "In exact arithmetic, multiplying every uncertainty by a positive number s and dividing converge_delta by s squared leaves an LS-NMF training, with the compiled or the Python engine, as it was: the same contributions and profiles, number of iterations and convergence verdict, the same breakdown, and every loss divided by s squared. Q(robust) is divided by s squared as well if alpha is divided by s; with the same alpha it need not be.", "quantifier": "every data set, non-zero uncertainties, start, factor s and training configuration", "why_tests_cant": "Compares two whole runs for all data and all factors.", "anchors": ["esat/model/ls_nmf.py:LSNMF.update", "rust/lib.rs:ls_nmf_update_cpu", "esat/model/sa.py:SA.train", "esat/metrics.py:q_loss", "esat/metrics.py:qr_loss"]}
{"id": "C147", "title": "With held profiles the samples do not see each other", "statement": "In exact arithmetic, as long as the profiles are held, the contributions LS-NMF finds for a sample after any number of iterations do not depend on which other samples are in the data: a run on any selection of samples (in any order, with or without repetitions) gives the rows of the run on all of them. The same holds for WS-NMF if the samples' normal matrices are invertible, whatever the inversion routines and the starting contributions. If the profiles are not held, the other samples do matter, from the first iteration on.", "quantifier": "every data set, weights, start, selection of samples and number of iterations", "why_tests_cant": "Quantifies over all selections of samples of all data sets.", "anchors": ["esat/model/ls_nmf.py:LSNMF.update", "esat/model/ws_nmf.py:WSNMF.update", "rust/lib.rs:ls_nmf_update_cpu", "rust/lib.rs:ws_nmf_update_cpu"]}
{"id": "C148", "title": "What starts the same ends the same, to the last bit", "statement": "In IEEE arithmetic of any format, if each matrix product of an LS-NMF iteration sums every cell in the same way (whatever way, one per product), then for the compiled and the Python engine, whatever the data (NaN and infinities included), stopping rule and holding of profiles: samples with equal data, weights and starting contributions end with bitwise equal contributions; features with equal data, weights and starting profile entries end with bitwise equal entries; factors that start equal end equal. With held profiles the contributions of a sample after any number of iterations are bitwise those it gets in any other table that contains it. If the order of summation may vary from cell to cell, identical samples can come out different. For WS-NMF it is enough that a library call with equal arguments gives equal results: samples with equal data and weights then have bitwise equal contributions from the first iteration on, whatever they start with; features with equal data, weights and start stay bitwise equal; and with held profiles the contributions of a sample depend neither on the other samples nor on the start.", "quantifier": "every floating-point format, summation kernels, data, start, pair of samples, features or factors, and training configuration", "why_tests_cant": "Quantifies over all summation orders and all floating-point inputs; a test sees one library build.", "anchors": ["esat/model/ls_nmf.py:LSNMF.update", "rust/lib.rs:ls_nmf_update_cpu", "esat/model/ws_nmf.py:WSNMF.update", "rust/lib.rs:ws_nmf_update_cpu", "esat/model/sa.py:SA.train"]}
{"id": "C149", "title": "The bars of the 3d factor plot", "statement": "In plot_all_factors_3d exactly the surfaces of the bars are drawn: for every factor (row) and feature (column) one box of width 0.85 and depth 0.35 around its grid point, from 0 to its value (downwards if the value is negative). Every triangle refers to existing vertices, bars of different factors or features have no point in common, and each vertex has the colour and the hover text (factor counted from 1, feature, value) of the bar it lies on.", "quantifier": "every number of factors and features, every table of values, every point of space", "why_tests_cant": "Quantifies over all points and all tables; a test sees lists of coordinates.", "anchors": ["esat/data/analysis.py:ModelAnalysis.plot_all_factors_3d"]}
{"id": "C150", "title": "Robust mode does not exist, and which arguments of train matter", "statement": "robust_mode and robust_n have no effect on any call of train in any session, with either engine and either method: factors, losses, history and status are the same, only the flag in the metadata differs. robust_alpha only enters the reported Q(robust) (and, with the Python engine, can stop a run where it makes Q(robust) NaN); every completed call reports Q(true) and Q(robust) of its factors with its own cut-off. So the documented robust updates, with weights reduced for outliers, never take place. update_step is ignored by a model with the compiled engine, in every call; it is stored, and with the Python engine the replacement given last is used by every later call too.", "quantifier": "every update, loss, engine, starting state and finite sequence of calls with any arguments", "why_tests_cant": "Compares sessions for all pairs of argument lists; a test sees a few calls.", "anchors": ["esat/model/sa.py:SA.train", "rust/lib.rs:ls_nmf", "rust/lib.rs:ws_nmf"]}
{"id": "C151", "title": "The scale of the starting profiles of a feature is forgotten at once", "statement": "An LS-NMF training of at least one iteration in which the profiles are not held gives the same factors, losses, history, stopping iteration and verdict when the starting profiles of any feature are multiplied by any non-zero number. Seeded starts, whose features are divided by their totals, therefore fit as if they were not. A fit in other units of the features, from the same start, gives the same contributions and losses and the profiles in the new units. With k-means and init_norm, whose observations are the same in all units of features that vary (standard deviation one), fits do not depend on the units of the features at all, although the centroids are in none of the units of the data. With the profiles held at first, the same holds of the starting contributions of any sample. The default initialisation is not unit free: it draws the contributions of a sample around the root of its mean over features of all units, and one iteration from the same draws gives another product.", "quantifier": "every size, data, positive unit changes of samples and features, non-zero factors, start, engine, tolerances, tick and number of iterations from one up; every clustering that depends on the observations only", "why_tests_cant": "Relates pairs of whole runs for all data, starts and unit changes.", "anchors": ["esat/model/sa.py:SA.initialize", "esat/model/sa.py:SA.train", "esat/model/ls_nmf.py:LSNMF.update", "rust/lib.rs:ls_nmf_update_cpu"]}
{"id": "C152", "title": "Expressions while a constrained model is trained", "statement": "In every iteration the differences asked for by the expressions are those of the bounded least-squares solution times 0.98^j, for the least j up to 100 for which Q of the moved matrices, plus the squared distance of the iterate from the base solution over the squared softness, minus the Q of the base solution, is below the sum of the limits; if there is none, the differences are zero. The distance does not depend on the differences: once it reaches the sum of the limits plus the Q of the base solution the expressions are switched off. So the documented decrease of the change can drop it altogether. When no sum of elements exceeds 1e-8 training raises. With a solver that respects its bounds non-negative elements stay non-negative and positive ones positive, and in training with expressions and constraints (LS-NMF) the matrices are non-negative after every iteration and elements set to zero are zero.", "quantifier": "every size, data, base solution, iterate, list of expressions and limits, constraint registry, bounded solver and number of iterations", "why_tests_cant": "Quantifies over all expressions, solutions of the solver and iterates; tests see single runs.", "anchors": ["esat/rotational/constrained.py:ConstrainedModel._apply_expressions", "esat/rotational/constrained.py:ConstrainedModel.train"]}
{"id": "C153", "title": "A batch object over several calls of train, and its report", "statement": "BatchSA keeps results, best_model and its generator from call to call. Over any history of calls, best_model is that of the latest call that succeeded and results those of the latest call that succeeded or ran sequentially. The generator is never started again: after calls that trained n1, n2, ... models, model i of the next call gets seed number n1 + n2 + ... + i of the stream, so training again never repeats models but continues as a larger batch. After a successful call, whatever came before, details() lists each model once, in order and numbered from 1, with its losses and these divided by the number of data cells, and names the first model with the smallest selected loss; if no loss is below infinity it names the last but one model as number -1, or raises IndexError when there is only one. After a failed sequential call it raises TypeError if no call ever succeeded, and otherwise names the model of the new list at the position of the earlier best one, which need not be the best listed, or raises IndexError.", "quantifier": "every sequence of sequential and parallel calls with any settings, seeds, outcomes of training, run times and orders of workers", "why_tests_cant": "Quantifies over whole histories of calls and failures; tests train a batch once.", "anchors": ["esat/model/batch_sa.py:BatchSA.details", "esat/model/batch_sa.py:BatchSA.train"]}
{"id": "C154", "title": "Training in instalments", "statement": "With the profiles free throughout, or held throughout, several calls to train of a model with the Python engine, each starting where the one before ended, make the iterations of one long run: their losses in order are those of the iterates 1, 2, ... and the last state is the last iterate. They never stop earlier than one call whose limit is the sum of theirs, because every call starts its window of losses afresh: the history of the one call is the beginning of theirs, and when both have the same length the results are equal. For LS-NMF the fit is therefore never worse. Calls no longer than converge_n never converge, however flat the loss. The compiled engine behaves so when it is handed the matrices it returned; through SA.train, which re-reads them in another memory order, a second call carries on from the factors of the first when there is a single factor. It is not so with delay_h, which counts afresh in every call: two calls hold the profiles twice.", "quantifier": "every update, loss, convergence test, starting state, list of limits, tolerance and window from one up; every size and data for LS-NMF", "why_tests_cant": "Compares one run with every way of splitting it into calls, for all data; a test sees single splits.", "anchors": ["esat/model/sa.py:SA.train", "rust/lib.rs:ls_nmf_update_cpu", "rust/lib.rs:ws_nmf_update_cpu"]}
{"id": "C155", "title": "A batch of more models", "statement": "With the same seed and settings a batch of n2 >= n1 >= 1 models that succeeds begins with exactly the models of the batch of n1, which succeeds as well. The chosen model is the same one unless one of the additional models has a strictly smaller loss, and then it is one of these: training more models never gives a worse best model and never changes the choice without an improvement. Whole LS-NMF batches (up to 127 models, data stored by columns) thus report a best Q that is at most that of any smaller batch. This holds in parallel, with any order of workers, and sequentially, with or without a time limit; only a verbose sequential batch of a single model whose loss is NaN fails although larger ones succeed.", "quantifier": "every number of models n1 <= n2, seed stream, seed matrices, training of one model, losses including NaN and infinite ones, run times and orders of workers", "why_tests_cant": "Compares batches of all sizes, over all outcomes of training; a test sees one batch.", "anchors": ["esat/model/batch_sa.py:BatchSA.train"]}
{"id": "C156", "title": "Which random numbers a start takes", "statement": "An SA object draws from one generator, made from the seed when the object is made. What a call of initialize draws depends only on how many numbers the earlier calls have drawn: k*n for profiles unless a k x n matrix is given, then m*k for contributions unless they are given or asked to be computed, m for k-means, whether or not the call succeeded and whatever was trained in between. So start number q of repeated default calls takes the numbers from q*k*(m+n) on, by rows, profiles first; calls with both matrices given change nothing for later ones. With the same seed and more factors the common profiles start proportional (by the square root of the numbers of factors). The seed does not fix a start: initializing again gives other matrices, and giving the profiles changes the contributions drawn.", "quantifier": "every sequence of initialize calls of every kind, every generator, data, number of factors", "why_tests_cant": "Concerns all sequences of calls and all generators.", "anchors": ["esat/model/sa.py:SA.__init__", "esat/model/sa.py:SA.initialize"]}
