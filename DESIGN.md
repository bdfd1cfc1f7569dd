# Design of the formal model of ESAT

Source: `/repo` (quanted/esat, python + `rust/lib.rs`), read as text only.
Prover: Coq 8.16.1, files under `rocq/theories`, logical prefix `Verif`.

## Conventions

* One `*_Model.v` file per area holds only definitions; each definition cites
  the file and lines it models and says what it leaves out.  `*_Spec.v` and
  `*_Proofs.v` hold independent specifications and lemmas, `*_Props.v` hold the
  property theorems (named `Cxx_...` after the property), each followed by
  `Print Assumptions` and accompanied by an `Example` showing a concrete,
  non-trivial instance of its hypotheses. The example of one theorem is called
  `<theorem>_example`; an example shared by the theorems of a property is called
  `Cxx_..._instance`.
* Matrices are functions `nat -> nat -> R` with explicit sizes; sums are
  `rsum n f`.  Numbers are exact: IEEE rounding, overflow and underflow are
  *not* modelled unless a property says so (C84-C88 and C115, which model LS-NMF
  training, C118 and C132, which model the robust loss and the loss, and C125, which models WS-NMF, in IEEE arithmetic; the integer truncation of C21, the int8 counters
  of C63/C64, the float32 cast and decimal rounding of the data handler,
  statistics and simulator, which use Flocq's rounding functions).
* Where NaN or infinity matter (argmin/argmax, convergence, mapping, divisions
  by zero) numbers are `fl := Fin R | PInf | NInf | NaN` (`Fl.v`) with IEEE
  comparisons and the IEEE result of each operation on special values.
* Division in the update rules is partial: an update that would divide by zero
  returns `None`.
* Exceptions are values (`Raise kind`), loops are structural recursion with the
  loop's own bound, or inductive relations where the code has no bound.
* Random numbers, the order in which worker processes finish, wall-clock,
  scipy (k-means, matching), pickle and the file system are explicit
  arguments of the model ("oracles"); theorems quantify over them.
* A property that the code does not satisfy as documented is stated in
  `properties.jsonl` as the exact behaviour, and the theorem list contains a
  `..._refuted` theorem exhibiting the failing input of the naive claim.  These
  are listed under "Where code and documentation disagree".

## Trusted base

* Coq's kernel (with `vm_compute`), `coqc` 8.16.1.
* What `Print Assumptions` lists, per theorem, in `ASSUMPTIONS.md` (generated
  from a build of the committed files).  Only axioms of the standard library
  occur: `ClassicalDedekindReals.sig_forall_dec`,
  `ClassicalDedekindReals.sig_not_dec`,
  `FunctionalExtensionality.functional_extensionality_dep` (all three come with
  the real numbers) and `Classical_Prop.classic` (through Flocq's rounding
  lemmas and where a theorem argues classically).
* mathcomp is used in `Inverse_*` (determinants, adjugates); its sealed module
  constants (for instance `BigOp.bigop`) are ordinary opaque definitions, not
  axioms, although a listing of all opaque constants names them.  Flocq is used
  for IEEE arithmetic and rounding; neither adds an axiom of its own.
* No axiom, parameter, section-less variable, functor, module type or plugin
  of our own.
* The correspondence between model and code, which is by inspection.  What is
  modelled and what is not is listed below, per area, and in the heading
  comment of every model file.

## What is modelled, per area

| Properties | Model | Code | Not modelled |
|---|---|---|---|
| C01-C04 | `Metrics_Model` | `esat/metrics.py`: q_loss, qr_loss (with the overwritten mask and the 1e-12 floor), q_factor | rounding errors |
| C05-C09, C59, C60 | `LSNMF_Model` | `esat/model/ls_nmf.py` update, Rust ls-nmf step | rounding errors |
| C10, C11, C62 | `WSNMF_Model` | `esat/model/ws_nmf.py` update, Rust ws-nmf step (normal equations, square-root step) | `scipy`'s choice of solver |
| C12 | `Inverse_Model` | Rust `matrix_inverse`, `determinant`, cofactors | rounding errors |
| C13-C17, C61 | `Train_Model` | Python and Rust training loops, generic in step and loss | progress output |
| C18, C19 | `Layout_Model` | memory order of arrays passed between numpy and Rust | |
| C20-C23 | `SA_Model` | `esat/model/sa.py`: constructor, validation, initialisation, train, seeds | k-means itself (oracle) |
| C24-C28 | `Batch_Model` | `esat/model/batch_sa.py`: all modes of train, best-model selection, runtime limit | process pool internals (completion order is an oracle) |
| C29-C34, C63 | `Boot_Model` | `esat/error/bootstrap.py` | plots |
| C35-C39, C64 | `Disp_Model` | `esat/error/displacement.py`: both searches, swap tables, compiled results, parallel mode | plots, CSV layout |
| C40, C65 | `BSDisp_Model` | `esat/error/bs_disp.py` | plots |
| C41-C43, C66-C70 | `Constr_Model`, `ConstrX_*` | `esat/rotational/constrained.py` | parsing by regular expression of malformed text, plots |
| C44, C45, C71 | `Est_Model` | `esat/estimator.py` | training itself (oracle) |
| C46-C48, C72-C74 | `Data_Model` | `esat/data/datahandler.py` | pandas parsing and file input; rows by position (justified by C97_same_labels) |
| C49 | `Recomb_Model` | `esat/model/recombinator.py` (optimal block size) | |
| C50, C51, C75 | `Utils_Model` | `esat/utils.py` | |
| C52, C53, C76, C77 | `Analysis_Model` | `esat/data/analysis.py` numbers behind plots and statistics | the figures |
| C54, C78, C79 | `Sim_Model` | `eval/simulator.py` | random generators (draws are arguments) |
| C55, C81 | `Compare_Model` | `eval/factor_comparison.py`: FactorCompare | the worker pool (a pure map) |
| C57, C80 | `Perturb_Model` | `eval/perturbation.py`, FactorCompareV2 | training of the perturbed models; scipy's matching refuses matrices with explicit zeros, which is not modelled |
| C56, C82 | `Catalog_Model`, `CatTable_Model` | `eval/factor_catalog.py` | rounding is left out, except that the table is sorted by percentages under any monotone rounding |
| C84-C88 | `Float_Model` | LS-NMF step, loss and convergence test in IEEE arithmetic of any format (binary32 in the Rust engine and for the weights), every order of summation and use of fused operations | NaN payloads; in Python, mixed formats |
| C89, C90 | `Gpu_Model` | the CUDA branch of the compiled engine: tensors with element type and shape, both updates, losses, loop, conversions; SA.train around it | values are exact; candle itself (its error conditions are stated in the file). `Cargo.toml` builds candle without CUDA, so the shipped package never takes this branch |
| C91-C96 | `Cli_Model` | the commands setup, simulator generate, run, run-error, run-constrained, the analysis commands as far as what they load and select, and the configuration files | numbers and JSON in configuration files are given parsed; no percent signs (configparser interpolation); relative and absolute names of one directory are not identified; the batch plots left out (estimate and simulator compare and plot are in C133); a saved result stands for the settings it was computed with |
| C97, C98 | `Align_Model` | `datahandler.py` loading with row labels, data kept for plotting, which features the plots show | repeated labels in files whose labels differ; quantiles are exact; the drawing |
| C99-C101 | `ErrPlot_Model` | what `bootstrap.py`, `displacement.py`, `bs_disp.py` plots and summaries and `error.py` show | exact reals (rounding to 4 decimals as `ZnearestE`); trained Q values are arguments; the rounding of the logged number, titles, colours |
| C102-C104 | `LSNMF_Model`, `Metrics_Model`, `Train_Model` | the LS-NMF iteration and the compiled training loop in relation to both losses | exact reals |
| C105-C106 | `Show_Model` | analysis.py:33-73, 271-926: what the plots of ModelAnalysis show, when they show nothing and when they raise, the cached estimates | exact reals with IEEE specials; the resampling of curves over time (see C130); drawing itself, colours and layout not modelled |
| C107-C108 | `LSNMF_Model`, `Metrics_Model`, `Analysis_Model` | what the losses, the LS-NMF iteration and the percentages do under rotations and rescalings of the factors | exact reals |
| C109-C111 | `Pipeline_Model` | `esat/model/sa.py` constructor, initialize and train joined with the compiled LS-NMF entry point and loop, the fields set after training, and a second call of train | WS-NMF and the GPU; non-finite numbers inside the engine; `update_step` |
| C112 | `Expr_Model` | `esat/rotational/constrained.py` `_map_expressions` (549-579) on text: the Python string operations it uses, the order in which it raises, the numbering of unknowns | Python's `float` on strings (an argument); `int` on non-ASCII digits; characters beyond 8 bits |
| C113-C114 | `Report_Model` | `esat/rotational/constrained.py` the fields of the constructor, the lists of constraints and expressions, what `train` stores, `evaluate_constraints`, `evaluate_expressions` (793-879), the plots (881-1144) | the training loop is an argument (C68); resampling in time, axis ranges, colours that are used; `display_results` and `plot_Q` except the series of C68 |
| C115 | `Float_Model` | as C84-C88; the exact updates are written out in the statements | underflow and overflow are excluded by the hypotheses `profile_range` and `contribution_range` on the exact values |
| C116 | `WsRun_Model` | sa.py 85, 121-140, 382-470; rust/lib.rs 529-629, 692-779 | exact reals; the inverse routine is an argument that reads only the k x k entries (`inside`); after NaN or infinite factors the loss is NaN and the linear algebra is not modelled |
| C117 | `Progress_Model` | batch_sa.py 190-266, 287-307, 346-350, 475-496, 536-541; rust/lib.rs 379-394, 751-764 | transition system over all interleavings; the queue is a reliable FIFO, the pool gives any waiting model to any idle process, starmap waits for every task before returning or raising (CPython's MapResult); the log queue and the robust Q of a report are left out |
| C118 | `RobF_Model` | esat/metrics.py qr_loss 26-39; rust/lib.rs 911-941, 980-1001 | one format throughout; the computed matrix product is an argument (the same in both losses); NaN payloads |
| C119 | `Impute_Model` | esat/data/impute.py | what the imputers other than the mean put in (an argument); infinite values; tables without rows |
| C120 | `PmfCmp_Model` | esat/data/test_tools.py | exact reals; distinct feature names and time stamps; parsing of dates; the drawing |
| C121-C123 | `Refit_Model` (on `Pipeline_Model`, `Boot_Model`) | esat/error/bootstrap.py 378-488, displacement.py 73-75, 312-321, eval/perturbation.py 140-145 | LS-NMF with the compiled engine; exact reals; finite draws; the mapping and swap flag of a NaN result; memory order of single-row resamples is an argument |
| C124 | `BatchRun_Model` (on `Batch_Model`, `Pipeline_Model`) | esat/model/batch_sa.py 170-352, 475-496 | LS-NMF with the compiled engine; exact reals; finite draws; contributions drawn (W not given) in the theorems; a stack given to sequential mode is not modelled |
| C125 | `WsF_Model` (on `Float_Model`) | esat/model/ws_nmf.py 42-98; rust/lib.rs 672-735 | inverse and pseudo-inverse are any function (a call that never returns is not modelled); products of matrices in any order; round to nearest; accuracy of the profile step only, for non-negative data |
| C126 | `SimCmp_Model` (on `Compare_Model`) | eval/simulator.py 311-352, 368-515; eval/factor_comparison.py 385-412 | exact reals (a correlation that is 1 in exact arithmetic may round to slightly below); figures are the pair, its two R2 values and its percentages; colours, layout and texts left out; more than one processor, as in C55 |
| C127 | `SimSA_Model` (on `Sim_Model`) | eval/simulator.py 72-126, 157-161, 229, 284-309; esat/model/sa.py 73-77, 310-323 | exact reals, so SA's float32 copies equal the data; arrays are locations of a store; data frames left out (whether they share memory depends on pandas); a simulator whose call raised is not followed further |
| C128 | `PerturbCmp_Model` (on `Perturb_Model`) | eval/perturbation.py 190-431, eval/factor_comparison.py 568-607 | exact reals with NaN and infinities; scipy's matching is an oracle that may raise; base model, perturbed models and the object's `factors` agree in size, as run produces them; log output and layout of the figures left out |
| C129 | `BootTab_Model` (on `ErrPlot_Model`) | esat/error/bootstrap.py 545-568, 597-647 | exact reals; at least one run, losses of the runs finite; how plotly lays out the columns of the tables is left out |
| C130 | `TimePlot_Model` (on `Show_Model`, `Report_Model`, `Align_Model`, `Utils_Model`) | esat/data/analysis.py 375-378, 450-454, 800-806; esat/rotational/constrained.py 976-989, 1131-1135; esat/data/datahandler.py 644-677 | sample labels are times in nanoseconds (parsing of dates left out); all columns numeric; of pandas: `resample(None)` raises AttributeError and `resample('D').mean()` averages what is not NaN over calendar days |
| C131 | `FeatPlot_Model` | esat/data/datahandler.py 555-632, 679-720, 793-879 | exact reals with IEEE specials; of numpy, pandas and scipy: `lstsq` gives the least-squares solution (its cut-off for tiny singular values ignored), `corr` skips pairs with a value that is not finite, `gaussian_kde` uses Scott's bandwidth and raises for fewer than two values, infinite values and zero variance; method pearson only; a number of grid points below 0 left out; titles, labels and hover texts left out |
| C132 | `Float_Model`, `Train_Model` (no model of its own) | rust/lib.rs 911-921, esat/metrics.py q_loss, run loops as in C115 | IEEE arithmetic, round to nearest even; the bound is for Q(true), the robust loss is in C118 |
| C133 | `SimCli_Model` (on `SimCmp_Model`) | esat/cli/esat_cli.py 41-52, 213-287, 424-483; Simulator.get_data, save and load as far as what is kept | the random generator is a state handed on by each draw; a draw, the constructor, training and estimation are arguments; directories exist and can be written; a pickle either is a simulator or raises PickleError |
| C134 | `NearOpt_Props` (on `LSNMF_Model`, `Train_Model`) | as C01, C60, C104 | exact arithmetic |
| C135 | `Forever_Props` (on `LSNMF_Model`) | as C05, C06 | exact arithmetic; infinite iteration of the update |
| C136 | `HeldOpt_Props` (on `LSNMF_Model`, `Train_Model`) | as C07, C13, C15 | exact arithmetic |
| C137 | `Workers_*` | esat/error/bootstrap.py 94-95, 345-376, 401-455; esat/error/displacement.py 80, 339, 495; esat/error/bs_disp.py 94, 112-202, 215-266; eval/perturbation.py 112-145; esat/estimator.py 137; eval/factor_comparison.py 300 | generator = function of the position; the work of a process (its result or exception) and the order of arrival are arguments |
| C138 | `EstRun_*` (on `Est_Model`, `Workers_Model`) | esat/estimator.py 33-54, 91-155, 157-200, 202-233 | as C45, C137; the calls of the generator are counted, their values are arguments |
| C139 | `CmpView_*` (on `TimePlot_Model`) | esat/data/test_tools.py 7-269 | exact reals; factors counted from 0 (no negative index); colours, sizes and axis titles left out; bins of the histograms left out (the values are modelled) |
| C140 | `LSNMF_Model`, `Train_Model` (no model of its own; theorems in `HeldLimit_Props`) | as C136 | exact reals |
| C141 | `WSNMF_Model` (no model of its own; theorems in `WSLimit_Props`) | as C10, C11 | exact reals; inversion routine an argument |
| C142 | `WSNMF_Model` (no model of its own; theorems in `WSSym_Props`) | as C10, C11 | exact reals; inversion routines are arguments |
| C143 | `LSNMF_Model`, `WSNMF_Model`, `Train_Model` (no model of its own; theorems in `Repeat_Props`) | as C05, C10, C84 | exact reals; inversion routines are arguments |
| C144 | `LSNMF_Model`, `WSNMF_Model`, `Train_Model` (no model of its own; theorems in `Split_Props`) | as C05, C10 | exact reals |
| C145 | `Train_Model`, `LSNMF_Model` (no model of its own; theorems in `Strict_Props`, `StrictF_Props`) | as C13, C14 | the loop theorems hold for any arithmetic; the LS-NMF theorems are over exact reals |
| C146, C147 | `LSNMF_Model`, `WSNMF_Model`, `Train_Model`, `Metrics_Model` (no model of their own; theorems in `Scale_Props`) | as C05, C10, C13, C02 | exact reals |
| C148 | `Uniform_Model` | lib.rs 354-363 (ls_nmf_update_cpu), 692-735 (ws_nmf_update_cpu), ls_nmf.py 39-51, ws_nmf.py 42-98 | IEEE arithmetic of any format; in WS-NMF a library call is any function of the sizes and entries of its arguments; in LS-NMF each product has one summation kernel for all its cells (any function of the list of pairs); which libraries have this is not modelled; engines as in C13 |
| C149 | `Mesh_Model` | analysis.py 582-635 (_create_mesh3d) | exact reals; hover text as (factor, feature position, value); heights as in C105; axes and buttons not modelled |
| C150 | `TrainOpt_Model` | sa.py 325-476 (SA.train after initialisation), lib.rs 203-208 (argument types) | generic in the factors, losses and updates; what the compiled engine reads and returns are arguments (Layout_Model); callback, GPU (the only source of RuntimeError), exec of the text of update_step and panics of the WS engine not modelled |
| C151 | `Whiten_Model` | sa.py 253-270, 301 (k-means initialisation with init_norm), scipy.cluster.vq.whiten | exact reals; kmeans2 is a function of the observations, the normal draws are arguments; uncertainties are those after the floor of sa.py:76 |
| C152 | `ExprStep_Model` | constrained.py 360-441, 494-499 (_apply_expressions, _calculate_pull_matrices, training iteration) | exact reals; lsq_linear is an argument (assumed to respect its bounds where stated); elements outside the matrices are not modelled |
| C153 | `BatchHist_Model` | batch_sa.py 107, 129-168, 170-352 (object over several calls, details) | on top of `Batch_Model`; training of one model, run times and worker order are arguments; the seeds drawn by a failed call are an argument; number formatting left out |
| C154 | `Instal_Props` | sa.py 325-476, rust/lib.rs 299-408 and 641-779 over several calls | on top of `Train_Model` and `Pipeline_Model`; the list of calls is a fold in which each starts at the state the one before returned |
| C155 | `Grow_Props` | batch_sa.py 222-352, batches of two sizes | on top of `Batch_Model` and `BatchRun_Model`; same stream of seeds for both |
| C156 | `Stream_Model`, `Stream_Props` | sa.py 93, 219-308 over several calls: the generator and its position | on top of `SA_Model`; generator = sequence of standard normal numbers, float32 conversion of the draws left out, kmeans2 an argument, a call that raises keeps the matrices |
| C58, C83 | `Persist_Model` | every `save`/`load`, `esat/utils.py:np_encoder` | operating-system errors other than a missing or non-directory target, layout of CSV files, names with path separators |

Not modelled anywhere: plotting itself, logging, progress bars, pandas I/O, IEEE
rounding outside C84-C88, C115, C118, C125 and C132.

## Where code and documentation disagree

Each entry is a theorem about the model of the code as it is.

* `C04_factor_q_sum_zero_recon_refuted`: Per-factor Q values do not add up to Q where a modelled concentration is zero.
* `C11_negative_data_refuted`: ws-nmf is documented for data with negative values, but one iteration can produce NaN.
* `C12_one_factor_refuted`: The Rust matrix inverse, if one-element tensors could be read as scalars, maps a 1x1 matrix to zero (the function is not called at present).
* `C18_rowmajor_refuted`: The Rust engine reads row-major arrays in column order, so it does not see the data given unless they are Fortran-ordered or symmetric in layout.
* `C19_feed_back_refuted`: Feeding a result back into the engine does not reproduce the state.
* `C20_negative_uncertainty_refuted`: Negative and zero uncertainties are documented as rejected, but are accepted.
* `C21_integer_profile_refuted`, `C21_update_contributions_refuted`, `C21_kmeans_contributions_refuted`: Initial matrices are documented to be positive: integer arrays keep zeros, k-means and update initialisation give negative contributions.
* `C23_seed_kept_refuted`: A positive seed given by the user can be replaced.
* `C24_best_is_an_index_refuted`: With only NaN losses training reports success and a best model that is no index.
* `C25_single_nan_verbose_refuted`: One model with NaN loss makes the verbose single-process mode fail.
* `C28_long_model_passes_refuted`: The runtime limit ignores whole days: a model of a day and a minute passes a limit of two minutes.
* `C29_two_samples_overlapping_refuted`: Overlapping blocks on two samples raise.
* `C30_every_sample_drawable_refuted`: The block bootstrap never draws some samples.
* `C33_loss_order_refuted`: The list of bootstrap losses depends on the order in which workers finish.
* `C34_display_read_only_refuted`: Showing a bootstrap factor changes the base model.
* `C38_parallel_column_is_factor_refuted`: Parallel displacement counts swaps in the column of another factor.
* `C39_row_under_its_own_label_refuted`: The printed swap table shows rows under the label of another dQ.
* `C40_ranges_cover_all_runs_refuted`: BS-DISP ranges do not cover all runs.
* `C40_order_independent_refuted`: BS-DISP starts from the first stored bootstrap run; parallel runs (the default) are stored as they finish, so the same seed and the same run results can give other compiled ranges and averages.
* `C41_accepted_constraints_are_applicable_refuted`: Constraints accepted by add_constraint make the evaluation raise.
* `C42_limits_enforced_refuted`: Set limits are not enforced after training.
* `C43_pull_down_within_budget_refuted`, `C43_pull_to_within_budget_refuted`: Pulls do not respect the allowed change of Q.
* `C44_test_error_is_held_out_error_refuted`: The estimator's test error is not the error on the held-out cells.
* `C45_best_fit_chosen_refuted`: The estimator's suggestion is not the best fit.
* `C47_no_missing_values_refuted`: Missing values can remain after loading.
* `C49_block_size_positive_refuted`: The optimal block size can be zero.
* `C50_mirror_is_swap_refuted`: The factor-swap test accepts mirrored rows and never reports constant rows.
* `C51_default_is_all_but_one_refuted`: A non-positive number of cores means one process.
* `C52_rmse_correct_refuted`: The statistic reported as RMSE is not the root mean squared error.
* `C53_gspace_average_one_refuted`, `C53_surface_adds_to_whole_refuted`, `C53_threshold_above_50_rejected_refuted`: Normalised contributions, surface percentages and the threshold check.
* `C54_positive_without_side_condition_refuted`: Simulated data can be NaN (outlier magnitude zero).
* `C55_printed_base_Q_is_Q_refuted`: The base Q printed by the comparison uses the data as uncertainty.
* `C56_percentages_refuted`, `C56_threshold_with_all_members_refuted`: Catalog percentages (150 %, division by zero) and threshold only against the mean.
* `C57_percentage_respected_refuted`: perturb_percent has no effect.
* `C58_bootstrap_returns_path_refuted`, `C58_text_default_works_refuted`, `C58_bsdisp_returned_path_loads_refuted`, `C58_bsdisp_metadata_kept_refuted`, `C58_constrained_loads_itself_refuted`: Saving: missing return value, TypeError without feature names, lost metadata, a returned path that was not written, a constrained model that loads as a plain solution.
* `C62_q_may_rise_refuted`: A ws-nmf iteration can increase Q.
* `C65_parallel_mode_works_refuted`: Parallel BS-DISP raises.
* `C66_equation_is_the_target_refuted`, `C66_repeated_element_refuted`, `C66_reported_sample_element_refuted`: Constraint expressions: the solved system is not the equation, repeated elements, transposed elements in the report.
* `C68_plot_main_shows_the_sum_refuted`, `C69_base_value_kept_refuted`, `C70_target_reached_means_zero_refuted`: Constrained models: plotted sums, cells set to the base value, target reached.
* `C73_processed_data_positive_refuted`, `C74_mean_over_observed_refuted`: Processed data may be zero; signal-to-noise counts missing cells.
* `C75_step_is_smallest_difference_refuted`: min_timestep is not the smallest time difference.
* `C76_best_model_shown_refuted`, `C77_se_measures_fit_refuted`: Batch plots label another model as best; the standard error.
* `C78_uniform_respects_minimum_refuted`, `C79_selected_model_plotted_refuted`: Simulator: uniform curves ignore the minimum; model 0 cannot be selected for plotting.
* `C80_same_factors_match_refuted`: Factor mapping of identical models compares different factors.
* `C81_well_formed_files_load_refuted`: Well-formed PMF output never loads.
* `C82_finds_itself_refuted`: A catalog compared with its only entry finds nothing.
* `C83_other_objects_unchanged_refuted`, `C83_results_hold_models_refuted`: JSON output replaces models and arrays by null.
* `C84_positive_stays_positive_refuted`, `C88_monotone_refuted`: In single precision positive inputs can give NaN factors, and LS-NMF can raise Q.
* `C89_ws_step_refuted`: On a CUDA device WS-NMF updates W by the multiplicative rule of LS-NMF (lib.rs 841-846) instead of solving the least-squares problem as the CPU engines do.
* `C90_ws_unchanged_refuted`: On a CUDA device no training of at least one iteration succeeds (C89), and a WS-NMF run of no iterations rearranges W and H.
* `C91_solution_saved_refuted`, `C92_false_switches_off_refuted`, `C92_default_index_is_a_position_refuted`: Command line: a run in a relative directory saves nothing and does not say so; init_norm = False and outliers = False switch nothing off; the default index column 0 is taken for a name.
* `C93_one_method_refuted`, `C94_bsdisp_alone_refuted`, `C94_own_settings_refuted`: Command line: the error analysis asks for one method but needs all three and never shows a bootstrap; bootstrap-displacement alone fails, and ignores the settings of its own section.
* `C95_analysis_works_refuted`, `C96_simulator_reconfigured_refuted`, `C96_default_factor_refuted`: Command line: no constrained model can be analysed; a changed simulator configuration has no effect; the default factor does not exist.
* `C97_matched_by_label_refuted`: Data and uncertainties with the same labels in another order are refused, not matched.
* `C98_large_data_refuted`, `C98_last_feature_refuted`, `C98_other_feature_refuted`: Above max_plotting_n samples there is nothing to plot, and repeated values make the constructor raise; the time series index is reduced modulo the number of rows instead of features.
* `C99_distributions_follow_mapping_refuted`: The bootstrap box plots of a factor show the runs' factors of the same number, even those mapped to another base factor.
* `C100_base_inside_bs_bar_refuted`, `C100_bsdisp_default_refuted`, `C100_summary_shows_defaults_refuted`: The base model can lie outside its bootstrap bar; an invalid dQ shows dQ 4 in the BS-DISP plots (documented: 0.5), and the summary shows BS-DISP at dQ 4.
* `C101_largest_decrease_refuted`: The number logged as largest dQ decrease reports increases of Q; decreases are reported as 0.
* `C102_training_lowers_robust_refuted`: Training minimises Q(true); Q(robust), by which models are compared, can grow.
* `C103_stalled_run_is_best_refuted`, `C103_zero_entries_refuted`: A run whose iterations change nothing can be far from the best factorization, and a zero entry can never become positive again even if that would improve the fit.
* `C105_factor_list_refuted`, `C105_both_refuted`, `C105_feature_surface_refuted`: plot_all_factors counts factor_list from 0 while all other plots count factors from 1; plot_all_factors_3d raises IndexError for the documented plot_type 'both'; plot_factor_surface shows factor 1 when only a feature is given.
* `C106_current_estimate_refuted`: The estimates shown in the estimated plots are cached at the first plot; replacing or retraining the model does not change them.
* `C108_share_is_of_the_mass_refuted`: The '% of Features' shown by the profile, fingerprint, pie and composition plots is the factor's share of the profile column, which depends on the arbitrary scale of each factor; it is not the share of the feature's mass.
* `C110_report_is_last_of_history_refuted`: For row-major data the compiled engine's history is the loss of rearranged data; the reported Q(true) is computed from the real data and differs from the last entry (V=[[1,2],[3,4]]: history 4, reported 2).
* `C110_training_never_worsens_refuted`: With row-major data training can worsen the fit: an exact solution of V=[[1,2],[1,2]] ends with Q(true) = 1.
* `C111_held_profiles_stay_refuted`: Calling train(hold_h=True) on a trained model rearranges the profiles it is told to hold: a perfect 2-factor model of V=[[2,4],[2,4]] ends with Q(true) = 4.
* `C112_leading_minus_refuted`: A minus sign before the first term of an expression is ignored: -(0.66*[factor:1|feature:2])=0,250 is read with coefficient +0.66.
* `C112_one_unknown_per_cell_refuted`: Elements are identified by the text of their label: [factor:1|feature:2] and [factor:1|feature:02] are one cell but two unknowns.
* `C113_constraints_of_the_run_refuted`: `evaluate_constraints` lists the constraints present now with the values of the last solution, including constraints added after training.
* `C113_expression_table_current_refuted`: `evaluate_expressions` shows the expressions of the last training that could read them, not those in the list now.
* `C113_one_run_refuted`: After a training that reads its expressions but then raises, the expression table shows these expressions with the previous solution.
* `C114_highlight_refuted`: `plot_profile` computes outline colours for elements of expressions and constraints but does not use them.
* `C114_any_number_of_factors_refuted`: `plot_factor_fingerprints` indexes a ten-colour scale by factor and raises IndexError for more than ten factors.
* `C114_g_space_titles_refuted`: `plot_g_space` of a constrained model swaps the axis titles.
* `C114_g_space_average_refuted`: The G-space axes are titled avg=1, but the contributions shown have total 1.
* `C116_python_engine_refuted`: Without the compiled module, training that needs ws-nmf always ends in a TypeError: SA.train passes hold_h, which WSNMF.update does not take.
* `C117_callback_exception_refuted`: In parallel mode an exception of the progress callback ends the listener thread: later reports are lost although train succeeds; in sequential mode the exception is dropped and the reports go on.
* `C117_failing_batch_refuted`: When one model raises in parallel mode, DONE is never sent and reports of models that finished may never reach the callback.
* `C117_unpicklable_callback_refuted`: The callback is passed to every worker though the workers only need the queue; one that cannot be pickled (lambda, local function) makes parallel training fail.
* `C118_compiled_order_refuted`: The compiled engine sums Q(true) by rows and Q(robust) by columns; without any outlier it can report Q(robust) above Q(true).
* `C118_overflowing_outlier_refuted`: A scaled residual that overflows counts as zero in Q(robust).
* `C118_infinite_residual_refuted`: An infinite residual makes Q(robust) NaN where Q(true) is infinite.
* `C119_installed_package_suffices_refuted`: With scikit-learn installed, creating a DataImputer raises NameError.
* `C119_default_works_refuted`: With the default missing value (NaN) imputing raises AttributeError, whatever the data.
* `C120_list_of_features_refuted`: plot_factor_contribution raises KeyError when the features are a plain list.
* `C120_pies_matched_refuted`: The pies label the factors of LS-NMF and WS-NMF by their own numbers, not by the mapping.
* `C120_any_number_of_factors_refuted`: plot_factors raises for more than six factors.
* `C120_curves_by_name_refuted`: The curves of LS-NMF and WS-NMF are named after the PMF rows; with rows in another order they show another feature.
* `C120_same_fallback_refuted`: A feature number beyond the list wraps around in the pies and raises IndexError in the other plots.
* `C120_strictly_above_refuted`: The residual count headed '>|threshold|' includes residuals equal to the threshold.
* `C121_base_profiles_kept_refuted`: keep_H is documented to keep the base profiles; the engine starts from a rearrangement of them.
* `C122_undisplaced_is_not_a_swap_refuted`: A displacement refit starts from rearranged profiles, so a displacement of nothing can be reported as a factor swap.
* `C123_unperturbed_model_unchanged_refuted`: A perturbed model with unperturbed uncertainties does not reproduce an exact base model: both starting matrices are rearranged.
* `C124_best_at_most_every_start_refuted`: With data stored by rows a batch that starts from an exact solution, profiles held, returns a best model with a positive Q(true).
* `C125_negative_data_refuted`: Finite data with negative values, for which ws-nmf is documented, can make every entry of the compiled result NaN after all iterations have run; train still reports success.
* `C126_profile_plot_possible_refuted`: plot_profile_comparison picks entry int(100*R2) of a list of 100 colours, so a pair with R2 = 1 raises IndexError: the better the recovery of the simulated truth, the less can be plotted.
* `C126_plot_of_model_zero_refuted`: plot_comparison(model_i=0) and plot_profile_comparison(model_i=0) show the best-correlated model instead of model 0 (`if not model_i`).
* `C126_selected_of_given_batch_refuted`: Simulator.compare(batch, selected_model=i) prints the mapping found in the earlier comparison, whatever batch is given; the batch given replaces the one later plots read.
* `C127_product_of_truth_refuted`: update_contribution after get_data changes syn_sa.W, which is the same array, but not syn_sa.WH, Qtrue or the data; the documentation says the data are recalculated with each update.
* `C127_custom_profiles_untouched_refuted`: generate_profiles(profiles) with the right shape keeps the caller's matrix itself and overwrites its non-positive cells with 1e-12.
* `C127_summary_of_truth_refuted`: _create_sa stores the pair returned by qr_loss as syn_sa.Qrobust, so syn_sa.summary() raises TypeError for every simulator.
* `C128_zero_percent_means_unchanged_refuted`: a share that drops from one half to nothing is reported with a difference of 0 percent, because the difference is set to zero where the mean is below 1e-6.
* `C128_metric_labels_refuted`: plot_correlation_metrics applies the mapping to values that are already ordered by base factor, so that the box of a factor shows another factor's value when factors change places.
* `C128_method_name_any_case_refuted`: compare accepts the method in any case, but the constructor keeps it as it is: an object made with compare_method='RAAE' is compared by correlation.
* `C129_identical_runs_within_refuted`: runs that reproduce the base model exactly are reported outside the interquartile range, because the runs are rounded to 4 decimals before the comparison and the base model is not.
* `C130_daily_data_refuted`: min_timestep returns nothing for most data and its result is passed to resample: with daily data the plots of factor profiles, estimated time series and contributions raise AttributeError.
* `C130_hourly_samples_shown_refuted`: the data the plots do accept, hourly data, are shown as daily means: the 24 samples of a day become one point.
* `C131_every_point_visible_refuted`: plot_feature_data starts both axes at 0, so samples with a negative value, which the handler accepts, are outside the figure.
* `C131_ridgeline_shows_others_refuted`: plot_ridgeline checks for too few values only on the linear axis; on the default logarithmic axis one feature without two different positive values makes the plot of all features raise.
* `C132_zero_means_exact_refuted`: in binary32 the loss of factors 1+2^-23 and 1-2^-23 for the datum 1 is reported as 0 though their product is not 1.
* `C133_trained_on_saved_data_refuted`: `run` and `estimate` call get_data a second time on the saved simulator, so that models are trained on a second draw of noise, outliers and uncertainties; synthetic_data.csv and the simulator's own data are the first draw.
* `C133_plot_shows_last_run_refuted`: `simulator plot` shows the batch pickled by the last successful `simulator compare`, even if `run` has replaced the batch since.
* `C134_small_gain_refuted`: An iteration that gains little need not be near the best contributions: multiplicative updates leave small entries small, so convergence can be reported far from the optimum.
* `C135_limit_is_best_refuted`: Training need not approach the best solution even from positive matrices: with factors that start alike it stays at Q(true) = 1 although an exact fit exists.
* `C137_every_machine_can_run_refuted`: Bootstrap (by default), FactorEstimator, FactorCompare, Perturbation and BSDISP ask for 0 processes on a machine with one processor and raise ValueError; BSDISP's `cores` attribute becomes 0 there even if 4 were asked for (it is never used).
* `C137_second_call_repeats_refuted`: Calling Bootstrap.run twice with the same seed gives different results: the generator is not restarted.
* `C137_swaps_at_most_runs_refuted`: Calling BSDISP.run again adds the counts of Q drops and swaps of the second call to those of the first: with 2 runs the log can say 6 swaps.
* `C138_plot_matches_range_refuted`: After FactorEstimator.run for counts 2..3 and a second call for 3..3 (which raises), plot() shows the error of count 2 at count 3.
* `C139_pies_matched_refuted`: CompareAnalyzer.plot_factor_contribution ignores the mappings: slices of the same name in the three pies are not matched factors.
* `C139_stack_refuted`: plot_fingerprints with a mapping that names a column twice: the bars of a feature do not stack to 100.
* `C139_species_order_refuted`: plot_feature_timeseries labels the LS and WS products with the species of the PMF table: with species in another order a line is that of another species.
* `C140_start_does_not_matter_refuted`: With hold_h and two factors of the same profile the contributions keep the shares they start with, so they depend on the seed.
* `C141_zero_data_refuted`: WS-NMF can stay for ever at a state whose non-negative profiles are not the best ones for its contributions: the quadratic terms of the profile step (ws_nmf.py 85-92) use products of the positive and of the negative parts of the contributions, not the parts of their products, so with contributions of both signs the step is not driven by the derivative of Q.
* `C141_on_the_way_refuted`: With positive data and positive profiles a WS-NMF iteration may return negative contributions.
* `C142_rescale_features_refuted`: Expressing one feature in another unit changes what a WS-NMF iteration returns for it beyond that unit: EPS is added to numerator and denominator of the profile step (ws_nmf.py 85-92) unscaled.
* `C143_ws_repeated_features_refuted`: A feature that occurs twice is not fitted by WS-NMF exactly as one with its uncertainty divided by the square root of two: EPS is added to numerator and denominator of the profile step (ws_nmf.py 85-92) unweighted.
* `C143_robust_loss_refuted`: Q(robust) of a table in which samples repeat is larger than that of the equivalent weighted table once the weighted residual passes alpha (metrics.py 29-37 caps each cell by itself), although Q(true) is the same.
* `C145_longer_window_refuted`: A larger converge_n is not a stricter setting in general: where the loss rises and falls (WS-NMF), the longer window can compare two nearly equal losses and stop the run earlier (lib.rs 371-376, sa.py 448-453).
* `C146_same_alpha_refuted`: Multiplying all uncertainties by one number does not just rescale Q(robust): alpha is a fixed number of uncertainties (metrics.py 29-37).
* `C147_not_held_refuted`: Unless the profiles are held, the contributions of a sample depend on the other samples already after one LS-NMF iteration (by design of the method; listed as the boundary of C147).
* `C148_any_order_refuted`: If a library sums edge blocks in another order, two identical samples with identical starts can get different contributions after one iteration (boundary of C148, not a defect of esat's code).
* `C36_max_search_refuted`: max_search is documented as the limit of search steps; it is stored and never read: the limits are the constants 100 and 50.
* `C150_robust_updates_refuted`: robust_mode=True is documented to use robust weights in the updates after robust_n iterations; neither engine does: the arguments are not read by the loops. One sample with an outlier gets the ordinary least-squares contribution (50.5) instead of the robust one (499/103).
* `C151_default_start_refuted`: The default initialisation is not unit free: contributions are drawn around the root of the mean of a sample over all features. Two samples, two features, the second in units a quarter as large: one iteration from the same draws gives a product of 2/5 instead of 1 in a cell whose unit did not change.
* `C152_limit_only_reduces_refuted`: Documented: the limits of expressions decrease the amount of change. When a reduction to 0.98^100 (13 %) is not enough the expressions are dropped without notice. One cell with uncertainty 1/1000, expression 2*x, limit 250: no change at all.
* `C154_delayed_instalments_refuted`: With delay_h two calls of train do not do what one call with the sum of their limits does: the iteration number starts afresh in every call, so the profiles are held again.
* `C155_smaller_batch_succeeds_refuted`: A verbose sequential batch of one model with a NaN loss fails (IndexError in the log line), a batch of two with the same seed succeeds.
* `C156_initialize_again_refuted`: The seed of an object does not fix the start: a second initialize() continues the generator and gives other matrices.
* `C156_given_profiles_same_contributions_refuted`: With the same seed, giving the profiles changes the contributions drawn: they take the numbers the profiles would have taken.
* `C153_names_best_refuted`, `C153_report_possible_refuted`: After a failed sequential call of a batch object that had succeeded before, details() names a model that is not the best of those listed, or raises IndexError: results are replaced, best_model is not.

## Checking the theorems against wrong programs

`seeded/LOG.jsonl` records edits of the model definitions made in scratch copies.
Some put a plausible bug into the code ("claim" names the statement it breaks),
others repair a defect the theorems describe, which must break them too.
"failed" lists the theorems whose proof no longer goes through (directly, or
because a lemma it uses fails); "tightened" the theorems strengthened because an
edit had gone unnoticed (the same edit was then tried again).
