# Formal model of TomOpt in Rocq (Coq 8.16.1)

The theorems are about a hand-written Gallina model of the Python code in /repo. The code was read, not run.

## Layout

| Directory | Content |
|---|---|
| `rocq/theories/Base` | lists, masks, real-number and trigonometry lemmas, extended numbers (finite / +inf / -inf / NaN) |
| `rocq/theories/Model` | the model, function by function, no proofs; every definition cites the /repo lines |
| `rocq/theories/Spec` | small independent specifications used in theorem statements |
| `rocq/theories/Proofs` | lemmas |
| `rocq/theories/Properties` | property theorems only, with `Print Assumptions` and non-vacuity `Example`s; the proofs there are short and use the lemmas in `Proofs` |

Naming: a theorem for property `Cnn` starts with `Cnn_`. `_partial` marks a theorem covering part of the property; `_refuted`
marks a proof that the property, as stated, is false of the model, with a witness.

## Modelling decisions

* **Numbers.** Tensor entries are mathematical real numbers (Coq `R`). Rounding and overflow of float32 are not modelled.
  Where NaN or infinities decide behaviour (masks, filtering, division by zero), entries are `xr` = finite real | +inf | -inf | NaN with
  IEEE-like operations and comparisons (comparisons with NaN are false). The sign of zero is not modelled.
* **Tensors** are lists (one element per muon, panel, voxel, ...). Boolean indexing `t[m]` and masked assignment `t[m] = v` are modelled as
  functions on lists which fail (an error value) when the shapes disagree.
* **Exceptions** are values (`Err`). A theorem says so when it is about an error branch.
* **Random draws** (numpy / torch RNG) are explicit arguments or oracle functions; theorems quantify over all of them.
* **Mutation** becomes state passing. Where aliasing matters (parameter storage shared between panels, an argument changed in place) a heap of
  storage cells is modelled.
* **Autograd** is not modelled; where gradients are used (C100), what is trusted about them is a hypothesis of the theorems. Optimiser steps are arbitrary functions of the parameters, quantified over.
* **Callbacks** in the fitting loop are arbitrary state transformers that may raise at any event.

## Trusted base

* Coq 8.16.1 kernel (and coqchk for the gate).
* The axioms listed per theorem below, all from Coq's standard library: the real numbers are built on
  `ClassicalDedekindReals.sig_forall_dec`, `ClassicalDedekindReals.sig_not_dec`, `functional_extensionality_dep`, and some
  lemmas about reals use `Classical_Prop.classic`. No other axioms, no parameters, no admitted proofs.
* The reading of the Python code into the model: that each definition in `rocq/theories/Model` says what the cited lines do,
  within the modelling decisions above. This is checked by nothing but review; mutations of the model (`seeded/LOG.jsonl`)
  check that the theorems notice changes of it.
* The reading of torch/numpy operations (masking, clamp, min/argmin, nan_to_num, searchsorted, remainder ...) into the model.

What `Print Assumptions` reports for each property theorem:

<!-- assumptions:begin -->

Closed under the global context (no axioms):
C97_panel_built, C97_panel_owns, C97_panel_all, C97_heat, C97_step, C97_step_order, C97_lr, C97_mom, C97_count, C62_list, C62_generator, C80_nested_refuted, C48_heatmap_refuted, C54_rows, C54_failure_refuted, C100_no_muons, C104_layout, C104_layout_refuted, C110_mirrored_place, C02_filter_records_removed, C24_raises, C109_load, C109_restored, C109_own, C109_after_schedule, C109_wrapper, C109_sizes, C109_order, C109_from_panel, C109_from_heat, C109_from_arb, C110_exchanged_place, C22_cube, C93_first_move.

Axioms `ClassicalDedekindReals.sig_forall_dec`:
C97_budget_refuted, C97_groups_refuted, C97_momentum_refuted, C113_start, C104_metric, C104_history, C104_history_refuted, C56_no_budget, C61_unknown, C94_leader, C09_copy_faithful, C109_name_refuted, C109_volume_refuted, C93_layer_refuted.

Axioms `ClassicalDedekindReals.sig_forall_dec`, `FunctionalExtensionality.functional_extensionality_dep`:
C97_shared_refuted, C112_class, C112_returned, C55_shifted, C55_symmetric, C55_asymmetric_refuted, C63_contained, C63_orientation_refuted, C63_voxels, C63_present, C63_absent_refuted, C63_materials, C63_block_present, C63_hangs, C63_hang_refuted, C81_voxels, C48_limited, C48_not_finite, C48_conformed, C48_update_refuted, C49_cleaned, C49_no_gradient, C49_no_gradient_refuted, C51_centred, C51_shared, C51_independent_refuted, C114_start, C114_cost, C114_track, C114_voxels, C114_probability, C114_probability_refuted, C41_order, C41_order_always, C41_matched_refuted, C42_updates_bound, C42_updates, C42_updates_exact, C42_predict_no_update, C43_batch_loss, C44_fit_clean, C44_predict_clean, C44_fresh_start, C44_mkdir_refuted, C45_pairs, C45_no_prediction_refuted, C75_shuffle_refuted, C103_frames, C103_kept, C103_not_heat, C103_nothing_to_plot, C103_removed_refuted, C103_early_refuted, C87_cost, C88_conform, C88_fixed, C88_bounds_refuted, C89_new, C89_square, C89_square_refuted, C35_efficiency, C35_bounds, C35_monotone, C35_one_panel_refuted, C38_mean_bounds, C39_voxel_probs, C39_mass_at_most_one, C39_refused, C40_pool, C40_block_count, C40_block_too_small, C40_block_size_refuted, C65_round_trip, C65_layer, C65_layout, C83_square, C83_pixels_refuted, C84_no_uncertainty, C13_voxel_of_muon, C113_voxels, C113_voxels_stay, C113_voxels_refuted, C101_fit, C101_no_prediction_refuted, C101_descent, C101_best, C101_diverges_refuted, C104_epochs, C104_no_batch, C104_metric_axis_refuted, C104_gif, C104_files_refuted, C92_sizes, C92_each_once, C92_empty, C92_block, C92_fit_refuted, C92_height_refuted, C58_value, C58_batch, C58_range, C58_move, C76_rows_refuted, C59_targets, C59_voxel_loss, C59_conversion, C59_no_classes, C59_collision_refuted, C60_mass, C60_volume, C60_agree, C60_invariant, C60_between, C60_errors, C60_lengths, C61_round_trip, C77_mse, C94_sign, C94_best, C94_best_loss, C94_last, C94_again_refuted, C94_names_refuted, C94_nan_refuted, C94_early, C110_mirrored_voxels, C53_epoch, C53_fractions, C53_history, C53_few_volumes, C53_lost_refuted, C53_zero_refuted, C111_fit, C111_never_more, C111_predict, C111_less_than_a_batch, C111_predict_less_than_a_batch, C111_remainder_refuted, C08_xy_masks_tile, C08_mask_per_muon, C107_steps, C107_flat, C99_fit, C99_interrupted, C99_predict, C99_count, C99_pocas, C99_inside, C99_hits, C99_layers, C99_layers_refuted, C98_files, C98_updates, C98_last, C98_interrupted, C98_unique_refuted, C25_fit_exact, C26_fit_minimal, C28_too_few_hits, C29_entry_exit, C109_schedule_refuted, C109_new_detector_refuted, C109_partly_refuted, C109_missing_refuted, C110_moved, C110_order, C110_units, C26_tracks, C26_gen_tracks, C40_pool_exact, C86_mask, C86_lookup, C110_exchanged_voxels, C18_mask, C21_conform, C21_already_inside, C22_edges, C22_centres, C22_C23_lookup, C22_C23_no_passives, C22_edges_refuted, C23_in_range, C23_upper_face_refuted, C23_argument_refuted, C93_x0, C93_shape, C90_coefficient, C90_blind_refuted, C91_rates, C91_steps, C91_zero_refuted, C91_missing_refuted, C91_unknown_refuted, C46_frozen_epochs, C46_windows, C46_post.

Axioms `ClassicalDedekindReals.sig_forall_dec`, `ClassicalDedekindReals.sig_not_dec`, `FunctionalExtensionality.functional_extensionality_dep`:
C95_walls, C95_grid, C95_overlap_refuted, C95_into_detector_refuted, C95_bad_values, C95_ladle, C95_efficiency_refuted, C95_smoothness_refuted, C112_fresh, C112_usable, C112_twice, C112_numbers, C112_not_a_number, C112_places, C112_units, C112_score, C52_sound, C52_ends, C52_never, C52_complete_refuted, C114_prediction, C64_norm, C100_propagation, C100_own, C100_quadrature, C100_entry, C100_x0, C100_true_hits_fail, C100_true_hits_refuted, C100_infinite_refuted, C87_peak, C34_reads_fresh, C34_reads_fresh_any, C34_after_error_refuted, C36_kept, C37_inverts, C37_shape, C38_rms_bounds, C38_scaled, C38_zero_weights, C40_no_scatters_refuted, C72_between, C72_exact, C73_nothing_left, C73_none_refuted, C82_distribution, C85_finite, C85_few, C85_finite_refuted, C113_prediction, C57_coefficient, C57_fixed, C110_mirrored_x0, C03_C04_scattering_folds_and_removes, C05_propagate_dz, C05_propagate_d, C05_propagate_dz_additive, C05_propagate_d_additive, C05_propagate_d_is_dz, C96_usable, C96_order, C96_twice, C96_unseen, C107_distribution, C107_default, C107_gauss_1d, C107_gauss_3d, C107_layers_refuted, C108_reads_fresh, C108_prediction, C108_order, C108_nothing, C24_restored, C24_no_budget, C24_budget, C24_budget_refuted, C27_poca, C27_meeting_lines, C69_gap, C32_theta_phi_changes, C47_rates, C47_ramp, C47_refuted, C47_raises_refuted, C47_unknown, C110_exchanged_x0, C18_build, C20_budget_spent, C20_new_volume, C22_same_size, C93_wall, C93_ends, C93_walls, C93_low_refuted.

Axioms `ClassicalDedekindReals.sig_forall_dec`, `ClassicalDedekindReals.sig_not_dec`, `Classical_Prop.classic`, `FunctionalExtensionality.functional_extensionality_dep`:
C112_units_refuted, C112_half, C112_softmax, C102_scatter_tells, C102_nothing_deflected, C114_generated, C114_volume, C114_layer, C114_efficiency, C114_training_refuted, C114_scatters, C114_kept, C114_kept_refuted, C106_nan_flux, C106_below_horizon, C106_usable_refuted, C106_momentum, C64_kinematics, C64_zero_energy, C64_cells, C64_models, C64_falls, C78_bin_width_refuted, C79_minimum_angle, C79_not_tight, C79_tight_refuted, C100_none_infinite, C87_response, C87_nominal_refuted, C87_bad_width, C88_width_refuted, C89_hits, C89_rows, C89_nan, C89_realistic_x, C89_realistic_refuted, C36_views, C40_score, C40_sigmoid, C74_empty_batch, C74_robust_refuted, C82_edge_refuted, C84_height, C84_cuts, C84_weights, C84_few, C84_number_refuted, C10_layer_exit, C10_layer_no_exception, C11_empty_layer_straight, C12_outside_not_scattered, C14_displacement_transverse, C15_deflection_angle, C16_angle_limited_above, C16_angle_limited_refuted, C66_displacement_opposite, C66_displacement_side_refuted, C67_upward_scatter_reversed, C67_upward_scatter_removed_refuted, C68_skips_layer, C68_scattered_all_the_way_refuted, C113_volume, C56_steep, C56_not_steep, C59_volume_loss, C01_batch_is_independent_muons, C02_muons_conserved, C05_wrong_size, C06_theta_phi_round_trip, C06_theta_xy_round_trip, C06_distance, C07_scatter_dtheta_xy, C07_vertical_muon_refuted, C09_batches_isolated, C105_no_noise, C108_range, C108_smooth_refuted, C28_kept_muons, C28_no_exception, C28_single_muon_refuted, C30_direction, C70_projected_angles, C31_total_angle, C31_symmetric, C31_scaling, C33_cached_is_fresh, C71_true_tracks, C50_values, C50_range, C50_no_exception, C50_single_epoch_refuted, C110_moved_scatters, C110_exchanged, C110_exchanged_scatters, C110_exchanged_azimuths, C110_vertical_refuted, C110_same_height, C110_same_height_refuted, C17_detector_layer, C17_one_hit_per_panel, C17_no_exception, C18_realistic_hits, C18_smeared_hits, C19_response_shape, C19_infinitely_far, C19_tiny_nominal_refuted, C19_nan_position, C93_flat_refuted.
<!-- assumptions:end -->

## What is modelled

| Code | Model | Left out |
|---|---|---|
| `muon/muon_batch.py` | `Model/MuonBatch.v` (values), `Model/MuonHeap.v` (object identity of copies) | device handling, `__repr__` |
| `volume/layer.py` | `Model/Layer.v` (passive layer), `Model/Volume.v` (detector layers) | `geant4` scattering (raises in the code), abstract classes |
| `volume/panel.py` | `Model/Panel.v` | gradients |
| `volume/volume.py` | `Model/Volume.v` | drawing, device handling |
| `inference/scattering.py` | `Model/Scatter.v` | plotting; gradients (`_compute_out_var_unc` is any function here; see `Model/Grad.v` below) |
| `inference/volume.py` | `Model/X0Infer.v`: `AbsX0Inferrer`, `PanelX0Inferrer`, `DenseBlockClassifierFromX0s` | prediction uncertainties (see `Model/Grad.v` below), `AbsIntClassifierFromX0`; the Normal CDF is any distribution function |
| `optimisation/wrapper/volume_wrapper.py` | `Model/Fit.v`: `fit`, `_fit_epoch`, `_scan_volumes`, `_scan_volume`, `predict`, with everything they call (callbacks, volume, inference, loss, optimisers, data) as arbitrary functions on a world that may raise | construction of optimisers, progress bars |
| `optimisation/callbacks/pred_callbacks.py` | `Model/PredCb.v` | compression and dtype of the HDF5 file; the file is two lists of rows |
| `optimisation/callbacks/warmup_callbacks.py` | `Model/Warmup.v`: `WarmupCallback`, `PostWarmupCallback` | `CostCoefWarmup` and `OptConfig`: see `Model/WarmOwn.v` below |
| `optimisation/callbacks/opt_callbacks.py`, `detector_callbacks.py` | `Model/Schedules.v`: `OneCycle`, `SigmoidPanelSmoothnessSchedule` on top of the warm-ups | `EpochSave`: see `Model/Saver.v` below; panels that are not sigmoid panels |
| `optimisation/loss/loss.py`, `sub_losses.py` | `Model/Loss.v` | debug output; `integer_class_loss` with more than one axis before the classes |
| `utils.py` | `Model/Utils.v` | `jacobian`: see `Model/Grad.v` below |
| `muon/generation.py` | `Model/Generation.v` | conversion to float32, energy ranges with ends of opposite sign, `searchsorted` on a cumulative flux that is not sorted |
| `optimisation/data/passives.py` | `Model/Passives.v` | devices; the infinite loop of `enforce_diff_mat` is a finite list of draws, `None` when it is used up |
| `benchmarks/ladle_furnace/*`, `AbsIntClassifierFromX0` of `inference/volume.py` | `Model/Ladle.v`: the generator, both inferrers and both losses | other pipelines: see `Model/Pipeline.v` below; `LinearCorrectionCallback`: see `Model/LinCorr.v` below; how `PocaZ...` combines and keeps its variables: see `Model/PocaZ.v` below |
| `optimisation/callbacks/detector_callbacks.py` (update limiter, centring), `grad_callbacks.py` | `Model/DetCb.v`: parameters as storages in a memory, so that sharing is visible; gradients may be missing | optimisers in detail: a step is any change of memory (C48) or one in-place update per panel (C51) |
| `optimisation/callbacks/data_callbacks.py`, `ScatterRecord._to_df` of `diagnostic_callbacks.py` | `Model/DataCb.v`: the resampling loop with a bound on the rounds, the binning by `pd.cut` | the generator (any function of call and number); the data frame itself; the recording: see `Model/Record.v` below |
| `optimisation/callbacks/monitors.py` | `Model/Monitor.v`: `MetricLogger`'s counters and histories, run along the trace of a fit; the sub-losses of each evaluation are given | the stack of sub-losses; metrics and `get_results` are in `Model/Metric.v`, plots, printing and `get_loss_history` in `Model/LogPlot.v` |
| `optimisation/wrapper/volume_wrapper.py`: `save`, `load` | `Model/SaveLoad.v`: what is in the file for panel detectors, strict loading into a wrapper, the optimisers' states as opaque values | the file format, devices, what a failed load leaves behind (this and heat maps: `Model/StateDict.v`) |
| `optimisation/wrapper/volume_wrapper.py`: `save`, `load`, the three `from_save`; `callbacks/detector_callbacks.py`: the objects that `SigmoidPanelSmoothnessSchedule` sets | `Model/StateDict.v`: tensor objects with shapes and values, which may be shared; keys of panels, sigmoid panels, heat maps with their GMM and the budget; torch's strict loading entry by entry, with what is written before it raises; optimisers with groups, settings and states by parameter, and names with and without `_opt` | devices, dtypes, the file format, `assign_budget` (any function; a saved file never makes `load` call it) |
| `volume/heatmap.py`, the heat-map branch of `conform_detector` in `volume/layer.py` | `Model/Heat.v` | plotting, the order of float operations in the mixture density and its underflow far from all means, `n_cluster=0` |
| `optimisation/callbacks/warmup_callbacks.py` (`CostCoefWarmup`, `OptConfig`) | `Model/WarmOwn.v` | printing; the loss function and back-propagation give arbitrary errors and gradients; gradients of one optimiser that have different shapes |
| `benchmarks/u_lorry/data.py` | `Model/Lorry.v` | `n_u_voxels` (not used); float equality of volumes (exact over the reals) |
| `benchmarks/small_walls/data.py` | `Model/Walls.v` | the default X0s (see C60 for mixtures); negative `min_length`, `min_height` |
| `optimisation/callbacks/eval_metric.py`, `monitors.py` (`_reset`, `on_epoch_end`, `get_results`) | `Model/Metric.v`: marks of main metrics, choice of the logger, logged values, results | metrics without a value (`None`); printing and plots are in `Model/LogPlot.v` |
| `benchmarks/small_walls/volume.py`, `benchmarks/ladle_furnace/volume.py` | `Model/BenchVol.v` | devices; `get_small_walls_volume_wrapper` (optimisers and generator); float error in `np.arange` |
| `volume_wrapper.py` (`_build_opt` of the three wrappers, `get_param_count`, `get/set_opt_lr`, `get/set_opt_mom`) | `Model/Build.v` | the update rules themselves (any rule that acts on one parameter at a time); gradients; the default muon generator |
| `optimisation/callbacks/diagnostic_callbacks.py` (`ScatterRecord`, `HitRecord`) | `Model/Record.v`: the recorder as one callback of a fit or prediction, the layers of hits | the data frame itself; batches with different numbers of panels |
| `optimisation/callbacks/opt_callbacks.py` (`EpochSave`) | `Model/Saver.v` | the content of a file is an arbitrary function of the state (wrapper.save); writing may raise; the folder is a list of writes, the last write to a name counts |
| `utils.py` (`jacobian`), `inference/scattering.py` (`_compute_out_var_unc`), `inference/volume.py` (`_get_voxel_zxy_x0_pred_uncs`) | `Model/Grad.v` | autograd: the products of vectors with the Jacobian are given; `right_gradients` in `Spec/GradSpec.v` says what is trusted (each entry the derivative, or NaN) |
| `benchmarks/ladle_furnace/inference.py` (`LinearCorrectionCallback`) | `Model/LinCorr.v`: the callback in a fit, with an arbitrary optimiser; gradients of the mean squared error; plain gradient descent | predictions with more than one element; moving to a device |
| `Model/Observer.v`, `Model/HeatGif.v` | `optimisation/callbacks/heatmap_gif.py` `HeatMapGif`: the buffer of names, the pictures, the gif; the callback as one that reads `fit_params` and the volume and has attributes of its own | A picture is any value `D` read from the state; plotting and writing may raise (`can`). Opening the gif writer is taken to make an empty file (imageio's). |
| `Model/LogPlot.v` | `optimisation/callbacks/monitors.py` `_build_grid_spec`, `_prep_plots`, `update_plot` (loss, validation and metric curves), `print_losses`, `get_loss_history`, `_snapshot_monitor`, `_create_gif` and the two callbacks that use them | the stack of sub-losses, colours, labels, limits, the outlines of the panels, what a picture looks like |
| benchmarks/ladle_furnace/inference.py `EdgeDetLadleFurnaceFillLevelInferrer`: all steps, any pipeline, `add_batch_dim` | `Model/Pipeline.v` | tensors by rank; what torch does with a tensor of another rank is followed where it raises or ends in class probabilities, otherwise `RankChanged` |
| `benchmarks/ladle_furnace/inference.py` PocaZLadleFurnaceFillLevelInferrer: memo fields, `_combine_scatters`, properties, `smooth` setter | `Model/PocaZ.v` | with `height_with` of `Model/Ladle.v`; compute_efficiency is the text of PanelX0Inferrer's |
| `inference/volume.py` (classifiers over several batches, with NaN and infinite voxel predictions) | `Model/Classify.v` | `x02probs` and `class2float` are arbitrary functions; one row of probabilities; torch's argmax and kthvalue take NaN as largest |

Further notes on simplifications:

* `Scatter.v`: float32 rounding could make the argument of arccos exceed 1 for parallel tracks (NaN, and the muon is dropped);
  over the reals it is exactly 1 (and the muon is dropped because the angle is 0). A batch without muons and fewer than two
  panels raises in the code; the per-muon model does not.
* `Scatter.v`: hit uncertainties of infinity become the largest float32, whose square overflows; the weight is then exactly 0.
  This is the only place where the float32 range is modelled (`inv_sq`).
* `X0Infer.v`: a scatter batch enters as the tensors read from it (`sview`); a batch whose properties raise is kept as the exception,
  raised when the batches are combined. The scatter batches themselves are not changed after they were added.
* `Fit.v`: a callback is any function on the loop's parameters (`fit_params`) and the rest of the world. C41-C43 are about callbacks
  that do not write the loop's own settings (`tame` in `Spec/FitSpec.v`); they may set `stop` and `skip_opt_step`. C44 has no such hypothesis.
* `Fit.v`: the length of the data does not change during a run; items are loaded by index.

* `CbView.v`, `Warmup.v`: callbacks that react to what they see of `fit_params` and of the things they act on (`view`); `Spec/ReplaySpec.v`
  says what it means that the callbacks of a fit react like that (`follows`) and replays a trace. Other parts of the fit do not write what is seen.

## Findings

Properties that turned out false of the code (theorems named `..._refuted` give the witnesses):

* C07: scattering in x/y to exactly vertical gives 0/0 and removes the muon.
* C16: the clamp of the PDG model bounds large angles on one side only.
* C19: resolution and efficiency are clamped at 1e-10 from below, also for smaller nominal values.
* C22: the voxel edges are rounded and only right when the bottom of the stack is at a multiple of the voxel size.
* C23: points on the upper faces give an index outside; `lookup_passive_xyz_coords` changes its argument in place.
* C28: a scatter batch of exactly one muon that has to be filtered: `squeeze_()` leaves a 0-dimensional mask; indexing adds an
  axis instead of removing the muon.
* C34: with a single panel on a side `compute_efficiency` raises IndexError after the variables were stored; asked again, the number
  of muons and their efficiencies are None.
* C40: `xyz_centres.numel()` counts three coordinates per voxel, so the cut selects about a third of the block; no scatters raise TypeError.
* C73: no usable muons: 0/0 weights, ValueError.
* C74: a scatter batch without muons: `nan_to_num(None)` raises TypeError at every later read.
* C41: with fewer volumes than the batch size, `on_volume_batch_begin` is not matched by `on_volume_batch_end` and nothing is updated.
  The documented list of events in `callback.py` leaves out `on_volume_end` and `on_step_end`.
* C44: `fit` makes the output folder after setting `fit_params` and before the `try`; if that fails the wrapper keeps them.
* C45: a volume without a prediction makes `PredHandler` raise AttributeError (`None.detach()`).
* C54: a write that stops between the two datasets leaves one row more in one of them; later rows are not paired.
* C46: a post-warm-up callback listed before all warm-ups is switched on one epoch later than one listed after them.
* C47: `OneCycle` switches phase one epoch late (and by the absolute epoch, not counted from its activation); the second phase starts at
  the final value and rises towards mid; its length counts the warm-up twice, so the end is not reached and the length may be 0
  (ZeroDivisionError). A warm-up length of 0, warm-ups longer than it, and a missing mid value raise as well.
* C50: with a single active epoch the smoothness stays at the start of its range.
* C75: `predict` sets `shuffle = False` on the caller's passive volumes and does not restore it.
* C59: the losses relabel X0s to classes in place, value by value; a class number equal to a larger X0 of the volume is relabelled again.
* C76: `integer_class_loss` with one target per row, as documented, pairs the targets with the classes (or raises). The loss never exceeds 1,
  so the values 1.0007 and 8.8773 in its documentation are not of this function.
* C63: a fixed block size that fits in one orientation only is placed outside of the volume; a block of the size of a voxel can be rounded
  away; `enforce_diff_mat` with a single material never ends.
* C78: energies are drawn from geometric bins by the flux at their centre, without the width of the bin; high energies come out too seldom.
* C79: the generation region of `from_volume` is too large by `tan(min_angle)` times the voxel size (the lower end of the passives is taken one
  layer too low).
* C80: starting a pass over a `PassiveYielder` shuffles the list in place under a pass in progress, which then repeats or skips layouts.
* C82: with the default pipeline the edge between air and the ladle's content can be found three layers too low on exact X0s. Pipelines with
  `gauss_3d` or `gauss_1d` drop the batch axis (`squeeze()`) and break (C107).
* C83: the number of pixels in y is computed from the length in x: in non-square volumes pixels are missing or outside.
* C84: the weights are clipped at their 84% quantile; if fewer muons than that have a weight, all are clipped to 0 and the height is NaN.
* C85: `SpreadRangeLoss` raises if no target was seen twice, and is NaN if only one was.
* C48: the update limiter bounds the step, but conforming the detector afterwards can push a panel further in z (random margin). With heat-map layers the limiter raises `AttributeError`.
* C49: `NoMoreNaNs` raises when a parameter has no gradient, as after `zero_grad` when no volume of the batch gave a loss.
* C51: `PanelCentring` gives all panels of a layer the same tensor, so the next optimiser step moves each of them by the sum of all updates.
* C52: the resampler only looks at the tops of the passive layers, so a muon that enters the volume through a side below the top of the lowest layer is replaced although it crosses. Without passive layers the loop never ends.
* C55: `ScatterRecord` bins h - z with edges that are heights from the ground; the layer is right only if the space above the passive volume is as high as that below it, otherwise scatters get another layer or none.
* C53: the logged composition of the validation loss sums to one only if every volume has a prediction (otherwise it is N/V, for N volumes of which V have one: `C53_lost_refuted`); a loss of exactly zero (`C53_zero_refuted`) or a validation set smaller than a batch (`C53_few_volumes`) makes logging fail with `ZeroDivisionError`.
* C24: `load` checks for `budget_weights` among the entries of the file instead of in its `volume` entry, so it never assigns the budget: until the next crossing, the effective spans, costs and responses of the panels are not the saved ones (`C24_budget_refuted`). Without a budget, and after the next assignment, they are.
* C109: `SigmoidPanelSmoothnessSchedule` gives one tensor object to all sigmoid panels. If they had different smoothness when they were saved, a later load gives all of them that of the last panel (`C109_schedule_refuted`); with equal smoothness all is well (`C109_after_schedule`).
* C109: in the epochs of that schedule the smoothness has no axis, in a new panel it has one: what is saved then, as by `EpochSave`, cannot be loaded into a newly built detector (`C109_new_detector_refuted`).
* C109: a load that raises has already written all that fits (`C109_load`, `C109_partly_refuted`, `C109_missing_refuted`). An optimiser without `_opt` in its name is saved but not loaded (`C109_name_refuted`); one called `volume` takes the place of the detector in the file (`C109_volume_refuted`). The settings given to `from_save` have no effect beyond that they are needed (`C109_from_panel`, `C109_from_heat`).
* C87: the response of a heat map is scaled by the largest density at a mean, which is not the largest density: between close means the resolution exceeds the nominal one (`C87_nominal_refuted`).
* C88: the bounds for the means of a heat map mix x and y (lower bound from `xy_fix[0]`, upper from `xy_fix[1]`): off the diagonal, conforming moves the components out of the map's range (`C88_bounds_refuted`). Widths are limited to 0 from below, and a width of 0 makes every response NaN (`C88_width_refuted`).
* C89: `init_xy_span` is taken as a range, not as two spans: equal numbers raise ValueError (`C89_square`). With realistic validation the recorded x of all muons over the map is the same number (`C89_realistic_refuted`); the NotImplementedError meant for this case is not reached from `get_hits`.
* C90: if no training volume of the window has a prediction, `CostCoefWarmup` sets the cost coefficient to NaN (median of nothing), even if the user gave one; from then on
  every loss is NaN.  With `n_warmup=0` the coefficient is never set.
* C91: a rate for a name that no optimiser has is not noticed when the callback starts; the first update raises `KeyError` (`C91_unknown_refuted`).
* C91: `OptConfig` divides by the median gradient; if it is zero the learning rate is infinite.  A batch without a prediction has no gradients, and the fit stops with an
  AttributeError.  The docstring says that learning rates are zero during the warm-up; the code leaves them and skips the steps.
* C92: `ULorryPassiveGenerator` allows block sizes up to the largest extent of the volume in any direction; `np.random.uniform` with a negative range then puts the block into the
  lorry's floor or above the cargo.  `bkg_z_range` uses `fill_frac * z_range[1]` instead of a fraction of the height, so for volumes above the origin the cargo space may be empty and
  the block below the volume, with target 1.
* C93: the layout function of `SmallWallsPassiveGenerator` calls `.long()` on a numpy number: AttributeError for every layer.  Volumes of fewer than 7 layers (default `min_height`)
  raise ValueError for some random numbers.
* C94: a fit takes the mark `main_metric` from all but the first main metric for good; a later fit with one of the others alone has no main metric
  and reports the epoch with the lowest loss. Metrics of the same class have the same name by default, and only the last one is reported.
  If all numbers are infinite, an epoch with NaN is reported as the best one (`numpy.nanargmin`).
* C95: `get_small_walls_volume` rounds the heights of passive layers to two decimals. With a voxel size that is not a whole number of hundredths
  (an eighth, say) layers overlap or leave gaps and nothing complains. If the passive height is not a whole number of voxels the lowest
  passive layer reaches into the detector layer below it.
* C95: the second panel below in all three ladle-furnace layouts has `eff=1`, whatever efficiency is asked for.
* C97: a volume with a budget whose `PanelVolumeWrapper` gets no `budget_opt` (the default) never changes its `budget_weights`, although they are counted
  as trainable. `HeatMapVolumeWrapper` has no budget optimiser at all. Parameters of detectors that are not `PanelDetectorLayer`s are not optimised.
* C97: a panel object that is in two places is updated twice in a step (torch only warns). `set_opt_lr` changes the first parameter group only.
  `set_opt_mom` on an optimiser without momentum adds a setting that nothing reads, and then `get_opt_mom` reports it.
* C98: EpochSave says "to a unique file", but names files by epoch only, and epochs start at 1 in every fit: when training is resumed with the same cb_savepath, the files of the earlier fit are replaced (C98_unique_refuted).
* C99: HitRecord numbers layers by the distinct heights of all recorded hits. Training moves the panels, so in the record of a fit one panel has several layers, and there are more layers than panels (`C99_layers_refuted`). Records of a fit mix training and validation.
* C100: a `GenScatterBatch` has no uncertainties: they are gradients with respect to the recorded hits, on which its tracks do not depend; `None.reshape`
  raises AttributeError. An infinite hit uncertainty counts as 0 (muons with such hits were removed before).
* C28: `get_muon_trajectory` documents a NaN trajectory for muons with fewer than two hits; the code indexes the second hit and raises `IndexError` (`C28_too_few_hits`).
* C101: `LinearCorrectionCallback` reads the prediction of every volume; a volume without one (no muon used) ends the fit with AttributeError in training and TypeError in validation, where without the callback it would be skipped (`C101_no_prediction_refuted`). Its 10000 steps of gradient descent make the error larger when the learning rate is above a bound that depends on the data (`C101_diverges_refuted`; below the bound `C101_descent`).
* C102: a muon that is not deflected is never used (its tracks are parallel), so a beam through an empty volume gives an empty scatter batch: there is no evidence for the absence of material.
* C103: `HeatMapGif` leaves its `temp_heatmap_*.png` behind when a fit is interrupted, as the clean-up is only in `on_train_end`; and for a volume without detectors (or with a heat-map layer without panels) nothing is plotted, but the names are kept, so the fit raises FileNotFoundError after all epochs are done (`C103_removed_refuted`, `C103_early_refuted`).
* C104: `_build_grid_spec` has the test for a main metric the wrong way round: with a metric the grid has a row less than without. `MetricLogger` with `show_plots` then raises in `_prep_plots` (empty slice of the grid), `PanelMetricLogger` draws plots over each other. The axis of the metric is labelled "Epoch" but counts batches. `get_loss_history` has no metrics while training, and only the last of those with the same name. The `temp_monitor_*.png` are never removed. With fewer training volumes than a batch has, drawing raises `ZeroDivisionError` and NaN is printed (C104_no_batch).
* C105: in realistic validation one missed panel is enough to drop a muon, however many other panels of the group saw it: a further panel can only lower the number of used muons.
* C106: angle and energy ranges are not checked. With MuonGenerator2015 and angles beyond the horizontal the flux is NaN, the generator is made and every generate_set raises OverflowError; with MuonGenerator2016 the flux is negative there. Energies below the muon's mass give muons with NaN as momentum.
* C107: `gauss_1d` and `gauss_3d` of the ladle inferrer call `.squeeze()` and so drop the axis of the volumes. As the last step `gauss_1d` makes every prediction the single probability 1; elsewhere they make x02probs raise. `laplacian_1d` uses (1, -4, 1) and does not vanish on flat profiles. With add_batch_dim = False the default pipeline always raises IndexError.
* C108: the setter of `smooth` of PocaZLadleFurnaceFillLevelInferrer changes the weights of the pixels but not the prediction that was already made: it stays until the next batch is added. Witness: `C108_smooth_refuted`. Without any usable muon the prediction raises RuntimeError (kthvalue of nothing).
* C95: the second panel from the top of every ladle layout has smooth=0.1, the seven others 1.0 (`C95_smoothness_refuted`).
* C110: the direction of a track is the difference of the points of the fitted line at the heights of the first two hits of its side. If the two panels that come first are at the same height (conforming the detector adds a random shift when it clamps heights, which avoids this there, but nothing refuses panels built or set at equal heights) it is zero and every muon is dropped, although a third panel determines the line (`C110_same_height`, `C110_same_height_refuted`).
* C110: an exactly vertical track is given the azimuth 0, so the azimuth difference of such a muon is 0 if it leaves along x and a right angle if it leaves along y (`C110_vertical_refuted`).
* C111: muons are sent in full batches only, so of 7 asked for with a batch size of 5 only 5 are sent (`C111_remainder_refuted`), and with less than a batch a fit runs through all its epochs without sending a muon, without a loss and without an update, and without any message (`C111_less_than_a_batch`).
* C112: the dense-block score depends on the unit of length unless `cut_coef` is changed with it (C112_units_refuted). One voxel without a finite prediction makes the whole score NaN, without an exception (C112_not_a_number); a NaN voxel does not get that far with the X0 inferrer, which raises, but an infinite one does (no scattering in it). The voxel at the cut always counts half as block and half as background (C112_half), so a block of one voxel is blurred however sharp the cut.
* C113: moving a volume up or down changes heights only, but the voxel edges of the inference are rounded to multiples of the voxel size: a volume moved by less than half a voxel keeps its old voxels (C113_voxels_stay).
* C114: in the differentiable mode the resolution of a panel is clamped at 1e-10 in any unit, so the uncertainty of a muon far beside a panel is 1e10 and does not change with the unit of length (C114_training_refuted). Otherwise the crossing of volumes does not depend on the unit. In the inference two more lengths are written into the code: muons are dropped for hits with uncertainties from 1e10 on (C114_kept_refuted), and 1e-7 is added to the uncertainties of places before voxel probabilities are computed (C114_probability_refuted). Tracks, scatterings, voxels and X0 values scale.
* C66: the displacement of the PDG model goes to the side opposite to the deflection.
* C67: a deflection that turns the flight upwards is folded down and the muon kept, instead of being removed.
* C68: a muon displaced above the top of the layer is no longer scattered in it.

## Plan per property
* C01, C02 - `Model/MuonBatch`: batch as struct of arrays (muon rows, hits dictionary, removed list, snapshots), all operations by boolean indexing; spec: a list of independent muon objects each carrying its hits. Proof: refinement by induction over the operation list; C02 by a permutation invariant.
* C03, C04 - scatter_dtheta_dphi with modulo on reals (`x - 2pi*floor(x/2pi)`); proof by periodicity of sin/cos and floor bounds.
* C05 - propagation formulas, algebra (field).
* C06, C07 - angle conversions in `xr` (division by zero at the axes yields inf, arctan(inf)=pi/2, 0/0 NaN). Round trips proved with atan/tan lemmas; C07 expected false for exactly vertical results (0/0), to be shown as `_refuted`, with the positive statement elsewhere.
* C08 - half-open boxes: counting argument over an increasing grid (induction on the grid).
* C09 - copy reshuffles columns; isolation is by value semantics (clone) - modelled with an explicit two-batch state.
* C10-C12 - the traversal loop with an oracle for the scattering function; fuel-indexed loop, theorems about every finishing run; termination for the empty layer proved by exhibiting the number of steps.
* C13 - floor division; also the case of non-multiple sizes.
* C14-C16 - rotation algebra in R for `_pdg_scatter`; C16 expected false (one-sided clamp), `_refuted`.
* C17 - panel ordering (argsort reversed) and hit recording; induction over layers and panels.
* C18, C19 - panel response functions; exp/sigmoid monotonicity.
* C20 - softmax shares and square-root scale; finite sums.
* C21 - clamp semantics (torch clamp with min>max gives max).
* C22, C23 - index arithmetic over nested lists; C23 expected false at the upper faces and because the argument is changed in place.
* C24 - state dictionary versus object state; expected false because the budget scale is not part of the state and is not re-assigned on load.
* C86 - floors of the coordinates; C40 (averaging) - flattened grids.
* C87-C89 - logs and exponentials of finite sums; clamps.
* C90, C91 - the warm-up machine of C46 with the own code of one callback run along the trace; an invariant over epochs gives what has been collected in the window.
* C92 - floors of draws; which layer tops lie in a half-open interval of whole layers.
* C93 - induction over the rounds of the loop, which yields the path; every round takes a free cell, so the number of free cells bounds the rounds.
* C94 - marks, choice and history by induction over callbacks and epochs; `argmin` with NaN replaced.
* C95 - `np.arange` over whole steps, rounding of whole hundredths, induction over the layers.
* C96 - sums over permuted lists; the answer as a function of the muons kept (lemmas of C36).
* C97 - the lists of parameters as permutations of the parameter objects; a step as a list of single updates with distinct targets.
* C98 - EpochSave: numbers, contents and the last file of a fit, also of one that fails; proved, uniqueness over several fits refuted.
* C100 - the Jacobian of a batch is block-diagonal: derivatives of constants are 0 (uniqueness of limits), the rest is a sum with one term; extrapolation by C25.
* C101 - an automaton that reads the callback's attributes off the trace, an invariant through the fit, then the documented trace.
* C102 - row by row through the layers (`same_line`), the true tracks of C71, then the filter and every variable of the batch.
* C103 - the heat-map gif: frames, files, errors (`Model/HeatGif.v`, `Proofs/ObserverP.v`, `Properties/HeatGifProps.v`).
* C104 - what the logger draws, prints and reports
* C105 - `hit1` for a zero draw, the hits row by row (`cross_quiet`), the fit of collinear hits does not depend on the uncertainties (`line_fit`), then as C102.
* C106 - NaN goes through the cumulative sum; signs of the factors of the 2016 flux.
* C107 - shapes through each step; a finite profile stays finite through all steps but the division.
* C108 - invariant of the memo fields; whether a prediction exists does not depend on smooth; sorting is independent of order.
* C109 - induction over the entries; the last write into an object wins, so agreement of all writes into it suffices; keys of a volume have no duplicates; optimisers by position of parameters.
* C110 - the best line is unique, and each change of coordinates maps best lines to best lines; scatterings by their closed forms and uniqueness of the coefficients; azimuths by their sine and cosine. X0 predictions by writing lists of voxels as arrays and comparing them entry by entry (exchange of x and y, and a mirror in the middle of the volume for symmetric distributions).
* C111 - totals from the documented order of C41 and its prefixes; the case of no batch by an invariant of the state (no loss, no mean, unused inferrer) over all steps of the loop.
* C112 - classifiers built on X0 predictions, over several batches and with voxels that are not numbers
* C113 - every step of the model commutes with moving all heights; the random numbers are arguments and stay the same. Expected false for the rounded voxel edges.
* C114 - every step of the model commutes with multiplication of all lengths by a positive factor. Expected false where the code has a length as a constant (the clamp of the resolution, the limit on uncertainties of hits, the 1e-7 in voxel probabilities).
* C99: an invariant through the fit relates the record to the batches that were made; the layers by sorting of distinct heights.
* C25, C26 - weighted least squares over lists, algebra on sums (Cauchy-Schwarz).
* C27-C32 - vector algebra in R^3.
* C33, C34 - memo tables as option-valued fields, invariant: a filled cell holds the direct value.
* C35 - sum over all subsets of panels (lists of booleans) versus closed formula, induction on the number of panels.
* C36 - masks over concatenated batches.
* C37-C39 - algebra; telescoping sums of CDF differences.
* C40 - expected false (voxel count is three times too large; None is not handled), positive part for the range of the score.
* C41-C45 - the fit/predict loops as an event-emitting state-and-exception monad, callbacks arbitrary.
* C46 - warm-up bookkeeping as a state machine over epochs.
* C47 - expected false (phase switch one epoch late), positive part for the cosine formula.
* C48-C51 - per-parameter functions; C51 with a storage heap, expected false for the following step.
* C52 - resampling loop as fuel-indexed loop over generator outputs; the acceptance of every crossing muon expected false.
* C53 - running sums; expected false when some volumes give no prediction.
* C54 - two-dataset file with crash points; expected false across a failure between the two writes.
* C55 - binning; expected false unless the volume is symmetric.
* C56-C58 - real analysis on sigmoid/relu; finite sums.
* C59 - in-place relabelling loop; expected false when a class ID equals an X0 value present in the volume.
* C60, C61 - finite sums; association lists.
* C62 - permutations.
* C63 - intervals and rounding half to even; expected false for blocks smaller than a voxel.
* C64 - cumulative sums and binary search semantics (searchsorted).
* C65 - floor arithmetic and layer-wise generation.
