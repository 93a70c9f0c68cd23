{"claims": [
{"property": "C01", "status": "proved", "theorems": ["C01_batch_is_independent_muons"], "note": "Refinement for all command histories, any number of muons, NaN/Inf positions included."},
{"property": "C02", "status": "proved", "theorems": ["C02_muons_conserved", "C02_filter_records_removed"], "note": "Muons followed by their momentum."},
{"property": "C03", "status": "proved", "theorems": ["C03_C04_scattering_folds_and_removes"], "note": ""},
{"property": "C04", "status": "proved", "theorems": ["C03_C04_scattering_folds_and_removes"], "note": ""},
{"property": "C05", "status": "proved", "theorems": ["C05_propagate_dz", "C05_propagate_d", "C05_propagate_dz_additive", "C05_propagate_d_additive", "C05_propagate_d_is_dz", "C05_wrong_size"], "note": ""},
{"property": "C06", "status": "proved", "theorems": ["C06_theta_phi_round_trip", "C06_theta_xy_round_trip", "C06_distance"], "note": ""},
{"property": "C07", "status": "partial", "theorems": ["C07_scatter_dtheta_xy", "C07_vertical_muon_refuted"], "note": "The property holds except for muons whose new projected angles are both exactly 0: these are lost (phi = arctan(0/0)); refutation proved."},
{"property": "C08", "status": "proved", "theorems": ["C08_xy_masks_tile", "C08_mask_per_muon"], "note": ""},
{"property": "C09", "status": "proved", "theorems": ["C09_copy_faithful", "C09_batches_isolated"], "note": ""},
{"property": "C10", "status": "proved", "theorems": ["C10_layer_exit", "C10_layer_no_exception"], "note": "For every run that ends; whether a run with material ends depends on the draws."},
{"property": "C11", "status": "proved", "theorems": ["C11_empty_layer_straight"], "note": "Includes termination."},
{"property": "C12", "status": "proved", "theorems": ["C12_outside_not_scattered"], "note": ""},
{"property": "C13", "status": "proved", "theorems": ["C13_voxel_of_muon"], "note": "Layer sides multiples of the voxel size."},
{"property": "C14", "status": "proved", "theorems": ["C14_displacement_transverse"], "note": ""},
{"property": "C15", "status": "proved", "theorems": ["C15_deflection_angle"], "note": "For deflections that keep the muon flying downwards; the others are C67."},
{"property": "C16", "status": "partial", "theorems": ["C16_angle_limited_above", "C16_angle_limited_refuted"], "note": "Upper limit proved; there is no lower limit (refuted): torch.clamp is called with max only."},
{"property": "C17", "status": "proved", "theorems": ["C17_detector_layer", "C17_one_hit_per_panel", "C17_no_exception"], "note": "Panel detectors. np.argsort is any sorting function. Termination of passive layers is the fuel hypothesis of the result being Some."},
{"property": "C18", "status": "proved", "theorems": ["C18_realistic_hits", "C18_mask", "C18_smeared_hits", "C18_build"], "note": "Outside the panel the reconstructed position is infinite or NaN (draw divided by zero)."},
{"property": "C19", "status": "partial", "theorems": ["C19_response_shape", "C19_nan_position", "C19_tiny_nominal_refuted", "C19_infinitely_far"], "note": "Shape of the response proved when the nominal value is at least 1e-10; below that the clamp makes the response exceed the nominal value (refuted)."},
{"property": "C20", "status": "proved", "theorems": ["C20_budget_spent", "C20_new_volume"], "note": "Volumes with at least one panel and one weight per panel, as the constructor sets up."},
{"property": "C21", "status": "proved", "theorems": ["C21_conform", "C21_already_inside"], "note": "Holds for every state of the parameters before, hence after any optimiser step; that the fit loop conforms every detector after each step is part of C42."},
{"property": "C22", "status": "partial", "theorems": ["C22_edges", "C22_cube", "C22_C23_lookup", "C22_edges_refuted", "C22_C23_no_passives", "C22_centres", "C22_same_size"], "note": "Proved when the bottom of the passive stack is at a multiple of the voxel size; false otherwise because the range bounds are rounded half to even (witness: one voxel between 2.5 and 3.5)."},
{"property": "C23", "status": "partial", "theorems": ["C22_C23_lookup", "C23_in_range", "C23_upper_face_refuted", "C23_argument_refuted", "C22_C23_no_passives"], "note": "Rejection and lookup proved; false on the upper faces (index out of range) and the argument is modified in place."},
{"property": "C24", "status": "partial", "theorems": ["C24_restored", "C24_no_budget", "C24_budget", "C24_budget_refuted", "C24_raises"], "note": "Proved: all parameters, weights and optimiser states are restored whatever happened in between; without a budget the detector is exactly the saved one; with a budget it is from the next assignment on. Refuted as stated with a budget: load never assigns it, so the effective spans are stale. Panels are values here: the sharing of the smoothness object that SigmoidPanelSmoothnessSchedule makes, and what it does to a later load, is in C109."},
{"property": "C25", "status": "proved", "theorems": ["C25_fit_exact"], "note": "Hits with infinite or >= 2^75 uncertainty have weight 0 and may be anywhere; at least two hits, two different heights among the ones that count."},
{"property": "C26", "status": "proved", "theorems": ["C26_fit_minimal", "C26_tracks", "C26_gen_tracks"], "note": "Unique minimiser, in x and y separately; the tracks of a muon are the best lines through the hits above and below with uncertainties divided by efficiencies, or through the true hits with equal weights."},
{"property": "C27", "status": "proved", "theorems": ["C27_poca", "C27_meeting_lines"], "note": ""},
{"property": "C28", "status": "partial", "theorems": ["C28_kept_muons", "C28_no_exception", "C28_single_muon_refuted", "C28_too_few_hits"], "note": "Exactly the usable muons are kept, all kept ones have a solvable location, alignment kept, no exception after a volume with two panels on either side. Refuted for a batch of exactly one muon that should be removed: squeeze_() makes the mask 0-dimensional and the tensors gain an axis."},
{"property": "C29", "status": "proved", "theorems": ["C29_entry_exit"], "note": ""},
{"property": "C30", "status": "proved", "theorems": ["C30_direction"], "note": ""},
{"property": "C31", "status": "proved", "theorems": ["C31_total_angle", "C31_symmetric", "C31_scaling"], "note": "Over the reals; rounding in float32 could push the arccos argument above 1 for parallel tracks."},
{"property": "C32", "status": "proved", "theorems": ["C32_theta_phi_changes"], "note": ""},
{"property": "C33", "status": "proved", "theorems": ["C33_cached_is_fresh"], "note": "Gradients behind uncertainties are an argument (any function of variable and value)."},
{"property": "C34", "status": "partial", "theorems": ["C34_reads_fresh", "C34_reads_fresh_any", "C34_after_error_refuted"], "note": "Proved for every interleaving when efficiencies can be computed (two or more panels on each side). After an exception in compute_efficiency later reads differ: refuted there."},
{"property": "C35", "status": "proved", "theorems": ["C35_efficiency", "C35_bounds", "C35_monotone", "C35_one_panel_refuted"], "note": "The last theorem records what happens outside the quantifier (fewer than two panels)."},
{"property": "C36", "status": "proved", "theorems": ["C36_kept", "C36_views"], "note": ""},
{"property": "C37", "status": "proved", "theorems": ["C37_inverts", "C37_shape"], "note": ""},
{"property": "C38", "status": "proved", "theorems": ["C38_mean_bounds", "C38_rms_bounds", "C38_scaled", "C38_zero_weights"], "note": ""},
{"property": "C39", "status": "proved", "theorems": ["C39_voxel_probs", "C39_mass_at_most_one", "C39_refused"], "note": "With the exact sum."},
{"property": "C40", "status": "partial", "theorems": ["C40_score", "C40_sigmoid", "C40_pool", "C40_pool_exact", "C40_block_count", "C40_block_too_small", "C40_block_size_refuted", "C40_no_scatters_refuted"], "note": "The score is in (0,1); averaging gives every voxel the mean over exactly the voxels touching it. The number of voxels is wrong (about a third) and missing scatters raise: refuted."},
{"property": "C41", "status": "partial", "theorems": ["C41_order", "C41_order_always", "C41_matched_refuted"], "note": "For every environment and all callbacks that keep the loop's own settings: a fit that ends normally does exactly the documented things in order; however it ends, what happened is a beginning of them. Refuted: with fewer volumes than a batch, a volume batch is begun and never ended."},
{"property": "C42", "status": "proved", "theorems": ["C42_updates_bound", "C42_updates", "C42_updates_exact", "C42_predict_no_update"], "note": "Upper bound however the fit ends; exact number of updates, bounds enforcements and loaded volumes on normal end; none in prediction."},
{"property": "C43", "status": "proved", "theorems": ["C43_batch_loss"], "note": "Losses of all batches in order, and those propagated back."},
{"property": "C44", "status": "partial", "theorems": ["C44_fit_clean", "C44_predict_clean", "C44_mkdir_refuted", "C44_fresh_start"], "note": "No hypothesis on callbacks. Refuted only where the output folder cannot be made: fit_params are set before the try block."},
{"property": "C45", "status": "partial", "theorems": ["C45_pairs", "C45_no_prediction_refuted"], "note": "Pairs for every run that ends normally, if nothing but loading changes the target. Refuted: a volume without a prediction raises AttributeError."},
{"property": "C46", "status": "proved", "theorems": ["C46_frozen_epochs", "C46_windows", "C46_post"], "note": "Any callbacks list with warm-ups of any lengths (also 0), for every fit that ends normally. The post-warm-up theorem also says when callbacks listed elsewhere are switched on (one epoch late if before all warm-ups)."},
{"property": "C47", "status": "partial", "theorems": ["C47_rates", "C47_ramp", "C47_refuted", "C47_raises_refuted", "C47_unknown"], "note": "False as stated: the phase switches one epoch late, the second phase runs from final towards mid and never reaches its end; some settings raise. C47_rates gives the exact rates for all settings in which the fit does not raise (callback placed after the warm-ups)."},
{"property": "C48", "status": "partial", "theorems": ["C48_limited", "C48_conformed", "C48_update_refuted", "C48_heatmap_refuted", "C48_not_finite"], "note": "proved for the step itself; a whole update can move z further because conforming draws a random margin, and heat-map layers make the limiter raise"},
{"property": "C49", "status": "partial", "theorems": ["C49_cleaned", "C49_no_gradient", "C49_no_gradient_refuted"], "note": "proved when every parameter has a gradient; a missing gradient (None after zero_grad) makes the callback raise"},
{"property": "C50", "status": "partial", "theorems": ["C50_values", "C50_range", "C50_no_exception", "C50_single_epoch_refuted"], "note": "Holds whenever there are at least two active epochs (callback after the warm-ups); with a single active epoch the end of the range is not reached. No exception for any placement."},
{"property": "C51", "status": "partial", "theorems": ["C51_centred", "C51_shared", "C51_independent_refuted"], "note": "centring proved; the panels share one tensor afterwards, so later steps move every panel by the sum of the updates"},
{"property": "C52", "status": "partial", "theorems": ["C52_sound", "C52_ends", "C52_never", "C52_complete_refuted"], "note": "soundness, order and termination proved; a muon that crosses only through a side below the top of the lowest layer is replaced"},
{"property": "C53", "status": "partial", "theorems": ["C53_epoch", "C53_fractions", "C53_history", "C53_few_volumes", "C53_lost_refuted", "C53_zero_refuted"], "note": "Proved: the fractions sum to one whenever every volume of the epoch has a prediction and the loss is not zero, and the best loss is always the smallest logged validation loss. Refuted as stated: with volumes without predictions they sum to N/V; a zero loss or fewer volumes than a batch raises ZeroDivisionError."},
{"property": "C54", "status": "partial", "theorems": ["C54_rows", "C54_failure_refuted"], "note": "Paired after any number of runs and overwritings without failures. Refuted across a failure between the two writes."},
{"property": "C55", "status": "partial", "theorems": ["C55_shifted", "C55_symmetric", "C55_asymmetric_refuted"], "note": "right exactly up to a shift of up + dw - h; right layer when the volume is symmetric, refuted otherwise"},
{"property": "C56", "status": "proved", "theorems": ["C56_no_budget", "C56_steep", "C56_not_steep"], "note": "Both versions of the budget term."},
{"property": "C57", "status": "proved", "theorems": ["C57_coefficient", "C57_fixed"], "note": "Any sequence of evaluations, any inference errors and costs."},
{"property": "C58", "status": "proved", "theorems": ["C58_value", "C58_range", "C58_move", "C58_batch"], "note": "One target with any number of rows of probabilities, with and without weight, every reduction. For more targets see C76."},
{"property": "C59", "status": "partial", "theorems": ["C59_targets", "C59_voxel_loss", "C59_volume_loss", "C59_conversion", "C59_collision_refuted", "C59_no_classes"], "note": "False as stated: a class number equal to a larger X0 value of the volume is relabelled again. Holds for all volumes without such a coincidence, always for a single target, and always for x0targs_to_classtargs."},
{"property": "C60", "status": "proved", "theorems": ["C60_mass", "C60_volume", "C60_agree", "C60_invariant", "C60_between", "C60_errors", "C60_lengths"], "note": ""},
{"property": "C61", "status": "proved", "theorems": ["C61_round_trip", "C61_unknown"], "note": ""},
{"property": "C62", "status": "proved", "theorems": ["C62_list", "C62_generator"], "note": ""},
{"property": "C63", "status": "partial", "theorems": ["C63_contained", "C63_voxels", "C63_present", "C63_materials", "C63_block_present", "C63_hangs", "C63_orientation_refuted", "C63_absent_refuted", "C63_hang_refuted"], "note": "Containment, voxel map and materials proved; false for fixed sizes that fit in one orientation only, for blocks of the size of a voxel (rounded away), and with one material and enforce_diff_mat."},
{"property": "C64", "status": "proved", "theorems": ["C64_kinematics", "C64_cells", "C64_models", "C64_falls", "C64_zero_energy", "C64_norm"], "note": "The cell is selected by an interval of the uniform draw as long as its flux (divided by the total)."},
{"property": "C65", "status": "proved", "theorems": ["C65_round_trip", "C65_layer", "C65_layout"], "note": "Over the reals. The class is counted from the layer above the ladle's bottom wall, as in the code."},
{"property": "C66", "status": "partial", "theorems": ["C66_displacement_opposite", "C66_displacement_side_refuted"], "note": "False of the code for every muon kept downwards: with z1 = 0 the displacement always goes to the side opposite to the deflection."},
{"property": "C67", "status": "partial", "theorems": ["C67_upward_scatter_reversed", "C67_upward_scatter_removed_refuted"], "note": "False of the code: arctan(x/z) forgets the sign of z, so an upward direction is reversed."},
{"property": "C68", "status": "partial", "theorems": ["C68_skips_layer", "C68_scattered_all_the_way_refuted"], "note": "False of the code: a muon displaced above the top of the layer leaves the loop and is put at the bottom."},
{"property": "C69", "status": "proved", "theorems": ["C69_gap"], "note": ""},
{"property": "C70", "status": "proved", "theorems": ["C70_projected_angles"], "note": ""},
{"property": "C71", "status": "proved", "theorems": ["C71_true_tracks"], "note": "Composes C17, C25, C29, C30."},
{"property": "C72", "status": "proved", "theorems": ["C72_between", "C72_exact"], "note": "Composes C35-C39."},
{"property": "C73", "status": "partial", "theorems": ["C73_nothing_left", "C73_none_refuted"], "note": "False of the code: ValueError instead of None."},
{"property": "C74", "status": "partial", "theorems": ["C74_empty_batch", "C74_robust_refuted"], "note": "False of the code: one batch without muons makes every later read raise TypeError."},
{"property": "C75", "status": "partial", "theorems": ["C75_shuffle_refuted"], "note": "Refuted: shuffle is set to False and not restored."},
{"property": "C76", "status": "partial", "theorems": ["C76_rows_refuted"], "note": "False: targets of several rows are broadcast along the classes."},
{"property": "C77", "status": "proved", "theorems": ["C77_mse"], "note": ""},
{"property": "C78", "status": "partial", "theorems": ["C78_bin_width_refuted"], "note": "False: bins are geometric and not weighted by their width."},
{"property": "C79", "status": "partial", "theorems": ["C79_minimum_angle", "C79_not_tight", "C79_tight_refuted"], "note": "The lower bound is proved; it is not attained."},
{"property": "C80", "status": "partial", "theorems": ["C80_nested_refuted"], "note": "False: the list is shuffled in place."},
{"property": "C81", "status": "proved", "theorems": ["C81_voxels"], "note": ""},
{"property": "C82", "status": "partial", "theorems": ["C82_distribution", "C82_edge_refuted"], "note": "Distribution proved; false that the peak is at the target on exact X0s: the step from air to the ladle's content gives the largest edge with the default pipeline."},
{"property": "C83", "status": "partial", "theorems": ["C83_square", "C83_pixels_refuted"], "note": "Proved for square volumes; false otherwise, the number of pixels in y is computed from the length in x."},
{"property": "C84", "status": "partial", "theorems": ["C84_height", "C84_weights", "C84_few", "C84_number_refuted", "C84_cuts", "C84_no_uncertainty"], "note": "Weighted mean, translation and pixel weights proved; when at most about 16% of the muons have a weight the prediction is 0/0 = NaN."},
{"property": "C85", "status": "partial", "theorems": ["C85_finite", "C85_few", "C85_finite_refuted"], "note": "Proved when two targets with different mean predictions were seen at least twice; raises without a repeated target and is NaN with one."},
{"property": "C86", "status": "proved", "theorems": ["C86_mask", "C86_lookup"], "note": "For volumes whose layers form a regular stack of voxels."},
{"property": "C87", "status": "partial", "theorems": ["C87_response", "C87_peak", "C87_bad_width", "C87_nominal_refuted", "C87_cost"], "note": "Exact response in terms of the density, bounded by nominal times sqrt(scale * number of components) for the resolution and by nominal for the efficiency. Refuted: the resolution can exceed nominal between close means."},
{"property": "C88", "status": "partial", "theorems": ["C88_conform", "C88_fixed", "C88_bounds_refuted", "C88_width_refuted"], "note": "Proved for maps centred on the diagonal (x = y). Refuted off the diagonal, and for widths made negative by an update (they become 0, responses NaN)."},
{"property": "C89", "status": "partial", "theorems": ["C89_new", "C89_square", "C89_square_refuted", "C89_hits", "C89_rows", "C89_realistic_x", "C89_realistic_refuted", "C89_nan"], "note": "Construction with different spans and hits in training as stated. Refuted: equal spans raise; with realistic validation all recorded x are the same."},
{"property": "C90", "status": "partial", "theorems": ["C90_coefficient", "C90_blind_refuted"], "note": "C90_coefficient holds for every fit with warm-ups at any place and gives the coefficient after every number of epochs. C90_blind_refuted: with no prediction in the window the coefficient becomes NaN, even one given by the user."},
{"property": "C91", "status": "partial", "theorems": ["C91_rates", "C91_steps", "C91_zero_refuted", "C91_missing_refuted", "C91_unknown_refuted"], "note": "C91_rates: the rates after every number of epochs, if all parameters concerned have gradients in the window. C91_steps: what such a rate means for the sizes of steps. C91_zero_refuted: if the median gradient is zero the rate is infinite. C91_missing_refuted: an update without gradient (a batch without prediction) raises. All gradients of one optimiser have the same shape."},
{"property": "C92", "status": "partial", "theorems": ["C92_sizes", "C92_empty", "C92_block", "C92_fit_refuted", "C92_height_refuted", "C92_each_once"], "note": "Proved for blocks that fit into the cargo space. C92_fit_refuted: block sizes are limited by the largest extent only, a block may be higher or wider than the cargo space and then reaches into the lorry's floor. C92_height_refuted: the cargo's height is a fraction of the z of the top; far above the origin the block is below the volume although the target is 1. Sizes are compared exactly over the reals (the code compares floats for equality)."},
{"property": "C93", "status": "partial", "theorems": ["C93_wall", "C93_ends", "C93_walls", "C93_x0", "C93_shape", "C93_first_move", "C93_low_refuted", "C93_flat_refuted", "C93_layer_refuted"], "note": "The map of walls is proved as stated for volumes that are high enough. C93_low_refuted: low volumes raise for some random numbers. C93_flat_refuted: with min_height=0 some random numbers never end. C93_layer_refuted: the layout function calls .long() on a numpy number and raises for every layer, so the generator cannot be used."},
{"property": "C94", "status": "partial", "theorems": ["C94_leader", "C94_sign", "C94_best", "C94_best_loss", "C94_last", "C94_early", "C94_again_refuted", "C94_names_refuted", "C94_nan_refuted"], "note": "Proved for a fit with metrics of different names and some value that is not infinitely bad. C94_again_refuted: a fit takes the mark from other main metrics for good, a later fit with one of them alone follows the loss. C94_names_refuted: of two metrics of the same name (default: the class) one is missing in the report. C94_nan_refuted: with only NaN and infinite losses a NaN epoch is reported as best."},
{"property": "C95", "status": "partial", "theorems": ["C95_walls", "C95_grid", "C95_bad_values", "C95_ladle", "C95_overlap_refuted", "C95_into_detector_refuted", "C95_efficiency_refuted", "C95_smoothness_refuted"], "note": "Holds for voxels of whole hundredths and heights of whole voxels. Refuted otherwise: heights are rounded to two decimals, so layers overlap, and a height that is not a whole number of voxels makes the lowest passive layer reach into the detectors. One panel of each ladle layout ignores the efficiency asked for."},
{"property": "C96", "status": "proved", "theorems": ["C96_usable", "C96_order", "C96_twice", "C96_unseen"], "note": "For muons that were to pass two or more panels on each side. Exact over the reals with infinities and NaN."},
{"property": "C97", "status": "partial", "theorems": ["C97_panel_built", "C97_panel_owns", "C97_panel_all", "C97_heat", "C97_step", "C97_step_order", "C97_lr", "C97_mom", "C97_count", "C97_budget_refuted", "C97_shared_refuted", "C97_groups_refuted", "C97_momentum_refuted"], "note": "Holds for volumes whose detector layers are all panel layers, with separate panel objects, and a budget optimiser if there is a budget. False otherwise: a volume with a budget but without a budget optimiser (the default) keeps its budget weights for ever; a panel object used twice is updated twice per step; with several groups only the first gets a new learning rate; setting the momentum of an optimiser without momentum silently does nothing."},
{"property": "C98", "status": "partial", "theorems": ["C98_files", "C98_updates", "C98_last", "C98_interrupted", "C98_unique_refuted"], "note": "Proved for one fit, however it ends. Refuted: the files are not unique; a second fit with the same folder starts again at 1 and replaces the files of the first."},
{"property": "C99", "status": "partial", "theorems": ["C99_fit", "C99_interrupted", "C99_predict", "C99_count", "C99_pocas", "C99_inside", "C99_hits", "C99_layers", "C99_layers_refuted"], "note": "All but the layers of hits holds for all runs. The layer of a hit is its panel's number only while the panels stay where they are (C99_layers); in a fit that moves them one panel has several layers (C99_layers_refuted)."},
{"property": "C100", "status": "partial", "theorems": ["C100_propagation", "C100_own", "C100_quadrature", "C100_entry", "C100_x0", "C100_no_muons", "C100_none_infinite", "C100_true_hits_fail", "C100_true_hits_refuted", "C100_infinite_refuted"], "note": "Propagation proved for all variables and right gradients (autograd is trusted to give derivatives or NaN). Refuted: a GenScatterBatch has no uncertainties (AttributeError, the tracks do not depend on the recorded hits); infinite hit uncertainties count as 0 (not reachable after filtering: C100_none_infinite)."},
{"property": "C101", "status": "partial", "theorems": ["C101_fit", "C101_descent", "C101_best", "C101_no_prediction_refuted", "C101_diverges_refuted"], "note": "What it is trained on and where it is used is proved for all fits that end normally and all optimisers. Descent holds for plain gradient descent with learning rate up to 1/(1 + mean squared prediction); refuted for larger ones. Refuted: a volume without a prediction raises AttributeError and ends the fit, which without the callback would have gone on."},
{"property": "C102", "status": "proved", "theorems": ["C102_scatter_tells", "C102_nothing_deflected"], "note": "For the true hits (GenScatterBatch). Real-number arithmetic; with the recorded hits the tracks are not the muons' lines. Hits of a panel are exact in gen_xyz, so the fitted line is the line of flight. Volumes with the detector layers outside the passive ones."},
{"property": "C103", "status": "partial", "theorems": ["C103_frames", "C103_kept", "C103_not_heat", "C103_nothing_to_plot", "C103_removed_refuted", "C103_early_refuted"], "note": "The frames, the files left alone and the errors are proved for all fits. Refuted: an interrupted fit leaves its temporary pictures; a volume with no detector (or no panel in it) is only told about (FileNotFoundError) when all of the training is done."},
{"property": "C104", "status": "partial", "theorems": ["C104_epochs", "C104_no_batch", "C104_metric", "C104_metric_axis_refuted", "C104_history", "C104_history_refuted", "C104_layout", "C104_layout_refuted", "C104_gif", "C104_files_refuted"], "note": "Curves, printed line, history and gif are as stated (C104_epochs, C104_metric, C104_history, C104_layout without metrics, C104_gif). False: the axis of the metric counts batches; the history leaves out metrics during training and of equal names; with metrics the grid has a row too few (MetricLogger raises, PanelMetricLogger's plots overlap); the temporary pictures stay. With fewer volumes than a batch has the logger cannot draw (C104_no_batch). The stack of sub-losses, colours, limits and panel outlines are not modelled."},
{"property": "C105", "status": "proved", "theorems": ["C105_no_noise"], "note": "Validation mode with realistic_validation and no noise. A muon that misses a single panel is not used, also when two other panels of the group saw it. In training mode a Gaussian panel far away has an efficiency so small that its hit has no weight, so the statement is not made there."},
{"property": "C106", "status": "partial", "theorems": ["C106_usable_refuted", "C106_nan_flux", "C106_below_horizon", "C106_momentum"], "note": "Refuted: with the 2015 model and angles up to 100 degrees the generator is made, but every call of generate_set raises OverflowError, because the cumulative flux is NaN. Proved in its place: one NaN cell is enough for that; below the horizontal the 2015 flux is NaN and the 2016 flux negative; with a flux that is a non-negative number everywhere, exactly the muons of cells whose energy is less than the mass get NaN as momentum. (Up to the horizontal and above the mass: C64.)"},
{"property": "C107", "status": "partial", "theorems": ["C107_layers_refuted", "C107_distribution", "C107_default", "C107_steps", "C107_flat", "C107_gauss_1d", "C107_gauss_3d"], "note": "Refuted: gauss_1d and gauss_3d squeeze away the axis of the volumes. With gauss_1d as the last step the result is the single probability 1 for all X0s; in other places, and gauss_3d in the default pipeline, x02probs raises. Proved in its place: all pipelines of the other steps (max_div_min aside, which is in C82 with the default pipeline) give a distribution over the remaining layers; what each step does to a profile; only ridge_1d_2 and prewit_1d vanish on flat profiles; without add_batch_dim the default pipeline raises."},
{"property": "C108", "status": "partial", "theorems": ["C108_reads_fresh", "C108_prediction", "C108_order", "C108_nothing", "C108_range", "C108_smooth_refuted"], "note": "Proved for all histories except for smooth: setting smooth after a prediction was read does not change the prediction until the next batch (refuted with a witness; the kept value is characterised exactly). Efficiencies need two panels or more on each side."},
{"property": "C109", "status": "partial", "theorems": ["C109_load", "C109_restored", "C109_own", "C109_after_schedule", "C109_wrapper", "C109_order", "C109_from_panel", "C109_from_heat", "C109_schedule_refuted", "C109_new_detector_refuted", "C109_partly_refuted", "C109_name_refuted", "C109_volume_refuted", "C109_missing_refuted", "C109_sizes", "C109_from_arb"], "note": "Proved: what a load does for every file and detector, also when it raises; the restoration of detector and optimisers for wrappers of any kind when the loaded detector's objects are its own (or shared ones had one value) and shapes agree; from_save of panel and heat-map wrappers. Refuted with witnesses: sharing of the smoothness object after SigmoidPanelSmoothnessSchedule, states saved in its epochs, loads that raise half-way, optimisers without _opt in their name, an optimiser called volume."},
{"property": "C110", "status": "partial", "theorems": ["C110_moved", "C110_moved_scatters", "C110_exchanged", "C110_exchanged_scatters", "C110_exchanged_azimuths", "C110_vertical_refuted", "C110_order", "C110_units", "C110_same_height", "C110_same_height_refuted", "C110_exchanged_x0", "C110_exchanged_voxels", "C110_exchanged_place", "C110_mirrored_x0", "C110_mirrored_voxels", "C110_mirrored_place"], "note": "Proved for all hits. Two parts are false, each with a witness: the azimuth difference of a muon with an exactly vertical track depends on which axis is called x (C110_vertical_refuted), and if the first two panels of a side are at the same height every muon is lost although the fit is fine (C110_same_height, C110_same_height_refuted). C110_exchanged_azimuths therefore asks for tracks that are not vertical; C110_order is about the line, since the start and length of the track follow the first two hits. X0 predictions with x and y exchanged are the same with x and y exchanged (C110_exchanged_x0, C110_exchanged_voxels, C110_exchanged_place). Mirrored in the middle of the volume, muons give mirrored X0 predictions for symmetric distributions of the places (C110_mirrored_x0, C110_mirrored_voxels, C110_mirrored_place)."},
{"property": "C111", "status": "partial", "theorems": ["C111_fit", "C111_never_more", "C111_predict", "C111_less_than_a_batch", "C111_predict_less_than_a_batch", "C111_remainder_refuted"], "note": "Proved for numbers of muons rounded down to full batches. That the asked number is sent is false when it is not a multiple of the batch size (C111_remainder_refuted); with less than a batch the fit does nothing, silently (C111_less_than_a_batch)."},
{"property": "C112", "status": "partial", "theorems": ["C112_fresh", "C112_usable", "C112_twice", "C112_numbers", "C112_not_a_number", "C112_places", "C112_units", "C112_units_refuted", "C112_half", "C112_score", "C112_class", "C112_softmax", "C112_returned"], "note": "Proved except for the unit of length: with a fixed sharpness (cut_coef) the dense-block score changes with the unit (C112_units_refuted); it is the same if the sharpness is divided by the same factor (C112_units). C112_fresh and C112_usable need efficiencies that can be computed, i.e. two panels or more on each side."},
{"property": "C113", "status": "partial", "theorems": ["C113_volume", "C113_start", "C113_prediction", "C113_voxels", "C113_voxels_stay", "C113_voxels_refuted"], "note": "Proved except for the voxels: they are moved along by whole numbers of voxels (C113_voxels), but by less than half a voxel they stay where they are while the layers move (C113_voxels_stay, C113_voxels_refuted). C113_volume takes an argsort that compares only; C113_prediction takes a cdf that is moved along with its location, and two or more panels on each side."},
{"property": "C114", "status": "partial", "theorems": ["C114_volume", "C114_layer", "C114_efficiency", "C114_cost", "C114_training_refuted", "C114_track", "C114_scatters", "C114_kept", "C114_kept_refuted", "C114_voxels", "C114_prediction", "C114_probability", "C114_probability_refuted", "C114_generated", "C114_start"], "note": "Proved for passive layers in every mode and for volumes in realistic evaluation; efficiencies and costs in every mode. False for the resolution in the differentiable mode: it is clamped at 1e-10 whatever the unit (C114_training_refuted). C114_volume takes an argsort that compares only. Tracks, scatterings, voxels and X0 predictions from given probabilities scale (C114_track, C114_scatters, C114_voxels, C114_prediction). Two more lengths are written into the code: the limit of 1e10 on uncertainties of hits of kept muons (C114_kept, C114_kept_refuted) and the 1e-7 added to uncertainties in voxel probabilities (C114_probability, C114_probability_refuted). Muons are generated at scaled places with the same momenta and directions (C114_generated, C114_start)."}
]}
