{"id": "C01", "title": "A muon batch behaves like a set of independent muons", "statement": "Whatever sequence of public batch operations is applied (displacements, angular scatterings, propagations, each with or without a mask, hit recording, filtering, removal of upward-going muons), the surviving muons, the removed muons and the hits returned for each surviving muon are exactly those obtained by applying the same operations to each muon separately; in particular row i of every tensor returned by get_hits holds the hits recorded for the muon in row i, in recording order, and stacking the hits never fails.", "quantifier": "all batch sizes, all finite operation histories, all masks and per-muon arguments, all hit row types", "why_tests_cant": "the failure is a row misalignment that appears only for particular interleavings of filtering and hit recording; tests sample a few fixed histories", "anchors": ["tomopt/muon/muon_batch.py:MuonBatch.filter_muons", "tomopt/muon/muon_batch.py:MuonBatch.append_hits", "tomopt/muon/muon_batch.py:MuonBatch.get_hits", "tomopt/muon/muon_batch.py:MuonBatch.scatter_dxyz", "tomopt/muon/muon_batch.py:MuonBatch.scatter_dtheta_dphi", "tomopt/muon/muon_batch.py:MuonBatch.scatter_dtheta_xy", "tomopt/muon/muon_batch.py:MuonBatch.propagate_dz", "tomopt/muon/muon_batch.py:MuonBatch.propagate_d"]}
{"id": "C02", "title": "Muons are never lost or duplicated", "statement": "Along any history of batch operations the number of muons in the batch plus the number recorded as removed stays equal to the initial number, every filtered-out muon is recorded exactly as it was when it was filtered, and the relative order of survivors never changes.", "quantifier": "all batch sizes, all operation histories", "why_tests_cant": "needs every history of filterings; tests check single filterings", "anchors": ["tomopt/muon/muon_batch.py:MuonBatch.filter_muons", "tomopt/muon/muon_batch.py:MuonBatch.remove_upwards_muons", "tomopt/muon/muon_batch.py:MuonBatch.upwards_muons"]}
{"id": "C03", "title": "Angular scattering keeps angles in range and removes exactly the upward muons", "statement": "After scatter_dtheta_dphi over the whole batch with any angular changes, every muon left in the batch has theta in [0, pi/2) and phi in [0, 2 pi), and a muon is removed if and only if the direction obtained from (theta+dtheta, phi+dphi) does not point strictly downwards.", "quantifier": "all angles and all angular changes (any real number, any number of turns), all batch sizes", "why_tests_cant": "angles wrap around; a test cannot cover all turns and quadrants", "anchors": ["tomopt/muon/muon_batch.py:MuonBatch.scatter_dtheta_dphi", "tomopt/muon/muon_batch.py:MuonBatch.remove_upwards_muons"]}
{"id": "C04", "title": "The folded theta/phi after scattering describes the scattered direction", "statement": "scatter_dtheta_dphi followed by reading theta and phi gives the same unit vector as the unfolded angles theta+dtheta, phi+dphi, for every muon that is kept; positions and momenta do not change.", "quantifier": "all real angles and changes", "why_tests_cant": "continuous domain with wrap-around", "anchors": ["tomopt/muon/muon_batch.py:MuonBatch.scatter_dtheta_dphi"]}
{"id": "C05", "title": "Propagation follows the straight line of flight", "statement": "propagate_dz(dz) moves a muon to the point of its current straight line that is dz lower, propagate_d(d) to the point at distance d along it; two successive propagations equal a single one by the sum; propagate_d(d) equals propagate_dz(d cos theta); direction and momentum never change and unmasked muons do not move.", "quantifier": "all positions, directions with theta in [0,pi/2), signed distances, masks", "why_tests_cant": "continuous domain; algebraic laws over all inputs", "anchors": ["tomopt/muon/muon_batch.py:MuonBatch.propagate_dz", "tomopt/muon/muon_batch.py:MuonBatch.propagate_d"]}
{"id": "C06", "title": "theta/phi and theta_x/theta_y are inverse descriptions of a downward direction", "statement": "For every theta in (0,pi/2) and phi in [0,2pi), converting to (theta_x, theta_y) and back returns theta and phi; for every (theta_x, theta_y) in (-pi/2,pi/2)^2 other than (0,0), converting to (theta, phi) and back returns theta_x and theta_y.", "quantifier": "all angles in the stated open ranges, including the axis directions phi = 0, pi/2, pi, 3pi/2", "why_tests_cant": "quadrant logic and divisions by zero at the axes cannot be exhausted by sampling", "anchors": ["tomopt/muon/muon_batch.py:MuonBatch.phi_from_theta_xy", "tomopt/muon/muon_batch.py:MuonBatch.theta_from_theta_xy", "tomopt/muon/muon_batch.py:MuonBatch.theta_x_from_theta_phi", "tomopt/muon/muon_batch.py:MuonBatch.theta_y_from_theta_phi"]}
{"id": "C07", "title": "Scattering by projected angles keeps every muon that still goes down", "statement": "scatter_dtheta_xy keeps a masked muon exactly when its new projected angles lie strictly inside (-pi/2, pi/2), and then its new direction has exactly those projected angles.", "quantifier": "all muons with theta < pi/2, all angular changes", "why_tests_cant": "boundary directions (exactly vertical) form a null set that random tests never hit", "anchors": ["tomopt/muon/muon_batch.py:MuonBatch.scatter_dtheta_xy", "tomopt/muon/muon_batch.py:MuonBatch.phi_from_theta_xy"]}
{"id": "C08", "title": "xy masks tile the plane", "statement": "Selecting muons with adjacent half-open xy boxes assigns every muon to exactly one box: for a grid of boxes every muon inside the outer box is selected by exactly one cell.", "quantifier": "all positions (including positions exactly on cell edges), all increasing grids of any size", "why_tests_cant": "edge positions and arbitrary grids", "anchors": ["tomopt/muon/muon_batch.py:MuonBatch.get_xy_mask"]}
{"id": "C09", "title": "Copying a batch is faithful and isolated", "statement": "copy() yields a batch with the same positions, momenta and angles, no hits and no removed muons; no later operation on either batch changes the other.", "quantifier": "all batches, all later histories on both batches", "why_tests_cant": "requires every later history", "anchors": ["tomopt/muon/muon_batch.py:MuonBatch.copy", "tomopt/muon/muon_batch.py:MuonBatch.__init__"]}
{"id": "C10", "title": "A passive layer delivers every surviving muon exactly to its bottom face", "statement": "Whenever traversal of a passive layer finishes, whatever scatterings were drawn, every muon still in the batch is exactly at the z of the bottom of the layer, and hits already recorded still belong to the right muons.", "quantifier": "all batches entering from anywhere, all material maps, all scattering draws of any magnitude, any number of steps", "why_tests_cant": "scattering is random and the number of steps is data dependent", "anchors": ["tomopt/volume/layer.py:PassiveLayer.forward", "tomopt/volume/layer.py:PassiveLayer.scatter_and_propagate"]}
{"id": "C11", "title": "A layer without material is crossed in a straight line, and crossing terminates", "statement": "Traversing a passive layer with no material loaded terminates for every batch of downward muons and leaves every muon at the point where its straight line meets the bottom of the layer, with unchanged direction and momentum, and removes none.", "quantifier": "all downward muons (theta<pi/2 arbitrarily close to pi/2), all step sizes > 0", "why_tests_cant": "unbounded number of steps as theta tends to pi/2", "anchors": ["tomopt/volume/layer.py:PassiveLayer.forward", "tomopt/volume/layer.py:PassiveLayer.scatter_and_propagate", "tomopt/muon/muon_batch.py:MuonBatch.propagate_d"]}
{"id": "C12", "title": "Muons outside the material are not scattered", "statement": "During one scattering step, a muon whose xy position is outside [0,lw) or which is outside the step mask keeps its direction; if it is in the step mask it moves along its straight line, otherwise it does not move.", "quantifier": "all batches, masks, material maps and random draws", "why_tests_cant": "universal over draws and positions", "anchors": ["tomopt/volume/layer.py:PassiveLayer.scatter_and_propagate"]}
{"id": "C13", "title": "Every muon inside a layer falls in exactly one valid voxel", "statement": "For a layer whose length and width are whole multiples of the voxel size, every muon in [0,lx)x[0,ly) is mapped to indices inside the material map, and the muon lies in that voxel.", "quantifier": "all positions in the layer, all grid sizes", "why_tests_cant": "edge positions; all grid sizes", "anchors": ["tomopt/volume/layer.py:PassiveLayer.abs2idx", "tomopt/volume/layer.py:PassiveLayer._compute_scattering"]}
{"id": "C14", "title": "Scattering displacement is transverse and its size is the drawn one", "statement": "The spatial displacement applied by the PDG scattering model is orthogonal to the flight direction of the muon and has length sqrt(dx^2+dy^2) for the drawn offsets dx, dy in the muon frame.", "quantifier": "all directions with theta in [0,pi/2], all phi, all drawn offsets", "why_tests_cant": "continuous rotation identities over all angles", "anchors": ["tomopt/volume/layer.py:PassiveLayer._pdg_scatter"]}
{"id": "C15", "title": "Scattering changes the direction by the drawn angle", "statement": "The angular changes applied by the PDG scattering model turn the flight direction by exactly the angle alpha with tan^2(alpha)=tan^2(a)+tan^2(b), a and b being the drawn angles in the muon frame, whenever the deflected direction still points downwards.", "quantifier": "all directions theta in [0,pi/2), phi, all drawn angles in (-pi/2,pi/2)", "why_tests_cant": "continuous rotation identities", "anchors": ["tomopt/volume/layer.py:PassiveLayer._pdg_scatter", "tomopt/muon/muon_batch.py:MuonBatch.scatter_dtheta_xy"]}
{"id": "C16", "title": "Drawn scattering angles are limited to less than pi/2 in both directions", "statement": "The scattering angle used in the muon frame always stays strictly within (-pi/2, pi/2), whatever the random draw.", "quantifier": "all draws, momenta, material depths", "why_tests_cant": "tail draws are never sampled", "anchors": ["tomopt/volume/layer.py:PassiveLayer._pdg_scatter"]}
{"id": "C17", "title": "Every muon gets exactly one hit per panel, ordered downwards", "statement": "After a batch crosses the volume, for each detector position (above, below) the number of hits per muon equals the number of panels of the detector layers at that position, hits are ordered by strictly non-increasing panel z within each layer, and the recorded true z of each hit is the z of its panel.", "quantifier": "all volumes (any number of detector layers and panels at arbitrary z in any declaration order), all batches", "why_tests_cant": "all panel orders and counts", "anchors": ["tomopt/volume/layer.py:PanelDetectorLayer.forward", "tomopt/volume/layer.py:PanelDetectorLayer.get_panel_zorder", "tomopt/volume/panel.py:DetectorPanel.get_hits", "tomopt/volume/volume.py:Volume.forward"]}
{"id": "C18", "title": "In realistic evaluation mode reconstructed hits lie on the panel", "statement": "In evaluation mode with realistic validation, a muon that truly crosses a panel has its reconstructed hit within the panel's boundaries however large the resolution smearing is, and a muon that misses the panel gets zero resolution and zero efficiency.", "quantifier": "all panel positions, sizes and budgets, all muon positions, all smearing draws", "why_tests_cant": "tail draws", "anchors": ["tomopt/volume/panel.py:DetectorPanel.get_hits", "tomopt/volume/panel.py:DetectorPanel.get_resolution", "tomopt/volume/panel.py:DetectorPanel.get_efficiency"]}
{"id": "C19", "title": "Panel response is largest at the centre and never exceeds its nominal value", "statement": "In the differentiable mode the resolution and the efficiency of a panel at any point are positive, do not exceed the nominal values, are maximal at the centre, are symmetric under reflection about the centre, and do not increase when moving away from the centre along either axis (nominal values of at least 1e-10, where the code clamps the response; below that the clamp exceeds the nominal value, shown separately).", "quantifier": "all points, panel spans and (for sigmoid panels) smoothness values; nominal resolution and efficiency at least 1e-10", "why_tests_cant": "continuous domain", "anchors": ["tomopt/volume/panel.py:DetectorPanel.get_gauss", "tomopt/volume/panel.py:DetectorPanel.get_resolution", "tomopt/volume/panel.py:DetectorPanel.get_efficiency", "tomopt/volume/panel.py:SigmoidDetectorPanel.sig_model"]}
{"id": "C20", "title": "The detector budget is spent exactly", "statement": "After a budget is assigned, the costs of all panels of all detector layers add up to exactly the budget, every panel has positive cost, and the reported volume cost is the budget; changing the budget weights only changes the shares.", "quantifier": "all budgets > 0, all real budget weights, any number of layers and panels, all panel spans", "why_tests_cant": "all weights and detector layouts", "anchors": ["tomopt/volume/volume.py:Volume.assign_budget", "tomopt/volume/volume.py:Volume.get_cost", "tomopt/volume/volume.py:Volume._configure_budget", "tomopt/volume/layer.py:PanelDetectorLayer.assign_budget", "tomopt/volume/panel.py:DetectorPanel.assign_budget", "tomopt/volume/panel.py:DetectorPanel.get_cost"]}
{"id": "C21", "title": "After every update panels are inside their layer", "statement": "Conforming a detector puts every panel's z within its layer, its xy centre within the passive area and its span within the allowed range, leaves panels that already conform unchanged up to the documented epsilon, and never moves a parameter further than needed; it holds after every optimiser step of a fit whatever the step was.", "quantifier": "all parameter values including arbitrarily large steps, all layers thicker than twice the margin", "why_tests_cant": "all optimiser steps", "anchors": ["tomopt/volume/layer.py:PanelDetectorLayer.conform_detector", "tomopt/volume/panel.py:DetectorPanel.clamp_params", "tomopt/optimisation/wrapper/volume_wrapper.py:AbsVolumeWrapper._scan_volumes"]}
{"id": "C22", "title": "The material cube, voxel edges, voxel lookup and predictions use the same voxel order", "statement": "The entry (k,i,j) of the material cube is the material loaded for the passive layer whose bottom edge is the z edge of voxel (k,i,j), the voxel edges list the voxels so that reshaping and permuting them to (z,x,y) gives the same voxel, and looking up any point strictly inside that voxel returns (i,j,k).", "quantifier": "all numbers of layers, all grid sizes, all points strictly inside voxels", "why_tests_cant": "index-order mistakes cancel in cubic or symmetric test volumes", "anchors": ["tomopt/volume/volume.py:Volume.get_rad_cube", "tomopt/volume/volume.py:Volume.build_xyz_edges", "tomopt/volume/volume.py:Volume.lookup_passive_xyz_coords", "tomopt/inference/volume.py:PanelX0Inferrer", "tomopt/volume/volume.py:Volume.load_rad_length"]}
{"id": "C23", "title": "Looking up voxels accepts exactly the points of the passive volume", "statement": "lookup_passive_xyz_coords rejects points outside the passive volume and returns in-range indices for every point it accepts, and does not modify its argument.", "quantifier": "all points, including those on the outer faces", "why_tests_cant": "boundary points", "anchors": ["tomopt/volume/volume.py:Volume.lookup_passive_xyz_coords"]}
{"id": "C24", "title": "A saved detector is restored exactly", "statement": "After save followed by load into a wrapper of the same structure, every observable of the detector (panel positions, spans, effective spans, costs, responses) equals the one at the time of saving, whatever happened in between.", "quantifier": "all parameter values at save time, all histories between save and load, with and without a budget", "why_tests_cant": "all histories between save and load", "anchors": ["tomopt/optimisation/wrapper/volume_wrapper.py:AbsVolumeWrapper.save", "tomopt/optimisation/wrapper/volume_wrapper.py:AbsVolumeWrapper.load", "tomopt/volume/volume.py:Volume.assign_budget", "tomopt/volume/panel.py:DetectorPanel"]}
{"id": "C25", "title": "Track fit returns the exact line for aligned hits", "statement": "If all hits with non-zero weight lie on a straight line that is not horizontal, the fitted track passes through the line: its direction is parallel to the line, pointing downwards from the first to the second hit, and its start lies on the line, whatever the hit uncertainties.", "quantifier": "any number (>=2) of hits, any positive uncertainties, any non-horizontal line, any z positions that are not all equal", "why_tests_cant": "continuous domain, arbitrary number of hits", "anchors": ["tomopt/inference/scattering.py:ScatterBatch.get_muon_trajectory"]}
{"id": "C26", "title": "Track fit minimises the weighted squared residuals", "statement": "In each of x and y the fitted line minimises the sum of squared hit residuals weighted by the inverse variances among all straight lines.", "quantifier": "all hits, all positive weights, all competing lines, any number of hits", "why_tests_cant": "minimality quantifies over all competitors", "anchors": ["tomopt/inference/scattering.py:ScatterBatch.get_muon_trajectory"]}
{"id": "C27", "title": "The point of closest approach is the midpoint of the shortest segment", "statement": "For any two non-parallel tracks the inferred scatter location is the midpoint of two points, one on each track line, whose distance is minimal over all pairs of points of the two lines; for intersecting lines it is the intersection.", "quantifier": "all pairs of non-parallel lines in space", "why_tests_cant": "minimality over all pairs of points", "anchors": ["tomopt/inference/scattering.py:ScatterBatch._compute_scatters"]}
{"id": "C28", "title": "Muons kept for inference always have a solvable scatter location", "statement": "After a scatter batch is built, every remaining muon has downward incoming and outgoing tracks that are not parallel, so the linear system for the scatter location is non-singular and all angles are defined; muons and their hits stay aligned.", "quantifier": "all batches of hits", "why_tests_cant": "degenerate configurations", "anchors": ["tomopt/inference/scattering.py:ScatterBatch._filter_scatters", "tomopt/inference/scattering.py:ScatterBatch._compute_scatters"]}
{"id": "C29", "title": "Inferred entry and exit points lie on the tracks at the volume faces", "statement": "The inferred entry (exit) point lies on the incoming (outgoing) track line and has exactly the z of the top (bottom) of the passive volume.", "quantifier": "all non-horizontal tracks", "why_tests_cant": "continuous domain", "anchors": ["tomopt/inference/scattering.py:ScatterBatch._compute_xyz_in", "tomopt/inference/scattering.py:ScatterBatch._compute_xyz_out"]}
{"id": "C30", "title": "Inferred theta and phi determine the track direction", "statement": "For every downward track the inferred theta lies in [0,pi/2), phi in [0,2pi), and |t|(sin theta cos phi, sin theta sin phi, -cos theta) equals the track vector.", "quantifier": "all downward track vectors", "why_tests_cant": "quadrant logic over a continuous domain", "anchors": ["tomopt/inference/scattering.py:ScatterBatch._compute_theta", "tomopt/inference/scattering.py:ScatterBatch._compute_phi"]}
{"id": "C31", "title": "The total scattering angle is the angle between the tracks", "statement": "The inferred total scattering is in [0,pi], its cosine times the product of the track lengths is the scalar product, it is symmetric in the two tracks and invariant under rescaling either track.", "quantifier": "all pairs of non-zero tracks", "why_tests_cant": "continuous domain", "anchors": ["tomopt/inference/scattering.py:ScatterBatch._compute_theta_msc"]}
{"id": "C32", "title": "Inferred theta/phi scattering components are the smaller of the two consistent explanations", "statement": "The inferred |delta phi| is in [0,pi], the inferred |delta theta| is non-negative, the pair is consistent with both tracks, symmetric in the tracks, and never larger in quadrature than either of the two hypotheses (same side / folded through the vertical).", "quantifier": "all pairs of angles", "why_tests_cant": "case analysis over continuous domain", "anchors": ["tomopt/inference/scattering.py:ScatterBatch._compute_dtheta_dphi_scatter"]}
{"id": "C33", "title": "Cached quantities equal fresh computations", "statement": "For any order of reading the lazily computed properties of a scatter batch (any number of times), every value returned equals the value computed directly from the tracks.", "quantifier": "all access sequences", "why_tests_cant": "all access orders", "anchors": ["tomopt/inference/scattering.py:ScatterBatch properties"]}
{"id": "C34", "title": "Predictions always reflect all scatter batches added so far", "statement": "For any interleaving of adding scatter batches and reading predictions or intermediate quantities of a volume inferrer, each read returns the value computed from all the batches added up to then, in order.", "quantifier": "all interleavings of adds and reads", "why_tests_cant": "stale caches appear only for particular interleavings", "anchors": ["tomopt/inference/volume.py:AbsVolumeInferrer.add_scatters", "tomopt/inference/volume.py:AbsX0Inferrer", "tomopt/inference/volume.py:AbsX0Inferrer._reset_vars"]}
{"id": "C35", "title": "Per-muon efficiency is the probability of at least two hits on each side", "statement": "For independent panel efficiencies, the per-muon efficiency equals the exact probability, summed over all subsets of panels that fire, that at least two panels fire above and at least two below; it lies in [0,1] and does not decrease when any panel efficiency increases.", "quantifier": "any number >=2 of panels on each side, all efficiencies in [0,1]", "why_tests_cant": "sum over 2^n outcomes for every n", "anchors": ["tomopt/inference/volume.py:PanelX0Inferrer.compute_efficiency"]}
{"id": "C36", "title": "Invalid muons are dropped consistently from all combined tensors", "statement": "When scatter batches are combined, a muon is dropped if and only if one of its scatter variables or uncertainties is NaN or infinite, and the variables, uncertainties and efficiencies returned for the k-th kept muon all belong to the same muon, in batch order.", "quantifier": "any number of batches and muons, any pattern of NaN/Inf", "why_tests_cant": "all patterns", "anchors": ["tomopt/inference/volume.py:AbsX0Inferrer._combine_scatters"]}
{"id": "C37", "title": "X0 inference inverts the scattering law", "statement": "If the root-mean-square total scattering equals the leading-order PDG value for a slab of given X0, momentum and traversed length, the X0 computed from the scatters is that X0; it is positive, decreases with the scattering and scales quadratically.", "quantifier": "all X0, momenta, angles, thicknesses > 0", "why_tests_cant": "continuous domain", "anchors": ["tomopt/inference/volume.py:AbsX0Inferrer.x0_from_scatters", "tomopt/volume/layer.py:PassiveLayer._pdg_scatter"]}
{"id": "C38", "title": "Weighted averages stay within the range of the data", "statement": "The weighted mean and weighted RMS used for inference lie between the smallest and largest (absolute) values, do not change when all weights are scaled by a positive factor, and ignore zero-weight entries.", "quantifier": "any number of values, any non-negative weights with positive sum", "why_tests_cant": "all sizes and weights", "anchors": ["tomopt/inference/volume.py:AbsX0Inferrer._weighted_mean", "tomopt/inference/volume.py:AbsX0Inferrer._weighted_rms"]}
{"id": "C39", "title": "Voxel probabilities form a sub-distribution", "statement": "For each muon the probability assigned to each voxel is positive and the sum over all voxels is at most one plus the number of voxels times the added epsilon.", "quantifier": "all grids, PoCAs, uncertainties, any monotone CDF", "why_tests_cant": "all grids and CDF values", "anchors": ["tomopt/inference/volume.py:AbsX0Inferrer.muon_probs_per_voxel_zxy"]}
{"id": "C40", "title": "The dense-block score uses the requested number of voxels", "statement": "The block classifier's cut selects as many voxels as the requested block size, its output is strictly between 0 and 1, and if no scatters are available it returns no prediction instead of failing.", "quantifier": "all voxel predictions, block sizes and grids", "why_tests_cant": "all grids", "anchors": ["tomopt/inference/volume.py:DenseBlockClassifierFromX0s"]}
{"id": "C41", "title": "Callback events follow the documented order", "statement": "Without exceptions, the sequence of callback events of a fit is exactly the documented one for the given numbers of epochs, volumes, volume batches and muon batches, every begin event being matched by its end event, and each callback receiving each event in list order.", "quantifier": "all numbers of epochs, volumes, batch sizes, muon batches, callbacks, with or without validation, early stop at any epoch", "why_tests_cant": "all loop bounds", "anchors": ["tomopt/optimisation/wrapper/volume_wrapper.py:AbsVolumeWrapper.fit", "tomopt/optimisation/wrapper/volume_wrapper.py:AbsVolumeWrapper._fit_epoch", "tomopt/optimisation/wrapper/volume_wrapper.py:AbsVolumeWrapper._scan_volumes", "tomopt/optimisation/wrapper/volume_wrapper.py:AbsVolumeWrapper._scan_volume", "tomopt/optimisation/callbacks/callback.py:Callback"]}
{"id": "C42", "title": "The detector is updated exactly once per complete training batch and never otherwise", "statement": "Per training epoch with n volumes and batch size b, the optimisers step at most n div b times, once per complete batch that has a loss and is not in warm-up; no step is taken in validation or prediction, and volumes beyond the last complete batch are not scanned when there is at least one complete batch.", "quantifier": "all n, b >= 1, all patterns of volumes without prediction, all warm-up settings", "why_tests_cant": "all n, b and patterns", "anchors": ["tomopt/optimisation/wrapper/volume_wrapper.py:AbsVolumeWrapper._scan_volumes"]}
{"id": "C43", "title": "The batch loss is the mean of the losses of the batch", "statement": "The loss used for a volume batch is the sum of the losses of its predictable volumes divided by the batch size and never includes a volume of another batch; a batch with no predictable volume causes no update.", "quantifier": "all loss sequences, batch sizes", "why_tests_cant": "all sequences", "anchors": ["tomopt/optimisation/wrapper/volume_wrapper.py:AbsVolumeWrapper._scan_volumes", "tomopt/optimisation/wrapper/volume_wrapper.py:AbsVolumeWrapper._scan_volume"]}
{"id": "C44", "title": "Fit and predict leave the wrapper reusable after any failure", "statement": "Whatever exception a callback, the simulation, the inference or the loss raises, at any point of fit or predict, afterwards the wrapper holds no fit state and the caller's callback list is the one they passed, and the exception reaches the caller.", "quantifier": "every crash point", "why_tests_cant": "every crash point", "anchors": ["tomopt/optimisation/wrapper/volume_wrapper.py:AbsVolumeWrapper.fit", "tomopt/optimisation/wrapper/volume_wrapper.py:AbsVolumeWrapper.predict"]}
{"id": "C45", "title": "Predict returns one entry per volume in order", "statement": "predict returns exactly one (prediction, target) pair per passive volume, in the order of the provided volumes, from this call only, and performs no optimiser step.", "quantifier": "all numbers of volumes, repeated calls sharing the default handler", "why_tests_cant": "all histories of calls", "anchors": ["tomopt/optimisation/wrapper/volume_wrapper.py:AbsVolumeWrapper.predict", "tomopt/optimisation/callbacks/pred_callbacks.py:PredHandler", "tomopt/optimisation/data/passives.py:PassiveYielder"]}
{"id": "C46", "title": "Warm-up freezes the detector for exactly the declared number of epochs", "statement": "With warm-up callbacks of lengths n1..nk, optimiser steps are suppressed during exactly the first n1+...+nk training epochs, callback i is active exactly during its own window, at most one is active at a time, and post-warm-up callbacks listed after them activate at the first epoch after.", "quantifier": "any number of warm-up callbacks, any lengths including zero, any number of epochs", "why_tests_cant": "all k and lengths", "anchors": ["tomopt/optimisation/callbacks/warmup_callbacks.py:WarmupCallback", "tomopt/optimisation/callbacks/warmup_callbacks.py:PostWarmupCallback"]}
{"id": "C47", "title": "The one-cycle schedule rises for the warm-up length and then falls", "statement": "During a fit, the learning rate moves monotonically from its initial to its mid value over the first warmup_length epochs and then monotonically from mid to final value over the remaining epochs, reaching the final value at the last update.", "quantifier": "all warm-up lengths, numbers of epochs and of batches per epoch, all rates", "why_tests_cant": "all lengths", "anchors": ["tomopt/optimisation/callbacks/opt_callbacks.py:OneCycle", "tomopt/optimisation/callbacks/opt_callbacks.py:AbsOptSchedule"]}
{"id": "C48", "title": "The update limiter bounds every panel update", "statement": "With the update limiter, each optimiser step changes each panel parameter by at most the configured maximum, keeps the direction of the change, and leaves smaller changes untouched.", "quantifier": "all panels, parameters and optimiser steps", "why_tests_cant": "all steps", "anchors": ["tomopt/optimisation/callbacks/detector_callbacks.py:PanelUpdateLimiter"]}
{"id": "C49", "title": "NaN gradients are zeroed and others kept", "statement": "After the NaN-removal callback, no gradient of any panel or of the budget weights is NaN and every finite gradient is unchanged.", "quantifier": "all gradient tensors", "why_tests_cant": "all patterns of NaN", "anchors": ["tomopt/optimisation/callbacks/grad_callbacks.py:NoMoreNaNs"]}
{"id": "C50", "title": "The smoothness schedule spans the configured range", "statement": "The sigmoid smoothness equals the configured start at the first active epoch and the configured end at the last epoch, is monotone in between, stays within the range, and the schedule is never indexed out of range.", "quantifier": "all epoch counts, activation epochs and ranges", "why_tests_cant": "all epoch counts", "anchors": ["tomopt/optimisation/callbacks/detector_callbacks.py:SigmoidPanelSmoothnessSchedule"]}
{"id": "C51", "title": "Panel centring averages positions and panels stay independent", "statement": "After centring, all panels of a layer are at the mean xy; a following optimiser step moves each panel by its own update only.", "quantifier": "all panel positions, all following steps", "why_tests_cant": "aliasing shows up only in later steps", "anchors": ["tomopt/optimisation/callbacks/detector_callbacks.py:PanelCentring"]}
{"id": "C52", "title": "Muon resampling returns only muons that cross the passive volume", "statement": "When resampling finishes every returned muon crosses the passive volume, muons that already did are returned unchanged and in place, and any muon that crosses the passive volume is accepted.", "quantifier": "all initial muons, all generator outputs, any number of rounds", "why_tests_cant": "unbounded number of rounds", "anchors": ["tomopt/optimisation/callbacks/data_callbacks.py:MuonResampler"]}
{"id": "C53", "title": "Validation loss composition adds up to one", "statement": "The logged fractional components of the validation loss of every epoch sum to one, and the best loss equals the minimum of the logged validation losses.", "quantifier": "all sequences of losses, volumes with and without predictions", "why_tests_cant": "all sequences", "anchors": ["tomopt/optimisation/callbacks/monitors.py:MetricLogger"]}
{"id": "C54", "title": "Stored predictions and targets stay paired", "statement": "In the HDF5 prediction file entry i of predictions and entry i of targets belong to the same volume, after any number of appends, re-openings and failures.", "quantifier": "all append histories and crash points", "why_tests_cant": "crash points between the two writes", "anchors": ["tomopt/optimisation/callbacks/pred_callbacks.py:Save2HDF5PredHandler._write_data"]}
{"id": "C55", "title": "Recorded scatters are attributed to the passive layer that contains them", "statement": "The layer index given for each recorded PoCA is the index (from the top) of the passive layer whose z range contains it.", "quantifier": "all volumes, all PoCAs inside the passive volume", "why_tests_cant": "symmetric test volumes hide the error", "anchors": ["tomopt/optimisation/callbacks/diagnostic_callbacks.py:ScatterRecord._to_df"]}
{"id": "C56", "title": "The budget term grows with cost and joins smoothly at the budget", "statement": "The budget term is zero without a budget, otherwise positive, strictly increasing in the cost, equal to one at the budget, and continuously differentiable in the cost (steep version), so that exceeding the budget is always penalised more than respecting it.", "quantifier": "all costs, budgets>0, smoothings>0", "why_tests_cant": "continuous domain", "anchors": ["tomopt/optimisation/loss/loss.py:AbsDetectorLoss._get_budget_coef"]}
{"id": "C57", "title": "The cost coefficient is fixed by the first evaluation", "statement": "If not given, the cost coefficient equals the inference error of the first evaluated volume and never changes by later evaluations; if given it is never changed; the loss equals error plus coefficient times budget term.", "quantifier": "all evaluation sequences", "why_tests_cant": "all sequences", "anchors": ["tomopt/optimisation/loss/loss.py:AbsDetectorLoss.forward", "tomopt/optimisation/loss/loss.py:AbsDetectorLoss._get_cost_loss"]}
{"id": "C58", "title": "Integer class loss is a normalised expected distance", "statement": "The integer class loss lies in [0,1], is zero exactly when all probability is on the target, and moving probability from a farther integer to a nearer one never increases it.", "quantifier": "any number >=2 of classes, all probability vectors, all targets", "why_tests_cant": "all sizes", "anchors": ["tomopt/optimisation/loss/sub_losses.py:integer_class_loss"]}
{"id": "C59", "title": "Class targets are the nearest class of the true X0", "statement": "In the voxel and volume class losses every voxel's class target is the class of the known X0 nearest to its true X0.", "quantifier": "all X0 maps, all volumes", "why_tests_cant": "value collisions", "anchors": ["tomopt/optimisation/loss/loss.py:VoxelClassLoss._get_inference_loss", "tomopt/optimisation/loss/loss.py:VolumeClassLoss._get_inference_loss", "tomopt/utils.py:x0targs_to_classtargs"]}
{"id": "C60", "title": "Mixture X0 obeys the mixing laws", "statement": "The radiation length and density of a mixture do not depend on the normalisation of the fractions or the order of the components, equal the component's for a single component, lie between the extremes of the components, agree between mass and volume fractions describing the same mixture, and satisfy 1/X0 = sum v_i/X0_i, rho = sum v_i rho_i for volume fractions v_i.", "quantifier": "any number of components, all positive fractions", "why_tests_cant": "all sizes", "anchors": ["tomopt/utils.py:x0_from_mixture"]}
{"id": "C61", "title": "Class/X0 conversions invert each other", "statement": "Converting class IDs to X0s and back returns the class IDs when the map is a bijection; an unknown class ID is reported as an error; inputs are not modified.", "quantifier": "all arrays and bijective maps", "why_tests_cant": "all sizes", "anchors": ["tomopt/utils.py:class_to_x0preds", "tomopt/utils.py:x0targs_to_classtargs"]}
{"id": "C62", "title": "Every training epoch uses every layout exactly once", "statement": "Iterating a yielder of a list yields every layout exactly once per epoch with its own target, for any shuffling and any number of epochs, and its length equals the number yielded; with a generator it yields exactly n_passives layouts.", "quantifier": "all lists, all shuffles, all numbers of epochs", "why_tests_cant": "all shuffles", "anchors": ["tomopt/optimisation/data/passives.py:PassiveYielder"]}
{"id": "C63", "title": "Random blocks lie inside the passive volume and appear in it", "statement": "A randomly placed block is contained in the passive volume and at least one voxel of the generated material map has the block's material; with sorted X0 the block's X0 does not exceed the background's.", "quantifier": "all random draws, volumes and block sizes not larger than the volume", "why_tests_cant": "all draws", "anchors": ["tomopt/optimisation/data/passives.py:AbsBlockPassiveGenerator._get_block_coords", "tomopt/optimisation/data/passives.py:RandomBlockPassiveGenerator._generate", "tomopt/optimisation/data/passives.py:BlockPresentPassiveGenerator._generate"]}
{"id": "C64", "title": "Generated muons have kinematics inside the configured ranges", "statement": "Every generated muon has x, y in the generation ranges, theta inside the theta range, phi in [0,2pi), momentum either the fixed one or that of an energy inside the energy range, for every random draw; sampling probability of each (theta, energy) cell is proportional to its flux.", "quantifier": "all draws, ranges, flux functions with non-negative values and positive total", "why_tests_cant": "all draws", "anchors": ["tomopt/muon/generation.py:AbsMuonGenerator.__init__", "tomopt/muon/generation.py:AbsMuonGenerator.generate_set"]}
{"id": "C65", "title": "Fill-level classes and heights convert consistently", "statement": "For the ladle furnace benchmark converting a layer class to a fill height and back returns the class, the class assigned to a fill height is the layer containing it, and the generated layout has fill, slag and air in that order from the bottom with furnace walls on the border.", "quantifier": "all layer counts, sizes and fill heights", "why_tests_cant": "continuous heights", "anchors": ["tomopt/benchmarks/ladle_furnace/loss.py:LadleFurnaceIntClassLoss._targ2int", "tomopt/benchmarks/ladle_furnace/inference.py:EdgeDetLadleFurnaceFillLevelInferrer._class2float", "tomopt/benchmarks/ladle_furnace/data.py:LadleFurnacePassiveGenerator._generate"]}
{"id": "C66", "title": "Displacement and deflection go to the same side", "statement": "In one scattering step the displacement of a muon caused by the second random number goes to the same side as its deflection (the two are positively correlated, as in the PDG formulas).", "quantifier": "all muons, materials, momenta and draws", "why_tests_cant": "a correlation of continuous random draws; a sign error keeps every marginal distribution", "anchors": ["tomopt/volume/layer.py:PassiveLayer._pdg_scatter"]}
{"id": "C67", "title": "A muon scattered upwards is removed", "statement": "If the drawn scattering angles turn the direction of flight upwards the muon is removed from the batch; it is never continued in another direction.", "quantifier": "all directions and drawn angles", "why_tests_cant": "needs a rare large angle at a shallow direction", "anchors": ["tomopt/volume/layer.py:PassiveLayer._pdg_scatter", "tomopt/muon/muon_batch.py:MuonBatch.scatter_dtheta_xy"]}
{"id": "C68", "title": "Muons scatter all the way through a layer", "statement": "A muon crossing a layer over material is scattered on every step until it leaves through the bottom or the side.", "quantifier": "all layers, muons and random draws", "why_tests_cant": "needs a rare displacement above the top of the layer", "anchors": ["tomopt/volume/layer.py:PassiveLayer.forward"]}
{"id": "C69", "title": "dxy is the gap between the closest points of the two tracks", "statement": "For tracks that are not parallel the inferred dxy is, in x and y, the step from the point of the incoming line to the point of the outgoing line that are closest to each other.", "quantifier": "all pairs of non-parallel tracks", "why_tests_cant": "a continuum of track pairs; sign and pairing errors survive single examples", "anchors": ["tomopt/inference/scattering.py:ScatterBatch.dxy"]}
{"id": "C70", "title": "theta_xy are the projected angles of the track", "statement": "For every downward track the two components of theta_xy are atan(dx/|dz|) and atan(dy/|dz|) of the track vector.", "quantifier": "all downward tracks", "why_tests_cant": "all quadrants and limits of the angles", "anchors": ["tomopt/inference/scattering.py:ScatterBatch.theta_xy_in", "tomopt/inference/scattering.py:ScatterBatch.theta_xy_out"]}
{"id": "C71", "title": "True hits give back the muon", "statement": "Muons fly down through a detector layer with two or more panels, the two highest at different heights. Fitting the true hits of a muon, as GenScatterBatch does, gives back its zenith angle, its azimuth when not vertical, and its position at the faces of the passive volume.", "quantifier": "all layers, panel orders, muons, random draws", "why_tests_cant": "composes propagation, hit recording, hit stacking, track fit and angle inference over all inputs", "anchors": ["tomopt/volume/layer.py:PanelDetectorLayer.forward", "tomopt/inference/scattering.py:GenScatterBatch"]}
{"id": "C72", "title": "The predicted X0s are consistent with the muons used", "statement": "If the usable muons have total scattering, angles and momentum within given ranges, every voxel gets an X0 between the values the scattering law gives for the ends of these ranges; if they all scattered by the leading-order width of one X0, every voxel gets exactly that X0.", "quantifier": "all grids, batches, efficiencies, uncertainties, distribution functions", "why_tests_cant": "composes masking, efficiencies, voxel probabilities, weighting and the scattering law over all inputs", "anchors": ["tomopt/inference/volume.py:AbsX0Inferrer", "tomopt/inference/volume.py:PanelX0Inferrer"]}
{"id": "C73", "title": "A scan without usable muons gives no prediction", "statement": "If none of the muons can be used, the inferrer returns no prediction instead of failing.", "quantifier": "all batches without usable muons", "why_tests_cant": "needs batches in which every muon is lost", "anchors": ["tomopt/inference/volume.py:AbsX0Inferrer.get_prediction"]}
{"id": "C74", "title": "A batch without muons does not affect the prediction", "statement": "Adding a scatter batch without muons does not change what is inferred from the other batches.", "quantifier": "all sequences of batches", "why_tests_cant": "empty batches do not occur in ordinary test runs", "anchors": ["tomopt/inference/volume.py:AbsX0Inferrer._combine_scatters", "tomopt/inference/scattering.py:ScatterBatch._compute_out_var_unc"]}
{"id": "C75", "title": "Predict leaves the caller's data as it was", "statement": "After predict, successful or not, the passive volumes handed in by the caller behave as before the call; in particular shuffling, if it was on, is still on.", "quantifier": "all data, all callbacks, all ways in which predict can end", "why_tests_cant": "Tests look at the predictions; the state of the yielder after the call matters only in a later fit with the same yielder.", "anchors": ["tomopt/optimisation/wrapper/volume_wrapper.py:374-426", "tomopt/optimisation/data/passives.py:299-338"]}
{"id": "C76", "title": "Integer class loss treats the rows of a batch independently", "statement": "For a batch of rows of probabilities with one target each (shape (*), as documented), the unreduced loss of every row is the loss of that row with its own target.", "quantifier": "all numbers of rows and classes, all targets", "why_tests_cant": "broadcasting depends on coincidences of sizes", "anchors": ["tomopt/optimisation/loss/sub_losses.py:integer_class_loss"]}
{"id": "C77", "title": "Squared-error losses vanish exactly for exact predictions", "statement": "The squared-error inference losses are finite, non-negative, and zero exactly if every prediction equals its target.", "quantifier": "all sizes and values", "why_tests_cant": "all sizes", "anchors": ["tomopt/optimisation/loss/loss.py:VoxelX0Loss._get_inference_loss", "tomopt/optimisation/loss/loss.py:VolumeMSELoss._get_inference_loss"]}
{"id": "C78", "title": "Sampled energies follow the flux", "statement": "The probability with which a generated muon has its energy in a bin is proportional to the flux at that bin times the width of the bin.", "quantifier": "all fluxes and energy ranges", "why_tests_cant": "needs the distribution, not samples", "anchors": ["tomopt/muon/generation.py:AbsMuonGenerator.__init__"]}
{"id": "C79", "title": "The generation region matches the minimum angle", "statement": "A muon generated at the edge of the region chosen by from_volume needs at least min_angle to reach the passive volume, and at min_angle it reaches it.", "quantifier": "all volumes, angles and directions", "why_tests_cant": "all directions", "anchors": ["tomopt/muon/generation.py:AbsMuonGenerator.from_volume"]}
{"id": "C80", "title": "Passes over a yielder are independent", "statement": "A pass over a yielder in progress is not disturbed by starting another pass over the same yielder.", "quantifier": "all lists and shuffles", "why_tests_cant": "interleavings", "anchors": ["tomopt/optimisation/data/passives.py:PassiveYielder.__iter__"]}
{"id": "C81", "title": "Voxel layouts have the layer's shape and configured materials only", "statement": "Every layer of a random voxel layout has one value per voxel, each being the X0 of one of the configured materials.", "quantifier": "all draws, sizes and materials", "why_tests_cant": "all draws", "anchors": ["tomopt/optimisation/data/passives.py:VoxelPassiveGenerator._generate"]}
{"id": "C82", "title": "The edge-detecting ladle inferrer gives a distribution that peaks at the fill level", "statement": "The class probabilities of EdgeDetLadleFurnaceFillLevelInferrer are a probability distribution over the layers above the bottom of the ladle, and on the exact X0s of a generated ladle the most probable class is the class of the target.", "quantifier": "all X0 maps and fill levels, with the default pipeline", "why_tests_cant": "continuous maps and levels", "anchors": ["tomopt/benchmarks/ladle_furnace/inference.py:EdgeDetLadleFurnaceFillLevelInferrer.x02probs"]}
{"id": "C83", "title": "Pixels of the PoCA-z inferrer tile the plane", "statement": "Every xy position inside the passive volume lies in exactly one pixel of PocaZLadleFurnaceFillLevelInferrer.", "quantifier": "all volume and pixel sizes", "why_tests_cant": "continuous positions and sizes", "anchors": ["tomopt/benchmarks/ladle_furnace/inference.py:PocaZLadleFurnaceFillLevelInferrer.__init__"]}
{"id": "C84", "title": "Predicted fill height is a weighted mean of PoCA heights", "statement": "The predicted height lies between the lowest and highest PoCA z of the muons and moves with them when all are shifted; pixel weights grow towards the centre of the volume.", "quantifier": "all muons, uncertainties, efficiencies and smoothness values", "why_tests_cant": "continuous inputs of any number", "anchors": ["tomopt/benchmarks/ladle_furnace/inference.py:PocaZLadleFurnaceFillLevelInferrer._get_height_pred", "tomopt/benchmarks/ladle_furnace/inference.py:PocaZLadleFurnaceFillLevelInferrer.smooth"]}
{"id": "C85", "title": "Spread/range loss is a finite non-negative number", "statement": "SpreadRangeLoss gives a finite, non-negative loss that is zero exactly if the predictions of every target are equal.", "quantifier": "all sequences of targets and predictions", "why_tests_cant": "sequences of any length", "anchors": ["tomopt/benchmarks/ladle_furnace/loss.py:SpreadRangeLoss"]}
{"id": "C86", "title": "The scatter mask selects exactly the locations in voxels", "statement": "A scatter location passes get_scatter_mask exactly if it is a point of one of the voxels of the passive volume (lower faces included, upper not), and the coordinate lookup then finds that voxel with all indices in range.", "quantifier": "all stacks of passive layers and all locations, also ones that are not numbers", "why_tests_cant": "all positions including faces, edges and NaN", "anchors": ["tomopt/inference/scattering.py:ScatterBatch.get_scatter_mask", "tomopt/volume/volume.py:Volume.lookup_passive_xyz_coords"]}
{"id": "C87", "title": "Heat-map response follows the density and stays within the nominal values", "statement": "In training the resolution and efficiency of a heat map at any position are positive and follow the density of its components; with scale 1 they do not exceed the nominal values, which are reached at the highest mean.", "quantifier": "all heat maps with positive widths, all positions", "why_tests_cant": "all arrangements of components", "anchors": ["tomopt/volume/heatmap.py:GMM.forward", "tomopt/volume/heatmap.py:DetectorHeatMap.get_resolution", "tomopt/volume/heatmap.py:DetectorHeatMap.get_efficiency"]}
{"id": "C88", "title": "Conforming keeps heat maps in their layer and usable", "statement": "After conforming, the means of a heat map are within its range and within the layer, widths are positive, scale and height are within their limits; nothing else changes, and a heat map within the limits is unchanged.", "quantifier": "all parameter values after any update, all layers and positions", "why_tests_cant": "all parameter values", "anchors": ["tomopt/volume/layer.py:PanelDetectorLayer.conform_detector", "tomopt/volume/heatmap.py:DetectorHeatMap.clamp_params"]}
{"id": "C89", "title": "Heat maps can be made and record every muon", "statement": "A heat map can be made with any positive spans and records one hit per muon, with the true position, a recorded position that follows the true one, and the uncertainty that belongs to the resolution.", "quantifier": "all spans, draws, positions and modes", "why_tests_cant": "all modes and positions", "anchors": ["tomopt/volume/heatmap.py:DetectorHeatMap.__init__", "tomopt/volume/heatmap.py:DetectorHeatMap.get_hits"]}
{"id": "C90", "title": "Cost coefficient from the warm-up", "statement": "CostCoefWarmup sets the cost coefficient of the loss, at the end of its own window of epochs, to the median of the inference errors of the training volumes of exactly those epochs; before that, and if it has no window, the coefficient is the given one or the first error.", "quantifier": "all fits, warm-ups at any place beside others, data, losses, predictions or their absence", "why_tests_cant": "all orders and lengths of warm-ups, all data", "anchors": ["tomopt/optimisation/callbacks/warmup_callbacks.py:CostCoefWarmup", "tomopt/optimisation/loss/loss.py:AbsDetectorLoss.forward"]}
{"id": "C91", "title": "Learning rates from the warm-up", "statement": "OptConfig sets the learning rate of each optimiser in rates, at the end of its own window of epochs, to the desired rate over the median size of the gradients of all updates of exactly those epochs, so that a plain step with a median gradient has the desired size; other optimisers keep theirs.", "quantifier": "all fits, warm-ups at any place beside others, gradients, rates", "why_tests_cant": "all orders and lengths of warm-ups, all gradients", "anchors": ["tomopt/optimisation/callbacks/warmup_callbacks.py:OptConfig", "tomopt/optimisation/wrapper/volume_wrapper.py:AbsVolumeWrapper.set_opt_lr"]}
{"id": "C92", "title": "The lorry benchmark hides the asked volume of uranium", "statement": "If the target says so, uranium fills exactly a box of whole voxels of the asked volume, inside of the cargo space (above the lorry's floor, not above the cargo); otherwise there is none. All other voxels are lorry, cargo or air according to their layer. Volumes that cannot be made of voxels are refused.", "quantifier": "all volumes, uranium volumes, fill fractions, random numbers", "why_tests_cant": "all random numbers and shapes", "anchors": ["tomopt/benchmarks/u_lorry/data.py:ULorryPassiveGenerator._compute_sizes", "tomopt/benchmarks/u_lorry/data.py:ULorryPassiveGenerator._get_block_coords", "tomopt/benchmarks/u_lorry/data.py:ULorryPassiveGenerator._generate"]}
{"id": "C93", "title": "The walls benchmark builds standing, connected walls", "statement": "Generating walls ends for all random numbers; each wall stands on a connected path of cells of the grid that does not meet itself or other walls, from the common ground to a height between the smallest height and the top layer, which stays soil; walls are shorter than the smallest length only if blocked; there is at least one. The layout function gives the map of each layer.", "quantifier": "all shapes of volumes, parameters and random numbers", "why_tests_cant": "termination and connectedness for all random numbers", "anchors": ["tomopt/benchmarks/small_walls/data.py:SmallWallsPassiveGenerator._generate"]}
{"id": "C94", "title": "One metric leads and the reported best epoch is its best", "statement": "Of the metrics marked as main exactly one leads a fit, the logger follows it wherever it stands among the callbacks, and the reported best results are those of one epoch, the first with the best value of that metric (or the lowest validation loss if no metric leads).", "quantifier": "all lists of callbacks, marks, losses and metric values", "why_tests_cant": "every order of callbacks and every history of values, including NaN and infinities", "anchors": ["tomopt/optimisation/callbacks/eval_metric.py:EvalMetric.on_train_begin", "tomopt/optimisation/callbacks/monitors.py:MetricLogger._reset", "tomopt/optimisation/callbacks/monitors.py:MetricLogger.on_epoch_end", "tomopt/optimisation/callbacks/monitors.py:MetricLogger.get_results"]}
{"id": "C95", "title": "The detector layouts of the benchmarks are flush stacks of layers on the voxel grid", "statement": "get_small_walls_volume, and get_initial_detector, get_baseline_detector_1 and get_baseline_detector_2 of the ladle furnace, build a detector layer above and one below the passive layers. Each layer starts where the one above it ends, from the top of the volume to height 0. The passive layers are whole voxels on the voxel grid that voxel lookup and inference assume. The panels lie inside their layers, with the span, resolution and efficiency asked for.", "quantifier": "for all voxel sizes, passive heights, detector heights, sides, spans, resolutions and efficiencies", "why_tests_cant": "Whether layers meet depends on the size, the height and the rounding of the heights to two decimals; the tests only build the default sizes.", "anchors": ["tomopt/benchmarks/small_walls/volume.py:16-66", "tomopt/benchmarks/ladle_furnace/volume.py:12-282"]}
{"id": "C96", "title": "X0 predictions depend on the usable muons only", "statement": "The X0 prediction of PanelX0Inferrer after adding scatter batches depends only on the muons that have usable variables: not on the order in which they are added, not on how they are divided into batches, not on unusable muons among them, and not on whether every muon is added once or twice.", "quantifier": "for all volumes, all lists of scatter batches, all permutations and divisions of their muons", "why_tests_cant": "There are infinitely many orders and divisions; tests add one fixed sequence of batches.", "anchors": ["tomopt/inference/volume.py:233-269", "tomopt/inference/volume.py:297-398"]}
{"id": "C97", "title": "The optimisers own every learnable parameter exactly once", "statement": "PanelVolumeWrapper and HeatMapVolumeWrapper give each kind of panel parameter its own optimiser with the settings supplied for it. Every learnable parameter of the volume is in exactly one optimiser, once. A step therefore updates every parameter once, from its value before the step, and the order of the optimisers does not matter. get/set_opt_lr and get/set_opt_mom read and change the rate or momentum of the named optimiser only. get_param_count counts every parameter once.", "quantifier": "for all volumes (any number of layers and panels of any kind, with or without a budget), all optimiser settings, all update rules that act on one parameter at a time", "why_tests_cant": "The tests build one volume with a few panels and check that the optimisers exist; ownership concerns every parameter of every volume, and missing or doubled ownership shows only as slower or wrong learning.", "anchors": ["tomopt/optimisation/wrapper/volume_wrapper.py:294-305", "tomopt/optimisation/wrapper/volume_wrapper.py:428-480", "tomopt/optimisation/wrapper/volume_wrapper.py:834-853", "tomopt/optimisation/wrapper/volume_wrapper.py:1052-1070"]}
{"id": "C98", "title": "EpochSave keeps one state per training epoch", "statement": "In a fit with EpochSave among callbacks that leave the loop's own settings alone: if the fit ends normally, volume_state_1 to volume_state_e (e: the epochs begun) were written once each, in order, and no other file changed; the file of epoch i has the state after exactly the updates of epochs 1 to i (validation writes nothing); the last file has the state the fit ends with; if the fit fails, what was written is still numbered from 1 and only the file of the epoch of the failure may be missing. (The promised uniqueness of the files does not survive a second fit.)", "quantifier": "for all simulations, losses, optimisers and other callbacks (arbitrary functions that may raise), for all numbers of epochs, batches and volumes, for all files that were there before, for every point at which the run fails", "why_tests_cant": "It speaks about every interleaving of the saver with other callbacks, early stopping, skipped updates and failures at any step; a test tries a few runs.", "anchors": ["tomopt/optimisation/callbacks/opt_callbacks.py:143-151", "tomopt/optimisation/wrapper/volume_wrapper.py:268-276", "tomopt/optimisation/wrapper/volume_wrapper.py:307-372"]}
{"id": "C99", "title": "Diagnostic recorders hold exactly the scatters and hits of the last run", "statement": "After a fit or prediction with a ScatterRecord, get_record gives every PoCA inside the passive volume, of every muon batch of that run in order, and nothing of earlier runs; a HitRecord gives all hits of all muons. If the run fails, at most the last batch is missing. Without any batch get_record raises. The layer of a recorded hit is the number of its panel from the top.", "quantifier": "All numbers of epochs, volumes and muon batches, all other callbacks that leave the scatter batches alone, all previous records, all points of failure, all scatter batches.", "why_tests_cant": "A test runs one fit with a few batches and looks at the shape of the record; that nothing is lost, doubled or left over depends on the order of callbacks, on earlier runs and on where a run fails. Layers are right in a prediction with a fixed detector and wrong once training moves the panels.", "anchors": ["tomopt/optimisation/callbacks/diagnostic_callbacks.py:29-132", "tomopt/optimisation/wrapper/volume_wrapper.py:592-630", "tomopt/inference/scattering.py:164-178"]}
{"id": "C100", "title": "Uncertainties of scattering variables are first-order propagations of the hit uncertainties", "statement": "For a variable that each muon gets from its own hits, _compute_out_var_unc gives, for every muon and component, the quadratic sum over the coordinates of that muon's hits of derivative times hit uncertainty; other muons of the batch play no role. For the point where the track reaches the volume, with two panels above, this is the formula of straight-line extrapolation. The uncertainty of a voxel's X0 is the quadratic sum over all variables of all muons. Larger hit uncertainties never give smaller results. Uncertainties can be read of every scatter batch.", "quantifier": "for all differentiable variables, all numbers of muons, panels and components, all hits and uncertainties, all gradients that are right or not a number", "why_tests_cant": "A test compares a few values with numerical derivatives for one batch; that the sum over the muon axis removes exactly the other muons, also when their gradients are not a number, and that the formula holds for all geometries needs a proof. Tests of true-hit batches do not read uncertainties.", "anchors": ["tomopt/utils.py:14-40", "tomopt/inference/scattering.py:515-539", "tomopt/inference/scattering.py:1127-1135", "tomopt/inference/volume.py:272-297"]}
{"id": "C101", "title": "The linear correction is trained on the uncorrected predictions of one batch and used on the next", "statement": "With LinearCorrectionCallback at any place of the list of callbacks, in a fit that ends normally: all volumes of a training batch are judged with the same correction; after the batch it is trained once, on exactly the uncorrected predictions of the batch's volumes, each with its own target; volumes that fill no batch and volumes of the validation are judged with the correction as it then is and leave it alone. With plain gradient descent training does not make the mean squared error of the batch larger and leaves the best lines alone. Every volume, with a prediction or without, can be scanned.", "quantifier": "for all fits that end normally, all numbers of epochs, volumes, batches and muons, all other callbacks that leave predictions and targets alone, all optimisers, all initial weights and biases; for all data and learning rates", "why_tests_cant": "The class is marked 'research tested only: no unit tests'. A test fixes one number of volumes, one place in the list and one optimiser; that no prediction of another batch, of the validation or an already corrected one ever enters the training needs an invariant over all runs.", "anchors": ["tomopt/benchmarks/ladle_furnace/inference.py:393-427", "tomopt/optimisation/wrapper/volume_wrapper.py:513-650"]}
{"id": "C102", "title": "The scatter batch of true hits tells how each used muon came in and went out", "statement": "Muons go through a volume of detector layers above, passive layers and detector layers below, whose first two hits in either group are at different heights, and a GenScatterBatch is made of the result. A muon is used exactly if both its directions are more than 1e-5 rad from the horizontal, the two directions are not parallel, and it is near the volume at the top and at the bottom. Entry i of the batch belongs to the i-th used muon: its polar angles, azimuths, places at the top and the bottom of the passive volume, the angle between its two directions and the point halfway between the closest points of its two lines of flight are those of that muon before and after it crossed the passive layers; its momentum is unchanged. A beam of which no muon is deflected gives an empty batch.", "quantifier": "for all numbers and positions of layers and panels, all material maps, all scattering and hit draws, all muons (also those removed on the way) and all volumes in which the runs end without error", "why_tests_cant": "The claim joins propagation, scattering, muon removal, hit recording, stacking, track fitting, filtering and the angles; each step keeps rows only if every other one does, and tests check each step by itself on a few muons.", "anchors": ["tomopt/volume/volume.py:186-199", "tomopt/inference/scattering.py:398-514", "tomopt/inference/scattering.py:1090-1145"]}
{"id": "C103", "title": "The heat-map gif has one frame for the start of each epoch and one for the end", "statement": "With HeatMapGif at any place of the list of callbacks and a volume whose first detector is a heat map with a panel, after a fit that ends normally the gif has one frame more than there were epochs; frame i shows the panel as it was after the updates of the first i epochs; the temporary pictures with these numbers are gone and other files are as before. If the fit ends before the callback is called at the end of training, the gif of an earlier fit is left alone and no picture is removed. If the first detector is of another kind the fit raises and nothing is written; a volume without a heat map to plot is told about before training. After every fit no temporary picture is left.", "quantifier": "for all fits, all numbers of epochs, volumes, batches and muons, with or without validation, all other callbacks that keep to the rules of the loop, all detectors, all files that are there before, all points at which a fit is interrupted", "why_tests_cant": "A test runs a few epochs without interruption and looks at whether a file exists. That the frames are those of the right moments, also with validation passes, early stops and skipped updates, is a statement about all runs.", "anchors": ["tomopt/optimisation/callbacks/heatmap_gif.py:17-91", "tomopt/optimisation/wrapper/volume_wrapper.py:295-409"]}
{"id": "C104", "title": "What the logger draws, prints and reports is what happened in each epoch", "statement": "In a fit with validation and at least one full batch of training volumes, at the end of epoch e (counted from 0) the j-th batch of its training is drawn at e + (j+1)/(number of batches), with the mean loss of that batch, and the validation loss at e + 1; what is printed is e + 1, the mean of the losses of the batches of its training and the validation loss. The values of the leading metric are drawn, one for each epoch, on an axis of epochs. get_loss_history returns the losses and the values of every metric. The plots have places of their own in the grid, with or without metrics. After a fit that ends normally the gif has one frame for the start of each epoch and one for the end, lasts as long as asked for, and no temporary picture is left.", "quantifier": "for all fits, numbers of epochs, volumes, batches and muons, all other callbacks that keep to the rules of the loop, all losses and sub-losses, all sets of metrics, with or without a sigmoid panel", "why_tests_cant": "Tests look at whether a file is written for one short fit. That each point of a curve stands at the epoch it belongs to, after any number of epochs and with any number of batches, is a statement about all runs.", "anchors": ["tomopt/optimisation/callbacks/monitors.py:89-122", "tomopt/optimisation/callbacks/monitors.py:183-264", "tomopt/optimisation/callbacks/monitors.py:287-338", "tomopt/optimisation/callbacks/monitors.py:360-372", "tomopt/optimisation/callbacks/monitors.py:432-439"]}
{"id": "C105", "title": "Without noise, recorded hits tell exactly the muons that go through every panel", "statement": "Muons go through a volume as in C102, evaluated (not trained) with panels that model the validation realistically, and all draws of the position noise are zero. A ScatterBatch is made of the recorded hits. A muon is used exactly if it is clear in the sense of C102 and flies through every panel above on its way in and every panel below on its way out, within the spans that the budget gives the panels. Entry i of the batch tells the angles, places, scattering angle and point of closest approach of the i-th used muon, as in C102: the resolutions and efficiencies of the panels do not bias the inferred tracks.", "quantifier": "for all numbers, positions, spans, budgets, resolutions above 1e-10 and efficiencies above 1e-12 of panels, all material maps, all scattering draws, all muons and all volumes in which the runs end without error", "why_tests_cant": "The hits are weighted by uncertainties and efficiencies that differ from panel to panel; that the fits do not depend on them holds for any number of collinear hits, and that no muon outside some panel is used needs an argument over infinite uncertainties, masks and stacked rows.", "anchors": ["tomopt/volume/panel.py:137-246", "tomopt/inference/scattering.py:398-458", "tomopt/volume/volume.py:186-199"]}
{"id": "C106", "title": "A muon generator that can be made can generate muons with momenta", "statement": "If a generator is constructed without an exception, generate_set returns muons, each with a momentum that is a number.", "quantifier": "all flux models, energy and angle ranges, and random numbers", "why_tests_cant": "continuous ranges and draws; the tests use the default ranges", "anchors": ["tomopt/muon/generation.py:AbsMuonGenerator.generate_set", "tomopt/muon/generation.py:MuonGenerator2015.flux", "tomopt/muon/generation.py:MuonGenerator2016.flux"]}
{"id": "C107", "title": "Every pipeline of the edge-detecting ladle inferrer gives one probability per layer", "statement": "For any pipeline of steps on the X0 cube, then avg_layers, then steps on the profile, x02probs returns a probability distribution with one entry for each layer that is left, and the edge kernels give nothing for a flat profile.", "quantifier": "all pipelines made of the methods of the class, and all X0 cubes", "why_tests_cant": "pipelines of any length, continuous X0s; the class has no unit tests", "anchors": ["tomopt/benchmarks/ladle_furnace/inference.py:EdgeDetLadleFurnaceFillLevelInferrer.x02probs", "tomopt/benchmarks/ladle_furnace/inference.py:EdgeDetLadleFurnaceFillLevelInferrer.gauss_1d", "tomopt/benchmarks/ladle_furnace/inference.py:EdgeDetLadleFurnaceFillLevelInferrer.gauss_3d", "tomopt/benchmarks/ladle_furnace/inference.py:EdgeDetLadleFurnaceFillLevelInferrer.edge_det"]}
{"id": "C108", "title": "The PoCA-based fill-level inferrer answers from its batches only", "statement": "Whatever the order of added batches, questions and values given to smooth, every answer of PocaZLadleFurnaceFillLevelInferrer is the one of a new inferrer given the same batches and the same smooth; the prediction does not depend on the order of the muons, on how they are spread over batches or on muons without a finite PoCA, and lies among the heights of the PoCAs.", "quantifier": "all sequences of additions, questions and settings of smooth, all batches, all volumes", "why_tests_cant": "memo fields make answers depend on the whole history, whose length is not bounded; the class has no unit tests", "anchors": ["tomopt/benchmarks/ladle_furnace/inference.py:PocaZLadleFurnaceFillLevelInferrer.get_prediction", "tomopt/benchmarks/ladle_furnace/inference.py:PocaZLadleFurnaceFillLevelInferrer._combine_scatters", "tomopt/benchmarks/ladle_furnace/inference.py:PocaZLadleFurnaceFillLevelInferrer.smooth", "tomopt/benchmarks/ladle_furnace/inference.py:PocaZLadleFurnaceFillLevelInferrer._get_height_pred"]}
{"id": "C109", "title": "A saved wrapper is restored in any wrapper that is built alike", "statement": "Saving a volume wrapper and loading the file into any wrapper whose detector is built alike, of whatever panels or heat maps and with whatever values, gives every parameter and buffer its saved value and every optimiser its saved settings and per-parameter states, and changes nothing else; from_save does the same for a newly made wrapper, whatever settings it is given. A load that raises leaves the wrapper as it was.", "quantifier": "all detectors with any numbers of layers, panels and heat maps, all sharing of tensor objects, all shapes and values, all optimisers with any groups, settings and states, all files", "why_tests_cant": "a test loads one file into one detector; whether objects are shared, shapes agree and which part of a failing load is already written depends on the callbacks that ran before and on the names of the optimisers", "anchors": ["tomopt/optimisation/wrapper/volume_wrapper.py:AbsVolumeWrapper.save", "tomopt/optimisation/wrapper/volume_wrapper.py:AbsVolumeWrapper.load", "tomopt/optimisation/wrapper/volume_wrapper.py:PanelVolumeWrapper.from_save", "tomopt/optimisation/wrapper/volume_wrapper.py:HeatMapVolumeWrapper.from_save", "tomopt/optimisation/wrapper/volume_wrapper.py:ArbVolumeWrapper.from_save", "tomopt/optimisation/callbacks/detector_callbacks.py:SigmoidPanelSmoothnessSchedule"]}
{"id": "C110", "title": "Tracks and scatterings do not depend on the choice of coordinates, the order of hits or a common factor of the uncertainties", "statement": "Moving the origin moves the fitted track, the PoCAs and the entry and exit points along and leaves all angles and distances as they are; exchanging x and y exchanges them in every result, including the X0 predictions, and keeps the same muons; muons mirrored in the middle of the volume give mirrored X0 predictions; hits listed in another order give a track on the same line; a factor common to all uncertainties changes nothing.", "quantifier": "all hits with any numbers of panels, missed panels, positions, uncertainties and efficiencies, all displacements and factors", "why_tests_cant": "a test compares one geometry with itself; that a result never depends on the axes needs all hits, including missed panels, vertical tracks and panels at equal heights", "anchors": ["tomopt/inference/scattering.py:ScatterBatch.get_muon_trajectory", "tomopt/inference/scattering.py:ScatterBatch._filter_scatters", "tomopt/inference/scattering.py:ScatterBatch._compute_scatters", "tomopt/inference/scattering.py:ScatterBatch._compute_dtheta_dphi_scatter", "tomopt/inference/volume.py:AbsX0Inferrer.x0_from_scatters"]}
{"id": "C111", "title": "Every scanned volume gets the asked number of muons, in full batches", "statement": "A fit or predict sends through every volume it loads as many full muon batches as fit into the number of muons asked for, never more at any moment, however it ends; with less than one batch asked for, no muon is sent, nothing is predicted and the detector is never updated.", "quantifier": "all volumes, all batch sizes and muon numbers, all numbers of epochs, all callbacks that leave the settings alone, all ways of ending", "why_tests_cant": "the totals depend on the number of epochs, volumes and batches and on where an exception or stop occurs", "anchors": ["tomopt/optimisation/wrapper/volume_wrapper.py:AbsVolumeWrapper._scan_volume", "tomopt/optimisation/wrapper/volume_wrapper.py:AbsVolumeWrapper.fit", "tomopt/optimisation/wrapper/volume_wrapper.py:AbsVolumeWrapper.predict"]}
{"id": "C112", "title": "Classifiers built on X0 predictions depend on the usable muons only and are well defined", "statement": "The answers of a classifier that keeps an X0 inferrer depend only on the batches added so far, and its prediction only on the usable muons, not on their order or batches. The dense-block score is a number strictly between 0 and 1 for positive voxel predictions, does not depend on the places of the voxels (without averaging) nor on the unit of length, and is NaN as soon as one voxel prediction is not a number. The integer class is the first of the most probable ones and is the same before and after softmax.", "quantifier": "all sequences of additions and predictions, all batches of muons, all voxel predictions including NaN and infinities, all sharpnesses, offsets and fractions, all functions from X0s to probabilities", "why_tests_cant": "sequences of uses, divisions into batches and voxel predictions cannot be enumerated", "anchors": ["tomopt/inference/volume.py:DenseBlockClassifierFromX0s.get_prediction", "tomopt/inference/volume.py:DenseBlockClassifierFromX0s.add_scatters", "tomopt/inference/volume.py:AbsIntClassifierFromX0.get_prediction"]}
{"id": "C113", "title": "Only differences of heights matter", "statement": "If a volume, the muons in it and all that is recorded about them are moved up by the same height, then with the same random numbers muons cross the volume in the same way, only higher: same hits, same removed muons, same angles and momenta, same budget, same exceptions, same termination. A batch that starts at the top of the volume is moved along. Predicted radiation lengths are the same if muons and voxels are moved together, and the voxels are moved along with the volume.", "quantifier": "all heights, volumes, batches, random numbers and states, no well-formedness assumed; all lists of scatter batches and grids; all stacks of passive layers", "why_tests_cant": "heights are real numbers and the random numbers of two test runs differ", "anchors": ["tomopt/volume/volume.py:Volume.forward", "tomopt/volume/layer.py:PassiveLayer.forward", "tomopt/volume/layer.py:PanelDetectorLayer.forward", "tomopt/volume/volume.py:Volume.build_xyz_edges", "tomopt/inference/volume.py:AbsX0Inferrer.get_prediction"]}
{"id": "C114", "title": "Only ratios of lengths matter", "statement": "If all lengths of a volume, its materials, its panels and the muons are multiplied by the same positive factor (resolutions and costs per area accordingly), then with the same random numbers muons cross the volume in the same way: all places and their uncertainties are multiplied by the factor, while angles, momenta, efficiencies, costs, budgets, the removed muons, exceptions and termination stay the same. Muons are generated at places multiplied by the factor. Tracks, scatterings, the muons kept, voxels, voxel probabilities and X0 predictions follow: what is a length is multiplied by the factor, all else stays.", "quantifier": "all positive factors, volumes, batches, random numbers and states, no well-formedness assumed", "why_tests_cant": "factors and random numbers are real numbers, and a length written into the code shows only at some scales", "anchors": ["tomopt/volume/volume.py:Volume.forward", "tomopt/volume/layer.py:PassiveLayer.forward", "tomopt/volume/layer.py:PassiveLayer._pdg_scatter", "tomopt/volume/panel.py:DetectorPanel.get_hits", "tomopt/volume/panel.py:DetectorPanel.get_resolution", "tomopt/volume/panel.py:DetectorPanel.assign_budget", "tomopt/inference/scattering.py:ScatterBatch.get_muon_trajectory", "tomopt/inference/scattering.py:ScatterBatch._filter_scatters", "tomopt/inference/volume.py:AbsX0Inferrer.x0_from_scatters", "tomopt/muon/generation.py:AbsMuonGenerator.from_volume"]}
