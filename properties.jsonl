{"id": "C01", "title": "Reading a parameter returns the last accepted assignment", "statement": "For any distribution, selector or sampler instance, reading a parameter returns the value of the most recent assignment to that parameter on that instance that was accepted, or the declared default if there is none, and raises AssertionError if there is no default either. Assignments and reads on one instance, or on another parameter, never change what another read returns.", "quantifier": "all parameter declarations, all interleavings of assignments and reads over any number of instances of a class", "why_tests_cant": "Unit tests try a few set/get pairs; the claim is about every finite history of operations on every instance, including failed assignments and default materialisation on read.", "anchors": ["popsynth/utils/meta.py:Parameter.__get__", "popsynth/utils/meta.py:Parameter.__set__"]}
{"id": "C02", "title": "Parameter bounds can never be violated", "statement": "After any history of assignments, a parameter that has a lower (upper) bound never reads as a value for which `value >= vmin` (`value <= vmax`) is false, unless that value is the declared default; an out-of-range or NaN assignment raises RuntimeError and leaves every readable parameter value as it was.", "quantifier": "all declarations, all values (including unordered ones such as NaN), all histories", "why_tests_cant": "Needs an invariant over all histories and all values, including incomparable floats.", "anchors": ["popsynth/utils/meta.py:Parameter.__set__", "popsynth/distribution.py:Distribution.normalization_parameter"]}
{"id": "C03", "title": "A fixed parameter cannot be changed, on any instance", "statement": "While a parameter is fixed every assignment to it raises RuntimeError and its value is unchanged; the flag belongs to the class, so fixing it through one instance's class fixes it for all instances, and un-fixing restores normal assignment.", "quantifier": "all classes, instances and histories of fix/free/assign", "why_tests_cant": "Sharing between instances only shows up for arbitrary histories over several instances.", "anchors": ["popsynth/utils/meta.py:Parameter.free", "popsynth/utils/meta.py:Parameter.fix", "popsynth/utils/meta.py:Parameter.__set__"]}
{"id": "C04", "title": "A class can declare at most one normalisation parameter", "statement": "Declaring a class with two normalisation parameters raises AssertionError ('Can only have 1 normalization').", "quantifier": "all class bodies", "why_tests_cant": "The check is over every possible class body; no library class has two, so no test exercises it.", "anchors": ["popsynth/utils/meta.py:ParameterMeta.__new__"]}
{"id": "C05", "title": "Hard selectors keep exactly the objects inside the bound", "statement": "LowerBound/HardFluxSelection select object i iff value_i >= boundary; UpperBound iff value_i <= boundary; BoxSelection iff vmin <= value_i <= vmax; the mask has one entry per value; which array is used is decided by the use_* flags with flux over luminosity over observed value over distance; with no flag, no data or no boundary, an exception is raised and no mask is produced.", "quantifier": "all value arrays of any length, all boundaries, all flag combinations", "why_tests_cant": "Pointwise equivalence for arrays of every length and every float, including the boundary itself and NaN.", "anchors": ["popsynth/selection_probability/generic_selectors.py:LowerBound.draw", "popsynth/selection_probability/generic_selectors.py:UpperBound.draw", "popsynth/selection_probability/generic_selectors.py:BoxSelection.draw", "popsynth/selection_probability/flux_selectors.py:HardFluxSelection"]}
{"id": "C06", "title": "Tightening a hard bound never selects more objects", "statement": "Raising the boundary of a lower-bound (flux) selection, lowering an upper bound, or shrinking a box never selects an object that was not selected before.", "quantifier": "all value arrays and all pairs of ordered boundaries", "why_tests_cant": "A monotonicity law over all pairs of boundaries and arrays.", "anchors": ["popsynth/selection_probability/generic_selectors.py:LowerBound.draw", "popsynth/selection_probability/generic_selectors.py:UpperBound.draw", "popsynth/selection_probability/generic_selectors.py:BoxSelection.draw"]}
{"id": "C07", "title": "Combining selectors is logical conjunction", "statement": "s1 + s2 selects object i iff both do; the result does not depend on order or grouping, adding the same selector twice changes nothing, it never selects more than either operand, neither operand is modified, and operands of different lengths (neither of length one) raise ValueError.", "quantifier": "all sampled selectors of all lengths, all finite sums", "why_tests_cant": "Algebraic laws over masks of every length and over sums of any number of selectors.", "anchors": ["popsynth/selection_probability/selection_probability.py:SelectionProbability.__add__"]}
{"id": "C08", "title": "A selector samples once until it is reset", "statement": "After the first successful select(), any further sequence of select() calls (with any size and any new data) leaves the mask unchanged; reset() makes the mask unavailable (RuntimeError) and the next select() samples afresh from the current data.", "quantifier": "all selectors, all finite histories of select/set-data/reset", "why_tests_cant": "A claim about all call histories, not single calls.", "anchors": ["popsynth/selection_probability/selection_probability.py:SelectionProbability.select", "popsynth/selection_probability/selection_probability.py:SelectionProbability.reset", "popsynth/selection_probability/selection_probability.py:SelectionProbability.selection"]}
{"id": "C09", "title": "Selection counts and indices partition the objects", "statement": "n_selected + n_non_selected = n_objects; selection_index and non_selection_index are strictly increasing, disjoint, together enumerate 0..n_objects-1, and index i is in selection_index iff object i is selected.", "quantifier": "all masks of all lengths", "why_tests_cant": "Quantifies over every mask length and content.", "anchors": ["popsynth/selection_probability/selection_probability.py:SelectionProbability.selection_index", "popsynth/selection_probability/selection_probability.py:SelectionProbability.non_selection_index", "popsynth/selection_probability/selection_probability.py:SelectionProbability.n_selected"]}
{"id": "C10", "title": "Spatial selections keep exactly the requested sky or distance range", "statement": "GalacticPlaneSelection keeps object i iff its galactic latitude b satisfies b >= b_limit or b <= -b_limit; DistanceSelection keeps it iff min_distance <= distance <= max_distance; increasing b_limit or shrinking the distance range never adds objects.", "quantifier": "all positions, all limits, all sample sizes", "why_tests_cant": "Pointwise law for every sample and limit.", "anchors": ["popsynth/selection_probability/spatial_selection.py:GalacticPlaneSelection.draw", "popsynth/selection_probability/spatial_selection.py:DistanceSelection.draw"]}
{"id": "C11", "title": "Random selections have the right size and do not depend on the progress bar", "statement": "UnitySelection selects all of `size` objects; BernoulliSelection makes exactly `size` independent draws with its probability and gives the same mask and leaves the same generator state whether progress bars are shown or not; SoftSelection makes one draw per value.", "quantifier": "all sizes, generator states, probabilities and progress settings", "why_tests_cant": "Equality of two code paths for every size and generator state.", "anchors": ["popsynth/selection_probability/generic_selectors.py:BernoulliSelection.draw", "popsynth/selection_probability/generic_selectors.py:UnitySelection.draw", "popsynth/selection_probability/generic_selectors.py:SoftSelection.draw"]}
{"id": "C12", "title": "A SimulatedVariable splits into selected and non-selected objects without loss", "statement": "Constructing a variable with mismatched lengths raises AssertionError; otherwise x.selected and x.non_selected hold exactly the observed and latent values of the objects with mask true / false, in order, observed and latent staying aligned, and their lengths add up to len(x).", "quantifier": "all arrays and masks of all lengths", "why_tests_cant": "Order-preserving partition law over all lengths and masks.", "anchors": ["popsynth/simulated_variable.py:SimulatedVariable.__new__", "popsynth/simulated_variable.py:SimulatedVariable.selected", "popsynth/simulated_variable.py:SimulatedVariable.non_selected"]}
{"id": "C13", "title": "Arithmetic acts on observed and latent values alike and commutes with selection", "statement": "For any element-wise operation f and operands, f(x) has observed values f(observed), latent values f(latent) and the mask of x; f(x).selected equals f applied to x.selected (and likewise non_selected and indexing); reductions return the reduction of the observed values.", "quantifier": "all element-wise unary and binary operations, all variables, arrays and scalars", "why_tests_cant": "Commutation law over arbitrary functions and arrays.", "anchors": ["popsynth/simulated_variable.py:SimulatedVariable.__array_ufunc__"]}
{"id": "C14", "title": "Selecting twice is the same as selecting once", "statement": "x.selected.selected has the same observed and latent values as x.selected, and x.selected.non_selected is empty.", "quantifier": "all variables", "why_tests_cant": "Idempotence over all variables and element types; the only tests look at .selected once.", "anchors": ["popsynth/simulated_variable.py:SimulatedVariable.selected", "popsynth/simulated_variable.py:SimulatedVariable.non_selected"]}
{"id": "C15", "title": "In-place arithmetic updates observed and latent values once each", "statement": "After `x op= c`, observed values are f(old observed) and latent values are f(old latent).", "quantifier": "all variables, including those whose observed and latent values are one and the same array", "why_tests_cant": "Depends on aliasing between buffers, for every operation and array.", "anchors": ["popsynth/simulated_variable.py:SimulatedVariable.__array_ufunc__", "popsynth/population.py:Population.__init__"]}
{"id": "C16", "title": "Indexing keeps observed, latent and mask aligned", "statement": "x[item] for a slice, boolean mask or index array is a variable whose j-th observed value, latent value and mask entry all come from the same object of x; an integer item returns that object's observed value; an out-of-range index raises IndexError.", "quantifier": "all variables and all index expressions", "why_tests_cant": "Alignment law over every index expression and length.", "anchors": ["popsynth/simulated_variable.py:SimulatedVariable.__getitem__"]}
{"id": "C17", "title": "Samplers are drawn once, after everything they depend on", "statement": "Drawing a sampler evaluates each sampler in its dependency tree exactly once even when it is shared by several parents, every sampler is evaluated after all its secondaries, and samplers already drawn are neither evaluated again nor changed.", "quantifier": "all acyclic dependency graphs of any size, all prior sampling states", "why_tests_cant": "Ordering and at-most-once over arbitrary DAGs.", "anchors": ["popsynth/auxiliary_sampler.py:AuxiliarySampler.draw", "popsynth/auxiliary_sampler.py:AuxiliarySampler.set_secondary_sampler"]}
{"id": "C18", "title": "After a draw every dependency has values of the requested size", "statement": "After draw(size=n) succeeds on unsampled samplers, the sampler and all its direct and indirect secondaries are sampled, hold n true and n observed values, unobserved samplers have observed = true values, and each sampler's selection mask was computed from its own observed values.", "quantifier": "all acyclic dependency graphs, all n", "why_tests_cant": "Whole-graph post-condition.", "anchors": ["popsynth/auxiliary_sampler.py:AuxiliarySampler.draw", "popsynth/auxiliary_sampler.py:AuxiliarySampler._apply_selection"]}
{"id": "C19", "title": "reset() makes the whole dependency tree drawable again", "statement": "After reset() on a drawn sampler, it and all its direct and indirect secondaries are unsampled with no values, and the next draw gives the same values as a draw of a never-drawn copy from the same generator state.", "quantifier": "all acyclic dependency graphs and histories", "why_tests_cant": "Whole-graph post-condition and equality with a fresh run.", "anchors": ["popsynth/auxiliary_sampler.py:AuxiliarySampler.reset"]}
{"id": "C20", "title": "Circular dependencies never produce a result", "statement": "A sampler that depends on itself, directly or through others, can be registered, but drawing it never returns: it raises RecursionError at any recursion limit.", "quantifier": "all cyclic dependency graphs, all recursion limits", "why_tests_cant": "Non-termination for every bound cannot be tested.", "anchors": ["popsynth/auxiliary_sampler.py:AuxiliarySampler.draw", "popsynth/auxiliary_sampler.py:AuxiliarySampler.set_secondary_sampler"]}
{"id": "C21", "title": "Collected sampler properties are exactly those of the dependency tree", "statement": "Collecting the properties of a sampler yields one entry per distinct name among it and its direct and indirect secondaries and no other; when names are distinct the entry under a name holds that sampler's true values, observed values, selector and probability.", "quantifier": "all acyclic dependency graphs", "why_tests_cant": "Set equality with graph reachability.", "anchors": ["popsynth/auxiliary_sampler.py:AuxiliarySampler.get_secondary_properties", "popsynth/auxiliary_sampler.py:SecondaryStorage.__add__"]}
{"id": "C22", "title": "Building the dependency graph works for every legal sampler tree", "statement": "Reading the graph of a population synth succeeds for every registered sampler tree, has an edge from each secondary to its parent, and from the spatial distribution to every distance-dependent secondary.", "quantifier": "all sampler trees", "why_tests_cant": "Depends on nesting depth; tests use depth one.", "anchors": ["popsynth/auxiliary_sampler.py:AuxiliarySampler.get_secondary_properties", "popsynth/population_synth.py:PopulationSynth._build_graph"]}
{"id": "C23", "title": "Registration keeps sampler names unique and secondaries out", "statement": "After any history of add_observed_quantity calls, registered names are pairwise distinct and each maps to the sampler registered under it; registering a secondary sampler that does not derive the luminosity, a name already taken, or something that is not a sampler raises RuntimeError and leaves the synth unchanged; registering a derived-luminosity sampler replaces the previous one and leaves the other registrations alone.", "quantifier": "all histories of registrations", "why_tests_cant": "Invariant over all histories.", "anchors": ["popsynth/population_synth.py:PopulationSynth.add_observed_quantity"]}
{"id": "C24", "title": "An object is detected iff every selection accepts it", "statement": "In the population returned by draw_survey, object i is selected iff the flux selector, the spatial selector (if any) and the selector of every registered sampler, secondary and derived-luminosity sampler select it.", "quantifier": "all synth configurations, sampler trees, seeds and sizes", "why_tests_cant": "Conjunction over arbitrary trees of samplers and every object.", "anchors": ["popsynth/population_synth.py:PopulationSynth.draw_survey"]}
{"id": "C25", "title": "Every detected object is above the hard flux limit", "statement": "With a HardFluxSelection of boundary b, every selected object of the population returned by draw_survey has observed flux >= b, and an object with observed flux < b is never selected.", "quantifier": "all synth configurations, seeds, flux errors, and all histories of earlier draw_survey calls", "why_tests_cant": "Quantifies over histories: the second and later draws matter.", "anchors": ["popsynth/population_synth.py:PopulationSynth.draw_survey", "popsynth/selection_probability/selection_probability.py:SelectionProbability.select"]}
{"id": "C26", "title": "The seed determines the population", "statement": "draw_survey on a freshly configured synth returns the same population whatever the state of the random generators before the call.", "quantifier": "all generator states before the call, all configurations", "why_tests_cant": "Two-run (relational) property over every prior generator state.", "anchors": ["popsynth/population_synth.py:PopulationSynth.draw_survey", "popsynth/aux_samplers/plaw_aux_sampler.py:_sample_power_law"]}
{"id": "C27", "title": "All per-object arrays of a population have the same length", "statement": "When draw_survey returns, luminosities, distances, latent and observed fluxes, sky angles, mask, probability and every auxiliary quantity have exactly n entries, n is n_samples when given, and n_detections + n_non_detections = n_objects = n.", "quantifier": "all configurations and sizes", "why_tests_cant": "Shape invariant over all configurations.", "anchors": ["popsynth/population_synth.py:PopulationSynth.draw_survey", "popsynth/population.py:Population.__init__"]}
{"id": "C28", "title": "Known and unknown distances partition the detected objects", "statement": "known_distance_idx and unknown_distance_idx are disjoint, increasing and together enumerate the detected objects; the j-th known distance is the distance of the detected object with index known_distance_idx[j].", "quantifier": "all selections and distance selections", "why_tests_cant": "Index arithmetic over all masks.", "anchors": ["popsynth/population_synth.py:PopulationSynth.draw_survey"]}
{"id": "C29", "title": "A survey can be drawn whatever the distance selection keeps", "statement": "draw_survey returns a population for every outcome of the distance selection, including when objects are detected but no distance is known.", "quantifier": "all outcomes of the distance selection", "why_tests_cant": "Rare random outcome; needs every mask.", "anchors": ["popsynth/population_synth.py:PopulationSynth.draw_survey"]}
{"id": "C30", "title": "Drawing a survey does not change the model parameters", "statement": "After draw_survey (normalised or not) every parameter of the spatial distribution reads the same as before the call.", "quantifier": "all distributions, parameter values, and calls, successful or failing", "why_tests_cant": "Must hold on every path including failing ones.", "anchors": ["popsynth/population_synth.py:PopulationSynth.draw_survey", "popsynth/distribution.py:SpatialDistribution.draw_distance"]}
{"id": "C31", "title": "A derived-luminosity sampler takes precedence", "statement": "If a derived-luminosity sampler is registered, population luminosities are exactly what it computes and the luminosity distribution is not sampled; without one they are one draw of the luminosity distribution with its current parameters; if neither exists draw_survey raises RuntimeError.", "quantifier": "all configurations", "why_tests_cant": "Both branches for every configuration.", "anchors": ["popsynth/population_synth.py:PopulationSynth.draw_survey"]}
{"id": "C32", "title": "clean() restores default behaviour", "statement": "After clean(), the synth has no samplers, no derived luminosity, unity flux and distance selectors and no spatial selector; a cleaned synth behaves as a new one built from the same distributions: same population and same graph.", "quantifier": "all prior histories of a synth", "why_tests_cant": "Equality of behaviours after any history.", "anchors": ["popsynth/population_synth.py:PopulationSynth.clean"]}
{"id": "C33", "title": "Observed fluxes are the latent fluxes unless an error is requested", "statement": "Without flux_sigma, or with no flux selection set, observed fluxes equal latent fluxes and flux_sigma is recorded as -1; with flux_sigma and a flux selection, observed flux i is 10^(log10 flux_i + e_i) (or e^(ln flux_i + e_i)) for the i-th normal draw e_i.", "quantifier": "all configurations and generator states", "why_tests_cant": "Branch-by-branch relation for all objects.", "anchors": ["popsynth/population_synth.py:PopulationSynth.draw_survey", "popsynth/population_synth.py:PopulationSynth.draw_log10_fobs"]}
{"id": "C34", "title": "The truth record contains every sampler's parameters", "statement": "population.truth has an entry for the spatial distribution, the luminosity source and every sampler of every dependency tree, holding the parameter values used.", "quantifier": "all sampler trees and parameter settings", "why_tests_cant": "Depth of nesting is unbounded.", "anchors": ["popsynth/population_synth.py:PopulationSynth.draw_survey"]}
{"id": "C35", "title": "Drawn distances lie inside the survey and where the density is positive", "statement": "Every drawn distance r satisfies 0 <= r < r_max (for r_max > 0) and the density dN/dr there is positive; exactly `size` distances are drawn.", "quantifier": "all densities, sizes and generator streams for which sampling terminates", "why_tests_cant": "Loop invariant over unbounded random streams.", "anchors": ["popsynth/utils/rejection_sample.py:rejection_sample", "popsynth/distribution.py:SpatialDistribution.draw_distance"]}
{"id": "C36", "title": "Showing progress bars does not change the drawn distances", "statement": "draw_distance yields the same distances, probabilities and generator state whether progress bars are on or off.", "quantifier": "all distributions, sizes and generator states, with and without normalisation", "why_tests_cant": "Equality of two code paths.", "anchors": ["popsynth/distribution.py:SpatialDistribution.draw_distance", "popsynth/utils/rejection_sample.py:rejection_sample"]}
{"id": "C37", "title": "Rejection sampling terminates only if the density is positive somewhere", "statement": "If the density is nowhere positive (for example a zero normalisation) and at least one object is requested, draw_distance never returns; if every proposal stream eventually proposes a point under the curve it returns.", "quantifier": "all densities, all streams", "why_tests_cant": "Termination/divergence of an unbounded loop.", "anchors": ["popsynth/utils/rejection_sample.py:rejection_sample"]}
{"id": "C38", "title": "Normalised distance probabilities integrate to one", "statement": "With normalize=True the reported distance probability density integrates to 1 over [0, r_max], whatever the normalisation parameter.", "quantifier": "all integrable positive densities, all r_max", "why_tests_cant": "Integral identity over all densities.", "anchors": ["popsynth/distribution.py:SpatialDistribution.draw_distance"]}
{"id": "C39", "title": "A population is internally consistent or is refused", "statement": "Constructing a Population with arrays whose lengths disagree with the mask, or with known plus unknown distances not adding up to the number of detections, or a model space of the wrong length, raises AssertionError; otherwise n_objects = len(mask), n_detections = number of true entries, n_non_detections is the rest.", "quantifier": "all constructor arguments", "why_tests_cant": "All argument combinations.", "anchors": ["popsynth/population.py:Population.__init__"]}
{"id": "C40", "title": "Stan data uses one-based indices partitioning the detections", "statement": "to_stan_data() has Nz + Nnz = N; z_idx and z_nidx (one-based) are disjoint and cover 1..N; flux_obs, z_obs and every <name>_obs have length N; entries for different quantities do not overwrite each other.", "quantifier": "all populations, auxiliary names and model-space names", "why_tests_cant": "Key collisions depend on arbitrary user names.", "anchors": ["popsynth/population.py:Population.to_stan_data"]}
{"id": "C41", "title": "A sub-population contains exactly the requested objects", "statement": "to_sub_population(observed) contains exactly the selected (non-selected) objects in order with all their quantities, all marked detected, and an object's distance is known in it iff it was known in the original population.", "quantifier": "all populations", "why_tests_cant": "Order-preserving restriction over all masks and values.", "anchors": ["popsynth/population.py:Population.to_sub_population"]}
{"id": "C42", "title": "Populations survive a write/read cycle", "statement": "Reading back a population written with writeto (or addto/from_group) gives the same luminosities, distances, fluxes, mask, auxiliary quantities, probabilities, model spaces, parameters, truth, name and forms.", "quantifier": "all populations", "why_tests_cant": "Round-trip over all populations.", "anchors": ["popsynth/population.py:Population._writeto", "popsynth/population.py:Population._loadfrom"]}
{"id": "C43", "title": "Auxiliary quantities cannot be overwritten", "statement": "Assigning to an attribute named after an auxiliary quantity raises AttributeError and leaves it unchanged, after any history of attribute assignments; other attributes can be assigned; construction succeeds for every auxiliary name.", "quantifier": "all populations and assignment histories", "why_tests_cant": "Invariant over histories of assignments.", "anchors": ["popsynth/population.py:Population.__setattr__"]}
{"id": "C44", "title": "Dictionaries survive an HDF5 save/load cycle", "statement": "Saving a nested dictionary of numbers, strings and dictionaries to HDF5 and loading it gives the same dictionary up to key order; a list of strings comes back as a dictionary with those keys; other values raise ValueError.", "quantifier": "all finite nested dictionaries", "why_tests_cant": "Induction over nested structure.", "anchors": ["popsynth/utils/hdf5_utils.py:recursively_save_dict_contents_to_group", "popsynth/utils/hdf5_utils.py:recursively_load_dict_contents_from_group"]}
{"id": "C45", "title": "Graphs survive a save/load cycle", "statement": "clean_graph_dict(fill_graph_dict(g)) = g for every adjacency dictionary, and the graph of a population read back from file has the same directed edges.", "quantifier": "all graphs", "why_tests_cant": "Round-trip over all graphs.", "anchors": ["popsynth/utils/hdf5_utils.py:fill_graph_dict", "popsynth/utils/hdf5_utils.py:clean_graph_dict", "popsynth/population.py:Population._loadfrom"]}
{"id": "C46", "title": "to_dict/from_dict round-trips a population synth", "statement": "from_dict(to_dict(s)) has the same seed, distributions and parameters, selections and parameters, and the same samplers with the same types, flags, parameters, selections, secondaries and registration order as s.", "quantifier": "all synths built from registered classes", "why_tests_cant": "Round-trip over arbitrary sampler graphs.", "anchors": ["popsynth/population_synth.py:PopulationSynth.to_dict", "popsynth/population_synth.py:PopulationSynth.from_dict", "popsynth/auxiliary_sampler.py:AuxiliarySampler.get_secondary_objects"]}
{"id": "C47", "title": "from_dict does not modify its input", "statement": "Calling from_dict twice with the same dictionary gives the same synth twice.", "quantifier": "all configuration dictionaries", "why_tests_cant": "A frame property over all inputs.", "anchors": ["popsynth/population_synth.py:PopulationSynth.from_dict"]}
{"id": "C48", "title": "Writing to YAML and reading back preserves the synth", "statement": "from_file(write_to(s)) equals from_dict(to_dict(s)), including the order in which samplers are drawn.", "quantifier": "all synths", "why_tests_cant": "Round-trip including order.", "anchors": ["popsynth/population_synth.py:PopulationSynth.write_to", "popsynth/population_synth.py:PopulationSynth.from_file"]}
{"id": "C49", "title": "Broken power law weights, range and density are right", "statement": "For 0 < x0 < x1 < x2 and indices other than -1, the two weights are positive and sum to one, samples lie in [x0, x2], sampling inverts the branch distribution function, and the density integrates to one.", "quantifier": "all real parameters in range, all uniform draws", "why_tests_cant": "Real-analysis identities.", "anchors": ["popsynth/distributions/bpl_distribution.py:integrate_pl", "popsynth/distributions/bpl_distribution.py:sample_bpl", "popsynth/distributions/bpl_distribution.py:bpl"]}
{"id": "C50", "title": "Bounded power-law samples follow the stated law", "statement": "For 0 < xmin < xmax and any index, samples lie in [xmin, xmax], are increasing in the uniform draw, hit the ends at 0 and 1, and invert the distribution function of x^alpha on [xmin, xmax].", "quantifier": "all real parameters in range, all uniform draws", "why_tests_cant": "Real-analysis identities.", "anchors": ["popsynth/aux_samplers/plaw_aux_sampler.py:_sample_power_law"]}
{"id": "C51", "title": "Luminosity densities integrate to the probability of what is drawn", "statement": "For the Pareto, log-uniform, log-normal and log10-normal luminosity distributions, the integral of phi over [a,b] equals the probability that draw_luminosity falls in [a,b].", "quantifier": "all parameters and all intervals in the support", "why_tests_cant": "Integral identities over the reals.", "anchors": ["popsynth/distributions/pareto_distribution.py:ParetoDistribution.phi", "popsynth/distributions/uniform_distribution.py:LogUniLuminiosityDistribution.phi", "popsynth/distributions/log_normal_distribution.py:LogNormalDistribution.phi", "popsynth/distributions/log10_normal_distribution.py:Log10NormalDistribution.phi"]}
{"id": "C52", "title": "Sky positions are valid and Cartesian conversion preserves distance", "statement": "For every uniform draw the polar angle lies in [0, pi], the azimuth in [0, 2 pi), dec in [-90, 90], ra in [0, 360]; xyz(r, theta, phi) has norm |r|; cos(theta) is uniform.", "quantifier": "all uniform draws, all coordinates", "why_tests_cant": "Real inequalities over all draws.", "anchors": ["popsynth/utils/spherical_geometry.py:sample_theta_phi", "popsynth/utils/spherical_geometry.py:xyz", "popsynth/distribution.py:SpatialDistribution.dec"]}
{"id": "C53", "title": "Viewing angles respect the maximum angle", "statement": "For 0 < max_angle <= 180 degrees every sampled viewing angle lies in [0, max_angle] and its reported density integrates to one.", "quantifier": "all max angles and uniform draws", "why_tests_cant": "Real-analysis identities.", "anchors": ["popsynth/aux_samplers/viewing_angle_sampler.py:ViewingAngleSampler"]}
{"id": "C54", "title": "Luminosity distance is zero at z=0, strictly increasing and accurate", "statement": "For 0 < Om < 1 and h0 > 0, luminosity_distance(0) = 0, it is positive for z > 0 and strictly increasing; the comoving volume element is non-negative; for near objects and the default cosmology it is the speed of light times redshift over the Hubble constant, in cm, to one part in a thousand; for every matter density from 3/10 up to 1 and every redshift it is within three parts in a thousand of (1+z) times the integral of the speed of light over the expansion rate of a flat universe of matter and cosmological constant, in cm; for matter density 1 it is exactly the closed form. The comoving volume element is within seven parts in a thousand of the cube of the Hubble distance in Gpc times the square of that integral over the expansion rate.", "quantifier": "all redshifts and cosmologies in range", "why_tests_cant": "Monotonicity and accuracy of a rational approximation over the reals.", "anchors": ["popsynth/utils/cosmology.py:Cosmology.luminosity_distance", "popsynth/utils/cosmology.py:Cosmology.Phi"]}
{"id": "C55", "title": "Flux decreases with distance and is proportional to luminosity", "statement": "For spherical and cosmological distributions flux is positive for positive luminosity, proportional to luminosity and strictly decreasing in distance; for a spherical distribution flux times 4 pi r^2 equals luminosity.", "quantifier": "all luminosities and distances", "why_tests_cant": "Real inequalities.", "anchors": ["popsynth/distributions/spherical_distribution.py:SphericalDistribution.transform", "popsynth/distributions/cosmological_distribution.py:CosmologicalDistribution.transform"]}
{"id": "C56", "title": "Truncated samplers respect their bounds", "statement": "Draws of the truncated normal, log-normal and log10-normal samplers lie in [lower, upper] whenever the underlying truncated normal draw lies in its standardised bounds, and the whole interval is reachable.", "quantifier": "all parameters with tau > 0 and lower < upper, all draws", "why_tests_cant": "Real inequalities over all parameters.", "anchors": ["popsynth/aux_samplers/trunc_normal_aux_sampler.py:TruncatedNormalAuxSampler", "popsynth/aux_samplers/trunc_lognormal_aux_sampler.py:TruncatedLogNormalAuxSampler", "popsynth/aux_samplers/trunc_lognormal_aux_sampler.py:TruncatedLog10NormalAuxSampler"]}
{"id": "C57", "title": "Convenience populations set exactly the parameters they are given", "statement": "Each predefined population class builds the documented spatial and luminosity distribution with every constructor argument stored under the parameter of that name, the seed and rate flag passed on, and nothing else set.", "quantifier": "all constructor arguments", "why_tests_cant": "All arguments of some twenty-five classes.", "anchors": ["popsynth/populations/spatial_populations.py", "popsynth/populations/pareto_populations.py", "popsynth/populations/bpl_population.py", "popsynth/populations/lognormal_population.py", "popsynth/populations/schechter_populations.py"]}
{"id": "C58", "title": "Silencing logs and re-activating them restores the levels", "statement": "activate_logs() after silence_logs()/quiet_mode()/loud_mode()/debug_mode() restores the log levels in force before; silence_console_log() restores them on every exit, normal or exceptional; silencing warnings twice and activating them once shows warnings again.", "quantifier": "all histories of mode changes", "why_tests_cant": "History property of a state machine.", "anchors": ["popsynth/utils/logging.py:LoggingState", "popsynth/utils/logging.py:silence_console_log"]}
{"id": "C59", "title": "A user configuration overrides exactly the keys it names", "statement": "After loading, every configuration key named in the user's file has the user's value and every other key has its default; without a file the defaults are used and written out, and the next load gives the same configuration.", "quantifier": "all user configurations", "why_tests_cant": "All partial override trees.", "anchors": ["popsynth/utils/configuration.py"]}
{"id": "C60", "title": "The population probability is the product of the densities of what was drawn", "statement": "population.probability at object i is the product of the distance density, the luminosity density (if the luminosity distribution was used) and the density of every sampler that reports one.", "quantifier": "all configurations and objects", "why_tests_cant": "Product over arbitrary sampler trees.", "anchors": ["popsynth/population_synth.py:PopulationSynth.draw_survey"]}
{"id": "C61", "title": "Every participating sampler's values appear in the population", "statement": "In the population returned by draw_survey, for every registered sampler, derived-luminosity sampler and direct or indirect secondary there is an entry under its name holding exactly its true and observed values, and there are no other entries.", "quantifier": "all sampler trees with distinct names, all parameters, all seeds", "why_tests_cant": "It must hold for every dependency tree and every outcome of the random draws.", "anchors": ["popsynth/population_synth.py:PopulationSynth.draw_survey", "popsynth/auxiliary_sampler.py:AuxiliarySampler.get_secondary_properties"]}
{"id": "C62", "title": "Without n_samples the number of objects is a Poisson draw around the integrated density", "statement": "When draw_survey is called without n_samples, the number of objects is one Poisson number, the first drawn after seeding with the synth's seed. Its mean is the integral of the spatial density times differential volume over time adjustment from 0 to r_max; with normalize=True it is the value assigned to the normalisation parameter, or one if none was assigned or read.", "quantifier": "all spatial distributions, parameters, seeds and samplers", "why_tests_cant": "The mean is an integral over a continuum, for every density and parameter value, and the draw is random.", "anchors": ["popsynth/population_synth.py:PopulationSynth.draw_survey", "popsynth/distribution.py:SpatialDistribution"]}
{"id": "C63", "title": "Every object of a survey lies between zero and r_max, where the density is positive", "statement": "In the population returned by draw_survey every distance is at least 0 and below r_max, and the spatial density is positive there.", "quantifier": "all spatial distributions with non-negative density and positive r_max, all parameters, sizes, seeds and samplers, with and without normalisation", "why_tests_cant": "It must hold for every outcome of the rejection sampler and of the sky positions drawn after it.", "anchors": ["popsynth/population_synth.py:PopulationSynth.draw_survey", "popsynth/distribution.py:SpatialDistribution.draw_distance", "popsynth/distributions/spiral_galaxy_distribution.py:SpiralGalaxyDistribution.draw_sky_positions"]}
{"id": "C64", "title": "A synth that was saved and loaded draws the same surveys", "statement": "A synth that was saved, to a dictionary or a file, and loaded again draws the same survey as the original, or fails with the same exception, for all arguments of draw_survey.", "quantifier": "all synths that can be saved and were not drawn from, all seeds, sizes, selections and normalisations, and whatever else exists when the configuration is loaded", "why_tests_cant": "The claim is an equality of two whole programs for every random stream, sampler graph and argument.", "anchors": ["popsynth/population_synth.py:PopulationSynth.to_dict", "popsynth/population_synth.py:PopulationSynth.from_dict", "popsynth/population_synth.py:PopulationSynth.write_to", "popsynth/population_synth.py:PopulationSynth.draw_survey"]}
{"id": "C65", "title": "Values of the predefined auxiliary samplers lie in their documented range", "statement": "After drawing a sampler, every predefined sampler it uses has the requested number of true values, and all of them lie in the range its documentation gives: the single value for a delta sampler, positive numbers for the log-normal ones, [lower, upper] for the truncated ones, at least xmin for Pareto, [xmin, xmax] for the power laws, [0, 2 pi) for right ascensions, [-pi/2, pi/2] for declinations, [0, max_angle] for viewing angles.", "quantifier": "all predefined classes, all sensible parameter values, all numbers of objects, all states of the generators, and all other samplers drawn along with it", "why_tests_cant": "the values are random and the parameters continuous; a test sees a few draws for a few parameters", "anchors": ["popsynth/aux_samplers/delta_aux_sampler.py", "popsynth/aux_samplers/normal_aux_sampler.py", "popsynth/aux_samplers/lognormal_aux_sampler.py", "popsynth/aux_samplers/trunc_normal_aux_sampler.py", "popsynth/aux_samplers/trunc_lognormal_aux_sampler.py", "popsynth/aux_samplers/plaw_aux_sampler.py", "popsynth/aux_samplers/sky_sampler.py:RASampler,DecSampler", "popsynth/aux_samplers/viewing_angle_sampler.py", "popsynth/auxiliary_sampler.py:AuxiliarySampler.draw"]}
{"id": "C66", "title": "Observed values of the predefined samplers scatter around the true values with sigma", "statement": "After drawing a sampler, the observed values of every predefined sampler marked as observed are its true values plus sigma times one standard normal number each, drawn one after the other; with sigma zero, or if the sampler is not observed, they are the true values.", "quantifier": "all predefined classes with an observation step, all parameter values, all numbers of objects, all states of the generators, and all other samplers drawn along with it", "why_tests_cant": "the noise is random: a test cannot tell a wrong pairing of noise and values from chance", "anchors": ["popsynth/aux_samplers/normal_aux_sampler.py:NormalAuxSampler.observation_sampler", "popsynth/aux_samplers/plaw_aux_sampler.py:BrokenPowerLawAuxSampler", "popsynth/aux_samplers/delta_aux_sampler.py", "popsynth/auxiliary_sampler.py:AuxiliarySampler.draw"]}
{"id": "C67", "title": "Luminosities of a population lie in the range of their luminosity distribution", "statement": "In every population drawn from a synth with a predefined luminosity distribution (and no derived luminosity) there is one luminosity per object, it is reported without error, and it lies in the range of the distribution: at least Lmin for Pareto, [Lmin, Lmax] for the broken power law and the log-uniform one, positive for the log-normal ones, not negative for Schechter's, exactly Lp for the delta distribution. For Schechter's the documentation calls Lmin the minimum luminosity.", "quantifier": "all predefined luminosity classes and populations, all sensible parameter values, all numbers of objects, seeds and generator states, whatever selections and auxiliary quantities the synth has", "why_tests_cant": "luminosities are random and the parameters continuous; a test sees a few draws", "anchors": ["popsynth/distributions/pareto_distribution.py", "popsynth/distributions/bpl_distribution.py", "popsynth/distributions/log_normal_distribution.py", "popsynth/distributions/log10_normal_distribution.py", "popsynth/distributions/schechter_distribution.py", "popsynth/distributions/delta_distribution.py", "popsynth/distributions/uniform_distribution.py:LogUniLuminiosityDistribution", "popsynth/population_synth.py:PopulationSynth.draw_survey"]}
{"id": "C68", "title": "A population without auxiliary quantities and with default selections can always be drawn", "statement": "If the distances and the luminosities of a synth without auxiliary quantities and with the default selections can be drawn, draw_survey returns a population of the requested size in which every object is detected, at a known distance, with the flux reported without error. In particular the predefined populations (except the Milky Way one) with positive density and valid luminosity parameters can be drawn for every number of objects.", "quantifier": "all synths without auxiliary quantities, all numbers of objects, seeds, flags, generators that do not avoid an open region forever, and all predefined population classes and arguments giving a positive density", "why_tests_cant": "that no parameter value or size makes the survey raise or loop is a statement about all of them", "anchors": ["popsynth/population_synth.py:PopulationSynth.draw_survey", "popsynth/distribution.py:SpatialDistribution.draw_distance", "popsynth/populations", "popsynth/utils/rejection_sample.py"]}
{"id": "C69", "title": "Predefined auxiliary samplers can be used in a survey", "statement": "Register any predefined auxiliary samplers (normal, log-normal, truncated, Pareto, power law, broken power law, delta, right ascension, declination, viewing angle), with parameters in the range their class needs, on a predefined population with the default selections. A survey of any size then returns a population in which every object is detected.", "quantifier": "all predefined populations with positive density, all finite sets of independent predefined samplers, all valid parameter values, sizes, seeds and generators that propose every region some time", "why_tests_cant": "A test draws one combination of classes and values; whether every combination can be drawn depends on the parameters, on the random numbers and on name clashes with the attributes of the population, and a failure may need a rare draw.", "anchors": ["popsynth/population_synth.py: PopulationSynth.add_observed_quantity, draw_survey", "popsynth/aux_samplers/*.py", "popsynth/aux_samplers/sky_sampler.py: RASampler, DecSampler", "popsynth/population.py: Population.__init__, ra, dec"]}
{"id": "C70", "title": "Drawn distances follow the density of the spatial distribution", "statement": "The distances of a survey, and of draw_distance, are distributed as the spatial distribution says: if the random numbers are uniform, the chance that a distance lies between two limits is proportional to the integral of the density (objects per distance) between them, on the whole range up to the maximal distance, with and without normalisation and with and without progress bars.", "quantifier": "all spatial distributions with a continuous density, all parameter values, limits, sizes, seeds and generators, normalised or not", "why_tests_cant": "A law is a statement about all random numbers; a histogram of a finite sample misses deviations that are small or sit between the points where the maximum of the density is searched.", "anchors": ["popsynth/distribution.py: SpatialDistribution.draw_distance", "popsynth/utils/rejection_sample.py: rejection_sample", "popsynth/distributions/spherical_distribution.py", "popsynth/distributions/flatland_distribution.py"]}
{"id": "C71", "title": "Values of the predefined samplers and luminosity distributions follow their documented law", "statement": "The true values a predefined auxiliary sampler contributes to a population, and the luminosities of a predefined luminosity distribution, are the documented transform of consecutive random numbers with the sampler's own parameters: a normal sampler's values are mu + tau z, a log-normal one's have logarithm mu + tau z, a power law's are the quantiles of its density, a broken power law takes each branch with the probability its density gives it, angles are uniform on the sphere, and so on for every class.", "quantifier": "all predefined classes, parameter values, sizes, seeds, generators, positions in the tree of secondaries, and populations", "why_tests_cant": "A law is a statement about all random numbers and parameters; swapped or shared parameters, or a wrong logarithm, go unseen for the parameters a test happens to use (mu = 0, lower = 1).", "anchors": ["popsynth/aux_samplers", "popsynth/distributions", "popsynth/population_synth.py: PopulationSynth.draw_survey"]}
{"id": "C72", "title": "The flux of each object of a predefined population is its luminosity spread over a sphere", "statement": "In every survey of a predefined population, with whatever selections, auxiliary quantities and luminosities, each object has a true flux equal to its luminosity divided by the surface of a sphere around it: for redshift populations the radius is the luminosity distance of the cosmology, in flat space it is the distance. Hence farther objects that are not more luminous are dimmer and, at the same distance, fluxes are in proportion to luminosities. For matter densities from 3/10 up to 1 the flux of an object of a cosmological population is within seven parts in a thousand of its luminosity over the sphere whose radius is the luminosity distance of a flat universe of matter and cosmological constant.", "quantifier": "all predefined population classes, parameter values, selections, auxiliary samplers, derived luminosities, sizes, seeds and generators; all objects", "why_tests_cant": "The relation must hold for every object of every population; a test compares a few populations with the same formula the code uses, so a wrong radius (off by one, or the wrong geometry) is not seen.", "anchors": ["popsynth/distributions/spherical_distribution.py: SphericalDistribution.transform", "popsynth/distributions/cosmological_distribution.py: CosmologicalDistribution.transform", "popsynth/population_synth.py: PopulationSynth.draw_survey", "popsynth/populations"]}
{"id": "C73", "title": "Sky positions of the objects of a survey", "statement": "In every survey the objects are placed evenly over the sphere: each polar angle is made from one uniform number so that its cosine is uniform, each azimuth is uniform over the circle, both drawn after the distances and independent of them, so that declinations lie in [-90, 90] and right ascensions cover [0, 360). In a Milky Way survey each object lies on one of the four logarithmic spiral arms, turned less the farther out it is, at an exponential height above or below the plane, with a distance scattered by seven per cent, and its declination and right ascension are those of that place.", "quantifier": "all predefined populations, spatial classes without own sky positions, parameter values, sizes, selections, auxiliary samplers, seeds and generators; all objects", "why_tests_cant": "It is about every object of every survey and all random numbers; exchanged angles give plausible numbers, and a test of a few draws does not see that half of the sky is never reached.", "anchors": ["popsynth/distribution.py: SpatialDistribution.draw_sky_positions", "popsynth/utils/spherical_geometry.py: sample_theta_phi", "popsynth/distributions/spiral_galaxy_distribution.py: SpiralGalaxyDistribution.draw_sky_positions", "popsynth/population.py: Population.dec, Population.ra"]}
{"id": "C74", "title": "Model spaces", "statement": "A space asked for with add_model_space(name, start, stop, log) is in every population drawn afterwards, and in its Stan data, under that name: N_model points, the first of them start and the last stop, with a fixed difference between neighbours, or with a fixed factor if log is set. Of several requests of one name the last counts, and spaces of other names stay.", "quantifier": "all sequences of requests, start and stop values (positive for logarithmic spaces), synths, sizes, selections, samplers and seeds", "why_tests_cant": "It ranges over all sequences of requests and all values; an off-by-one in the number of points or a linear grid in the place of a logarithmic one gives plausible numbers.", "anchors": ["popsynth/population_synth.py: PopulationSynth.add_model_space, draw_survey", "popsynth/population.py: Population.to_stan_data"]}
{"id": "C75", "title": "A returned population stays as it was", "statement": "What a Population shows (objects, fluxes, selection, truth, parameters, model spaces, graph, Stan data) does not change after draw_survey returned it, whatever is done with the PopulationSynth afterwards: further surveys, new parameter values, new model spaces, further samplers.", "quantifier": "all synths, surveys and sequences of later calls on the synth", "why_tests_cant": "It ranges over all later histories; the objects are shared, so the change shows in a population that nobody touched.", "anchors": ["popsynth/population_synth.py: PopulationSynth.draw_survey, add_model_space, graph", "popsynth/population.py: Population.__init__, luminosity_parameters, spatial_parameters, graph, to_stan_data", "popsynth/distribution.py: Distribution.params"]}
{"id": "C76", "title": "Soft flux selections detect with a sigmoid probability in the flux", "statement": "With a SoftFluxSelection of strength k and boundary b, draw_survey makes one Bernoulli draw per object whose odds of detection are the power k/ln 10 of its observed flux in units of b: one half at the boundary, larger for brighter objects, sharper for larger strength, almost certain far above; with no other selection the selected objects are those drawn.", "quantifier": "all strengths, positive boundaries, positive fluxes, surveys and generator states", "why_tests_cant": "The probability is a real function of every flux and parameter, and outcomes are random: a test sees one mask.", "anchors": ["popsynth/selection_probability/generic_selectors.py: SoftSelection.draw", "popsynth/selection_probability/flux_selectors.py: SoftFluxSelection", "popsynth/population_synth.py: PopulationSynth.draw_survey"]}
{"id": "C77", "title": "A survey with selections and flux errors returns", "statement": "draw_survey of any predefined population with independent auxiliary quantities, any flux selection of the library whose parameters are set, optionally a galactic plane or distance selection, and flux errors of any non-negative size, returns a population with the number of objects asked for, and with one known distance per detection.", "quantifier": "all predefined populations, parameters in their documented ranges, selections and their parameters, survey sizes, error sizes, seeds and generator behaviours", "why_tests_cant": "Termination and absence of exceptions for every population, selection and random stream.", "anchors": ["popsynth/population_synth.py: PopulationSynth.draw_survey, set_flux_selection, add_spatial_selector", "popsynth/selection_probability/flux_selectors.py", "popsynth/selection_probability/spatial_selectors.py: GalacticPlaneSelection, DistanceSelection", "popsynth/populations/*.py"]}
{"id": "C78", "title": "Selections change which objects are seen, not the objects", "statement": "Draw surveys, with the same arguments, from two synths that have the same distributions, samplers and seed and differ in their flux, spatial and distance selections only. The two populations hold the same objects: the same number, the same luminosities, distances, sky positions and latent fluxes, the same auxiliary quantities, true and observed, and the same record of how they were made. The observed fluxes are the same too, unless flux errors are asked for and only one of the two has a flux selection (a synth without flux selection ignores the flux errors). If both have a hard flux limit and the same spatial selection, every object detected with the higher limit is detected with the lower one. If they differ in the distance selection only, the same objects are detected.", "quantifier": "all pairs of synths that differ in their selections only, any trees of auxiliary samplers with their own selections, all survey arguments, seeds and generator behaviours", "why_tests_cant": "It compares two runs for every pair of selections, every set of samplers and every random stream: a draw moved from one place to another would break it for some seeds only.", "anchors": ["popsynth/population_synth.py: PopulationSynth.draw_survey, set_flux_selection, set_distance_selection, add_spatial_selector", "popsynth/selection_probability/flux_selectors.py: HardFluxSelection", "popsynth/auxiliary_sampler.py: AuxiliarySampler.draw"]}
{"id": "C79", "title": "Every survey of an ordinary synth can be saved to a file and read back", "statement": "Take a synth whose parts have names that can be stored in a file (names, parameter names, type names and forms without a slash and of plain text, parameters that are set, a seed of at most 64 bits). Whatever survey it returns, with whatever arguments, writeto succeeds, and Population.from_file returns the same content, but for the documented losses (probabilities, directions of the graph edges, name and forms as bytes). Drawing a survey, adding samplers, setting selections, wiring secondaries and cleaning keep the synth so. All predefined populations are such synths. What is read back of a population with a rate flag cannot be written a second time.", "quantifier": "all such synths, any trees of auxiliary samplers, all selections, all survey arguments, all random streams and histories of use", "why_tests_cant": "Whether the file can be written depends on everything the survey records: truth, graph, parameters of every sampler and the configuration; a test covers one synth.", "anchors": ["popsynth/population_synth.py: PopulationSynth.draw_survey, to_dict", "popsynth/population.py: Population.writeto, from_file", "popsynth/utils/hdf5_utils.py: recursively_save_dict_contents_to_group", "popsynth/populations: all classes"]}
{"id": "C80", "title": "One file holds many populations", "statement": "Populations that can be written can be put in one file with addto, one after the other, in groups of which none lies in another one. from_group then returns, for each of them, what from_file returns of a file of its own, whatever the order in which they were added, and the groups that were in the file before read as before. addto never changes another group, whether it succeeds or fails. In particular surveys of ordinary synths (C79) can be collected in one file. A failed addto, such as of a sub-population, is not undone: the group stays, and nothing can be added under its name any more.", "quantifier": "all lists of populations and group names (paths of any depth), all files, all orders", "why_tests_cant": "It ranges over files of any content and any set of nested group names; interference between two groups shows only for particular names.", "anchors": ["popsynth/population.py: Population.addto, from_group, writeto, from_file"]}
{"id": "C81", "title": "Plots and tables show the population", "statement": "display_true_fluxes shows the true flux of every object at its distance; display_obs_fluxes shows the observed flux of every detected object; display_fluxes shows both and an arrow for each detected object from its true to its observed flux; display_luminosities shows the luminosities of detected and hidden objects; display_distances shows the distances of all and of the detected objects; the spheres show each detected or hidden object at its position; display and repr show the number of objects, of detections, and all parameters of the two distributions. Nothing is drawn below the flux axis.", "quantifier": "all populations, all options", "why_tests_cant": "Tests only check that plotting does not raise; whether the right array is drawn for every mask, error and number of objects cannot be seen from a run.", "anchors": ["popsynth/population.py: display, display_true_fluxes, display_obs_fluxes, display_fluxes, display_luminosities, display_distances, display_obs_fluxes_sphere, display_hidden_fluxes_sphere, display_flux_sphere, __repr__", "popsynth/simulated_variable.py: SimulatedVariable"]}
{"id": "C82", "title": "A synth describes itself", "statement": "display() of a synth shows a section with the current parameters for the luminosity (or the sampler it is derived from), the spatial distribution and every sampler that takes part in a survey, and nothing else; repr tells the same. A parameter that was set is shown with its value.", "quantifier": "all synths, with any trees of samplers, with or without a luminosity", "why_tests_cant": "Tests only check that display does not raise for a few synths; which parts are left out depends on the wiring and the names of samplers.", "anchors": ["popsynth/population_synth.py: PopulationSynth.display, __repr__", "popsynth/distribution.py: Distribution.display, __repr__", "popsynth/auxiliary_sampler.py: AuxiliarySampler.display, __repr__"]}
{"id": "C83", "title": "Class definitions: abstract methods, registries, subclass checks", "statement": "A class of distributions, selections or samplers can be instantiated exactly if no abstract method is left to be implemented; every such class is found under its name when a file is loaded, and defining further classes does not change what the names of others make; issubclass answers as isinstance does.", "quantifier": "all histories of class statements, with any inheritance (several bases included), after or without popsynth's own classes", "why_tests_cant": "Tests define a few subclasses; the claim is about all hierarchies and all orders of definitions, and about names taken by later classes.", "anchors": ["popsynth/utils/meta.py: ParameterMeta.__new__, __subclasscheck__", "popsynth/utils/registry.py: distribution_registry, selection_registry, auxiliary_parameter_registry", "popsynth/distribution.py: Distribution", "popsynth/auxiliary_sampler.py: AuxiliarySampler", "popsynth/selection_probability/selection_probability.py: SelectionProbability"]}
{"id": "C84", "title": "Nodes of the dependency graph and their marks", "statement": "The graph of a synth has a node for each end of an edge and for each registered sampler, and no other new ones; it never holds a node or an edge twice or an edge without its ends, so it can be stored; the nodes marked observed are exactly those of observed quantities.", "quantifier": "every synth, with any forest of samplers and any graph read before", "why_tests_cant": "Trees of samplers of any depth, any mix of observed and unobserved ones, a derived luminosity or not, and any graph left by earlier reads.", "anchors": ["popsynth/population_synth.py:PopulationSynth._build_graph", "popsynth/population_synth.py:PopulationSynth.graph", "popsynth/auxiliary_sampler.py:AuxiliarySampler.get_secondary_properties"]}
{"id": "C85", "title": "A flux-limited survey detects what is within the horizon", "statement": "With a hard flux limit and no other selection an object is detected exactly if its observed flux is not below the limit. In surveys of the predefined populations without flux errors, every detected object is within the horizon of its luminosity: the sphere with the radius that belongs to its distance (the luminosity distance for redshift populations, the distance plus one in flat space) has a surface of at most the luminosity over the limit. Without other selections every object within its horizon is detected, so no object is missed while a farther and not more luminous one is detected. If luminosities end at Lmax, nothing is detected beyond the horizon of Lmax; of standard candles (a delta distribution) the nearest are detected.", "quantifier": "all predefined populations, parameters, luminosity distributions, samplers, seeds, numbers of objects and limits", "why_tests_cant": "A survey draws finitely many objects; completeness and the absence of detections beyond the horizon are statements about every draw.", "anchors": ["popsynth/population_synth.py:PopulationSynth.draw_survey", "popsynth/selection_probability/flux_selectors.py:HardFluxSelection", "popsynth/utils/cosmology.py:Cosmology.luminosity_distance"]}
{"id": "C86", "title": "Source counts of a homogeneous population are Euclidean", "statement": "In a survey of a spherical population of constant density whose objects all have the same luminosity, the fraction of the objects that are brighter than a flux S falls with the power -3/2 of S, between the flux of an object at r_max and the largest flux.", "quantifier": "all predefined spherical populations, parameters, luminosities, fluxes, selections, seeds and states of the generator", "why_tests_cant": "It is a statement about the law of the drawn objects at every flux; a test compares histograms of one random sample with a tolerance.", "anchors": ["popsynth/distributions/spherical_distribution.py: SphericalDistribution.transform, SphericalDistribution.differential_volume, ConstantSphericalDistribution.dNdV", "popsynth/distributions/delta_distribution.py: DeltaDistribution.draw_luminosity", "popsynth/distribution.py: SpatialDistribution.draw_distance", "popsynth/population_synth.py: PopulationSynth.draw_survey"]}
{"id": "C87", "title": "The histogram of distances and the spheres show every object", "statement": "The histogram of distances of a survey counts every object in exactly one bar between 0 and r_max, and every detected object in one of the bars in front; the objects shown on the spheres lie inside the sphere of radius r_max.", "quantifier": "all populations, surveys of all predefined populations, parameters, samplers, selections, seeds and states of the generator", "why_tests_cant": "A value on the edge of a bar, or beyond the last one, is lost or counted twice only for particular distances; a test draws a few samples and compares nothing with the bars.", "anchors": ["popsynth/population.py: Population.display_distances, Population.display_flux_sphere, Population._display_sphere, _create_sphere_variables", "popsynth/distributions/spiral_galaxy_distribution.py: SpiralGalaxyDistribution.draw_sky_positions"]}
{"id": "C88", "title": "The names listed are the names that can be used", "statement": "list_available_distributions, list_available_selection_functions and list_available_auxiliary_samplers print exactly the names for which the registry makes an instance, each once; classes defined later add their names behind the others and remove none.", "quantifier": "all histories of class statements, by popsynth and its users, failing ones included", "why_tests_cant": "The listing depends on every class statement executed so far; a test runs it for the classes of popsynth only and does not look at the output.", "anchors": ["popsynth/utils/registry.py: list_available_distributions, list_available_selection_functions, list_available_auxiliary_samplers", "popsynth/utils/meta.py: ParameterMeta", "popsynth/distribution.py: Distribution", "popsynth/selection_probability/selection_probability.py: SelectionProbability", "popsynth/auxiliary_sampler.py: AuxiliarySampler"]}
{"id": "C89", "title": "The colours of the spheres show the order of the fluxes", "statement": "array_to_cmap gives each value a place in the colour map between 0 and 1: larger values larger places, equal values the same place, the smallest 0 and the largest 1. In log space this needs positive values; others raise ValueError unless all are equal. The objects on the spheres of every survey with a flux selection and a flux error have such colours.", "quantifier": "all arrays of values, all populations, all surveys with a flux selection and any flux error, seeds and states of the generator", "why_tests_cant": "It ranges over all arrays, with ties and extreme values in any position, and over all surveys; the plots of a few samples are not compared with anything in tests.", "anchors": ["popsynth/utils/array_to_cmap.py: array_to_cmap", "popsynth/population.py: Population._display_sphere, Population.display_flux_sphere", "popsynth/population_synth.py: PopulationSynth.draw_survey, PopulationSynth.draw_log10_fobs, PopulationSynth.draw_log_fobs"]}
{"id": "C90", "title": "A sky sampler provides independent position samplers that a survey can use", "statement": "Constructing a SkySampler never fails, changes no existing object and draws no random number. It hands out exactly the right ascension and declination samplers it was given; for one that was not given it makes a new sampler, called ra or dec, that is attached to no other sampler, has not been drawn and has a selection of its own. Both new samplers can be added to any population synth that has no samplers of these names; adding those of a second sky sampler is refused and leaves the synth as it was. A survey with the samplers of a sky sampler returns a population.", "quantifier": "all arguments of the constructor, all populations of objects that exist before, all synths, and all surveys of synths to which new samplers were added", "why_tests_cant": "It ranges over every synth and every set of existing objects, and the last part over all surveys; the project's tests construct the samplers without drawing a survey.", "anchors": ["popsynth/aux_samplers/sky_sampler.py: SkySampler.__init__, SkySampler._setup_sky, ra_sampler, dec_sampler", "popsynth/population_synth.py: PopulationSynth.add_observed_quantity", "popsynth/population.py: Population.ra, Population.dec"]}
{"id": "C91", "title": "The attributes of a population show its objects", "statement": "For every population: luminosities, distances, angles, fluxes, probability and each auxiliary quantity read as variables with exactly the observed and latent values the population was built from, one per object, with the population's selection; right ascension and declination are the azimuth in degrees and 90 minus the polar angle in degrees; the selected_ and hidden_ attributes contain the values of exactly the detected and of exactly the other objects, in order, the _latent ones the latent values; the counts are the numbers of objects, of detected and of other objects, and has_detections says whether any is detected; graph, truth, flux_sigma, parameters, known distances and the synth record are those given. The text of a population shows the three counts in decimal notation. Every public property of the class can be read.", "quantifier": "all arguments from which a population can be built, of any size and with any selection, and all public properties", "why_tests_cant": "It ranges over all arrays and masks; the tests read a few attributes of a few surveys, and never the two that cannot be read.", "anchors": ["popsynth/population.py: Population.__init__, the properties from graph to spatial_parameters (224-492)", "popsynth/simulated_variable.py: SimulatedVariable.selected, non_selected, latent"]}
