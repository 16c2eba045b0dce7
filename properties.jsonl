{"id": "C01", "title": "Unwrapping recovers the true displacement", "statement": "For a trajectory in a fixed (possibly triclinic, invertible) cell whose atoms truly move by less than half a cell per frame (each fractional component in [-1/2,1/2)), the displacement reported for every atom and frame equals the true Cartesian displacement from the first frame, whatever periodic images the input coordinates were written in.", "quantifier": "all cells, all atom counts, all trajectory lengths, all per-atom per-frame image shifts", "why_tests_cant": "the input space of trajectories and image choices is infinite; tests check one XDATCAR", "anchors": ["kinisi/parser.py::Parser.get_disp"]}
{"id": "C02", "title": "Periodic images do not matter", "statement": "In a fixed cell, adding any whole number of cell vectors to any atom in any frame leaves every reported displacement unchanged (no small-step assumption). For cells that change with time (NPT) the same statement is examined too.", "quantifier": "all cells, trajectories, integer image shifts", "why_tests_cant": "universally quantified over shifts per atom and frame", "anchors": ["kinisi/parser.py::Parser.get_disp"]}
{"id": "C03", "title": "Minimum-image (TOR) step for variable cells", "statement": "For every frame-to-frame step in an NPT trajectory, the step added to the running displacement differs from the raw Cartesian difference by an integer combination of the new frame's cell vectors, and its fractional components in the new cell lie in [-1/2,1/2). These two facts determine the step uniquely.", "quantifier": "all sequences of invertible cells and coordinates", "why_tests_cant": "needs every real-valued cell/coordinate", "anchors": ["kinisi/parser.py::Parser.get_disp"]}
{"id": "C04", "title": "Displacements start at zero, are causal and atom-local", "statement": "The displacement array produced from N frames has one row per atom and N entries per row; the first entry is zero; dropping later frames only truncates it; changing one atom's coordinates never changes another atom's row.", "quantifier": "all trajectories, truncation points and perturbations of other atoms", "why_tests_cant": "history/prefix property over all trajectories", "anchors": ["kinisi/parser.py::Parser.get_disp", "kinisi/parser.py::PymatgenParser.get_structure_coords_latt"]}
{"id": "C05", "title": "Drift correction removes exactly the framework drift", "statement": "After drift correction the mean displacement of the framework atoms is zero at every time; adding any time-dependent uniform drift to all atoms changes nothing; relative displacements between atoms are preserved; with no framework atoms the data is returned unchanged; correcting twice equals correcting once.", "quantifier": "all displacement arrays, framework index lists and drifts", "why_tests_cant": "real-valued universally quantified identity", "anchors": ["kinisi/parser.py::Parser.correct_drift"]}
{"id": "C06", "title": "Multi-origin windows enumerate every origin exactly once", "statement": "For a time interval of n frames, the multi-origin displacement array has T-n+1 observations per selected atom: the displacement accumulated up to entry n-1, then d[j+n]-d[j] for every origin j=0..T-n-1, in order, each once, for exactly the selected atoms in the selected order.", "quantifier": "all displacement arrays, index lists, valid intervals", "why_tests_cant": "index arithmetic over all sizes", "anchors": ["kinisi/parser.py::Parser.get_disps"]}
{"id": "C07", "title": "Every observation at interval dt spans exactly dt", "statement": "Each displacement observation reported for time interval n frames is the displacement of an atom between two trajectory frames exactly n apart.", "quantifier": "all trajectories parsed through the pymatgen, ASE or MDAnalysis parser", "why_tests_cant": "must hold for each window of every trajectory; tests only check array shapes", "anchors": ["kinisi/parser.py::Parser.get_disps", "kinisi/parser.py::PymatgenParser.get_structure_coords_latt"]}
{"id": "C08", "title": "Single-origin observations belong to their interval", "statement": "With sampling='single-origin', the one observation per atom reported for an interval of n frames is the displacement accumulated over n frames.", "quantifier": "all interval lists and displacement arrays", "why_tests_cant": "tests do not exercise single-origin with spaced intervals", "anchors": ["kinisi/parser.py::Parser.get_disps"]}
{"id": "C09", "title": "delta_t, displacements and n_o stay aligned", "statement": "Whenever parsing succeeds, the k-th displacement array and the k-th independent-observation count belong to the k-th reported delta_t, even when intervals with too few samples are dropped.", "quantifier": "all parser inputs with non-decreasing intervals", "why_tests_cant": "depends on which intervals are skipped for all sizes", "anchors": ["kinisi/parser.py::Parser.get_disps"]}
{"id": "C10", "title": "Linear intervals are ordered and span the requested range", "statement": "With spacing='linear' and n_steps >= 2, the intervals returned are exactly n_steps whole numbers, non-decreasing, the first is the minimum (at least 1 frame), the last is the maximum, evenly spaced to within one frame; with n_steps = 1 only the minimum is returned.", "quantifier": "all min/max/n_steps", "why_tests_cant": "all integers", "anchors": ["kinisi/parser.py::Parser.get_time_intervals"]}
{"id": "C11", "title": "No duplicated time intervals", "statement": "With linear spacing and default min_dt/max_dt, all reported time intervals are distinct, for every n_steps; the same is examined for user-chosen min_dt/max_dt.", "quantifier": "all trajectory lengths and n_steps", "why_tests_cant": "all sizes", "anchors": ["kinisi/parser.py::Parser.__init__", "kinisi/parser.py::Parser.get_time_intervals"]}
{"id": "C12", "title": "Logarithmic intervals are unique and in range", "statement": "With spacing='logarithmic' the intervals are strictly increasing whole numbers between min and max inclusive, contain both ends, and number at most n_steps.", "quantifier": "all positive min<=max and n_steps", "why_tests_cant": "real-valued powers over all ranges", "anchors": ["kinisi/parser.py::Parser.get_time_intervals"]}
{"id": "C13", "title": "Interval range is validated, accepted inputs never read outside the trajectory", "statement": "min_dt not smaller than the trajectory length is rejected with ValueError; for any other accepted min_dt/max_dt parsing never fails by indexing outside the trajectory.", "quantifier": "all trajectory lengths, min_dt, max_dt, n_steps", "why_tests_cant": "all combinations of bounds", "anchors": ["kinisi/parser.py::Parser.__init__", "kinisi/parser.py::Parser.get_disps"]}
{"id": "C14", "title": "Memory limit is honoured", "statement": "If the displacement arrays would need more than memory_limit GB, MemoryError is raised before any is built; if parsing succeeds the total bytes of the returned displacement arrays are at most memory_limit GB; the estimate is exact for multi-origin sampling when no interval is dropped.", "quantifier": "all array sizes, interval lists and limits", "why_tests_cant": "tests cannot allocate all sizes", "anchors": ["kinisi/parser.py::Parser.get_disps"]}
{"id": "C15", "title": "Number of independent observations", "statement": "The count reported for interval n is (number of selected atoms) x (largest interval) / n: positive, at least the number of atoms, equal to it at the largest interval, and non-increasing in n.", "quantifier": "all parser runs", "why_tests_cant": "all sizes", "anchors": ["kinisi/parser.py::Parser.get_disps"]}
{"id": "C16", "title": "Unknown options are rejected", "statement": "An unrecognised spacing, sampling, dimension or dtype string raises (ValueError, ValueError, KeyError, ValueError respectively), and every documented value is accepted.", "quantifier": "all strings", "why_tests_cant": "all strings", "anchors": ["kinisi/parser.py::Parser.get_time_intervals", "kinisi/parser.py::Parser.get_disps", "kinisi/analyzer.py::Analyzer._from_pymatgen", "kinisi/diffusion.py::DIMENSIONALITY"]}
{"id": "C17", "title": "Species selection partitions the atoms", "statement": "Selecting by species returns, in increasing order, exactly the indices of atoms of that species as diffusing and all others as framework (disjoint, jointly exhaustive); no match raises ValueError; an explicit framework list replaces the framework only.", "quantifier": "all structures and species lists", "why_tests_cant": "all structures", "anchors": ["kinisi/parser.py::ASEParser.get_indices", "kinisi/parser.py::PymatgenParser.get_indices", "kinisi/parser.py::MDAnalysisParser.get_indices"]}
{"id": "C18", "title": "Explicit specie_indices and framework_indices are honoured", "statement": "With specie_indices given, exactly those atoms diffuse and the framework is everything else, unless framework_indices is given, in which case the framework is exactly that list (empty list: no drift correction).", "quantifier": "all structures and index lists", "why_tests_cant": "all structures and index lists", "anchors": ["kinisi/parser.py::_get_framework", "kinisi/parser.py::_get_molecules"]}
{"id": "C19", "title": "Molecule centres are image-independent and equivariant", "statement": "The centre computed for a molecule lies in [0,1) per axis, is unchanged by moving any atom by whole cells, and moves rigidly (mod 1) with a rigid translation of the molecule.", "quantifier": "all molecules, masses, image shifts and translations", "why_tests_cant": "real-valued, periodic", "anchors": ["kinisi/parser.py::_get_molecules"]}
{"id": "C20", "title": "Molecule centre is the true centre of mass", "statement": "If a molecule's atoms fit within less than half the cell along an axis, the reported centre equals the mass-weighted mean of the unwrapped atom positions modulo the cell, for any images of the atoms.", "quantifier": "all molecules, positive masses, atom images", "why_tests_cant": "trigonometric identity over reals", "anchors": ["kinisi/parser.py::_get_molecules"]}
{"id": "C21", "title": "Reported times account for sub-sampling", "statement": "When every k-th frame of the trajectory is used, a reported delta_t still equals the simulated time between the two frames of an observation window.", "quantifier": "all trajectories, sub_sample_traj, step_skip, time_step", "why_tests_cant": "all parameter values", "anchors": ["kinisi/parser.py::ASEParser.__init__", "kinisi/parser.py::PymatgenParser.__init__", "kinisi/parser.py::MDAnalysisParser.__init__"]}
{"id": "C22", "title": "pymatgen times are converted to picoseconds", "statement": "For pymatgen-based inputs the time step is in femtoseconds and delta_t is reported in picoseconds: delta_t equals interval x time_step x step_skip x sub_sample_traj / 1000.", "quantifier": "all numeric time steps, integer or float", "why_tests_cant": "numeric type and value", "anchors": ["kinisi/parser.py::PymatgenParser.__init__"]}
{"id": "C23", "title": "Identical replicas are stacked as extra atoms", "statement": "With dtype='identical', the displacement array at each interval is the replicas' arrays concatenated along the atom axis, and n_o is the sum over replicas; the resulting MSD is the average of the replica MSDs.", "quantifier": "all numbers and sizes of replicas", "why_tests_cant": "all sizes", "anchors": ["kinisi/analyzer.py::Analyzer._stack_trajectories", "kinisi/analyzer.py::Analyzer._from_pymatgen"]}
{"id": "C24", "title": "Consecutive pieces equal one long trajectory", "statement": "With dtype='consecutive', splitting a trajectory into pieces at any points gives exactly the result of analysing it unsplit.", "quantifier": "all trajectories and all ways of splitting", "why_tests_cant": "all splittings", "anchors": ["kinisi/analyzer.py::_flatten_list", "kinisi/analyzer.py::Analyzer._from_pymatgen"]}
{"id": "C25", "title": "MSD is the mean squared displacement", "statement": "The reported MSD at each interval is the average over all atoms and observations of the squared displacement along the chosen axes; it is never negative, is zero iff all displacements vanish on those axes, scales quadratically, does not depend on atom or observation order, and MSD(xyz)=MSD(x)+MSD(y)+MSD(z).", "quantifier": "all displacement arrays", "why_tests_cant": "real-valued identity", "anchors": ["kinisi/diffusion.py::MSDBootstrap.__init__"]}
{"id": "C26", "title": "Dimension strings select the named axes", "statement": "A dimension string, in either case and as str or bytes, selects exactly the named axes and the dimensionality used in the diffusion coefficient is their number; anything else is rejected.", "quantifier": "all strings", "why_tests_cant": "all strings", "anchors": ["kinisi/diffusion.py::DIMENSIONALITY", "kinisi/diffusion.py::Bootstrap.__init__"]}
{"id": "C27", "title": "Result vectors are mutually aligned", "statement": "After MSD analysis of any parser output, dt, n, s, v, ngp, n_o and the displacement distributions have equal length, entry k of each belongs to interval k, and s squared equals v.", "quantifier": "all parser outputs", "why_tests_cant": "all sizes, skip branches", "anchors": ["kinisi/diffusion.py::MSDBootstrap.__init__"]}
{"id": "C28", "title": "Variance uses the matching number of observations", "statement": "The variance of the MSD at an interval is the sample variance of the squared displacements divided by the number of independent observations of that same interval, for every sub_sample_dt.", "quantifier": "all inputs and sub_sample_dt", "why_tests_cant": "all strides", "anchors": ["kinisi/diffusion.py::Bootstrap.__init__", "kinisi/diffusion.py::MSDBootstrap.__init__"]}
{"id": "C29", "title": "MSTD is the mean squared collective displacement", "statement": "The reported MSTD is, for the first half of the intervals, the mean over observations of the squared length of the sum over atoms of the displacements along the chosen axes; for one atom it equals the MSD.", "quantifier": "all displacement arrays", "why_tests_cant": "real-valued identity", "anchors": ["kinisi/diffusion.py::MSTDBootstrap.__init__"]}
{"id": "C30", "title": "MSCD is the mean squared charge displacement", "statement": "The reported MSCD is the mean squared charge-weighted collective displacement along the chosen axes; a scalar charge equals an array of equal charges; multiplying all charges by c multiplies it by c^2; unit charges give the MSTD.", "quantifier": "all displacement arrays, charges and dimensions", "why_tests_cant": "real-valued identity", "anchors": ["kinisi/diffusion.py::MSCDBootstrap.__init__"]}
{"id": "C31", "title": "Non-Gaussian parameter bound", "statement": "The non-Gaussian parameter is at least -2/5, with equality iff all squared displacements are equal, and is unchanged when all displacements are scaled.", "quantifier": "all non-zero displacement arrays", "why_tests_cant": "inequality over reals", "anchors": ["kinisi/diffusion.py::Bootstrap.ngp_calculation"]}
{"id": "C32", "title": "ngp_max is where the parameter peaks", "statement": "ngp_max returns the earliest dt at which the non-Gaussian parameter attains its maximum.", "quantifier": "all analysed data", "why_tests_cant": "all sequences", "anchors": ["kinisi/analyzer.py::Analyzer.ngp_max"]}
{"id": "C33", "title": "Covariance matrix entries", "statement": "The covariance matrix is symmetric, has the variances on its diagonal, and for i<=j its entry is v_i*n_i/n_j.", "quantifier": "all variance and count vectors", "why_tests_cant": "all sizes", "anchors": ["kinisi/diffusion.py::_populate_covariance_matrix"]}
{"id": "C34", "title": "Covariance matrix is positive semi-definite exactly when it should be", "statement": "With positive counts, the covariance matrix is positive semi-definite iff v_i*n_i^2 is non-negative and non-decreasing; with the random-walk variance model and the parser's counts this always holds.", "quantifier": "all sizes and vectors", "why_tests_cant": "quadratic form over all vectors", "anchors": ["kinisi/diffusion.py::_populate_covariance_matrix", "kinisi/diffusion.py::Bootstrap.generate_covariance_matrix"]}
{"id": "C35", "title": "Reconditioning bounds the condition number", "statement": "The reconditioned matrix has condition number at most cond_max.", "quantifier": "all symmetric matrices and cond_max >= 1", "why_tests_cant": "all spectra and eigenvalue orders", "anchors": ["kinisi/diffusion.py::minimum_eigenvalue_method"]}
{"id": "C36", "title": "Fitting uses exactly the diffusive regime", "statement": "The fit uses exactly the suffix of data from the first dt at or above start_dt; with increasing dt that is all dt >= start_dt; if there is none the call raises IndexError before any result is replaced.", "quantifier": "all dt vectors and start_dt", "why_tests_cant": "all sequences", "anchors": ["kinisi/diffusion.py::Bootstrap.bootstrap_GLS"]}
{"id": "C37", "title": "Units of D, D_J and sigma", "statement": "Every sample of D is gradient/(2 d) converted from square angstrom per picosecond to cm^2/s; D_J is D/(number of atoms); sigma is the Nernst-Einstein type conversion of the same gradient in mS/cm and is proportional to 1/(V T).", "quantifier": "all gradient samples, dimensions, volumes, temperatures", "why_tests_cant": "real-valued identity", "anchors": ["kinisi/diffusion.py::Bootstrap.diffusion", "kinisi/diffusion.py::Bootstrap.jump_diffusion", "kinisi/diffusion.py::Bootstrap.conductivity"]}
{"id": "C38", "title": "Negative diffusion coefficients are never sampled", "statement": "If every walker starts at a non-negative gradient, every gradient sample, hence every sample of D, D_J and sigma, is non-negative, for every proposal and acceptance sequence of the sampler.", "quantifier": "all sampler schedules (proposals, random numbers)", "why_tests_cant": "all random schedules", "anchors": ["kinisi/diffusion.py::Bootstrap.bootstrap_GLS"]}
{"id": "C39", "title": "Resampling terminates with a bounded number of resamples", "statement": "For every sequence of normality p-values the resampling loop terminates; the number of resamples is n_resamples plus a multiple of 100 and either n_resamples or below max_resamples+100; it stops early exactly at the first accepted p-value; and the 'not yet normal' warning is issued only if the result is not normal.", "quantifier": "all p-value sequences and sizes", "why_tests_cant": "all histories of the test statistic", "anchors": ["kinisi/diffusion.py::Bootstrap.sample_until_normal"]}
{"id": "C40", "title": "Bootstrap means stay within the data", "statement": "Every bootstrap value lies between the smallest and largest observation.", "quantifier": "all data and all random draws", "why_tests_cant": "all random draws", "anchors": ["kinisi/diffusion.py::_bootstrap"]}
{"id": "C41", "title": "Dictionary round-trip", "statement": "Converting a Bootstrap object to a dictionary and back gives an object with the same observable state.", "quantifier": "all reachable Bootstrap states", "why_tests_cant": "all states including None fields and sub-sampling", "anchors": ["kinisi/diffusion.py::Bootstrap.to_dict", "kinisi/diffusion.py::Bootstrap.from_dict"]}
{"id": "C42", "title": "HDF5 round-trip", "statement": "Saving a nested dictionary of supported values and loading it returns the same keys and values, lists in their original order whatever their length.", "quantifier": "all nested dictionaries", "why_tests_cant": "all trees, list lengths >= 10 (ordering), nesting depth", "anchors": ["kinisi/analyzer.py::_dict_to_group", "kinisi/analyzer.py::_group_to_dict"]}
{"id": "C43", "title": "Save file naming and no overwriting", "statement": "save never overwrites an existing file; load with the same name reads the file save wrote; the given extension is replaced with .hdf in the given directory.", "quantifier": "all file names and file system contents", "why_tests_cant": "all strings", "anchors": ["kinisi/analyzer.py::Analyzer.save", "kinisi/analyzer.py::Analyzer.load"]}
{"id": "C44", "title": "Reproducibility with random_state", "statement": "When random_state is given, the fitted chain does not depend on the global random state before the call, and repeated calls with equal random_state give equal results.", "quantifier": "all prior global states and histories of calls", "why_tests_cant": "all histories", "anchors": ["kinisi/diffusion.py::Bootstrap.bootstrap_GLS"]}
{"id": "C45", "title": "Arrhenius laws", "statement": "For positive temperature, activation energy and prefactor, arrhenius lies strictly between 0 and the prefactor, increases with temperature, decreases with activation energy, is log-linear in 1/T with slope -Ea/k_B; super_arrhenius with T0=0 equals it and above T0 is below it.", "quantifier": "all positive reals", "why_tests_cant": "real analysis", "anchors": ["kinisi/arrhenius.py::arrhenius", "kinisi/arrhenius.py::super_arrhenius"]}
{"id": "C46", "title": "Default bounds do not depend on earlier calls", "statement": "SuperArrhenius built without bounds uses (0, temperature[0]) of its own data for T0, whatever objects were built before in the same process.", "quantifier": "all histories of constructor calls", "why_tests_cant": "all call histories; tests always pass bounds", "anchors": ["kinisi/arrhenius.py::SuperArrhenius.__init__"]}
{"id": "C47", "title": "Analysis life cycle", "statement": "Before fitting, D, D_J, sigma and intercept are None; after a call they hold that call's result; a failed call leaves earlier coefficients unchanged; MSD data is never changed by fitting; flatchain and distribution are available after fitting.", "quantifier": "all sequences of analyzer calls", "why_tests_cant": "all call histories", "anchors": ["kinisi/diffusion.py::Bootstrap.diffusion", "kinisi/analyzer.py::Analyzer.distribution", "kinisi/diffusion_analyzer.py::DiffusionAnalyzer.flatchain"]}
{"id": "C48", "title": "Posterior predictive shape and indexing", "statement": "posterior_predictive returns n_posterior_samples*n_predictive_samples rows of length equal to the number of fitted dt points, each drawn around the line of some posterior sample.", "quantifier": "all sample counts and random draws", "why_tests_cant": "all draws", "anchors": ["kinisi/diffusion.py::Bootstrap.posterior_predictive"]}
{"id": "C49", "title": "Default maximum interval in double precision", "statement": "With max_dt omitted, the largest analysed interval equals the trajectory length in IEEE double arithmetic; in any case it never exceeds it.", "quantifier": "all trajectory lengths and time steps", "why_tests_cant": "rounding for every double", "anchors": ["kinisi/parser.py::Parser.__init__", "kinisi/parser.py::Parser.get_time_intervals"]}
{"id": "C50", "title": "Explicit min_dt in double precision", "statement": "Requesting min_dt equal (as decimal input) to m time steps makes the smallest interval m frames.", "quantifier": "all m and time steps", "why_tests_cant": "rounding for every double", "anchors": ["kinisi/parser.py::Parser.__init__"]}
{"id": "C51", "title": "n_i is readable", "statement": "The documented n_i property returns the number of independent trajectories per dt.", "quantifier": "all constructed objects", "why_tests_cant": "no test reads it", "anchors": ["kinisi/diffusion.py::Bootstrap.n_i"]}
{"id": "C52", "title": "Atom sub-sampling", "statement": "sub_sample_atoms=k keeps atoms 0,k,2k,...; combining it with specie_indices is rejected; coordinates used are the fractional ones, so that converting back with the cell gives the original positions.", "quantifier": "all universes and k", "why_tests_cant": "all sizes", "anchors": ["kinisi/parser.py::MDAnalysisParser.__init__", "kinisi/parser.py::MDAnalysisParser.get_structure_coords_latt"]}
{"id": "C53", "title": "Immobile and co-moving systems do not diffuse", "statement": "If no atom moves relative to the framework (all atoms share one, arbitrary, motion of less than half a cell per frame), every reported MSD, MSTD and MSCD value is zero.", "quantifier": "all trajectories with common motion", "why_tests_cant": "end-to-end over all trajectories", "anchors": ["kinisi/parser.py::Parser", "kinisi/diffusion.py::MSDBootstrap"]}
{"id": "C54", "title": "Likelihood is the Gaussian GLS likelihood", "statement": "For a non-negative gradient the log-likelihood is the multivariate normal log density of the residuals of the straight line, so it is maximised exactly by the generalised-least-squares solution; negative gradients have likelihood zero.", "quantifier": "all data, covariance inverses and parameters", "why_tests_cant": "quadratic form over all vectors", "anchors": ["kinisi/diffusion.py::Bootstrap.bootstrap_GLS"]}
{"id": "C55", "title": "Variance of collective quantities", "statement": "The variance reported for the MSTD (MSCD) at an interval is the sample variance of the squared collective (charge-weighted) displacements divided by the number of independent observations of that interval per atom, n_o / number of atoms.", "quantifier": "all displacement arrays, charges and sub_sample_dt", "why_tests_cant": "tests check shapes and one random array; the statement is about every array and every sub_sample_dt", "anchors": ["kinisi/diffusion.py:684", "kinisi/diffusion.py:776"]}
{"id": "C56", "title": "A loaded analyser can be saved again", "statement": "An analyser restored with load can itself be saved to a new file.", "quantifier": "all analysers, states and file names", "why_tests_cant": "depends on the Python type of every restored attribute in every state; tests never save a loaded object", "anchors": ["kinisi/analyzer.py::Analyzer.save", "kinisi/analyzer.py::_dict_to_group", "kinisi/diffusion.py::Bootstrap.from_dict"]}
{"id": "C57", "title": "Extrapolated distributions are physical, sample by sample", "statement": "extrapolate(T) gives one value per posterior sample; at a measured temperature it is that row of distribution; with positive energies and prefactors every value lies strictly between 0 and its sample's prefactor and increases with temperature, so interpolation stays between its neighbours; for the super-Arrhenius law with 0 < T0 < T every value lies strictly between 0 and the Arrhenius value.", "quantifier": "all chains of positive samples and all temperatures", "why_tests_cant": "all chains and temperatures", "anchors": ["kinisi/arrhenius.py::StandardArrhenius.extrapolate", "kinisi/arrhenius.py::StandardArrhenius.distribution", "kinisi/arrhenius.py::SuperArrhenius.extrapolate"]}
{"id": "C58", "title": "Which posterior samples a fit keeps", "statement": "A successful diffusion, jump_diffusion or conductivity call leaves exactly n_walkers * (n_samples // thin) posterior samples in flatchain; gradient, intercept and the coefficient have one entry per row of it, in the same order; and the kept rows are the steps n_burn+thin-1, n_burn+2*thin-1, ... of the chain the same call would have kept without burn-in and thinning, so burn-in discards exactly the first n_burn steps.", "quantifier": "all data, settings with non-negative lengths and thin >= 1, generators and optimisers", "why_tests_cant": "tests look at one or two settings and cannot compare with the chain that was not kept; the statement is about every setting and every random stream", "anchors": ["kinisi/diffusion.py::Bootstrap.bootstrap_GLS", "kinisi/diffusion.py:391", "kinisi/diffusion.py::MSDBootstrap"]}
{"id": "C59", "title": "Rotating, reflecting or shearing the simulation commutes with the analysis", "statement": "Mapping the cell (and Cartesian coordinates) of every frame by any invertible linear map maps every parsed displacement by it and scales the volume by |det|, with the same intervals, delta_t, n_o, indices and the same exceptions, for the ASE, pymatgen and MDAnalysis parsers and for several trajectories. If the map preserves squared lengths from the chosen axes to the new axes (rotation, reflection, renaming of axes), DiffusionAnalyzer and JumpDiffusionAnalyzer report identical dt, n, s, v, ngp and bootstrap results, fits draw identical samples and leave the random generator in the same state; for ConductivityAnalyzer the map must preserve all three axes, since charge motion ignores dimension.", "quantifier": "all trajectories, cells, linear maps, parameters, dimensions, generators", "why_tests_cant": "an equivariance over a continuous group and all trajectories; tests check a few orientations", "anchors": ["kinisi/parser.py::ASEParser.get_structure_coords_latt", "kinisi/parser.py::PymatgenParser.get_structure_coords_latt", "kinisi/parser.py::MDAnalysisParser.get_structure_coords_latt", "kinisi/parser.py::Parser.get_disps", "kinisi/diffusion.py::MSDBootstrap", "kinisi/diffusion.py::MSCDBootstrap", "kinisi/analyzer.py::Analyzer._from_pymatgen"]}
{"id": "C60", "title": "Changing the length unit scales the statistics as their dimension says", "statement": "Multiplying cell and coordinates by c multiplies displacements by c and the volume by |c|^3 and changes no interval, delta_t or n_o; the reported MSD, MSTD and MSCD are multiplied by c^2, their variances by c^4, dt and n_o stay, and the non-Gaussian parameter of every interval with non-zero MSD is unchanged.", "quantifier": "all trajectories, data and c <> 0", "why_tests_cant": "a scaling law over all inputs and all factors", "anchors": ["kinisi/parser.py::Parser.get_disps", "kinisi/diffusion.py::MSDBootstrap", "kinisi/diffusion.py::MSTDBootstrap", "kinisi/diffusion.py::MSCDBootstrap", "kinisi/diffusion.py::Bootstrap.ngp_calculation"]}
{"id": "C61", "title": "The analysis does not depend on the time unit", "statement": "Giving time_step, min_dt and max_dt in another unit (all multiplied by c, c <> 0) yields the same intervals, displacements, counts and exceptions, with delta_t multiplied by c, for all three parsers and several trajectories; the analysers then report the same n, s, v, ngp, n_o and bootstrap results (same use of the random generator) with dt multiplied by c; for c > 0 and start_dt converted too, the same points are fitted.", "quantifier": "all trajectories, parameters, factors and generators; exact real arithmetic", "why_tests_cant": "relates pairs of runs over all inputs and factors", "anchors": ["kinisi/parser.py::Parser.__init__", "kinisi/parser.py::Parser.get_time_intervals", "kinisi/parser.py::Parser.get_disps", "kinisi/diffusion.py::MSDBootstrap", "kinisi/diffusion.py:346"]}
{"id": "C62", "title": "The bootstrap option only adds the bootstrap results", "statement": "Whenever an MSD, MSTD or MSCD analysis with bootstrap=True succeeds, the same analysis with bootstrap=False succeeds, leaves the random generator untouched and gives the same object except that the bootstrap distributions, n_bootstrap, s_bootstrap and v_bootstrap are empty; with block=False and at least one independent observation per interval an MSD analysis with bootstrap=True never fails when the one without succeeds; and fits give the same result, exception and random stream for both objects.", "quantifier": "all data, options, random generators and normality tests", "why_tests_cant": "non-interference over all inputs and random streams", "anchors": ["kinisi/diffusion.py::MSDBootstrap", "kinisi/diffusion.py::MSTDBootstrap", "kinisi/diffusion.py::MSCDBootstrap", "kinisi/diffusion.py::Bootstrap.sample_until_normal", "kinisi/diffusion.py::Bootstrap.bootstrap_GLS"]}
{"id": "C63", "title": "sub_sample_traj equals thinning the trajectory beforehand", "statement": "Parsing with sub_sample_traj=k gives exactly the result (or exception) of parsing the trajectory reduced to frames 0, k, 2k, ... with sub_sample_traj=1 and, for pymatgen and MDAnalysis, step_skip multiplied by k; for dtype='identical' the same holds replica by replica.", "quantifier": "all trajectories, parameters and k >= 1", "why_tests_cant": "an equality of two runs for all trajectories and strides", "anchors": ["kinisi/parser.py::ASEParser.get_structure_coords_latt", "kinisi/parser.py::PymatgenParser.get_structure_coords_latt", "kinisi/parser.py::MDAnalysisParser.get_structure_coords_latt", "kinisi/analyzer.py::Analyzer._from_universe"]}
{"id": "C64", "title": "A motion common to all atoms is removed completely", "statement": "With a fixed cell and a non-empty framework, adding to every atom the same arbitrary motion (a different shift for every frame) does not change any field of the parse result, whatever periodic images are stored, as long as atoms move by less than half a cell between used frames with and without the added motion.", "quantifier": "all trajectories, common motions, periodic images and parameters selecting atoms", "why_tests_cant": "an equality of two runs for all trajectories and motions", "anchors": ["kinisi/parser.py::Parser.correct_drift", "kinisi/parser.py::Parser.get_disp"]}
{"id": "C65", "title": "The order of the atoms does not matter", "statement": "Listing the atoms of a trajectory in another order (with selection by species), or giving specie_indices in another order, gives the same intervals, times, sample counts and volume and displacement arrays with their rows permuted; analyses of such data (block=False) report the same MSD, MSTD or MSCD values, variances, non-Gaussian parameters and sample counts, with charges following their atoms; fits give the same samples, exceptions and random stream.", "quantifier": "all trajectories (also with variable cells), all renumberings, all data and fits", "why_tests_cant": "invariance under all permutations of all trajectories", "anchors": ["kinisi/parser.py::Parser", "kinisi/parser.py::_get_framework", "kinisi/diffusion.py::MSDBootstrap", "kinisi/diffusion.py::MSTDBootstrap", "kinisi/diffusion.py::MSCDBootstrap"]}
{"id": "C66", "title": "The triclinic warning is issued exactly for non-orthorhombic cells", "statement": "The warning about triclinic cells is issued if and only if the cell matrix of at least one of the used frames (every sub_sample_traj-th) has a non-zero entry off the diagonal.", "quantifier": "all trajectories and strides", "why_tests_cant": "an equivalence over all trajectories", "anchors": ["kinisi/parser.py::Parser.get_disp"]}
{"id": "C67", "title": "The posterior is a normal distribution around the best line, cut off at zero", "statement": "With a positive definite covariance and two different times there is exactly one generalised-least-squares line; data lying on a line give that line whatever the covariance; the sampled likelihood of (slope, intercept) is the normal distribution around the best line whose inverse covariance is X^T C^-1 X, cut off at negative slopes; when the data fall, the most likely admissible slope is zero; the best line does not depend on the overall scale of the covariance and follows a line added to the data.", "quantifier": "all data, times, covariance matrices and parameters", "why_tests_cant": "existence, uniqueness and an identity of functions of two real variables for all data", "anchors": ["kinisi/diffusion.py::Bootstrap.bootstrap_GLS", "kinisi/diffusion.py::_straight_line"]}
{"id": "C68", "title": "The order of the replicas does not matter", "statement": "With dtype='identical', giving the same trajectories in another order succeeds or fails alike and gives the same lag times and sample counts, and at each lag the same displacement series in another order, so all statistics agree; when all trajectories have the same volume the stored volume agrees as well; a list holding one trajectory gives the same analyser as that trajectory alone.", "quantifier": "all lists of trajectories with the same atoms and number of frames, all reorderings, all three parsers", "why_tests_cant": "invariance under all permutations of all lists of trajectories", "anchors": ["kinisi/analyzer.py::Analyzer._from_pymatgen", "kinisi/analyzer.py::Analyzer._from_ase", "kinisi/analyzer.py::Analyzer._from_universe", "kinisi/analyzer.py::Analyzer._stack_trajectories"]}
{"id": "C69", "title": "The three interfaces agree on one trajectory", "statement": "Reading the same trajectory through the pymatgen interface (fractional coordinates, times in fs), through MDAnalysis (Cartesian coordinates, times in ps) or through ASE (times in ps) gives the same time intervals, times, displacements, sample counts, atom lists and volume, or the same exception, for every atom selection, spacing, sampling and stride.", "quantifier": "all trajectories with proper cells, all parser parameters", "why_tests_cant": "agreement of three programs on all inputs", "anchors": ["kinisi/parser.py::ASEParser", "kinisi/parser.py::PymatgenParser", "kinisi/parser.py::MDAnalysisParser"]}
{"id": "C70", "title": "Atoms that were neither selected nor named as framework have no influence", "statement": "If two trajectories agree in cells, species and the positions of all selected atoms (or molecules) and framework atoms, the reported intervals, times, displacement arrays, sample counts and volume are the same, wherever the other atoms are; only the stored displacements of all atoms may differ.", "quantifier": "all trajectories, all motions of the other atoms, all selections", "why_tests_cant": "non-interference over all positions of the other atoms", "anchors": ["kinisi/parser.py::Parser.correct_drift", "kinisi/parser.py::Parser.get_disps", "kinisi/parser.py::_get_molecules"]}
{"id": "C71", "title": "Analysing several species at once averages over them", "statement": "With a framework given by its atoms, selecting two disjoint sets of species together yields the displacement series of both, the same intervals and times, and sample counts that add up; at every interval the MSD is the mean of the two separate MSDs weighted with the numbers of atoms.", "quantifier": "all trajectories, interfaces, sampling modes and disjoint sets of species with at least two atoms each", "why_tests_cant": "relates three runs over all trajectories and species lists", "anchors": ["kinisi/parser.py::ASEParser.get_indices", "kinisi/parser.py::Parser.get_disps", "kinisi/diffusion.py::MSDBootstrap"]}
{"id": "C72", "title": "Collective displacements are bounded by single-particle ones", "statement": "At the same interval the mean squared total displacement of N particles lies between 0 and N^2 times the MSD and reaches the bound when all particles move alike; the mean squared charge displacement (all axes) is at most N times the sum of squared charges times the MSD, and for common motion equals the squared total charge times the MSD, hence 0 for a neutral selection.", "quantifier": "all displacement arrays, charges and settings", "why_tests_cant": "a Cauchy-Schwarz inequality between two analyses over all data", "anchors": ["kinisi/diffusion.py::MSDBootstrap", "kinisi/diffusion.py::MSTDBootstrap", "kinisi/diffusion.py::MSCDBootstrap"]}
{"id": "C73", "title": "Bayesian bootstrap means are weighted means of the data", "statement": "The Bayesian bootstrap returns the requested number of means, each a mean of the data with non-negative weights adding up to 1: they stay within the range of the data, follow a change of unit and origin, and with at most one effective sample are data values themselves; a single data value raises ZeroDivisionError, any other number runs.", "quantifier": "all data, effective sample sizes, numbers of resamples and generator states", "why_tests_cant": "holds for every random draw and all data", "anchors": ["kinisi/diffusion.py::_bayesian_bootstrap"]}
{"id": "C74", "title": "Rounding does not spoil unwrapping", "statement": "Run in IEEE double precision, Parser.get_disp picks the same periodic image as exact arithmetic and returns displacements whose rounding error is negligible: for a fixed orthorhombic cell and stored coordinates equal to the true ones up to whole cells, if every true step is shorter than half a cell then after t steps the displacement differs from the true one by at most t^2 * 2^-49 cell sides. (Holds when steps stay 2^-47 of a cell away from half a cell; a step of 0.49999999999999994 cells is unwrapped to the wrong image.)", "quantifier": "every number of atoms, up to 2^20 steps, all doubles as coordinates in [-2,2] and as cell sides in [2^-300,2^300], every diagonal inverse accurate to 8 units of 2^-53", "why_tests_cant": "A wrong image is off by a whole cell, and whether one is picked depends on the last bits of three rounded products, one sum and a floor; no finite set of coordinates covers the doubles, and sampled coordinates practically never come near the critical ones.", "anchors": ["kinisi/parser.py:101-129"]}
{"id": "C75", "title": "The fit does not depend on the units", "statement": "Converting lengths and times to other units converts the fit and nothing else: the covariance matrix is multiplied by the fourth power of the length factor and does not depend on the time unit, the generalised-least-squares slope and intercept are the old ones converted, and the log-likelihoods of converted parameters differ from the old ones by one constant, so the posterior is the old posterior in new units.", "quantifier": "all data, all symmetric weight matrices of the right size, all positive conversion factors, with and without intercept; model_v=True provided scipy's fitted variance model scales", "why_tests_cant": "Tests fix one unit; a hidden absolute threshold or a wrong power of the step in the covariance only shows when all data are rescaled, for arbitrary data and factors.", "anchors": ["kinisi/diffusion.py:346-364", "kinisi/diffusion.py:397-425", "kinisi/diffusion.py:838-888"]}
{"id": "C76", "title": "Collective statistics of several replicas", "statement": "Analysing several replicas with dtype='identical' treats them as one larger system: the mean squared total (charge) displacement is the sum over all pairs of replicas of the average product of their collective displacements. It lies between 0 and k times the sum over the k replicas analysed alone, and equals that sum (not the mean) when the replicas are uncorrelated; copies of one trajectory multiply the means by k^2, the covariance by k^4 and the jump-diffusion coefficient by k, while the volume stays that of one replica. One charge per ion is rejected for two or more replicas.", "quantifier": "all parsers, all alike replicas in any number, all intervals, every random-number state; scalar charges for the conductivity part", "why_tests_cant": "Tests use one pair of identical trajectories and check the array shape; that the result is wrong by a factor depending on the number of replicas and their correlation is a statement about all trajectories and all counts.", "anchors": ["kinisi/analyzer.py:111-113", "kinisi/analyzer.py:148-150", "kinisi/analyzer.py:186-188", "kinisi/analyzer.py:264-290", "kinisi/diffusion.py:636-689", "kinisi/diffusion.py:723-781", "kinisi/diffusion.py:447-483"]}
{"id": "C77", "title": "Conductivity, jump diffusion and diffusion agree with each other", "statement": "For unit charges of one sign and all three axes the conductivity analyser and the jump-diffusion analyser hold the same data, and each conductivity sample is the Nernst-Einstein conductivity N e^2 D_J / (V k_B T) of the corresponding D_J sample for the same random numbers. Reversing all charges changes nothing; equal charges c scale the statistics like a length unit c; for one atom the jump-diffusion data are the tracer-diffusion data of the first half of the intervals. For fewer axes the relation fails, because the charge displacement ignores the chosen dimension.", "quantifier": "all displacement data, all options (including block averaging and resampling for the equality of objects), all charges in the stated classes, every state of the random-number generators and every behaviour of the numerical libraries", "why_tests_cant": "Tests run the three analysers separately and compare with stored numbers; an identity between two differently written classes for all data and all random numbers is not testable.", "anchors": ["kinisi/diffusion.py:447-483", "kinisi/diffusion.py:636-689", "kinisi/diffusion.py:723-781", "kinisi/conductivity_analyzer.py:224-237", "kinisi/jump_diffusion_analyzer.py:208-220"]}
{"id": "C78", "title": "What is reported for one interval does not depend on the other intervals", "statement": "Reading one trajectory twice with different min_dt, max_dt, n_steps, spacing or memory limit gives, for every interval the two runs share, the same time, the same displacements, the same mean squared (total, charge) displacement, non-Gaussian parameter and distances, whatever sub_sample_dt and the resampling settings are. The number of independent observations and the variance of that interval should not depend on the other intervals either; they do: n_o is proportional and the variance inversely proportional to the longest interval analysed.", "quantifier": "all three parsers, all trajectories, all interval options giving positive ascending intervals, all three analysers, every random-number state", "why_tests_cant": "Tests use one interval grid at a time; independence from the rest of the grid relates pairs of runs for all grids and trajectories.", "anchors": ["kinisi/parser.py:79-92", "kinisi/parser.py:150-168", "kinisi/parser.py:170-222", "kinisi/diffusion.py:552-603"]}
{"id": "C79", "title": "Mean squared displacements are accurate in double precision", "statement": "When kinisi computes mean squared displacements in IEEE double precision, every value it reports differs from the exact mean of the stored displacements by at most a factor (N+5) 2^-52, N being the number of displacements averaged; nothing overflows or becomes NaN. The same holds with N replaced by the depth of the summation for every other order in which NumPy may add the terms. Components must be zero or between 2^-300 and 2^300 in size.", "quantifier": "all displacement arrays of moderate doubles with at most 2^50 entries, all dimension strings, sub-sampling steps, resampling settings, random-number states and summation orders", "why_tests_cant": "Tests compare with a tolerance on a few arrays; a rounding bound for all arrays of doubles and all summation orders needs a proof.", "anchors": ["kinisi/diffusion.py:552-603"]}
{"id": "C80", "title": "Variances and non-Gaussian parameters are sound in double precision", "statement": "When kinisi computes the variance and the non-Gaussian parameter of an interval in IEEE double precision, the variance is finite and never negative (so its square root is never NaN), the standard error is within (3N+19) 2^-52 times the root mean square of the averaged quantity of the exact one, and the non-Gaussian parameter is within (5N+38) 2^-52 of itself plus one. Components must be zero or between 2^-100 and 2^100 in size.", "quantifier": "all displacement arrays of such doubles with at most 2^40 entries, all dimension strings, sub-sampling steps, resampling settings and random-number states", "why_tests_cant": "Cancellation in a variance shows up only for special data; a bound for all arrays of doubles needs a proof.", "anchors": ["kinisi/diffusion.py:291-303", "kinisi/diffusion.py:552-603"]}
{"id": "C81", "title": "The reported mean squared displacement is the time average of the true motion", "statement": "For atoms moving by less than half a cell between used frames, whatever periodic images are written, the mean squared displacement reported for an interval of m used frames is the average over all pairs of used frames m apart (and over the chosen atoms) of the squared displacement relative to the framework; its average over many runs of a stationary process is therefore the true value. (What the code reports instead is stated exactly.)", "quantifier": "all trajectories, cells, periodic images, three interfaces, frame-skipping steps, species selections, intervals, dimension strings, ensembles of runs", "why_tests_cant": "The extra window biases the result by a factor (T-1)/T or a term c/(T-m+1), which is below the tolerance or the noise of any test on a long trajectory.", "anchors": ["kinisi/parser.py:102-130", "kinisi/parser.py:170-224", "kinisi/diffusion.py:552-603"]}
{"id": "C82", "title": "Playing the trajectory backwards leaves mean squared displacements unchanged", "statement": "Analysing the frames of a trajectory in reverse order gives the same intervals and the same mean squared displacements. (Where this fails the exact difference is stated.)", "quantifier": "all trajectories, cells, periodic images, three interfaces, species selections, intervals, dimension strings", "why_tests_cant": "The asymmetry involves the first and last few frames only, so it disappears in the noise of any long test trajectory.", "anchors": ["kinisi/parser.py:102-130", "kinisi/parser.py:170-224", "kinisi/diffusion.py:552-603"]}
{"id": "C83", "title": "A supercell gives the same self-diffusion as its cell", "statement": "Analysing the trajectory of a supercell made of c translated copies of a cell (any multiplicities along the three vectors, any periodic images, atoms chosen by species) gives the same intervals and times; every interval reported for the cell is reported for the supercell with the same mean squared displacement and non-Gaussian parameter, c times the independent observations, and a variance divided by c up to the N-1 of the sample variance. Collective (total and charge) mean squared displacements of the perfectly correlated copies grow by c^2 and their variances by c^4.", "quantifier": "all trajectories, cells, multiplicities, copy numbers, lattice shifts, periodic images, three interfaces, species, frameworks, options in the documented range, dimension strings", "why_tests_cant": "Any index arithmetic slip for larger cells (species selection, framework average, minimum image in the larger cell) shows up only for particular atom counts and shifts.", "anchors": ["kinisi/parser.py:102-148", "kinisi/parser.py:170-224", "kinisi/parser.py:328-352", "kinisi/diffusion.py:552-603", "kinisi/diffusion.py:606-760"]}
{"id": "C84", "title": "Documented input is accepted and can be analysed", "statement": "Every trajectory with at least one frame, the same atoms in every frame and a cell that is not flat, read with positive strides, a selection of existing atoms (by species, positions or molecules with usable masses) and sensible time options, is accepted by the ASE, pymatgen and MDAnalysis parsers; only MemoryError can occur, and it does not when n_steps times the size of the displacements fits the limit. Whenever the parser delivers at least one array of displacements (exactly when two or more atoms are followed, or with multi-origin sampling when twice the first interval fits in the trajectory), the diffusion, jump-diffusion and conductivity analysers can be built for every dimension string, stride, with or without bootstrap and block averaging; otherwise all three raise IndexError.", "quantifier": "all trajectories with changing cells, interfaces, selections, frameworks, masses, options in the documented range, samplings, bootstrap parameters, charges, random generators drawing in range", "why_tests_cant": "Absence of exceptions over all documented inputs and option combinations cannot be enumerated.", "anchors": ["kinisi/parser.py:58-99", "kinisi/parser.py:102-148", "kinisi/parser.py:170-224", "kinisi/parser.py:260-356", "kinisi/parser.py:674-764", "kinisi/diffusion.py:552-780", "kinisi/diffusion_analyzer.py:35-202"]}
{"id": "C85", "title": "Reported collective displacements are the time average of the true motion", "statement": "For a faithfully read trajectory, the mean squared total displacement (jump diffusion) and mean squared charge displacement (conductivity) reported for an interval of m used frames should be the average of the squared (charge-weighted) sum of the atoms' true displacements relative to the framework over all pairs of frames m apart. It is that average mixed with one window of m-1 frames at the start, ((T-m) true + window)/(T-m+1); averaged over diffusive runs it is too small by c/(T-m+1). The charge displacement always uses all three axes.", "quantifier": "all trajectories, cells, periodic images, three interfaces, species and frameworks, options in the documented range, dimension strings, scalar or per-atom charges, sub-sampling of intervals", "why_tests_cant": "The deviation is a small relative bias hidden in statistical noise; only an exact relation to the true trajectory shows it.", "anchors": ["kinisi/parser.py:170-224", "kinisi/parser.py:102-148", "kinisi/diffusion.py:605-780"]}
{"id": "C86", "title": "Independent atoms: jump diffusion and self-diffusion coincide", "statement": "If, averaged over many runs, the displacements of different followed atoms are uncorrelated in every window, then for every interval reported by both analysers the average mean squared total displacement is N times the average mean squared displacement (so the jump diffusion coefficient, which divides by N, estimates the same quantity as the self-diffusion coefficient), and with charges of equal magnitude c and any signs the average mean squared charge displacement is c^2 N times it.", "quantifier": "all weighted ensembles of trajectories of the same system, cells, periodic images, three interfaces, selections, options in the documented range, dimension strings, charges", "why_tests_cant": "A statement about averages over arbitrary ensembles; finite random tests only see it within noise.", "anchors": ["kinisi/parser.py:170-224", "kinisi/diffusion.py:524-780"]}
{"id": "C87", "title": "The fitted diffusion line is right on average and its width is the real spread", "statement": "Repeat a measurement many times so that the curves passed to the fit have a true straight line as average. With any positive definite inverse covariance, the lines that maximise the log-likelihood (with positive slope) average to the true line. If the inverse covariance belongs to the real covariance of the curves, the likelihood of every repetition is a normal distribution around its own best line whose covariance matrix equals the covariance matrix of the best lines over the repetitions, and no linear estimate that is exact on straight lines has a smaller variance of the slope. The same holds without intercept for lines through the origin.", "quantifier": "all finite weighted ensembles of curves, time grids with two different times (one non-zero time without intercept), symmetric positive definite inverse covariances, competing linear estimates", "why_tests_cant": "A statement about averages, covariances and all competing estimates over arbitrary ensembles; a test sees one noisy curve.", "anchors": ["kinisi/diffusion.py:283-430"]}
{"id": "C88", "title": "From stored positions to reported mean squared displacement in double precision", "statement": "Unwrapping, drift correction, displacement windows and averages together, all in IEEE double precision: with a fixed orthorhombic cell and steps not within 2^-47 of half a cell, every mean squared displacement reported by MSDBootstrap is a finite non-negative double whose root differs from the root of the exact mean squared displacement of the true trajectory (over the same frames, atoms and framework) by at most (N+8) 2^-52 of itself plus 2 n (16 n + f + 6) 2^-51 cell diagonals, for N observations, n steps and f framework atoms. Nothing overflows, and cancellation against the framework drift cannot spoil the result.", "quantifier": "all trajectories of up to 2^20 steps, atoms, frameworks of up to 2^20 atoms, up to 2^50 observations, cell sides from 2^-300 to 2^300, intervals, dimension strings, sub-sampling of intervals", "why_tests_cant": "Errors of four stages accumulate over long trajectories and cancel or add depending on the data; a test compares against another double-precision computation.", "anchors": ["kinisi/parser.py:102-224", "kinisi/diffusion.py:437-520"]}
{"id": "C89", "title": "The reported variance against the scatter of repeated simulations", "statement": "The variance MSDBootstrap, MSTDBootstrap and MSCDBootstrap report for an interval (the error bar of the curve and the weight in the fit) estimates the variance the reported mean would have over repetitions of the simulation. Proved: over any distribution of runs in which the K observations share the average mu and the variance s2, the reported mean is right on average and the reported variance is on average K/(K-1) (s2 - real variance)/n_o, i.e. s2/n_o against the real s2/K when the observations are uncorrelated; hence exactly right for the interval of all frames in multi-origin sampling with uncorrelated atoms, and too small by the factor n/longest for every interval of n frames in single-origin sampling. The claim itself is false in both directions for an ideal random walk.", "quantifier": "all (finite, weighted) distributions of runs, trajectories, atoms, intervals, dimension strings, sub-sampling; all three kinds of displacement", "why_tests_cant": "It is a statement about the distribution of runs: a test would have to simulate many repetitions and could only compare noisy estimates.", "anchors": ["kinisi/parser.py:158-224", "kinisi/diffusion.py:437-706"]}
{"id": "C90", "title": "The covariance matrix is the one of a random walk", "statement": "The covariance matrix of the fit (v_i n_i/n_j, with variances a t^2/n_o when the model variance is used) is the covariance matrix the displacement curve has over repetitions of an ideal random walk, so that the width of the posterior is the real scatter of the slope. Proved for windows lying side by side and interval lengths dividing each other: with the true variances the matrix is exactly the true covariance matrix for every distribution of independent unbiased steps; with normal second and fourth moments the variances are exactly those of the variance model with a = 2 tr(C^2)/tau^2, the curve is on average the line of slope tr(C)/tau through the origin, and the likelihood of every single run is exactly as wide as the most likely slope scatters over the runs. For the overlapping windows kinisi uses, the claim is false: the matrix differs from the true one even when the true variances are put in.", "quantifier": "all finite weighted distributions of independent unbiased steps (any number of atoms, any dimension subset), all nested interval lists", "why_tests_cant": "It is a statement about the distribution of runs, the content of the method behind the package; a test can only compare noisy sample covariances.", "anchors": ["kinisi/diffusion.py:354-364", "kinisi/diffusion.py:395-435", "kinisi/diffusion.py:838-855", "kinisi/parser.py:158-224"]}
{"id": "C91", "title": "Bootstrap results agree on average with the reported ones", "statement": "With bootstrap=True and max_resamples not above n_resamples, over fair and independent random draws the bootstrapped MSD, MSTD and MSCD (n_bootstrap) are on average exactly the reported values n, at every interval. The bootstrapped variance (v_bootstrap) is on average the reported variance v times (K-1)/K times n_o/int(n_o), K being the number of observations at the interval (n_o per atom for MSTD and MSCD), whatever the number of resamples. That the two variances agree on average without these factors is false.", "quantifier": "all displacement arrays with more than one observation at each interval, all n_o, dimensions, sub-sampling steps, numbers of resamples, all random generators whose indices are uniform and pairwise independent", "why_tests_cant": "A statement about the average over the random numbers; a run shows one draw, and the factor n_o/int(n_o) is invisible when n_o is a whole number.", "anchors": ["kinisi/diffusion.py:258-289", "kinisi/diffusion.py:571-602", "kinisi/diffusion.py:655-688", "kinisi/diffusion.py:747-780", "kinisi/diffusion.py:783-801"]}
{"id": "C92", "title": "Constant-pressure trajectories: what is reported when the cell changes", "statement": "When the cell changes from frame to frame, the reported displacements should be the true Cartesian displacements of the atoms. They are when positions are stored unwrapped or the cell does not change. Otherwise, for steps below half a cell, the reported displacement is the true one plus, for every change of the cell, as many cell vectors of that change as the atom is stored away from its true position at that moment; the reported mean squared displacements of all three interfaces are those of this path. In particular atoms resting in a growing cell are reported to move in spite of the drift correction, an atom that has crossed a boundary is reported at a wrong distance, and the volume used for conductivities is that of the first frame, not the mean.", "quantifier": "all sequences of invertible cells, numbers of frames and atoms, strides, trajectories with steps below half of the new cell, periodic images stored, ASE, pymatgen and MDAnalysis, dimensions, time options", "why_tests_cant": "Tests use fixed cells; the deviation is a sum over all frames of products of image counts and cell changes, which no finite set of trajectories characterises.", "anchors": ["kinisi/parser.py:100-131", "kinisi/parser.py:277-293", "kinisi/parser.py:411-437", "kinisi/parser.py:570-638", "kinisi/analyzer.py:24-31"]}
{"id": "C93", "title": "Small changes of the positions change the results little", "statement": "If two trajectories of the same atoms are read alike and no position differs by more than eps, the reported times agree and the square roots of the reported mean squared displacements differ by at most 2 eps (4 eps when a framework is used for drift correction), whatever the interval and the length of the trajectory; for the collective displacement of N atoms by N times, and for the charge displacement by the sum of the absolute charges times, that amount. Consequently atoms that only vibrate within a distance r of fixed places never get a mean squared displacement above (2 r)^2, or (4 r)^2 with a framework. Both need steps of less than half a cell between used frames: without that, positions eps apart can give displacements a whole cell minus eps apart.", "quantifier": "all pairs of trajectories in fixed cells (possibly different ones) with steps below half a cell, all interfaces, atom selections, strides, time options, dimensions, charges, all eps and r", "why_tests_cant": "A statement about all small perturbations at once; the bound must not grow with the number of steps accumulated, which no finite set of perturbations shows.", "anchors": ["kinisi/parser.py:100-131", "kinisi/parser.py:133-160", "kinisi/diffusion.py:571-602", "kinisi/diffusion.py:655-688", "kinisi/diffusion.py:747-780"]}
{"id": "C94", "title": "The way molecules are written down does not matter", "statement": "When molecules are followed, listing the molecules in another order gives the same displacements up to the order of the series; listing the atoms of the molecules in another order, each with its own mass, gives exactly the same parse; so does multiplying all masses by a common factor, and giving equal masses is the same as giving none. Molecules of one atom each give the displacements that following the atoms themselves gives (fixed cell; molecules number atoms from one, specie_indices from zero), whatever the mass.", "quantifier": "all trajectories, all three interfaces, all lists of molecules, masses, factors other than zero, time options; for molecules of one atom all trajectories in a fixed cell with the remaining atoms as framework", "why_tests_cant": "All permutations of molecules, atoms and masses at once, for periodic positions of any shape; equality of whole parses.", "anchors": ["kinisi/parser.py:674-738", "kinisi/parser.py:279-287", "kinisi/parser.py:413-421", "kinisi/parser.py:573-583"]}
{"id": "C95", "title": "Following molecules is following atoms at their centres of mass", "statement": "In a fixed cell, reading molecules (positive masses, each spanning less than half the cell, atoms in any periodic images) gives exactly the parse that reading a trajectory of single atoms placed at the centres of mass, followed by the framework atoms, gives: the same intervals, times, displacements and sample counts, through every interface and however far the molecules move between frames. Hence everything that holds for atoms holds for molecules: the reported mean squared displacement is the window average of the centres' motion (with the extra window of C81), likewise for the collective displacement; internal motion is not reported (zero if the centres and the framework rest, whatever the atoms do); and changing all atomic positions by at most eps changes the roots of the reported statistics by no more than for single atoms (C93).", "quantifier": "all trajectories in a fixed cell, all interfaces, lists of molecules, positive masses, frameworks, periodic images, strides, time options; the statements about reported values for centres moving less than half a cell between used frames, all dimensions and charges, all eps", "why_tests_cant": "Equality of whole parses for all motions of all molecules; the molecules' centre goes through trigonometric functions, which tests can only sample.", "anchors": ["kinisi/parser.py:674-738", "kinisi/parser.py:100-131", "kinisi/parser.py:273-293", "kinisi/parser.py:405-439", "kinisi/parser.py:565-592", "kinisi/diffusion.py:571-602", "kinisi/diffusion.py:655-688"]}
{"id": "C96", "title": "The non-Gaussian parameter vanishes for Gaussian motion and measures immobile atoms", "statement": "For displacements whose second and fourth moments along the chosen axes are those of isotropic Gaussian motion the reported non-Gaussian parameter is 0, whichever axes are chosen (false for one and two axes, where it is 4/5 and 1/5: it is (6-2D)/(5D)). Adding z resting displacements to N multiplies one plus the parameter by (N+z)/N. For a faithfully read trajectory the parameter of an interval of m used frames is that of all pairs of frames m apart together with one window of m-1 frames at the start; for m = 1 one plus the report is one plus the true value times T/(T-1).", "quantifier": "all displacement arrays with the stated moments, all dimension strings, numbers of resting atoms, sub-sampling of intervals; all trajectories, interfaces, species and options in the documented range", "why_tests_cant": "Gaussian samples only have these moments in the limit, so a test sees noise around the wrong constant; the factor 3/5 is right for the default dimension.", "anchors": ["kinisi/diffusion.py::Bootstrap.ngp_calculation", "kinisi/diffusion.py:552-603", "kinisi/parser.py:170-224"]}
{"id": "C97", "title": "Unwrapping in double precision is right for triclinic and changing cells", "statement": "Parser.get_disp run in IEEE double precision chooses, for every atom and step, the periodic image that exact arithmetic on the same stored numbers chooses, whatever the shape of the cells and however they change, as long as no step comes within 68 rho^2 2^-44 cells of a tie (rho: cube of the largest cell component over the volume, at most 100). Every unwrapped displacement is then finite and right to (t+1)^2 2^-45 times the largest cell component after t+1 steps. In a fixed cell it is the true displacement up to that error. The same holds with any inverse matrices that are inverses up to kappa 2^-50, as numpy.linalg.inv may return.", "quantifier": "all numbers of atoms, all trajectories of up to 2^20 steps, all cells with components up to M in 2^-300..2^300 and volume at least M^3/100, all stored double coordinates within two cells of the origin", "why_tests_cant": "Whether rounding in two matrix products and an inverse can tip floor(x + 1/2) over depends on every bit of the coordinates and of the cell; a test sees a handful of them.", "anchors": ["kinisi/parser.py::Parser.get_disp", "kinisi/parser.py:101-129"]}
{"id": "C98", "title": "Collective displacements are accurate in double precision even when the atoms' motions cancel", "statement": "Every reported mean squared total displacement and mean squared charge displacement, computed in IEEE double precision, is the mean square over the observations of the (charge-weighted) sum of the atoms' displacements: its root is right to (K+8) 2^-52 of itself for K observations plus 2N(N+1) 2^-52 of the root mean square (charge-weighted) displacement of a single atom for N atoms. From stored positions on, with unwrapping and drift correction rounded as well, the root of the mean squared total displacement is that of the true path up to these terms and 2N n(16n+f+6) 2^-51 cell diagonals (n steps, f framework atoms) in orthogonal cells, or 32 times that with the root of the number of axes times the largest cell component instead of the diagonal in cells of any shape; for changing cells the true path is replaced by the one exact arithmetic finds.", "quantifier": "all displacement arrays with components up to 2^300 (2^200 with charges up to 2^100), up to 2^20 atoms and 2^50 observations, all dimensions and sub-sampling; from positions on, all trajectories of up to 2^20 steps with no step within 2^-47 (orthogonal cells) or 68 rho^2 2^-44 (cells of any shape, fixed or changing) of half a cell", "why_tests_cant": "In the collective sum large displacements cancel, so how much rounding survives depends on the data; a test with a tolerance checks one data set.", "anchors": ["kinisi/diffusion.py::MSTDBootstrap", "kinisi/diffusion.py::MSCDBootstrap", "kinisi/diffusion.py:640-780"]}
{"id": "C99", "title": "Longer simulations and more atoms give better displacements", "statement": "The mean squared (total, charge) displacement reported for an interval of m used frames tends to the true ensemble average as the simulation gets longer: if windows of up to m frames have averages independent of their start, variances of at most s2 and no correlation when gap or more frames lie between them, its mean square error over repeated runs of T frames is at most s2 (2(m+gap)-1)/(T-m+1) plus the square of (M(m)-M(m-1))/(T-m+1), so for every accuracy and every risk there is a length of the simulation from which on larger errors are rarer than the risk. With N uncorrelated atoms the first term is N times smaller for the mean squared displacement; for atoms making independent unbiased steps the limit is m times the mean squared step.", "quantifier": "all finite weighted distributions of runs, trajectories, cells, periodic images, three interfaces, selections, options in the documented range, dimension strings, intervals, charges, accuracies and risks", "why_tests_cant": "Convergence speaks about all lengths of the simulation and about probabilities over all runs; a test sees a few runs of one length and cannot tell slow convergence to the right value from convergence to a wrong one.", "anchors": ["kinisi/parser.py::Parser.get_disps", "kinisi/diffusion.py::MSDBootstrap", "kinisi/diffusion.py::MSTDBootstrap", "kinisi/diffusion.py::MSCDBootstrap"]}
{"id": "C100", "title": "A well-conditioned fit is as good as its data, and long simulations give the right slope", "statement": "The line that bootstrap_GLS holds to be the most likely one (slopes below 0 excluded) is, in the root mean square over the fitted times, off the true line by at most sqrt(k) times the error of the fitted displacements, k being a bound on the condition number of the covariance matrix; so the square of the error of the slope, times the sum of the squared deviations of the times from their average, is at most k times the sum of the squared errors of the data. Over repeated simulations the mean square error of the slope of the MSD, MSTD or MSCD is at most k times the summed errors of C99 over that variation of the times, so where the true displacements are a straight line, for every accuracy and every risk there is a length of the simulation from which on a worse slope is rarer than the risk; for atoms making independent unbiased steps the slope tends to the mean squared step over the duration of a frame.", "quantifier": "all data, times, weights, true lines of slope not below 0 and condition bounds; all finite weighted distributions of runs, trajectories, cells, periodic images, three interfaces, selections, options in the documented range, fitted ranges, charges, accuracies and risks", "why_tests_cant": "The bound holds for every data set and every covariance matrix of a given condition number, and convergence speaks about all lengths of the simulation; a test compares a few fits with a tolerance chosen to make it pass.", "anchors": ["kinisi/diffusion.py::Bootstrap.bootstrap_GLS", "kinisi/diffusion.py::MSDBootstrap", "kinisi/diffusion.py::MSTDBootstrap", "kinisi/diffusion.py::MSCDBootstrap"]}
{"id": "C101", "title": "fit_intercept decides whether the fitted lines have an intercept", "statement": "After a successful fit (diffusion, jump_diffusion, conductivity or bootstrap_GLS) with fit_intercept=True, the stored chain consists of pairs of a gradient and an intercept and the two distributions are its columns, of equal length; with fit_intercept=False every sample is a gradient alone, so the lines pass through the origin, and intercept is None, also when an earlier fit on the same object had one.", "quantifier": "all objects (fitted before or not), data, settings, generator states, chains and proposals; any optimiser returning as many parameters as it is given, any noise with the requested number of columns and any sampler whose proposals have the dimension of its positions", "why_tests_cant": "A test runs each setting a few times with one sampler and usually looks at the gradient alone; the shape of every row must follow from the setting for all chains, and a stale intercept shows up only in particular sequences of calls.", "anchors": ["kinisi/diffusion.py::Bootstrap.bootstrap_GLS", "kinisi/diffusion.py::Bootstrap.diffusion", "kinisi/diffusion.py::Bootstrap.jump_diffusion", "kinisi/diffusion.py::Bootstrap.conductivity"]}
{"id": "C102", "title": "Charge displacements of a neutral set of ions do not depend on the frame of reference", "statement": "If the charges of the ions followed add up to zero, ConductivityAnalyzer reports the same mean-squared charge displacement (and variance, where observations are counted alike) for an interval whatever framework is chosen for the drift correction and however the whole system drifts in the simulation, although the MSDs and the charge displacements of ions of one sign do depend on it. For charges that combine two sets of charges (e.g. two kinds of ions), the result is the quadratic combination of the results for each set and for both together, so contributions of the kinds and their correlation can be obtained from three runs and reassembled for any charges.", "quantifier": "all motions with small steps in any cell, all drifts, frameworks, selections, charges, intervals and settings of both runs; all displacement arrays and charges for the second part", "why_tests_cant": "A test compares two frameworks in one trajectory, up to rounding; frame independence for every motion, and its failure without neutrality, are statements about all motions and charges.", "anchors": ["kinisi/diffusion.py::MSCDBootstrap.__init__", "kinisi/conductivity_analyzer.py::ConductivityAnalyzer", "kinisi/parser.py::Parser.correct_drift"]}
{"id": "C103", "title": "Reported times and the start of the fit are right in double precision", "statement": "In IEEE double precision every time in delta_t equals interval times time_step times step_skip (in ps) up to 2 (pymatgen: 4) times 2^-52 relatively, one more for a decimal time_step; increasing intervals give strictly increasing times. The fit starts at the first interval whose time is at least start_dt, provided start_dt keeps a relative distance of 2^-49 from the exact times of that interval and the one before, and IndexError is raised if start_dt is beyond the last time by as much. A start_dt written as exactly the time of an interval may leave that interval out.", "quantifier": "all time steps between 2^-800 and 2^800, step skips and intervals below 2^48, all trajectories and options, all start_dt", "why_tests_cant": "Whether i*time_step*step_skip falls below the decimal start_dt depends on the last bit for particular i and time_step; tests use values such as 0 or 5 with a time step where nothing happens.", "anchors": ["kinisi/parser.py::Parser.get_disps", "kinisi/parser.py::PymatgenParser.__init__", "kinisi/diffusion.py::Bootstrap.bootstrap_GLS"]}
{"id": "C104", "title": "Diffusion coefficients and conductivities are computed accurately in double precision", "statement": "Every sample of D and D_J is the double nearest to the Einstein relation (in cm^2/s; per atom for D_J) applied to the corresponding sample of the gradient. Every sample of sigma is the Nernst-Einstein conductivity in mS/cm of the gradient sample to 20 times 2^-52 relatively, and no intermediate quantity overflows or underflows, for physical constants, temperatures, volumes and gradients between 2^-90 and 2^90.", "quantifier": "all gradients up to 2^1000 in magnitude for D and D_J (fewer than 2^37 atoms), all gradients, temperatures, volumes and constants between 2^-90 and 2^90 for sigma; one to three dimensions; all fits", "why_tests_cant": "Tests compare a few numbers with a tolerance of 1e-7; that no combination of the very small and very large constants loses digits or overflows is a statement about all inputs.", "anchors": ["kinisi/diffusion.py::Bootstrap.diffusion", "kinisi/diffusion.py::Bootstrap.jump_diffusion", "kinisi/diffusion.py::Bootstrap.conductivity"]}
{"id": "C105", "title": "A coordinate that is NaN or infinite is never averaged away, and only the atoms in use matter", "statement": "With multi-origin sampling, one NaN or infinite coordinate of one followed or framework atom, in any frame that is read, leaves no number in the reported MSD, MSTD or MSCD (a NaN makes every entry NaN), so that a single reported number certifies all coordinates used. Coordinates of atoms that are neither followed nor framework, whether numbers or not, change nothing that is reported.", "quantifier": "all trajectories in double precision, all three readers, all atom selections (not molecules), all strides of the trajectory, all three analysers, all external routines", "why_tests_cant": "Drift correction, minimum images, averaging and resampling all sit between the coordinate and the report; tests use trajectories made of numbers.", "anchors": ["kinisi/parser.py::Parser.get_disp", "kinisi/parser.py::Parser.correct_drift", "kinisi/parser.py::Parser.get_disps", "kinisi/diffusion.py::MSDBootstrap.__init__", "kinisi/diffusion.py::MSTDBootstrap.__init__", "kinisi/diffusion.py::MSCDBootstrap.__init__"]}
{"id": "C106", "title": "Arrhenius parameters are determined by the measurements, and interpolation is as certain as they are", "statement": "Diffusion coefficients at two temperatures determine activation energy and prefactor; three determine the parameters of the super-Arrhenius law (two do not). Between two temperatures all laws, and all posterior samples, that agree there to within some factor agree to within that factor; outside, ln D is uncertain by the weighted sum of the two errors, linear in 1/T, and this is really attained. The slope of the Arrhenius plot is the activation energy; for a positive T0 the super-Arrhenius law's is larger than the parameter and falls with temperature.", "quantifier": "all temperatures, energies, prefactors and T0 below the temperatures; all posterior samples", "why_tests_cant": "Tests evaluate the laws for a few parameters; that no other parameters give the same values, and how far extrapolation can be trusted, concerns all parameters at once.", "anchors": ["kinisi/arrhenius.py::arrhenius", "kinisi/arrhenius.py::super_arrhenius", "kinisi/arrhenius.py::StandardArrhenius.extrapolate"]}
{"id": "C107", "title": "Default bounds keep the temperature laws physical", "statement": "Parameters within the default bounds give diffusion coefficients between zero and the prefactor at every measured temperature.", "quantifier": "all temperatures, in any order, all parameters within the default bounds, all earlier constructor calls", "why_tests_cant": "Tests use ascending temperatures and one object; the default upper bound of T0 is the first temperature, whatever it is.", "anchors": ["kinisi/arrhenius.py::SuperArrhenius.__init__", "kinisi/arrhenius.py::StandardArrhenius.__init__"]}
{"id": "C108", "title": "The random-walk model of the variances", "statement": "With model=True the covariance matrix before reconditioning is a dt_i^2 / n_o_j (i <= j), where a is the unique least-squares factor, lies between the smallest and largest ratio of reported variance to dt^2/n_o and is exact for variances that follow the model. Different reported variances give multiples of one matrix, so the best line through given data does not depend on them.", "quantifier": "all times, counts and variances (positive, respectively not all zero), any start of the diffusive regime, any curve_fit that minimises the sum of squares", "why_tests_cant": "Tests check that a fit with model=True runs and is of the right size; what enters the fit and what does not is a statement about all variances.", "anchors": ["kinisi/diffusion.py::Bootstrap.generate_covariance_matrix", "kinisi/diffusion.py::_populate_covariance_matrix"]}
{"id": "C109", "title": "Reconditioning the covariance matrix never makes the reported uncertainty smaller", "statement": "Raising the small eigenvalues of the covariance matrix (cond_max) gives no combination of the reported values a smaller variance, and none more than (first eigenvalue)/cond_max times its squared length in addition; a matrix without smaller eigenvalues is left as it is. The weights shrink accordingly, so the variance of the fitted slope, and of the line at any time, is at least the one of the fit without reconditioning.", "quantifier": "all covariance matrices with an orthonormal eigendecomposition in any order, all cond_max, all data with best slopes above zero, with and without intercept", "why_tests_cant": "Tests compare one reconditioned matrix with stored numbers; that the change can only widen the posterior is a statement about all matrices and all data.", "anchors": ["kinisi/diffusion.py::minimum_eigenvalue_method", "kinisi/diffusion.py::Bootstrap.bootstrap_GLS"]}
{"id": "C110", "title": "Posterior predictions centre on the average line and spread as data and lines together", "statement": "On average over the random numbers every row of posterior_predictive is the line with the average posterior slope and intercept; its covariance matrix is the stored covariance matrix of the data plus the covariance of the posterior lines. The n_predictive_samples rows made from one posterior sample are correlated through their common line; rows from different picks are not.", "quantifier": "all posterior samples, times, covariance matrices and numbers of rows, any generator whose picks are uniform and independent and whose noise has mean zero and the requested covariance", "why_tests_cant": "Tests check the shape of the result; its moments are averages over all random numbers.", "anchors": ["kinisi/diffusion.py::Bootstrap.posterior_predictive"]}
{"id": "C111", "title": "The covariance matrix is symmetric, accurate and semidefinite in double precision", "statement": "In double precision the numbers of independent observations are correctly rounded, the covariance matrix built from the variances is exactly symmetric, has exactly the variances on its diagonal, and each entry is right to 2 times 2^-52; where the exact matrix is positive semidefinite, no eigenvalue of the computed one falls below -2^-51 times the sum of the variances.", "quantifier": "all variances that are zero or between 2^-300 and 2^300, all counts between 2^-90 and 2^90, any number of intervals", "why_tests_cant": "Rounding depends on every bit of the inputs; a test compares a few matrices with a tolerance.", "anchors": ["kinisi/diffusion.py::_populate_covariance_matrix", "kinisi/diffusion.py::Bootstrap.generate_covariance_matrix", "kinisi/parser.py::Parser.get_disps"]}
{"id": "C112", "title": "Atoms kept in place are reported as not diffusing; uniform motion is reported as ballistic", "statement": "Read a trajectory with any of the parsers (moves between frames below half a cell) and analyse it. If no followed atom is ever further than r from where it was (relative to the framework), every reported MSD is between 0 and r^2, every reported collective displacement between 0 and N^2 r^2, every reported charge displacement between 0 and N r^2 times the sum of the squared charges; and the slope g of the best line through the reported MSDs (with or without an intercept, from any first interval) satisfies g^2 * Var(dt) <= kappa r^4 / 4 (g^2 * mean(dt^2) <= kappa r^4 without an intercept), kappa being the condition number of the weights: the diffusion coefficient of caged atoms goes to zero as the trajectory gets longer. If instead each atom moves by the same vector at each frame, the MSD of the interval of m frames is the mean squared step times m^2 - (2m-1)/(T-m+1), T being the number of used frames; the second term is the duplicated first frame.", "quantifier": "every trajectory, cell, selection of atoms, sub-sampling, choice of axes, set of intervals, charges and weight matrix", "why_tests_cant": "the bounds are about all trajectories in a cage, of any length, and about any positive definite weights of the fit", "anchors": ["kinisi/parser.py: get_disps, correct_drift", "kinisi/diffusion.py: MSDBootstrap, MSTDBootstrap, MSCDBootstrap, bootstrap_GLS"]}
{"id": "C113", "title": "Linearly spaced intervals are the whole parts of evenly spaced positions, in double precision", "statement": "With spacing='linear', interval number i of the N intervals between the shortest (a frames) and the longest (b frames) is a + i(b-a)/(N-1) rounded down to whole frames. In double precision this fails for some default runs: with 136 frames and n_steps=100 the twelfth interval is 15 frames instead of 16. What holds for all inputs: an interval is the exact one or one frame shorter; shorter only where the exact position is a whole number of frames although the step is not; never when the step is a whole number; no interval is above its exact position or more than one frame below it.", "quantifier": "all time steps (doubles), trajectory lengths below 2^23, min_dt, max_dt and n_steps", "why_tests_cant": "the failures depend on how (b-a)/(N-1) rounds, for each of the sizes", "anchors": ["kinisi/parser.py: Parser.get_time_intervals, Parser.__init__"]}
{"id": "C114", "title": "Collective results along single axes add up", "statement": "Analysing the same displacements along disjoint sets of axes gives collective displacements that add up to those along all of them. This holds for jump diffusion (MSTD) and fails for conductivity (MSCD): the squared charge displacement always sums over x, y and z, so the times, means, variances and observation counts of a conductivity analysis do not depend on the `dimension` option at all, and, with the same random numbers, the conductivity samples along a set of k axes are 3/k times the samples for 'xyz' whatever the data; along one axis they are three times the total conductivity.", "quantifier": "all displacement arrays, charges, axis sets, intervals, fit options and random numbers", "why_tests_cant": "a statement about every trajectory and every pair of axis choices; the tests of the dimension option only check that the constructor runs", "anchors": ["kinisi/diffusion.py: MSTDBootstrap, MSCDBootstrap (line 752), Bootstrap.conductivity"]}
{"id": "C115", "title": "Posterior samples depend on the misfit alone", "statement": "In the sampling of a fit a walker at one straight line takes a proposed line with exactly the Metropolis probability min(1, e^f L'/L), where L is exp(-chi^2/2) of the generalised residuals for rising lines and 0 for falling ones, so that this posterior is in detailed balance; and the determinant of the covariance matrix and the 2 pi factor that enter the log-likelihood change no sample, coefficient, exception or random number of any fit.", "quantifier": "all data, weights, lines (with or without intercept), proposals and random numbers; all fits with any minimiser that is not affected by an additive constant", "why_tests_cant": "Tests run the sampler with one seed and compare sizes or values; that a term of the likelihood has no effect is a statement about every chain.", "anchors": ["kinisi/diffusion.py::Bootstrap.bootstrap_GLS (lines 350-392)"]}
{"id": "C116", "title": "What is reported when frames are stored too rarely", "statement": "However far atoms move between the frames that are used, in a fixed cell every result is exactly the one for the unique shortest path through the same positions: the path that starts with the true one, visits periodic images of the same positions and never moves by more than half a cell along any cell vector between used frames. No path through the same positions has shorter steps. So uniform motion by v cells per used frame appears as uniform motion by v minus the nearest whole number, and the mean squared displacement reported for m used frames never exceeds m^2 times the squared extent of the cell (a quarter of that without a framework), whatever the input. Conversely, if atoms move by less than 1/(2c) of the cell per stored frame, sub_sample_traj=c alters no displacement between the frames still used. That the true mean squared displacement is reported regardless of how rarely frames are stored is refuted: an atom going 9/10 of the cell per frame is reported as if it went 1/10.", "quantifier": "all cells with non-zero volume, numbers of atoms and frames, true trajectories with steps of any size, images handed over, sub-sampling factors, the three interfaces, options in the documented range; all dimension strings, generator states and external routines", "why_tests_cant": "Tests use trajectories stored often enough; that every other trajectory is read as some shortest path, and how large an error that can be, is a statement about all trajectories and all cells.", "anchors": ["kinisi/parser.py::Parser.get_disp (lines 102-130)", "kinisi/parser.py::Parser.get_disps (lines 170-222)", "kinisi/parser.py::ASEParser, PymatgenParser, MDAnalysisParser get_structure_coords_latt (lines 296-326, 442-474, 602-639)", "kinisi/diffusion.py::MSDBootstrap.__init__ (lines 552-602)"]}
{"id": "C117", "title": "Displacement curves never grow faster than ballistic motion allows", "statement": "For every documented input read with multi-origin sampling, let T be the number of used frames and n(m) = T - m + 1 the number of windows of m used frames. The reported mean squared displacements, total displacements and charge displacements v(m) are not negative, and they obey sqrt(n(a+c) v(a+c)) <= sqrt(n(a) v(a)) + sqrt(n(c) v(c)) whenever the intervals a, c and a+c are all reported; so v(c m) <= c^2 v(m) n(m)/n(c m) whenever m and c m are. Without the ratio of the numbers of windows that is refuted: doubling the interval can more than quadruple the reported mean squared displacement.", "quantifier": "all documented frames, cells, selections, options, interfaces, sub-sampling factors, dimension strings, charges, generator states and external routines; all reported intervals; runs without blocking", "why_tests_cant": "Tests compare a few values of one trajectory; an inequality between all pairs of reported intervals for every trajectory cannot be enumerated.", "anchors": ["kinisi/parser.py::Parser.get_disps (lines 170-222)", "kinisi/diffusion.py::MSDBootstrap.__init__ (lines 552-602)", "kinisi/diffusion.py::MSTDBootstrap, MSCDBootstrap (lines 605-782)"]}
{"id": "C118", "title": "An atom named several times in specie_indices counts several times", "statement": "Naming every index of a flat specie_indices list c times as often, in any order, leaves framework, time intervals and times as they are. The reported mean squared displacements stay the same, but their variances are multiplied by (M-1)/(cM-1), where M is the number of observations, as if there were c times as many independent atoms; mean squared total displacements and charge displacements (with one charge for all ions) are c^2 times as large and their variances c^4 times; with at least two indices the numbers of independent observations are c times as large and the same intervals are observed. That only the set of named atoms matters is refuted: one moving atom named twice is reported with four times the total displacement.", "quantifier": "all documented frames, cells, index lists, repetition numbers, options, interfaces, sub-sampling factors, dimension strings, generator states and external routines; multi-origin sampling without blocking", "why_tests_cant": "Tests never repeat an index; the relation holds between two runs for every list, number of repetitions and trajectory.", "anchors": ["kinisi/parser.py::_get_framework (lines 741-764)", "kinisi/parser.py::Parser.get_disps (lines 170-222)", "kinisi/diffusion.py::MSDBootstrap.__init__ (lines 552-602)", "kinisi/diffusion.py::MSTDBootstrap, MSCDBootstrap (lines 605-782)"]}
{"id": "C119", "title": "Vibrations and position errors shift a displacement curve without changing its slope", "statement": "If positions are those of an underlying trajectory plus errors (thermal vibration, rounding, detection noise) that vanish on average and are uncorrelated between used frames, then averaged over runs each reported MSD, MSTD or MSCD equals the value reported for the underlying trajectory plus twice the mean square error of the followed atoms relative to the framework, the same for every interval of at least two frames; for an interval of one frame the shift is smaller by the factor (T-1)/T. A constant shift is taken up entirely by the intercept of the generalised least squares line, its slope (the diffusion coefficient) stays; a line through the origin is affected.", "quantifier": "for all trajectories, cells, interfaces, weighted families of runs, error distributions satisfying the two conditions (errors of different atoms in one frame may be correlated), choices of atoms, framework, axes, charges, intervals and weights of the fit", "why_tests_cant": "It is a statement about averages over arbitrary families of runs and arbitrary noise; a test draws one noise sample and can only compare within statistical error.", "anchors": ["kinisi/parser.py::Parser.get_disps (lines 170-222)", "kinisi/diffusion.py::MSDBootstrap.__init__ (lines 552-602)", "kinisi/diffusion.py::MSTDBootstrap, MSCDBootstrap (lines 605-782)", "kinisi/diffusion.py::Bootstrap.bootstrap_GLS (lines 305-395)"]}
{"id": "C120", "title": "What is reported when frames are not stored at even times", "statement": "The analysis never looks at time stamps: frame f is taken to be f steps after the first. If the frames of a diffusing system were in fact taken at times tau(f) (frames stored twice at restarts, frames lost, an output interval changed on the way), then averaged over runs the reported MSD, MSTD or MSCD for an interval of m frames is the true growth rate times the time that its windows really span on average (with the extra window of C81). It lies between the values for evenly stored frames with the smallest and with the largest spacing; R frames stored twice make it smaller, by at most R (m+1)/(T-m+1) frames' worth. It is not the value of the evenly stored trajectory.", "quantifier": "for all interfaces, cells, atoms, frameworks, axes, charges, weighted families of runs, growth rates, stored times tau (any sequence for the main statement), intervals", "why_tests_cant": "Averages over arbitrary families of runs and arbitrary storing times; a test sees one trajectory with one defect and statistical noise larger than the effect.", "anchors": ["kinisi/parser.py::Parser.__init__ (lines 53-93)", "kinisi/parser.py::Parser.get_disps (lines 170-222)", "kinisi/diffusion.py::MSDBootstrap.__init__ (lines 552-602)", "kinisi/diffusion.py::MSTDBootstrap, MSCDBootstrap (lines 605-782)"]}
{"id": "C121", "title": "Collective displacements refer to the framework, not to the centre of mass", "statement": "In a simulation that keeps the centre of mass at rest, the framework recoils when the followed atoms drift together. If followed atom i has mass m_i and the K framework atoms have mass M each, the reported MSTD for N followed atoms is that of the displacements in the centre-of-mass frame with atom i weighted by 1 + N m_i/(K M), and the reported MSCD that with charge q_i replaced by q_i + Q m_i/(K M), Q being the total charge of the followed atoms. For followed atoms alike this is the constant factor (total mass / framework mass) squared, by which jump diffusion coefficients and conductivities exceed their centre-of-mass values; they are not the centre-of-mass values.", "quantifier": "for all interfaces, cells, trajectories with the centre of mass of followed and framework atoms at rest, masses, charges, axes, intervals", "why_tests_cant": "A statement about every trajectory with a resting centre of mass and all masses and charges; tests compare single trajectories with stored numbers in the same frame.", "anchors": ["kinisi/parser.py::Parser.correct_drift (lines 132-147)", "kinisi/parser.py::Parser.get_disps (lines 170-222)", "kinisi/diffusion.py::MSTDBootstrap.__init__ (lines 605-688)", "kinisi/diffusion.py::MSCDBootstrap.__init__ (lines 691-782)"]}
{"id": "C122", "title": "The likelihood of a line is accurate in double precision", "statement": "The log likelihood that bootstrap_GLS maximises and samples, evaluated in IEEE double precision for n data, is finite and equals the Gaussian log likelihood of the same stored numbers (times, displacements, inverse covariance matrix, log determinant) up to (2n+15) 2^-52 times half of |log determinant| plus the sum over i, j of |w_ij| s_i s_j, where s_i = |g t_i| + |c| + |y_i|; it is minus infinity exactly for negative gradients. This holds in whatever order the matrix products are summed and with or without intercept. Of two lines the one with the larger computed likelihood is the more likely one up to these errors. The error is not small relative to the misfit: a datum very close to the line can count as lying on it.", "quantifier": "for all lines, times and data that are zero or of size 2^-100 to 2^100, matrices and log determinants that are zero or of size 2^-300 to 2^300, up to 2^20 data, all summation orders", "why_tests_cant": "Rounding errors depend on all the numbers involved and on the summation order; tests compare a few fits within loose tolerances.", "anchors": ["kinisi/diffusion.py::Bootstrap.bootstrap_GLS.log_likelihood (lines 354-365)", "kinisi/diffusion.py::_straight_line (lines 857-867)"]}
{"id": "C123", "title": "Charge displacements are accurate in double precision from stored positions on", "statement": "With positions stored as doubles up to whole cells and atoms that move less than (almost) half a cell per frame, the mean squared charge displacements that conductivities are computed from, found in IEEE double precision through unwrapping, drift correction, windows, charges, sums over atoms and averages, are those of the true paths: the root of each is right to (K + 8) 2^-52 of itself for K observations, plus 2 N (N + 1) 2^-52 of the root mean square of charge times displacement of one of the N atoms, plus twice the sum of the sizes of the charges times the rounding error of one displacement, which grows as the square of the number of frames and is given explicitly. This holds in rectangular cells, fixed cells of any shape and, relative to exact arithmetic on the same numbers, in changing cells. The error is not small relative to the mean squared charge displacement itself: where charge displacements cancel exactly, a positive value can be reported.", "quantifier": "for all cells (compact in the sense of C97), up to 2^20 frames, atoms and framework atoms, true paths, charges up to 2^100, options with multi-origin sampling, random generators", "why_tests_cant": "Rounding errors of a whole run depend on every position, charge and frame; tests compare a few runs within loose tolerances.", "anchors": ["kinisi/parser.py::Parser.get_disp (lines 101-130)", "kinisi/parser.py::Parser.correct_drift (lines 132-147)", "kinisi/parser.py::Parser.get_disps (lines 170-222)", "kinisi/diffusion.py::MSCDBootstrap.__init__ (lines 691-782)"]}
{"id": "C124", "title": "Steps with memory: past the memory the curve is straight with the Green-Kubo slope", "statement": "Real steps remember earlier ones (ballistic flight, jumps back), so the displacement curve is curved at short intervals and users fit only from start_dt on. If over runs the average product of the steps after used frames f and f+l is C(l) whatever f, the average over runs of the value the diffusion, jump-diffusion or conductivity analyser reports for an interval of m frames out of T is the mean square M(m) = m C(0) + 2 sum over 0<j<m of (m-j) C(j), mixed with M(m-1) as the repeated first frame does: ((T-m) M(m) + M(m-1)) / (T-m+1). M grows from m to m+1 by C(0) + 2 (C(1) + ... + C(m)), the Green-Kubo sum. If the memory is shorter than J frames, then from J frames on the report is exactly the whole Green-Kubo sum times the C81 interval m - 1/(T-m+1), less the constant 2 sum j C(j): it takes an intercept, and leaving out the intervals below J, to find that slope. Without memory it is the line through the origin; with memory the line from the origin has the wrong slope, however many runs are averaged.", "quantifier": "for all families of runs of any trajectories with weights, number of frames, cells, species, framework, charges, dimensions, intervals, step products C, random generators (multi-origin sampling, no blocking)", "why_tests_cant": "Concerns averages over all runs of arbitrary correlated processes and every interval; tests analyse single stored trajectories.", "anchors": ["kinisi/parser.py::Parser.get_disps (lines 170-222)", "kinisi/diffusion.py::MSDBootstrap.__init__ (lines 552-602)", "kinisi/diffusion.py::MSTDBootstrap, MSCDBootstrap (lines 605-782)"]}
{"id": "C125", "title": "Conductivity data are a sum over pairs of ions", "statement": "Users split a conductivity into contributions of ion species by running the conductivity analysis with the charges of other ions set to zero. For every interval the reported mean squared charge displacement is the sum over pairs of ions (a, b) of charge a times charge b times a number L(a, b) that does not depend on the charges: the average over observations of the scalar product of the two displacements. L is symmetric and the sum is never negative. So with charges q1, q2 and q1 + q2 the value for q1 + q2 minus the other two is twice the sum over pairs across the groups, its square at most four times the product of the other two, and charges added and subtracted obey v(q1+q2) + v(q1-q2) = 2 v(q1) + 2 v(q2). The sum of L(a, a) is the number of ions times the value of the diffusion analysis (dimension xyz), and if no two ions move together on average the charge displacement is the sum of squared charge times L(a, a), for equal charges c the Nernst-Einstein value c^2 N MSD. The values of two groups do not add up to that of both in general.", "quantifier": "for all displacement data with a fixed number of ions, charges (scalar or per ion), options without block averaging, intervals, random generators", "why_tests_cant": "Relates four analyses with arbitrary charges on arbitrary data; a test compares particular numbers.", "anchors": ["kinisi/diffusion.py::MSCDBootstrap.__init__ (lines 723-782)", "kinisi/diffusion.py::MSDBootstrap.__init__ (lines 552-602)", "kinisi/conductivity_analyzer.py::ConductivityAnalyzer"]}
{"id": "C126", "title": "Analysing pieces of a run against analysing it whole", "statement": "Users cut a long run into pieces (block averages, restarts handed over as replicas) or discard its first part as equilibration. For every interval of m used frames, the value reported for the whole run (MSD, MSTD or MSCD) times its number of windows T-m+1 equals the sum over the pieces of their values times their numbers of windows, plus at every cut the m windows that reach across it, less one window of m-1 frames that the piece behind the cut counts twice at its start. Discarding the first c used frames removes exactly the windows that begin in them (and moves the short first window). Pieces of equal length handed over with dtype='identical' report the mean squared displacement of the whole run without what is lost at the cuts. Each piece may be stored in other periodic images. The pieces alone do not determine the whole: halves without motion can belong to a run with motion.", "quantifier": "all trajectories with steps below half a cell, all cells, interfaces, sub-sampling, selections, numbers and lengths of pieces, intervals, axes, charges", "why_tests_cant": "a test compares one cut of one trajectory; the identity holds for every cut and every motion, and its correction terms are small for the long runs used in tests, so that a wrong count of windows would pass within any tolerance", "anchors": ["kinisi/parser.py:170-222", "kinisi/parser.py:131-148", "kinisi/diffusion.py:552-602", "kinisi/diffusion.py:636-688", "kinisi/diffusion.py:723-780", "kinisi/analyzer.py:86-159", "kinisi/analyzer.py:273-290"]}
{"id": "C127", "title": "Centres of molecules are accurate in double precision", "statement": "Computed with rounded arithmetic, the centre of a molecule of n atoms lies in [0,1) per axis and is the copy inside the cell of the true (mass-weighted) centre of mass of the whole molecule up to (3n+8) 2^-52 of the cell, for any positive masses of usual size and any periodic images of the atoms. The first guess from the circular mean may be crude: any number within half a cell, less a thousandth, of every atom gives this accuracy, and three digits of the circular mean suffice for molecules spanning less than half a cell (a guess farther away can put the centre half a cell off). Along a run of at most 2^20 steps in an orthogonal cell the displacements of the molecules differ from those of the true centres by at most ((t+1)^2 2^-49 + 2 (3n+8) 2^-52) of the side after t+1 steps, provided the centres move less than half a cell per step with this margin.", "quantifier": "all doubles for coordinates within two cells, all masses between 2^-300 and 2^300 or none, all images, all molecules of up to 2^40 atoms spanning less than half a cell, all first guesses, all frameworks, all runs of up to 2^20 steps", "why_tests_cant": "rounding at a cell boundary could wrap an atom or the centre to the wrong side by a whole cell for coordinates that no test happens to contain; the bound is over all doubles", "anchors": ["kinisi/parser.py:674-738", "kinisi/parser.py:131-169"]}
{"id": "C128", "title": "Using only every s-th frame", "statement": "Users thin long runs with sub_sample_traj. Take a run of s*H used frames and the s thinned readings of it that use every s-th frame from the first, second, ... s-th on (H frames each). For an interval of s*m frames the value reported for the whole run (MSD, MSTD or MSCD) times its number of windows equals the sum of the values of the thinned readings for m of their frames times their numbers of windows, once the one short window at the start that each of these runs counts in addition is taken off on both sides; so the two agree up to s times the largest squared displacement. For diffusion the whole run reports on average c/(s(H-m)+1) too little (c: mean square per used frame) and each thinned reading c s/(H-m+1), at least s times as much, however many runs are averaged. One thinned reading alone does not determine the value of the whole run: motion between the frames used is missed.", "quantifier": "all trajectories with steps below half a cell between the frames used, all cells, interfaces, strides s and k, lengths, selections, intervals, axes, charges, families of runs with weights", "why_tests_cant": "a test compares one run with one thinned reading within a tolerance wide enough to hide a miscounted window; the identity is over all strides, offsets, intervals and motions", "anchors": ["kinisi/parser.py:295-325", "kinisi/parser.py:441-473", "kinisi/parser.py:170-222", "kinisi/diffusion.py:552-602"]}
{"id": "C129", "title": "Resampling until a normality test is passed", "statement": "Bootstrap.sample_until_normal draws n_resamples resamples and, as long as the normality test rejects and max_resamples is not reached, 100 more, so how many values it returns depends on the values. If each resample is drawn independently with equal probabilities (int(n_samples) of the observations, with replacement), then whatever the normality test: the sum of the returned values is on average the average of the observations times the average number of resamples; the square of the sum minus the number of resamples times the average of the observations is on average Var/int(n_samples) (Var: variance of the observations) times the average number of resamples, and so are the squared deviations of the values from it, summed; in general any function of the values, summed, is on average its average over all possible resamples times the average number of resamples. Hence the average of the returned values misses the average of the observations on average by at most (1/n0 - 1/n1)/2 sqrt(n1) standard deviations of one resample (n0 = n_resamples, n1: the largest possible number of resamples), with the default 1000 and 10000 at most 4.53 % of one. The reported variance of the values (divisor N-1), weighted with N-1, is on average Var/int(n_samples) but for at most one part in n_resamples. The average is not exactly unbiased: with an unfavourable test the observations 0 and 1 give 401/800 on average.", "quantifier": "all observations, sample sizes, numbers of resamples, significance levels, normality tests, families of generator states with weights for which the lists of indices are independent and uniform", "why_tests_cant": "the number of resamples depends on random values and on the p-values; a test with a fixed seed sees one stopped run and cannot tell a bias of the stopping rule from noise", "anchors": ["kinisi/diffusion.py:258-289"]}
{"id": "C130", "title": "Posterior samples convert with the units, sample by sample", "statement": "Fit the same data twice with bootstrap_GLS (or diffusion, jump_diffusion, conductivity), the second time with the mean-squared displacements multiplied by s > 0, their variances by s^2, and the times (also start_dt) by t > 0, the same random state and otherwise the same options. If the linear algebra converts (eigenvalues, nearest covariance matrix, inverse), the fitted variance model converts when it is used, the minimiser ends at the same line, and emcee's proposals and check of the start positions do not depend on the units, then the covariance matrix is multiplied by s^2 and the two runs make the same decisions throughout: the two chains have the same length, every sampled gradient of the second is s/t times that of the first, every intercept s times, every sample of D and D_J s/t times, every sample of the conductivity s/(t v) times (the volume being multiplied by v), and the random generator ends in the same state. The samples of posterior_predictive are then multiplied by s as well, and it fails for both or for neither. The number 1e-20 that the code uses in whatever unit (in place of a negative slope, and as start of the intercept) affects nothing but the place where the minimiser starts.", "quantifier": "all data, options, start indices, scale factors s, t > 0, generator states, numbers of walkers, samples and burn-in; all libraries that commute with the change of units", "why_tests_cant": "a test compares two fits of one data set in one pair of units, and up to rounding; it cannot show that every accept/reject decision of every chain agrees for every pair of units", "anchors": ["kinisi/diffusion.py:305-395", "kinisi/diffusion.py:397-425", "kinisi/diffusion.py:427-482", "kinisi/diffusion.py:492-521"]}
