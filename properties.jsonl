{"id": "C01", "title": "Building a catalog from several arrays keeps every column", "statement": "Catalog(a1, ..., an) either raises (arrays of different length, or two arrays that carry the same column name up to case) or returns a catalog whose columns are exactly the columns of a1, then of a2, ..., each under its lower-cased name with its values unchanged and in row order. No column is ever silently overwritten or dropped.", "quantifier": "all lists of arrays, all column names and cases, all lengths", "why_tests_cant": "a test tries a few pairs of dtypes; the claim is about any number of arrays and any collision pattern, including collisions between the second and third array only", "anchors": ["redmapper/catalog.py:DataObject.__init__", "redmapper/catalog.py:DataObject._merge_arrays", "redmapper/catalog.py:DataObject._lower_array"]}
{"id": "C02", "title": "add_fields never changes existing data", "statement": "After cat.add_fields(dtype) every pre-existing column has the same values, every new column exists and is all zero, and the number of rows is unchanged; a name that is already present is rejected rather than zeroed.", "quantifier": "all catalogs and all lists of new fields", "why_tests_cant": "needs every combination of old and new names", "anchors": ["redmapper/catalog.py:DataObject.add_fields"]}
{"id": "C03", "title": "to_fits_file(indices=...) writes exactly the selected rows", "statement": "cat.to_fits_file(f, indices=idx) leaves in f the rows cat[idx], in the order of idx, for every index array including the empty one.", "quantifier": "all catalogs (of every size, including one row) and all index arrays", "why_tests_cant": "the failing case depends on a table that happens to have one row, which pixel-level outputs reach only for unlucky pixels", "anchors": ["redmapper/catalog.py:DataObject.to_fits_file"]}
{"id": "C04", "title": "Appending and extending catalogs keeps every row", "statement": "After any sequence of append(other) and extend(n) calls the catalog has the same columns and holds the initial rows followed, in call order, by the rows of each appended catalog and by n zero rows for each extend; selecting rows with cat[indices] returns exactly those rows in that order.", "quantifier": "all histories of append/extend calls", "why_tests_cant": "histories are unbounded", "anchors": ["redmapper/catalog.py:Catalog.append", "redmapper/catalog.py:Catalog.extend"]}
{"id": "C05", "title": "Galaxy catalog maker conserves galaxies (serial)", "statement": "After any sequence of append_galaxies calls in serial mode, the file of sky pixel p holds exactly the appended galaxies whose position lies in p, chunk after chunk in append order, each once; galaxies of rejected chunks appear nowhere, and the master table written by finalize_catalog lists every non-empty pixel once with ngals equal to the number of rows in its file.", "quantifier": "all sequences of chunks of galaxies, all pixelisations", "why_tests_cant": "ranges over unbounded append histories", "anchors": ["redmapper/galaxy.py:GalaxyCatalogMaker.append_galaxies", "redmapper/galaxy.py:GalaxyCatalogMaker.finalize_catalog"]}
{"id": "C06", "title": "Galaxy ids are unique in a finalized galaxy catalog", "statement": "If finalize_catalog returns normally, every galaxy in the pixel files has a distinct id; when ids were to be generated they are exactly 1..N. If ids are not unique the call raises and leaves no master table that a later reader could open.", "quantifier": "all pixel-file contents", "why_tests_cant": "the failure needs duplicated ids in an input and then a later reader", "anchors": ["redmapper/galaxy.py:GalaxyCatalogMaker.finalize_catalog"]}
{"id": "C07", "title": "Parallel galaxy catalog making loses no galaxies", "statement": "When any number of processes append galaxies concurrently in parallel mode, in every interleaving, every pixel file always contains exactly the galaxies whose appends have completed, plus nothing else: no append overwrites another one.", "quantifier": "all numbers of processes, all append queues, all interleavings of their file operations", "why_tests_cant": "schedules cannot be enumerated by tests", "anchors": ["redmapper/galaxy.py:GalaxyCatalogMaker.append_galaxies", "redmapper/utilities.py:make_lockfile"]}
{"id": "C08", "title": "make_lockfile gives mutual exclusion", "statement": "At any time at most one caller holds a given lock file: make_lockfile returns True to a process only if no other process holds the lock, the lock stays held until it is removed by its holder, a call that gives up leaves no temporary file behind, and a non-blocking call fails only if the lock existed.", "quantifier": "all numbers of callers, all interleavings of their system calls, all numbers of retries", "why_tests_cant": "race conditions", "anchors": ["redmapper/utilities.py:make_lockfile"]}
{"id": "C09", "title": "The zred master table is made only from complete pixels", "statement": "When zred pixel tasks run concurrently from an empty output directory, the master zred table is written only at a moment when every pixel of the galaxy table has its complete zred file and no task is still writing one; and if every task runs to completion and obtains the final lock, the table is written.", "quantifier": "all numbers of pixels and tasks, all interleavings", "why_tests_cant": "schedules; also crash points that leave locks or files of an earlier run", "anchors": ["redmapper/pipeline/zredtask.py:RunZredPixelTask.run", "redmapper/zred_runner.py:ZredRunPixels.make_zred_table"]}
{"id": "C10", "title": "Reading a pixelized galaxy file returns exactly the galaxies of the region", "statement": "GalaxyCatalog.from_galfile(master, hpix, nside, border) returns every galaxy stored in the pixel files that lies in the requested pixels or their border and no other galaxy, each with its own zred record when zreds are read (from zred files with one record per galaxy); reading with the in-memory cuts of a temporary file returns the same rows as reading everything and cutting afterwards.", "quantifier": "all galaxy tables, all pixel files, all requested regions", "why_tests_cant": "depends on the alignment of many files", "anchors": ["redmapper/galaxy.py:GalaxyCatalog.from_galfile", "redmapper/cluster_runner.py:ClusterRunner._setup"]}
{"id": "C11", "title": "Invalid region requests are rejected with the documented error", "statement": "from_galfile raises ValueError for a negative border or a pixel out of range for nside or nside above the table's resolution, NotImplementedError for a border with several pixels, and an error when no pixel of the request is available, and never returns galaxies for such a request.", "quantifier": "all argument combinations", "why_tests_cant": "combinatorial argument space", "anchors": ["redmapper/galaxy.py:GalaxyCatalog.from_galfile", "redmapper/utilities.py:get_healsparse_subpix_indices"]}
{"id": "C12", "title": "zred chunks cover every galaxy exactly once", "statement": "ZredRunCatalog.run splits the ngal galaxies of a file among nproc processes so that every galaxy index 0..ngal-1 is in exactly one chunk, for every ngal >= 0 and nproc >= 1.", "quantifier": "all ngal and nproc", "why_tests_cant": "the boundary (fewer galaxies than processes) is never exercised by the test data", "anchors": ["redmapper/zred_runner.py:ZredRunCatalog.run"]}
{"id": "C13", "title": "Percolation never assigns a galaxy more than once in total", "statement": "During a percolation run the accumulated membership probability of every galaxy stays in [0,1], so that the free probability handed to the next cluster is in [0,1], for every order and number of clusters.", "quantifier": "all lists of clusters with overlapping members and probabilities in [0,1]", "why_tests_cant": "needs several overlapping clusters whose probabilities add up above one", "anchors": ["redmapper/cluster_runner.py:ClusterRunner.run", "redmapper/run_percolation.py:RunPercolation._process_cluster"]}
{"id": "C14", "title": "Every cluster of a run has its own id", "statement": "After a run's id generation step either every cluster has a distinct mem_match_id or the run has stopped with RuntimeError; ids supplied by the user are kept when they are usable.", "quantifier": "all input id columns", "why_tests_cant": "all collision patterns", "anchors": ["redmapper/cluster_runner.py:ClusterRunner._generate_mem_match_ids"]}
{"id": "C15", "title": "The output catalog and member list of a run are consistent", "statement": "After a run, the catalog holds exactly the processed clusters whose richness is at least the minimum, in their order, and the member list holds exactly the members of those clusters: no member of a dropped cluster and no missing member.", "quantifier": "all result lists and richness cuts", "why_tests_cant": "all patterns of dropped clusters", "anchors": ["redmapper/cluster_runner.py:ClusterRunner._postprocess", "redmapper/cluster_runner.py:ClusterRunner.output"]}
{"id": "C16", "title": "The richness solver terminates on a bracketed root", "statement": "solver_nfw always terminates and returns either -1 (no cluster) or a richness in [1, 2000); when the richness equation out(x)=x has a single crossing x* >= 1 in the search range the returned value is within the tolerance of x*.", "quantifier": "all richness curves", "why_tests_cant": "continuum of curves; the failing ones live close to richness 1", "anchors": ["redmapper/solver_nfw/solver_nfw.c:solver_nfw"]}
{"id": "C17", "title": "Membership probabilities and weights are bounded", "statement": "For every galaxy the membership probability p returned by the richness solver lies in [0,1] and its weight satisfies 0 <= wt <= w where w is the input weight, whatever the filter and background values; a galaxy with zero filter value or infinite background gets 0.", "quantifier": "all non-negative filters, backgrounds, weights, richness values", "why_tests_cant": "continuous domain incl. degenerate values", "anchors": ["redmapper/solver_nfw/nfw_weights.c:nfw_weights"]}
{"id": "C18", "title": "calc_richness accounts for every neighbor", "statement": "After calc_richness, galaxies outside the cuts have membership 0, memberships outside r_lambda or unusable galaxies are 0, the scale value times the sum of memberships reproduces the richness in absolute value, and a failed measurement is flagged by richness -1 and scaleval -1.", "quantifier": "all neighbor lists", "why_tests_cant": "all neighbor configurations", "anchors": ["redmapper/cluster.py:Cluster.calc_richness"]}
{"id": "C19", "title": "The completeness weight is a proper weight", "statement": "calc_theta_i returns values in [0,1]: exactly 0 for galaxies fainter than the limit, 1 when the galaxy is at least five errors brighter than the cut, and it does not increase with magnitude at fixed error.", "quantifier": "all magnitudes, errors, limits", "why_tests_cant": "continuous domain", "anchors": ["redmapper/utilities.py:calc_theta_i"]}
{"id": "C20", "title": "A cluster's derived quantities follow its redshift", "statement": "After assigning cluster.redshift, mstar, the angular scale and the projected radius of every neighbor correspond to the new redshift; negative redshifts are rejected and leave the cluster unchanged; radii are at least 1e-6.", "quantifier": "all histories of redshift assignments and neighbor updates", "why_tests_cant": "histories", "anchors": ["redmapper/cluster.py:Cluster.redshift", "redmapper/cluster.py:Cluster.set_neighbors"]}
{"id": "C21", "title": "The redshift neighbor selection is well-formed", "statement": "The neighbor set used for a cluster redshift holds only galaxies within the radius and magnitude cuts with positive weight, has at least three of them, and when fewer than three are usable the redshift measurement fails with -1.", "quantifier": "all neighbor lists", "why_tests_cant": "all weight configurations", "anchors": ["redmapper/zlambda.py:Zlambda._zlambda_select_neighbors"]}
{"id": "C22", "title": "A failed cluster redshift is reported as -1", "statement": "calc_zlambda performs a bounded number of iterations, and whenever one of its iterations fails to measure a redshift the returned redshift and error are -1; a returned positive redshift lies within the range scanned.", "quantifier": "all measurement histories", "why_tests_cant": "needs a failure on a specific iteration", "anchors": ["redmapper/zlambda.py:Zlambda.calc_zlambda", "redmapper/zlambda.py:Zlambda._zlambda_calcz"]}
{"id": "C23", "title": "Redshift corrections keep errors and probabilities proper", "statement": "apply_correction never reduces the redshift error, keeps the probability distribution normalised, runs a fixed number of steps, and works with and without p(z) information and with and without error correction.", "quantifier": "all redshifts, richnesses, option combinations", "why_tests_cant": "option combinations and continuous values", "anchors": ["redmapper/zlambda.py:ZlambdaCorrectionPar.apply_correction"]}
{"id": "C24", "title": "The redshift probability grid is centred and normalised", "statement": "The p(z) grid reported for a cluster is strictly increasing with uniform spacing between the documented limits, its middle point is z_lambda, and p(z) is non-negative with unit integral.", "quantifier": "all z_lambda, errors, grid sizes", "why_tests_cant": "continuous", "anchors": ["redmapper/zlambda.py:Zlambda._zlambda_calc_pz"]}
{"id": "C25", "title": "Centering probabilities form a distribution", "statement": "When a center is found the reported p_cen values are in [0,1] and sum to 1, q_cen values are in [0,1] and q_cen together with q_miss sums to 1, and for each candidate p_cen, p_sat and p_fg sum to 1.", "quantifier": "all candidate likelihood values and candidate numbers", "why_tests_cant": "products over unboundedly many candidates", "anchors": ["redmapper/centering.py:CenteringWcenZred.find_center"]}
{"id": "C26", "title": "The most likely center is listed first", "statement": "The candidate list has at most percolation_maxcen entries, sorted by decreasing center probability, the first being the one used as cluster center, and every entry is a galaxy satisfying the candidate cuts; without a usable candidate find_center returns False.", "quantifier": "all neighbor lists", "why_tests_cant": "all orderings and the empty case", "anchors": ["redmapper/centering.py:CenteringWcenZred.find_center"]}
{"id": "C27", "title": "BCG centering returns the brightest eligible galaxy", "statement": "CenteringBCG.find_center returns a galaxy inside the radius that passes the membership or redshift test and no eligible galaxy is brighter; it returns False exactly when none is eligible.", "quantifier": "all neighbor lists", "why_tests_cant": "all neighbor lists", "anchors": ["redmapper/centering.py:CenteringBCG.find_center"]}
{"id": "C28", "title": "Random satellite centering picks an actual candidate", "statement": "CenteringRandomSatellite returns False or picks a neighbor that has positive membership probability, for every random draw in [0,1).", "quantifier": "all membership vectors and all random draws", "why_tests_cant": "edge draws have measure zero", "anchors": ["redmapper/centering.py:CenteringRandomSatellite.find_center"]}
{"id": "C29", "title": "The volume-limit mask gives the largest complete redshift", "statement": "At every unmasked sky pixel the volume-limit redshift is the largest bin redshift at which an m* galaxy of the luminosity threshold is still brighter than the depth in every requested band; pixels complete at no redshift are masked.", "quantifier": "all depth maps, bands, thresholds", "why_tests_cant": "all depth values, incl. uncovered pixels", "anchors": ["redmapper/volumelimit.py:VolumeLimitMask._build_mask"]}
{"id": "C30", "title": "Effective areas are areas", "statement": "The effective area as a function of redshift (volume limit mask) or magnitude (depth map) is the total fractional area of the pixels complete at that redshift or depth: between 0 and the total area, non-increasing, and 0 beyond the deepest pixel.", "quantifier": "all masks and all query values", "why_tests_cant": "needs an independent computation for arbitrary masks", "anchors": ["redmapper/volumelimit.py:VolumeLimitMask.get_areas", "redmapper/depthmap.py:DepthMap.calc_areas"]}
{"id": "C31", "title": "Background lookup uses the right bin", "statement": "Background.sigma_g_lookup(z, chisq, refmag) returns the tabulated density of the bin containing (z, chisq, refmag) and inf (never a neighbouring or unrelated bin) when chisq or refmag is outside the table or the bin is empty.", "quantifier": "all tables and all query points incl. bin edges", "why_tests_cant": "edge points", "anchors": ["redmapper/background.py:Background.sigma_g_lookup"]}
{"id": "C32", "title": "zred background lookup flags values outside the table", "statement": "ZredBackground.sigma_g_lookup returns the tabulated density of the bin containing (zred, refmag) and inf when either is outside of the table.", "quantifier": "all query points", "why_tests_cant": "edge points", "anchors": ["redmapper/background.py:ZredBackground.sigma_g_lookup"]}
{"id": "C33", "title": "The background generator computes every redshift bin once and counts every galaxy", "statement": "The redshift bins are divided among the worker processes so that every bin is handled by exactly one worker, for every number of bins and workers, and each worker counts every galaxy of the catalog, pixelized or not.", "quantifier": "all bin counts, worker counts, catalogs", "why_tests_cant": "rounding of edges, non-pixelized input", "anchors": ["redmapper/background.py:BackgroundGenerator.run", "redmapper/background.py:BackgroundGenerator._worker"]}
{"id": "C34", "title": "Random points obey the mask", "statement": "generate_randoms writes exactly nrandoms points with consecutive ids from 1, each point inside the geometry mask with a redshift below the maximum redshift at its own position.", "quantifier": "all masks, random streams, redshift lists", "why_tests_cant": "requires masks with holes and varying maximum redshift", "anchors": ["redmapper/randoms.py:GenerateRandoms.generate_randoms", "redmapper/redmagic/redmagic_randoms.py:RedmagicGenerateRandoms.generate_randoms"]}
{"id": "C35", "title": "Random weights preserve the number of randoms", "statement": "In the weighted random catalog the weights of the kept randoms attached to a given cluster sum to the number of randoms generated for that cluster, and every kept random passes the richness and mask cuts.", "quantifier": "all random catalogs", "why_tests_cant": "all group structures", "anchors": ["redmapper/randoms.py:RandomWeigher.weight_randoms"]}
{"id": "C36", "title": "Consolidation renumbers clusters and members consistently", "statement": "After consolidating per-pixel catalogs, ids are exactly 1..n in decreasing likelihood order, every kept cluster appears once with its data, and each member of a kept cluster carries the new id of its own cluster; members of dropped clusters are absent.", "quantifier": "all sets of per-pixel catalogs", "why_tests_cant": "all combinations of per-pixel contents, with ids clashing between pixels", "anchors": ["redmapper/redmapper_run.py:RedmapperRun._consolidate", "redmapper/pipeline/redmapperconsolidatetask.py:RedmapperConsolidateTask.run"]}
{"id": "C37", "title": "The consolidated richness cut uses each cluster's own scale value", "statement": "In every consolidated output with a richness cut, a cluster is kept iff its own richness divided by its own scale value passes the cut and its redshift is within its own volume limit, and its member list is complete.", "quantifier": "all per-pixel catalogs", "why_tests_cant": "row alignment after cuts", "anchors": ["redmapper/pipeline/redmapperconsolidatetask.py:RedmapperConsolidateTask.run"]}
{"id": "C38", "title": "A restarted run produces what an uninterrupted run produces", "statement": "If a pixel worker is killed at any point and the run is repeated, the final files contain what an uninterrupted run would have produced, and finished steps are not recomputed.", "quantifier": "all crash points between file operations and all restart histories", "why_tests_cant": "crash points", "anchors": ["redmapper/redmapper_run.py:RedmapperRun._worker", "redmapper/pipeline/redmappertask.py:RunRedmapperPixelTask.run"]}
{"id": "C39", "title": "The sky is split into pixels that cover it exactly once", "statement": "For any number of processes the run is split at the finest allowed resolution that stays within the limit, and every galaxy-table pixel of the requested region belongs to exactly one of the split pixels.", "quantifier": "all process counts and tables", "why_tests_cant": "all tables", "anchors": ["redmapper/redmapper_run.py:RedmapperRun._get_pixel_splits", "redmapper/redmapper_run.py:RedmapperRun._get_subpixels", "redmapper/utilities.py:get_hpmask_subpix_indices"]}
{"id": "C40", "title": "Configurations are independent", "statement": "Setting an option on one Configuration or on its copy never changes another Configuration; loading a configuration rejects unknown options and values of the wrong length or type, and options not mentioned have their documented defaults.", "quantifier": "all sequences of create/copy/set operations", "why_tests_cant": "histories with several live objects", "anchors": ["redmapper/configuration.py:ConfigField", "redmapper/configuration.py:Configuration", "redmapper/configuration.py:DuplicatableConfig"]}
{"id": "C41", "title": "Fitting a red sequence evaluates a fixed objective", "statement": "The value of the red-sequence likelihood at given parameters does not depend on how many times it was evaluated before, and a fit leaves the input data unchanged.", "quantifier": "all histories of objective evaluations", "why_tests_cant": "histories", "anchors": ["redmapper/fitters.py:RedSequenceFitter.__call__"]}
{"id": "C42", "title": "Linear interpolation is exact at nodes and linear between", "statement": "interpol(v, x, u) returns v[i] at u=x[i], lies between v[i] and v[i+1] for u between x[i] and x[i+1], and continues the first and last segments linearly outside, for every increasing x with at least two nodes.", "quantifier": "all node tables and queries", "why_tests_cant": "continuous", "anchors": ["redmapper/utilities.py:interpol"]}
{"id": "C43", "title": "Spline nodes span the requested range", "statement": "make_nodes(zrange, nodesize, maxnode) returns strictly increasing nodes starting at zrange[0] and ending at zrange[1] when maxnode is not given, and including maxnode's endpoint otherwise.", "quantifier": "all ranges, node sizes and maxnodes", "why_tests_cant": "floating point remainders, short ranges", "anchors": ["redmapper/utilities.py:make_nodes"]}
{"id": "C44", "title": "Cloud-in-cell counts conserve weight", "statement": "cic distributes the value of each sample over neighbouring cells with non-negative weights that sum to one, so the sum of the field equals the sum of the values (with wraparound), and never writes outside the grid.", "quantifier": "all positions, values, grid sizes, dimensions 1-3", "why_tests_cant": "continuous positions incl. edges", "anchors": ["redmapper/utilities.py:cic"]}
{"id": "C45", "title": "Red-sequence tables are looked up at the right redshift", "statement": "zindex(z) returns, for each redshift within the table, the index of the nearest tabulated redshift, is non-decreasing, never out of bounds, and returns the overflow bin above the table.", "quantifier": "all tables and redshifts", "why_tests_cant": "continuous", "anchors": ["redmapper/redsequence.py:RedSequenceColorPar.zindex"]}
{"id": "C46", "title": "Red-sequence covariance matrices are valid", "statement": "Every covariance matrix built from the calibration parameters is symmetric, has variance at least the minimum and correlations within [-0.99,0.99], so every 2x2 principal minor is positive.", "quantifier": "all parameter files", "why_tests_cant": "all parameter values", "anchors": ["redmapper/redsequence.py:RedSequenceColorPar.__init__"]}
{"id": "C47", "title": "chi-squared values are non-negative and consistent between modes", "statement": "The color covariance assembled for a galaxy is symmetric and positive semi-definite, so chi-squared is non-negative; evaluating many galaxies at once gives the same values as evaluating each galaxy alone, in all three modes.", "quantifier": "all magnitudes errors, slopes, covariance tables", "why_tests_cant": "continuous inputs and mode combinations", "anchors": ["redmapper/chisq_dist/chisq_dist.c:chisq_dist", "redmapper/chisq_dist/chisq_dist_lib.py:compute_chisq"]}
{"id": "C48", "title": "Failed photometric redshifts are recognisable", "statement": "A galaxy whose zred could not be computed has zred = -1 (and the documented bad values) in the output; good galaxies have zred_e >= 0.005; computing a whole catalog in bulk gives the same values as computing one galaxy at a time.", "quantifier": "all galaxies", "why_tests_cant": "all combination of failing and good galaxies", "anchors": ["redmapper/zred_color.py:ZredColor.compute_zreds", "redmapper/zred_color.py:ZredColor.compute_zred"]}
{"id": "C49", "title": "Depth maps and the error model agree at the limiting magnitude", "statement": "The photometric error model gives exactly the n-sigma error at the limiting magnitude, and errors increase with magnitude and decrease with exposure time.", "quantifier": "all zero points, limiting magnitudes, exposure times", "why_tests_cant": "continuous", "anchors": ["redmapper/depth_fitting.py:calcErrorModel", "redmapper/utilities.py:apply_errormodels"]}
{"id": "C50", "title": "redMaGiC selection returns exactly the galaxies passing the cuts", "statement": "select_redmagic_galaxies(gals, mode) returns exactly the galaxies with chi-squared below the mode's threshold at their redshift, brighter than the luminosity cut, with redshift below the volume limit and in range, with corrected redshifts attached to the right galaxy; unknown modes raise RuntimeError.", "quantifier": "all galaxy catalogs and modes", "why_tests_cant": "row alignment for all catalogs", "anchors": ["redmapper/redmagic/redmagic_selector.py:RedmagicSelector.select_redmagic_galaxies"]}
{"id": "C51", "title": "Color calibration visits every color once, outward from the reference band", "statement": "Diagonal red-sequence calibration processes every color index exactly once, and when a color is processed the error ratio of the band it shares with previously processed colors is already known.", "quantifier": "all numbers of bands and reference bands", "why_tests_cant": "all sizes", "anchors": ["redmapper/calibration/redsequencecal.py:RedSequenceCalibrator._calc_diagonal_pars"]}
{"id": "C52", "title": "Member preparation attaches each member to its own cluster", "statement": "Each row of the prepared member catalog carries the redshift of its own cluster and its own photometry; exactly the members passing the cuts are kept.", "quantifier": "all cluster and member catalogs", "why_tests_cant": "alignment for all orderings", "anchors": ["redmapper/calibration/prepmembers.py:PrepMembers.run"]}
{"id": "C53", "title": "Catalog mode iterations are bounded and flag failures", "statement": "RunCatalog on a cluster performs at most maxiter iterations, and reports a cluster as good only if its final mask fraction, richness and redshift are all usable.", "quantifier": "all measurement functions", "why_tests_cant": "all convergence behaviours", "anchors": ["redmapper/runcat.py:RunCatalog._process_cluster"]}
{"id": "C54", "title": "Cluster likelihood is bounded by the excluded members", "statement": "The richness part of the log-likelihood, -(sum p) - sum log(1-p), is at least minus the sum of the membership probabilities it excludes from the logarithm; it is finite for p<1.", "quantifier": "all membership probabilities", "why_tests_cant": "continuous", "anchors": ["redmapper/run_likelihoods.py:RunLikelihoods._process_cluster"]}
{"id": "C55", "title": "Mask tests and mask fractions are proper", "statement": "compute_radmask never accepts a point where the mask is zero or undefined and always accepts one where the fraction is one; reported mask fractions lie in [0,1].", "quantifier": "all masks and random draws", "why_tests_cant": "all masks", "anchors": ["redmapper/mask.py:HPMask.compute_radmask", "redmapper/cluster_runner.py:ClusterRunner.run"]}
{"id": "C56", "title": "read_members reads the member file belonging to a catalog", "statement": "For every catalog file base.fit, read_members reads base_members.fit.", "quantifier": "all file names", "why_tests_cant": "only names ending in particular letters fail", "anchors": ["redmapper/utilities.py:read_members"]}
{"id": "C57", "title": "Batch submission never overwrites an existing job", "statement": "redmapper_batch writes a job file whose name is not in use, for every set of existing job files, and its job array covers every pixel of the catalog exactly once.", "quantifier": "all sets of existing job files and pixel tables", "why_tests_cant": "needs more than nine job files", "anchors": ["bin/redmapper_batch.py"]}
{"id": "C58", "title": "Spectroscopic training galaxies are selected in exactly one redshift interval", "statement": "Every training galaxy inside the redshift range is assigned to exactly one interval between the color-mode boundaries and is tested with that interval's color cut.", "quantifier": "all boundaries and redshifts", "why_tests_cant": "boundary values", "anchors": ["redmapper/calibration/selectspecred.py:SelectSpecRedGalaxies.run", "redmapper/run_colormem.py:RunColormem._process_cluster"]}
{"id": "C59", "title": "The redshift scan keeps the best redshift", "statement": "RunZScan ends with the redshift of maximal likelihood among those scanned and reports the cluster bad exactly when no scanned redshift gives a usable richness.", "quantifier": "all likelihood curves", "why_tests_cant": "all curves", "anchors": ["redmapper/run_zscan.py:RunZScan._process_cluster"]}
{"id": "C60", "title": "Calibration catches negative corrected redshifts", "statement": "The calibration iteration stops with RuntimeError whenever the calibrated correction produces a negative redshift for any cluster.", "quantifier": "all catalogs", "why_tests_cant": "failure of any one row", "anchors": ["redmapper/calibration/calibrate.py:RedmapperCalibrationIteration.run"]}
{"id": "C61", "title": "Assigning a catalog attribute sets exactly that column", "statement": "cat.col = value replaces the values of that column (matched case-insensitively) and nothing else; a scalar fills the column; a sequence whose length differs from the catalog's is rejected.", "quantifier": "all catalogs, names and values", "why_tests_cant": "all name/length combinations; the failing length is one", "anchors": ["redmapper/catalog.py:DataObject.__setattr__", "redmapper/catalog.py:DataObject.__getattr__"]}
{"id": "C62", "title": "Parallel finalisation recounts the right pixels", "statement": "finalize_catalog of a parallel GalaxyCatalogMaker records in the master table, for every pixel file written, the pixel number that is in the file's name and the number of rows of that file, for every output path.", "quantifier": "all output paths and all sets of pixel files", "why_tests_cant": "depends on the spelling of the output path", "anchors": ["redmapper/galaxy.py:GalaxyCatalogMaker.finalize_catalog"]}
{"id": "C63", "title": "Colour background lookups use the right bin", "statement": "ColorBackground.sigma_g_diagonal returns the density of the bin containing (colour, refmag) and inf outside of the table or in an empty bin; lookup_offdiag returns the normalised density of the bin containing (colour 1, colour 2, refmag), whichever of the two colours is named first.", "quantifier": "all tables, all query points, both orders of the colours", "why_tests_cant": "edge points; tests use one order of the colours", "anchors": ["redmapper/color_background.py:ColorBackground.sigma_g_diagonal", "redmapper/color_background.py:ColorBackground.lookup_offdiag"]}
{"id": "C64", "title": "Centering leaves the neighbors' photometric redshifts alone", "statement": "find_center does not change the photometric redshifts, errors or chi-squares of the cluster's neighbors, with or without spectroscopic redshifts in use.", "quantifier": "all neighbor lists and both settings of centering_use_zspec", "why_tests_cant": "aliasing shows only when spectra are used and the neighbors are looked at afterwards", "anchors": ["redmapper/centering.py:CenteringBCG.find_center", "redmapper/centering.py:CenteringWcenZred.find_center"]}
{"id": "C65", "title": "An explicit magnitude limit is used", "statement": "calc_zlambda called with a magnitude limit selects the galaxies for the redshift with that limit, and without one with the limit of the redshift at which it works.", "quantifier": "all limits, redshifts and measurement histories", "why_tests_cant": "the limit matters only from the second iteration on", "anchors": ["redmapper/zlambda.py:Zlambda.calc_zlambda"]}
{"id": "C66", "title": "Centering calibration file sets each centering option", "statement": "When a configuration names a centering calibration file, every centering option is set to the value recorded for it in that file.", "quantifier": "all centering files, with and without the phi1 columns, and all previous settings", "why_tests_cant": "tests compare a few options with one file; an option wired to the wrong column looks plausible whenever the two columns are close", "anchors": ["redmapper/configuration.py:Configuration._wcen_vals", "redmapper/configuration.py:Configuration.set_wcen_vals"]}
{"id": "C67", "title": "Fit results are cut from the parameter vector in the right places", "statement": "For every choice of quantities to fit and every number of nodes, a red-sequence fit hands the optimiser one bound per parameter and returns the pieces of its answer for mean, slope and scatter in their own slots; fitting nothing is an error.", "quantifier": "all combinations of fit flags, node counts and optimiser answers", "why_tests_cant": "tests use a few combinations and node counts; a shifted index shows up only for others", "anchors": ["redmapper/fitters.py:RedSequenceFitter.fit"]}
{"id": "C68", "title": "Two-color covariance is invertible in the off-diagonal fit", "statement": "For every correlation parameter, intrinsic width and photometric error, the covariance matrix of two colors has a positive determinant, the metric used is its inverse, and the log-density exponent is never positive.", "quantifier": "all real parameters", "why_tests_cant": "continuum of inputs; near-singular matrices are rare in test data", "anchors": ["redmapper/fitters.py:RedSequenceOffDiagonalFitter.__call__"]}
{"id": "C69", "title": "Two-component color fit returns the red component second", "statement": "Fitting two color components returns them in order of mean color, each with its own weight and width, the weights adding to one, and leaves the data as they were.", "quantifier": "all data, offsets and optimiser answers, including failure", "why_tests_cant": "the order only matters when the optimiser swaps components, which a fixed data set does not", "anchors": ["redmapper/fitters.py:EcgmmFitter.fit"]}
{"id": "C70", "title": "Red sequence outside the calibrated redshifts", "statement": "When a red-sequence file names a template, rows inside the calibrated redshifts are kept as calibrated; outside, slope and pivot magnitude have the value of the nearest calibrated row and colors follow the template with the offset of the nearest calibrated row, so that they join continuously.", "quantifier": "all redshift tables, calibrated ranges and templates", "why_tests_cant": "needs every position of the calibrated range within the table", "anchors": ["redmapper/redsequence.py:RedSequenceColorPar.__init__"]}
{"id": "C71", "title": "The chi-squared routine never reads outside the arrays it is given", "statement": "Whenever compute_chisq accepts its arguments (its shape checks raise nothing), every element the compiled routine reads lies inside the corresponding array, and the returned values depend on nothing else", "quantifier": "all array shapes, all three modes, any number of colors, galaxies and redshifts", "why_tests_cant": "an out-of-range read usually returns a plausible number; tests use a handful of matching shapes and cannot see memory", "anchors": ["redmapper/chisq_dist/chisq_dist_lib.py: compute_chisq", "redmapper/chisq_dist/chisq_dist.c: chisq_dist"]}
{"id": "C72", "title": "The depth fit recovers the depth behind the data", "statement": "calcErrorModel fits only real, positive-error measurements above the signal-to-noise cut and below the 98th percentile; when the errors follow a depth exactly, that depth and no other minimises the fitted function; and for every catalog the fit either answers or sets its failure flag, so that DepthLim raises RuntimeError at start-up and falls back on the survey's depth afterwards.", "quantifier": "all catalogs, depths, zero points and exposure times", "why_tests_cant": "continuous parameters; catalogs without a usable galaxy are not in the test data", "anchors": ["redmapper/depth_fitting.py:calcErrorModel", "redmapper/depth_fitting.py:DepthFunction", "redmapper/depth_fitting.py:DepthLim"]}
{"id": "C73", "title": "The calibrated color covariance is positive definite", "statement": "At every redshift node the color covariance written by the calibration is symmetric, has the squared calibrated scatters on its diagonal and is positive definite, for every number of colors, all positive scatters and every accepted setting of the constant correlation.", "quantifier": "all numbers of colors, scatters and correlation settings", "why_tests_cant": "a condition on all vectors; settings outside of the default are not tested", "anchors": ["redmapper/calibration/redsequencecal.py:RedSequenceCalibrator._calc_offdiagonal_pars", "redmapper/calibration/redsequencecal.py:RedSequenceCalibrator._calc_diagonal_pars"]}
{"id": "C74", "title": "The run never takes over the files of the calibration", "statement": "The directory and the output base name of the configuration written for the full run differ from those of the calibration, and the redMaGiC run configuration is a file other than the calibration's, in the same directory.", "quantifier": "every directory name, output base name and configuration path", "why_tests_cant": "The names are made by text substitution; tests use two names.", "anchors": ["redmapper/calibration/calibrate.py:RedmapperCalibrator.output_configuration", "redmapper/redmagic/redmagic_calibrate.py:RedmagicCalibrator.run"]}
{"id": "C75", "title": "Percolation takes the clusters in order of likelihood", "statement": "A percolation run works on exactly the input clusters inside the redshift range with a finite likelihood, enough richness and a bright enough central (and inside the mask, when cleaning is asked for), in order of decreasing likelihood with identifiers 1, 2, ..., or, when identifiers are kept, in order of the identifiers and without changing them; the likelihood it uses is the one the likelihood run computed.", "quantifier": "all catalogs, configurations and option combinations, ties in the likelihood included", "why_tests_cant": "tests run one catalog; the order matters only when clusters compete for galaxies", "anchors": ["redmapper/run_percolation.py:RunPercolation._more_setup", "redmapper/run_likelihoods.py:RunLikelihoods._process_cluster", "redmapper/run_likelihoods.py:RunLikelihoods._postprocess"]}
{"id": "C76", "title": "A percolated cluster is either fully measured or marked bad", "statement": "A cluster the percolation reports as good had a free seed galaxy and a free chosen center, reached the minimum richness at its last measurement and has a non-negative redshift; in every other case its richness and redshift are -1 and it is reported as bad.", "quantifier": "all sequences of measurement outcomes and iteration counts", "why_tests_cant": "each failure has to happen at a particular point of the sequence", "anchors": ["redmapper/run_percolation.py:RunPercolation._process_cluster"]}
{"id": "C77", "title": "An interrupted calibration continues where it stopped", "statement": "A calibration that is killed at any point, any number of times, and started again with the same configuration ends with the files an uninterrupted calibration would have written.", "quantifier": "all numbers of iterations, all crash points, all restart histories, whatever the individual steps compute", "why_tests_cant": "a calibration takes days and is tested, if at all, without interruption; which configuration values differ after a restart depends on where it stopped", "anchors": ["redmapper/calibration/calibrate.py:RedmapperCalibrator.run", "redmapper/calibration/calibrate.py:RedmapperCalibrationIteration.run", "redmapper/calibration/redsequencecal.py:RedSequenceCalibrator.run"]}
{"id": "C78", "title": "The first member run measures clusters alone, then from rich to poor", "statement": "The color-member run of the calibration measures every cluster once with all its neighbours free, then visits the same clusters from the highest to the lowest of those richnesses, handing each what the previous ones left. It writes exactly the clusters that pass the richness, scale and mask cuts and, of the members saved for those clusters, exactly those whose color probability exceeds the configured cut. Each cluster is measured in the color its training galaxy was selected with.", "quantifier": "all catalogs, richness functions, cuts and sort orders of ties", "why_tests_cant": "the order of the second pass depends on all results of the first", "anchors": ["redmapper/run_colormem.py:RunColormem", "redmapper/cluster_runner.py:ClusterRunner.run"]}
{"id": "C79", "title": "The mask correction is the fraction of members lost", "statement": "The mask correction at each radius equals one minus the detected over the expected mask galaxies of the selected sample: at most 1, 0 when every galaxy above the reference luminosity is seen, 1 when none is, never lower when less is seen; each sample of a mask galaxy file uses its own normalisation; an unusable depth is an error.", "quantifier": "all mask galaxy files, samples, masks, depths, magnitude limits", "why_tests_cant": "continuous domain and every mask geometry", "anchors": ["redmapper/mask.py:Mask.calc_maskcorr", "redmapper/mask.py:Mask.gen_maskgals", "redmapper/mask.py:Mask.select_maskgals_sample"]}
{"id": "C80", "title": "The richness error accounts for the mask fraction of the richness", "statement": "The mask part of the richness error is a real non-negative number, follows the documented formula, is zero only when nothing is missed inside the radius or the mask fraction is below one per cent, and the mask fraction it uses is the one used for the richness.", "quantifier": "all clusters, masks, fitted mask corrections", "why_tests_cant": "continuous domain, every mask geometry", "anchors": ["redmapper/cluster.py:Cluster.calc_lambdacerr", "redmapper/cluster.py:Cluster.calc_richness"]}
{"id": "C81", "title": "Random points get the scale value of a cluster at their place", "statement": "A random point is given the scale value that a cluster with the same richness at the same place and redshift has, 1/(1 - mask fraction), which is at least one.", "quantifier": "all fitted mask corrections and radii", "why_tests_cant": "continuous domain", "anchors": ["redmapper/run_randoms_zmask.py:RunRandomsZmask._process_cluster", "redmapper/cluster.py:Cluster.calc_richness"]}
{"id": "C82", "title": "A failed colour richness never makes a training cluster", "statement": "The richness measured against a colour fitted on the spot is one of three things: -10 when there are too few red galaxies near the centre or near its colour (or the central galaxy is not red), with the neighbors left alone; -1 when no richness between 1 and 2000 solves the equation, with every membership zero and scale value -1; or a richness in [1,2000) with its radius and with scale times the sum of memberships equal to it. With enough red galaxies it is measured. In the colour-member run a cluster goes through only if it has a measured richness, reaches the minimum richness per scale value and its central galaxy reaches the membership cut; every failed measurement of a freshly matched cluster is rejected and marked, as long as the cut on the central galaxy is positive.", "quantifier": "every cluster, set of neighbors, option, fitted filter and solver run", "why_tests_cant": "the error code -10 divided by the error scale -1 passes the default richness test; tests use rich clusters only", "anchors": ["redmapper/cluster.py:Cluster.calc_richness_fit", "redmapper/run_colormem.py:RunColormem._process_cluster"]}
{"id": "C83", "title": "The first pass seeds exactly the usable inputs", "statement": "RunFirstPass turns a seed file into one cluster per seed whose photometric redshift lies in the configured range and whose chi-squared is acceptable (with cleaninput: that is inside the mask), in file order and with the seed's values, its redshift being the spectroscopic one in specmode; without a seed file it does the same with the galaxies brighter than the luminosity limit. It is refused exactly when neither is available.", "quantifier": "all seed files, galaxies, masks and configurations", "why_tests_cant": "Tests use one seed file; selection must be right for every input, including empty ones.", "anchors": ["redmapper/run_firstpass.py:RunFirstPass._more_setup"]}
{"id": "C84", "title": "The first pass uses the radius configured for it", "statement": "The clusters of a first pass are measured with the configured firstpass_r0 and firstpass_beta.", "quantifier": "all configurations and inputs", "why_tests_cant": "The tests only run the first pass from a seed file.", "anchors": ["redmapper/run_firstpass.py:RunFirstPass._more_setup", "redmapper/cluster.py:Cluster.__init__", "redmapper/cluster.py:ClusterCatalog.__getitem__"]}
{"id": "C85", "title": "The first pass measures each cluster in a definite course", "statement": "Each cluster is measured in succession, each time at the redshift found before (with keepz always at the first), until the wanted number of measurements (at least one) or the first unacceptable one; accepted clusters record the last measurement, rejected ones -1.", "quantifier": "all clusters, all results of the richness and redshift calculations, all iteration counts", "why_tests_cant": "It quantifies over every sequence of measured values.", "anchors": ["redmapper/run_firstpass.py:RunFirstPass._process_cluster", "redmapper/cluster.py:Cluster.redshift"]}
{"id": "C86", "title": "A pixel of the pipeline can be killed and run again", "statement": "Whatever the history of runs and kills of a pixel's redmapper task, its first-pass, likelihood and final catalogs belong together, are never changed once written, are completed by the next run, and are not computed again when complete.", "quantifier": "all histories of runs and kills between writes", "why_tests_cant": "Tests run one task to its end; kill points and reruns multiply.", "anchors": ["redmapper/pipeline/redmappertask.py:RunRedmapperPixelTask.run", "redmapper/cluster_runner.py:ClusterRunner.output"]}
{"id": "C87", "title": "Pixel tasks are idempotent", "statement": "Repeating a pixel's zmask, zscan or runcat task leaves the catalog that is already there alone and does not append to it.", "quantifier": "all histories of runs and kills", "why_tests_cant": "It is about every number of repetitions and every kill point.", "anchors": ["redmapper/pipeline/redmappertask.py:RunZmaskPixelTask.run", "redmapper/pipeline/redmappertask.py:RunZScanPixelTask.run", "redmapper/pipeline/redmappertask.py:RuncatPixelTask.run"]}
{"id": "C88", "title": "Pixel tasks write where they are told", "statement": "A pixel task writes below the path it is given, and below the directory of the configuration file when none is given.", "quantifier": "all paths and configuration files", "why_tests_cant": "Tests pass a path; the default is about every location of the configuration file.", "anchors": ["redmapper/pipeline/redmappertask.py:RunRedmapperPixelTask.__init__", "redmapper/configuration.py:Configuration.__init__"]}
{"id": "C89", "title": "Seeds from spectra carry their own spectrum's redshift", "statement": "SelectSpecSeeds writes one seed per reliable spectrum with a usable galaxy at its position: the seed has that galaxy's values and that spectrum's redshift, and no usable spectrum is lost.", "quantifier": "all spectroscopic and galaxy catalogs, all results of the positional matching", "why_tests_cant": "It is about the alignment of index arrays for every matching.", "anchors": ["redmapper/calibration/selectspecseeds.py:SelectSpecSeeds.run"]}
{"id": "C90", "title": "The chi-squared background is the density of galaxies in its bins", "statement": "Each cell of the table written by BackgroundGenerator for a redshift bin is the number of galaxies in that magnitude and chi-squared bin (each galaxy shared between neighbouring bins by overlap), counting exactly the galaxies brighter than the limit of the redshift bin, divided by the area at that magnitude and the bin sizes.", "quantifier": "all galaxy files, pixels, bin sizes and magnitude limits", "why_tests_cant": "depends on every galaxy and on whether the ranges are whole numbers of bins", "anchors": ["redmapper/background.py:BackgroundGenerator.run", "redmapper/background.py:BackgroundGenerator._worker"]}
{"id": "C91", "title": "The zred background is the density of galaxies with good redshifts", "statement": "Each cell of the table written by ZredBackgroundGenerator is the number of galaxies with chi-squared below wcen_zred_chisq_max in that magnitude and redshift bin (shared between neighbouring bins by overlap), at least one tenth, divided by the area and the bin sizes.", "quantifier": "all galaxy files, pixels, bin sizes", "why_tests_cant": "depends on every galaxy; the array slots of rejected galaxies stay empty", "anchors": ["redmapper/background.py:ZredBackgroundGenerator.run"]}
{"id": "C92", "title": "The backgrounds are interpolated linearly when read", "statement": "Background and ZredBackground return at every fine bin the stored table interpolated linearly along each axis, never negative, never below the smallest stored value (zred), with the end value or end line beyond the nodes.", "quantifier": "all stored tables and all fine bins", "why_tests_cant": "continuous in three variables", "anchors": ["redmapper/background.py:Background.__init__", "redmapper/background.py:ZredBackground.__init__"]}
{"id": "C93", "title": "Regenerating one background keeps the other", "statement": "Running BackgroundGenerator or ZredBackgroundGenerator, in any order, leaves in the background file every table of the other kind, and never writes a second table of the same kind.", "quantifier": "all files, orders, clobber settings", "why_tests_cant": "histories of runs on one file", "anchors": ["redmapper/background.py:BackgroundGenerator.run", "redmapper/background.py:ZredBackgroundGenerator.run", "redmapper/catalog.py:DataObject.to_fits_file"]}
{"id": "C94", "title": "A runner looks far enough around a cluster", "statement": "The galaxies a runner looks up around a cluster reach the cluster's radius, the radius inside of which its members are masked, and the outer edge of the local background annulus, for every richness and redshift.", "quantifier": "every radius and mask setting, every richness, redshift and angular distance", "why_tests_cant": "tests use a few clusters of moderate richness with the shipped settings; a missing ring of galaxies only lowers the richness a little", "anchors": ["redmapper/cluster_runner.py:_setup", "redmapper/cluster_runner.py:run", "redmapper/cluster.py:find_neighbors"]}
{"id": "C95", "title": "A runner looks deep enough around a cluster", "statement": "The luminosity limit of the galaxies looked up is not above the luminosity limit of the mask, of the recorded members, or the reference luminosity, and the limits on members that are configured are applied.", "quantifier": "every combination of reference luminosity, member limit and mask limit, set or unset", "why_tests_cant": "the limits interact; a test fixes one combination", "anchors": ["redmapper/run_percolation.py:_more_setup", "redmapper/runcat.py:_more_setup", "redmapper/cluster_runner.py:_setup"]}
{"id": "C96", "title": "The border of a pixel is wide enough for percolation", "statement": "Two clusters whose mask radii share a galaxy lie so close that all galaxies of the second are within the border of the pixel of the first, so a pixel sees everything that can change its own clusters.", "quantifier": "every pair of clusters, position, richness and redshift, any distance on the sky", "why_tests_cant": "a test has a handful of clusters, none near the limit", "anchors": ["redmapper/configuration.py:compute_border", "redmapper/pipeline/redmappertask.py:RunRedmapperTask"]}
{"id": "C97", "title": "Draws follow their density", "statement": "Drawing from a density on a grid gives a grid point for every random number, distributed as the density to within one over the number of grid points, and never a point of zero density.", "quantifier": "every density on every grid, every random number in [0, 1)", "why_tests_cant": "a statistical test cannot see a deviation of one in ten thousand, and no test has one color only", "anchors": ["redmapper/utilities.py:sample_from_pdf", "redmapper/utilities.py:chisq_pdf", "redmapper/mask.py:gen_maskgals"]}
{"id": "C98", "title": "Mask galaxies fit the run", "statement": "The radial bins of the mask galaxies cover the radii of richness 3 to 300; the file is cut into equal samples that use every mask galaxy once; a file made with other settings is not used.", "quantifier": "every radius setting and step, every file and number of samples", "why_tests_cant": "the tests use a file made for their own configuration", "anchors": ["redmapper/mask.py:gen_maskgals", "redmapper/mask.py:read_maskgals", "redmapper/mask.py:select_maskgals_sample"]}
{"id": "C99", "title": "The local background is a ratio of densities", "statement": "The local background of a cluster is the density of galaxies in the unmasked part of the annulus over the density the background predicts, so that it is x where there are x times the galaxies predicted.", "quantifier": "every annulus, mask, set of mask galaxies and neighbors", "why_tests_cant": "a test compares one number on one cluster with a stored one", "anchors": ["redmapper/cluster.py:compute_bkg_local", "redmapper/mask.py:gen_maskgals", "redmapper/utilities.py:schechter_pdf"]}
{"id": "C100", "title": "Gaps of the depth map are filled from the surroundings", "statement": "At the mask galaxies the depth map is used where it has values; elsewhere the values lie within the range of the known ones; a cluster with no known depth is rejected, and one with known depths is not.", "quantifier": "every pattern of known and unknown depths around a cluster", "why_tests_cant": "tests look at one position of one depth map", "anchors": ["redmapper/depthmap.py:calc_maskdepth", "redmapper/cluster_runner.py:run"]}
{"id": "C101", "title": "The starting value of the chi-squared cut at a node matches the wanted density", "statement": "When the redMaGiC calibration chooses the starting value of the chi-squared cut at a redshift node, it is the chi-squared of one of the galaxies around the node, and the galaxies with a smaller one are as many as the wanted density times the volume, rounded up (all but the worst if there are fewer galaxies).", "quantifier": "all densities, volumes and sets of chi-squared values", "why_tests_cant": "order statistics for every data set; tests look at one fit", "anchors": ["redmapper/redmagic/redmagic_calibrate.py:RedmagicCalibrator.run"]}
{"id": "C102", "title": "The cost of a redMaGiC cut is zero exactly if every bin has the wanted density", "statement": "The cost function of the redMaGiC calibration is never negative, tiles the range of the selection by whole bins, and is zero exactly if no parameter is below 0.1 and in every bin the galaxies kept by the cuts are n times the volume of the bin. Cuts that keep nothing get a very large cost.", "quantifier": "all galaxy samples, cuts, parameters, bins, volumes and densities", "why_tests_cant": "an equivalence over all samples and parameters", "anchors": ["redmapper/redmagic/redmagic_calibrate.py:RedmagicParameterFitter.__call__", "redmapper/redmagic/redmagic_calibrate.py:RedmagicCalibrator.run"]}
{"id": "C103", "title": "The calibration file gives every selection its own calibration", "statement": "After each redMaGiC selection is calibrated its own calibration is used for it, and in the file at the end each configured selection has its own calibration, and there are no others.", "quantifier": "all earlier contents of the file and all lists of selections", "why_tests_cant": "a statement on all histories of the file", "anchors": ["redmapper/redmagic/redmagic_calibrate.py:RedmagicCalibrator.run", "redmapper/redmagic/redmagic_selector.py:RedmagicSelector.__init__"]}
{"id": "C104", "title": "The redMaGiC calibration reads all galaxies a selection can keep", "statement": "The galaxies read for the redMaGiC calibration include every galaxy in the range of the cost of each selection that is below the chi-squared limit and bright enough. The galaxies the afterburner is trained on are different galaxies with a calibration redshift, the configured fraction of them.", "quantifier": "all galaxies, selections, ranges and random orders", "why_tests_cant": "for every galaxy and configuration", "anchors": ["redmapper/redmagic/redmagic_calibrate.py:RedmagicCalibrator.run"]}
{"id": "C105", "title": "The fit of the redshift corrections rewards closer predictions and weights the galaxies", "statement": "A set of corrections that predicts the offsets of the member galaxies more closely never costs more. Galaxies that are certainly no members have no influence. The weight given for a galaxy scales its influence on the result.", "quantifier": "all parameters, galaxies, probabilities and weights", "why_tests_cant": "a test compares the result of one fit with one expected vector", "anchors": ["redmapper/fitters.py:CorrectionFitter"]}
{"id": "C106", "title": "A fit of corrections returns what was asked for", "statement": "The groups of parameters selected for a fit come back in their order, one value for each node, and the cost is not higher than at the starting values. A fit with nothing selected is refused, as are lists of the wrong lengths.", "quantifier": "all selections, node counts, starting values and data", "why_tests_cant": "a test asks for one or two selections", "anchors": ["redmapper/fitters.py:CorrectionFitter.fit"]}
{"id": "C107", "title": "The recorded redshift corrections are no worse than the start and within their range", "statement": "Corrections are fitted to the galaxies above the likelihood threshold and within two standard deviations, each with a weight between one half and one. The recorded corrections cost no more than the starting ones, the scale of the errors is within its limits, and slopes that are not to be fitted stay zero.", "quantifier": "all catalogs, thresholds, starting values and minimisers that do not make the cost worse", "why_tests_cant": "a test runs one calibration and checks a few numbers", "anchors": ["redmapper/calibration/redsequencecal.py:RedSequenceCalibrator._calc_corrections"]}
{"id": "C108", "title": "The redshift calibration goes on only if each redshift bin has clusters", "statement": "The calibration of the cluster redshifts goes on exactly if between any two neighbouring nodes there is a cluster that is rich enough and not masked; otherwise it stops with the error that says so. Each bin then has clusters for the fit.", "quantifier": "all catalogs, node lists and thresholds", "why_tests_cant": "a test has one catalog, usually with all bins populated", "anchors": ["redmapper/calibration/zlambdacal.py:ZLambdaCalibrator.run"]}
{"id": "C109", "title": "A starting value is the median over the galaxies nearest to the node", "statement": "The values from which the red-sequence fits start are, for each node, the median over the galaxies nearest to it, and the median deviation from it; a node with too few galaxies takes over its neighbour's values. Each galaxy counts for one node.", "quantifier": "all node lists, galaxies and minimum counts", "why_tests_cant": "a test has one sample with enough galaxies everywhere", "anchors": ["redmapper/calibration/redsequencecal.py:RedSequenceCalibrator._compute_startvals"]}
{"id": "C110", "title": "Each step of the redshift correction is calibrated on what the steps before give", "statement": "The redshift correction is calibrated in steps: each is fitted to the catalog as the steps before correct it, with the errors they give, and the correction that is applied is the one that was fitted. The final catalog is the original one with the written correction applied, for any number of steps.", "quantifier": "all catalogs, numbers of steps and fits", "why_tests_cant": "a test runs one configuration with the default number of steps", "anchors": ["redmapper/calibration/zlambdacal.py:ZLambdaCalibrator.run", "redmapper/zlambda.py:ZlambdaCorrectionPar"]}
{"id": "C111", "title": "A calibration that yields negative redshifts is stopped", "statement": "If the calibrated correction gives a negative redshift to any cluster above the richness limit, the calibration stops with an error that says so; otherwise it goes on.", "quantifier": "all catalogs and corrections", "why_tests_cant": "a test has one catalog with sensible redshifts", "anchors": ["redmapper/calibration/calibrate.py:RedmapperCalibrationIteration.run"]}
{"id": "C112", "title": "Splines pass through the calibrated nodes, smoothly and without inventing structure", "statement": "A quantity calibrated at nodes and evaluated through a spline has exactly the calibrated value at each node, is twice continuously differentiable, follows a straight line when the nodes do, and depends linearly on the node values. With fixed extrapolation the values outside are the ones at the ends. Positive node values give positive values.", "quantifier": "all increasing nodes, node values and evaluation points", "why_tests_cant": "a test evaluates one spline at a few points", "anchors": ["redmapper/utilities.py:CubicSpline"]}
{"id": "C113", "title": "A calibrated centering model is read back as it was written", "statement": "The parameters of the centering model written by one calibration iteration are the parameters the next iteration and the cluster finder start from.", "quantifier": "all values of the parameters and all numbers of iterations", "why_tests_cant": "the unit test reads a file whose slope and mean are not compared with the written ones; the later iterations of a calibration take days", "anchors": ["redmapper/configuration.py:Configuration.set_wcen_vals", "redmapper/calibration/centeringcal.py:WcenCalibrator.run"]}
{"id": "C114", "title": "The random catalogs calibrate the foreground and the satellites", "statement": "The centering calibration starts unless a random catalog is missing in the first iteration; the foreground is fitted to the random centers and the satellites to the random satellites, and nothing else is changed by those fits.", "quantifier": "all iterations, file names and configured values", "why_tests_cant": "the unit test has one configuration", "anchors": ["redmapper/calibration/centeringcal.py:WcenCalibrator.__init__", "redmapper/calibration/centeringcal.py:WcenCalibrator.run"]}
{"id": "C115", "title": "The Monte Carlo of the brightest satellites takes the brightest of as many galaxies as the richness", "statement": "Every trial gives the brightest galaxies, in order, among as many galaxies drawn as the richness.", "quantifier": "all magnitudes, draws and richnesses", "why_tests_cant": "the test checks the fitted parameters within a tolerance", "anchors": ["redmapper/calibration/centeringcal.py:WcenCalibrator._schechter_montecarlo"]}
{"id": "C116", "title": "The centering model is applied as it was calibrated", "statement": "The mean magnitude and the widths of the centering filters for a cluster are the same in the centering as in the calibration.", "quantifier": "all clusters and all parameters", "why_tests_cant": "calibration and centering are tested apart", "anchors": ["redmapper/calibration/centeringcal.py:WcenCalibrator.run", "redmapper/centering.py:CenteringWcenZred.find_center"]}
{"id": "C117", "title": "Samples follow the density they are drawn from", "statement": "Sampling from a tabulated density gives every grid point with a frequency proportional to the density there, and never a point of zero density.", "quantifier": "all densities, grids and uniform deviates", "why_tests_cant": "a test can only compare a histogram of some draws", "anchors": ["redmapper/utilities.py:sample_from_pdf"]}
{"id": "C118", "title": "A depth fit starts among the data, is no worse than its start and gives consistent numbers", "statement": "The fit of a depth model to galaxies' magnitudes and errors starts from a limiting magnitude among the data and an exposure time from its grid, never returns a model with a larger cost than the one it started from when the minimiser succeeds, and the limiting magnitude, exposure, zero point and fluxes it returns describe one and the same error model; the fraction of galaxies used lies between 0 and 1.", "quantifier": "all lists of magnitudes and errors, all minimisers that do not increase the cost, with and without the bootstrap", "why_tests_cant": "the minimiser's path depends on the data; a test sees one data set and the bootstrap branch is random", "anchors": ["redmapper/depth_fitting.py:calcErrorModel", "redmapper/depth_fitting.py:applyErrorModel"]}
{"id": "C119", "title": "The red training galaxies are those with good spectra on the red sequence", "statement": "The selection of red training galaxies keeps exactly those galaxies with a good redshift in the cushioned range whose colours lie within the stated number of widths of the fitted red sequence, each once, and the range it works in covers the redshifts asked for.", "quantifier": "all catalogues of galaxies with spectra, all numbers of colours, all configured redshift ranges", "why_tests_cant": "what is kept depends on the fit in every colour and redshift bin; empty selections and range ends are not in the test data", "anchors": ["redmapper/calibration/selectspecred.py:SelectSpecRedGalaxies.run", "redmapper/configuration.py:Configuration.zrange_cushioned"]}
{"id": "C120", "title": "The bands of a run are those the galaxy file says", "statement": "When a configuration is read, the number of bands, the reference band and its index, the limiting magnitude, the area mode and the magnitude zero points are those recorded in the header of the galaxy file, and a file without a needed entry is reported.", "quantifier": "all headers of galaxy files, all values given in the configuration file", "why_tests_cant": "headers come from many surveys with any number and names of bands; tests have one", "anchors": ["redmapper/configuration.py:Configuration._galfile_stats"]}
{"id": "C121", "title": "The colour backgrounds hold all galaxies of the colour range and all pairs of colours", "statement": "The generation of colour backgrounds takes for each colour the range from the first to the last bin with more than the asked number of galaxies, fills the tables of one and two colours with each galaxy's share in each bin, so that their sums are the numbers of galaxies, and writes each pair of colours exactly once; after an interruption a new run makes the file complete.", "quantifier": "all galaxy catalogues, colour ranges, limiting magnitudes, numbers of colours and points of interruption", "why_tests_cant": "sums over all galaxies and bins, and every point of interruption; the test compares a few stored cells", "anchors": ["redmapper/color_background.py:ColorBackgroundGenerator.run"]}
{"id": "C122", "title": "The colour background that is looked up is a density", "statement": "The colour background read back from a file is never negative and, for each magnitude, integrates to one over the colours, for one and for two colours.", "quantifier": "all stored tables, colour and magnitude bins", "why_tests_cant": "an integral over every stored table; tests look up single values", "anchors": ["redmapper/color_background.py:ColorBackground.__init__", "redmapper/color_background.py:ColorBackground.lookup_diagonal", "redmapper/color_background.py:ColorBackground.lookup_offdiag"]}
{"id": "C123", "title": "A parameter file gives back what it was calibrated with", "statement": "Reading the red-sequence parameter file gives the number of colours, bands, reference band, magnitude limit, slope, survey, bin sizes, template and softening values it was written with; it covers the redshifts that were configured; luptitudes are corrected for exactly if the calibration did; a missing entry is reported as a ValueError and arguments of the caller take precedence.", "quantifier": "all configurations, all headers, with and without templates and luptitudes", "why_tests_cant": "a round trip over all configurations; the tests read one stored file", "anchors": ["redmapper/calibration/redsequencecal.py:RedSequenceCalibrator.save_pars", "redmapper/redsequence.py:RedSequenceColorPar.__init__"]}
{"id": "C124", "title": "The red sequence is calibrated from good members only", "statement": "The calibration of the red sequence uses exactly the members in the configured redshift range with a membership probability above the cut, and for the colours those above the colour cut; having none is reported; the ratio of errors it stores is the best of its grid and the volume factor is one at the reference redshift, positive, and independent of the Hubble constant.", "quantifier": "all member catalogues, cuts and redshift ranges, all cosmologies with growing distances", "why_tests_cant": "selections over all catalogues, including those that leave nothing", "anchors": ["redmapper/calibration/redsequencecal.py:RedSequenceCalibrator.run", "redmapper/calibration/redsequencecal.py:RedSequenceCalibrator._calc_medcols", "redmapper/calibration/redsequencecal.py:RedSequenceCalibrator._calc_volume_factor"]}
{"id": "C125", "title": "A run uses the galaxies asked for, however it reads them", "statement": "The set-up of a run over clusters selects the galaxies of the requested region that are strictly inside the magnitude range of the background (to the end of its last bin, where the run cuts to it) and, where the run says so and has zreds, below the configured largest chi-squared. The same galaxies are selected with and without temporary files. A run that needs zreds is refused without them; a run without any galaxies left produces no catalog; the depth map is used where there is one.", "quantifier": "every kind of run, every configuration (zreds, temporary files, chi-squared, bins, region), every galaxy file (in pixels or not), every outcome of reading the depth map", "why_tests_cant": "whether two code paths select the same galaxies depends on every galaxy's position, magnitude and chi-squared", "anchors": ["redmapper/cluster_runner.py:ClusterRunner._setup", "redmapper/cluster_runner.py:ClusterRunner.run", "redmapper/run_randoms_zmask.py:RunRandomsZmask", "redmapper/galaxy.py:GalaxyCatalog.from_galfile"]}
{"id": "C126", "title": "Centers take their magnitudes from the matched galaxy", "statement": "When centers are matched to galaxies, a center with a galaxy within the matching radius takes the magnitudes of that galaxy (of the nearest one, if there are several); a center without one keeps its own; no clusters are added or lost.", "quantifier": "every list of centers, every list of galaxies, every set and order of matches", "why_tests_cant": "the result depends on the order in which matches are returned, for every arrangement of galaxies around each center", "anchors": ["redmapper/cluster_runner.py:ClusterRunner.run", "redmapper/run_catalog.py:RunCatalog"]}
{"id": "C127", "title": "The redMaGiC selection keeps the galaxies its calibration counted", "statement": "The density that the calibration brings to the wanted one is the density of the galaxies that the selection returns with the recorded cuts: at given cuts and corrections the samples counted in the fit are the samples of the rows the selection returns for the same galaxies.", "quantifier": "all galaxies, all nodes, cuts and corrections, all settings of the afterburner", "why_tests_cant": "the calibration and the selection are two pieces of code that implement the same cuts; a test would have to run a whole calibration and compare", "anchors": ["redmapper/redmagic/redmagic_calibrate.py:RedmagicParameterFitter", "redmapper/redmagic/redmagic_selector.py:RedmagicSelector.select_redmagic_galaxies"]}
{"id": "C128", "title": "The redMaGiC afterburner is fitted to the training galaxies that pass the recorded cuts", "statement": "Without the afterburner the recorded corrections change nothing. With it, the recorded bias and error scale are fitted to exactly those training galaxies that pass the recorded cuts, within their limits, and the cuts are fitted with the corrections that are recorded. The calibration redshift of a galaxy is that of the cluster it most likely belongs to, if it belongs to one with the wanted probability.", "quantifier": "all galaxies, training samples, starting values, constant or fitted cuts, whatever the minimizers return", "why_tests_cant": "the result depends on the course of the iterations for every data set", "anchors": ["redmapper/redmagic/redmagic_calibrate.py:RedmagicParameterFitter.fit", "redmapper/redmagic/redmagic_calibrate.py:RedmagicParameterFitter.fit_bias_eratio", "redmapper/redmagic/redmagic_calibrate.py:RedmagicCalibrator.run"]}
{"id": "C129", "title": "Consolidating runs on input clusters keeps each cluster once", "statement": "The consolidated catalog of a run on input clusters holds exactly the clusters of each pixel's catalog that lie in that pixel, so that a cluster near a border, which is in the catalogs of several pixels, is there once; spectroscopic redshifts are changed only if that is asked for.", "quantifier": "all sets of pixel catalogs of a run, all positions of clusters", "why_tests_cant": "duplicates show up only for clusters near pixel borders in real catalogs", "anchors": ["redmapper/pipeline/redmapperconsolidatetask.py:RuncatConsolidateTask.run"]}
{"id": "C130", "title": "Consolidating runs on input clusters ends with consistent files", "statement": "The consolidation of a run on input clusters ends without an error whatever its options, and the consolidated member file holds exactly the members of the clusters in the consolidated catalog, each once.", "quantifier": "all sets of pixel catalogs and member files, all options", "why_tests_cant": "the outcome depends on which clusters lie across pixel borders and on which files are in the directory", "anchors": ["redmapper/pipeline/redmapperconsolidatetask.py:RuncatConsolidateTask.run"]}
{"id": "C131", "title": "A map read for a region has the whole map's values there", "statement": "When a depth, mask or volume-limit map is read for a region given by sky pixels (of any size relative to the map's coverage pixels), every lookup inside the region gives exactly the value of the whole map; with a border around a single pixel this extends to every place in the pixels found around it; without a region the whole map is read; several pixels with a border are refused.", "quantifier": "all maps, resolutions of map, coverage and region, all lists of pixels, all positions", "why_tests_cant": "three resolution cases times arbitrary regions; tests use one region of one map", "anchors": ["redmapper/utilities.py:get_healsparse_subpix_indices", "redmapper/depthmap.py:DepthMap.__init__", "redmapper/volumelimit.py:VolumeLimitMask.__init__", "redmapper/mask.py:HPMask.__init__"]}
{"id": "C132", "title": "Areas computed for a region are areas of the region", "statement": "When a run is restricted to a region of the sky, the area as a function of depth and the area of a volume-limited survey count exactly the map pixels in that region, each once.", "quantifier": "all regions, resolutions and maps", "why_tests_cant": "depends on how the region's pixels compare to the coverage pixels of the map; tests use one map", "anchors": ["redmapper/depthmap.py:DepthMap.calc_areas", "redmapper/volumelimit.py:VolumeLimitMask.get_areas"]}
{"id": "C133", "title": "The fit of redshift corrections changes what it is asked to, and never for the worse", "statement": "Fitting the correction of cluster redshifts returns exactly the selected kinds of parameters (offsets, slopes, scatters), one number per node, minimises the negative log-likelihood of all clusters with the unselected parameters held fixed, never ends at a worse likelihood than it started from, and refuses an empty selection or lists of different lengths.", "quantifier": "all selections, nodes, catalogs and starting values; all optimisers that keep the number of parameters and never end worse than they start", "why_tests_cant": "slices of one parameter vector must be right for all eight selections", "anchors": ["redmapper/calibration/zlambdacal.py:ZLambdaFitter.fit", "redmapper/calibration/zlambdacal.py:ZLambdaFitter.__call__"]}
{"id": "C134", "title": "Clusters nearer to the correction are more likely; scatters stay above the minimum", "statement": "In the fit of cluster redshift corrections the likelihood of a cluster falls with its distance from the correction, and a scatter below the minimum is not returned unless it improves the log-likelihood by ten thousand.", "quantifier": "all clusters, distances, variances and fits", "why_tests_cant": "floating point underflow occurs only far from any tested case", "anchors": ["redmapper/calibration/zlambdacal.py:ZLambdaFitter.__call__"]}
{"id": "C135", "title": "The ratio of true to stated errors is recovered", "statement": "The fit of magnitude-error ratios is best at the factor by which the residuals exceed the stated errors when this is the same in all bins, ignores bins that have a single galaxy, scales only the selected bands, and yields positive ratios.", "quantifier": "all galaxies, bins, bootstrap draws, ratios within the bounds", "why_tests_cant": "the bootstrap is random and the bounds are only reached for some data", "anchors": ["redmapper/fitters.py:ErrorBinFitter"]}
{"id": "C136", "title": "The likelihood run starts from exactly the usable clusters, and hands them on to the percolation", "statement": "The likelihood run works on exactly the clusters of its input that lie in the redshift range, have a richness, are brighter than the limit and (if asked for) lie in the mask, in the order of the input, and gives up exactly if there are none; a cluster it keeps, with a finite likelihood and rich enough, is usable by a percolation with the same settings; keeping the redshifts of seeds only widens the range.", "quantifier": "all catalogs and settings", "why_tests_cant": "tests use one catalog and default ranges", "anchors": ["redmapper/run_likelihoods.py:RunLikelihoods._more_setup", "redmapper/run_percolation.py:RunPercolation._more_setup"]}
{"id": "C137", "title": "The radial and luminosity filters are positive, flat in the core and zero far out", "statement": "The radial profile is a positive number at every radius below 10 Mpc, constant in the core with the value at the core's edge, zero from 10 Mpc on, and the projected NFW formula in between; the luminosity filter is positive; hence the filter of every galaxy in the richness is a number that is not negative.", "quantifier": "all radii, scale and core radii, magnitudes", "why_tests_cant": "a claim over a continuum of radii about logarithms and arctangents", "anchors": ["redmapper/utilities.py:nfw_pdf", "redmapper/utilities.py:schechter_pdf", "redmapper/cluster.py:Cluster.calc_richness"]}
{"id": "C138", "title": "A written configuration reads back as itself", "statement": "Writing a loaded configuration to a yaml file puts every option into the file exactly once with its value, and loading that file again (with the same galaxy and centering files) succeeds and gives every option the value it had, whatever other configurations were loaded or options set in between.", "quantifier": "every environment, configuration dictionary, output path and history of loads and assignments", "why_tests_cant": "The round trip passes through all fill-in rules (area, limiting magnitude, training spectra, redMaGiC range, centering values); a test checks one configuration.", "anchors": ["redmapper/configuration.py:Configuration.output_yaml", "redmapper/configuration.py:read_yaml", "redmapper/configuration.py:Configuration.__init__"]}
{"id": "C139", "title": "The configuration written at the end of a calibration", "statement": "At the end of a calibration the run configuration covers the whole sky without borders or a set area, names the products of the last iteration with absolute paths, asks for new redshifts exactly if the calibration was on a region (and a new background exactly if that is configured too), and leaves every other option as it was; read back it has the area of the galaxy file.", "quantifier": "every configuration at the end of a calibration, every path", "why_tests_cant": "A test runs one calibration in one directory.", "anchors": ["redmapper/calibration/calibrate.py:RedmapperCalibrator.output_configuration", "redmapper/configuration.py:Configuration.output_yaml"]}
{"id": "C140", "title": "A run over all tiles merges exactly the tiles' results and leaves its configuration alone", "statement": "A full run refuses contradictory arguments before anything is done, runs every tile of the division with the given seed file, and its catalogs are the merged files of exactly the tiles that have one (or, if asked for, the catalogs that are there already); the configuration of the caller is unchanged when it returns.", "quantifier": "all divisions of the sky, arguments, outcomes of the workers and files already present", "why_tests_cant": "depends on which of many parallel workers fail or return nothing", "anchors": ["redmapper/redmapper_run.py:RedmapperRun.run", "redmapper/redmapper_run.py:RedmapperRun._consolidate"]}
{"id": "C141", "title": "Files of different tiles never collide and an interrupted tile is completed", "statement": "The files of different tiles have different names, also when the division of the sky is changed; a tile whose worker was killed at any moment is completed by the next run.", "quantifier": "all tiles, resolutions, crash points and numbers of later runs", "why_tests_cant": "crash points between two writes cannot be enumerated by tests", "anchors": ["redmapper/redmapper_run.py:RedmapperRun._worker", "redmapper/redmapper_run.py:RedmapperRun._percolation_only_worker"]}
{"id": "C142", "title": "Redshifts computed in parallel are those of each galaxy, in its place", "statement": "Computing the redshifts of a catalog file with any number of processes, chunk size and scheduling writes, in the order of the file, for each galaxy exactly the redshift columns computed from that galaxy alone; two runs differ in nothing; the random samples of the redshift of different galaxies are drawn independently.", "quantifier": "all catalogs, numbers of processes, chunk sizes and schedules", "why_tests_cant": "schedules of a pool cannot be enumerated; the random draws of forked processes are not compared by tests", "anchors": ["redmapper/zred_runner.py:ZredRunCatalog.run", "redmapper/zred_runner.py:ZredRunCatalog._worker"]}
{"id": "C143", "title": "The area for a selection of clusters is corrected by the fraction of random points lost", "statement": "The area table written with the weighted random points is, at each redshift, the area of the volume-limited mask times a factor between 0 and 1 fitted to the fraction, below each redshift, of the random points that pass the selection; without losses the area is unchanged.", "quantifier": "all random catalogs, selections, bins and fits", "why_tests_cant": "depends on counts at every bin edge, including empty ones", "anchors": ["redmapper/randoms.py:RandomWeigher.weight_randoms"]}
{"id": "C144", "title": "Masks and random catalogs of different requests are kept apart", "statement": "Volume-limit masks for different luminosity cuts or kinds, and weighted random catalogs for different redshift ranges or richness bins, have different files; a file already there is used only for the request it was made for.", "quantifier": "all cuts, ranges, bins and files already present", "why_tests_cant": "collisions occur for particular pairs of numbers only", "anchors": ["redmapper/volumelimit.py:VolumeLimitMask.__init__", "redmapper/randoms.py:RandomWeigher.weight_randoms"]}
{"id": "C145", "title": "Values of maps at positions", "statement": "Looking up depths returns one row per position for any positions: the depth of the map's pixel there, and the unseen marker outside the map or beyond a pole; good fractions on the map are those of the pixel; a redshift limit on the sky is that of the pixel, at least 0, and 0 outside the map; a position counts as in the mask exactly if it lies between the poles, on the mask and its random number is below the good fraction there. Lists of different lengths are refused. A table converted to a map keeps each row at its pixel, in either numbering.", "quantifier": "every map, every list of positions, every list of random numbers and every table of pixels", "why_tests_cant": "The pixels and positions are unbounded and the interesting cases (outside the map, beyond a pole, mixed lists) combine freely.", "anchors": ["redmapper/depthmap.py:DepthMap.get_depth_values", "redmapper/depthmap.py:DepthMap.get_fracgoods", "redmapper/depthmap.py:convert_depthfile_to_healsparse", "redmapper/volumelimit.py:VolumeLimitMask.calc_zmax", "redmapper/volumelimit.py:VolumeLimitMask._build_geometry_mask", "redmapper/mask.py:HPMask.compute_radmask", "redmapper/mask.py:convert_maskfile_to_healsparse"]}
{"id": "C146", "title": "Initial colours of red galaxies", "statement": "The template of initial colours gives a colour exactly for two neighbouring bands of its list, in their order and in either case of letters: at a redshift it lies on the line between the two surrounding entries of the template. Every other pair of bands is refused with an error, as is a template that is neither in the package nor on disk.", "quantifier": "every template file, every pair of band names and every redshift", "why_tests_cant": "Band names are free strings, and templates have any number of bands and redshifts.", "anchors": ["redmapper/utilities.py:RedGalInitialColors.__init__", "redmapper/utilities.py:RedGalInitialColors.__call__", "redmapper/utilities.py:RedGalInitialColors._color_name"]}
{"id": "C147", "title": "Memory predicted for tiles", "statement": "Predicting the memory of a run returns, for the sides 2, 4, ... up to that of the galaxy catalogue, the number of tiles with galaxies and the largest memory of one tile: its galaxies times the bytes of a galaxy without its truth fields (and of its redshift row, if wanted) times the border factor; finer tiles never need more.", "quantifier": "every catalogue table, with or without redshifts, every border factor", "why_tests_cant": "The catalogue has any number of files and pixels, and the largest tile can be any of them.", "anchors": ["redmapper/pipeline/mempredict.py:MemPredict.predict_memory"]}
{"id": "C148", "title": "Radii of the correction for the mask", "statement": "The radii at which the correction for the mask is tabulated start at or below 0.5 and the radius of a cluster of richness 3, are evenly spaced by the configured step, and end at or beyond the radius of richness 300, so that the radius of every cluster lies between two of them.", "quantifier": "every radius at richness 100, every slope and every step", "why_tests_cant": "The radii are powers of a real exponent rounded to tenths.", "anchors": ["redmapper/mask.py:Mask.gen_maskgals"]}
{"id": "C149", "title": "Points drawn uniformly in a disc", "statement": "Random points for local backgrounds and random cluster centres are drawn uniformly in the disc of the given radius: always inside it, and inside a smaller radius for a share of the random numbers equal to the ratio of the areas; a random centre is the only candidate, has probability 1, is no galaxy, and lies on the sky.", "quantifier": "every radius, position and pair of random numbers", "why_tests_cant": "The positions range over the reals and the claim is about every random number.", "anchors": ["redmapper/mask.py:Mask.gen_maskgals", "redmapper/centering.py:CenteringRandom.find_center", "redmapper/run_percolation.py:RunPercolation._process_cluster"]}
{"id": "C150", "title": "Start and end of the redMaGiC calibration", "statement": "The redMaGiC calibration only starts if the galaxy file is in pixels and the redshifts and the cluster catalogue exist; each mode's mask comes from the depth map, else the geometry, else the whole area, and is recorded by name so that a later run finds it beside the calibration; the run started at the end reads the configuration just written, which is that of the calibration for the whole sky.", "quantifier": "every set of existing files, every output directory and configuration", "why_tests_cant": "Which files exist and where the output goes is the user's choice; tests use one directory.", "anchors": ["redmapper/redmagic/redmagic_calibrate.py:RedmagicCalibrator.run", "redmapper/redmagic/redmagic_selector.py:RedmagicSelector.__init__", "redmapper/redmagic/redmagictask.py:RunRedmagicTask.__init__"]}
{"id": "C151", "title": "Check of the input files", "statement": "The check of the input files passes exactly if each file asked for exists, the background file with both of its tables, and otherwise fails with a ValueError naming what is missing.", "quantifier": "every combination of files asked for, configured and existing", "why_tests_cant": "There are five files and a pair of tables, each asked for or not, configured or not, existing or not.", "anchors": ["redmapper/configuration.py:Configuration.check_files", "redmapper/pipeline/redmappertask.py:RunRedmapperTask.run"]}
{"id": "C152", "title": "Fits of the centering calibration", "statement": "The calibration of the centering minimises minus the logarithm of a likelihood: of the random points, with the least value at the weighted mean and scatter of ln w, if there is scatter; of the mixture of central, satellite and foreground galaxies for the connectivity; and for the magnitudes a cost that is finite for all parameters. A width of zero or less is never better than a positive one.", "quantifier": "every set of clusters and all parameters a minimiser may try", "why_tests_cant": "The minimiser may try any parameters, and the claim is about the minimum over all of them.", "anchors": ["redmapper/calibration/centeringcal.py:WcenFgFitter.__call__", "redmapper/calibration/centeringcal.py:WcenCFitter.__call__", "redmapper/calibration/centeringcal.py:WcenCwFitter.__call__"]}
{"id": "C153", "title": "Normal curve through a histogram", "statement": "Fitting a normal curve to the histogram of an array returns the fitted amplitude, mean and positive width, or the size, median and standard deviation if no fit is found, and never fails.", "quantifier": "every histogram and every fit", "why_tests_cant": "The fit may end at any of the equivalent parameters.", "anchors": ["redmapper/utilities.py:histoGauss", "redmapper/utilities.py:gaussFunction"]}
{"id": "C154", "title": "Redshift of a cluster and its copy", "statement": "Setting the redshift of a cluster updates its magnitude scale, angular scale and the radii of its neighbours together, and refuses negative redshifts; a copy of a cluster is the same cluster: same redshift, scales, neighbours, catalogue values and backgrounds, and what is done to the copy gives the same results.", "quantifier": "every cluster, redshift and set of neighbours", "why_tests_cant": "The values must stay in step after every sequence of changes.", "anchors": ["redmapper/cluster.py:Cluster.redshift", "redmapper/cluster.py:Cluster.copy", "redmapper/cluster.py:Cluster.__copy__", "redmapper/cluster.py:Cluster.update_neighbors_dist"]}
{"id": "C155", "title": "Dependence of the richness on redshift", "statement": "The stored first and second derivatives of ln(richness), and of its variance, with redshift are the differences over the configured step around the redshift of the cluster: exact for parabolas, and left alone if the richness fails on either side.", "quantifier": "every richness as a function of redshift, every redshift, correction and step", "why_tests_cant": "The richness is an arbitrary function of redshift; a test sees one cluster.", "anchors": ["redmapper/cluster_runner.py:ClusterRunner.run"]}
{"id": "C156", "title": "Richness averaged over possible centres", "statement": "The richness averaged over the possible centres lies between the richnesses at the centres, with the root mean square deviation as its scatter; the richness at each other centre, and at the optical centre of a redshift scan, is the one a cluster centred there would have.", "quantifier": "every list of centres, probabilities summing to one, and every mask", "why_tests_cant": "Any number of centres with any probabilities, and masks that differ from place to place.", "anchors": ["redmapper/run_percolation.py:RunPercolation._process_cluster", "redmapper/run_zscan.py:RunZScan._process_cluster"]}
{"id": "C157", "title": "Random points are written to the configured file", "statement": "Generating random points writes the file named by randfile; missing information has documented defaults, the caller's dictionary is not changed, and random points can be split like galaxies.", "quantifier": "every configured name, existing files and information dictionary", "why_tests_cant": "the name is taken apart by a pattern and put together again; tests use one name", "anchors": ["redmapper/randoms.py:GenerateRandoms.generate_randoms", "redmapper/randoms.py:RandomCatalogMaker", "redmapper/galaxy.py:GalaxyCatalogMaker.__init__"]}
{"id": "C158", "title": "Sources of the random points and their weights", "statement": "What the caller gives (mask, limit, catalogue) is used, what they leave out comes from the configuration, names of the products carry the limit of the mask in use, and for red galaxies both objects and file names are accepted.", "quantifier": "every combination of arguments", "why_tests_cant": "tests give all the arguments as objects", "anchors": ["redmapper/randoms.py:GenerateRandoms.__init__", "redmapper/randoms.py:RandomWeigher.__init__", "redmapper/redmagic/redmagic_randoms.py:RedmagicGenerateRandoms.__init__"]}
{"id": "C159", "title": "A mask which is given is applied", "statement": "With a mask file and a mask mode, the galaxies kept are those the mask lets survive, both in a run and when a galaxy catalogue is written; an unknown mode is refused.", "quantifier": "every mask, mode, region and set of galaxies", "why_tests_cant": "depends on the mode and on an object which stands for the configuration; no test writes a catalogue with a mask", "anchors": ["redmapper/mask.py:get_mask", "redmapper/mask.py:HPMask.__init__", "redmapper/galaxy.py:FakeMaskConfig", "redmapper/galaxy.py:GalaxyCatalogMaker.append_galaxies"]}
{"id": "C160", "title": "The redshift correction which is read is the one in the file", "statement": "The tables of the correction are the splines of the file on a grid over the redshift range, with positive scatter and a flag for extrapolation, and a run which has a correction or a depth map configured uses it.", "quantifier": "every file, range, bin size, number of iterations and region", "why_tests_cant": "tests read one file and compare a few values", "anchors": ["redmapper/zlambda.py:ZlambdaCorrectionPar.__init__", "redmapper/cluster_runner.py:ClusterRunner._setup"]}
{"id": "C161", "title": "An ingested galaxy catalog reads back as it was given", "statement": "After galaxies are ingested in any number of append calls (some of which may raise) and the catalog is finalized, reading any region returns exactly the galaxies of the calls that returned that lie inside the mask and inside the requested region of the sky, each as often as it was given; a valid request for a region with at least one galaxy is answered.", "quantifier": "all histories of append calls, all masks, all orders of rows in the pixel files, all requests (whole sky, lists of pixels, one pixel with a border)", "why_tests_cant": "Writer and reader agree only if pixel assignment, counts, master table and region selection fit for every history and every region; a test checks one catalog and one region.", "anchors": ["redmapper/galaxy.py: GalaxyCatalogMaker.append_galaxies, finalize_catalog, GalaxyCatalog.from_galfile, get_subpixel_indices"]}
{"id": "C162", "title": "Every galaxy is read back with its own redshift", "statement": "After redshifts have been run over a pixelized catalog, reading any region with redshifts returns the requested galaxies of the pixels that were run, each with the redshift computed from that galaxy; runs for several regions should add up.", "quantifier": "all galaxy tables, regions of the run, regions of the read, redshift calculations that may raise, and all ingest histories before", "why_tests_cant": "Rows and redshifts are joined by their position in two files written by different programs; tests look at one pixel.", "anchors": ["redmapper/zred_runner.py: ZredRunPixels.run, ZredRunPixels._worker, ZredRunPixels.make_zred_table; redmapper/galaxy.py: GalaxyCatalog.from_galfile"]}
{"id": "C163", "title": "A log file receives exactly the messages between start and stop of logging", "statement": "While a run has its log file started, every message logged goes to the file named for that run, and each message once; after logging is stopped, later messages do not go there. Starting without a single configured pixel, starting twice, starting again after a stop and stopping when others share the logger behave as stated.", "quantifier": "all sequences of start, stop, copy and message events on any number of configurations of a process", "why_tests_cant": "depends on the whole history of starts, stops and copies in one process, which no fixed list of calls covers", "anchors": ["redmapper/configuration.py: Configuration.start_file_logging, Configuration.stop_file_logging, Configuration.copy, Configuration.__init__"]}
{"id": "C164", "title": "A redMaGiC run writes the selection from all galaxies, and refuses to overwrite", "statement": "When every pixel of the galaxy table can be read with its redshifts, the catalog of every requested mode is the selection from all galaxies of the table, independent of the division into pixels, and every mode with a geometry mask gets a file with the number of random points asked for (ten per galaxy by default). Without clobber an existing catalog or file of random points is not overwritten and leaves the files as they were. A run that fails leaves no file that looks complete.", "quantifier": "all galaxy tables and their division into pixels, lists of modes, numbers of random points, existing files and pixels that cannot be read", "why_tests_cant": "must hold for every division into pixels and for every place at which the run may be interrupted", "anchors": ["redmapper/redmagic/redmagictask.py: RunRedmagicTask.run", "redmapper/redmagic/redmagic_randoms.py: RedmagicGenerateRandoms.generate_randoms", "redmapper/galaxy.py: GalaxyCatalog.from_galfile"]}
{"id": "C165", "title": "Areas and volumes of the redMaGiC calibration", "statement": "The area used for each redshift node of the redMaGiC calibration is the area of the volume-limited mask at the depth of that node (or the fixed area of a fixed mask), never larger than the area at a lower redshift, and the volume of a node is the volume its counted galaxies are taken from.", "quantifier": "all masks, all redshift ranges and bin sizes", "why_tests_cant": "the last node only fails when the range reaches the end of the table; a test uses one range", "anchors": ["redmapper/redmagic/redmagic_calibrate.py: RedmagicCalibrator.run", "redmapper/volumelimit.py: VolumeLimitMask.get_areas, VolumeLimitMaskFixed.get_areas"]}
{"id": "C166", "title": "The recorded candidates for the centre", "statement": "Each candidate for the centre of a cluster is recorded in its slot of the catalog with its own id, position and probability; slots without a candidate name no galaxy, and exactly the candidates are marked among the neighbours.", "quantifier": "all lists of neighbours, all numbers of candidates up to the number of slots, all centering methods", "why_tests_cant": "the wrong ids are in slots past ncent_good, which tests do not read, and the galaxy that is marked depends on the order of the neighbours", "anchors": ["redmapper/run_percolation.py: RunPercolation._process_cluster", "redmapper/run_zscan.py: RunZScan._process_cluster", "redmapper/centering.py: Centering, CenteringBCG, CenteringWcenZred", "redmapper/cluster_runner.py: ClusterRunner.run"]}
{"id": "C167", "title": "The run over all tiles as a whole", "statement": "A run over all tiles gives one catalog: exactly the usable clusters of each tile that lie in that tile, by decreasing likelihood, numbered from 1, with their members, no place twice; and a run that was killed and started again any number of times ends with the same catalog.", "quantifier": "all numbers of tiles, all outcomes of the three steps in each tile, all histories of kills in every worker", "why_tests_cant": "a test runs one or two tiles without interruption; the overlap of tiles and the point of a kill vary", "anchors": ["redmapper/redmapper_run.py: RedmapperRun.run, RedmapperRun._consolidate, RedmapperRun._worker"]}
{"id": "C168", "title": "The merged catalog and an interrupted merging", "statement": "When the merging of the tiles is interrupted and the run started again with the check for existing files, the merged catalog and its members are in the end complete and belong together.", "quantifier": "all histories of kills of the merging, all files there before", "why_tests_cant": "the interruption must fall in the writing of one of two files", "anchors": ["redmapper/redmapper_run.py: RedmapperRun._consolidate"]}
{"id": "C169", "title": "A batch job runs its own pixel with the given configuration", "statement": "For every configuration file and every run mode, the batch script creates one job for each pixel of the run, and the command of that job starts the task of the run mode with exactly this configuration file, this pixel, this resolution and the directory of the configuration file as its output path, under each of the supported batch systems and with or without a container image.", "quantifier": "all configuration file names, run modes, resolutions, lists of pixels, batch systems and images", "why_tests_cant": "a test uses one path; the command goes through up to three rounds of text formatting and a shell, and only names with special characters tell them apart", "anchors": ["bin/redmapper_batch.py", "redmapper/parsl_templates.py: PARSL_RUN_TEMPLATE", "bin/redmapper_run_redmapper_pixel.py", "bin/redmapper_run_zred_pixel.py", "bin/redmapper_runcat_pixel.py"]}
{"id": "C170", "title": "Settings of a batch run", "statement": "The settings of a batch run are those of the named section of the user's batch file (or of its only section), with documented defaults for what the section does not give; with several sections one has to be named, a run does not depend on other sections, no job is created before the file has been edited, and the job asks for at least the given time and enough nodes for all pixels.", "quantifier": "all batch files, section names, wall times, numbers of pixels and of processors per node", "why_tests_cant": "combinations of present and missing keys and sections, and of times not a multiple of an hour", "anchors": ["bin/redmapper_batch.py: load_batchconfig"]}
{"id": "C171", "title": "Several pixels on one node", "statement": "The script for several pixels runs the command once for each pixel of its list, each with that pixel, and ends with an error if one of them failed.", "quantifier": "all commands, lists of pixels and exit statuses", "why_tests_cant": "needs failing processes and every list", "anchors": ["bin/redmapper_run_many_pixels_same_node.py: RunCommand"]}
{"id": "C172", "title": "Consolidation takes every tile of the run, with its own pixel", "statement": "Consolidating a run takes the catalogue of every tile of the run in the output directory exactly once, no other file, and attributes to each the pixel and the resolution it was run with, whatever the order in which the directory lists the files and whatever else is in the directory.", "quantifier": "every output directory and outbase, every set of tiles and pixels, every set of other files and every order of the listing", "why_tests_cant": "tests consolidate a couple of files in a fresh temporary directory; other runs in the same directory, long pixel numbers and numbers in the path of the directory do not occur", "anchors": ["redmapper/pipeline/redmapperconsolidatetask.py:RedmapperConsolidateTask.run", "redmapper/pipeline/redmapperconsolidatetask.py:RuncatConsolidateTask.run", "redmapper/pipeline/redmappertask.py:RunRedmapperPixelTask.run"]}
{"id": "C173", "title": "Consolidation makes one output per richness cut and volume limit, each as if it were the only one", "statement": "Consolidating a run with several richness cuts and several volume limits writes, for every pair, one catalogue and member table under a name that tells the pair; each is exactly what a consolidation with this pair alone would have written, and no other file is touched.  If no cluster passes one pair, the other outputs are still complete.  (The code violates this when two cuts have the same whole part, or two limits the same first decimal, and when a pair selects no cluster.)", "quantifier": "all lists of cuts and volume limits, all per-pixel catalogues and member tables, all volume limit masks, all earlier contents of the output directory", "why_tests_cant": "tests use one or two cuts on one pixel; the names collide only for particular pairs of real numbers and the outputs are built up by interleaved appends over all files", "anchors": ["redmapper/pipeline/redmapperconsolidatetask.py:RedmapperConsolidateTask.__init__", "redmapper/pipeline/redmapperconsolidatetask.py:RedmapperConsolidateTask.run", "bin/redmapper_consolidate_run.py"]}
{"id": "C174", "title": "A run in jobs and its consolidation depend on no schedule", "statement": "When every job of a run has ended, in whatever interleaving the jobs wrote their files and however often they were killed before writing and restarted, the consolidation makes every requested output from the catalogues of all tiles, with the rank in likelihood over the whole run as cluster number, and gives the same result for every history and every order of the directory. A job found between its first and last write stops the consolidation with an error. (Found: jobs that have not begun to write are silently missing; a job killed between its first and last write is never repaired by running it again.)", "quantifier": "all interleavings of the writes of the jobs with kills and restarts, all orders of the directory, all catalogues, outputs and cuts", "why_tests_cant": "the schedules of the jobs and the moments of a kill are unbounded; a test runs one job after the other", "anchors": ["redmapper/pipeline/redmappertask.py:RunRedmapperTask.run", "redmapper/pipeline/redmapperconsolidatetask.py:RedmapperConsolidateTask.run", "redmapper/utilities.py:read_members", "bin/redmapper_batch.py"]}
{"id": "C175", "title": "Medians of the calibration sample and the error ratio", "statement": "The reference magnitudes at a redshift node are exactly those of luminosities from 0.1 below the reference luminosity (at least 0.001) to 30 L*; the color widths are never below 0.0148; the error ratio of a color, if asked for, is the grid value 0.5, 0.6, ..., 9.9 whose scatter of normalised residuals is closest to 1, the smallest of several, and recovers a common factor of the stated errors that is on the grid; the redshifts of stem.fit go to stem_zreds.fit. (Found: with a scatter that does not change with redshift the ratio is always 0.5; factors above 9.9 saturate silently; galaxy files whose stems differ in trailing f, i, t and dots share one redshift file.)", "quantifier": "all samples, errors, start values, fits that respect their bounds, splines, file names", "why_tests_cant": "the samples and the fitted medians are unbounded; a test has one training sample and one tolerance", "anchors": ["redmapper/calibration/redsequencecal.py:RedSequenceCalibrator._calc_pivotmags", "redmapper/calibration/redsequencecal.py:RedSequenceCalibrator._calc_medcols", "redmapper/calibration/redsequencecal.py:RedSequenceCalibrator.run"]}
{"id": "C176", "title": "The galaxies and start values of the redMaGiC calibration", "statement": "The redshift range of a redMaGiC fit begins the buffer above the lower end, is a whole number of bins and ends less than a bin beyond the buffer below the upper end; the galaxies kept for the calibration are exactly those within 0.05 of the range, below the largest chi-squared, and brighter than the faintest selection needs, so that no galaxy of a selection within the range is lost; the start value of the chi-squared cut at each node is that of a nearby galaxy at which the asked density is met, to one galaxy, or of the last galaxy if there are too few; without runs or galaxies it stops with an error. (Found: selections whose largest redshift is beyond the common range lose all galaxies beyond it; a node without any galaxy about it stops the calibration with an IndexError.)", "quantifier": "all galaxies, characteristic magnitudes, ranges, bins, buffers, selections, nodes and volumes", "why_tests_cant": "the sample and the nodes are unbounded; a test has one sample and one range", "anchors": ["redmapper/redmagic/redmagic_calibrate.py:RedmagicCalibrator.run"]}
{"id": "C177", "title": "The brightest satellites of the centering calibration", "statement": "A trial of the Monte Carlo draws different galaxies and returns the three brightest of them, and within a trial a richer cluster has no fainter brightest, second and third galaxy; the calibrated mean and width of the brightest galaxy are the least-squares lines in the logarithm of the richness through the fits at the richnesses 20 to 100, exact if these lie on a line, and give the magnitude expected at any richness. (Found: a cluster of richness lambda is drawn with lambda - 1 galaxies; the fits to the second and third galaxies are not used but a failing one stops the calibration.)", "quantifier": "all sampled magnitudes, random orders, numbers of trials, fits of the histograms and pivots", "why_tests_cant": "the draws are random and their number unbounded; a test has one seed and a tolerance", "anchors": ["redmapper/calibration/centeringcal.py:WcenCalibrator._schechter_montecarlo_calib", "redmapper/calibration/centeringcal.py:WcenCalibrator.run"]}
{"id": "C178", "title": "The luminosity filter is normalised", "statement": "The luminosity filter of a cluster is positive and proportional to the Schechter function of the luminosity; from the first tabulated magnitude to the limit it sums, in steps of 0.01, to one, and for faint-end slopes of -1 or steeper its integral is one, to 0.01 of its value at the limit; a fainter limit makes it smaller everywhere; for reference luminosities of at least a tenth the limit of every cluster is within the table; the filter of a mask galaxy is the same function of its luminosity. (Found: a limit beyond the end of the table is silently taken as its end; a table without magnitudes is an IndexError.)", "quantifier": "all characteristic magnitudes, slopes, limits, table sizes and galaxies", "why_tests_cant": "the filter is a function of real numbers; a test compares a few values with stored ones", "anchors": ["redmapper/redsequence.py:RedSequenceColorPar", "redmapper/redsequence.py:RedSequenceColorPar.lumrefmagindex", "redmapper/cluster.py:Cluster._calc_luminosity", "redmapper/mask.py:Mask.gen_maskgals", "redmapper/utilities.py:schechter_pdf"]}
{"id": "C179", "title": "The columns of a catalogue of clusters", "statement": "A catalogue of clusters read from a file keeps every column of the file under its lower-case name with its contents, has in addition every column of the configuration (or the base columns) that the file lacks, filled with zeros, and nothing else; reading it again changes nothing; subsets of subsets keep the columns and the rows picked; the catalogue that a run leaves has the rows kept with all their columns. A file that can be scanned in redshift can be scanned again from its result.", "quantifier": "every input table, configuration, list of columns, and every history of picks", "why_tests_cant": "files differ in columns, case and order; subsets of subsets are unbounded histories", "anchors": ["redmapper/cluster.py:ClusterCatalog.__init__", "redmapper/cluster.py:ClusterCatalog.__getitem__", "redmapper/cluster.py:ClusterCatalog.zeros", "redmapper/cluster_runner.py:ClusterRunner._postprocess", "redmapper/run_randoms_zmask.py:RunRandomsZmask._more_setup", "redmapper/run_zscan.py:RunZScan._more_setup"]}
{"id": "C180", "title": "The redshift correction as it acts on the catalogue", "statement": "After the redshift correction of a run, every cluster's row of the catalogue holds the corrected redshift, its error, and the corrected distribution of the redshift (bins and values, with unit integral), exactly what the correction returns for what the row held before; no other column and no other row changes. A caller of the correction finds their own arrays as they were.", "quantifier": "every catalogue, set of clusters, correction tables and integration rule with the stated laws", "why_tests_cant": "the result depends on aliasing: one of the two arrays is updated only through in-place arithmetic on a view", "anchors": ["redmapper/cluster_runner.py:ClusterRunner.run", "redmapper/zlambda.py:ZlambdaCorrectionPar.apply_correction", "redmapper/catalog.py:DataObject.__setattr__"]}
{"id": "C181", "title": "How much of a galaxy the clusters of a catalog have", "statement": "The shares of a galaxy in the clusters of a catalog (p times pfree of its rows in the member table) are never negative and together at most one, in the catalog of one percolation run and in the merged catalog of all tiles.", "quantifier": "all runs: any clusters in any order, any results of their processing, any galaxy, any selection of clusters; any number of tiles", "why_tests_cant": "The bound is an invariant of the whole history of a run: it depends on the order in which clusters took the galaxy, on how much each took and on which of them survive to the catalog, and for the merged catalog on several independent runs.", "anchors": ["redmapper/cluster_runner.py:ClusterRunner.run", "redmapper/cluster_runner.py:ClusterRunner._postprocess", "redmapper/run_percolation.py:RunPercolation._additional_initialization", "redmapper/redmapper_run.py:RedmapperRun._consolidate"]}
{"id": "C182", "title": "The clusters of a tile are those of the whole sky", "statement": "A percolation run over a part of the sky gives each cluster of the part the richness and members it has in a run over the whole sky, and the clusters of a run do not depend on the less likely clusters that come after them.", "quantifier": "all lists of clusters with any galaxies in common, any processing of a cluster, any selection of clusters and numbering of galaxies in the part", "why_tests_cant": "How a cluster is measured depends on all clusters before it through the galaxies they took, in chains of any length; no finite set of examples shows that a part is independent of the rest.", "anchors": ["redmapper/cluster_runner.py:ClusterRunner.run", "redmapper/run_percolation.py:RunPercolation._process_cluster", "redmapper/redmapper_run.py:RedmapperRun.run"]}
{"id": "C183", "title": "Spectroscopic redshifts of the redMaGiC calibration", "statement": "In the redMaGiC calibration a galaxy's spectroscopic redshift is that of a precise spectrum within three arcseconds to which no other galaxy of the sample is closer, and 0 when there is none; no such spectrum is lost.  Refuted: of several spectra of a galaxy the best counts; the calibration and the selection assign the same spectra and mark missing redshifts alike.", "quantifier": "every galaxy sample, spectroscopic file, error limit, distance function and matcher that finds the closest entry", "why_tests_cant": "A test has a handful of spectra, each near one galaxy; several spectra of one galaxy, or two galaxies near one spectrum, are not in it.", "anchors": ["redmapper/redmagic/redmagic_calibrate.py:RedmagicCalibrator.run", "redmapper/redmagic/redmagic_selector.py:RedmagicSelector.select_redmagic_galaxies", "redmapper/galaxy.py:GalaxyCatalog.match_many"]}
{"id": "C184", "title": "The catalogue a run starts with", "statement": "A run on random points starts with exactly the points of its file, in order and for any number of them, with position, identifier, input cluster, redshift and richness, and zeros in everything it measures.  A run on clusters keeps distinct identifiers, counts missing ones from 1 and changes nothing else; a scan in redshift also records the file's position as the original one and starts at the first redshift of the scan.  Refuted: a single cluster keeps its identifier; a file without positions is refused.", "quantifier": "every table of random points or clusters, with any columns and any number of rows, and every list of steps", "why_tests_cant": "A test starts one or two fixed files with all columns; files with one row or without a column are not among them.", "anchors": ["redmapper/run_randoms_zmask.py:RunRandomsZmask._more_setup", "redmapper/run_zscan.py:RunZScan._more_setup", "redmapper/runcat.py:RunCatalog._more_setup", "redmapper/cluster_runner.py:ClusterRunner._generate_mem_match_ids", "redmapper/catalog.py:DataObject.__setattr__"]}
{"id": "C185", "title": "Parameter row of the red-sequence calibration", "statement": "For every number of bands and all settings with a proper redshift range and positive node sizes, the calibration can make its row of parameters: no two columns share a name, node columns hold the nodes of their own settings, all tables start at zero, and every spline that a reader of the parameter file builds finds as many values as nodes, the nodes increasing to the end of the range", "quantifier": "all numbers of bands, redshift ranges, node sizes and largest nodes", "why_tests_cant": "the shapes and names depend on seven settings and on the number of colors; a test runs one survey's settings", "anchors": ["redmapper/calibration/redsequencecal.py:RedSequenceCalibrator.run", "redmapper/redsequence.py:RedSequenceColorPar.__init__", "redmapper/utilities.py:make_nodes"]}
{"id": "C186", "title": "A galaxy's redshift is the mean of its probability distribution, within two errors", "statement": "The log density of a galaxy in a bin of redshift is, up to a constant, the logarithm of the probability of that redshift: the Gaussian of the colors times the luminosity function at the galaxy's luminosity times the volume of the bin. The redshift given (before corrections) is within two errors of the mean over the bins with more than 1e-5 of the largest probability, and its error is the spread of the same distribution, at least 0.005. A bin without a volume does not count beside one with a real density, and a galaxy with no volume in any bin gets the values of a failed one.", "quantifier": "every grid, luminosity function, volume, chi squared and magnitude", "why_tests_cant": "The tests compare the redshifts of a few galaxies with stored values; the statement is about every calibration, galaxy and grid.", "anchors": ["redmapper/zred_color.py:ZredColor._calculate_lndist", "redmapper/zred_color.py:ZredColor.compute_zred"]}
{"id": "C187", "title": "The red-sequence model of the training step fits each color mode on its own", "statement": "The model of the red sequence that the training galaxies and the first member run are selected with has, for each color mode, the fit of that color: it does not depend on the other colors, on the other modes or on their order, and colors that are no mode are zero. The first fit of a mode is given the galaxies strictly between the 5% and the 99% point of the offsets from the initial color; the last ones the galaxies within one and a half widths of the median color at their redshift, each with that truncation. In the member run the red color of a mode at a redshift is the spline through the fitted mean.", "quantifier": "every sample of galaxies, list of modes, nodes and fitter", "why_tests_cant": "The test of the step compares the number of galaxies selected from one sample; the statement is about every sample and every list of modes.", "anchors": ["redmapper/calibration/selectspecred.py:SelectSpecRedGalaxies.run", "redmapper/run_colormem.py:RunColormem._more_setup"]}
{"id": "C188", "title": "Mask galaxies lie where they are said to lie", "statement": "A mask galaxy drawn from the profile is at its drawn distance from the center, in a direction of which no two random numbers give the same one; the uniform positions are inside the outer radius of the background annulus, and the share of random numbers that leads within a distance is the share of the area within it. The weight of a redshift offset is positive, symmetric and falls as a Gaussian with the configured error.", "quantifier": "every distance, outer radius, error and random number", "why_tests_cant": "Tests look at the columns of one generated file; the distribution is a statement about all random numbers.", "anchors": ["redmapper/mask.py:Mask.gen_maskgals"]}
{"id": "C189", "title": "What each kind of run does, and the files it writes", "statement": "For every kind of run (first member run, first pass, likelihoods, percolation, redshift scan, input clusters, random points) and whatever an earlier run left in the object, the run makes the passes of its kind, and exactly those share galaxies among clusters, record members, correct the redshift and take the derivatives of the richness that should; the clusters kept are those at or above the least richness of the kind. Different kinds of run never write to the same file in the same place, output writes the catalogue and the members and no other file, and filename is the file written.", "quantifier": "all kinds of run, configurations, states the object was left in, places, disks and ways of calling output", "why_tests_cant": "The flags are set in three places (constructor, general set-up, set-up of the kind) and survive in the object from run to run; tests run each kind once in a fresh object and directory.", "anchors": ["redmapper/cluster_runner.py:ClusterRunner._setup", "redmapper/cluster_runner.py:ClusterRunner.output", "redmapper/cluster_runner.py:ClusterRunner.filename", "redmapper/run_percolation.py:RunPercolation._more_setup", "redmapper/run_likelihoods.py:RunLikelihoods._more_setup", "redmapper/run_zscan.py:RunZScan._more_setup", "redmapper/runcat.py:RunCatalog._more_setup"]}
{"id": "C190", "title": "The diagnostics of redshifts", "statement": "For every catalogue, the comparison of redshifts with spectroscopic ones gives each cluster the median redshift of its own members, counts as outliers exactly the rows with a spectroscopic redshift off by more than the given number of errors, puts every redshift in one bin, and shows for each bin a median difference, a scatter and an error that come from the rows of that bin, with an offset common to all found exactly. Where there is nothing to compare, an error is raised.", "quantifier": "all catalogues of clusters and members, bin sizes, numbers of errors and ranges of redshift", "why_tests_cant": "Tests only check that a plot file is written; whose redshift a cluster is shown with depends on which clusters have members with spectra and on the order of the rows.", "anchors": ["redmapper/plotting.py:SpecPlot.plot_cluster_catalog_from_members", "redmapper/plotting.py:SpecPlot.plot_values", "redmapper/plotting.py:SpecPlot._make_photoz_map"]}
{"id": "C191", "title": "The number density in redshift", "statement": "For every catalogue, range and table of areas, the plot of the number density counts each object of the range exactly once, divides by the volume of the bin at the area of its redshift, draws exactly the bins with more than 25 objects, and the volumes add up to that of the range; the redshift drawn for a cluster lies within the range of its own density.", "quantifier": "all lists of redshifts, ranges, bin sizes, tables of areas, densities in redshift and random numbers", "why_tests_cant": "The ends of the range and bins cut by it matter, and the redshifts are drawn at random; a test sees one catalogue and no numbers.", "anchors": ["redmapper/plotting.py:NzPlot.plot_cluster_catalog", "redmapper/plotting.py:NzPlot.plot_nz"]}
{"id": "C192", "title": "The map of positions", "statement": "For every catalogue whose positions lie on an arc of at most 180 degrees in right ascension, also across 0, the map is drawn over no more than the length of that arc; it always shows the positions themselves or all of them turned by 180 degrees, whichever take less room.", "quantifier": "all non-empty lists of right ascensions", "why_tests_cant": "The choice depends on where the footprint lies; tests have one footprint.", "anchors": ["redmapper/plotting.py:PositionPlot.plot_positions"]}
{"id": "C193", "title": "The fit of a correlation between two colors", "statement": "For every data set, pair of colors, set of matrices and sequence of trials, the value of a trial of the fit of one correlation is minus the likelihood plus the prior, and larger by 100000 exactly if the covariance with that correlation is below the least eigenvalue in some direction at some node; the value does not depend on the trials made before, although each trial writes into the matrices it was given; all other entries of these are left alone; data of the wrong size are refused.", "quantifier": "all data sizes, colors, symmetric matrices, nodes, trial correlations and sequences of trials", "why_tests_cant": "The objective has a state that every trial changes, and an optimiser makes the trials; tests fit one pair of two colors without matrices.", "anchors": ["redmapper/fitters.py:RedSequenceOffDiagonalFitter.__init__", "redmapper/fitters.py:RedSequenceOffDiagonalFitter.fit", "redmapper/fitters.py:RedSequenceOffDiagonalFitter.__call__"]}
{"id": "C194", "title": "The files of the diagnostic plots", "statement": "After a diagnostic plot is saved, the plot object's filename is the file that was written, with the version in it exactly when the plot was asked to have it. The comparison of redshifts, the density in redshift, the counts in richness and the map of positions of a catalogue are saved to four different files, and those of catalogues with different base names are different; the file of a catalogue's plot does not depend on what was plotted with the same object before; the file name can be asked for before the first plot.", "quantifier": "every kind of plot, every sequence of plots with one object, with names of the user's own, every base name, version and directory", "why_tests_cant": "tests save one plot of a kind with a new object; that a plot does not overwrite another is about sequences of plots and all pairs of names", "anchors": ["redmapper/plotting.py:SpecPlot.filename", "redmapper/plotting.py:NzPlot.plot_nz", "redmapper/plotting.py:NLambdaPlot.plot_cluster_catalog", "redmapper/plotting.py:PositionPlot.plot_cluster_catalog", "redmapper/configuration.py:Configuration.redmapper_filename"]}
{"id": "C195", "title": "The counts in richness of a plot", "statement": "The plot of the richnesses of a catalogue counts every cluster with a richness from zero up to the last edge in exactly one bin, with bins that have their lower edge and not their upper edge, but for the last; every cluster of the catalogue is counted.", "quantifier": "all lists of richnesses and all bin sizes below 100", "why_tests_cant": "the sum of the counts over all bins, for all lists and bin sizes, on the edges and beyond the last one, is not what a plot in a test shows", "anchors": ["redmapper/plotting.py:NLambdaPlot.plot_nlambda"]}
{"id": "C196", "title": "The part of a map around a pixel", "statement": "Cutting a HEALPix map to a pixel gives the positions of exactly the map pixels inside that pixel, each once and in order; over all pixels of the sky every map pixel is in exactly one part; a border adds the map pixels about the boundary and takes none away.", "quantifier": "every pixel, every size of pixel and of map, every list of map pixels, with and without a border", "why_tests_cant": "a test cuts one map at one pixel; that nothing is lost or doubled at the boundaries is about all pixels and all pairs of sizes", "anchors": ["redmapper/utilities.py:get_hpmask_subpix_indices"]}
{"id": "C197", "title": "The arrays given to the richness solver", "statement": "A richness solver is made only from four arrays of one length and four correction parameters; any other sizes are a ValueError before memory is read, so the solver never reads beyond the end of an array.", "quantifier": "all sizes of the five arrays", "why_tests_cant": "tests give arrays of equal lengths; the check must hold for every combination of lengths, since the solver reads raw memory", "anchors": ["redmapper/solver_nfw/solver_nfw_lib.py:Solver.__init__", "redmapper/solver_nfw/solver_nfw_pywrap.c:SolverObject_init"]}
{"id": "C198", "title": "Runs with one object, one after the other", "statement": "Whatever runs were made with a runner object before, and however they ended, a run that ends raises nothing in its clean-up, releases everything that it read, and leaves its own catalogue and members, which output then writes; a run that finds nothing to do leaves no catalogue and output writes nothing; a run that fails releases what it read and output does not write the catalogue of an earlier run as its result.", "quantifier": "every sequence of runs with one object, each of which ends, finds nothing or stops with an exception at any point", "why_tests_cant": "tests run an object once to its end; what is left after exceptions at any point and over sequences of runs is not covered", "anchors": ["redmapper/cluster_runner.py:ClusterRunner.run", "redmapper/cluster_runner.py:ClusterRunner._cleanup", "redmapper/cluster_runner.py:ClusterRunner.output"]}
{"id": "C199", "title": "The message on memory", "statement": "The message on the memory in use is always made and never stops a run: if the status of the process can be read it has the current and the peak memory of the last such lines in MB, otherwise it says that there is no status.", "quantifier": "every status file, with blank, missing, repeated and malformed lines, and no file", "why_tests_cant": "a test sees the status of one machine; that no file, however it is broken, stops a run is about all files", "anchors": ["redmapper/utilities.py:getMemoryString"]}
