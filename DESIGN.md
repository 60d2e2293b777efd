# Formal model of erykoff/redmapper in Rocq (Coq 8.16)

## 1. Layout

    rocq/theories/Base/    python/numpy primitives (exceptions as values, searchsorted, where, take, match, argsort, ...)
    rocq/theories/Model/   executable model, function by function, each definition citing /repo file:lines
    rocq/theories/Spec/    small specifications, written without the model's helpers
    rocq/theories/Proofs/  lemmas
    rocq/theories/Props/   the property theorems, cases that meet their hypotheses, Print Assumptions
    properties.jsonl       the properties in English
    MANIFEST.json          which theorems settle which property
    seeded/LOG.jsonl       wrong programs the theorems were tried against

Exceptions are values (`res A := Ok a | Err exn`), loops are structural recursion, folds or explicit
fuel with an out-of-fuel answer, and processes are labelled transition systems over a shared state.
Floating-point numbers are idealised as exact numbers: `Z` for integer data and for values that are only
compared, `Q` where the code uses only + - * / and comparisons, `R` (standard library reals) where it
calls log, exp, sqrt, erf.  Calls into libraries (healpy, fitsio, scipy, esutil, OS) are parameters with
the assumed behaviour written as explicit hypotheses of the theorems.

A property whose full statement is false of the code is kept as it is in properties.jsonl; the theorem
`..._refuted` proves that it fails, and `..._partial` proves it under the weakest guard found.  Often the two
together are an equivalence.

## 2. Plan per property

Every property is expressible in the model; where the full statement is false of the code the refutation is proved too.

| ids | topic files | what is modelled | how it is proved |
|---|---|---|---|
| C01-C04, C61 | Catalog | DataObject/Entry/Catalog as tables of named columns: construction, add_fields, append, extend, selection, attributes, to_fits_file | induction over arrays and operation histories |
| C05, C06 | Maker | GalaxyCatalogMaker, serial: append, finalize, ids, master table | invariant over append histories; counting lemmas |
| C07 | ParMaker | parallel appends as a transition system over pixel files and locks | inductive invariant over all schedules |
| C08 | Lock | make_lockfile: mkstemp, link, unlink as atomic steps of any number of processes, with crashes | inductive invariant over all schedules |
| C09 | ZredTask | zred pixel tasks with pixel locks, the global lock and the master table | inductive invariant over all schedules; refutations for time-outs and stale files |
| C10, C11 | Galfile | GalaxyCatalog.from_galfile: regions, borders, cuts, zreds, errors | list lemmas; case analysis |
| C12, C33, C39 | Chunks, BkgGen | division of galaxies, redshift bins and sky pixels among workers | induction on the number of chunks; integer division |
| C13-C15 | Runner | the cluster loop: accumulated memberships, ids, post-processing | induction over the clusters for any per-cluster function |
| C16, C17 | Solver | solver_nfw.c: bisection and weights, any filter values | termination measure, bracket invariant over R |
| C18, C19 | Richness | calc_richness, calc_theta_i | list lemmas, real arithmetic |
| C20 | ClusterZ | the redshift setter and the neighbour distances | invariant over operation histories |
| C21, C22, C24, C65 | Zlambda | calc_zlambda: selection, iteration, limits, p(z) grid | induction over the passes; rational arithmetic |
| C23 | ZCorr | apply_correction with a linear integrator | real arithmetic; induction over the steps |
| C25-C28, C64 | Centering | BCG, WcenZred and RandomSatellite centering | sums and products by induction; sorting lemmas |
| C29, C30 | Vlim | volume limit mask, effective areas | searchsorted and cumulative sum lemmas |
| C31, C32, C63 | Bkg | background lookups | searchsorted lemmas over tables |
| C34, C35 | Randoms | generate_randoms, redmagic randoms, weights | induction over the stream of draws |
| C36, C37 | Consolidate | consolidation of pixel catalogs, serial and pipeline task | sorting and matching lemmas |
| C38 | Restart | a pixel worker with kills between and inside its writes | induction over kill histories |
| C40, C66 | Config | configurations with class-level storage; loading; calibration values | heap model; induction over operation histories |
| C41, C67-C69 | Fitter | red-sequence, off-diagonal and ecgmm fitters around any optimiser | state model of the aliased column; vector slicing |
| C42-C44 | Util | interpol, make_nodes, cic | piecewise-linear arithmetic over Q; induction over samples |
| C45, C46, C70 | RedSeq | red-sequence tables, lookup, covariances, extrapolation | rational arithmetic |
| C47, C71 | Chisq | chisq_dist.c with array offsets, the wrapper's shape checks, its callers | quadratic forms over R; offset arithmetic |
| C48 | ZredColor | photometric redshift of a galaxy and a catalog | positive linear functionals; iteration lemmas |
| C49, C72 | Depth | photometric error model and the depth fit | real analysis of the error function; identifiability |
| C50 | Redmagic | redMaGiC selection and task | list lemmas |
| C51, C73 | CalOrder | order of colors, constant-correlation covariance | induction over the order; quadratic forms |
| C52 | Members | member preparation | list lemmas |
| C53, C55, C59 | Modes | RunCatalog, RunZScan, masks of a cluster | induction over iterations/grid |
| C54 | Likelihood | cluster likelihood | real arithmetic over lists |
| C56, C57, C62, C74 | Names | file names as strings: stripping, patterns, replacement | string induction |
| C58, C78 | Colormem | training galaxies, first member run | list and sorting lemmas |
| C60, C77 | CalRun | the resumable calibration and its final check | induction over steps and kill histories |
| C75, C76 | Percolate | selection and order of seeds, one percolated cluster | sorting lemmas; induction over iterations |
| C79-C81 | MaskCorr | mask correction, its part of the richness error, scale values of randoms | real arithmetic over samples |
| C82 | ColFit | richness against a colour fitted on the spot; the colour-member decision | case analysis over solver outcomes |
| C83-C85 | FirstPass | seed selection of the first pass, radius constants, the work on one cluster | list lemmas; induction over iterations |
| C86-C88 | PixelTask | the per-pixel tasks of the pipeline, their files and restarts | invariant over histories of runs and kills |
| C89 | SpecSeeds | seeds from matched spectra | index-array lemmas over any matching |
| C90-C93 | BkgTable | the background tables: filling, cloud-in-cell densities, magnitude limit, fine tables, the two extensions | induction over pixels; rational arithmetic; composition of interpolations |
| C94-C96 | Search radii | _setup, r_mask, limlum of percolation and runcat, find_neighbors, compute_border over R | monotonicity of Rpower; the shipped settings as counterexamples; triangle inequality of any distance for the border |
| C97-C100 | Mask galaxies | sample_from_pdf, radial bins, read_maskgals/select_maskgals_sample, DepthMap.calc_maskdepth, compute_bkg_local over Q | thresholds of the inverse distribution function; floors and ceilings; medians are means of elements; weighted sums |
| C101-C104 | RedCal | redmagic_calibrate.py: ranges, training sample, starting values, cost function, the calibration file as a list of named extensions | order statistics of the sorted chi-squared values; the histogram counts each bin (floor arithmetic); a sum of non-negative terms is zero iff each is; induction on the selections |
| C105-C107 | CorrFit | the correction fitter's cost, parameter vector and the calibration of the corrections | algebra of the normal likelihood; list slices; a minimiser that does not make the cost worse as hypothesis |
| C108-C109, C111 | Nodes | populated bins, starting values by median, the check for negative redshifts | histogram and interval lemmas by induction over the nodes |
| C110 | ZCal | the steps of the redshift calibration and numpy's broadcasting of the node values | invariant of the loop: catalog = original corrected with the columns so far |
| C112 | Spline | the banded system, its elimination and the evaluation of a spline, over the reals | diagonal dominance gives existence and uniqueness by induction over the rows; pieces glued at the nodes with derivable_pt_lim |
| C113-C116 | Wcen | The centering calibration over its iterations: reading the file of the previous iteration, the random catalogs, the Monte Carlo trials (draws as a parameter), the model in the calibration and in the centering; the fits are parameters | Induction over the iterations; case analysis; permutation and order of the sorted draws; real analysis for the two models |
| C117 | PdfSample | The inverse cumulative sampling as a function of the uniform deviate, over the rationals | The set of deviates that give a grid point is an interval whose length is the normalised density |
| C118 | DepthFit | the start, the bookkeeping around the minimiser and the noisy application of the depth error model | start and cost by case analysis over the grid and the minimiser's contract; consistency as equalities over the reals; findings by witness |
| C119 | SelectRed | the selection of red galaxies by spectra and colours and its redshift range | membership iff against a written-out specification; NoDup; findings by witness |
| C120 | GalStats | the band names, reference band, limits and modes read from a galaxy file's header | induction over the header's band entries; findings by witness |
| C121 | ColorBkg | the colour range, the tables of one and two colours and the file written pair by pair | cells by the cloud-in-cell specification, sums by telescoping shares, the file by induction over the pairs; findings in general form |
| C122 | ColorBkg | reading the tables onto finer bins and their normalisation | sums exchanged and divided; a flat table shows the normalisation of one colour is wrong by 25 for every size |
| C123 | ParFile | the header of the parameter file as written and as read | induction over bands and b values; round trip; findings by witness |
| C124 | ParFile | the samples, the error ratio and the volume factor of the red-sequence calibration | filter laws, argmin over the grid by induction, field arithmetic |
| C125 | Setup | cluster_runner.py:175-258: the zreds required, the magnitude range, both ways of reading (temporary files or cuts in memory), the depth map or local depths; the settings of each runner class | both reading modes reduced to a filter of the same list (through the lemma of C10 on temporary files); each outcome by cases; the non-pixel file, swallowed depth errors and the randoms run refuted in general form |
| C126 | Setup | cluster_runner.py:343-349: assignment through the index arrays of the match | induction over the list of matches with a last-writer invariant; order dependence refuted for any two galaxies |
| C127 | RedFit | redmagic_calibrate.py:80-108, 230-276 (fit state and cost) against the selection model of C50 | refinement: the list of samples counted equals the list of first samples of the selected rows, by induction over the galaxies; the ignored afterburner setting and the extrapolation refuted in general form |
| C128 | RedFit | redmagic_calibrate.py:128-228, 432-443, 553-563, 594-638: the two fits, the five iterations, what is recorded, the calibration redshifts; minimizers and splines are parameters | invariant over the iterations; exact membership of the training galaxies; a concrete damped minimizer refutes that the cuts belong to the recorded corrections |
| C129 | RuncatCons | redmapperconsolidatetask.py:317-418: the loop over files with the match to spectra and the cut to the pixel | the fold over files in closed form (flat_map), then membership both ways and NoDup of identifiers by induction over files |
| C130 | RuncatCons | the same with members (355-356, 408-418) and plots (420-429) | members of kept clusters proved where no cluster is cut; uncut members, plots and mixed resolutions refuted |
| C131 | SubPix | utilities.py:1169-1229 with nested pixels as integers of any order; the ring numbering and the disc queries are inputs | arithmetic of parents and children; every position of the region has its coverage pixel read, in all three cases of resolutions |
| C132 | SubPix | depthmap.py:219-233 and volumelimit.py:294 on top of the same | membership in both lists of pixels characterised; the volume-limited one refuted for regions finer than the coverage |
| C133 | ZLamFit | calibration/zlambdacal.py:24-186: vector layout, objective and returned slices, over the reals; splines and minimiser are inputs | equations of slices for all eight selections; objective equal to the likelihood written independently |
| C134 | ZLamFit | the same; exponentials that underflow are replaced by -100 as in the code | from the penalty of 10000; monotonicity proved without underflow and refuted with it |
| C135 | ErrBin | fitters.py:1062-1185 with a concrete median over the reals; bins and bootstrap draws are inputs | the median commutes with scaling; the single-galaxy bin by computation of a median of equal values; sign of the ratio refuted |
| C136 | LikeInput | run_likelihoods.py:100-148, and Percolate for the run after it | the sequence of cuts equals one filter by an independent predicate; the cushion refuted for ranges that start below 0.05 |
| C137 | Profile | utilities.py:110-111, 134-174 and cluster.py:293, 486-488 over the reals; what is not a number is None | 2a < ln((1+a)/(1-a)) and atan b < b by the mean value theorem; case analysis on the radii; refuted for cores not smaller than the scale radius |
| C138 | CfgYaml | read_yaml, output_yaml and loading, with the class-level option store of Config | idempotence of loading: each fill-in rule is shown to have no effect on a loaded configuration (set_vars_twice, finish_again); writability characterised as an iff; refutation for options that are arrays but unset |
| C139 | CfgYaml | calibrate.py:187-280 as assignments to the option store, file names as parameters | symbolic execution of the assignments; composition with C138's reading; refutation for paths left relative |
| C140 | Runs over all tiles | RedmapperRun.run and _consolidate, with the workers, the division of the sky and the merging as parameters (Model/RunAll.v) | the fold over the workers' results characterised; file lists specified by membership and order; findings: configuration changed after failure, nothing found is an error, percolation_only with likelihoods |
| C141 | Tile files and restart | The names of tile files and the percolation-only worker as a list of writes to a disk (Model/RunAll.v) | injectivity of zero-padded decimal formats; induction on the number of reruns; findings: resolution missing from names, a begun file counts as done |
| C142 | Redshifts of a catalog in parallel | ZredRunCatalog.run and _worker: the ranges, the forked pool with any assignment of ranges to processes, each with its copy of numpy's generator, the slice assignments into the output (Model/ZredCat.v); the redshift of a row is a parameter (Model/ZredColor.v) | invariant over the ranges: the output is the finished rows followed by zeros; findings: fewer galaxies than processes, the same random numbers in every process |
| C143 | Area of a selection | The counts at bin edges, their ratio and the clipped correction of the area table in RandomWeigher.weight_randoms; the spline fit is a parameter (Model/RandArea.v) | searchsorted on sorted redshifts shown to count; order-independence through permutations; findings: 0/0 fitted as 0, points half a bin low |
| C144 | Names of masks and random catalogs | The file names of VolumeLimitMask and RandomWeigher and the reuse of files (Model/ProdNames.v) | exact characterisation of equal names by splitting at digits; findings: cuts within a tenth share a mask, the redshift range given is not in the name |
| C145 | Values of maps at positions | get_depth_values, get_fracgoods, calc_zmax, the geometry mask, compute_radmask and the conversion of tables to maps; healsparse and the pixel of a position are parameters | induction over the list of positions, with the pixel lookup total on the sky |
| C146 | Initial colours of red galaxies | RedGalInitialColors: the BANDS entry, names of colours, lookup of the column and linear interpolation; the template's table is a parameter | names of colours are injective for bands without a dash (all 256 characters checked by the kernel for the case of letters); interpolation from C42 |
| C147 | Memory predicted for tiles | predict_memory with Python's binding of arguments for the pixel lookup | the call fails to bind; with the intended lookup, induction over the tiles |
| C148 | Radii of the correction for the mask | the first lines of gen_maskgals over the reals, with floor and ceiling | bounds of floor and ceiling, monotony of the power, induction over the grid |
| C149 | Points drawn uniformly in a disc | x_uniform and y_uniform of gen_maskgals, CenteringRandom.find_center and the check of its centre in the percolation | sin^2+cos^2=1; exact ratio of areas; witnesses for positions off the sky |
| C150 | RedRun | the checks at the start of the redMaGiC calibration, the choice of each mode's mask and its recorded name, the path by which the selector finds it, the configuration written at the end and the path the redMaGiC run opens; paths are lists of components relative to a working directory | case analysis on the checks; equality of normalised paths; refutation for output directories other than the working directory |
| C151 | RedRun | check_files with each flag, each file unset, missing or present, and the list of tables of the background file | case analysis in the order of the code; refutations for unset files and for the tables alone |
| C152 | WcenFit | the three cost functions over the reals, with None for a value that is not a number or infinite; the minimiser is an input | the foreground cost is a quadratic form plus a logarithm, whose minimum is found from ln x <= x - 1; the sign of the width by comparing the densities cluster by cluster |
| C153 | WcenFit | the choice of parameters, the limits of five widths and the two accesses to bins beyond them | case analysis; refutation from the symmetry of the curve |
| C154 | CentRich | the redshift setter, the update of the radii, copy and the evaluation of the background of redshifts, on a record of the cluster; mstar and the angular scale are inputs | invariant (everything in step with the redshift) kept by every operation; refutations for the catalogue row, the background and clusters without redshift |
| C155 | CentRich | the two redshifts, clipped as by the setter, the four differences, and the order of correction and differences; richness and error are functions of redshift | field identities for exponentials of parabolas; refutations for corrected and low redshifts |
| C156 | CentRich | the list of richnesses at the centres with the mask of the first one, the mean and scatter, and the optical centre of a scan; the richness is a function of position and mask | bounds of a weighted mean and the variance identity by induction on the list; refutation by a mask with an edge |
| C157 | RandMaker | the pattern on the name of the random file, the makers of galaxies and random points, defaults of the information | exact characterisation of when generation starts and of the file; dictionary lookup by induction; findings: unescaped dot, bare names refused late, caller's dictionary changed, splitting is a NameError |
| C158 | RandMaker | the constructors of the three classes for random points | case analysis; findings: limit in names not that of a given mask, file names refused for red galaxies |
| C159 | MaskLoad | get_mask, the healsparse reader, the stand-in configuration, the cut of the maker | composition with the regions of SubPix; findings: the mask of the maker is never applied, unknown modes have no mask |
| C160 | MaskLoad | ZlambdaCorrectionPar.__init__, optional inputs of a run | grid by rounding lemmas, tables by index; findings: the end of the range is frozen, unreadable inputs left out silently |
| C161 | Ingest | the master table and pixel files of Model/Maker.v as the table Model/Galfile.v reads | composition: the conservation invariant of the maker and the region theorem of the reader, joined by a permutation lemma on pixel bins |
| C162 | Ingest | ZredRunPixels: region of the run, one worker per pixel, the table of redshift files | induction over the filled table; row-by-row relation between the galaxies and their redshifts; composed with C161 |
| C163 | Logging | configuration.py: the shared logger of the process, its handlers, start_file_logging and stop_file_logging with the flag kept per configuration, file names from the configured pixel, copies of configurations | invariant over all event histories: a message reaches the files whose handlers are attached; refutations for restart, stop with a shared logger, two starts, and no pixel |
| C164 | RedTask | redmagictask.py run: log, clobber checks, the loop over pixels and modes with spooling (write first, append later), early return, random points per mode; pixels read through from_galfile after a redshift run (Ingest) | induction over pixels and modes: catalog = selection of the concatenation; exact state after an unreadable pixel or an existing random file; composition with C162 for the pixels |
| C165 | Areas of the redMaGiC calibration | the redshift nodes, the areas of a volume-limited mask at the nodes (searchsorted of the used depths), the fixed mask, the volumes of the bins | laws about sorted lists; IndexError at the end of the range and the half bins at both ends as refutations |
| C166 | Recorded centre candidates | the arrays of a centering object with their empty slots, numpy's negative indices, assignment to the columns of the cluster with broadcasting, centering_cand, the members of Model/Runner | lemma on the row that is recorded, for all neighbours; last neighbour as refutation |
| C167 | Run over all tiles | composition of the workers (Model/Restart), the collection of their results (Model/RunAll) and the merging (Model/Consolidate); executions killed at any step of any worker | invariant of the files of every tile, refinement to the uninterrupted run; C36 for the merged catalog; files that no execution changes as refutation |
| C168 | Interrupted merging | the two files of the merged catalog with the check for existing files, killed after any write | invariant over histories of kills; unfinished or mixed files as refutations |
| C169 | Batch | Formatting with % and str.format, the text of a python literal, splitting of a command line, options of the pixel scripts, the command of LSF and parsl jobs (bin/redmapper_batch.py:177-206, 231, 258-278, 294-295; parsl_templates.py:73, 78) | Each round of formatting keeps text without its special characters (induction over the text), so that the words of the command line are known; witnesses and general statements for '%', braces and blanks |
| C170 | Batch | load_batchconfig, choice of the section, first use, wall time and nodes (bin/redmapper_batch.py:18-102, 108-149, 235-239) | Lookups through the defaults, induction over the sections; integer division |
| C171 | Batch | bin/redmapper_run_many_pixels_same_node.py:16-40 | Splitting of the joined list, and the scripts of C169 |
| C172 | Files of a consolidation | Model/ConsFiles.v: the pattern of the files (a general matcher of glob patterns), sorting of names, the regular expression searched in the full path, the resolution of the first file and the pixel of each file | glob and the search are characterised by decompositions of the name; sorted lists with the same elements are equal; numbers of one width are in the order of their digits; the leftmost match is the one of the tile, as an earlier one would lie in the path |
| C173 | Consolidation outputs | the cuts and limits used, the names of the outputs, the interleaved start/append loop over files and outputs on a disk, the renumbering | simulation of the interleaved loop by the single-output fold of C36 (induction over files, then outputs, disk framed by distinct names) |
| C174 | Run in jobs | the steps of the jobs' writes as events with kills, the directory they leave, what the consolidation finds and reads at any moment | events folded per job; composed with C172, C173 and the numbering of C36 |
| C175 | Medians and error ratio | magnitude range, widths, grid of ratios and its argmin, name of the redshift file | real analysis of the scaled pulls (median absolute deviation is equivariant), first minimum of a list, string lemmas |
| C176 | redMaGiC calibration sample | redshift ranges, the cut of the galaxies, candidates of a selection, windows and start values at the nodes | real inequalities of the luminosity cut, first index at a density in a sorted list |
| C177 | Brightest satellites | the trials, the three brightest galaxies, the lines through the fits | order statistics of nested lists (insertion sort), normal equations of the line and its uniqueness |
| C178 | Luminosity filter | the magnitudes of the table, cumulated sums, look-up by rounding, the filter of galaxies and mask galaxies | induction over the bins, mean value theorem for the integral, monotony of the Schechter function |
| C179 | Columns of cluster catalogues | the constructor (columns completed from a list, the configuration or the base), from a file, zeros, subsets, the cropping at the end of a run, the columns that redshift scans, colour runs and random points add; names as strings with lower-casing, columns as lists | the constructor as an equivalence with a completed table; subsets by induction over the history of picks; refuted: lists of columns of one's own are not kept, random points end with 46 columns instead of 16, a scan cannot read its own output |
| C180 | Correction on the catalogue | the memory of the catalogue as cells by row and column, clusters of the loop as views of rows, assignment to columns or to plain attributes, the correction with in-place division of the values, over the reals | the in-place correction equals the correction of a copy (induction over the steps); induction over the clusters with a frame condition; refuted: the caller's arrays do not stay a normalised distribution |
| C181 | Share of a galaxy | the loop of a percolation run (Model/Runner) with what it records, and the merging of tiles (Model/Consolidate); the processing of a cluster is a parameter | invariant by induction over the clusters: the shares recorded so far are at most the probability used up and at most one; sum over tiles; refutations for any number of clusters or tiles |
| C182 | Tiles and the whole sky | the loop of a percolation run (Model/Runner) on a list of clusters and on a part of it with other numbers of galaxies and ids; the processing of a cluster is a parameter | simulation: the two runs agree on the free probabilities of the galaxies of all clusters of the part still to come (induction over the clusters); prefix property; chains of any length for the refutation |
| C183 | Spectra of the redMaGiC calibration | cut on the error, match of every spectrum to the closest galaxy, assignment in file order, the mock truth; the selection's match in the other direction | last-writer lemma for repeated assignment, by induction over the spectra; general refutations for several spectra of a galaxy and for two galaxies near a spectrum |
| C184 | Start of a run | opening of the file, identifiers, copied columns, original positions and first redshift, as assignments to columns of a table | copy lemma by induction over the list of assignments; frame condition for the columns not named; general refutations for one-row files and files without positions |
| C185 | Parameter row of the red-sequence calibration | redsequencecal.py:80-158 (nodes, columns with shapes, zero row, starting values) and the splines read in redsequence.py:185-296 | name distinctness by stripping trailing digits; lookup lemmas of the filled row; node facts of C43 |
| C186 | Probability of a redshift | the log density of a bin (zred_color.py:281-321) and its use in the redshift of a galaxy | exp of the log density is the posterior; scaling of the integrals; composition with the theorems of C48 |
| C187 | Red-sequence model of the training step | the fits of each color mode (selectspecred.py:89-188) with the fitters as parameters, and the red colors of the member run (run_colormem.py:79-89) | order statistics of argsort; induction over the modes; relational argument that one color decides its fit |
| C188 | Positions of mask galaxies | positions from distance and random direction, uniform positions and the weight of the redshift offset (mask.py:194-206, 224-226) | polar coordinates, injectivity of the angle on one turn, monotonicity of the square root and of the exponential |
| C189 | RunFlags | The object of a run as a map from attribute names to values (so a misspelt attribute is one more attribute), the defaults, the assignments of each kind of run, the passes, the cut in richness, the names of the files and a disk of files with tables one behind the other | Case analysis on the kind with the earlier attributes arbitrary, injectivity of the name, effect of each write on every file; findings: percolation_memlum limits no members, failed clusters stay, output without clobber goes behind the old table, filename before the output lacks the version |
| C190 | PlotSpec | The medians of the members, the outliers, the bins, the bias, scatter and error of each bin and the coarse bins of SpecPlot; the drawing itself is not modelled. | The histogram of the match is a partition of its rows, so each cluster's list is that of its rows; the median has half of the values on either side; bins by the bounds of truncation. |
| C191 | PlotNz | The redshift drawn for each cluster, the counts, areas, volumes and densities of the bins of NzPlot; the volume of a redshift is a parameter that grows with redshift. | Counts from the lemma on histograms; the volumes telescope; a drawn redshift is one of the 100 points. |
| C192 | PlotNz | The choice between the right ascensions and those turned by 180 degrees of PositionPlot. | The extent is the largest difference of two of the values; an arc of at most 180 degrees that crosses 0 does not cross 180. |
| C193 | OffFit | The checks of the constructor, the objective with the matrices it writes to, and a sequence of trials; the likelihood of the galaxies (C54 for one of them) and the least eigenvalue are parameters, the latter with the property that it is the least value of the quadratic form on unit vectors. | Trials agree with the first matrices outside of the two entries they overwrite, by induction over the trials; the wall by the characterisation of the least eigenvalue; two colors by completing the square. |
| C194 | PlotOut | plot objects (name, version flag) of four kinds, plots of catalogues and of named values, file names | case analysis on kinds and requests, induction on the sequence of plots, comparison of names from their last characters; renaming by the plot before, filename before a plot and colliding redMaGiC names refuted |
| C195 | PlotOut | edges of np.arange(0, 200, binsize) and counts of numpy's histogram, over Q | existence (floor) and uniqueness of the bin, induction on the list of richnesses; clusters of 200 and above refuted |
| C196 | SubMask | the size of the reference pixels, the pixels inside, the discs about the boundary and the match with the map; HEALPix as a parameter with its nesting law | powers of two, membership through the fold over boundary points, nesting law; a map that is coarser than the pixel refuted |
| C197 | SubMask | the checks of sizes of the constructor of the solver, in python and in C | case analysis |
| C198 | Release | the attributes stored by the set-up in their order, courses of a run (exception at any point, nothing to do, end), clean-up and output | invariant over sequences of runs, deletion of a list without repetition; what broken runs hold and the stale catalogue refuted |
| C199 | MemMsg | the lines of a status file, their names and numbers, the exceptions and their handler | induction on the lines with the last value as invariant; first bad line |

## 3. Trusted base

### 3.1 Proof checking

Coq 8.16.1's kernel, and the standard library axioms of 3.4.  No axiom, admitted proof, functor, module type, plugin or
disabled kernel check is used.  `Section` variables are all discharged (they become hypotheses of the statements).

### 3.2 The model

That the definitions in `Model/` compute what the cited lines of /repo compute.  They were written by reading the
source; the code was not run.  Systematic simplifications:

- numbers are exact: no rounding, overflow, underflow, NaN or infinities, except where a constructor for "not finite"
  is part of the model (background densities, likelihoods, magnitudes, scale values);
- numpy arrays are lists; dtypes, views and aliasing are modelled only where they matter (the aliased error column of
  C41, the class-level storage of C40, the memory layout of the covariance stack in C47/C71);
- column contents that are only carried along are opaque integers;
- a file is a value under a name; writing one is a step that can be interrupted before or (where stated) in the middle;
- a python `Exception` raised without a more specific class is represented by RuntimeError.

### 3.3 Libraries: what is assumed of them

Each assumption is an explicit hypothesis of the theorems that need it, and each is met by a concrete instance in an
`Example` beside them.

| hypothesis | library | says |
|---|---|---|
| `argsort_spec` | numpy.argsort | a permutation of the indices that sorts (stability where stated) |
| `env_ok`, `healpix_ok`, `border_covered`, hierarchical pixels | healpy / hpgeom | position-to-pixel functions are consistent between resolutions (nested); `query_disc` with the border covers the border |
| esutil `match`, histogram `rev` | esutil | exact matches by value; reverse indices partition the input by bin |
| `file_ok` and file names | fitsio, glob, os | a table read back is the table written; glob patterns without metacharacters other than those of the code |
| `os.link`, `mkstemp` | POSIX | link is atomic and fails iff the target exists |
| `erf_ok` | scipy / C libm | erf is odd, increasing and within [-1,1] |
| `exp_like` | numpy | exp is positive and increasing, exp 0 = 1 |
| `gsl_ok` | gsl | LU inverse solves, eigen decomposition is orthonormal, determinant of a positive definite matrix is positive |
| `homogeneous`, `positive_mass` | scipy.integrate.simpson | linear, positive on positive functions |
| minimisers (`fmin`, `curve_fit`, `polyfit`, `lstsq`) | scipy / numpy | nothing: any answer is allowed |
| random draws (`unit_draws`, `round_ok`) | numpy.random | values in [0,1); nothing about their distribution unless stated |
| `source_ok` | yaml / configuration source | the parsed file is a list of name/value pairs |
| multiprocessing | python | workers return what the function returns, in order (Pool.map) |

### 3.4 What Print Assumptions lists

Each theorem below carries a letter for the axioms it depends on; `-` means "Closed under the global context".

- `a`: `ClassicalDedekindReals.sig_forall_dec`
- `b`: `ClassicalDedekindReals.sig_forall_dec`, `FunctionalExtensionality.functional_extensionality_dep`
- `c`: `ClassicalDedekindReals.sig_forall_dec`, `ClassicalDedekindReals.sig_not_dec`, `FunctionalExtensionality.functional_extensionality_dep`
- `d`: `ClassicalDedekindReals.sig_forall_dec`, `ClassicalDedekindReals.sig_not_dec`, `Classical_Prop.classic`, `FunctionalExtensionality.functional_extensionality_dep`

All of them are axioms of the Coq standard library (the construction of the reals, functional extensionality, excluded middle).

### 3.5 Source files and the lines modelled

Lines cited by the definitions of the model.  What is not listed is not modelled.

| file | lines (model file) |
|---|---|
| background.py | 130-173, 234-266 (Bkg); 327-328, 344-366 (BkgGen); 41-128, 185-232, 289-417, 420-569, 590-739 (BkgTable); 345-366, 493-528 (Chunks); 96-99 (Solver) |
| calibrate.py | 49-160, 297-540, 562-630 (CalRun); 161-183, 187-280 (CfgYaml); 202-209, 226-229 (Names); 512-533 (Nodes); 464-491 (Wcen) |
| catalog.py | 21-38, 84-88, 90-103, 112-124, 126-151, 153-195, 197-206, 230-244, 285-298, 300-310, 314-317 (Catalog); 143-151 (Consolidate); 126-151 (PixelTask); 126-151 (ProdNames); 84-103, 230-244, 313-316 (PzRow); 143-146 (RandArea); 84-88, 90-103 (StartCat) |
| centering.py | 44-56, 102-112, 340-349 (CentRec); 63-114, 116-351, 401-452 (Centering); 353-398 (RadBins); 162, 222-225 (Wcen) |
| centeringcal.py | 442-533 (BrightSat); 158, 275-281, 287-438, 480-494 (Wcen); 56-79, 141-172, 224-248 (WcenFit) |
| chisq_dist.c | 13-17, 49-54, 98-183, 217-297, 327-418, 436-520 (Chisq) |
| chisq_dist.h | 8-9 (Chisq) |
| chisq_dist_lib.py | 10-264 (Chisq) |
| chisq_dist_pywrap.c | 131 (Chisq) |
| cluster.py | 127-162, 173-188, 253-264, 367-390, 781-862 (CentRich); 23-63, 872-918, 920-978, 980-1000 (ClusCat); 154-162, 173-215, 217-264, 266-272, 786-837 (ClusterZ); 632-778 (ColFit); 141-142, 159-162, 785-801, 897-898, 980-1000 (FirstPass); 530 (Likelihood); 297-321, 482 (LumNorm); 526-537, 565-630 (MaskCorr); 392-456 (Maskgals); 486-488 (Profile); 233-250 (Radii); 458-563 (Richness) |
| cluster_runner.py | 454-498 (CentRich); 597-602 (ClusCat); 304-311 (ColFit); 360-381 (Colormem); 397-398 (FirstPass); 163-180 (MaskLoad); 422-436 (Maskgals); 429-444, 470-476 (Modes); 303-311 (Percolate); 628-673 (PixelTask); 454-468 (PzRow); 106-142, 260-261, 393-399, 500-511 (Radii); 144-200, 331-341, 363, 587-588, 610-626, 650-660 (Release); 628-662 (Restart); 66-81, 263-275, 356-382, 629-670 (RunFlags); 288-301, 356-585, 590-608 (Runner); 66-77, 145-258, 343-354 (Setup); 288-301 (StartCat) |
| color_background.py | 44-168, 170-293 (Bkg); 26-168, 315-504 (ColorBkg) |
| configuration.py | 119-148, 933-957 (CfgYaml); 483-498 (ClusCat); 831-837 (Colormem); 17-117, 150-167, 170-660, 785-829 (Config); 839-878 (ConsOut); 839-878 (DistRun); 661-783 (GalStats); 574-602, 604-610 (Logging); 533-534 (MaskLoad); 438-439, 839-870 (PixelTask); 866-880 (PlotOut); 839-878 (ProdNames); 959-973 (Radii); 513-514 (RedCal); 880-931 (RedRun); 866-871 (RunFlags); 831-837 (SelectRed); 335-349, 785-829 (Wcen) |
| depth_fitting.py | 30, 39-73, 76-114, 117-178, 244-245, 351-361, 363-394 (Depth); 99-111, 180-281 (DepthFit) |
| depthmap.py | 75-135, 280-326 (MapLook); 38-73 (MaskLoad); 137-194 (Maskgals); 57-63, 219-233 (SubPix); 197-254 (Vlim) |
| fitters.py | 672-927 (CorrFit); 1062-1185 (ErrBin); 93-468, 470-663, 930-1059 (Fitter); 14-69 (MedCol); 478-559, 561-598, 600-663 (OffFit); 37-65 (RedFit) |
| galaxy.py | 90-366, 476-521 (Galfile); 855-861 (Ingest); 763, 928 (Lock); 549-1038 (Maker); 523-547, 689-693, 733-735 (MaskLoad); 739, 804-818 (Names); 739-765 (ParMaker); 579-699, 709-731 (RandMaker); 131-163 (Setup); 441-474 (SpecMatch); 441-474 (SpecSeeds) |
| mask.py | 180-185, 215-222 (LumNorm); 374-404, 428-451 (MapLook); 97-116, 228-246, 281-327 (MaskCorr); 194-206, 224-226 (MaskGeo); 47-70, 336-372, 402-404, 407-426 (MaskLoad); 72-116, 128-132 (Maskgals); 47-70, 374-404 (Modes); 128-132, 191-202 (RadBins); 361-368 (SubPix) |
| mempredict.py | 24-109 (MemPred) |
| nfw_weights.c | 8-76 (Solver) |
| parsl_templates.py | 73, 78 (Batch) |
| plotting.py | 414-431, 468-484, 491, 724-732 (PlotNz); 24-44, 254-276, 376-394, 434-436, 505-511, 543-572, 586-665, 677-759 (PlotOut); 74-118, 154, 198-202, 210-223, 306-329 (PlotSpec) |
| prepmembers.py | 31-107 (Members) |
| randoms.py | 281-288, 357-360, 407-408 (ProdNames); 354-360, 362-405 (RandArea); 24-56, 86-91, 152-223, 230-263, 281-283 (RandMaker); 58-149, 265-360 (Randoms) |
| redmagic_calibrate.py | 698-702 (Names); 521, 535-551, 566-583 (RedArea); 80-108, 128-276, 438-443, 498-533, 594-638 (RedFit); 311-349, 475-478, 697-715 (RedRun); 372-406, 455-464, 523-526, 561-591 (RedSamp); 0, 363-365, 411-423 (SpecMatch) |
| redmagic_randoms.py | 17-47 (RandMaker); 49-137 (Randoms); 67-68 (RedTask) |
| redmagic_selector.py | 41-56 (RedCal); 39, 60-86 (RedRun); 93-244 (Redmagic) |
| redmagictask.py | 20-37 (RedRun); 39-172 (RedTask); 39-115 (Redmagic) |
| redmapper_batch.py | 63-102, 177-206 (Batch); 105-143, 147-152, 162-167, 213-216, 218-300 (Names) |
| redmapper_run.py | 138-143, 362-365 (CalRun); 154-246 (Chunks); 1, 248-367 (Consolidate); 369-462 (Restart); 56-152, 272-291, 395-399, 464-505 (RunAll); 120-152, 272-367, 369-462 (TileRun) |
| redmapper_run_many_pixels_same_node.py | 16-40 (Batch) |
| redmapper_run_redmapper_pixel.py | 11-25 (Batch) |
| redmapper_run_zmask_pixel.py | 11-25 (Batch) |
| redmapper_run_zred_pixel.py | 11-25 (Batch) |
| redmapper_run_zscan_pixel.py | 9-23 (Batch) |
| redmapper_runcat_pixel.py | 11-25 (Batch) |
| redmapperconsolidatetask.py | 77-87, 121-135, 331-341, 349-364 (ConsFiles); 27-62, 112-115, 198-235, 237-265 (ConsOut); 0, 64-265 (Consolidate); 77-135 (DistRun); 218-222, 267-288 (PlotOut); 317-429 (RuncatCons) |
| redmappertask.py | 100-112 (DistRun); 38-115, 150-180, 213-249, 282-310 (PixelTask); 67, 291 (RedRun) |
| redsequence.py | 467-562 (Chisq); 165-183, 330-339, 370-376, 383-399, 447-465 (LumNorm); 62-155 (ParFile); 185-296 (RedPars); 60-562 (RedSeq) |
| redsequencecal.py | 314-360, 488-721 (CalOrder); 198, 211, 219 (CalRun); 974-1069 (CorrFit); 362-391, 393-454 (MedCol); 255-312 (Nodes); 64-78, 161-166, 175-180, 430-454, 871-888, 903-931 (ParFile); 80-158 (RedPars) |
| run_colormem.py | 188-191 (CalRun); 71-86 (ClusCat); 113-152 (ColFit); 93-95, 106-111, 125-134, 154-174, 184-186 (Colormem); 79-89 (RedModel); 48-49, 98-103, 154 (RunFlags); 46-53 (Setup) |
| run_firstpass.py | 73, 97-309 (FirstPass); 68, 75-78, 230-242 (RunFlags); 70-73 (Setup) |
| run_likelihoods.py | 100-148 (LikeInput); 180-197, 226-228 (Likelihood); 188-255 (Percolate); 56, 68, 149-156, 242 (RunFlags); 57-66 (Setup) |
| run_percolation.py | 291-324 (CentRec); 404-436 (CentRich); 106-223, 225-439 (Percolate); 363-366 (RadBins); 201-218 (Radii); 77, 83, 195-223 (RunFlags); 78-82 (Setup) |
| run_randoms_zmask.py | 78-102 (ClusCat); 137-142 (MaskCorr); 42-51, 113-118 (RunFlags); 44-50 (Setup); 72-111 (StartCat) |
| run_zscan.py | 258-285 (CentRec); 248-304 (CentRich); 54-80 (ClusCat); 163-170 (Likelihood); 64-66, 110-250 (Modes); 33, 39-40, 91-111 (RunFlags); 34-39 (Setup); 51-90 (StartCat) |
| runcat.py | 117-182 (Modes); 104-113 (Radii); 30, 35, 89-98 (RunFlags); 31-34 (Setup); 78-87 (StartCat) |
| selectspecred.py | 216, 230 (CalRun); 82-87, 94-188, 190-216 (Colormem); 89-188 (RedModel); 51-216 (SelectRed) |
| selectspecseeds.py | 33-116 (SpecSeeds) |
| solver_nfw.c | 8-69 (Solver) |
| solver_nfw_lib.py | 47-72 (SubMask) |
| solver_nfw_pywrap.c | 92-141 (Solver); 56-80 (SubMask) |
| utilities.py | 468-549 (Depth); 1094-1100 (DistRun); 233-324 (InitCol); 1017-1074 (Lock); 52-67, 883-919 (Maskgals); 1102-1132 (MemMsg); 1094 (Names); 883-919 (PdfSample); 110-111, 134-174 (Profile); 437-466 (Richness); 331-436 (Spline); 1139-1166 (SubMask); 1169-1229 (SubPix); 555-581, 587-827, 833-877 (Util); 69-90, 941-1011 (WcenFit); 363-364, 398-401 (ZCal); 912 (ZredCat); 555 (ZredColor) |
| volumelimit.py | 210-272 (MapLook); 26-67 (ProdNames); 239-272 (Randoms); 285-290, 366-375 (RedArea); 265-270 (Redmagic); 81-87, 294 (SubPix); 94-208, 274-309 (Vlim) |
| zlambda.py | 558-663 (MaskLoad); 665-734 (PzRow); 636-657, 702-705 (ZCal); 665-734 (ZCorr); 45-552 (Zlambda) |
| zlambdacal.py | 219-234 (Nodes); 172-173, 240-249, 253-337 (ZCal); 24-186 (ZLamFit) |
| zred_color.py | 281-321 (LnDist); 56-91, 219-234 (ZredCat); 56-91, 94-279, 323-340 (ZredColor) |
| zred_runner.py | 76-81 (Chunks); 170-342 (Ingest); 44-100, 102-149 (ZredCat); 217-290, 293-342 (ZredTask) |
| zredtask.py | 96, 125 (Lock); 42-127 (ZredTask) |

## 4. Properties and theorems

A theorem whose name ends in `_partial` proves the statement under a guard; one ending in `_refuted` proves that the statement fails without it (a finding).  A property is "proved" when its whole statement is covered.

### C01 Building a catalog from several arrays keeps every column — proved

- `C01_catalog_init` (Catalog, -): C01. Building a catalog succeeds exactly when all arrays have the same number of rows and no two columns (of any arrays) share a lower-cased name, and the result is then the concatenation of all the columns.
- `C01_catalog_init_error` (Catalog, -)
- `C01_case` (Catalog, -): Names are compared without case: the capital letters become small ones, all other characters stay.

### C02 add_fields never changes existing data — proved

- `C02_add_fields` (Catalog, -): C02. add_fields keeps every existing cell and adds zero columns...
- `C02_add_fields_succeeds` (Catalog, -): ... it succeeds whenever no name clashes, and a clash raises ValueError.
- `C02_add_fields_rejects` (Catalog, -)

### C03 to_fits_file(indices=...) writes exactly the selected rows — partial

- `C03_to_fits_file_succeeds` (Catalog, -)
- `C03_to_fits_file_partial` (Catalog, -): C03. to_fits_file(indices) writes exactly the selected rows, for tables that do not have exactly one row. Missing: one-row tables, for which it is false (next).
- `C03_to_fits_file_refuted` (Catalog, -): Finding: for a one-row table the indices are ignored: an empty index array, or one that repeats the row, still writes one row.

### C04 Appending and extending catalogs keeps every row — proved

- `C04_growth` (Catalog, -): C04. Growth histories keep every row, in call order.
- `C04_getitem` (Catalog, -)
- `C04_growth_succeeds` (Catalog, -): C04. Growth succeeds whenever every appended catalog has the columns of the first one.
- `C04_getitem_succeeds` (Catalog, -)
- `C04_entry` (Catalog, -): C04. A row taken out on its own (an entry) is a table of one row; anything else is refused.

### C05 Galaxy catalog maker conserves galaxies (serial) — proved

- `C05_serial_conservation` (Maker, -): C05. After any history of appends on a fresh maker: the call on a chunk succeeds iff the chunk is acceptable, and each pixel file holds exactly the galaxies of the accepted chunks that are inside the mask and lie in that pixel, chunk after chunk; the counter is the file length.
- `C05_chunk_ok` (Maker, -)
- `C05_master_table` (Maker, -): C05. The master table written by finalize lists each non-empty pixel once, with its row count.
- `C05_existing_files` (Maker, -): C05. A maker started in a directory that already holds pixel files never changes them: a chunk with a galaxy for such a pixel is refused, for every history of appends.
- `C05_closed` (Maker, -): C05. Once finalize_catalog has been called, with whatever result, nothing can be added any more.
- `C05_split` (Maker, -): The whole catalog in one call: an acceptable catalog is stored and closed, every galaxy of the mask in the file of its pixel; of any other nothing is stored, and it is a RuntimeError.

### C06 Galaxy ids are unique in a finalized galaxy catalog — partial

- `C06_generated_ids` (Maker, -): C06. With generated ids, finalize succeeds, changes nothing but ids, and ids are 1..N.
- `C06_checked_ids_partial` (Maker, -): C06 (partial). Without generation, finalize returns normally exactly if all ids are distinct and otherwise raises RuntimeError. Missing: "leaves no master table" is false, see below.
- `C06_master_left_behind_refuted` (Maker, -): Finding: a duplicated id makes finalize raise, but the master table is already on disk.

### C07 Parallel galaxy catalog making loses no galaxies — proved

- `C07_no_lost_append` (ParMaker, -): At every moment a pixel file holds the rows of the completed writes to that pixel, in completion order, and nothing else; and what each process completed is an initial part of its queue.
- `C07_returned_is_stored` (ParMaker, -): A process whose append calls have all returned has all its rows on disk.
- `C07_all_returned` (ParMaker, -): When all [n] processes have returned, each pixel file is a rearrangement of all the rows sent to it.

### C08 make_lockfile gives mutual exclusion — proved

- `C08_mutual_exclusion` (Lock, -): No two processes hold the lock.
- `C08_history_alternates` (Lock, -): The history of acquisitions and releases alternates: a process is told it has the lock only when nobody else has been told so without releasing since.
- `C08_held_stable` (Lock, -): While a process holds the lock the lock file exists, and no step of others takes it away.
- `C08_no_temporary_left` (Lock, -): A call that has returned left no temporary file.
- `C08_nonblocking` (Lock, -): A non-blocking call fails exactly if the lock file exists when it tries.
- `C08_blocking` (Lock, -): A blocking call retries up to [maxtry] times and then gives up.

### C09 The zred master table is made only from complete pixels — proved

- `C09_table_safe` (ZredTask, -): From an empty directory the table is only written from complete files; from then on all files stay complete and no task is in the middle of one. Tasks may crash anywhere.
- `C09_table_written` (ZredTask, -): If every task runs to its end and gets the global lock, the table is written.
- `C09_locks_given_back` (ZredTask, -): A lock is held only by a task that is at work (or was killed there): tasks that ended have given all locks back.
- `C09_lock_timeout_refuted` (ZredTask, -): Finding 1: a task that fails to get the global lock in [maxtry] tries simply ends; if it was the last one, no table is ever written although no task failed.
- `C09_stale_files_refuted` (ZredTask, -): Finding 2: files left by an earlier run are counted, so a rerun publishes the table from them before the other tasks have run.

### C10 Reading a pixelized galaxy file returns exactly the galaxies of the region — proved

- `C10_region` (Galfile, -): C10. A successful read returns exactly the requested galaxies, in table order, each once, each with its own zred record.
- `C10_succeeds` (Galfile, -): C10. A valid request for a region with at least one readable galaxy is answered.
- `C10_tempfile` (Galfile, -): C10. Reading through the temporary file with cuts = reading, and keeping the galaxies within the cuts.
- `C10_one_row_zred_refuted` (Galfile, -): Finding: a zred file with a single record is silently broadcast to every galaxy of its pixel.

### C11 Invalid region requests are rejected with the documented error — partial

- `C11_negative_border` (Galfile, -): C11. Errors for invalid requests.
- `C11_border_with_list` (Galfile, -)
- `C11_nside_too_big` (Galfile, -)
- `C11_invalid_never_ok` (Galfile, -): C11. Whenever galaxies are returned the request was valid and some requested file is usable.
- `C11_empty_region` (Galfile, -): C11. A valid request for a region in which the table has no pixel never gives an empty catalogue: it raises IndexError, and ValueError when zreds are asked for.
- `C11_out_of_range_refuted` (Galfile, -): Finding: an out-of-range pixel raises NameError instead of ValueError.

### C12 zred chunks cover every galaxy exactly once — partial

- `C12_chunks_cover_partial` (Chunks, -): C12: with at least as many galaxies as processes, the chunks, in order, are exactly 0, 1, ..., ngal-1: every galaxy is in exactly one chunk. (Missing from the full property: fewer galaxies than processes, where the code fails: next theorem.)
- `C12_given_size` (Chunks, -): An explicitly given chunk size always works.
- `C12_few_galaxies_refuted` (Chunks, -): Finding: every file with fewer galaxies than processes makes the run fail.

### C13 Percolation never assigns a galaxy more than once in total — partial

- `C13_accounting` (Runner, -): C13. The probability of each galaxy used up is exactly the sum of the claims of the clusters processed so far, and each cluster is handed exactly one minus that sum: nothing is forgotten or counted twice, for every order and number of clusters.
- `C13_monotone` (Runner, -): The probability used up never decreases and never becomes negative, so free probability is at most one.
- `C13_unit_interval_partial` (Runner, -): It stays in [0,1] if no cluster claims more of a galaxy than the free probability it was handed.
- `C13_single_claim_partial` (Runner, -): It also stays in [0,1] for a galaxy that at most one cluster claims.
- `C13_overcommitted_refuted` (Runner, -): Finding: nothing holds a cluster to the free probability it was handed: two clusters with overlapping members claim 9/5 of a galaxy, and the third is handed -4/5.

### C14 Every cluster of a run has its own id — partial

- `C14_ids_distinct` (Runner, -): C14. If the id step succeeds all ids are distinct, one per cluster.
- `C14_duplicates_stop` (Runner, -): It stops with RuntimeError exactly when ids repeat without being all the same.
- `C14_unset_numbered` (Runner, -): A column holding one repeated value (the unset default) is numbered 1..n.
- `C14_user_ids_kept_partial` (Runner, -): Distinct user ids are kept when there are at least two clusters.
- `C14_single_cluster_refuted` (Runner, -): The id of a catalog with a single cluster is always replaced by 1.
- `C14_empty_refuted` (Runner, -): Without clusters there are no numbers to give: a ValueError.

### C15 The output catalog and member list of a run are consistent — partial

- `C15_consistent` (Runner, -): C15. When post-processing succeeds: the catalog holds the processed clusters whose richness is at least the minimum, in order, and the member table holds the rows saved for exactly those clusters, in order.
- `C15_member_rows` (Runner, -): What is saved for a cluster: its neighbours that pass the membership threshold and were more than 1% free, plus the centering candidates; the free probability recorded is the one handed, zeroed below threshold.
- `C15_succeeds_partial` (Runner, -): Post-processing succeeds when some cluster passes and at least one member was saved...
- `C15_none_passes_refuted` (Runner, -): ... and fails with ValueError, instead of producing an empty catalog, when members were saved but no cluster reaches the minimum.

### C16 The richness solver terminates on a bracketed root — partial

- `C16_terminates` (Solver, d): C16. The solver terminates for every positive tolerance and every input, and the result does not depend on how long it is allowed to run.
- `C16_range` (Solver, d): The result is -1 or a richness in [1, 2000); on -1 the radius is -1 as well, otherwise it is the radius of the richness.
- `C16_bracket_partial` (Solver, d): With the guard on the low end: the returned richness is the middle of an interval no wider than twice the tolerance whose ends lie on opposite sides of the richness equation (or are the ends of the search range).
- `C16_single_root_partial` (Solver, d): Hence a single crossing x* of the equation is found to within the tolerance.
- `C16_low_end_refuted` (Solver, d): Without the guard the claim is false: the richness equation of twelve equal galaxies (p = x/(x+10), weight 0.925) crosses once, at 1.1, but the reset of out < 1 to 0.9 flips the sign test at 0.988 and every run ends above 1.4.

### C17 Membership probabilities and weights are bounded — proved

- `C17_bounds` (Solver, d): C17. Every membership probability returned is in [0,1] and every weight is between 0 and the input weight.
- `C17_formula` (Solver, d): The probabilities belong to a richness within the tolerance of the one found; in particular a galaxy with zero filter value or infinite background gets 0.
- `C17_zero` (Solver, d)
- `C17_theta_hard_refuted` (Solver, d): theta_r returned in the hard-cut mode is not the radial weight: it is 1 for every galaxy inside the radius of richness 1000.25 (the first trial), even when it is outside the final radius and its weight is 0.

### C18 calc_richness accounts for every neighbor — proved

- `C18_unselected` (Richness, d): C18. After calc_richness: the same galaxies in the same order; galaxies that were not selected have all results zero.
- `C18_account` (Richness, d): A failed measurement: richness, error and scale value are -1 and every result is zero. Otherwise the richness is in [1,2000), the scale value is positive and times the sum of all memberships gives the richness, and every selected galaxy has 0 <= p <= 1, 0 <= pmem <= theta_i * pfree, 0 <= pcol <= 1, with pcol = 0 beyond r_lambda or beyond either magnitude limit; with a hard cut pmem = 0 beyond r_lambda; within the radius and the limits pcol is the share of the cluster in cluster plus background.
- `C18_flag` (Richness, d): The measurement fails exactly when the solver finds no richness or no galaxy has any weight.

### C19 The completeness weight is a proper weight — proved

- `C19_bounds` (Richness, c): C19
- `C19_faint` (Richness, c)
- `C19_bright` (Richness, c)
- `C19_monotone` (Richness, c)

### C20 A cluster's derived quantities follow its redshift — partial

- `C20_assignment` (ClusterZ, -): After an accepted assignment, at any point of any history, mstar, scale and all radii belong to the stored redshift, which is the assigned one or 0.01 if that was smaller.
- `C20_negative` (ClusterZ, -): Negative redshifts are rejected, and only they; the cluster stays as it was.
- `C20_scale_always` (ClusterZ, -): mstar and the angular scale belong to the stored redshift after every history of operations.
- `C20_radius_partial` (ClusterZ, -): So do the radii, if neighbours are only replaced by find_neighbors.
- `C20_set_neighbors_refuted` (ClusterZ, -): set_neighbors on a cluster that has a redshift leaves the radii it was given.

### C21 The redshift neighbor selection is well-formed — proved

- `C21_selection` (Zlambda, -): With three usable neighbours the selection answers: at least three different neighbours, all of them usable, each with a weight strictly between 0 and 1, and it contains every usable neighbour at least as likely a member as some threshold neighbour that is itself selected.
- `C21_fail_iff` (Zlambda, -): The selection declares failure exactly when there are not three usable neighbours.
- `C21_fail_reported` (Zlambda, -): When the neighbours at the starting redshift hold fewer than three usable ones, the measurement returns -1 for both the redshift and its error.

### C22 A failed cluster redshift is reported as -1 — partial

- `C22_bounded` (Zlambda, -): C22
- `C22_failure_reported_partial` (Zlambda, -): A pass that finds no neighbour, too small a richness or too few neighbours, at whatever point of the history, makes the result -1 for redshift and error. Missing: a parabola fit without a minimum (see the refutation).
- `C22_history` (Zlambda, -): The whole history without p(z): the first pass is made at the redshift given, each further one at the redshift the pass before proposed. The search ends where the proposal differs by less than the tolerance (or is negative), or with the proposal of the last pass allowed. Then the result is that redshift, or -1 when no error can be found. The magnitude limit is that of the redshift given, and that of each pass when a limit is given (see C21).
- `C22_range_partial` (Zlambda, -): Without p(z) the result is -1 or within 5.5 steps per pass of the start. Missing: the p(z) mode.
- `C22_fit_failure_refuted` (Zlambda, -): A fit that has no minimum in any pass is reported as a positive redshift with an error: the stand-in value -1 is replaced by the lower end of the fitted range.
- `C22_negative_refuted` (Zlambda, -): Finding: close to zero a failed fit comes out as a negative redshift other than -1.
- `C22_no_errors_refuted` (Zlambda, -): Without a request for errors every outcome, also a success, has the error -1 that marks failure.

### C23 Redshift corrections keep errors and probabilities proper — partial

- `C23_error_not_reduced` (ZCorr, c): Whatever the options, a returned error is not smaller than the error given.
- `C23_without_pz` (ZCorr, c): Without p(z) and with error correction every call succeeds.
- `C23_with_pz` (ZCorr, c): With p(z) on a uniform grid of at least two points every call succeeds: the result is the same distribution up to a factor, on a uniform grid of the same size and at least the old spacing, with unit integral, and for an odd number of points its middle keeps its distance from the redshift.
- `C23_noerr_refuted` (ZCorr, c): Without p(z), asking for no error correction is a TypeError.
- `C23_noerr_ignored_refuted` (ZCorr, c): With p(z) the option has no effect: the error is enlarged all the same.
- `C23_few_bins` (ZCorr, c): A redshift distribution of fewer than two points cannot be corrected.

### C24 The redshift probability grid is centred and normalised — partial

- `C24_fast_grid` (Zlambda, -): The usual (fast) grid: n uniformly spaced points from z - dz to z + dz with dz between 0.005 and 0.15.
- `C24_middle_partial` (Zlambda, -): With an odd number of bins the middle point of the fast grid is z_lambda.
- `C24_even_bins_refuted` (Zlambda, -): With an even number of bins no grid point is at z.
- `C24_slow_limits` (Zlambda, -): The slow mode's search for the limits ends inside the redshift range, for every likelihood.
- `C24_slow_grid` (Zlambda, -): The slow grid is uniform and has z among its points.
- `C24_slow_middle_refuted` (Zlambda, -): But z need not be its middle point, and the grid can leave the redshift range.
- `C24_pz` (Zlambda, -): p(z) is non-negative and integrates to 1 on either grid.

### C25 Centering probabilities form a distribution — partial

- `C25_distribution_partial` (Centering, -): Whenever a center is found p_cen is a distribution and q_cen lies in [0,1]. Missing: the reported q_miss (see the refutation).
- `C25_qmiss_refuted` (Centering, -): With candidates found, q_cen never sums to 1 and the reported q_miss is 0, so together they fall short of 1.
- `C25_none_good` (Centering, -): With no candidate of positive probability, q_miss is 1 and the q_cen sum to 0.
- `C25_three_partial` (Centering, -): For each candidate with a satellite or background density the three probabilities sum to 1.
- `C25_three_refuted` (Centering, -): Without either density the satellite and foreground probabilities are both 0, whatever p_cen is.
- `C25_basic` (Centering, -): Which galaxies are no candidates: those without a density as a center (below 1e-10), and those that are not free. A galaxy is never a center with a probability above 0.99999; up to this cap it is the share of the density of centers in that of all three kinds, times the probability of being free.

### C26 The most likely center is listed first — partial

- `C26_list` (Centering, -): C26
- `C26_most_likely_kept` (Centering, -): No galaxy left out of the list has a larger probability of being central than one on it.
- `C26_answers` (Centering, -): When some galaxy passes the cuts an answer is given.
- `C26_no_place` (Centering, -): With no place for a center on the list, a likely center is an IndexError.
- `C26_no_candidate_refuted` (Centering, -): Without a galaxy passing the cuts the call raises instead of returning False.

### C27 BCG centering returns the brightest eligible galaxy — proved

- `C27_brightest` (Centering, -): find_center always answers; it names an eligible galaxy no eligible galaxy is brighter than (smaller magnitude), or says there is none when no galaxy is eligible.
- `C27_false_iff` (Centering, -)

### C28 Random satellite centering picks an actual candidate — partial

- `C28_member_partial` (Centering, -): When the memberships are not all zero, every draw picks a neighbour of positive membership.
- `C28_no_member_refuted` (Centering, -): Without a neighbour of positive probability the call raises instead of returning False.

### C29 The volume-limit mask gives the largest complete redshift — partial

- `C29_mask_partial` (Vlim, -): The redshift limit of a kept pixel is one of the bins after the first; the pixel is complete, in every band, in all bins BEFORE it, and in a later bin in no case unless it is the last bin. A pixel is masked exactly when in some band its depth does not exceed the magnitude at the first bin. Missing from the claim: the bin itself.
- `C29_masked` (Vlim, -): Complete nowhere in some band: masked. No coverage in an extra band of positive magnitudes: masked.
- `C29_one_bin_too_high_refuted` (Vlim, -): Every kept pixel whose limit is not the last bin is NOT complete at the limit it is given: the limit is one bin too high.
- `C29_exact_depth_refuted` (Vlim, -): A pixel exactly as deep as the first bin needs is complete there and is masked.

### C30 Effective areas are areas — partial

- `C30_vlim_partial` (Vlim, -): The areas of a volume limit mask with positive good fractions: always answered, between 0 and the total, non-increasing in redshift, and the total below every pixel's limit. Missing: the amount in between and beyond.
- `C30_beyond_refuted` (Vlim, -): At and beyond the deepest pixel the answer is the area of a shallowest pixel, never 0.
- `C30_amount_refuted` (Vlim, -): In between: a deep small pixel and a shallow large one; past the shallow one the whole area is still reported.
- `C30_depth_partial` (Vlim, -): Depth map with at least two pixels: between 0 and the total, non-increasing.
- `C30_depth_one_refuted` (Vlim, -): One pixel: every query raises.
- `C30_depth_beyond_refuted` (Vlim, -): Fainter than every depth: the area of two pixels, never 0.

### C31 Background lookup uses the right bin — partial

- `C31_lookup_partial` (Bkg, -): C31. For every well-formed table and every query whose chisq is not exactly the lowest edge: inf when chisq or refmag is outside of the table, and otherwise the density of the bin that contains (chisq, refmag) at the nearest tabulated redshift (inf if that is 0 and zeros are not allowed).
- `C31_bin_unique` (Bkg, -): a point is in at most one bin
- `C31_lowest_edge_refuted` (Bkg, -): Finding: a galaxy exactly on the lowest chisq edge (chisq = 0, a perfect colour match) gets the density of the LAST chisq bin, in every table.

### C32 zred background lookup flags values outside the table — partial

- `C32_lookup_partial` (Bkg, -): C32. Below (or on) the lower edge: inf. Above it: the density of the bin containing the point, where the last bin has no upper end. (Missing: inf above the table, refuted next.)
- `C32_above_refuted` (Bkg, -): Finding: values above the table are never flagged; however far away they get the last bin's density.

### C33 The background generator computes every redshift bin once and counts every galaxy — partial

- `C33_bins_once_partial` (BkgGen, d): Every bin goes to exactly one worker, whatever the bins inside zrange and the number of workers are, provided no bin coincides with an inner division between two workers (missing: that case, refuted below).
- `C33_bin_on_division_refuted` (BkgGen, d): Finding: a bin that coincides with a division is computed by no worker (its density stays 0).
- `C33_pixelized_read_all` (Chunks, -): C33, second half. A pixelised catalog is read completely, each galaxy once...
- `C33_single_file_refuted` (Chunks, -): ... finding: of a catalog that is a single file nothing is ever read.

### C34 Random points obey the mask — partial

- `C34_count_partial` (Randoms, -): Whatever is drawn, if the loop ends there are exactly nrandoms rows with ids 1..nrandoms, every position is one drawn inside the mask that survived the good-fraction test, with a positive redshift of a drawn cluster. Missing: the maximum redshift at the point's own position.
- `C34_redmagic` (Randoms, -): The redmagic version also keeps every redshift below the limit at the point's own position.
- `C34_no_holes_partial` (Randoms, -): For clusters the same holds when every drawn position is entirely good.
- `C34_other_limit_refuted` (Randoms, -): Finding: for cluster randoms a redshift can exceed the maximum at the point itself: after the holes are cut out, limits of other points are used.
- `C34_endless_refuted` (Randoms, -): If no catalog redshift fits below any limit, no number of passes is enough: the call does not return.
- `C34_progress` (Randoms, -): If every pass places at least one point, nrandoms passes suffice.

### C35 Random weights preserve the number of randoms — partial

- `C35_file_partial` (RandArea, -): The file holds exactly the points with their weights (C35) unless a single point is used.
- `C35_single_refuted` (RandArea, -): Finding: a single point that fails the cuts is written all the same, with weight 0.
- `C35_weights_partial` (Randoms, -): Every kept point is a random of the redshift range that passes the richness and mask cuts and whose cluster passes the cluster cut; and if a cluster has a kept point, its kept weights add up to the number of its randoms in the redshift range.
- `C35_complete` (Randoms, -): Every passing point of a passing cluster is kept.
- `C35_lost_refuted` (Randoms, -): Finding: a cluster whose randoms all fail the cuts loses them altogether: its weights do not add up to their number.
- `C35_area_edge_refuted` (Randoms, -): The area correction counts with another cut than the weights: a kept point whose richness is at the upper edge of the bin is not counted as good.
- `C35_errors` (Randoms, -): A random point in the redshift range that belongs to no cluster of the catalog stops the weighting with a RuntimeError, as do a range without random points and a cut without clusters.
- `C35_cuts` (Randoms, -): The cuts spelled out: richness above the smallest (divided by the scale value where the selection is on the scaled richness), within the bin (its lower end excluded, its upper end included); for points also the masked fraction.

### C36 Consolidation renumbers clusters and members consistently — partial

- `C36_consolidated` (Consolidate, -): When ids are unique in every file, every surviving cluster has a member and at least one cluster survives: the consolidated ids are 1..n in decreasing likelihood, there is a renumbering of the clusters file by file such that the catalog holds exactly the surviving clusters, each once with all its data and its new id, and the member table holds exactly the members of surviving clusters, each with all its data and the new id of its own cluster.
- `C36_nothing_refuted` (Consolidate, -): No surviving cluster at all: AttributeError instead of an empty catalog.
- `C36_task` (Consolidate, -): The pipeline task, for every richness cut and volume limit: numbers are ranks of likelihood among all surviving clusters of all files; a cluster of the output carries its rank and a member the rank of its cluster.
- `C36_task_gaps_refuted` (Consolidate, -): With a richness cut the ids of an output of the task are not 1..n and the rows not in order of likelihood.
- `C36_survives` (Consolidate, -): Which clusters survive: those in the file's pixel, with less than the largest masked fraction, richer than the smallest richness, divided by the cluster's scale value where the selection is on the scaled richness.

### C37 The consolidated richness cut uses each cluster's own scale value — partial

- `C37_selection_partial` (Consolidate, -): The task's cut, when scale values are off, or on and no file loses a cluster in the pixel cut (or all of them): a surviving cluster is in the output iff its richness (over its own scale value) exceeds the cut and its redshift is below the limit at its own position; its members are all there, and nothing else unless a file has exactly one member.
- `C37_scale_error_refuted` (Consolidate, -): With scale values on, a file that loses some but keeps at least two clusters stops the task.
- `C37_scale_other_refuted` (Consolidate, -): Finding: a file in which the pixel cut leaves one cluster out of several stops the task with IndexError, although the cluster passes.
- `C37_nothing_refuted` (Consolidate, -): No cluster passes a cut: KeyError.
- `C37_orphan_refuted` (Consolidate, -): Finding: a file with exactly one member keeps that member even when its cluster is dropped.
- `C37_one_survivor_refuted` (Consolidate, -): In general: with scale values on, and one cluster of several left by the pixel cut, the cut compares the richness of that cluster over the scale value of each row of the file; if it passes with that of any row but the first, the task stops with an IndexError. Finding: the scale values used are those of other clusters.

### C38 A restarted run produces what an uninterrupted run produces — partial

- `C38_restart_partial` (Restart, -): For every history of kills none of which hits the middle of an output, a final undisturbed execution leaves the files of an uninterrupted run.
- `C38_not_recomputed` (Restart, -): A step whose file is complete is never run again.
- `C38_torn_refuted` (Restart, -): Killed while a file is being written: no number of restarts repairs it.
- `C38_members_lost_refuted` (Restart, -): Killed between the percolation catalog and its members: the members never appear.
- `C38_reached_refuted` (Restart, -): All of these states are reached by one kill of a run from an empty directory.
- `C38_empty_rerun_refuted` (Restart, -): A step that produced nothing leaves no trace and is run again each time.
- `C38_without_check` (Restart, -): Without checking for files, one undisturbed execution repairs any disk.

### C39 The sky is split into pixels that cover it exactly once — partial

- `C39_splits` (Chunks, -): C39: more than one process. The split exists; its pixels are distinct; a pixel is a split pixel iff it contains a galaxy-table pixel of the region, so each such table pixel is in exactly one split pixel (the one containing it at that resolution); the resolution is the finest allowed one that keeps the number of pixels within twice the number of processes, or the coarsest one if none does.
- `C39_single_process_partial` (Chunks, -): A single process: the same when the configured resolution is not above the minimum one...
- `C39_single_process_refuted` (Chunks, -): ... and a failure otherwise: finding.

### C40 Configurations are independent — partial

- `C40_defaults` (Config, -): An option that is not in the file, not a statistic of the galaxy file, not read from a centering file and not one of the four options filled from others has its default, whatever happened in the program before.
- `C40_given` (Config, -): An option in the file has the value in the file.
- `C40_history` (Config, -): What loading a file gives does not depend on anything loaded or set before.
- `C40_unknown_partial` (Config, -): A name that is neither an option nor a method makes loading fail.
- `C40_method_name_refuted` (Config, -): ... but the name of a method is taken without a word and changes no option.
- `C40_lengths` (Config, -): A loaded configuration has every required option, and its arrays and lists have the expected lengths.
- `C40_consistent` (Config, -): A loaded configuration is consistent: no mask file together with mask_mode 0, every band of the volume limits is one of the bands, and the second radius of the background annulus is larger than the first.
- `C40_default_length_refuted` (Config, -): The default lists of node sizes have one element: with any number of bands but two, a file that does not give calib_color_nodesizes cannot be loaded.
- `C40_any_value_refuted` (Config, -): A plain option takes any value: a sequence, or a value of another type.
- `C40_shared_refuted` (Config, -): All configurations share their options: setting one on any of them sets it on every other.
- `C40_load_resets_refuted` (Config, -): ... and loading a second file resets every option of the first configuration.
- `C40_copy_region_refuted` (Config, -): A configuration and its copy share the region settings; configurations loaded separately do not.
- `C40_region_separate` (Config, -)
- `C40_annulus` (Config, -): An annulus of the local background whose outer radius is not above the inner one is refused.
- `C40_one_bound` (Config, -): A redMaGiC redshift range of one number is not understood: an IndexError if it is not negative; a negative number stands for the redshift range of the clusters, whatever follows it.
- `C40_region_area` (Config, -): A run in one region of the sky, without the depths of the survey, needs the area: without one the settings are refused, with one they are not.

### C41 Fitting a red sequence evaluates a fixed objective — partial

- `C41_fixed_partial` (Fitter, d): C41: when the bluer band's error ratio is being fitted, an evaluation gives the intended objective after any history of evaluations; when the scatter is not fitted the value does not depend on the history either.
- `C41_drift_refuted` (Fitter, d): Without error ratios (the default) every evaluation adds the redder band's error once more: after n evaluations the objective is that of data whose first error column has grown by n times the second.
- `C41_rises_refuted` (Fitter, d): So two evaluations at the same parameters differ: for a galaxy on the model color the value rises each time.
- `C41_width` (Fitter, d): The intended objective uses, for each galaxy, the squared width given by the scatter and by the errors with their ratio.
- `C41_start_refuted` (Fitter, b): Each start of a fit with fixed scatter grows the column as well.

### C42 Linear interpolation is exact at nodes and linear between — proved

- `C42_between` (Util, -): C42: between two neighbouring nodes the result lies on the segment joining them (so it is exact at both nodes).
- `C42_node` (Util, -)
- `C42_outside` (Util, -): Outside: the line through the first two, or the last two, nodes is continued.

### C43 Spline nodes span the requested range — partial

- `C43_nodes` (Util, -): C43: the nodes are strictly increasing, end at the end of the range, contain the requested last regular node, and neighbouring regular nodes are never nearer than half, nor farther than one and a half, node sizes (plus 0.01).
- `C43_start_partial` (Util, -): The first node is the start of the range exactly when the regular part is longer than half a node size plus 0.01 (or than a whole one).
- `C43_start_refuted` (Util, -): Otherwise the start of the range is lost: there is no node there and everything below the only regular node is extrapolated.
- `C43_empty_refuted` (Util, -): A requested end not above the start of the range raises ValueError (the maximum of an empty array).

### C44 Cloud-in-cell counts conserve weight — partial

- `C44_cells` (Util, -): C44: every sample inside the grid is spread over the cells that the unit box centred on it covers, in proportion to the overlap; nothing is written outside the grid. Any number of axes.
- `C44_flat` (Util, -): the positions of the cells are exactly the positions of the array, each once
- `C44_total_partial` (Util, -): With wraparound the total is conserved; so it is for samples at least half a cell from the edges.
- `C44_isolated_le` (Util, -): Without wraparound (the default, and what every caller uses) a sample keeps at most its value, and loses the part of its box outside the grid.
- `C44_edge_refuted` (Util, -): Finding: without wraparound a sample within half a cell of the lower edge loses part of its weight.
- `C44_average` (Util, -): Averages: a cell reached by samples gets a weighted mean of their values; a cell no sample reaches is zero.
- `C44_outside` (Util, -): A sample beyond the last cell of a one-dimensional grid stops the assignment.

### C45 Red-sequence tables are looked up at the right redshift — partial

- `C45_mono_bounds` (RedSeq, -): C45: for every table and all redshifts the index is non-decreasing, and up to the overflow value it is in bounds.
- `C45_beyond_refuted` (RedSeq, -): Beyond the overflow value the index is past the end of every table.
- `C45_near` (RedSeq, -): Inside any table the row found is within 1/int(1/zbinsize) of the redshift.
- `C45_nearest_partial` (RedSeq, -): For tables that start on a multiple of the bin size it is the nearest row, up to half a bin above the last row; from there on it is the overflow bin.
- `C45_nearest_refuted` (RedSeq, -): A table that starts elsewhere is read in a wrong row: with bins of 0.005 from 0.052, redshift 0.0528 is read in the row of 0.057; with bins from 0.0525 even a tabulated redshift is read in another row.

### C46 Red-sequence covariance matrices are valid — proved

- `C46_covmat` (RedSeq, -): C46: whatever the splines give, the matrix is symmetric, its diagonal is the square of a width of at least the minimum, its off-diagonals are the product of the widths with a correlation in [-0.99,0.99], and values in range are kept.
- `C46_minors` (RedSeq, -): so every 2x2 principal minor is positive
- `C46_three_colors_indefinite` (RedSeq, -): With three or more colors that does not make the matrix positive: admissible correlations can give a negative chi-squared form.
- `C46_corr_r` (RedSeq, -): the width corrections are never below one half

### C47 chi-squared values are non-negative and consistent between modes — partial

- `C47_covariance` (Chisq, b): the total covariance: symmetric, and its form is the calibrated form plus a square per band plus the square of the magnitude term
- `C47_residual` (Chisq, a): the residual: colour of the red sequence at the galaxy's magnitude minus the galaxy's colour
- `C47_value` (Chisq, d): what the returned number is: d . y where y solves (total covariance, floored) y = d; the floored matrix is symmetric, at least the floor, and the total covariance itself when that is above it
- `C47_nonneg` (Chisq, d): never negative, whatever the calibrated covariance; zero exactly on the red sequence
- `C47_marker` (Chisq, d): a row whose intrinsic scatter is below the floor gets the marker value
- `C47_likelihood` (Chisq, d): the log-likelihood is -(chi-squared + log det)/2, and its determinant is positive
- `C47_errors_lower` (Chisq, d): larger magnitude errors never raise the chi-squared of the same colors
- `C47_one_redshift` (Chisq, d): many galaxies at one redshift, and one galaxy at many redshifts, give the value of each pair alone
- `C47_one_galaxy` (Chisq, d)
- `C47_pairs_partial` (Chisq, d): each galaxy at its own redshift: only where the slopes are those of the FIRST pair, or the magnitude error is zero
- `C47_pairs_refuted` (Chisq, d): Finding: for pairs of galaxies and redshifts the slopes of the first pair are used for the magnitude errors of every pair: the second galaxy gets 1 instead of 1/2.
- `C47_layout_refuted` (Chisq, -): the covariance stack must be laid out with the redshift axis slowest: from a row-major (color, color, redshift) array another redshift's entry is read
- `C47_result` (Chisq, d): which mode is chosen, and what comes back

### C48 Failed photometric redshifts are recognisable — partial

- `C48_failed` (ZredColor, d): one galaxy: it gets the documented bad values exactly when no redshift can be given
- `C48_good` (ZredColor, d): without corrections a good galaxy has an error of at least 0.005 and a redshift within two errors of a weighted mean of the redshifts of its bins
- `C48_spread` (ZredColor, c): the error before corrections is the spread of the density, floored: the branch for a negative variance is never taken in exact arithmetic
- `C48_limits` (ZredColor, b): the redshifts within the limits, and the bins: up to ten on either side of them
- `C48_evaluated` (ZredColor, b)
- `C48_bins` (ZredColor, b): at least two bins are always evaluated, all of them real bins, and every bin within the limits is among them
- `C48_window` (ZredColor, b): the parabola is fitted to five or six bins, between bins with a real density
- `C48_corrected` (ZredColor, c): corrections touch only the redshifts and their errors: the uncorrected columns, chi-squared and likelihood are those without corrections. The corrected redshift adds the correction, iterated (at most ten times) until a step is at most 0.001; the error is scaled by the table at the corrected redshift.
- `C48_bulk_corrected` (ZredColor, a): ... and in bulk: five steps, the uncorrected columns, chi-squared and likelihood are kept
- `C48_corrected_floor` (ZredColor, d): corrected errors: the floor is multiplied by the table, so the corrected error can be below it
- `C48_corrected_floor_refuted` (ZredColor, b): Finding: a good galaxy can have a corrected error below 0.005.
- `C48_bulk_rows` (ZredColor, d): a whole catalog: one row per galaxy, in order; without corrections each is the row of the galaxy alone
- `C48_bulk_close_partial` (ZredColor, b): bulk corrections: always five steps; alone: up to ten, until a step is at most 0.001. They differ by at most 0.001 when the correction is a contraction and small
- `C48_bulk_refuted` (ZredColor, b): ... and in general they do not agree
- `C48_zred2_refuted` (ZredColor, b): the second redshift never gets its magnitude term in bulk
- `C48_bulk_failed_refuted` (ZredColor, d): a failed galaxy in a corrected catalog does not keep the bad values: the corrections at z = -1 are added to them
- `C48_nearest` (ZredColor, c): The chi-squared kept is that of the point of the grid nearest to the redshift, its last point included, the first of them when two are as near; a point outside the evaluated bins gives 1e12.
- `C48_window_where` (ZredColor, b): The points of the parabola: five around the peak, the first five at the lower end, the last six at the upper end.

### C49 Depth maps and the error model agree at the limiting magnitude — partial

- `C49_at_limit_partial` (Depth, d): at the limiting magnitude the error is that of an n-sigma detection, as long as the implied sky is above the floor
- `C49_at_limit_refuted` (Depth, d): ... and never otherwise: the floor makes every clipped depth too pessimistic
- `C49_ratio_at_limit_partial` (Depth, d): the band's error ratio multiplies it
- `C49_increases` (Depth, d): fainter means a larger error, with any error ratio and any relative noise floor, clipped or not
- `C49_brighter` (Depth, d): so, below the floor or not, galaxies brighter than the limit are measured better than the limit
- `C49_exposure_partial` (Depth, d): at a given limiting magnitude a longer exposure gives smaller errors only for galaxies brighter than it
- `C49_exposure_refuted` (Depth, d): for fainter ones it gives larger errors, always
- `C49_noiseless` (Depth, d): without noise the magnitudes come back as they were, ordinary and asinh ones alike
- `C49_noiseless_asinh` (Depth, d)
- `C49_flux` (Depth, d): asked for fluxes instead of magnitudes, the model gives the flux of the input magnitude for the zero point, whatever the exposure time, and an error that is the magnitude's error in flux units
- `C49_flux_noise` (Depth, d): with noise, the fluxes and the magnitudes of the same draw say the same
- `C49_undetected` (Depth, d): with noise a galaxy gets the 99s exactly when its noisy flux is not positive; any other has a positive error

### C50 redMaGiC selection returns exactly the galaxies passing the cuts — partial

- `C50_exact` (Redmagic, d): a known mode returns exactly the galaxies that pass its cuts, each in a row of its own, in order
- `C50_unknown` (Redmagic, d): an unknown one is refused
- `C50_rows` (Redmagic, d): every selected row is above the luminosity cut at its own redshift and below the volume limit at its own position
- `C50_range_refuted` (Redmagic, d): Finding: the redshift range is tested on the uncorrected redshift only: a selected galaxy can have a corrected redshift outside of the range and its cushion.
- `C50_cushion_refuted` (Redmagic, d): the cushion cut at the uncorrected redshift is a cut of its own: a galaxy that passes everything at its corrected redshift can be lost to it
- `C50_files` (Redmagic, d): the task: every mode's file holds the selections of all pixels in table order; other files are left alone
- `C50_clobber` (Redmagic, d): without permission to overwrite, one existing file stops the run before anything is selected

### C51 Color calibration visits every color once, outward from the reference band — proved

- `C51_every_color` (CalOrder, b): every color is processed exactly once, for every number of bands and every reference band
- `C51_shared_band` (CalOrder, b): the first color fits the ratios of both its bands; every later one has exactly one band whose ratio is known already: it rescales the error of that band by that band's ratio, and fits and records the ratio of the other, which was not known
- `C51_all_bands` (CalOrder, b): at the end every band has a ratio
- `C51_model_magnitudes` (CalOrder, b): with asinh magnitudes, the model magnitudes of all bands are built from the reference band so that their differences are the model colors

### C52 Member preparation attaches each member to its own cluster — proved

- `C52_rows` (Members, -): The rows written are those of the members that pass the member cut and belong to a cluster that passes the cluster cuts, in the order of the member file. Each carries the redshift of the mode and the cluster redshift of the cluster with its own identifier (to which the optional noise is added), and its own probabilities, photometry and central flag.
- `C52_one_owner` (Members, -): The cluster of a row is the only one of its identifier among those kept.
- `C52_succeeds` (Members, -): The preparation succeeds when the kept clusters have different identifiers and there is at least one of them and one kept member.
- `C52_mode` (Members, -): Any mode other than the two is refused.
- `C52_nothing_kept` (Members, -): When no cluster or no member passes the cuts nothing is written: the matching stops with ValueError.

### C53 Catalog mode iterations are bounded and flag failures — partial

- `C53_good_partial` (Modes, -): A cluster reported good has an acceptable mask fraction, a richness of at least 3 and a non-negative redshift, both from the last pass; if convergence was asked for, the last pass moved the redshift by less than the tolerance.
- `C53_one_pass` (Modes, -): Without convergence there is exactly one pass, and the cluster is good exactly when everything is usable.
- `C53_reset` (Modes, -): The outcome of the cluster loop: a cluster that is not good has its richness and redshift reset to -1.
- `C53_maxiter_refuted` (Modes, -): The limit on the number of iterations has no effect: any two positive limits give the same result.
- `C53_endless_refuted` (Modes, -): A cluster whose redshift keeps moving by more than the tolerance is never finished.
- `C53_zero_refuted` (Modes, -): With a limit of zero the cluster is reported good although nothing has been computed.
- `C53_final_mask_refuted` (Modes, -): The mask fraction recorded for a good cluster, which is computed again within its radius, is not limited.

### C54 Cluster likelihood is bounded by the excluded members — proved

- `C54_kept` (Likelihood, d): A cluster has a likelihood exactly when its richness reaches the minimum and at least three neighbours outside the smallest radius have a positive membership probability.
- `C54_value` (Likelihood, d): The value: the neighbours at the smallest radius contribute minus their probability, every other one contributes -p - log(1-p); the richness and its scale cancel.
- `C54_bound` (Likelihood, d): The bound: more than minus the probability of the neighbours at the smallest radius.
- `C54_one_central` (Likelihood, d): With a single neighbour at the smallest radius (the usual central galaxy) the likelihood is above -1.
- `C54_monotone` (Likelihood, d): Adding membership to a neighbour that is not the central raises the likelihood.
- `C54_infinite` (Likelihood, d): A membership probability of exactly one outside the smallest radius makes the likelihood infinite.
- `C54_zscan` (Likelihood, d): RunZScan leaves certain members and those at the centre out; the result is always a number, above minus the sum of what is left out.

### C55 Mask tests and mask fractions are proper — partial

- `C55_accepted` (Modes, -): A point that is accepted lies off the poles, where the map has a positive value.
- `C55_full_partial` (Modes, -): A point off the poles where the fraction is one (or more) is always accepted.
- `C55_full_refuted` (Modes, -): At a pole nothing is accepted, whatever the map says.
- `C55_lengths` (Modes, -): Every point has an answer; lists of different lengths are refused; without a mask all is accepted.
- `C55_fraction` (Modes, -): Mask fractions lie between 0 and 1; they are 1 exactly when every mask galaxy inside is masked and 0 exactly when none is.
- `C55_final_fraction` (Modes, -)
- `C55_fraction_undefined` (Modes, -): The first fraction does not exist when no mask galaxy is within the unit radius.

### C56 read_members reads the member file belonging to a catalog — partial

- `C56_member_file_partial` (Names, -): The name read for base.fit is base_members.fit exactly when base does not end in one of the characters of ".fit": the extension is stripped as a set of characters.
- `C56_member_file_refuted` (Names, -): Every catalog whose base name ends in 'f', 'i', 't' or '.' has another file read.

### C57 Batch submission never overwrites an existing job — partial

- `C57_runmodes` (Names, -): the run modes are 0 to 4, each with job names of its own
- `C57_new_name_partial` (Names, -): In a directory where only this program writes, submission n+1 takes a new name exactly for n < 10.
- `C57_new_name_refuted` (Names, -): From the eleventh submission on, the same job file is overwritten.
- `C57_gap_refuted` (Names, -): A removed earlier job makes the next submission overwrite a later one.
- `C57_each_once` (Names, -): An LSF array gives every pixel of the run to exactly one job; so does the parsl list.
- `C57_covers_partial` (Names, -): If the pixels of the run are unions of pixels of the catalog, every galaxy is in the pixel of a job.
- `C57_covers_refuted` (Names, -): With run pixels finer than the catalog's, some galaxies belong to no job.
- `C57_pbs_refuted` (Names, -): On PBS no job is written, for any catalog.

### C58 Spectroscopic training galaxies are selected in exactly one redshift interval — partial

- `C58_selected_partial` (Colormem, -): Boundaries in order: a galaxy that is on no boundary is tested with the mode of its interval, and only with it.
- `C58_boundary_refuted` (Colormem, -): A galaxy on a boundary is never selected, whatever its color.
- `C58_unordered_refuted` (Colormem, -): Boundaries out of order: one galaxy is tested with two modes and selected when it passes either.
- `C58_mode` (Colormem, -): The member run: every cluster in the redshift range has exactly the mode of its interval.
- `C58_same_mode` (Colormem, -): ... and it is the mode the galaxy was selected with, although the two ranges differ.
- `C58_modes` (Colormem, -): More modes than intervals between the boundaries: the selection stops with an error about an index.

### C59 The redshift scan keeps the best redshift — partial

- `C59_grid` (Modes, -): The grid starts at the lower end, has the given step, stays below the upper end and leaves no full step of it uncovered.
- `C59_usable` (Modes, -): A redshift counts as usable exactly when it has two galaxies and enough richness.
- `C59_best_partial` (Modes, -): If every usable redshift has a likelihood above -1, the scan keeps the usable redshift of largest likelihood, the first one if there are several, and reports the cluster bad exactly when there is none.
- `C59_flag_refuted` (Modes, -): A likelihood of -1 or less cannot be told from no cluster: when the first redshift of the grid is not usable and no usable one has a likelihood above -1, the cluster is reported bad.
- `C59_refined` (Modes, -): The refinement: the redshift kept in the end is the refined one, and a cluster with a usable redshift in the scan is still reported bad when the refined richness or redshift is not usable.

### C60 Calibration catches negative corrected redshifts — partial

- `C60_last_partial` (CalRun, -): Only the last cluster is looked at: the calibration stops when its redshift is negative ...
- `C60_others_refuted` (CalRun, -): ... and goes on whenever it is not, whatever the other redshifts are.
- `C60_no_cluster_refuted` (CalRun, -): Finding: without any cluster the check itself stops with UnboundLocalError.

### C61 Assigning a catalog attribute sets exactly that column — partial

- `C61_set_attr` (Catalog, -): C61. Assigning to a column changes that column only; a scalar fills it. (A one-element sequence also fills it, see C61_length_one_refuted.)
- `C61_set_attr_succeeds` (Catalog, -)
- `C61_get_attr` (Catalog, -)
- `C61_length_one_refuted` (Catalog, -): A sequence shorter than the catalog is not always rejected: one of length one is silently copied to every row.

### C62 Parallel finalisation recounts the right pixels — partial

- `C62_recount_partial` (Names, -): If the output path and base hold no text like _1234567, and the files matching the pattern are the pixel files written, then whatever the order of the files every pixel is counted with the rows of its own file and all others with none.
- `C62_globbed_partial` (Names, -): ... and the pixel files are among those the pattern matches
- `C62_distinct` (Names, -): the file names are not ambiguous: two pixels have different files
- `C62_path_refuted` (Names, -): If the directory or the base name holds such a text, every file is counted for that one pixel: all other pixels are recorded as empty.
- `C62_large_refuted` (Names, -): From pixel 10,000,000 on (which nside 1024 has) the file is not found at all.
- `C62_other_file_refuted` (Names, -): A file that matches the pattern but holds no pixel number stops the finalisation.
- `C62_beyond` (Names, -): A pixel number beyond the table is an IndexError.

### C63 Colour background lookups use the right bin — partial

- `C63_diagonal_partial` (Bkg, -): C63. Single-colour density: inf above the table, otherwise the bin containing the point; a point at or below the lower edge gets the FIRST bin (missing: inf there, refuted next).
- `C63_below_refuted` (Bkg, -): Finding: a colour far below the table is not flagged.
- `C63_offdiag` (Bkg, -): Two-colour background, colours given in the order of the table: the bin of (colour 1, colour 2, refmag), clipped to the table, divided by the normalisation at that refmag.
- `C63_swapped_refuted` (Bkg, -): Finding: asked in the order opposite to the stored one, the table is read with the two colours exchanged.
- `C63_missing` (Bkg, -): A pair of colors found in neither order: an error, or nothing when the caller said so.

### C64 Centering leaves the neighbors' photometric redshifts alone — partial

- `C64_unchanged_partial` (Centering, -): Without spectroscopic redshifts in use nothing is changed.
- `C64_overwritten_refuted` (Centering, -): With centering_use_zspec the photometric redshift of every neighbour with a spectrum is replaced.

### C65 An explicit magnitude limit is used — partial

- `C65_limit_ignored_refuted` (Zlambda, -): The limit passed in never matters: two calls with different limits give the same result in every environment.
- `C65_stale_limit_refuted` (Zlambda, -): Finding: without a limit, the limit of the first redshift is kept for every later iteration, whatever redshift it has moved to.

### C66 Centering calibration file sets each centering option — partial

- `C66_wcen_partial` (Config, -): C66: each centering option gets the column of the centering file for it; one does not.
- `C66_slope_refuted` (Config, -): Finding: the slope of the central magnitude relation is set to the value of another column.

### C67 Fit results are cut from the parameter vector in the right places — proved

- `C67_pieces` (Fitter, -): C67: whatever is fitted, the answer of the optimiser is cut into consecutive pieces of the right lengths, in the order mean, slope, scatter (with the two error-ratio parameters at its end).
- `C67_roundtrip` (Fitter, -): An optimiser that returns its start gives the start values back.
- `C67_bounds` (Fitter, -): There is one bound for each parameter, the scatter bounds at the scatter parameters.
- `C67_nothing_to_fit` (Fitter, -)

### C68 Two-color covariance is invertible in the off-diagonal fit — proved

- `C68_invertible` (Fitter, -): C68: for every correlation, and all errors, the covariance of two colors has positive determinant, the metric is its inverse and the exponent is never positive.

### C69 Two-component color fit returns the red component second — partial

- `C69_sorted` (Fitter, -): C69: the two components come back with the redder one second, each with its own weight and width, weights adding to 1; the data are as before.
- `C69_failure_refuted` (Fitter, -): If the optimiser fails, the offset stays in the data.

### C70 Red sequence outside the calibrated redshifts — proved

- `C70_pinned` (RedSeq, -): C70: rows inside the calibrated redshifts are kept; rows below have the value of the first calibrated row, rows above that of the last one. Without any calibrated row the table cannot be built (IndexError).
- `C70_template` (RedSeq, -): Colors follow the template outside, with the offset from the template at the nearest calibrated row; a color the template lacks is left alone.

### C71 The chi-squared routine never reads outside the arrays it is given — partial

- `C71_depends` (Chisq, d): the results depend only on the offsets in [reads] …
- `C71_one_redshift` (Chisq, -): … and with one redshift those are inside the arrays whenever the checks pass
- `C71_many_partial` (Chisq, -): with many redshifts the number of magnitudes and (mode 2) the covariance rows are not checked
- `C71_many_refuted` (Chisq, -): Finding: there are accepted shapes for which reference magnitudes, or covariance entries, are read past the end.
- `C71_refused` (Chisq, -): Shapes that are refused are a ValueError, or an IndexError where an array has too few dimensions.

### C72 The depth fit recovers the depth behind the data — partial

- `C72_same_model` (Depth, d): the fit and the error model use the same errors wherever the sky is above the floor
- `C72_true_depth_minimises` (Depth, d): errors that follow a depth exactly: that depth is a minimum of the fitted function ...
- `C72_unique` (Depth, d): ... and the only one, as soon as two galaxies have different magnitudes
- `C72_data` (Depth, -): only real measurements with a positive error, better than the cut, enter the fit, and at most 98 per cent of them
- `C72_selects` (Depth, -): a galaxy that is clearly good enough and brighter than 98 per cent of the rest is used
- `C72_answers_partial` (Depth, -): with one usable measurement or more the fit answers: parameters or the failure flag
- `C72_no_good` (Depth, -): a catalog whose measurements are all worse than the S/N cut sets the failure flag, whatever the minimiser would do
- `C72_answers_refuted` (Depth, -): with none it raises IndexError instead of setting the failure flag: no fallback is reached
- `C72_fallback` (Depth, -): a failed fit falls back on the survey's parameters; a failed survey fit is an error

### C73 The calibrated color covariance is positive definite — partial

- `C73_entries` (CalOrder, b): C73: the covariance with a constant correlation is symmetric, has the calibrated scatters on its diagonal and the correlation off it, and is positive definite
- `C73_positive_definite` (CalOrder, b)
- `C73_unchecked_refuted` (CalOrder, b): nothing checks the setting: with a correlation of one or more the matrix is never positive definite

### C74 The run never takes over the files of the calibration — partial

- `C74_run_directory` (Names, -): C74: the run does not touch the calibration
- `C74_run_outbase` (Names, -)
- `C74_redmagic_configuration` (Names, -)
- `C74_same_directory_partial` (Names, -): The run configuration stands in the directory of the calibration's, if the name of that directory contains neither "cal" nor ".y".
- `C74_same_directory_refuted` (Names, -): Otherwise it goes to a directory of another name.
- `C74_shared_refuted` (Names, -): Calibrations in two different directories can share their run directory.

### C75 Percolation takes the clusters in order of likelihood — partial

- `C75_rows` (Percolate, -): The run works on exactly the usable clusters, each once.
- `C75_skipped` (Percolate, -): It is skipped exactly when no cluster is usable.
- `C75_order` (Percolate, -): Without kept identifiers: always succeeds, decreasing likelihood, identifiers 1, 2, 3, ...
- `C75_runs` (Percolate, -)
- `C75_keepid_partial` (Percolate, -): With kept identifiers that are distinct, and at least two usable clusters: the very rows of the input, by identifier.
- `C75_keepid_refuted` (Percolate, -): When a single cluster is usable its kept identifier is replaced by 1.
- `C75_total_partial` (Percolate, -): The likelihood used is the sum of the two parts once the centering is calibrated; before that the total is never written: the column keeps whatever value it had, and the order does not depend on the likelihoods.
- `C75_total_refuted` (Percolate, -): Finding: before the centering is calibrated the total likelihood is not written at all.
- `C75_uncalibrated_refuted` (Percolate, -): Finding: a run before that therefore puts a cluster of smaller likelihood first.
- `C75_infinite_dropped` (Percolate, -): An infinite likelihood (see C54_infinite) keeps a cluster out of the run, however rich it is.

### C76 A percolated cluster is either fully measured or marked bad — partial

- `C76_good` (Percolate, -): A cluster is reported good exactly when it passes every check.
- `C76_values_partial` (Percolate, -): Its richness is that of the last iteration, its redshift measured at the new center, and for redshifts not kept the working redshift is the measured one.
- `C76_bad` (Percolate, -): A bad cluster has no richness and no redshift.
- `C76_unconnected_refuted` (Percolate, -): A cluster without members between its center and its edge is reset, but reported as good.
- `C76_no_iterations_refuted` (Percolate, -): With no iterations configured the reported redshift is the one of the input, never measured.

### C77 An interrupted calibration continues where it stopped — partial

- `C77_resume_partial` (CalRun, -): Killed between steps, any number of times, with whatever files were there at the beginning: started again, the calibration leaves the same files as without interruption. The configuration names no redshift correction.
- `C77_kept` (CalRun, -): Finished steps are not repeated: a file whose step is complete keeps its content in every later execution.
- `C77_configuration` (CalRun, -): Started without files, every file of the iterations and of the final run is computed with the configuration it is meant for, and the files that configuration names are there by then (unless it is the file itself), with the contents they have at the end.
- `C77_correction_refuted` (CalRun, -): With a redshift correction in the configuration, the runs with random centers are made without it or with it, depending on whether the calibration was interrupted before.
- `C77_parameters_refuted` (CalRun, -): Killed during a step: the red-sequence parameters are written once before the corrections are known and again with them. Killed between the two, the calibration goes on with the first version for ever.
- `C77_members_refuted` (CalRun, -): Killed after the catalog was written and before its members were: the members are never written.

### C78 The first member run measures clusters alone, then from rich to poor — partial

- `C78_first` (Colormem, -): First pass: every cluster is measured alone.
- `C78_order` (Colormem, -): Second pass: the same clusters, from the richest to the poorest.
- `C78_second` (Colormem, -): Each is handed what the richer ones have left.
- `C78_output` (Colormem, -): What is written: the clusters that pass the cuts, and of the members saved for exactly those clusters the ones with a large color probability.
- `C78_nothing_refuted` (Colormem, -): When no cluster can be measured in the second pass there is no member table and the run ends with AttributeError.
- `C78_cuts` (Colormem, -): The cuts of the catalog.

### C79 The mask correction is the fraction of members lost — partial

- `C79_fraction` (MaskCorr, c): C79. The correction at each radius is one minus the detected over the expected mask galaxies.
- `C79_bounds` (MaskCorr, c): C79. It never exceeds one, and is not negative when no galaxy fainter than the reference luminosity is seen.
- `C79_monotone` (MaskCorr, c): C79. Seeing less never lowers the correction.
- `C79_errors` (MaskCorr, c): C79. An unusable depth or completeness model is an error, never a silent value.
- `C79_coefficients` (MaskCorr, c): C79. The coefficients kept for a cluster are those of a cubic fitted to these fractions: with a fit that gives back a cubic from its own values at the radii, fractions that follow a cubic are found again at every radius.
- `C79_coefficients_errors` (MaskCorr, c): C79. No coefficients without the fractions.
- `C79_sample` (MaskCorr, c): C79. Every sample of a mask galaxy file carries its own normalisation.
- `C79_ngals_refuted` (MaskCorr, c): Finding: the file's own ngals (kept in its header) is not checked. Reading a file with another value of maskgal_ngals divides by the normalisation of another sample size: nothing is lost, yet c = 1/2.
- `C79_hard_edge_refuted` (MaskCorr, c): Finding: with a hard edge (rsig <= 0) the radius is ignored: every mask galaxy counts at every radius.

### C80 The richness error accounts for the mask fraction of the richness — partial

- `C80_error` (MaskCorr, d): C80. Mask part of the richness error: with v the expected fraction of members missed per unit richness, it is lambda^2 / sum(pmem^2) * sqrt(v (1-v)) / (1 - beta gamma), a real non-negative number for richness at least 1.
- `C80_nothing_missed` (MaskCorr, d)
- `C80_solver_fraction` (MaskCorr, b): C80. The richness solver and the random points evaluate the mask fraction of the fitted coefficients ...
- `C80_fraction_partial` (MaskCorr, b): ... but the error evaluates them in the opposite order: it gets the right value exactly when the coefficients satisfy one equation (for example at radius 1), ...
- `C80_fraction_refuted` (MaskCorr, d): ... so at every other radius a mask fraction of one half can be taken for zero and its error dropped.

### C81 Random points get the scale value of a cluster at their place — partial

- `C81_cluster_scale` (MaskCorr, b): C81. For a cluster solved exactly (sum of memberships + richness * mask fraction = richness), the scale value is 1 / (1 - mask fraction) ...
- `C81_random_scale_partial` (MaskCorr, b): ... and a random point at the same place and radius gets exactly that value, unless the fitted mask fraction is negative.
- `C81_random_scale_refuted` (MaskCorr, b): Finding: an unmasked field whose fit is slightly negative gives randoms a scale value below one, a fraction above one a negative scale value.

### C82 A failed colour richness never makes a training cluster — proved

- `C82_too_few` (ColFit, d): C82. Fewer red galaxies than required, in the first or the second selection: -10, scale value -1, and the neighbors are left alone.
- `C82_outcome` (ColFit, d): C82. A call without errors returns -10 (not measured), -1 (no richness found: all results zero), or a richness in [1,2000) with its radius, a scale value with scale * sum(pmem) = richness, and memberships in [0, pfree].
- `C82_measured` (ColFit, d): C82. With enough red galaxies near the colour of the centre (given, or that of the central galaxy, when that one is red) the cluster is measured: "not measured" is not returned.
- `C82_kept` (ColFit, d): C82. A cluster that goes through has a positive richness, at least the required richness per scale value, and a central galaxy whose membership reaches the cut.
- `C82_rejected` (ColFit, d): C82. A failed measurement of a cluster with freshly found neighbors is always rejected and marked.
- `C82_ratio_refuted` (ColFit, d): Finding: the richness test does not do it alone. "Not measured" is -10 with scale value -1, whose ratio is +10: with the default minimum of 10 (or less) and no cut on the central galaxy, a cluster with too few red galaxies goes through with whatever richness it had before.
- `C82_error_refuted` (ColFit, d): Finding: asking for the error never returns a richness: a successful measurement raises NameError.
- `C82_stale_scale_refuted` (ColFit, d): Finding: when the central galaxy is outside the colour range the scale value of an earlier measurement stays.

### C83 The first pass seeds exactly the usable inputs — proved

- `C83_from_seedfile` (FirstPass, -): C83. With a seed file: one cluster per usable seed (and, with cleaninput, one that is inside the mask), in the order of the file and with the seed's values; no catalog when there is none.
- `C83_from_galaxies` (FirstPass, -): C83. Without one: one cluster per galaxy with a usable photometric redshift that is brighter than the luminosity limit at that redshift, in the order of the galaxies; no catalog when there is none.
- `C83_refused` (FirstPass, -): C83. The run is refused exactly when there is neither a seed file nor anything that may replace it.
- `C83_cleaninput_refuted` (FirstPass, -): Finding: cleaninput (keep only positions inside the survey mask) has no effect without a seed file: the catalog is the same whatever the mask and whatever the flag.
- `C83_spec_unset_refuted` (FirstPass, -): Finding: the seeds are cut on their photometric redshift also in specmode, where the spectroscopic one is used: seeds whose photometric redshift is not set (-1, as selectspecseeds writes without zreds) give no catalog ...
- `C83_spec_crash_refuted` (FirstPass, -): Finding: ... and a seed with a good photometric redshift but no spectroscopic one (zspec <= 0) stays in and stops the run with a TypeError when its turn comes.

### C84 The first pass uses the radius configured for it — partial

- `C84_radius_partial` (FirstPass, -): C84. With a seed file the clusters have the radius constants configured for the first pass.
- `C84_radius_refuted` (FirstPass, -): Finding: without a seed file the configured firstpass_r0 and firstpass_beta are not handed on: every first pass from galaxies uses r0 = 1.0 and beta = 0.2, whatever is configured (0.5 and 0.0 are the defaults).

### C85 The first pass measures each cluster in a definite course — proved

- `C85_course` (FirstPass, -): C85. The work on one cluster: measurements are made in succession, each at the redshift the one before it found (with keepz: all at the first), until the wanted number is reached or one is not acceptable. Accepted: all were acceptable, and the record holds the last one's richness, redshift and error; rejected: the last made was not acceptable, and richness, redshift and error are -1. The chi-squared is the nearest neighbor's.
- `C85_no_iterations_refuted` (FirstPass, -): Finding: with firstpass_niter = 0 (outside specmode) the first cluster stops the run with an UnboundLocalError.
- `C85_lambda_at_old_redshift_refuted` (FirstPass, -): Finding: the richness recorded is not that at the redshift recorded: the redshift is updated after the richness was measured, also in the last iteration. Whenever the last redshift found differs from where it was measured, the recorded richness belongs to the latter.
- `C85_no_neighbors_refuted` (FirstPass, -): A cluster without neighbors at the redshift where its work ends stops the run with a ValueError, whether it was accepted or not.

### C86 A pixel of the pipeline can be killed and run again — partial

- `C86_sound` (PixelTask, -): C86. Whatever the history of runs and kills: every catalog of the pixel is a single table that some run made of the catalog before it; members, when there, belong to the final catalog.
- `C86_kept` (PixelTask, -): C86. A catalog that is there is never changed by later runs ...
- `C86_completes_partial` (PixelTask, -): C86. ... a run whose three stages find clusters completes the pixel, from any state a kill left ...
- `C86_idle` (PixelTask, -): C86. ... and a completed pixel is not run again.
- `C86_no_seeds_refuted` (PixelTask, -): Finding: a pixel in which the first pass finds nothing (no catalog is written, with a warning) does not end: the next stage stops with an OSError because the file is missing. The calibration's own worker handles this case.
- `C86_no_likelihoods_refuted` (PixelTask, -): Finding: the same when the likelihood stage keeps no cluster.
- `C86_members_lost_refuted` (PixelTask, -): Finding: a run killed between the final catalog and its members leaves a pixel without members for good: no later history of runs writes them.
- `C86_refused` (PixelTask, -): The pixel task is refused for galaxy files that are not split into pixels.

### C87 Pixel tasks are idempotent — partial

- `C87_zmask` (PixelTask, -): C87. The zmask task: after any history at most one table, made by one of the runs; a run that finds the file does nothing, one that does not writes what it made.
- `C87_zscan_rerun_refuted` (PixelTask, -): Finding: the zscan task looks for the file without the code's version in its name and writes the one with it. Every repetition runs again and appends a table; a reader gets the oldest.
- `C87_runcat_refuted` (PixelTask, -): Finding: the runcat task stops with a NameError on every pixelized galaxy file.
- `C87_not_pixelized` (PixelTask, -): A galaxy file that is not pixelized is refused by each of the tasks, and nothing is written.

### C88 Pixel tasks write where they are told — partial

- `C88_path_partial` (PixelTask, -): C88. An explicit path is where the output goes.
- `C88_default_refuted` (PixelTask, -): Finding: without one the output does not go to the configuration file's directory, as documented, but to the path in the configuration or else the working directory, wherever the configuration file is.

### C89 Seeds from spectra carry their own spectrum's redshift — proved

- `C89_seeds` (SpecSeeds, -): C89. The seeds come from different reliable spectra, and each has the redshift of its own spectrum and the values of a galaxy at its position.
- `C89_complete` (SpecSeeds, -): C89. No usable spectrum is lost: a reliable one that has a galaxy near, all such galaxies being usable, is the source of a seed.
- `C89_duplicates_refuted` (SpecSeeds, -): Finding: a galaxy that two spectra match is seeded twice, each time with another spectroscopic redshift.
- `C89_unusable_refuted` (SpecSeeds, -): Finding: the seeds selected before photometric redshifts exist have -1 in their place, and a first pass that is given them, in any mode, finds no usable seed.

### C90 The chi-squared background is the density of galaxies in its bins — partial

- `C90_cells` (BkgTable, -): C90, any bin sizes: each cell holds the sum over the galaxies of their shares in the cell, divided by the area and the configured bin sizes; the cells are [limmag - 12] and [chisq_max] divided into equal parts, as many as there are bins.
- `C90_density_partial` (BkgTable, -): C90: when the magnitude and chi-squared ranges are whole numbers of bins, each cell of the table of a redshift bin is the number density of the galaxies in the bin of that position: each galaxy counts with its share of the bin, the galaxies are those above the limit of the redshift bin (rounded up to the end of a magnitude bin) and of the catalog.
- `C90_grid_refuted` (BkgTable, -): Finding: when limmag - 12 is not a whole number of magnitude bins (limmag 14.1, bins of 0.2) the table is filled on a finer grid than its bins say: a galaxy in the very middle of bin 9 (magnitude 13.9) is counted with weight 115/210 there and with 95/210 in the next bin.
- `C90_marker_refuted` (BkgTable, -): Finding: the chi-squared that marks galaxies beyond the magnitude limit of a redshift bin (about 430) is only out of range if chisq_max is not larger; otherwise a galaxy beyond the limit is counted in the cell of that value.

### C91 The zred background is the density of galaxies with good redshifts — partial

- `C91_cells` (BkgTable, -): C91, any bin sizes
- `C91_density_partial` (BkgTable, -): C91: when both ranges are whole numbers of bins, each cell is the number density of the galaxies with a good enough photometric redshift, with at least a tenth of a galaxy per cell.
- `C91_grid_refuted` (BkgTable, -): Finding: with a zred range that is not a whole number of bins (0.1 to 0.295 in bins of 0.01) the same happens: a galaxy at the centre of bin 9 loses a quarter of its weight to the next bin.

### C92 The backgrounds are interpolated linearly when read — proved

- `C92_fine` (BkgTable, -): C92: the chi-squared background read back is the stored one interpolated linearly in magnitude, chi-squared and redshift; beyond the stored nodes it keeps the value of the end nodes.
- `C92_nonneg` (BkgTable, -): it is never negative, whatever is stored
- `C92_n` (BkgTable, -): the number density per magnitude is the sum over the chi-squared bins times their size
- `C92_zred` (BkgTable, -): C92: the zred background is interpolated linearly in magnitude and redshift between the stored nodes;
- `C92_zred_outside` (BkgTable, -): beyond the nodes it continues the line of the last two, and is nowhere below the smallest stored value
- `C92_empty` (BkgTable, -): A table without nodes is a ValueError.
- `C92_no_bins` (BkgTable, -): A stored table without bins along any of its axes: ValueError.

### C93 Regenerating one background keeps the other — partial

- `C93_kept` (BkgTable, -): C93: without clobber, running the two generators in any order and any number of times keeps what is already there: the extension asked for is in the file afterwards, and every table that was in the file still is.
- `C93_succeeds` (BkgTable, -): and it only fails if the table cannot be computed and is not there
- `C93_clobber_refuted` (BkgTable, -): Finding: with clobber the whole file is replaced, not the extension: recomputing one background removes the other.

### C94 A runner looks far enough around a cluster — partial

- `C94_succeeds` (Radii, d): C94: a runner starts whenever percolation_lmask is set,
- `C94_radius` (Radii, d): and its search radius reaches the radius of every cluster of richness up to 300,
- `C94_annulus` (Radii, d): the outer edge of the annulus of the local background,
- `C94_mask_partial` (Radii, d): and the radius inside of which members are masked, when that does not depend on redshift and is constant whenever the richness radius is.
- `C94_rich_refuted` (Radii, d): Finding: with the shipped settings the mask radius of every cluster of richness above 300 is beyond the galaxies that were looked up, so members between the two radii are not masked.
- `C94_gamma_refuted` (Radii, d): Finding: the search radius ignores the redshift dependence of the mask radius: with any positive percolation_rmask_gamma, at every redshift above the pivot a cluster of richness 300 has a mask radius beyond the search radius.
- `C94_beta0_refuted` (Radii, d): Finding: with a constant richness radius (beta 0) the search goes to 1.2 times the mask radius of richness 100, also when the mask radius grows with richness: with the shipped exponent 0.2 it falls short at richness 300.
- `C94_lmask_refuted` (Radii, d): Finding: percolation_lmask has no default; a configuration without it makes every runner stop with a TypeError.
- `C94_lmask` (Radii, d): The depth of the mask is the one set, or the reference depth when that is negative.
- `C94_moved_partial` (Radii, b): The search is done at the first redshift of the cluster: when the redshift changes, it reaches the search radius times the ratio of the scales, so all galaxies inside of the search radius are found if the scale (Mpc per degree) does not shrink.
- `C94_moved_refuted` (Radii, b): Finding: when a cluster moves to a lower redshift (smaller scale), galaxies inside of the search radius are missing.

### C95 A runner looks deep enough around a cluster — partial

- `C95_percolation` (Radii, b): C95: percolation looks at least as deep as the depth of the mask (percolation_lmask, or lval_reference when it is negative), as the luminosity limit of the members (percolation_memlum) and as the reference luminosity.
- `C95_runcat` (Radii, b): and so does a run on a given catalog
- `C95_magnitude` (Radii, d): a smaller luminosity is a fainter magnitude, so looking to luminosity l finds everything brighter than the limit of m >= l
- `C95_memradius` (Radii, b): the members are cut at their radius exactly if percolation_memradius is set and above one
- `C95_memlum_refuted` (Radii, -): Finding: percolation_memlum only deepens the search; the cut on the luminosity of the members that it stands for is never switched on, whatever its value.
- `C95_lmask_refuted` (Radii, -): Finding: percolation stops with a TypeError when percolation_lmask is not set.

### C96 The border of a pixel is wide enough for percolation — partial

- `C96_border_partial` (Radii, d): C96: the border of a pixel is wide enough for percolation: with [d] any distance on the sky (triangle inequality), if two clusters (richness up to 300, mask radius not depending on redshift, scales not below the one of the lowest redshift) have a galaxy in common inside of their mask radii, then every galaxy inside of the mask radius of the second is within the border of the first.
- `C96_rich_refuted` (Radii, d): Finding: with the shipped settings the border is too narrow for rich clusters: on a line, two clusters of richness 400 at the lowest redshift have a galaxy in common inside of their mask radii, and a galaxy of the second is as far from the first as the border.

### C97 Draws follow their density — partial

- `C97_distribution` (Maskgals, -): C97: drawing from a density on a grid of n points always gives a grid point, and follows the density to 1/n: the draws up to grid point i are exactly those of the random numbers below a threshold that exceeds the share of the density up to i by at most 1/n.
- `C97_first_refuted` (Maskgals, -): Finding: the first grid point is drawn by the random numbers below 1/n also where the density is zero there, as for the chi-squared of three or more colors at zero (the weight of these mask galaxies is then zero).
- `C97_one_color_refuted` (Maskgals, -): Finding: with one color (two magnitudes) the chi-squared density is infinite at zero, and making the mask galaxies stops with an IndexError whatever the rest of the density and the random numbers.

### C98 Mask galaxies fit the run — partial

- `C98_bins` (Maskgals, -): C98: the radial bins of the mask galaxies are evenly spaced, start at or below the radius of richness 3 and end at or above the radius of richness 300 (a and b), by less than 0.1 and one step.
- `C98_first` (Maskgals, -): They start at half a megaparsec at the latest.
- `C98_samples_partial` (Maskgals, -): a file made with the settings of the run is cut in samples of equal size that use every mask galaxy once
- `C98_read` (Maskgals, -): a file is read if and only if it is there with the current version
- `C98_settings_refuted` (Maskgals, -): Finding: the settings a file was made with are in its header but never compared: a file made for other radii, magnitudes or limits is used as it is.
- `C98_short_refuted` (Maskgals, -): Finding: with more samples configured than a file has, the samples beyond its end are empty and nothing is said.

### C99 The local background is a ratio of densities — partial

- `C99_ratio` (Maskgals, -): C99: the local background is the number of galaxies counted over the predicted density times the unmasked area of the annulus; so it is x when the annulus has x times the galaxies predicted.
- `C99_counted` (Maskgals, -): Counted are the neighbours in the annulus that are brighter than the limit and the depth where they are, and with a chi-squared below one that is among those of the mask galaxies;
- `C99_predicted` (Maskgals, -): predicted is the mean of sigma_g over the weights for the mask galaxies that are brighter than both, with a finite sigma_g and positive weights.
- `C99_succeeds` (Maskgals, -): it is a number when the annulus has unmasked mask galaxies and something is predicted
- `C99_weights_refuted` (Maskgals, -): Finding: the weights that turn mask galaxies into a prediction are not normalized (the luminosity function is not, and the chi-squared density is only over the chi-squared allowed): the mean prediction is the total over the grid divided by the total of the weights, so every local background is off by that factor, and right only if it is 1.
- `C99_annulus_refuted` (Maskgals, -): Finding: with mask galaxies made for a smaller annulus there are none in the configured one, and the run stops with a ZeroDivisionError.

### C100 Gaps of the depth map are filled from the surroundings — proved

- `C100_depth` (Maskgals, -): C100: the depth at the mask galaxies: where the map has a depth it is used; elsewhere each of the limiting magnitude, exposure time and 50 per cent depth is set within the range of those of the galaxies with a depth; if none has one, all get the values of a bad region.
- `C100_rejected` (Maskgals, -): and a cluster is rejected for its depth when no mask galaxy has one, and not when one has and all that have are deeper than magnitude 1

### C101 The starting value of the chi-squared cut at a node matches the wanted density — partial

- `C101_start` (RedCal, -): C101: the starting value of the chi-squared cut at a node is the chi-squared of one of the galaxies around it, such that the galaxies redder than it are as many as make up the wanted density in the volume (n * vol, rounded up), or all but the worst if there are not enough.
- `C101_empty_refuted` (RedCal, -): Finding: a node with no galaxy around it stops the calibration with an IndexError.
- `C101_constant_refuted` (RedCal, -): Finding: the number of constant cuts is not checked with the other settings of the selections, so the calibration stops with an IndexError at the first selection without one.

### C102 The cost of a redMaGiC cut is zero exactly if every bin has the wanted density — partial

- `C102_zero` (RedCal, -): C102: the cost is computed in bins that tile its range, and is never negative; it is zero exactly if no parameter is below 0.1 and every bin has the wanted density of galaxies kept by the cuts: n times its volume.
- `C102_nothing_kept` (RedCal, -): cuts that keep no galaxy are given a very large cost
- `C102_range` (RedCal, -): the range of the cost of a selection is a whole number of bins from its start plus the buffer, and ends less than a bin above its end minus the buffer
- `C102_top_refuted` (RedCal, -): Finding: galaxies sampled in the last 0.0001 of the range are in no bin, while the volume of the last bin is the full one.

### C103 The calibration file gives every selection its own calibration — partial

- `C103_own` (RedCal, -): C103: after each selection is calibrated its own calibration is used for it,
- `C103_read` (RedCal, -): and the file at the end has the calibration of every selection, also when an older file was there,
- `C103_only_partial` (RedCal, -): and nothing else if none was there.
- `C103_stale_refuted` (RedCal, -): Finding: selections of an older calibration file that are no longer configured stay in the file, and catalogs are made for them again.
- `C103_same_name_refuted` (RedCal, -): Finding: two selections of the same name are both calibrated, and only the second can be used afterwards.

### C104 The redMaGiC calibration reads all galaxies a selection can keep — partial

- `C104_sample_partial` (RedCal, -): C104: the galaxies read for the calibration include all that a selection can keep in its range: within the range of the cost, below the chi-squared limit and bright enough at their own redshift, if the selection does not reach beyond the range configured for all.
- `C104_zmax_refuted` (RedCal, -): Finding: the range of the galaxies that are read is that of redmagic_zrange, also if a selection is configured to go higher: with 0.1 to 0.6 and a selection up to 0.9, no galaxy at redshift 0.8 is read, which is within the range of its cost.
- `C104_training` (RedCal, -): the galaxies that train the afterburner are different ones with a calibration redshift, the configured fraction of them

### C105 The fit of the redshift corrections rewards closer predictions and weights the galaxies — partial

- `C105_closer` (CorrFit, d): C105: a set of corrections that predicts the offset of every galaxy at least as closely, with the same errors and background, has at most the same cost,
- `C105_non_members` (CorrFit, d): and galaxies that are certainly not members do not constrain the offset, the slope or the errors.
- `C105_weights_refuted` (CorrFit, d): Finding: the weights of the galaxies have no effect on the fit: whatever (positive) weights are given, the cost of any set of corrections relative to any other is the one without weights, as the likelihood is multiplied by the weight instead of its logarithm.

### C106 A fit of corrections returns what was asked for — partial

- `C106_fit` (CorrFit, d): C106: a fit returns the sets of values that were asked for and only them, in order, each with a value per node, the error factors and backgrounds in their ranges; what is not fitted is kept at the values given; and the fit is not worse than these.
- `C106_nothing` (CorrFit, -)
- `C106_lengths_refuted` (CorrFit, d): Finding: the starting values of each set are not checked against its nodes, only their total number: values for the offset and for the slope that are one too many and one too few are accepted, and the last of the first is taken as the first of the second.
- `C106_nodes` (CorrFit, -): the nodes by default

### C107 The recorded redshift corrections are no worse than the start and within their range — partial

- `C107_recorded` (CorrFit, d): C107: the corrections recorded are not worse than the starting values, with a value per node, error factors between 0.1 and 2, and the slopes untouched when they are not to be fitted.
- `C107_sample` (CorrFit, d): The galaxies used are those above a threshold in likelihood and within two sigma of their redshift; the threshold is the likelihood of one of the galaxies, with a twentieth of them (rounded down) or fewer below it. Their weights are between 1/2 and 1.
- `C107_ties_refuted` (CorrFit, c): Finding: at least one galaxy is always left out, and all those of the same likelihood with it: if all galaxies have the same likelihood none is used.

### C108 The redshift calibration goes on only if each redshift bin has clusters — partial

- `C108_populated` (Nodes, -): C108: the calibration of the cluster redshifts goes on exactly if between any two neighbouring nodes there is a cluster that is rich enough and not masked; the clusters used are these.
- `C108_single_refuted` (Nodes, -): Finding: if the redshift range has a single node (narrower than about half the node size) the calibration stops with a ValueError instead.
- `C108_outliers_refuted` (Nodes, -): Finding: the check is made before the outliers are removed: it can pass although a bin has no cluster left for the fit.

### C109 A starting value is the median over the galaxies nearest to the node — partial

- `C109_values` (Nodes, -): C109: the starting value of a node is the median over the galaxies nearest to it if there are enough, and the median of their deviations; otherwise the ones of the node before.
- `C109_disjoint` (Nodes, -): every galaxy is near at most one node,
- `C109_nearest` (Nodes, -): and, between the first and the last node, to exactly one unless it is half-way between two.
- `C109_first_refuted` (Nodes, -): Finding: a first node with too few galaxies starts from zero, whatever the values at the other nodes are (for the pivot magnitudes and the colors the fit then starts far from them).

### C110 Each step of the redshift correction is calibrated on what the steps before give — partial

- `C110_redshifts` (ZCal, d): C110: as many columns are fitted as asked for, and column k is fitted to the clusters with the redshifts that the columns before it give from the original ones; richness, scale and spectroscopic redshift stay.
- `C110_final` (ZCal, d): the last catalog is the original one corrected with the columns that are written.
- `C110_errors_refuted` (ZCal, d): Finding: while column k is fitted the errors contain, besides the scatter of the columns before it, a thousandth in quadrature for every column that has not been fitted yet, because the scatter of an empty column is clipped to 0.001.
- `C110_scale_refuted` (ZCal, d): Finding: the fit takes the richness without the scale factor (Lambda/scaleval) and the correction is applied with it: the offset applied to a cluster differs from the one fitted for it by the slope times the logarithm of the scale factor.
- `C110_unscaled_partial` (ZCal, d): and agrees with it for clusters with scale factor one,
- `C110_exact_partial` (ZCal, d): so that a column that fits such clusters exactly brings them to their spectroscopic redshifts.
- `C110_single_refuted` (ZCal, -): Finding: with a single iteration (calib_zlambda_correct_niter: 1) the correction cannot be made: the array with one column is not reduced to it, and the spline's values do not fit.
- `C110_several_partial` (ZCal, -): With more it can.

### C111 A calibration that yields negative redshifts is stopped — partial

- `C111_last_partial` (Nodes, -): C111: after the correction of the redshifts the calibration goes on only if the last cluster's is not negative.
- `C111_others_refuted` (Nodes, -): Finding: only the last cluster is checked (the loop's variable is used instead of the catalog): negative redshifts of all others pass.
- `C111_none_refuted` (Nodes, -): Finding: without a cluster above the richness limit the variable is not defined, and the calibration stops with a NameError.

### C112 Splines pass through the calibrated nodes, smoothly and without inventing structure — partial

- `C112_system` (Spline, b): C112: the linear system the code sets up has one solution only, for any increasing nodes;
- `C112_nodes` (Spline, b): the spline takes the given value at each node,
- `C112_natural` (Spline, b): and is the natural cubic spline.
- `C112_linear` (Spline, b): Scaling and adding node values scales and adds the splines,
- `C112_line` (Spline, b): and nodes on a straight line give the line, everywhere (so do two nodes).
- `C112_fixextrap` (Spline, b): With fixextrap the values outside are those of the end nodes, and inside it makes no difference.
- `C112_positive_refuted` (Spline, b): Finding: positive node values do not give positive values in between, or outside the nodes without fixextrap, so that a calibrated width, scatter or error scale can come out negative between its nodes.

### C113 A calibrated centering model is read back as it was written — partial

- `C113_values_partial` (Wcen, -): C113: the values read back from a file are those written, except for one:
- `C113_slope_refuted` (Wcen, -): Finding: the slope with richness of the brightest satellite's magnitude is read from the column of its mean.
- `C113_absent` (Wcen, -): Without a file the values stay; an older file without the columns leaves those of the brightest satellite.
- `C113_first` (Wcen, b): The file of the first iteration has the Monte Carlo's values, if none are configured.
- `C113_later_refuted` (Wcen, b): Finding: so that all later iterations are calibrated, and their files written, with the mean in place of the slope.

### C114 The random catalogs calibrate the foreground and the satellites — partial

- `C114_start` (Wcen, b): C114: the calibration starts unless, in the first iteration, a random catalog is missing whose result is not configured;
- `C114_fits` (Wcen, -): the foreground is fitted to the one and the satellites to the other catalog, and nothing else changes;
- `C114_kept` (Wcen, -): what has no catalog keeps its values.
- `C114_same_refuted` (Wcen, -): Finding: the catalogs are told apart by their names: the same file for both is taken twice for the foreground, and the satellites keep the old values.

### C115 The Monte Carlo of the brightest satellites takes the brightest of as many galaxies as the richness — partial

- `C115_brightest` (Wcen, -): C115: a trial gives the three brightest of the galaxies drawn, in order,
- `C115_succeeds` (Wcen, -): it does so for every richness above three,
- `C115_count_refuted` (Wcen, -): Finding: for richness lambda only lambda - 1 galaxies are drawn.

### C116 The centering model is applied as it was calibrated — partial

- `C116_magnitude_partial` (Wcen, d): C116: the mean magnitude of centrals is used as it was calibrated for clusters with scale factor one.
- `C116_magnitude_refuted` (Wcen, d): Finding: for others it is not: the calibration removes the scale factor from the richness and the centering does not.
- `C116_width_partial` (Wcen, c): The widths are used as calibrated up to the largest richness of the calibration,
- `C116_width_refuted` (Wcen, c): Finding: which limits Lambda/scaleval in the calibration and Lambda in the centering: for a cluster of the calibration with Lambda above it the width used is larger than the one fitted.

### C117 Samples follow the density they are drawn from — partial

- `C117_distribution` (PdfSample, -): C117: every uniform deviate gives a sample, and one not above point i exactly for the deviates below a limit that lies between the cumulative probability of the points up to i and that plus one over the number of points.
- `C117_zero_partial` (PdfSample, -): A point other than the first whose density is zero is never sampled.
- `C117_first_refuted` (PdfSample, -): Finding: the first point is sampled for the lowest 1/n of the deviates even if its density is zero; for the luminosity function of the centering calibration that is the brightest magnitude.
- `C117_nothing_refuted` (PdfSample, -): Without a density there is no sample: an IndexError.

### C118 A depth fit starts among the data, is no worse than its start and gives consistent numbers — partial

- `C118_start` (DepthFit, -): C118: the fit starts, for any galaxies, from a magnitude among theirs,
- `C118_start_near` (DepthFit, -): and, given three galaxies or more with errors about those at the limit, from a magnitude among these.
- `C118_grid` (DepthFit, d): The exposure times it tries increase from 1 to 10000, scaled with the zero point;
- `C118_start_exposure` (DepthFit, d): the one it starts from is no worse than any of the others.
- `C118_no_worse` (DepthFit, d): Given a minimiser that gets no worse, the depth describes the errors no worse than the start,
- `C118_allowed` (DepthFit, d): and if the start is allowed then so is the result: no negative sky, and an exposure time of ten times that at the start at most.
- `C118_consistent` (DepthFit, d): The limiting flux is that of the limiting magnitude, and a source with it is measured with [nsig] times its noise.
- `C118_fraction` (DepthFit, d): The fraction of outliers is one.
- `C118_boot_refuted` (DepthFit, d): Finding: with useBoot the limiting magnitude and the exposure time are replaced by those of the trials, the limiting flux and the sky are not.
- `C118_noise_refuted` (DepthFit, d): Finding: noise is added to all magnitudes with a single draw, about the number of magnitudes rather than zero: equal magnitudes stay equal, and for a draw at the middle of its distribution every one of n galaxies is n times its noise too bright.
- `C118_outliers` (DepthFit, d): The outliers are the galaxies whose error differs by more than 0.005 from that of the model: the sky and the source as Poisson noise, in magnitudes.

### C119 The red training galaxies are those with good spectra on the red sequence — partial

- `C119_selected` (SelectRed, c): C119: given a match within the tables, galaxies in range and a bound for every colour, the red galaxies are selected: those matched to a spectrum of good precision with a redshift strictly in the calibrated range, brighter than the limit, and red at that redshift in the colour of one of the redshift intervals it is inside of.
- `C119_none_refuted` (SelectRed, c): Finding: with no galaxy in range the selection ends with an IndexError.
- `C119_covers_partial` (SelectRed, b): Every redshift of the range is inside an interval, unless it is one of the bounds,
- `C119_one_colour` (SelectRed, b): and inside one only, if the bounds increase;
- `C119_bound_refuted` (SelectRed, b): Finding: a galaxy with a redshift equal to a bound between two colours is inside none and never selected, however red.
- `C119_range_partial` (SelectRed, b): The calibrated range contains the configured one if that does not start below 0.05.
- `C119_range_refuted` (SelectRed, b): Finding: below that redshifts of the configured range are left out.
- `C119_twice_refuted` (SelectRed, c): Finding: a galaxy with two spectra is in the catalog twice.
- `C119_too_many_colours` (SelectRed, c): More colours than redshift intervals are refused, whatever the galaxies.

### C120 The bands of a run are those the galaxy file says — partial

- `C120_names` (GalStats, -): C120: an entry b_ind is that of band b, for any name of a band but "ref".
- `C120_bands_partial` (GalStats, -): If a file says where each band is, no two in the same place and none missing, these are the bands of the configuration.
- `C120_missing` (GalStats, -): A band that it does not place leaves all bands to the configuration file.
- `C120_reference_partial` (GalStats, -): The reference magnitude is then the band at its place.
- `C120_modes` (GalStats, -): Only the three surveys, and only files marked as FITS, are accepted.
- `C120_conflict_refuted` (GalStats, -): Finding: of two bands in the same place the last one is taken, silently.
- `C120_other_refuted` (GalStats, -): Finding: any name with "_ind" in it is taken for that of a band, as match_index for the band "match".
- `C120_outside` (GalStats, -): A place that is not in the table, from either end, is an IndexError.
- `C120_refused` (GalStats, -): A file that is no FITS file, or whose mode is none of SDSS, DES and LSST, is refused with a ValueError.

### C121 The colour backgrounds hold all galaxies of the colour range and all pairs of colours — partial

- `C121_range` (ColorBkg, -): C121: the range of a colour runs from the first bin with more than the asked number of galaxies to the last, and there is one when there is such a bin.
- `C121_sparse_refuted` (ColorBkg, -): Finding: when no bin of a colour has more than the asked number of galaxies, the generation ends with the ValueError of an empty minimum rather than with a message.
- `C121_diag` (ColorBkg, -): C121: a cell of the table of one colour is the sum of the shares of the galaxies in it over the size of the bin; the range is one of whole bins (C121_range), the magnitudes are divided into equal parts.
- `C121_numbers` (ColorBkg, -): C121: the number of a magnitude bin, times the size of the bin, is the number of galaxies (by their shares in magnitude) whose boxes lie inside of the range of the colour.
- `C121_off` (ColorBkg, -): C121: the same with two colours.
- `C121_complete` (ColorBkg, -): C121: a run that is not interrupted writes each pair of colours once, whatever was there, if it may write.
- `C121_kept` (ColorBkg, -): C121: a complete file is left alone by a later run without [clobber].
- `C121_crash_refuted` (ColorBkg, -): Finding: the file is appended to, pair by pair, under its final name: after an interruption a later run finds it, takes it for complete and leaves pairs of colours out.

### C122 The colour background that is looked up is a density — partial

- `C122_off` (ColorBkg, -): C122: the densities of two colours that are looked up sum to one over the bins.
- `C122_nonneg` (ColorBkg, -): C122: the values looked up are never negative.
- `C122_diag_refuted` (ColorBkg, -): Finding: the normalisation of a table of one colour is the sum of its stored values times the ratio of the two bin sizes, not times the size of a bin: for a colour with the same density everywhere the densities that are looked up integrate to 1/25.

### C123 A parameter file gives back what it was calibrated with — partial

- `C123_roundtrip` (ParFile, -): C123: reading a parameter file gives what was configured: the number of colours, the limit, the slope, the survey, the bin size, the reference band, the template and, with a template, the bands; and the b values if they are positive.
- `C123_missing` (ParFile, -): C123: a missing entry is reported, and only that is.
- `C123_missing_error` (ParFile, -)
- `C123_given` (ParFile, -): C123: what the caller gives takes the place of what is in the file.
- `C123_fields` (ParFile, -): C123: what is read is what is in the header.
- `C123_covers_partial` (ParFile, -): C123, when the template reaches as far as the redshifts asked for and those begin at 0.01 or above: the redshifts of the file cover them, with more at both ends.
- `C123_covers_refuted` (ParFile, -): Finding: a range from below 0.01 is cut there, and one beyond the template's last redshift is cut at that, without a message: the parameter file then says less than the configuration.
- `C123_lup_partial` (ParFile, -): C123, when the b values are all positive or all zero: the file is read with a correction for luptitudes exactly if it was made with one.
- `C123_lup_refuted` (ParFile, -): Finding: the calibration looks at the first b value, the reader at the smallest: with a zero among the others the parameters are fitted with a correction for luptitudes and used without.

### C124 The red sequence is calibrated from good members only — partial

- `C124_sample` (ParFile, -): C124: the red sequence is calibrated from the galaxies in the open redshift range with a probability above the cut, in their order; with none, that is reported.
- `C124_colour` (ParFile, -): C124: the colours are calibrated from those of them with a probability above the colour cut.
- `C124_empty_refuted` (ParFile, -): Finding: only the first of the two samples is checked: when no galaxy passes the colour cut, the pivot magnitudes and colours start at zero at every node, and nothing is reported.
- `C124_ratio` (ParFile, -): C124: the ratio of the errors is the one of 0.5, 0.6, ..., 9.9 with the scatter of the pulls nearest to one, the smallest of several; 1 when it is not to be fitted.
- `C124_volume` (ParFile, -): C124: the volume factor is one at the reference redshift, positive where distances grow, and the same for all Hubble constants.

### C125 A run uses the galaxies asked for, however it reads them — partial

- `C125_galaxies_partial` (Setup, -): C125, for a galaxy file in pixels: whether temporary files are used or not, the galaxies of a run are those of the region that are strictly inside of the magnitude range and, if the run says so and has zreds, below the largest chi-squared; in their order.
- `C125_mode_partial` (Setup, -): C125, in pixels: the set-up of a run is the same with and without temporary files.
- `C125_mode_refuted` (Setup, -): Finding: for a galaxy file that is not in pixels the cuts are dropped when temporary files are to be used: the run works on all galaxies, whatever their magnitude and chi-squared.
- `C125_range` (Setup, -): C125: the range is that of the bins of the background, to the end of the last one, for the runs that ask for it.
- `C125_result` (Setup, -): C125: what comes of the set-up: without galaxies there is no catalog; with a depth map it is used.
- `C125_required` (Setup, -): C125: a run that needs zreds does not go on without them.
- `C125_not_required` (Setup, -): The other runs need none: without a file of redshifts they take the galaxies they read.
- `C125_colors` (Setup, -): The run with the colors of members needs neither background nor redshifts, with or without temporary files: it takes all galaxies with magnitudes between -1000 and 1000.
- `C125_depth_refuted` (Setup, -): Finding: whatever goes wrong in reading the depth map - a missing file, a damaged one, a wrong setting - is swallowed, and the run goes on with depths from the galaxies.
- `C125_randoms_refuted` (Setup, -): Finding: the run for the mask of the randoms does not say whether galaxies are cut to the range of the background; without a depth file it reads galaxies and always ends with an AttributeError.
- `C125_randoms` (Setup, -): with a depth map that run reads no galaxies and needs none
- `C125_runs` (Setup, -): The runs: the first pass, the likelihoods and the run on given clusters also cut on the chi-squared if they have redshifts; the percolation and the scan do not.
- `C125_plain` (Setup, -): A galaxy file that is not in pixels is read whole: every galaxy with its own redshift if they are asked for, which needs a table of redshifts (IOError) with as many rows (ValueError).

### C126 Centers take their magnitudes from the matched galaxy — partial

- `C126_matched` (Setup, -): C126: a center takes its magnitudes from a galaxy it was matched with; one without a match keeps what it had.
- `C126_single_partial` (Setup, -): C126, with one galaxy near the center: it is the one.
- `C126_nearest_refuted` (Setup, -): Finding: all galaxies within a second of arc are matched, not the nearest: with two of them the last in the order of the matches counts, so that another order gives other magnitudes.

### C127 The redMaGiC selection keeps the galaxies its calibration counted — partial

- `C127_same_partial` (RedFit, d): C127, for galaxies inside of the nodes and samples that are corrected too: the samples the cost was computed from, at the recorded cuts and corrections, are the samples of the galaxies the selection returns, one by one.
- `C127_samples_refuted` (RedFit, d): Finding: the fit always corrects the samples it counts, although the selection corrects them only if told so (the setting is given to the fit and not looked at): the density that was calibrated is not that of the samples in the catalog.
- `C127_outside_refuted` (RedFit, b): Finding: the cuts are fitted with splines that go on beyond the last node and selected with splines that do not: wherever the two differ there are galaxies that the fit counts and the selection drops, or the other way.
- `C127_cost` (RedFit, d): C127: the cost is computed from the galaxies that pass the cuts: all that matters of them are their samples.

### C128 The redMaGiC afterburner is fitted to the training galaxies that pass the recorded cuts — partial

- `C128_off` (RedFit, d): C128: without the afterburner the redshifts are left as they are; the cuts are fitted on raw redshifts, or are the constant.
- `C128_afterburner_partial` (RedFit, d): C128, with the afterburner and fitted cuts: the cuts are those fitted with some corrections, and the corrections recorded are fitted on the training galaxies that pass these cuts with these corrections; it never fails.
- `C128_constant` (RedFit, d): the same for a constant cut: it is recorded as it is, and the corrections are fitted at the raw redshifts
- `C128_training` (RedFit, d): C128: the training galaxies that pass the cuts, and no others, make the corrections: the bias is fitted to raw minus calibration redshift, the scale of the errors to what is left of it, in units of the error and of a normal distribution.
- `C128_bounds` (RedFit, d): C128: corrections are within their limits if the minimizer keeps to its bounds.
- `C128_last_refuted` (RedFit, d): Finding: the corrections are fitted once more after the last fit of the cuts, and it is these that are recorded: unless the iterations have come to rest (they are always five), the recorded cuts are not those for the recorded corrections.
- `C128_labels_partial` (RedFit, b): C128: the calibration redshift of a galaxy is that of a cluster it is a member of, with more than the wanted probability; without one it has none and is no training galaxy.
- `C128_labels_refuted` (RedFit, b): Finding: a galaxy that is a member of several clusters is given the redshift of the one that comes last in the file, however unlikely it belongs to that one.
- `C128_labels_one_partial` (RedFit, b): C128, where it cannot matter: if the probabilities of a galaxy add up to at most one and the wanted one is at least a half, there is but one such cluster.
- `C128_needed` (RedFit, d): The fit with the afterburner needs the training galaxies and the corrections: without either, a RuntimeError.

### C129 Consolidating runs on input clusters keeps each cluster once — proved

- `C129_exact` (RuncatCons, -): C129: the catalog holds exactly the clusters of each file that lie in the pixel of the file.
- `C129_once` (RuncatCons, -): C129: no cluster is there twice.
- `C129_spec` (RuncatCons, -): C129: spectroscopic redshifts are replaced where they are asked for, and only there.

### C130 Consolidating runs on input clusters ends with consistent files — partial

- `C130_members_partial` (RuncatCons, -): C130, for pixels all of whose clusters lie in them: the members written are those of the clusters written.
- `C130_members_refuted` (RuncatCons, -): Finding: members are not cut with the clusters: if one cluster of a pixel is kept, the members of all its clusters are written, also of those that are left to the neighboring pixel; those clusters' members are there twice.
- `C130_plots_refuted` (RuncatCons, -): Finding: with plots, as is the default, the consolidation always ends in an error after the files are written, by a name that is not defined; without plots it ends well.
- `C130_nside_refuted` (RuncatCons, -): Finding: the resolution of the pixels is that of the first file; with files of another resolution in the directory - of another run with the same base name - clusters are judged by the wrong pixels and can be lost.

### C131 A map read for a region has the whole map's values there — proved

- `C131_region` (SubPix, -): C131: a map read for a region has the values of the whole map everywhere in the region.
- `C131_border` (SubPix, -): C131: also in the border, wherever the pixels found around the region reach.
- `C131_whole` (SubPix, -): C131: without a region the whole map is read.
- `C131_sound` (SubPix, -): C131: what is read is never anything else than the map.
- `C131_refused` (SubPix, -): C131: several pixels with a border are refused.

### C132 Areas computed for a region are areas of the region — partial

- `C132_depth` (SubPix, -): C132: the area at a depth is that of the pixels of the region, each once.
- `C132_border` (SubPix, -): C132: with a border there is no such area.
- `C132_vlim_partial` (SubPix, -): C132, for a region of pixels no smaller than those of the coverage and without a border: the area of a volume-limited survey is that of the map in the region.
- `C132_vlim_refuted` (SubPix, -): Finding: the areas of a volume-limited survey are of everything that was read, not of the region: for a region of pixels smaller than those of the coverage of the map, the whole of these counts. (The area at a depth is cut to the region.)

### C133 The fit of redshift corrections changes what it is asked to, and never for the worse — proved

- `C133_shape` (ZLamFit, d): C133: the fit returns the selected kinds of parameters, in order, one number per node, and all numbers the optimiser found.
- `C133_nothing` (ZLamFit, -): C133: with nothing selected it refuses.
- `C133_objective` (ZLamFit, d): C133: what is minimised over the selected parameters [d], [s], [c] is the likelihood of all the clusters, with the other parameters at the values given.
- `C133_better` (ZLamFit, d): C133: a fit never makes the likelihood worse.
- `C133_obs` (ZLamFit, a): C133: lists of different lengths are refused, and a list of clusters has one entry for each.
- `C133_obs_errors` (ZLamFit, a)

### C134 Clusters nearer to the correction are more likely; scatters stay above the minimum — partial

- `C134_scatter` (ZLamFit, d): C134: a scatter below the minimum is only returned where it improves the logarithm of the likelihood by 10000.
- `C134_closer_partial` (ZLamFit, d): C134, while no exponential underflows: a correction that is closer to the offset of a cluster makes it more likely.
- `C134_closer_refuted` (ZLamFit, d): Finding: a cluster so far from the correction that its exponential underflows counts as a fixed -100, so it counts much less than a cluster that is nearer: from there the fit gains by moving away from it.

### C135 The ratio of true to stated errors is recovered — partial

- `C135_scaled` (ErrBin, c): C135: where the scatter of the colors is all due to errors, errors larger by a factor [a] make the normalised residuals smaller by this factor, in every bin.
- `C135_recovered` (ErrBin, c): C135: so if the residuals in every bin scatter by [k] times the stated errors, the fit is best at the ratio [k].
- `C135_single` (ErrBin, c): C135: a bin with a single galaxy never counts, whatever the bootstrap draws.
- `C135_none` (ErrBin, c): C135: with no usable bin every ratio is as good as the start.
- `C135_band` (ErrBin, c): C135: only the error of the selected band is scaled.
- `C135_positive_partial` (ErrBin, b): C135, for magnitudes close enough to the pivot: the ratio is positive.
- `C135_positive_refuted` (ErrBin, c): Finding: the bounds of the fit let the ratio vanish (or turn negative) for magnitudes a tenth from the pivot, and the sign of a ratio makes no difference to the fit: corrected errors can be zero or negative.

### C136 The likelihood run starts from exactly the usable clusters, and hands them on to the percolation — partial

- `C136_rows` (LikeInput, -): C136: the run starts from exactly the likely clusters, in the order of the catalog, and gives up exactly if there are none.
- `C136_chain` (LikeInput, -): C136: a cluster of the likelihood run that gets a finite likelihood and is rich enough afterwards is usable by a percolation with the same settings and limit.
- `C136_cushion_partial` (LikeInput, -): C136, for ranges from 0.05 up: keeping redshifts does not lose a cluster of the configured range.
- `C136_cushion_refuted` (LikeInput, -): Finding: the lower end of the widened range is never below 0.05, so for a range that starts lower, keeping the redshifts of the seeds loses the clusters between the configured start and 0.05 instead of adding some.

### C137 The radial and luminosity filters are positive, flat in the core and zero far out — partial

- `C137_positive_partial` (Profile, d): C137: with a core smaller than the scale radius the profile is a positive number at every radius below 10 Mpc.
- `C137_positive_refuted` (Profile, d): Finding: a core not smaller than the scale radius gives no number in the core.
- `C137_core` (Profile, d): C137: it is flat in the core, with the value it has at the edge of the core.
- `C137_far` (Profile, d): C137: it vanishes from 10 Mpc on.
- `C137_form` (Profile, d): C137: away from the core it is the projected NFW profile, in its two forms inside and outside of the scale radius.
- `C137_radfactor` (Profile, d): C137: with the factor for the circumference it is 2 pi x times that.
- `C137_schechter` (Profile, d): C137: the luminosity filter is positive; and so the filter of every galaxy in the richness is a number that is not negative.
- `C137_filter` (Profile, d)
- `C137_luminosity` (Profile, d): The luminosity filter is a Schechter function: for a luminosity of L, in units of that of the characteristic magnitude, it is L to the power alpha + 1 times exp (- L).

### C138 A written configuration reads back as itself — partial

- `C138_written` (CfgYaml, -): The written file has every option once, with its value.
- `C138_writable` (CfgYaml, -): A file is written exactly if every array option holds an array; otherwise there is a TypeError.
- `C138_softening_refuted` (CfgYaml, -): Finding: the softening parameters b are an array option that is None unless the galaxy file or the configuration gives them, and no galaxy file that is a single table gives them: such a configuration loads but cannot be written.
- `C138_round_trip` (CfgYaml, -): Reading back what was written gives the same configuration: every option has the value it had, whatever else was loaded or set in between, as long as the galaxy and the centering file are the same.
- `C138_empty` (CfgYaml, -): An empty file is a TypeError.

### C139 The configuration written at the end of a calibration — partial

- `C139_run_configuration` (CfgYaml, -): After a calibration the configuration names the files of its last iteration and the whole sky without borders; everything else is as it was. New redshifts are asked for if the calibration was on a region, a new background if also calib_make_full_bkg is set.
- `C139_background` (CfgYaml, -): After a calibration on a region a background of the whole sky is made if calib_make_full_bkg is set, with the area of the galaxy file, in the file that the configuration of the run names.
- `C139_region_background_refuted` (CfgYaml, -): Finding: without calib_make_full_bkg, a run on the whole sky is given the background of the region of the calibration.
- `C139_made` (CfgYaml, -): It is made exactly if the six files that become absolute paths are set and nside is a number.
- `C139_read_back` (CfgYaml, -): Read back, the configuration of the run is on the whole sky, with the area of the galaxy file and the options of the calibration that nothing sets.
- `C139_relative_refuted` (CfgYaml, -): Finding: only the galaxy and the spectroscopic file and files made by the calibration become absolute paths. The output directory, the depth map, the mask, the volume-limit depth maps, the random points and the training spectra are left as they were: relative to the directory of the calibration, although the file is written to that of the run; and the output directory stays that of the calibration.

### C140 A run over all tiles merges exactly the tiles' results and leaves its configuration alone — partial

- `C140_run` (RunAll, -): A run that returns has run every pixel of the division with the given seed file, and its output is the merged files of exactly the pixels that have one (or the files that were there); the configuration is as before.
- `C140_arguments` (RunAll, -): The checks of the arguments: nothing is run and nothing changed if redshifts of spectroscopic seeds are not kept, or both modes are asked for.
- `C140_kept` (RunAll, -): Files that are there are kept when the check is on: then nothing is merged, whatever the workers returned.
- `C140_succeeds` (RunAll, -): A run with correct arguments whose workers all succeed, one of them with a catalog, succeeds if merging does.
- `C140_restored_refuted` (RunAll, -): Finding: a run that fails in a worker leaves the configuration with its seed file and the resolution of the tiles, so that a second run on the same configuration is another one.
- `C140_nothing_refuted` (RunAll, -): Finding: a run in which no pixel gives a catalog does not give an empty catalog, it fails.
- `C140_nothing` (RunAll, -): The error is that of subscripting an empty list, once the sky was divided and the workers came back.
- `C140_percolation_like_refuted` (RunAll, -): Finding: the likelihood catalog cannot be asked for with percolation_only, since those workers never name one.

### C141 Files of different tiles never collide and an interrupted tile is completed — partial

- `C141_names` (RunAll, -): Different tiles, of one or several divisions of the sky, have different names.
- `C141_percolation_names_partial` (RunAll, -): Tiles of one division have different names in the percolation-only mode.
- `C141_percolation_names_refuted` (RunAll, -): Finding: the resolution is not part of those names: after a change of the division the file of another tile is taken for the tile with the same number.
- `C141_worker` (RunAll, -): A percolation-only worker that is not interrupted leaves the catalog and its members (unless a catalog is there and is to be kept), and returns a file exactly if there is one in the end that it made or kept.
- `C141_restart_partial` (RunAll, -): Killed before the first write, the next execution does everything.
- `C141_restart_refuted` (RunAll, -): Finding: killed while writing, the worker never finishes the pixel: a catalog begun or without members counts as done in every later execution.
- `C141_killed_late` (RunAll, -): Killed after the last write, or later, all is there.

### C142 Redshifts computed in parallel are those of each galaxy, in its place — partial

- `C142_values` (ZredCat, -): For every usable chunk size and every assignment of chunks to processes the run succeeds when the redshift of every row can be computed, and every row of the output holds the redshift of the row of the input in the same place.
- `C142_division` (ZredCat, -): Whatever the chunk size, number of processes and schedule: any two runs that return agree in all redshift columns.
- `C142_fails` (ZredCat, -): A row whose redshift raises makes the whole run raise: nothing is written.
- `C142_few_refuted` (ZredCat, -): Finding: with the default chunk size a catalog with fewer galaxies than processes cannot be run.
- `C142_samples_partial` (ZredCat, -): With one process the samples are those of one generator running through the catalog, whatever the chunk size. (Missing: more than one process, next theorem.)
- `C142_samples_refuted` (ZredCat, -): Finding: the processes inherit the parent's random generator, so the first galaxy of the first chunk of EVERY process is sampled with the same random numbers: the redshift samples of different galaxies are not independent.

### C143 The area for a selection of clusters is corrected by the fraction of random points lost — partial

- `C143_fractions` (RandArea, -): The fit is given one point per inner edge of the redshift bins; its value is the fraction of the random points below that edge that pass the cuts, a number between 0 and 1, if there are any.
- `C143_never_more` (RandArea, -): Whatever the fit: every redshift of the table keeps its place, and its area is not negative and never more than before.
- `C143_no_loss` (RandArea, -): A fit of the value 1 everywhere (no point is lost) leaves the areas as they are.
- `C143_all_pass_partial` (RandArea, -): If every random point passes, the fitted values are 1 at every inner edge above the lowest random point. (Missing: the edges below it, next theorem.)
- `C143_nothing_known_refuted` (RandArea, -): Finding: at an edge below the lowest random point nothing is known, yet the fit is told that the whole area is lost.
- `C143_half_bin_refuted` (RandArea, -): Finding: the fraction of the points below an edge is fitted at the middle of the bin that ends there, half a bin too low.

### C144 Masks and random catalogs of different requests are kept apart — partial

- `C144_vlim_names` (ProdNames, -): Two luminosity cuts have the same volume-limit mask file exactly if they agree to a tenth (rounded down).
- `C144_vlim_partial` (ProdNames, -): With no file there, or one made for these arguments, the mask in use is the one built for the cut asked for; it is kept for the next time.
- `C144_vlim_stale_refuted` (ProdNames, -): Finding: a second cut within the same tenth silently uses the mask of the first, and so does a mask asked for without depth (use_geometry) after one with, and the reverse.
- `C144_weights_names` (ProdNames, -): The weighted randoms of two requests have the same file exactly if the hundredths of the configured redshift range, the whole richnesses, the presence of a bin and the tenths of the luminosity cut agree.
- `C144_weights_partial` (ProdNames, -): Into a directory without these files the two tables are written under the names returned, and nothing else changes. (Missing: a file already there, next theorem.)
- `C144_zrange_refuted` (ProdNames, -): Finding: the redshift range given as argument is not part of the name, so the files returned for a second range hold (in the table that is read) the random points and areas of the first.

### C145 Values of maps at positions — partial

- `C145_depths` (MapLook, -): Depths are returned for every list of positions, also impossible ones: the depth of the pixel of each position, and unseen outside the map and beyond the poles. (A pixel lookup respects equal rationals.)
- `C145_lengths` (MapLook, -): Lists of different lengths are refused by all four lookups.
- `C145_fractions_partial` (MapLook, -): The good fraction on the map is that of its pixel, and 0 beyond the poles. (Missing: outside the map, next theorem.)
- `C145_fraction_outside_refuted` (MapLook, -): Finding: the good fraction of a position outside the map is not 0 but the number for "unseen", less than minus 1e30.
- `C145_zmax_partial` (MapLook, -): Redshift limits of positions on the sky: that of the pixel, at least 0; and 0 outside the map.
- `C145_zmax_pole_refuted` (MapLook, -): Finding: the redshift limit of a list with one position beyond a pole is an exception, though such positions are meant to have the limit 0 (the depth lookup clips the declinations first, this one does not).
- `C145_geometry` (MapLook, -): A mask without depth: everywhere on the mask the redshift limit is the end of the range, with the good fraction of the mask.
- `C145_radmask` (MapLook, -): A position is in the mask exactly if it lies strictly between the poles, on the mask, and its random number is below the good fraction there; no position makes the lookup fail.
- `C145_converted` (MapLook, -): A table converted to a map has at each position the row of its pixel, whichever way the pixels were numbered, and nothing elsewhere. [ring]: the ring pixel of a position; [r2n]: the same pixel in the nested numbering.

### C146 Initial colours of red galaxies — partial

- `C146_bands_partial` (InitCol, -): The BANDS entry with two or more names separated by commas, or as single letters, gives back the bands, if no name ends in a blank. (Missing: blanks after commas, see C146_blanks_refuted.)
- `C146_colour_partial` (InitCol, -): A colour is given exactly for two neighbouring bands of the template, in their order and in either case of letters, and is that of the first such pair's column: at a redshift between two of the template's it lies on the line between their colours, at one of the template's it is its colour, and beyond the ends it continues the last line. Every other pair is refused.
- `C146_blanks_refuted` (InitCol, -): Finding: with a blank after the commas of the BANDS entry, as in "g, r", no colour of the second band is found under its name.
- `C146_dash_refuted` (InitCol, -): Finding: bands with a dash in their names are mixed up: with the bands "a-b" and "c", the colour of "a" and "b-c" is given, which are no bands of the template.
- `C146_single_refuted` (InitCol, -): Finding: a BANDS entry with a single name of several letters is read as that many bands.
- `C146_file` (InitCol, -): The file among the package's data is used if there is one, then the one on disk; otherwise an error.

### C147 Memory predicted for tiles — partial

- `C147_never_refuted` (MemPred, -): Finding: no memory is ever predicted: the tile of each file is looked up with the function for the opposite direction, whose third argument is then given twice, and Python refuses the call for every table.
- `C147_sides` (MemPred, -): The sides tried for a catalogue of side 2^k are 2, 4, ..., 2^k.
- `C147_side_one` (MemPred, -): A catalogue of side 1 is predicted for side 2 only.
- `C147_bytes` (MemPred, -): The size of a galaxy is that of its fields other than the four truth fields, plus that of a redshift row if wanted.
- `C147_largest_partial` (MemPred, -): With the lookup of tiles that is meant (tile n pix), each side gets the number of its tiles with galaxies and the largest memory of a tile, times the border factor. (Missing: the lookup in the code fails, see C147_never_refuted.)
- `C147_finer` (MemPred, -): Finer tiles never need more memory: if each fine tile lies in one coarse tile, the largest memory does not grow.
- `C147_calls_refuted` (MemPred, -): The calls of the method: the first is accepted, the second gives the argument lonlat or nest twice and is not; without the third positional argument it would be accepted, whatever is given by name.
- `C147_empty` (MemPred, -): With no galaxy file listed there is nothing to sum and the prediction stops, whatever the sides.

### C148 Radii of the correction for the mask — partial

- `C148_grid` (RadBins, d): The tabulated radii begin at or below 0.5 and the radius of richness 3, are [step] apart, and the last one is at least the radius of richness 300 and less than a step and 0.1 more.
- `C148_covered_partial` (RadBins, d): The radius of every cluster of richness between 3 and 300 lies between two neighbouring tabulated radii. (Missing: other richnesses, see C148_rich_refuted.)
- `C148_rich_refuted` (RadBins, d): Finding: for every setting with increasing radii there are rich clusters whose radius is beyond all tabulated ones, where the fitted cubic is extrapolated; with the default r0 = 1, beta = 0.2 and step 0.1 those of richness 400 are.

### C149 Points drawn uniformly in a disc — partial

- `C149_uniform` (RadBins, c): Points of the mask sample are drawn uniformly in the disc: inside it, and within any smaller radius for random numbers up to the ratio of the areas.
- `C149_centre_partial` (RadBins, c): A random centre is one centre, of probability 1, that is no galaxy; it lies within the cluster's radius on the flat sky, and within a smaller one for random numbers up to the ratio of the areas. (Missing: that the position is one on the sky.)
- `C149_off_sky_refuted` (RadBins, c): Finding: a random centre can lie beyond the pole, and at a negative right ascension: for a cluster whose radius reaches the pole, respectively right ascension 0, some random numbers give such positions.
- `C149_last_neighbour_refuted` (RadBins, c): Finding: the check that the centre is a free galaxy, run after a random centre was chosen, looks at the last neighbour of the cluster, whichever galaxy that is: a cluster rich enough is rejected exactly if that one is taken.

### C150 Start and end of the redMaGiC calibration — partial

- `C150_needs` (RedRun, -): Without galaxies from the caller the calibration starts exactly if the galaxy file is in pixels and the redshifts and the cluster catalogue exist; with them it always starts.
- `C150_masks` (RedRun, -): The mask of a mode comes from the depth map if there is one, else from the geometry if there is one, else it is the whole area; the name recorded is its file's, and none for the whole area.
- `C150_mask_found` (RedRun, -): A later run finds the mask of a calibration in one directory: the file recorded, if it and the calibration file stay together.
- `C150_handed_over_partial` (RedRun, -): If the output directory is the working directory, the redMaGiC run started at the end reads the configuration just written: that of the calibration for the whole sky. (Missing: other output directories, next theorem.)
- `C150_handed_over_refuted` (RedRun, -): Finding: with any other output directory the run does not read the configuration written for it, but a file of that name in the working directory: an old one if there is, else the run fails after the calibration.
- `C150_written` (RedRun, -): The configuration is written to the output directory, and no other file is touched.
- `C150_mask_missing` (RedRun, -): A recorded mask is looked for in the directory of the calibration, under its last name only; if it is not there, it is a RuntimeError.

### C151 Check of the input files — partial

- `C151_passes` (RedRun, -): The check passes exactly if every file asked for exists, and the background file has its two parts if those are asked for.
- `C151_runs` (RedRun, -): The runs ask for these: a run for clusters needs the redshifts, the background with both parts, the parameters and the corrections of the redshifts; a run on given clusters needs neither the redshifts of the galaxies nor the parts of the background.
- `C151_reported_partial` (RedRun, -): If every file asked for is configured, and the parts are only asked for together with the background file, a missing file is reported as ValueError. (Missing: files not configured, and the parts alone.)
- `C151_unset_refuted` (RedRun, -): Finding: a file that is not configured at all is not reported as missing: the check fails with TypeError.
- `C151_parts_refuted` (RedRun, -): Finding: asked for the parts of a missing background file alone, the check fails with the library's OSError.

### C152 Fits of the centering calibration — proved

- `C152_foreground` (WcenFit, d): Foreground: the cost of a positive width is minus the logarithm of the likelihood of the ln w of the clusters, each normal with the width times its scale; a width of 0 or less has no cost, so is never preferred.
- `C152_best` (WcenFit, d): The cost is smallest at the weighted mean and the scaled scatter of ln w, if there is any scatter.
- `C152_no_minimum` (WcenFit, d): Without scatter (one random cluster, say) the cost has no minimum: it falls below any number as the width goes to 0.
- `C152_magnitude` (WcenFit, d): Magnitudes: the cost is minus the sum of the logarithms of the densities of the three kinds of centres, none taken below 0.00001.
- `C152_magnitude_finite` (WcenFit, d): Magnitudes: every choice of parameters has a finite cost, of at most -ln(0.00001) for each cluster, and 1000 more for a width below 0.
- `C152_magnitude_sign` (WcenFit, d): ... and a width below 0 costs at least 1000 more than the same width above it.
- `C152_central` (WcenFit, d): Central galaxies: the cost of a positive width is minus the logarithm of the likelihood of the mixture of central, satellite and foreground; it is defined if every cluster may have its central galaxy.
- `C152_central_sign` (WcenFit, d): ... and a width below 0, where it has a cost at all, costs at least 1000 more than the same width above it.
- `C152_magnitude_zero` (WcenFit, d): With a width of exactly 0 every cluster counts with the floor.

### C153 Normal curve through a histogram — partial

- `C153_curve_partial` (WcenFit, b): The curve is the one fitted, or one with the median and the standard deviation if there is no fit, for a positive width and bins within five widths of the mean on both sides. (Missing: negative widths.)
- `C153_range` (WcenFit, b): The curve is returned if and only if a bin lies above its lower end and one below its upper end; else IndexError.
- `C153_sign_refuted` (WcenFit, c): Finding: a curve with the opposite width is the same curve, so the fit may end at either; at the negative one the call fails with IndexError if no bin lies beyond five widths on either side, as is usual, and otherwise it returns a negative width.
- `C153_gauss` (WcenFit, c): The curve is the normal density times the area under it; its height is the first parameter.

### C154 Redshift of a cluster and its copy — partial

- `C154_redshift` (CentRich, b): Setting a redshift of at least 0.01 sets the magnitude scale, the angular scale and the radii of the neighbours to those of that redshift, and nothing else; a smaller one counts as 0.01, a negative one is refused.
- `C154_neighbours` (CentRich, b): New neighbours, or new distances, get the radii of the redshift.
- `C154_copy_partial` (CentRich, b): The copy of a cluster in step has its redshift, scales, radius parameters and neighbours. (Missing: the row of the catalogue and the background of redshifts, next theorems.)
- `C154_row_refuted` (CentRich, b): Finding: every field of the catalogue is 0 in the copy, the position and the richness among them.
- `C154_background_refuted` (CentRich, c): Finding: the background of redshifts can be evaluated on a cluster but not on its copy.
- `C154_unset_refuted` (CentRich, b): Finding: a cluster without a redshift cannot be copied.
- `C154_background` (CentRich, c): The background of redshifts at a radius: the circumference times the surface density, taken from per square degree to per square Mpc with the scale of the cluster.

### C155 Dependence of the richness on redshift — partial

- `C155_exact_partial` (CentRich, d): With the redshift not corrected and at least 0.01 beyond the step: for a richness that is the exponential of a parabola, and a variance that is a parabola, the derivatives are exact. (Missing: corrected redshifts and low ones, next theorems.)
- `C155_invalid` (CentRich, d): If the richness fails on either side nothing is stored.
- `C155_correction_refuted` (CentRich, d): Finding: the richness in the middle is that of the redshift before the correction, the two others are around the corrected redshift: for a richness growing like exp(b z), without any curvature, a correction by d is stored as the second derivative 2 b d / eps^2.
- `C155_low_refuted` (CentRich, d): Finding: a corrected redshift below the step stops the run.
- `C155_clipped_refuted` (CentRich, d): Finding: below the step plus 0.01 the lower redshift is taken as 0.01, but the difference is still divided by twice the step.

### C156 Richness averaged over possible centres — partial

- `C156_average` (CentRich, c): The richness of a cluster averaged over its centres lies between those of the centres, and the scatter is the root of the mean square deviation; for one centre it is its richness, without scatter.
- `C156_centres_partial` (CentRich, a): The richness at each centre is that of a cluster there if the mask is the same around it as around the first, in particular without a mask; likewise at the optical centre of a scan. (Missing: other masks.)
- `C156_mask_refuted` (CentRich, b): Finding: the mask is not set for the other centres; at one whose surroundings are masked the richness is not corrected for it. Here the mask cuts off positions below 0 and the corrected richness is 10 times the number of points over the number of unmasked ones.
- `C156_failed_refuted` (CentRich, c): Finding: a centre where the richness cannot be computed counts with richness -1.

### C157 Random points are written to the configured file — partial

- `C157_start` (RandMaker, -): The generation starts exactly if the configured name looks like a master table in some directory and no such table exists; the file is then the master table with the same base. Otherwise it is a RuntimeError.
- `C157_name_partial` (RandMaker, -): A name which really ends in "_master_table.fit" is the name of the file written. (Partial: for any other character in the place of the dot the file is another one, C157_name_refuted.)
- `C157_name_refuted` (RandMaker, -): Finding: the dot of the pattern is not escaped, so that "…_master_tableXfit" is accepted, and the random points are written to another file than the configured one, which never appears.
- `C157_bare_refuted` (RandMaker, -): Finding: a name without a directory passes the constructor, and is refused only when the generation begins.
- `C157_defaults` (RandMaker, -): The maker of random points fills what the caller leaves out and keeps what they give.
- `C157_keys` (RandMaker, -): It therefore never misses a key, while the maker of galaxies raises KeyError exactly if one of the six is missing.
- `C157_dict_refuted` (RandMaker, -): Finding: the missing keys are written into the caller's own dictionary, also when the construction fails.
- `C157_split_refuted` (RandMaker, -): Finding: splitting random points never works: the module does not import os, and the call ends in a NameError (or in a RuntimeError for a finished catalogue); the same call on galaxies, and appending random points, work for every maker not finished whose table does not exist.
- `C157_read` (RandMaker, -): Random points are read by from_randfile only.
- `C157_errors` (RandMaker, -): The errors: a finalised maker, or a table that exists, is a RuntimeError in every case.

### C158 Sources of the random points and their weights — partial

- `C158_sources` (RandMaker, -): What the caller gives is used; what they leave out comes from the configuration.
- `C158_fails` (RandMaker, -): It fails only if something which is left out cannot be read.
- `C158_limit_partial` (RandMaker, -): With no mask given, the number in the names of the weights is that of the limit of the mask. (Partial: not for a given mask, C158_limit_refuted.)
- `C158_limit_refuted` (RandMaker, -): Finding: a mask given by the caller is used whatever limit it is for; the limit which enters the names of the weights is the one of the configuration or of the other argument.
- `C158_redmagic_partial` (RandMaker, -): For red galaxies the random points are set up exactly if both arguments are objects. (Partial: the documented file names do not work, C158_names_refuted.)
- `C158_names_refuted` (RandMaker, -): Finding: a file name for the mask is always an AttributeError, and a file name for the catalogue a NameError, although both are accepted by the check of the types.
- `C158_number` (RandMaker, -): The number in the names is the limit times ten without its fraction, also below 0.

### C159 A mask which is given is applied — partial

- `C159_mask_partial` (MaskLoad, -): A run in mode 3 with a healsparse mask keeps, in its region, exactly the galaxies the mask lets survive. (Partial: with a region given as a list of pixels; the maker of galaxies gives none, C159_maker_refuted, and other modes have no mask, C159_mode_refuted.)
- `C159_file` (MaskLoad, -): A mask which is not there or has another format is an error in mode 3.
- `C159_maker_refuted` (MaskLoad, -): Finding: a mask given to the maker of galaxies is never applied. In mode 3 the construction always fails, at the latest with a TypeError, as the stand-in for the configuration has a number for the list of pixels; in every other mode, also in the default one, all galaxies are kept.
- `C159_none` (MaskLoad, -): Without a mask the maker keeps all galaxies.
- `C159_config` (MaskLoad, -): A configuration with a mask file in mode 0 is refused; so a run in mode 0 has no mask file.
- `C159_mode_refuted` (MaskLoad, -): Finding: any other mode passes the check of the configuration, and there is no mask at all: nothing is returned, neither an object nor an error.
- `C159_config_error` (MaskLoad, -): The errors: a mask with mode 0 is a ValueError; a correction from nothing is a RuntimeError.

### C160 The redshift correction which is read is the one in the file — partial

- `C160_source` (MaskLoad, -): When a correction can be set up: from a file which exists, or from parameters with the range, the size of the bins and the pivot.
- `C160_header` (MaskLoad, -): Values of the caller go before those of the file.
- `C160_grid` (MaskLoad, -): The redshifts of the table: equally spaced from the start of the range, and within half a bin as many as the range has.
- `C160_tables` (MaskLoad, -): Every iteration has its own tables, as many as the file says (one if it says nothing), with a value for each redshift: the splines of that iteration; the scatter is that of the spline, at least 0.001.
- `C160_extrapolated` (MaskLoad, -): A redshift counts as extrapolated exactly if it is below the first or above the last node of the offsets.
- `C160_end_refuted` (MaskLoad, -): Finding: the end of the range is not in the table: for a range of whole bins the last redshift is one bin below the end, and every value interpolated in the last bin of the range is that of the last redshift, instead of the spline.
- `C160_run_partial` (MaskLoad, -): What the run uses is the table which was read, with the pivot of the configuration. (Partial: only if it can be read.)
- `C160_run_refuted` (MaskLoad, -): Finding: a correction or a depth map which is configured and cannot be read is left out without any message: the redshifts stay uncorrected, and the run goes on as for a survey without a depth map.
- `C160_nothing` (MaskLoad, -)
- `C160_incomplete` (MaskLoad, -): From parameters alone, the range, the bin size and the pivot must be given: otherwise it is a ValueError.

### C161 An ingested galaxy catalog reads back as it was given — proved

- `C161_read` (Ingest, -): C161. Ingest in any number of calls, finalize, read any region: the galaxies returned are exactly those of the calls that returned which lie inside the mask and inside the requested region of the sky, each as often as it was given.
- `C161_succeeds` (Ingest, -): C161. The read is answered whenever the request is valid and any ingested galaxy lies in the region.
- `C161_finalizes` (Ingest, -): C161. With generated ids the catalog can always be finalized, and the calls that return are those on acceptable galaxies.

### C162 Every galaxy is read back with its own redshift — partial

- `C162_own` (Ingest, -): C162. After a run for redshifts, a read with redshifts returns exactly the requested galaxies in the pixels of the run, in their order, each with the redshift computed from that very galaxy.
- `C162_table` (Ingest, -): C162. The run changes nothing in the galaxy table, and gives redshifts to the pixels of its region and to no others.
- `C162_succeeds` (Ingest, -): C162. The run succeeds when every galaxy of its region has a redshift, and raises when one has not.
- `C162_pipeline` (Ingest, -): C162. From the input galaxies to the redshifts: ingest with any history of calls, finalize, run for redshifts over the whole sky, read any region with redshifts: exactly the ingested galaxies of that region come back, each with its own redshift.
- `C162_again_refuted` (Ingest, -): Finding: every run writes its table from scratch. After a second run (for another region, same redshift file) the galaxies of the first region have no redshifts any more: a read of a pixel outside the last region raises, although its redshift files are still there.

### C163 A log file receives exactly the messages between start and stop of logging — partial

- `C163_window_partial` (Logging, -): C163. Started once and stopped once: the log file receives exactly the messages of the logger sent in between, in order and once each; no other file receives anything, and messages after the stop go nowhere. (Missing: logging started again, or started by two configurations, theorems below.)
- `C163_names` (Logging, -): C163. Without a name the file is that of the first pixel: for one output name, two configurations log to the same file exactly if their first pixels are the same.
- `C163_once` (Logging, -): C163. A configuration set to print only never opens a file; one that has started does not start twice, nor do its copies.
- `C163_restart_refuted` (Logging, -): Finding: the flag is never taken down, so logging that was stopped cannot be started again: the second start returns without effect and all later messages are lost.
- `C163_stop_refuted` (Logging, -): Finding: stopping removes every handler of the logger. A second configuration with the same logger (all configurations without exactly one pixel share one) loses its log file too.
- `C163_twice_refuted` (Logging, -): Finding: two configurations that log to the same file (same output name and pixel) write every message twice.
- `C163_nopix_refuted` (Logging, -): Finding: with no pixel configured (the whole sky) the default name cannot be made: the first line of a run raises IndexError unless messages are only printed.
- `C163_new` (Logging, -): A new configuration does not log to a file, whatever logged before under its number; its logger has the name of its pixel if it has exactly one.
- `C163_own_logger` (Logging, -): Starting or stopping changes the files of one logger only: those of the configuration's own.

### C164 A redMaGiC run writes the selection from all galaxies, and refuses to overwrite — partial

- `C164_complete` (RedTask, -): C164. When all pixels can be read, the catalog of every mode is the selection from all galaxies, whatever the division into pixels; modes with a real mask get random points, ten per galaxy or as many as asked for; nothing else on disk changes, and the log file is closed.
- `C164_none` (RedTask, -): C164. Without random points the catalogs are the same and no file of random points is touched.
- `C164_refused` (RedTask, -): C164. An existing catalog of any of the modes is never overwritten without clobber: the run raises and leaves all files.
- `C164_log_refuted` (RedTask, -): Finding: a run without random points ends without closing the log file; so does every run that raises after its start.
- `C164_interrupted_refuted` (RedTask, -): Finding: a pixel that cannot be read ends the run in the middle. The catalogs then hold the galaxies of the earlier pixels only and look complete; a second run without clobber refuses because of them.
- `C164_randoms_refuted` (RedTask, -): Finding: an existing file of random points is only noticed after the catalogs have been written. The run raises, and from then on raises because of its own catalogs, even if the file of random points is removed.
- `C164_pixels` (RedTask, -): C164. After a run for redshifts over the region [a]: a pixel of the region is read with its galaxies, each with its own redshift; a pixel outside of it raises ValueError. So after a run over part of the sky the redMaGiC run is interrupted as above.
- `C164_unsplit` (RedTask, -): A galaxy table that is not split into pixels is a ValueError, and nothing is written.

### C165 Areas and volumes of the redMaGiC calibration — partial

- `C165_area` (RedArea, -): C165. The area of a redshift is that of the first redshift of the table that is not below it; beyond the table the calibration stops.
- `C165_conservative` (RedArea, -): C165. With areas that fall with redshift the area used is never above the area at the redshift, and not below that one step of the table further.
- `C165_total` (RedArea, -): C165. With the same area everywhere the volumes of the bins add up to the volume of the whole range.
- `C165_each` (RedArea, -): C165. Each bin gets its own volume: the area found for its middle times the volume of the sky within the bin.
- `C165_inside_partial` (RedArea, -): C165. The volumes of all bins and nodes are found if the range of the calibration ends one bin and one step of the table below the end of the configured redshifts.
- `C165_end_refuted` (RedArea, -): Finding: when the range of the calibration reaches the end of the configured redshifts, the table of areas, which ends below it, has no entry for the last node and the calibration stops with IndexError.
- `C165_ends_refuted` (RedArea, -): Finding: for the first and the last node the galaxies are counted in a bin beside the node but compared with the volume of the bin about it: where volume grows with redshift, the first is too small and the last too large.

### C166 The recorded candidates for the centre — partial

- `C166_own` (CentRec, -): C166. Every candidate is recorded in its slot with its own id, position and probability; the first one gives the position and the magnitudes of the cluster.
- `C166_marked_partial` (CentRec, -): C166. With as many candidates as there are slots, exactly the candidates are marked (percolation), or no galaxy is (zscan).
- `C166_empty_refuted` (CentRec, -): Finding: with fewer candidates than slots, every empty slot carries the id of the last neighbour (at position -400, -400 and with probability 0), and in percolation that neighbour is marked as a candidate for the centre.
- `C166_member_refuted` (CentRec, -): Finding: a galaxy marked like that is written to the members of the cluster whatever its membership, with no free probability.
- `C166_bcg_refuted` (CentRec, -): Finding: after CenteringBCG all slots have the position of the one centre, also those without a candidate.
- `C166_no_galaxy` (CentRec, -): C166. A centre that is no galaxy (CenteringRandom) leaves ids, magnitudes and marks as they were.
- `C166_column` (CentRec, -): Values go into a column if there is one for every row, or just one; otherwise it is a ValueError.

### C167 The run over all tiles as a whole — partial

- `C167_catalog` (TileRun, -): C167. The merged catalog of a run: exactly the usable clusters of each tile that lie in the tile, from that tile, by decreasing likelihood, numbered from 1, and their members with the new numbers.
- `C167_once` (TileRun, -): C167. No place is reported twice, although the tiles overlap.
- `C167_restart_partial` (TileRun, -): C167. A run that is killed and started again any number of times, never while a file is being written, ends with the same catalog as one that is not interrupted, or fails in the same way.
- `C167_torn_refuted` (TileRun, -): Finding: once a worker of one tile was killed while it wrote a file, or between a catalog and its members, no number of later executions, complete or not, gives a merged catalog: each of them fails.

### C168 The merged catalog and an interrupted merging — partial

- `C168_output_partial` (TileRun, -): C168. Killed any number of times, never while the table of members is being written, the merging ends with both files complete.
- `C168_members_refuted` (TileRun, -): Finding: killed while the table of members is written, every later run with the check keeps the unfinished table.
- `C168_mixed_refuted` (TileRun, -): Finding: with an earlier merged catalog there, a run without the check killed before it wrote the members leaves the new catalog (or a part of it) beside the old members, and later runs with the check keep that.
- `C168_without_check` (TileRun, -): C168. Without the check a run that is not killed writes both files, whatever was there.

### C169 A batch job runs its own pixel with the given configuration — partial

- `C169_jobs_partial` (Batch, -): There is one job for each pixel, and it runs the task of the run mode on that pixel, with the configuration file, resolution and the directory of the configuration file. (Missing: names with characters which have a meaning to the shell or in one of the rounds of formatting; PBS.)
- `C169_image` (Batch, -): With an image the same commands are run by a shell inside it.
- `C169_percent_refuted` (Batch, -): Finding: a '%' in the name of the configuration file or its directories is taken for a format in the second round of formatting (bin/redmapper_batch.py:258, 294): with '%/' no job can be created, after the job file has been opened.
- `C169_other_file_refuted` (Batch, -): Finding: the jobs of a configuration file with '%%' in its name run another one.
- `C169_braces_refuted` (Batch, -): Finding: with parsl, braces in the name are taken for an argument of the third round of formatting (parsl_templates.py:78), and the script fails; with LSF the same name works.
- `C169_blank_refuted` (Batch, -): Finding: names are not quoted for the shell: with a blank in a directory every job stops at its options.
- `C169_line` (Batch, -): A job line runs a task only if it names one of the five scripts and gives configuration file, pixel and resolution; else it stops, as an unknown command or at its options.
- `C169_lone_brace` (Batch, -): A brace that is not closed, or closes nothing, in the text to be formatted is a ValueError.
- `C169_lone_percent` (Batch, -): A percent sign at the end of a command, or before a letter that is not understood, is a ValueError.
- `C169_not_a_number` (Batch, -): A pixel or a pixelisation that is not a non-empty string of digits is refused.

### C170 Settings of a batch run — partial

- `C170_settings` (Batch, -): The settings of a run are those of the named section, or of the only one, with defaults for what it does not give.
- `C170_choice` (Batch, -): With several sections one has to be named, and it must be one of the file.
- `C170_other_section_refuted` (Batch, -): Finding: a section without 'batch' stops the runs of every other section; an empty file stops with AttributeError.
- `C170_first_use_refuted` (Batch, -): Finding: on first use the script asks for its new settings to be edited and to be run again, but goes on with them: an LSF job.
- `C170_walltime` (Batch, -): The time given counts, else a default by run mode.
- `C170_nodes` (Batch, -): The nodes of a PBS job hold all pixels, and one node fewer does not.
- `C170_hours_refuted` (Batch, -): Finding: a PBS job asks for whole hours, rounded down: less than the time given unless it is a multiple of 60 minutes, and none at all below an hour (bin/redmapper_batch.py:239).
- `C170_mode_unknown` (Batch, -): Any other run mode is refused, whatever time is given.
- `C170_command_unknown` (Batch, -): Nor is there a command for any other run mode.

### C171 Several pixels on one node — partial

- `C171_each` (Batch, -): Several pixels on one node: the command is run once for each pixel listed, with the options given and that pixel.
- `C171_status_refuted` (Batch, -): Finding: the exit status of the commands is dropped (bin/redmapper_run_many_pixels_same_node.py:26): the script ends without an error whatever became of the pixels.
- `C171_list_refuted` (Batch, -): Finding: a pixel listed twice is run twice at the same time, and an empty list starts one command without a pixel, which stops.

### C172 Consolidation takes every tile of the run, with its own pixel — partial

- `C172_found_partial` (ConsFiles, -): A directory with the catalogues of the tiles of one run, and files of other forms: every tile is found once, with its own pixel and in the order of the pixels, and the resolution is that of the run. (Partial: no resolution and pixel can be read in the path and the outbase, the pixels have at most five digits and the resolution does not have five, no file of another run has the form.)
- `C172_order` (ConsFiles, -): The order in which the directory lists its files is of no consequence.
- `C172_used` (ConsFiles, -): Exactly the files of the form are used, and a pixel is always what is read in the full path of its own file; a file in which nothing can be read stops the consolidation with a RuntimeError, and a directory without such files with an IndexError.
- `C172_directory_refuted` (ConsFiles, -): Finding: the pixel is looked for in the whole path. If it can be read in the directory, every tile gets the pixel that is read there, and all of the clusters of the other tiles are dropped as outside their pixel.
- `C172_other_run_refuted` (ConsFiles, -): Finding: the tiles of a run with the outbase y3_test, in the same directory, are taken into the catalogue of the run y3.
- `C172_large_refuted` (ConsFiles, -): Finding: the catalogue of a tile whose pixel has six digits, which there are from a resolution of 128 on, is never found.
- `C172_missing_refuted` (ConsFiles, -): Finding: a tile whose catalogue is missing is left out without any message: the consolidation of the others goes on.
- `C172_mixed_refuted` (ConsFiles, -): Finding: the resolution is read from one file only. With tiles of resolution 16 and 8 in the directory, the pixels of the latter are taken for pixels of resolution 16.

### C173 Consolidation makes one output per richness cut and volume limit, each as if it were the only one — partial

- `C173_each_partial` (ConsOut, -): If no two outputs share a name, and every one alone is made, all are made, each with exactly the tables it has alone, and no other file is touched. (Partial: outputs with the same name, and an output without clusters, see below.)
- `C173_names` (ConsOut, -): Two outputs have the same name exactly if their cuts have the same whole part, and their volume limits the same first decimal.
- `C173_outputs` (ConsOut, -): One output for every cut and every volume limit, in this order; without volume limits, one for every cut.
- `C173_given` (ConsOut, -): The cuts given are used; otherwise the configured ones.
- `C173_none_refuted` (ConsOut, -): Finding: the volume limits cannot be switched off in the call: for an empty list the configured ones are used.
- `C173_shared_refuted` (ConsOut, -): Finding: the cuts 5 and 11/2 have one file. The second cut starts it again after the first one has written, then both append: a cluster comes twice. The numbers are replaced twice, so that clusters have the numbers of others.
- `C173_unfinished_refuted` (ConsOut, -): Finding: if no cluster passes one of the cuts, the task stops there with a KeyError. The outputs before it are complete; its own file, if there is one of an earlier run, stays; the outputs after it have all of their clusters, but numbers that are not final (see the example).
- `C173_nothing` (ConsOut, -): Without any file there is nothing to consolidate: an IndexError, and nothing is written.

### C174 A run in jobs and its consolidation depend on no schedule — partial

- `C174_complete_partial` (DistRun, -): When all jobs have ended, in whatever order they wrote, killed and started again or not, the consolidation makes every output from the catalogues of all tiles in the order of their numbers: the clusters of a tile that lie in it and pass the cuts, with the rank of their likelihood in the whole run as number. (Partial: names that are not understood, see C172; outputs with one name or without clusters, see C173.)
- `C174_history` (DistRun, -): The result depends on nothing else: for any two histories in which all jobs end, and any order of the directories, the consolidation gives the same.
- `C174_early_refuted` (DistRun, -): Finding: nothing is checked for completeness. While jobs have not begun to write, the consolidation succeeds, with the clusters of the tiles that have ended, as if the run had no other tiles.
- `C174_between` (DistRun, -): A job in between stops the consolidation, with an OSError or a RuntimeError.
- `C174_killed_refuted` (DistRun, -): Finding: a job that is killed after it began to write and before it wrote all is never repaired: however often it is started again, whatever the other jobs do, no consolidation succeeds.
- `C174_restarted` (DistRun, -): Killed before it writes, a job that is started again goes on from the start; a job that is not killed ends after its four steps.

### C175 Medians of the calibration sample and the error ratio — partial

- `C175_magnitudes` (MedCol, d): The range of magnitudes at a redshift is the range of luminosities from 0.1 below the reference (at least 0.001) to 30 times the characteristic one, and is not empty for every reference below 30.1.
- `C175_color` (MedCol, c): The fit of a color always gives a width of at least 0.0148 at every node and, if asked for, a ratio of true to stated errors among 0.5, 0.6, ..., 9.9: the one with the scatter of the normalised residuals closest to 1, the smallest if there are several. If not asked for it is 1.
- `C175_recovered_partial` (MedCol, c): If all stated errors are equal, and too small by a factor that is on the grid, this factor is found. (Partial: stated errors that differ from galaxy to galaxy; factors off the grid.)
- `C175_half_refuted` (MedCol, c): Finding: the intrinsic scatter that is taken is the observed one at the lowest node. If the scatter of the whole sample is not larger than it, as in a sample whose scatter does not change with redshift, the ratio is 0.5: the stated errors are taken to be twice too large, however large they are. So it is when all stated errors are 0.
- `C175_largest_refuted` (MedCol, c): Finding: errors that are too small by more than a factor 9.9 are corrected by 9.9, without a message.
- `C175_no_nodes` (MedCol, c): Without nodes there is no intrinsic scatter: an IndexError.
- `C175_zreds_partial` (MedCol, -): The redshifts of the galaxies in dir/stem.fit are written to stem_zreds.fit in the output directory. (Partial: stems that do not end in one of the letters f, i, t or a dot.)
- `C175_zreds_refuted` (MedCol, -): Finding: the extension is taken off letter by letter. Galaxy files whose names differ in letters f, i, t and dots at the end of the stem have one file of redshifts; that of dir/fit.fit has no stem.

### C176 The galaxies and start values of the redMaGiC calibration — partial

- `C176_range` (RedSamp, b): The redshift range of a fit begins the buffer above the lower end, is a whole number of bins, and ends between the buffer below the upper end and one bin more.
- `C176_kept` (RedSamp, d): A galaxy is kept exactly if it is within 0.05 (and the rounding of the range) of the redshift range, below the largest chi-squared, and brighter than 0.05 below the faintest of the runs' luminosities, and than 0.1; without any, and without runs, the calibration stops.
- `C176_runs_partial` (RedSamp, d): No galaxy of a run is lost: those within its redshifts, bright enough for it and below the largest chi-squared are all kept, and are among its candidates. (Partial: runs whose largest redshift is not above the end of the range.)
- `C176_candidates` (RedSamp, d): The candidates of a run are those of the kept galaxies that are bright enough for it, and no others.
- `C176_beyond_refuted` (RedSamp, d): Finding: the galaxies are cut with the upper end of the common range, not with the largest redshifts of the runs. In a run that goes further, the galaxies more than 0.05 and one bin beyond that end are all missing.
- `C176_start` (RedSamp, b): The start value of the cut at a node is the chi-squared of a galaxy near the node such that the galaxies below it have the density that is asked for, to one galaxy, or that of the last galaxy if there are too few.
- `C176_empty_refuted` (RedSamp, b): Finding: a node without any galaxy about it stops the calibration, with an IndexError, although the galaxies elsewhere were enough; with a constant chi-squared there is no such error.
- `C176_window` (RedSamp, b): The galaxies about a node: half a bin to both sides, at the two ends one bin inwards.

### C177 The brightest satellites of the centering calibration — partial

- `C177_three` (BrightSat, b): A trial draws different galaxies, one fewer than the richness, and returns the three brightest of them.
- `C177_richer` (BrightSat, b): In one trial a richer cluster has no fainter brightest, second and third galaxy.
- `C177_fails` (BrightSat, b): A trial fails, with an IndexError, exactly if fewer than three galaxies are drawn or one is not in the sample.
- `C177_count_refuted` (BrightSat, b): Finding: a cluster of richness lambda is drawn with lambda - 1 galaxies: the slice ends one galaxy early. If the last galaxy that should have been drawn is the brightest of all, the trial does not return it.
- `C177_line` (BrightSat, d): The result is, for the mean and the width of the brightest galaxy, the line in the logarithm of the richness that is closest to those of the nine (in tests three) richnesses from 20 to 100; on a line it is that line, and the magnitude expected at a richness lies on it.
- `C177_total` (BrightSat, d): With enough galaxies and a fit that never fails there is always a result.
- `C177_unused_refuted` (BrightSat, d): Finding: the fits to the second and the third brightest galaxies are not used, but one that fails (C153) stops the calibration.

### C178 The luminosity filter is normalised — partial

- `C178_table` (LumNorm, d): The table reaches from the first magnitude to a tenth of the characteristic luminosity at the largest redshift, in steps of 0.01.
- `C178_unit` (LumNorm, d): The filter is defined and positive for any limit up to magnitude 1000; with a limit within the table it is, in steps of 0.01 from the first magnitude to the limit (to 0.005), normalised to one.
- `C178_integral` (LumNorm, d): For a faint-end slope of -1 or steeper that is the integral of the filter, to one part in the step: from the first magnitude to the limit the integral is at most one, and less than one by no more than 0.01 of the filter at the limit.
- `C178_primitive` (LumNorm, d): The filter has an integral.
- `C178_beyond_refuted` (LumNorm, d): Finding: a limit beyond the end of the table is not an error: the filter is then normalised as if the limit was at the end of the table (with the last magnitude counted twice), whatever the limit; the table ends at a tenth of the characteristic luminosity at the largest redshift.
- `C178_fainter` (LumNorm, d): A fainter limit within the table makes the filter smaller everywhere.
- `C178_reference` (LumNorm, d): With a reference luminosity of at least a tenth, and a characteristic magnitude that is not fainter than that at the largest redshift, the limit of a cluster is not beyond the end of the table.
- `C178_mask` (LumNorm, d): The filter of a mask galaxy depends on its luminosity alone: L^(alpha+1) exp(-L), and its weight is proportional to it.
- `C178_mask_norm` (LumNorm, d): That weight is the filter over the integral of the filter at a characteristic magnitude of 19, on steps of 0.01 from 10 up to, but not, the limit of the cluster's galaxies.
- `C178_ends` (LumNorm, d): The table begins at magnitude 10 in the low redshift mode and at 12 otherwise; a limit fainter than 1000 is not in any table.

### C179 The columns of a catalogue of clusters — partial

- `C179_open` (ClusCat, -): A catalogue is built exactly when the names of the input, in lower case, and the wanted ones that it lacks are all different, and it is then the input completed with columns of zeros; it remembers the configuration it was given.
- `C179_open_error` (ClusCat, -)
- `C179_from_file` (ClusCat, -): A file with distinct names is always readable, with the configuration's columns or without a configuration: nothing of the file is lost, every wanted column is there, those that the file lacks are zero, and there are no others.
- `C179_same_name` (ClusCat, -): Two columns whose names differ only by case: such a file cannot be read.
- `C179_reopen` (ClusCat, -): Reading back what was written changes nothing, with the same configuration or with fewer wanted columns.
- `C179_subsets` (ClusCat, -): Subsets of subsets, in any number, of a catalogue read from a file: they can always be taken, the columns and the configuration stay as they are and each row is the row of the catalogue that the picks lead to.
- `C179_subset_own_columns_refuted` (ClusCat, -): Finding: a catalogue made with its own list of columns does not keep to it: every subset of it gains, as zeros, all the columns of its configuration (cluster.py:993 builds the subset without the list).
- `C179_crop` (ClusCat, -): The catalogue that a run leaves: for an input read from a file with a configuration, the rows kept, with all their columns.
- `C179_randoms_refuted` (ClusCat, -): Finding: the table that the run over random points leaves does not have the sixteen columns it asks for but forty-six: the thirty base columns of clusters it did not ask for come back, all zero, among them the limiting magnitude that the run did compute.
- `C179_extra_partial` (ClusCat, -): Redshift scans and colour runs add columns to the file they read: this works when the file has none of them ...
- `C179_extra_refuted` (ClusCat, -): Finding: ... and a file that has one of them, for example the output of an earlier scan or colour run, is refused.
- `C179_rescan_refuted` (ClusCat, -): A second scan of what a scan has left.

### C180 The redshift correction as it acts on the catalogue — partial

- `C180_rows` (PzRow, c): After the loop every cluster's row holds the corrected redshift, error, bins and values that the correction returns for what the row held before, with unit integral; nothing else in the catalogue has changed.
- `C180_row` (PzRow, c): One row, and what the object alone has been given: the values under a name that is not a column.
- `C180_assign_error` (PzRow, -): Assigning to a column a list of neither one value nor the number of its cell is a ValueError.
- `C180_caller_refuted` (PzRow, c): Finding: a caller of apply_correction finds the array of values changed while the array of bins is not: with an extra scatter the two no longer are a normalised distribution (in place division, zlambda.py:727).

### C181 How much of a galaxy the clusters of a catalog have — partial

- `C181_share_partial` (Share, -): Whatever the order and number of the clusters of a percolation run, the shares of a galaxy (p times pfree) in the member table, for the clusters of the catalog or any selection of them, are together at most one, provided that p is a probability and all members are inside the mask. (The probability used up, the sum of the p, may be above one: C13_overcommitted_refuted.)
- `C181_unmasked_refuted` (Share, -): Finding: a member outside the mask (percolation_memradius beyond the mask radius, or fainter than percolation_lmask) is never used up: any number of clusters can each have the whole galaxy.
- `C181_negative_refuted` (Share, -): Finding: with cuts on the radius of members, a candidate for the centre is recorded also when the galaxy is used up more than once: its free probability in the member table, and with it its share, is negative.
- `C181_positive_partial` (Share, -): Without these cuts no share is negative, if pmem is at most zero where nothing is free.
- `C181_dropped_refuted` (Share, -): Finding: a cluster that is dropped from the catalog in the end keeps its claims: the only cluster of the catalog is given a tenth of its member, the rest of which no cluster has.
- `C181_tiles_partial` (Share, -): The merged catalog of several tiles. The share of a galaxy is at most the number of tiles that have the galaxy as a member; so at most one for a galaxy that only one tile has.
- `C181_tiles_refuted` (Share, -): Finding: each tile is percolated by itself and its borders overlap those of others, so that a galaxy near a border can be a whole member of a cluster in each of any number of tiles; merging keeps all of them.

### C182 The clusters of a tile are those of the whole sky — partial

- `C182_part_partial` (TileLocal, -): A part of a run, worked on by itself in the same order, gives each of its clusters the richness and the members (p and pfree) it has in the whole run, provided that no cluster of the part shares a galaxy with an earlier cluster outside of it.
- `C182_later` (TileLocal, -): The clusters of a run are those it would have without the less likely clusters after them.
- `C182_chain_refuted` (TileLocal, -): Finding: a border that contains all clusters which share galaxies with those of the tile is not enough: in a chain of clusters, each of which shares a galaxy with the next only, leaving out the first changes the richness of the last, however long the chain.

### C183 Spectroscopic redshifts of the redMaGiC calibration — partial

- `C183_zspec_partial` (SpecMatch, b): Every galaxy keeps its place. Its redshift is 0, or that of a precise spectrum of it.
- `C183_found` (SpecMatch, b): No spectrum is lost: a precise spectrum whose only closest galaxy is this one gives it a redshift, its own unless a later precise spectrum in the file is also one of this galaxy.
- `C183_none` (SpecMatch, b): A galaxy without a precise spectrum has 0.
- `C183_best_refuted` (SpecMatch, b): Finding: of several precise spectra of one galaxy the last of the file counts, however much worse it is: it may be further from the galaxy and have the larger error.
- `C183_directions_refuted` (SpecMatch, b): Finding: the sample that calibrates and the catalogue selected with its result match in opposite directions. A galaxy with a precise spectrum within reach, to which another galaxy is closer, has no redshift (0) in the calibration; the selection gives it that spectrum's redshift.
- `C183_marks_refuted` (SpecMatch, b): Finding: a galaxy with no spectrum at all has redshift 0 in the calibration sample and -1 in a selected catalogue.
- `C183_truth` (SpecMatch, b): with mock truth every galaxy has its true redshift, whatever the spectra

### C184 The catalogue a run starts with — partial

- `C184_randoms` (StartCat, -): A run on random points starts with exactly the points of the file, in their order, whatever their number: position, identifier, identifier of the input cluster, redshift and richness, the last two also in the columns that are never changed again; everything that the run measures starts as zero.
- `C184_clusters_partial` (StartCat, -): A run on the clusters of a file: identifiers that are distinct stay, missing ones are counted from 1; nothing else of the file changes.
- `C184_scan_partial` (StartCat, -): A scan in redshift: moreover the original position is the position of the file and the redshift is the first of the scan.
- `C184_single_refuted` (StartCat, -): Finding: the only cluster of a file loses its identifier: it is number 1 afterwards.
- `C184_positions_refuted` (StartCat, -): Finding: a file without positions (or with columns of other names, for example RA_J2000) is not refused: every one of its clusters is put at right ascension 0 and declination 0.
- `C184_refused` (StartCat, -): What stops a run: an empty file (ValueError), identifiers some of which are equal and some of which differ (RuntimeError), and, for a scan, an empty range of redshifts (IndexError).

### C185 Parameter row of the red-sequence calibration — partial

- `C185_readable` (RedPars, -): With sound settings the row can be made, whatever the number of bands: its columns have different names, and each spline the reader builds gets as many values as nodes, the nodes increasing up to the end of the redshift range.
- `C185_splines` (RedPars, -): Those splines are: three magnitude limits, the color and its slope for each color, each entry of the covariance on or above the diagonal, the volume factor and the six redshift corrections.
- `C185_unreadable` (RedPars, -): A spline without one of its columns is a ValueError, an entry outside of a column of matrices an IndexError, and so is the entry of a column that is none.
- `C185_start` (RedPars, -): The columns of nodes hold the nodes of their settings, the pivot of the error ratio is the one set, all else is zero.
- `C185_maxnode_refuted` (RedPars, -): Finding: the largest node set for a color is not checked. One at or below the lower end of the range (and not negative) stops the calibration when the row is made, with an error about an empty array.
- `C185_short` (RedPars, -): Settings for fewer colors than there are stop it too.
- `C185_single_refuted` (RedPars, -): Finding: in a range not longer than half a node size plus 0.01 (and than a node size) the reader's spline has a single node, which a spline cannot be drawn through: its two ends coincide.

### C186 A galaxy's redshift is the mean of its probability distribution, within two errors — proved

- `C186_odds` (LnDist, d): Between two bins with a volume the densities are as the probabilities: Gaussian of the colors, luminosity function, volume.
- `C186_estimate` (LnDist, d): A galaxy's redshift (before corrections) is within two errors of the mean of the redshift over the bins that count, weighted by their probability; its error is the spread of the same distribution, at least 0.005.
- `C186_given` (LnDist, d): A redshift is given when two bins are within the magnitude limits and a bin that counts has a real density.
- `C186_no_volume` (LnDist, d): When no evaluated bin has a volume the galaxy gets the values of a failed one.
- `C186_without_volume` (LnDist, d): A bin without a volume does not count beside one whose density is real.

### C187 The red-sequence model of the training step fits each color mode on its own — partial

- `C187_columns` (RedModel, -): With galaxies and modes that are colors, there is a model; its column of a mode is the fit of that color, whatever other modes there are and in whatever order, and zero for a color that is no mode.
- `C187_order` (RedModel, -): The order of the modes and repetitions do not matter.
- `C187_own_color` (RedModel, -): The fit of a color uses no other color: samples that agree in redshift, the color, its error and the errors of its two magnitudes give the same fit.
- `C187_trimmed` (RedModel, -): The first fit is given the galaxies whose offset lies strictly between the one at 5% and the one at 99% of the sorted offsets; so neither the bluest nor the reddest is in it.
- `C187_few_refuted` (RedModel, -): Finding: with fewer than three galaxies the first fit is given no galaxy at all, without a word.
- `C187_errors` (RedModel, -): No galaxy in the redshift range: the first mode stops with an error about an index; so does a mode that is not a color.
- `C187_truncated` (RedModel, -): The last fits, of mean and scatter, are given the galaxies within one and a half widths of the median at their redshift, each with that (positive) truncation and the errors of the two magnitudes of the color; nothing outside its truncation.
- `C187_positive` (RedModel, -)
- `C187_stages` (RedModel, -): What is written is the fit of mean and scatter together, started from the fit of the scatter, itself started from the fit of the mean, all three with no slope and on the same sample.
- `C187_medians` (RedModel, -): The median is fitted to the galaxies within two widths of the first fit, the width (1.4826 times the median deviation) to those within two such widths of that median.
- `C187_red_color` (RedModel, -): In the member run the red color of a mode at a redshift is the spline through the fitted mean over the same nodes.

### C188 Mask galaxies lie where they are said to lie — proved

- `C188_profile` (MaskGeo, c): A mask galaxy is at the distance drawn for it, and no direction comes twice.
- `C188_direction` (MaskGeo, c)
- `C188_turn` (MaskGeo, c): A quarter turn of the random number is a quarter turn of the position.
- `C188_uniform` (MaskGeo, c): The uniform positions are inside the outer radius, and the share of random numbers that leads within a distance is the share of the area within it.
- `C188_uniform_direction` (MaskGeo, c): and its direction is spread like that of the others
- `C188_uniform_turn` (MaskGeo, c)
- `C188_weight` (MaskGeo, d): The weight of a redshift offset is positive, the same on both sides, and falls with the distance from zero as a Gaussian: the logarithm of the ratio of two weights is half the difference of the squares in units of the error.

### C189 What each kind of run does, and the files it writes — partial

- `C189_passes` (RunFlags, -): Whatever an earlier run left in the object, a run makes the passes of its kind: the galaxies are shared, the members recorded, the redshift corrected and the derivatives taken in exactly the passes that should.
- `C189_again` (RunFlags, -): A second run with the same object does what the first would have done, whichever kinds were run before.
- `C189_ends` (RunFlags, -)
- `C189_radius` (RunFlags, -): Members are limited to a multiple of the radius in the percolation run alone, when a multiple larger than 1 is set.
- `C189_lum_refuted` (RunFlags, -): Finding: the members of no run are limited in luminosity by percolation_memlum: run_percolation.py:206 turns the limit off and nothing turns it on, so the branches at cluster_runner.py:529-530 and 547-548 are never taken.
- `C189_matching` (RunFlags, -): Only a run on input clusters looks for the galaxy at each center; only the redshift scan matches galaxies of any magnitude and masks within its own radius; every run reads its galaxies, except that over random points if there is a depth file.
- `C189_kept` (RunFlags, -): The clusters kept are those at or above the least richness of the kind of run; where there is none, all with at least -1 are.
- `C189_failed_refuted` (RunFlags, -): Finding: clusters that failed (richness -1) stay in the catalogue of a run on input clusters and of the random points, and in that of every other run whose least richness is -1 or less.
- `C189_names` (RunFlags, -): In one place, the catalogues and the members of different kinds of run are different files.
- `C189_output` (RunFlags, -): [output] writes the catalogue, the members if they are asked for and there are any, and touches no other file; without a catalogue it writes nothing.
- `C189_stale_refuted` (RunFlags, -): Finding: [output] does not clobber unless told to, and then a second catalogue goes behind the first: who reads the file still gets the first.
- `C189_fresh_partial` (RunFlags, -): With clobber, who reads the file gets the new catalogue.
- `C189_filename_partial` (RunFlags, -): Once the output is written, [filename] is where it is; before that it is where it will be if no version and no base name are asked for.
- `C189_filename_refuted` (RunFlags, -): Finding: by default the version is part of the name, so [filename], asked before the output (to see if there is something to do), never names the file the output goes to.

### C190 The diagnostics of redshifts — partial

- `C190_median` (PlotSpec, -): A median is one: at least half of the values are at or below it, at least half at or above it.
- `C190_members_partial` (PlotSpec, -): When every member with a redshift belongs to a cluster of the catalogue and the first cluster has such a member, each cluster gets the median redshift of its members, 0 without any. Missing: other members (C190_foreign_refuted), first clusters without members (C190_shifted_refuted).
- `C190_shifted_refuted` (PlotSpec, -): Finding: the bins of the histogram start at the first cluster with a member, but are written from the first cluster on: with k clusters without a member at the front, every cluster is shown with the redshift of the cluster k places further down, and the last k with 0.
- `C190_foreign_refuted` (PlotSpec, -): Finding: rows of the match are taken for rows of the member table (line 115), so one member of no cluster of the catalogue (its cluster was cut for its richness) gives the clusters behind it the redshifts of other members.
- `C190_members_error` (PlotSpec, -): Without a member that has a redshift and a cluster, or with an empty catalogue or repeated ids, there is an error.
- `C190_outliers` (PlotSpec, -): The fraction of outliers counts the rows with a spectroscopic redshift whose redshift is off by more than nsig errors, over all with one.
- `C190_no_spec_refuted` (PlotSpec, -): Finding: a catalogue without a single spectroscopic redshift makes no plot but a ValueError, in the consolidation after the catalogues are written.
- `C190_bins` (PlotSpec, -): Every redshift up to 0.001 below the largest is in exactly one bin, within half a bin of its center.
- `C190_bias` (PlotSpec, -): The bias of a bin is a median of the differences and so between the least and the largest; an offset common to all is found exactly, with no scatter; the scatter is never negative.
- `C190_offset` (PlotSpec, -)
- `C190_error` (PlotSpec, -): The error of a bin is between the least and the largest of its rows.
- `C190_factor_refuted` (PlotSpec, -): Finding: the factor from the median deviation to a standard deviation is mistyped, 1.4862 for 1.4826: the scatter is too large by 0.24 per cent whenever there is any.
- `C190_few_refuted` (PlotSpec, -): Finding: a bin of fewer than three rows, or none, is drawn as one without bias, scatter and error.
- `C190_panel` (PlotSpec, -): The lower panel has a point for each bin, from the rows of that bin which have a spectroscopic redshift.
- `C190_coarse_partial` (PlotSpec, -): The coarse bins of the contour map take each redshift from the least up to the largest, but not the largest, exactly once.
- `C190_coarse_refuted` (PlotSpec, -): Finding: the object with the largest redshift is in none of the coarse bins.

### C191 The number density in redshift — partial

- `C191_points` (PlotNz, c): A bin is drawn exactly when it has more than 25 objects, with the number over the volume as density and the square root of the number over the volume as error, both times 10000.
- `C191_counts` (PlotNz, -): The bins count each object from the lower end of the range up to 0.0001 below its upper end exactly once, and no other.
- `C191_bin` (PlotNz, -)
- `C191_top_refuted` (PlotNz, -): Finding: objects in the last 0.0001 of the range are counted in no bin, while the volume of the last bin has it.
- `C191_volume` (PlotNz, b): The volume of every bin is positive, so each is drawn or left out by its number alone.
- `C191_no_area` (PlotNz, b): Without areas there is an error.
- `C191_total` (PlotNz, b): With one area for all redshifts the volumes of the bins add up to that of the range, or of as much of it as whole bins reach.
- `C191_plot` (PlotNz, c): The plot has a point, drawn or not, at the middle of each bin, and its density follows from the number and the volume of that bin.
- `C191_plots` (PlotNz, c)
- `C191_draw_range` (PlotNz, -): A redshift drawn for a cluster is one of 100 from the lower end of its density up to, but not, the upper end.
- `C191_low_refuted` (PlotNz, -): Finding: one draw in a hundred gives the lower end of the density's range, however small the density is there.
- `C191_no_density` (PlotNz, -): A density that is nowhere positive has no draw: an IndexError stops the plot of the whole catalogue.

### C192 The map of positions — partial

- `C192_arc` (PlotNz, -): Positions within an arc of at most 180 degrees, wherever it starts and also across 0, are drawn over no more than the length of the arc.
- `C192_choice` (PlotNz, -): Whatever the positions, what is drawn are the positions themselves or all of them turned by 180 degrees, whichever take less room.
- `C192_turned` (PlotNz, -)
- `C192_empty_refuted` (PlotNz, -): Finding: an empty catalogue has no range and is an error.

### C193 The fit of a correlation between two colors — partial

- `C193_sizes` (OffFit, -): The fit takes data exactly if all are as many as the redshifts and the errors have that many rows; the errors need the bands of both colors.
- `C193_value` (OffFit, c): The value of a trial is minus the likelihood plus the prior, and 100000 more exactly if at some node the covariance with the correlation of the trial is below the least eigenvalue in some direction; a value that is not finite is 1e11.
- `C193_without` (OffFit, c): Without matrices there is no such condition.
- `C193_history` (OffFit, c): Though each trial writes to the matrices, its value is the same whatever trials there were before.
- `C193_others` (OffFit, c): Of the matrices of the caller only the two entries of the correlation change, and they stay symmetric.
- `C193_left_refuted` (OffFit, c): Finding: the matrices of the caller are left with the correlations of the last trial, which are those of the answer only if the optimiser tried the answer last (with differences for the gradient, it does not).
- `C193_two` (OffFit, c): With two colors, and a least eigenvalue of zero, no trial with correlations from -1 to 1 is beyond the wall.
- `C193_three_refuted` (OffFit, c): Finding: with three colors the limits of 0.9 on each correlation do not make a covariance: after 0.9 with the second color for both, -0.9 between the first and the third is beyond the wall, so whether a correlation can be found depends on the order of the fits.

### C194 The files of the diagnostic plots — partial

- `C194_filename` (PlotOut, -): Once a file is saved, filename is where, whatever the plot and the plots before.
- `C194_saved` (PlotOut, -): Every plot is saved, but for a comparison of redshifts that is returned, which leaves the object as it was.
- `C194_unsaved` (PlotOut, -)
- `C194_catalogue` (PlotOut, -): With a new object, the plot of a catalogue of each kind is saved under the name of the kind; a comparison of redshifts that is returned is not saved.
- `C194_distinct` (PlotOut, -): The plots of a catalogue have four different files, and so have the catalogues of a consolidation if their base names differ.
- `C194_history_partial` (PlotOut, -): The file of the plot of a catalogue is the same whatever was plotted with the object before, for redshifts and densities in redshift. Missing: the other two (C194_renamed_refuted).
- `C194_renamed_refuted` (PlotOut, -): Finding: the plots of richnesses and positions take the name of the plot before: after a plot of values with a name of its own, the plot of a catalogue is saved over it.
- `C194_before_refuted` (PlotOut, -): Finding: for these two, filename is an AttributeError before the first plot; for the others it is where the plot will be, without a version.
- `C194_before_partial` (PlotOut, -): Before the first plot, filename is that of the plot of a catalogue, for redshifts and densities in redshift. Missing: the other two (C194_before_refuted).
- `C194_redmagic_refuted` (PlotOut, -): Finding: names of redMaGiC plots run together: a plot of the calibration of a sample has the name of the plot of a sample that is called by both.
- `C194_consolidation` (PlotOut, -): A consolidation with catalogues of different bases has four plots for each, all in files of their own, without a version in their names but that of the base.
- `C194_base_partial` (PlotOut, -): The base of a catalogue's plots is that of the catalogue's file, if "_catalog" is nowhere before in the name: so bases differ if the cuts do. Missing: other names (C194_base_refuted).
- `C194_base_refuted` (PlotOut, -): Finding: with "_catalog" in the name of the run, the plots of all cuts have one base, and those of the last cut are what is left.
- `C194_outbase_refuted` (PlotOut, -): Finding: with plots, the configuration is left with the base of the last catalogue as the name of the run.

### C195 The counts in richness of a plot — partial

- `C195_counts` (PlotOut, -): The bins of the plot of richnesses have each cluster from 0 up to the last edge exactly once.
- `C195_bin` (PlotOut, -): A bin has the richnesses from its lower edge up to, but not, its upper edge, which only the last bin has.
- `C195_rich_refuted` (PlotOut, -): Finding: the last edge is below 200 (199 for bins of 1), and clusters that are richer are in no bin.

### C196 The part of a map around a pixel — partial

- `C196_reference` (SubMask, -): The size of the reference pixels: a quarter of the pixel's, not coarser than 256 and not finer than the map.
- `C196_selected` (SubMask, -): Positions are those of the given pixels whose reference pixel is in the pixel or, with a border, in a disc about a point of its boundary; each comes once, in order.
- `C196_exact_partial` (SubMask, -): For a map at least as fine as the pixel, the part without a border has exactly the pixels of the map in the pixel. Missing: coarser maps (C196_coarse_refuted).
- `C196_once_partial` (SubMask, -): So each pixel of the map is in the part of one pixel, and one only.
- `C196_border` (SubMask, -): A border loses nothing.
- `C196_result` (SubMask, -): These positions are what is returned if there are any.
- `C196_succeeds` (SubMask, -)
- `C196_empty_refuted` (SubMask, -): Finding: an empty part of a map is an error and not an empty list.
- `C196_coarse_refuted` (SubMask, -): Finding: with a map that is coarser than the pixel, the cut at a pixel without the center of a map pixel is an error, although the pixel is inside one.

### C197 The arrays given to the richness solver — proved

- `C197_sizes` (SubMask, -): A solver exists exactly for four arrays of one length and four correction parameters, and anything else is a ValueError.
- `C197_refused` (SubMask, -)

### C198 Runs with one object, one after the other — partial

- `C198_ends` (Release, -): Whatever the runs before, a run that ends raises nothing in its clean-up, holds nothing that it read, and leaves its catalogue and members, which are then written.
- `C198_nothing` (Release, -): A run that finds nothing to do leaves no catalogue, and nothing is written, whatever the runs before.
- `C198_raises` (Release, -): An exception of a run is what the caller sees.
- `C198_held_refuted` (Release, -): A run that ends is the only one that releases what was read. Finding: what a run without galaxies, or one that is broken off, has read is held until a run ends.
- `C198_stops` (Release, -): Before anything is read, a stop has stored just what came before it.
- `C198_stale_refuted` (Release, -): Finding: a run that stops before its catalogue is read leaves the catalogue and members of the run before, and output then writes them again; one that finds nothing leaves the members of the run before, without a catalogue.
- `C198_unset_refuted` (Release, -): Finding: if every run so far has stopped before its catalogue was read, or there was none, output is an AttributeError.
- `C198_breaks` (Release, -): A run that breaks off in the loop leaves the catalogue as far as it came, and output would write it.

### C199 The message on memory — proved

- `C199_usage` (MemMsg, -): There is always a message. If all lines can be read it has the values of the last lines for the current and the peak memory, in MB, and 0 where there is none.
- `C199_no_status` (MemMsg, -): Without a file, or with a line that cannot be read anywhere in it, the message is that there is no status, and nothing is raised.

## 5. Findings

Statements a user would expect, proved false of the model.

| property | theorem | what happens |
|---|---|---|
| C03 | `C03_to_fits_file_refuted` | for a one-row table the indices are ignored: an empty index array, or one that repeats the row, still writes one row. |
| C06 | `C06_master_left_behind_refuted` | a duplicated id makes finalize raise, but the master table is already on disk. |
| C09 | `C09_lock_timeout_refuted` | a task that fails to get the global lock in [maxtry] tries simply ends; if it was the last one, no table is ever written although no task failed. |
| C09 | `C09_stale_files_refuted` | files left by an earlier run are counted, so a rerun publishes the table from them before the other tasks have run. |
| C10 | `C10_one_row_zred_refuted` | a zred file with a single record is silently broadcast to every galaxy of its pixel. |
| C11 | `C11_out_of_range_refuted` | an out-of-range pixel raises NameError instead of ValueError. |
| C12 | `C12_few_galaxies_refuted` | every file with fewer galaxies than processes makes the run fail. |
| C13 | `C13_overcommitted_refuted` | nothing holds a cluster to the free probability it was handed: two clusters with overlapping members claim 9/5 of a galaxy, and the third is handed -4/5. |
| C14 | `C14_empty_refuted` | Without clusters there are no numbers to give: a ValueError. |
| C14 | `C14_single_cluster_refuted` | The id of a catalog with a single cluster is always replaced by 1. |
| C15 | `C15_none_passes_refuted` | fails with ValueError, instead of producing an empty catalog, when members were saved but no cluster reaches the minimum. |
| C16 | `C16_low_end_refuted` | Without the guard the claim is false: the richness equation of twelve equal galaxies (p = x/(x+10), weight 0.925) crosses once, at 1.1, but the reset of out < 1 to 0.9 flips the sign test at 0.988 and every run ends above 1.4. |
| C17 | `C17_theta_hard_refuted` | theta_r returned in the hard-cut mode is not the radial weight: it is 1 for every galaxy inside the radius of richness 1000.25 (the first trial), even when it is outside the final radius and its weight is 0. |
| C20 | `C20_set_neighbors_refuted` | set_neighbors on a cluster that has a redshift leaves the radii it was given. |
| C22 | `C22_fit_failure_refuted` | A fit that has no minimum in any pass is reported as a positive redshift with an error: the stand-in value -1 is replaced by the lower end of the fitted range. |
| C22 | `C22_negative_refuted` | close to zero a failed fit comes out as a negative redshift other than -1. |
| C22 | `C22_no_errors_refuted` | Without a request for errors every outcome, also a success, has the error -1 that marks failure. |
| C23 | `C23_noerr_ignored_refuted` | With p(z) the option has no effect: the error is enlarged all the same. |
| C23 | `C23_noerr_refuted` | Without p(z), asking for no error correction is a TypeError. |
| C24 | `C24_even_bins_refuted` | With an even number of bins no grid point is at z. |
| C24 | `C24_slow_middle_refuted` | But z need not be its middle point, and the grid can leave the redshift range. |
| C25 | `C25_qmiss_refuted` | With candidates found, q_cen never sums to 1 and the reported q_miss is 0, so together they fall short of 1. |
| C25 | `C25_three_refuted` | Without either density the satellite and foreground probabilities are both 0, whatever p_cen is. |
| C26 | `C26_no_candidate_refuted` | Without a galaxy passing the cuts the call raises instead of returning False. |
| C28 | `C28_no_member_refuted` | Without a neighbour of positive probability the call raises instead of returning False. |
| C29 | `C29_exact_depth_refuted` | A pixel exactly as deep as the first bin needs is complete there and is masked. |
| C29 | `C29_one_bin_too_high_refuted` | Every kept pixel whose limit is not the last bin is NOT complete at the limit it is given: the limit is one bin too high. |
| C30 | `C30_amount_refuted` | In between: a deep small pixel and a shallow large one; past the shallow one the whole area is still reported. |
| C30 | `C30_beyond_refuted` | At and beyond the deepest pixel the answer is the area of a shallowest pixel, never 0. |
| C30 | `C30_depth_beyond_refuted` | Fainter than every depth: the area of two pixels, never 0. |
| C30 | `C30_depth_one_refuted` | One pixel: every query raises. |
| C31 | `C31_lowest_edge_refuted` | a galaxy exactly on the lowest chisq edge (chisq = 0, a perfect colour match) gets the density of the LAST chisq bin, in every table. |
| C32 | `C32_above_refuted` | values above the table are never flagged; however far away they get the last bin's density. |
| C33 | `C33_bin_on_division_refuted` | a bin that coincides with a division is computed by no worker (its density stays 0). |
| C33 | `C33_single_file_refuted` | of a catalog that is a single file nothing is ever read. |
| C34 | `C34_endless_refuted` | If no catalog redshift fits below any limit, no number of passes is enough: the call does not return. |
| C34 | `C34_other_limit_refuted` | for cluster randoms a redshift can exceed the maximum at the point itself: after the holes are cut out, limits of other points are used. |
| C35 | `C35_area_edge_refuted` | The area correction counts with another cut than the weights: a kept point whose richness is at the upper edge of the bin is not counted as good. |
| C35 | `C35_lost_refuted` | a cluster whose randoms all fail the cuts loses them altogether: its weights do not add up to their number. |
| C35 | `C35_single_refuted` | a single point that fails the cuts is written all the same, with weight 0. |
| C36 | `C36_nothing_refuted` | No surviving cluster at all: AttributeError instead of an empty catalog. |
| C36 | `C36_task_gaps_refuted` | With a richness cut the ids of an output of the task are not 1..n and the rows not in order of likelihood. |
| C37 | `C37_nothing_refuted` | No cluster passes a cut: KeyError. |
| C37 | `C37_one_survivor_refuted` | In general: with scale values on, and one cluster of several left by the pixel cut, the cut compares the richness of that cluster over the scale value of each row of the file; if it passes with that of any row but the first, the task stops with an IndexError. Finding: the scale values used are those of other clusters. |
| C37 | `C37_orphan_refuted` | a file with exactly one member keeps that member even when its cluster is dropped. |
| C37 | `C37_scale_error_refuted` | With scale values on, a file that loses some but keeps at least two clusters stops the task. |
| C37 | `C37_scale_other_refuted` | a file in which the pixel cut leaves one cluster out of several stops the task with IndexError, although the cluster passes. |
| C38 | `C38_empty_rerun_refuted` | A step that produced nothing leaves no trace and is run again each time. |
| C38 | `C38_members_lost_refuted` | Killed between the percolation catalog and its members: the members never appear. |
| C38 | `C38_reached_refuted` | All of these states are reached by one kill of a run from an empty directory. |
| C38 | `C38_torn_refuted` | Killed while a file is being written: no number of restarts repairs it. |
| C39 | `C39_single_process_refuted` | a failure otherwise: finding. |
| C40 | `C40_any_value_refuted` | A plain option takes any value: a sequence, or a value of another type. |
| C40 | `C40_copy_region_refuted` | A configuration and its copy share the region settings; configurations loaded separately do not. |
| C40 | `C40_default_length_refuted` | The default lists of node sizes have one element: with any number of bands but two, a file that does not give calib_color_nodesizes cannot be loaded. |
| C40 | `C40_load_resets_refuted` | loading a second file resets every option of the first configuration. |
| C40 | `C40_method_name_refuted` | the name of a method is taken without a word and changes no option. |
| C40 | `C40_shared_refuted` | All configurations share their options: setting one on any of them sets it on every other. |
| C41 | `C41_drift_refuted` | Without error ratios (the default) every evaluation adds the redder band's error once more: after n evaluations the objective is that of data whose first error column has grown by n times the second. |
| C41 | `C41_rises_refuted` | So two evaluations at the same parameters differ: for a galaxy on the model color the value rises each time. |
| C41 | `C41_start_refuted` | Each start of a fit with fixed scatter grows the column as well. |
| C43 | `C43_empty_refuted` | A requested end not above the start of the range raises ValueError (the maximum of an empty array). |
| C43 | `C43_start_refuted` | Otherwise the start of the range is lost: there is no node there and everything below the only regular node is extrapolated. |
| C44 | `C44_edge_refuted` | without wraparound a sample within half a cell of the lower edge loses part of its weight. |
| C45 | `C45_beyond_refuted` | Beyond the overflow value the index is past the end of every table. |
| C45 | `C45_nearest_refuted` | A table that starts elsewhere is read in a wrong row: with bins of 0.005 from 0.052, redshift 0.0528 is read in the row of 0.057; with bins from 0.0525 even a tabulated redshift is read in another row. |
| C47 | `C47_layout_refuted` | the covariance stack must be laid out with the redshift axis slowest: from a row-major (color, color, redshift) array another redshift's entry is read |
| C47 | `C47_pairs_refuted` | for pairs of galaxies and redshifts the slopes of the first pair are used for the magnitude errors of every pair: the second galaxy gets 1 instead of 1/2. |
| C48 | `C48_bulk_failed_refuted` | a failed galaxy in a corrected catalog does not keep the bad values: the corrections at z = -1 are added to them |
| C48 | `C48_bulk_refuted` | in general they do not agree |
| C48 | `C48_corrected_floor_refuted` | a good galaxy can have a corrected error below 0.005. |
| C48 | `C48_zred2_refuted` | the second redshift never gets its magnitude term in bulk |
| C49 | `C49_at_limit_refuted` | never otherwise: the floor makes every clipped depth too pessimistic |
| C49 | `C49_exposure_refuted` | for fainter ones it gives larger errors, always |
| C50 | `C50_cushion_refuted` | the cushion cut at the uncorrected redshift is a cut of its own: a galaxy that passes everything at its corrected redshift can be lost to it |
| C50 | `C50_range_refuted` | the redshift range is tested on the uncorrected redshift only: a selected galaxy can have a corrected redshift outside of the range and its cushion. |
| C53 | `C53_endless_refuted` | A cluster whose redshift keeps moving by more than the tolerance is never finished. |
| C53 | `C53_final_mask_refuted` | The mask fraction recorded for a good cluster, which is computed again within its radius, is not limited. |
| C53 | `C53_maxiter_refuted` | The limit on the number of iterations has no effect: any two positive limits give the same result. |
| C53 | `C53_zero_refuted` | With a limit of zero the cluster is reported good although nothing has been computed. |
| C55 | `C55_full_refuted` | At a pole nothing is accepted, whatever the map says. |
| C56 | `C56_member_file_refuted` | Every catalog whose base name ends in 'f', 'i', 't' or '.' has another file read. |
| C57 | `C57_covers_refuted` | With run pixels finer than the catalog's, some galaxies belong to no job. |
| C57 | `C57_gap_refuted` | A removed earlier job makes the next submission overwrite a later one. |
| C57 | `C57_new_name_refuted` | From the eleventh submission on, the same job file is overwritten. |
| C57 | `C57_pbs_refuted` | On PBS no job is written, for any catalog. |
| C58 | `C58_boundary_refuted` | A galaxy on a boundary is never selected, whatever its color. |
| C58 | `C58_unordered_refuted` | Boundaries out of order: one galaxy is tested with two modes and selected when it passes either. |
| C59 | `C59_flag_refuted` | A likelihood of -1 or less cannot be told from no cluster: when the first redshift of the grid is not usable and no usable one has a likelihood above -1, the cluster is reported bad. |
| C60 | `C60_no_cluster_refuted` | without any cluster the check itself stops with UnboundLocalError. |
| C60 | `C60_others_refuted` | goes on whenever it is not, whatever the other redshifts are. |
| C61 | `C61_length_one_refuted` | A sequence shorter than the catalog is not always rejected: one of length one is silently copied to every row. |
| C62 | `C62_large_refuted` | From pixel 10,000,000 on (which nside 1024 has) the file is not found at all. |
| C62 | `C62_other_file_refuted` | A file that matches the pattern but holds no pixel number stops the finalisation. |
| C62 | `C62_path_refuted` | If the directory or the base name holds such a text, every file is counted for that one pixel: all other pixels are recorded as empty. |
| C63 | `C63_below_refuted` | a colour far below the table is not flagged. |
| C63 | `C63_swapped_refuted` | asked in the order opposite to the stored one, the table is read with the two colours exchanged. |
| C64 | `C64_overwritten_refuted` | With centering_use_zspec the photometric redshift of every neighbour with a spectrum is replaced. |
| C65 | `C65_limit_ignored_refuted` | The limit passed in never matters: two calls with different limits give the same result in every environment. |
| C65 | `C65_stale_limit_refuted` | without a limit, the limit of the first redshift is kept for every later iteration, whatever redshift it has moved to. |
| C66 | `C66_slope_refuted` | the slope of the central magnitude relation is set to the value of another column. |
| C69 | `C69_failure_refuted` | If the optimiser fails, the offset stays in the data. |
| C71 | `C71_many_refuted` | there are accepted shapes for which reference magnitudes, or covariance entries, are read past the end. |
| C72 | `C72_answers_refuted` | with none it raises IndexError instead of setting the failure flag: no fallback is reached |
| C73 | `C73_unchecked_refuted` | nothing checks the setting: with a correlation of one or more the matrix is never positive definite |
| C74 | `C74_same_directory_refuted` | Otherwise it goes to a directory of another name. |
| C74 | `C74_shared_refuted` | Calibrations in two different directories can share their run directory. |
| C75 | `C75_keepid_refuted` | When a single cluster is usable its kept identifier is replaced by 1. |
| C75 | `C75_total_refuted` | before the centering is calibrated the total likelihood is not written at all. |
| C75 | `C75_uncalibrated_refuted` | a run before that therefore puts a cluster of smaller likelihood first. |
| C76 | `C76_no_iterations_refuted` | With no iterations configured the reported redshift is the one of the input, never measured. |
| C76 | `C76_unconnected_refuted` | A cluster without members between its center and its edge is reset, but reported as good. |
| C77 | `C77_correction_refuted` | With a redshift correction in the configuration, the runs with random centers are made without it or with it, depending on whether the calibration was interrupted before. |
| C77 | `C77_members_refuted` | Killed after the catalog was written and before its members were: the members are never written. |
| C77 | `C77_parameters_refuted` | Killed during a step: the red-sequence parameters are written once before the corrections are known and again with them. Killed between the two, the calibration goes on with the first version for ever. |
| C78 | `C78_nothing_refuted` | When no cluster can be measured in the second pass there is no member table and the run ends with AttributeError. |
| C79 | `C79_hard_edge_refuted` | with a hard edge (rsig <= 0) the radius is ignored: every mask galaxy counts at every radius. |
| C79 | `C79_ngals_refuted` | the file's own ngals (kept in its header) is not checked. Reading a file with another value of maskgal_ngals divides by the normalisation of another sample size: nothing is lost, yet c = 1/2. |
| C80 | `C80_fraction_refuted` | at every other radius a mask fraction of one half can be taken for zero and its error dropped. |
| C81 | `C81_random_scale_refuted` | an unmasked field whose fit is slightly negative gives randoms a scale value below one, a fraction above one a negative scale value. |
| C82 | `C82_error_refuted` | asking for the error never returns a richness: a successful measurement raises NameError. |
| C82 | `C82_ratio_refuted` | the richness test does not do it alone. "Not measured" is -10 with scale value -1, whose ratio is +10: with the default minimum of 10 (or less) and no cut on the central galaxy, a cluster with too few red galaxies goes through with whatever richness it had before. |
| C82 | `C82_stale_scale_refuted` | when the central galaxy is outside the colour range the scale value of an earlier measurement stays. |
| C83 | `C83_cleaninput_refuted` | cleaninput (keep only positions inside the survey mask) has no effect without a seed file: the catalog is the same whatever the mask and whatever the flag. |
| C83 | `C83_spec_crash_refuted` | ... and a seed with a good photometric redshift but no spectroscopic one (zspec <= 0) stays in and stops the run with a TypeError when its turn comes. |
| C83 | `C83_spec_unset_refuted` | the seeds are cut on their photometric redshift also in specmode, where the spectroscopic one is used: seeds whose photometric redshift is not set (-1, as selectspecseeds writes without zreds) give no catalog ... |
| C84 | `C84_radius_refuted` | without a seed file the configured firstpass_r0 and firstpass_beta are not handed on: every first pass from galaxies uses r0 = 1.0 and beta = 0.2, whatever is configured (0.5 and 0.0 are the defaults). |
| C85 | `C85_lambda_at_old_redshift_refuted` | the richness recorded is not that at the redshift recorded: the redshift is updated after the richness was measured, also in the last iteration. Whenever the last redshift found differs from where it was measured, the recorded richness belongs to the latter. |
| C85 | `C85_no_iterations_refuted` | with firstpass_niter = 0 (outside specmode) the first cluster stops the run with an UnboundLocalError. |
| C85 | `C85_no_neighbors_refuted` | A cluster without neighbors at the redshift where its work ends stops the run with a ValueError, whether it was accepted or not. |
| C86 | `C86_members_lost_refuted` | a run killed between the final catalog and its members leaves a pixel without members for good: no later history of runs writes them. |
| C86 | `C86_no_likelihoods_refuted` | the same when the likelihood stage keeps no cluster. |
| C86 | `C86_no_seeds_refuted` | a pixel in which the first pass finds nothing (no catalog is written, with a warning) does not end: the next stage stops with an OSError because the file is missing. The calibration's own worker handles this case. |
| C87 | `C87_runcat_refuted` | the runcat task stops with a NameError on every pixelized galaxy file. |
| C87 | `C87_zscan_rerun_refuted` | the zscan task looks for the file without the code's version in its name and writes the one with it. Every repetition runs again and appends a table; a reader gets the oldest. |
| C88 | `C88_default_refuted` | without one the output does not go to the configuration file's directory, as documented, but to the path in the configuration or else the working directory, wherever the configuration file is. |
| C89 | `C89_duplicates_refuted` | a galaxy that two spectra match is seeded twice, each time with another spectroscopic redshift. |
| C89 | `C89_unusable_refuted` | the seeds selected before photometric redshifts exist have -1 in their place, and a first pass that is given them, in any mode, finds no usable seed. |
| C90 | `C90_grid_refuted` | when limmag - 12 is not a whole number of magnitude bins (limmag 14.1, bins of 0.2) the table is filled on a finer grid than its bins say: a galaxy in the very middle of bin 9 (magnitude 13.9) is counted with weight 115/210 there and with 95/210 in the next bin. |
| C90 | `C90_marker_refuted` | the chi-squared that marks galaxies beyond the magnitude limit of a redshift bin (about 430) is only out of range if chisq_max is not larger; otherwise a galaxy beyond the limit is counted in the cell of that value. |
| C91 | `C91_grid_refuted` | with a zred range that is not a whole number of bins (0.1 to 0.295 in bins of 0.01) the same happens: a galaxy at the centre of bin 9 loses a quarter of its weight to the next bin. |
| C93 | `C93_clobber_refuted` | with clobber the whole file is replaced, not the extension: recomputing one background removes the other. |
| C94 | `C94_beta0_refuted` | with a constant richness radius (beta 0) the search goes to 1.2 times the mask radius of richness 100, also when the mask radius grows with richness: with the shipped exponent 0.2 it falls short at richness 300. |
| C94 | `C94_gamma_refuted` | the search radius ignores the redshift dependence of the mask radius: with any positive percolation_rmask_gamma, at every redshift above the pivot a cluster of richness 300 has a mask radius beyond the search radius. |
| C94 | `C94_lmask_refuted` | percolation_lmask has no default; a configuration without it makes every runner stop with a TypeError. |
| C94 | `C94_moved_refuted` | when a cluster moves to a lower redshift (smaller scale), galaxies inside of the search radius are missing. |
| C94 | `C94_rich_refuted` | with the shipped settings the mask radius of every cluster of richness above 300 is beyond the galaxies that were looked up, so members between the two radii are not masked. |
| C95 | `C95_lmask_refuted` | percolation stops with a TypeError when percolation_lmask is not set. |
| C95 | `C95_memlum_refuted` | percolation_memlum only deepens the search; the cut on the luminosity of the members that it stands for is never switched on, whatever its value. |
| C96 | `C96_rich_refuted` | with the shipped settings the border is too narrow for rich clusters: on a line, two clusters of richness 400 at the lowest redshift have a galaxy in common inside of their mask radii, and a galaxy of the second is as far from the first as the border. |
| C97 | `C97_first_refuted` | the first grid point is drawn by the random numbers below 1/n also where the density is zero there, as for the chi-squared of three or more colors at zero (the weight of these mask galaxies is then zero). |
| C97 | `C97_one_color_refuted` | with one color (two magnitudes) the chi-squared density is infinite at zero, and making the mask galaxies stops with an IndexError whatever the rest of the density and the random numbers. |
| C98 | `C98_settings_refuted` | the settings a file was made with are in its header but never compared: a file made for other radii, magnitudes or limits is used as it is. |
| C98 | `C98_short_refuted` | with more samples configured than a file has, the samples beyond its end are empty and nothing is said. |
| C99 | `C99_annulus_refuted` | with mask galaxies made for a smaller annulus there are none in the configured one, and the run stops with a ZeroDivisionError. |
| C99 | `C99_weights_refuted` | the weights that turn mask galaxies into a prediction are not normalized (the luminosity function is not, and the chi-squared density is only over the chi-squared allowed): the mean prediction is the total over the grid divided by the total of the weights, so every local background is off by that factor, and right only if it is 1. |
| C101 | `C101_constant_refuted` | the number of constant cuts is not checked with the other settings of the selections, so the calibration stops with an IndexError at the first selection without one. |
| C101 | `C101_empty_refuted` | a node with no galaxy around it stops the calibration with an IndexError. |
| C102 | `C102_top_refuted` | galaxies sampled in the last 0.0001 of the range are in no bin, while the volume of the last bin is the full one. |
| C103 | `C103_same_name_refuted` | two selections of the same name are both calibrated, and only the second can be used afterwards. |
| C103 | `C103_stale_refuted` | selections of an older calibration file that are no longer configured stay in the file, and catalogs are made for them again. |
| C104 | `C104_zmax_refuted` | the range of the galaxies that are read is that of redmagic_zrange, also if a selection is configured to go higher: with 0.1 to 0.6 and a selection up to 0.9, no galaxy at redshift 0.8 is read, which is within the range of its cost. |
| C105 | `C105_weights_refuted` | the weights of the galaxies have no effect on the fit: whatever (positive) weights are given, the cost of any set of corrections relative to any other is the one without weights, as the likelihood is multiplied by the weight instead of its logarithm. |
| C106 | `C106_lengths_refuted` | the starting values of each set are not checked against its nodes, only their total number: values for the offset and for the slope that are one too many and one too few are accepted, and the last of the first is taken as the first of the second. |
| C107 | `C107_ties_refuted` | at least one galaxy is always left out, and all those of the same likelihood with it: if all galaxies have the same likelihood none is used. |
| C108 | `C108_outliers_refuted` | the check is made before the outliers are removed: it can pass although a bin has no cluster left for the fit. |
| C108 | `C108_single_refuted` | if the redshift range has a single node (narrower than about half the node size) the calibration stops with a ValueError instead. |
| C109 | `C109_first_refuted` | a first node with too few galaxies starts from zero, whatever the values at the other nodes are (for the pivot magnitudes and the colors the fit then starts far from them). |
| C110 | `C110_errors_refuted` | while column k is fitted the errors contain, besides the scatter of the columns before it, a thousandth in quadrature for every column that has not been fitted yet, because the scatter of an empty column is clipped to 0.001. |
| C110 | `C110_scale_refuted` | the fit takes the richness without the scale factor (Lambda/scaleval) and the correction is applied with it: the offset applied to a cluster differs from the one fitted for it by the slope times the logarithm of the scale factor. |
| C110 | `C110_single_refuted` | with a single iteration (calib_zlambda_correct_niter: 1) the correction cannot be made: the array with one column is not reduced to it, and the spline's values do not fit. |
| C111 | `C111_none_refuted` | without a cluster above the richness limit the variable is not defined, and the calibration stops with a NameError. |
| C111 | `C111_others_refuted` | only the last cluster is checked (the loop's variable is used instead of the catalog): negative redshifts of all others pass. |
| C112 | `C112_positive_refuted` | positive node values do not give positive values in between, or outside the nodes without fixextrap, so that a calibrated width, scatter or error scale can come out negative between its nodes. |
| C113 | `C113_later_refuted` | so that all later iterations are calibrated, and their files written, with the mean in place of the slope. |
| C113 | `C113_slope_refuted` | the slope with richness of the brightest satellite's magnitude is read from the column of its mean. |
| C114 | `C114_same_refuted` | the catalogs are told apart by their names: the same file for both is taken twice for the foreground, and the satellites keep the old values. |
| C115 | `C115_count_refuted` | for richness lambda only lambda - 1 galaxies are drawn. |
| C116 | `C116_magnitude_refuted` | for others it is not: the calibration removes the scale factor from the richness and the centering does not. |
| C116 | `C116_width_refuted` | which limits Lambda/scaleval in the calibration and Lambda in the centering: for a cluster of the calibration with Lambda above it the width used is larger than the one fitted. |
| C117 | `C117_first_refuted` | the first point is sampled for the lowest 1/n of the deviates even if its density is zero; for the luminosity function of the centering calibration that is the brightest magnitude. |
| C117 | `C117_nothing_refuted` | Without a density there is no sample: an IndexError. |
| C118 | `C118_boot_refuted` | with useBoot the limiting magnitude and the exposure time are replaced by those of the trials, the limiting flux and the sky are not. |
| C118 | `C118_noise_refuted` | noise is added to all magnitudes with a single draw, about the number of magnitudes rather than zero: equal magnitudes stay equal, and for a draw at the middle of its distribution every one of n galaxies is n times its noise too bright. |
| C119 | `C119_bound_refuted` | a galaxy with a redshift equal to a bound between two colours is inside none and never selected, however red. |
| C119 | `C119_none_refuted` | with no galaxy in range the selection ends with an IndexError. |
| C119 | `C119_range_refuted` | below that redshifts of the configured range are left out. |
| C119 | `C119_twice_refuted` | a galaxy with two spectra is in the catalog twice. |
| C120 | `C120_conflict_refuted` | of two bands in the same place the last one is taken, silently. |
| C120 | `C120_other_refuted` | any name with "_ind" in it is taken for that of a band, as match_index for the band "match". |
| C121 | `C121_crash_refuted` | the file is appended to, pair by pair, under its final name: after an interruption a later run finds it, takes it for complete and leaves pairs of colours out. |
| C121 | `C121_sparse_refuted` | when no bin of a colour has more than the asked number of galaxies, the generation ends with the ValueError of an empty minimum rather than with a message. |
| C122 | `C122_diag_refuted` | the normalisation of a table of one colour is the sum of its stored values times the ratio of the two bin sizes, not times the size of a bin: for a colour with the same density everywhere the densities that are looked up integrate to 1/25. |
| C123 | `C123_covers_refuted` | a range from below 0.01 is cut there, and one beyond the template's last redshift is cut at that, without a message: the parameter file then says less than the configuration. |
| C123 | `C123_lup_refuted` | the calibration looks at the first b value, the reader at the smallest: with a zero among the others the parameters are fitted with a correction for luptitudes and used without. |
| C124 | `C124_empty_refuted` | only the first of the two samples is checked: when no galaxy passes the colour cut, the pivot magnitudes and colours start at zero at every node, and nothing is reported. |
| C125 | `C125_depth_refuted` | whatever goes wrong in reading the depth map - a missing file, a damaged one, a wrong setting - is swallowed, and the run goes on with depths from the galaxies. |
| C125 | `C125_mode_refuted` | for a galaxy file that is not in pixels the cuts are dropped when temporary files are to be used: the run works on all galaxies, whatever their magnitude and chi-squared. |
| C125 | `C125_randoms_refuted` | the run for the mask of the randoms does not say whether galaxies are cut to the range of the background; without a depth file it reads galaxies and always ends with an AttributeError. |
| C126 | `C126_nearest_refuted` | all galaxies within a second of arc are matched, not the nearest: with two of them the last in the order of the matches counts, so that another order gives other magnitudes. |
| C127 | `C127_outside_refuted` | the cuts are fitted with splines that go on beyond the last node and selected with splines that do not: wherever the two differ there are galaxies that the fit counts and the selection drops, or the other way. |
| C127 | `C127_samples_refuted` | the fit always corrects the samples it counts, although the selection corrects them only if told so (the setting is given to the fit and not looked at): the density that was calibrated is not that of the samples in the catalog. |
| C128 | `C128_labels_refuted` | a galaxy that is a member of several clusters is given the redshift of the one that comes last in the file, however unlikely it belongs to that one. |
| C128 | `C128_last_refuted` | the corrections are fitted once more after the last fit of the cuts, and it is these that are recorded: unless the iterations have come to rest (they are always five), the recorded cuts are not those for the recorded corrections. |
| C130 | `C130_members_refuted` | members are not cut with the clusters: if one cluster of a pixel is kept, the members of all its clusters are written, also of those that are left to the neighboring pixel; those clusters' members are there twice. |
| C130 | `C130_nside_refuted` | the resolution of the pixels is that of the first file; with files of another resolution in the directory - of another run with the same base name - clusters are judged by the wrong pixels and can be lost. |
| C130 | `C130_plots_refuted` | with plots, as is the default, the consolidation always ends in an error after the files are written, by a name that is not defined; without plots it ends well. |
| C132 | `C132_vlim_refuted` | the areas of a volume-limited survey are of everything that was read, not of the region: for a region of pixels smaller than those of the coverage of the map, the whole of these counts. (The area at a depth is cut to the region.) |
| C134 | `C134_closer_refuted` | a cluster so far from the correction that its exponential underflows counts as a fixed -100, so it counts much less than a cluster that is nearer: from there the fit gains by moving away from it. |
| C135 | `C135_positive_refuted` | the bounds of the fit let the ratio vanish (or turn negative) for magnitudes a tenth from the pivot, and the sign of a ratio makes no difference to the fit: corrected errors can be zero or negative. |
| C136 | `C136_cushion_refuted` | the lower end of the widened range is never below 0.05, so for a range that starts lower, keeping the redshifts of the seeds loses the clusters between the configured start and 0.05 instead of adding some. |
| C137 | `C137_positive_refuted` | a core not smaller than the scale radius gives no number in the core. |
| C138 | `C138_softening_refuted` | the softening parameters b are an array option that is None unless the galaxy file or the configuration gives them, and no galaxy file that is a single table gives them: such a configuration loads but cannot be written. |
| C139 | `C139_region_background_refuted` | without calib_make_full_bkg, a run on the whole sky is given the background of the region of the calibration. |
| C139 | `C139_relative_refuted` | only the galaxy and the spectroscopic file and files made by the calibration become absolute paths. The output directory, the depth map, the mask, the volume-limit depth maps, the random points and the training spectra are left as they were: relative to the directory of the calibration, although the file is written to that of the run; and the output directory stays that of the calibration. |
| C140 | `C140_nothing_refuted` | a run in which no pixel gives a catalog does not give an empty catalog, it fails. |
| C140 | `C140_percolation_like_refuted` | the likelihood catalog cannot be asked for with percolation_only, since those workers never name one. |
| C140 | `C140_restored_refuted` | a run that fails in a worker leaves the configuration with its seed file and the resolution of the tiles, so that a second run on the same configuration is another one. |
| C141 | `C141_percolation_names_refuted` | the resolution is not part of those names: after a change of the division the file of another tile is taken for the tile with the same number. |
| C141 | `C141_restart_refuted` | killed while writing, the worker never finishes the pixel: a catalog begun or without members counts as done in every later execution. |
| C142 | `C142_few_refuted` | with the default chunk size a catalog with fewer galaxies than processes cannot be run. |
| C142 | `C142_samples_refuted` | the processes inherit the parent's random generator, so the first galaxy of the first chunk of EVERY process is sampled with the same random numbers: the redshift samples of different galaxies are not independent. |
| C143 | `C143_half_bin_refuted` | the fraction of the points below an edge is fitted at the middle of the bin that ends there, half a bin too low. |
| C143 | `C143_nothing_known_refuted` | at an edge below the lowest random point nothing is known, yet the fit is told that the whole area is lost. |
| C144 | `C144_vlim_stale_refuted` | a second cut within the same tenth silently uses the mask of the first, and so does a mask asked for without depth (use_geometry) after one with, and the reverse. |
| C144 | `C144_zrange_refuted` | the redshift range given as argument is not part of the name, so the files returned for a second range hold (in the table that is read) the random points and areas of the first. |
| C145 | `C145_fraction_outside_refuted` | the good fraction of a position outside the map is not 0 but the number for "unseen", less than minus 1e30. |
| C145 | `C145_zmax_pole_refuted` | the redshift limit of a list with one position beyond a pole is an exception, though such positions are meant to have the limit 0 (the depth lookup clips the declinations first, this one does not). |
| C146 | `C146_blanks_refuted` | with a blank after the commas of the BANDS entry, as in "g, r", no colour of the second band is found under its name. |
| C146 | `C146_dash_refuted` | bands with a dash in their names are mixed up: with the bands "a-b" and "c", the colour of "a" and "b-c" is given, which are no bands of the template. |
| C146 | `C146_single_refuted` | a BANDS entry with a single name of several letters is read as that many bands. |
| C147 | `C147_calls_refuted` | The calls of the method: the first is accepted, the second gives the argument lonlat or nest twice and is not; without the third positional argument it would be accepted, whatever is given by name. |
| C147 | `C147_never_refuted` | no memory is ever predicted: the tile of each file is looked up with the function for the opposite direction, whose third argument is then given twice, and Python refuses the call for every table. |
| C148 | `C148_rich_refuted` | for every setting with increasing radii there are rich clusters whose radius is beyond all tabulated ones, where the fitted cubic is extrapolated; with the default r0 = 1, beta = 0.2 and step 0.1 those of richness 400 are. |
| C149 | `C149_last_neighbour_refuted` | the check that the centre is a free galaxy, run after a random centre was chosen, looks at the last neighbour of the cluster, whichever galaxy that is: a cluster rich enough is rejected exactly if that one is taken. |
| C149 | `C149_off_sky_refuted` | a random centre can lie beyond the pole, and at a negative right ascension: for a cluster whose radius reaches the pole, respectively right ascension 0, some random numbers give such positions. |
| C150 | `C150_handed_over_refuted` | with any other output directory the run does not read the configuration written for it, but a file of that name in the working directory: an old one if there is, else the run fails after the calibration. |
| C151 | `C151_parts_refuted` | asked for the parts of a missing background file alone, the check fails with the library's OSError. |
| C151 | `C151_unset_refuted` | a file that is not configured at all is not reported as missing: the check fails with TypeError. |
| C153 | `C153_sign_refuted` | a curve with the opposite width is the same curve, so the fit may end at either; at the negative one the call fails with IndexError if no bin lies beyond five widths on either side, as is usual, and otherwise it returns a negative width. |
| C154 | `C154_background_refuted` | the background of redshifts can be evaluated on a cluster but not on its copy. |
| C154 | `C154_row_refuted` | every field of the catalogue is 0 in the copy, the position and the richness among them. |
| C154 | `C154_unset_refuted` | a cluster without a redshift cannot be copied. |
| C155 | `C155_clipped_refuted` | below the step plus 0.01 the lower redshift is taken as 0.01, but the difference is still divided by twice the step. |
| C155 | `C155_correction_refuted` | the richness in the middle is that of the redshift before the correction, the two others are around the corrected redshift: for a richness growing like exp(b z), without any curvature, a correction by d is stored as the second derivative 2 b d / eps^2. |
| C155 | `C155_low_refuted` | a corrected redshift below the step stops the run. |
| C156 | `C156_failed_refuted` | a centre where the richness cannot be computed counts with richness -1. |
| C156 | `C156_mask_refuted` | the mask is not set for the other centres; at one whose surroundings are masked the richness is not corrected for it. Here the mask cuts off positions below 0 and the corrected richness is 10 times the number of points over the number of unmasked ones. |
| C157 | `C157_bare_refuted` | a name without a directory passes the constructor, and is refused only when the generation begins. |
| C157 | `C157_dict_refuted` | the missing keys are written into the caller's own dictionary, also when the construction fails. |
| C157 | `C157_name_refuted` | the dot of the pattern is not escaped, so that "…_master_tableXfit" is accepted, and the random points are written to another file than the configured one, which never appears. |
| C157 | `C157_split_refuted` | splitting random points never works: the module does not import os, and the call ends in a NameError (or in a RuntimeError for a finished catalogue); the same call on galaxies, and appending random points, work for every maker not finished whose table does not exist. |
| C158 | `C158_limit_refuted` | a mask given by the caller is used whatever limit it is for; the limit which enters the names of the weights is the one of the configuration or of the other argument. |
| C158 | `C158_names_refuted` | a file name for the mask is always an AttributeError, and a file name for the catalogue a NameError, although both are accepted by the check of the types. |
| C159 | `C159_maker_refuted` | a mask given to the maker of galaxies is never applied. In mode 3 the construction always fails, at the latest with a TypeError, as the stand-in for the configuration has a number for the list of pixels; in every other mode, also in the default one, all galaxies are kept. |
| C159 | `C159_mode_refuted` | any other mode passes the check of the configuration, and there is no mask at all: nothing is returned, neither an object nor an error. |
| C160 | `C160_end_refuted` | the end of the range is not in the table: for a range of whole bins the last redshift is one bin below the end, and every value interpolated in the last bin of the range is that of the last redshift, instead of the spline. |
| C160 | `C160_run_refuted` | a correction or a depth map which is configured and cannot be read is left out without any message: the redshifts stay uncorrected, and the run goes on as for a survey without a depth map. |
| C162 | `C162_again_refuted` | every run writes its table from scratch. After a second run (for another region, same redshift file) the galaxies of the first region have no redshifts any more: a read of a pixel outside the last region raises, although its redshift files are still there. |
| C163 | `C163_nopix_refuted` | with no pixel configured (the whole sky) the default name cannot be made: the first line of a run raises IndexError unless messages are only printed. |
| C163 | `C163_restart_refuted` | the flag is never taken down, so logging that was stopped cannot be started again: the second start returns without effect and all later messages are lost. |
| C163 | `C163_stop_refuted` | stopping removes every handler of the logger. A second configuration with the same logger (all configurations without exactly one pixel share one) loses its log file too. |
| C163 | `C163_twice_refuted` | two configurations that log to the same file (same output name and pixel) write every message twice. |
| C164 | `C164_interrupted_refuted` | a pixel that cannot be read ends the run in the middle. The catalogs then hold the galaxies of the earlier pixels only and look complete; a second run without clobber refuses because of them. |
| C164 | `C164_log_refuted` | a run without random points ends without closing the log file; so does every run that raises after its start. |
| C164 | `C164_randoms_refuted` | an existing file of random points is only noticed after the catalogs have been written. The run raises, and from then on raises because of its own catalogs, even if the file of random points is removed. |
| C165 | `C165_end_refuted` | when the range of the calibration reaches the end of the configured redshifts, the table of areas, which ends below it, has no entry for the last node and the calibration stops with IndexError. |
| C165 | `C165_ends_refuted` | for the first and the last node the galaxies are counted in a bin beside the node but compared with the volume of the bin about it: where volume grows with redshift, the first is too small and the last too large. |
| C166 | `C166_bcg_refuted` | after CenteringBCG all slots have the position of the one centre, also those without a candidate. |
| C166 | `C166_empty_refuted` | with fewer candidates than slots, every empty slot carries the id of the last neighbour (at position -400, -400 and with probability 0), and in percolation that neighbour is marked as a candidate for the centre. |
| C166 | `C166_member_refuted` | a galaxy marked like that is written to the members of the cluster whatever its membership, with no free probability. |
| C167 | `C167_torn_refuted` | once a worker of one tile was killed while it wrote a file, or between a catalog and its members, no number of later executions, complete or not, gives a merged catalog: each of them fails. |
| C168 | `C168_members_refuted` | killed while the table of members is written, every later run with the check keeps the unfinished table. |
| C168 | `C168_mixed_refuted` | with an earlier merged catalog there, a run without the check killed before it wrote the members leaves the new catalog (or a part of it) beside the old members, and later runs with the check keep that. |
| C169 | `C169_blank_refuted` | names are not quoted for the shell: with a blank in a directory every job stops at its options. |
| C169 | `C169_braces_refuted` | with parsl, braces in the name are taken for an argument of the third round of formatting (parsl_templates.py:78), and the script fails; with LSF the same name works. |
| C169 | `C169_other_file_refuted` | the jobs of a configuration file with '%%' in its name run another one. |
| C169 | `C169_percent_refuted` | a '%' in the name of the configuration file or its directories is taken for a format in the second round of formatting (bin/redmapper_batch.py:258, 294): with '%/' no job can be created, after the job file has been opened. |
| C170 | `C170_first_use_refuted` | on first use the script asks for its new settings to be edited and to be run again, but goes on with them: an LSF job. |
| C170 | `C170_hours_refuted` | a PBS job asks for whole hours, rounded down: less than the time given unless it is a multiple of 60 minutes, and none at all below an hour (bin/redmapper_batch.py:239). |
| C170 | `C170_other_section_refuted` | a section without 'batch' stops the runs of every other section; an empty file stops with AttributeError. |
| C171 | `C171_list_refuted` | a pixel listed twice is run twice at the same time, and an empty list starts one command without a pixel, which stops. |
| C171 | `C171_status_refuted` | the exit status of the commands is dropped (bin/redmapper_run_many_pixels_same_node.py:26): the script ends without an error whatever became of the pixels. |
| C172 | `C172_directory_refuted` | the pixel is looked for in the whole path. If it can be read in the directory, every tile gets the pixel that is read there, and all of the clusters of the other tiles are dropped as outside their pixel. |
| C172 | `C172_large_refuted` | the catalogue of a tile whose pixel has six digits, which there are from a resolution of 128 on, is never found. |
| C172 | `C172_missing_refuted` | a tile whose catalogue is missing is left out without any message: the consolidation of the others goes on. |
| C172 | `C172_mixed_refuted` | the resolution is read from one file only. With tiles of resolution 16 and 8 in the directory, the pixels of the latter are taken for pixels of resolution 16. |
| C172 | `C172_other_run_refuted` | the tiles of a run with the outbase y3_test, in the same directory, are taken into the catalogue of the run y3. |
| C173 | `C173_none_refuted` | the volume limits cannot be switched off in the call: for an empty list the configured ones are used. |
| C173 | `C173_shared_refuted` | the cuts 5 and 11/2 have one file. The second cut starts it again after the first one has written, then both append: a cluster comes twice. The numbers are replaced twice, so that clusters have the numbers of others. |
| C173 | `C173_unfinished_refuted` | if no cluster passes one of the cuts, the task stops there with a KeyError. The outputs before it are complete; its own file, if there is one of an earlier run, stays; the outputs after it have all of their clusters, but numbers that are not final (see the example). |
| C174 | `C174_early_refuted` | nothing is checked for completeness. While jobs have not begun to write, the consolidation succeeds, with the clusters of the tiles that have ended, as if the run had no other tiles. |
| C174 | `C174_killed_refuted` | a job that is killed after it began to write and before it wrote all is never repaired: however often it is started again, whatever the other jobs do, no consolidation succeeds. |
| C175 | `C175_half_refuted` | the intrinsic scatter that is taken is the observed one at the lowest node. If the scatter of the whole sample is not larger than it, as in a sample whose scatter does not change with redshift, the ratio is 0.5: the stated errors are taken to be twice too large, however large they are. So it is when all stated errors are 0. |
| C175 | `C175_largest_refuted` | errors that are too small by more than a factor 9.9 are corrected by 9.9, without a message. |
| C175 | `C175_zreds_refuted` | the extension is taken off letter by letter. Galaxy files whose names differ in letters f, i, t and dots at the end of the stem have one file of redshifts; that of dir/fit.fit has no stem. |
| C176 | `C176_beyond_refuted` | the galaxies are cut with the upper end of the common range, not with the largest redshifts of the runs. In a run that goes further, the galaxies more than 0.05 and one bin beyond that end are all missing. |
| C176 | `C176_empty_refuted` | a node without any galaxy about it stops the calibration, with an IndexError, although the galaxies elsewhere were enough; with a constant chi-squared there is no such error. |
| C177 | `C177_count_refuted` | a cluster of richness lambda is drawn with lambda - 1 galaxies: the slice ends one galaxy early. If the last galaxy that should have been drawn is the brightest of all, the trial does not return it. |
| C177 | `C177_unused_refuted` | the fits to the second and the third brightest galaxies are not used, but one that fails (C153) stops the calibration. |
| C178 | `C178_beyond_refuted` | a limit beyond the end of the table is not an error: the filter is then normalised as if the limit was at the end of the table (with the last magnitude counted twice), whatever the limit; the table ends at a tenth of the characteristic luminosity at the largest redshift. |
| C179 | `C179_extra_refuted` | ... and a file that has one of them, for example the output of an earlier scan or colour run, is refused. |
| C179 | `C179_randoms_refuted` | the table that the run over random points leaves does not have the sixteen columns it asks for but forty-six: the thirty base columns of clusters it did not ask for come back, all zero, among them the limiting magnitude that the run did compute. |
| C179 | `C179_rescan_refuted` | A second scan of what a scan has left. |
| C179 | `C179_subset_own_columns_refuted` | a catalogue made with its own list of columns does not keep to it: every subset of it gains, as zeros, all the columns of its configuration (cluster.py:993 builds the subset without the list). |
| C180 | `C180_caller_refuted` | a caller of apply_correction finds the array of values changed while the array of bins is not: with an extra scatter the two no longer are a normalised distribution (in place division, zlambda.py:727). |
| C181 | `C181_dropped_refuted` | a cluster that is dropped from the catalog in the end keeps its claims: the only cluster of the catalog is given a tenth of its member, the rest of which no cluster has. |
| C181 | `C181_negative_refuted` | with cuts on the radius of members, a candidate for the centre is recorded also when the galaxy is used up more than once: its free probability in the member table, and with it its share, is negative. |
| C181 | `C181_tiles_refuted` | each tile is percolated by itself and its borders overlap those of others, so that a galaxy near a border can be a whole member of a cluster in each of any number of tiles; merging keeps all of them. |
| C181 | `C181_unmasked_refuted` | a member outside the mask (percolation_memradius beyond the mask radius, or fainter than percolation_lmask) is never used up: any number of clusters can each have the whole galaxy. |
| C182 | `C182_chain_refuted` | a border that contains all clusters which share galaxies with those of the tile is not enough: in a chain of clusters, each of which shares a galaxy with the next only, leaving out the first changes the richness of the last, however long the chain. |
| C183 | `C183_best_refuted` | of several precise spectra of one galaxy the last of the file counts, however much worse it is: it may be further from the galaxy and have the larger error. |
| C183 | `C183_directions_refuted` | the sample that calibrates and the catalogue selected with its result match in opposite directions. A galaxy with a precise spectrum within reach, to which another galaxy is closer, has no redshift (0) in the calibration; the selection gives it that spectrum's redshift. |
| C183 | `C183_marks_refuted` | a galaxy with no spectrum at all has redshift 0 in the calibration sample and -1 in a selected catalogue. |
| C184 | `C184_positions_refuted` | a file without positions (or with columns of other names, for example RA_J2000) is not refused: every one of its clusters is put at right ascension 0 and declination 0. |
| C184 | `C184_single_refuted` | the only cluster of a file loses its identifier: it is number 1 afterwards. |
| C185 | `C185_maxnode_refuted` | the largest node set for a color is not checked. One at or below the lower end of the range (and not negative) stops the calibration when the row is made, with an error about an empty array. |
| C185 | `C185_single_refuted` | in a range not longer than half a node size plus 0.01 (and than a node size) the reader's spline has a single node, which a spline cannot be drawn through: its two ends coincide. |
| C187 | `C187_few_refuted` | with fewer than three galaxies the first fit is given no galaxy at all, without a word. |
| C189 | `C189_failed_refuted` | clusters that failed (richness -1) stay in the catalogue of a run on input clusters and of the random points, and in that of every other run whose least richness is -1 or less. |
| C189 | `C189_filename_refuted` | by default the version is part of the name, so [filename], asked before the output (to see if there is something to do), never names the file the output goes to. |
| C189 | `C189_lum_refuted` | the members of no run are limited in luminosity by percolation_memlum: run_percolation.py:206 turns the limit off and nothing turns it on, so the branches at cluster_runner.py:529-530 and 547-548 are never taken. |
| C189 | `C189_stale_refuted` | [output] does not clobber unless told to, and then a second catalogue goes behind the first: who reads the file still gets the first. |
| C190 | `C190_coarse_refuted` | the object with the largest redshift is in none of the coarse bins. |
| C190 | `C190_factor_refuted` | the factor from the median deviation to a standard deviation is mistyped, 1.4862 for 1.4826: the scatter is too large by 0.24 per cent whenever there is any. |
| C190 | `C190_few_refuted` | a bin of fewer than three rows, or none, is drawn as one without bias, scatter and error. |
| C190 | `C190_foreign_refuted` | rows of the match are taken for rows of the member table (line 115), so one member of no cluster of the catalogue (its cluster was cut for its richness) gives the clusters behind it the redshifts of other members. |
| C190 | `C190_no_spec_refuted` | a catalogue without a single spectroscopic redshift makes no plot but a ValueError, in the consolidation after the catalogues are written. |
| C190 | `C190_shifted_refuted` | the bins of the histogram start at the first cluster with a member, but are written from the first cluster on: with k clusters without a member at the front, every cluster is shown with the redshift of the cluster k places further down, and the last k with 0. |
| C191 | `C191_low_refuted` | one draw in a hundred gives the lower end of the density's range, however small the density is there. |
| C191 | `C191_top_refuted` | objects in the last 0.0001 of the range are counted in no bin, while the volume of the last bin has it. |
| C192 | `C192_empty_refuted` | an empty catalogue has no range and is an error. |
| C193 | `C193_left_refuted` | the matrices of the caller are left with the correlations of the last trial, which are those of the answer only if the optimiser tried the answer last (with differences for the gradient, it does not). |
| C193 | `C193_three_refuted` | with three colors the limits of 0.9 on each correlation do not make a covariance: after 0.9 with the second color for both, -0.9 between the first and the third is beyond the wall, so whether a correlation can be found depends on the order of the fits. |
| C194 | `C194_base_refuted` | with "_catalog" in the name of the run, the plots of all cuts have one base, and those of the last cut are what is left. |
| C194 | `C194_before_refuted` | for these two, filename is an AttributeError before the first plot; for the others it is where the plot will be, without a version. |
| C194 | `C194_outbase_refuted` | with plots, the configuration is left with the base of the last catalogue as the name of the run. |
| C194 | `C194_redmagic_refuted` | names of redMaGiC plots run together: a plot of the calibration of a sample has the name of the plot of a sample that is called by both. |
| C194 | `C194_renamed_refuted` | the plots of richnesses and positions take the name of the plot before: after a plot of values with a name of its own, the plot of a catalogue is saved over it. |
| C195 | `C195_rich_refuted` | the last edge is below 200 (199 for bins of 1), and clusters that are richer are in no bin. |
| C196 | `C196_coarse_refuted` | with a map that is coarser than the pixel, the cut at a pixel without the center of a map pixel is an error, although the pixel is inside one. |
| C196 | `C196_empty_refuted` | an empty part of a map is an error and not an empty list. |
| C198 | `C198_held_refuted` | A run that ends is the only one that releases what was read. Finding: what a run without galaxies, or one that is broken off, has read is held until a run ends. |
| C198 | `C198_stale_refuted` | a run that stops before its catalogue is read leaves the catalogue and members of the run before, and output then writes them again; one that finds nothing leaves the members of the run before, without a catalogue. |
| C198 | `C198_unset_refuted` | if every run so far has stopped before its catalogue was read, or there was none, output is an AttributeError. |

## 6. Not modelled

Plotting (plotting.py), the compiled-in data files, FITS headers and byte encodings, logging, the numerical content of
scipy's optimisers and of spline fits, cosmology (angular distances are parameters), the NFW and luminosity filters
(their values are parameters of the richness model), the simulation of mask galaxies' random draws, and the bin/
scripts beyond the file-name and job-array logic of C56, C57 and C74.

## 7. Testing the theorems

`seeded/LOG.jsonl` has one line per wrong program: the definition edited, the edit, the claim it breaks, the theorems
that failed and, where none did, the theorems that were tightened or added.  The edits were made in scratch copies; each
failing proof was replaced by a hole so that every theorem that no longer proves is listed, not only the first.
