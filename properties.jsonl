{"id": "C01", "title": "Fits are ranked by quality then chi2", "statement": "After sort_zfit_dict the table holds the same rows (every row kept whole), every row without a bad-fit zwarn bit comes before every row with one, inside each group chi2 is nondecreasing with NaN last, rows with equal keys keep their input order, and no helper column is left behind.", "quantifier": "every table of fits: any length, any chi2 (finite, infinite, NaN), any zwarn, any extra columns", "why_tests_cant": "the order of every possible list of fits, with ties, NaN and mixed flags, is an unbounded set", "anchors": ["py/redrock/zfind.py: sort_zfit_dict, sort_dict_by_cols", "py/redrock/zwarning.py: badfit_mask"]}
{"id": "C02", "title": "Column-dict sort is atomic and stable", "statement": "sort_dict_by_cols either raises (missing key: KeyError, non-array column: ValueError) leaving the dict untouched, or permutes all columns by one common permutation that sorts lexicographically by the named columns and is stable.", "quantifier": "every dict of columns, every list of key columns", "why_tests_cant": "arbitrary numbers of columns, keys and ties", "anchors": ["py/redrock/zfind.py: sort_dict_by_cols"]}
{"id": "C03", "title": "deltachi2 is the gap to the next distinct good fit", "statement": "deltachi2[i] of calc_deltachi2 equals the minimum of chi2[j]-chi2[i] over later rows j that are good fits and whose velocity offset from row i exceeds the smaller of the two dv limits; it is 0 when there is no such row.", "quantifier": "every chi2/z/zwarn table, scalar or per-row dvlimit", "why_tests_cant": "minimum over all later rows for every table", "anchors": ["py/redrock/zfind.py: calc_deltachi2", "py/redrock/fitz.py: get_dv"]}
{"id": "C04", "title": "deltachi2 is non-negative in ranked output", "statement": "In a table ranked by sort_zfit_dict with finite chi2, deltachi2 is >= 0 for every row and 0 for the last.", "quantifier": "every table of finite chi2 fits", "why_tests_cant": "depends on the sort for all inputs", "anchors": ["py/redrock/zfind.py: calc_deltachi2, sort_zfit_dict"]}
{"id": "C05", "title": "SMALL_DELTA_CHI2 iff a close competitor exists", "statement": "setzwarn[i] is true exactly when another good fit j has |chi2[j]-chi2[i]| < 9 and a velocity offset at least the smaller of the two limits.", "quantifier": "every table", "why_tests_cant": "existential over all pairs", "anchors": ["py/redrock/zfind.py: calc_deltachi2"]}
{"id": "C06", "title": "A small non-zero deltachi2 is always flagged", "statement": "Every row with 0 < deltachi2 < 9 gets the SMALL_DELTA_CHI2 flag; a row with no flag has deltachi2 = 0 or >= 9 (ranked tables).", "quantifier": "every table", "why_tests_cant": "relates two separately computed outputs", "anchors": ["py/redrock/zfind.py: calc_deltachi2"]}
{"id": "C07", "title": "Trimming keeps the best fits", "statement": "After trimming, each spectype keeps at most nminima rows; these are exactly its first nminima rows in rank order; row order is unchanged and the overall best row is always kept.", "quantifier": "every ranked table, every nminima >= 1", "why_tests_cant": "all groupings of rows", "anchors": ["py/redrock/zfind.py: zfind (trim block)"]}
{"id": "C08", "title": "znum numbers the fits of a target", "statement": "znum is 0..n-1 in rank order, so each target has exactly one znum=0 row, which is its best fit.", "quantifier": "every table", "why_tests_cant": "all lengths", "anchors": ["py/redrock/zfind.py: zfind"]}
{"id": "C09", "title": "ZWARN bits are only added and reserved bits are never set by the fit", "statement": "Through fitting, ranking and trimming zwarn bits of a row are only OR-ed in, and bits other than the documented ones (0,1,2,5,9,10,11...) are not set by the fit pipeline; badfit_mask is exactly the documented five bits.", "quantifier": "every row and history of flag updates", "why_tests_cant": "bit-level claim over all values", "anchors": ["py/redrock/zfind.py: zfind", "py/redrock/fitz.py: fitz", "py/redrock/zwarning.py: ZWarningMask"]}
{"id": "C10", "title": "NODATA and LITTLE_COVERAGE flags", "statement": "A row gets NODATA iff npixels == 0 and LITTLE_COVERAGE iff npixels < 10*ncoeff, whatever other flags were set.", "quantifier": "every npixels, ncoeff, zwarn", "why_tests_cant": "all integer values", "anchors": ["py/redrock/zfind.py: zfind"]}
{"id": "C11", "title": "NEGATIVE_MODEL marks archetype fits with a negative amplitude", "statement": "With archetypes the flag is set iff the first coefficient is negative, whether all or only some spectypes have archetypes.", "quantifier": "every table, every set of archetypes", "why_tests_cant": "two code paths must agree on all inputs", "anchors": ["py/redrock/zfind.py: zfind (NEGATIVE_MODEL block)"]}
{"id": "C12", "title": "Coefficient padding preserves coefficients", "statement": "Padding to a common number of columns keeps each fit's coefficients first and adds zeros after, for every mixture of template sizes.", "quantifier": "every list of coefficient vectors", "why_tests_cant": "any mixture of lengths", "anchors": ["py/redrock/zfind.py: zfind"]}
{"id": "C13", "title": "One complete block per target in the requested order", "statement": "The final table contains for every target id, in all_target_ids order, exactly the rows of that target, each computed only from that target's results; if no template yields a minimum for a target the call raises instead of dropping it.", "quantifier": "every set of targets, templates and per-template results", "why_tests_cant": "all numbers of targets/templates", "anchors": ["py/redrock/zfind.py: zfind"]}
{"id": "C14", "title": "Batched MPI gather delivers every result once", "statement": "Sending results to rank 0 in batches of 5000 delivers every rank's every entry exactly once, for every result count including 0 and exact multiples, and sender and receiver agree on message counts (no deadlock).", "quantifier": "every number of ranks, results per rank and interleaving", "why_tests_cant": "boundary cases around the batch size for all sizes", "anchors": ["py/redrock/zfind.py: zfind (gather block)"]}
{"id": "C15", "title": "Results do not depend on distribution", "statement": "For every number of ranks and every assignment of targets to ranks the gathered per-target results equal those of a single process.", "quantifier": "every partition of targets over ranks", "why_tests_cant": "all partitions", "anchors": ["py/redrock/zfind.py: zfind", "py/redrock/utils.py: distribute_work", "py/redrock/targets.py: distribute_targets"]}
{"id": "C16", "title": "distribute_work is a partition", "statement": "Each work item is assigned to exactly one worker and there are exactly nworkers lists.", "quantifier": "every weights, ids, capacities", "why_tests_cant": "all workloads", "anchors": ["py/redrock/utils.py: distribute_work"]}
{"id": "C17", "title": "Load balance of distribute_work", "statement": "With uniform capacities the busiest worker carries at most (average load + largest item); greedy order is by descending weight and each item goes to the worker that minimises its load after assignment.", "quantifier": "every workload", "why_tests_cant": "worst case over all inputs", "anchors": ["py/redrock/utils.py: distribute_work"]}
{"id": "C18", "title": "CPU-only ranks get no scan work in GPU mode", "statement": "With capacity 1 for GPU ranks and 1/10000 for CPU ranks, CPU ranks get no target before every GPU rank already holds ~10000.", "quantifier": "every number of targets and ranks", "why_tests_cant": "threshold behaviour at sizes no test uses", "anchors": ["py/redrock/external/desi.py: rrdesi (capacities)", "py/redrock/utils.py: distribute_work"]}
{"id": "C19", "title": "array_split covers the range", "statement": "Splitting n redshifts over k workers gives k contiguous slices in order whose concatenation is the input and whose lengths differ by at most one.", "quantifier": "every n, k>0", "why_tests_cant": "all sizes", "anchors": ["py/redrock/templates.py: DistTemplate", "py/redrock/zfind.py: _rebalance_after_scan"]}
{"id": "C20", "title": "Template ring visits every slice once", "statement": "With P ranks cycling template slices, each rank processes every slice exactly once in P rounds, then reports done and holds its own slice again, for every message interleaving.", "quantifier": "every P, every schedule of asynchronous sends", "why_tests_cant": "schedules are unbounded", "anchors": ["py/redrock/templates.py: DistTemplate.cycle", "py/redrock/zscan.py: calc_zchi2_targets"]}
{"id": "C21", "title": "Distributed scan equals serial scan", "statement": "The chi2 array assembled from ring slices equals the serial scan over the full redshift grid, in redshift order.", "quantifier": "every P, redshift grid, target", "why_tests_cant": "all splits", "anchors": ["py/redrock/zscan.py: calc_zchi2_targets", "py/redrock/templates.py: DistTemplate"]}
{"id": "C22", "title": "Multiprocessing scan assigns each result to its own target", "statement": "With mp_procs > 1 each target receives the chi2 computed from its own data for every arrival order of worker results.", "quantifier": "every workload, number of processes, arrival order", "why_tests_cant": "schedules plus weight orders", "anchors": ["py/redrock/zscan.py: calc_zchi2_targets (mp branch)"]}
{"id": "C23", "title": "Multiprocessing fit stage is schedule independent", "statement": "With mp_procs > 1 the fit results keyed by target id are the same for every arrival order of worker results and equal to the serial ones.", "quantifier": "every arrival order", "why_tests_cant": "schedules are unbounded", "anchors": ["py/redrock/zfind.py: zfind (mp branch), _mp_fitz"]}
{"id": "C24", "title": "More ranks than redshifts works", "statement": "Template distribution works for every number of ranks, including more ranks than redshifts.", "quantifier": "every n redshifts, P ranks", "why_tests_cant": "boundary sizes", "anchors": ["py/redrock/rebin.py: rebin_template", "py/redrock/templates.py: DistTemplate"]}
{"id": "C25", "title": "Rebalancing after the scan keeps targets and results together", "statement": "After _rebalance_after_scan the ranks jointly hold the same targets in the same order, sizes differ by at most one, and each rank holds the scan results of exactly its targets.", "quantifier": "every lopsided distribution", "why_tests_cant": "all distributions", "anchors": ["py/redrock/zfind.py: _rebalance_after_scan"]}
{"id": "C26", "title": "A failing worker does not hang the run", "statement": "If a worker process raises, the parent terminates (with an error) rather than waiting forever.", "quantifier": "every schedule", "why_tests_cant": "liveness over schedules", "anchors": ["py/redrock/zscan.py: _mp_calc_zchi2", "py/redrock/zfind.py: _mp_fitz"]}
{"id": "C27", "title": "find_minima returns exactly the local minima, best first", "statement": "find_minima returns each index that is a local minimum (<= both neighbours; end points by their single neighbour) once, sorted by value; every array of finite values yields at least one and the first is a global minimum.", "quantifier": "every finite array", "why_tests_cant": "all arrays", "anchors": ["py/redrock/fitz.py: find_minima"]}
{"id": "C28", "title": "minfit recovers parabolas", "statement": "For points on a parabola with positive curvature minfit returns its vertex, minimum value, 1/sqrt(curvature) error and no warning; invalid fits return the sentinel with BAD_MINFIT.", "quantifier": "every parabola and sample points", "why_tests_cant": "continuum of inputs", "anchors": ["py/redrock/fitz.py: minfit"]}
{"id": "C29", "title": "fitz output contract", "statement": "fitz returns at most nminima fits, sorted by chi2, any two separated by at least max_velo_diff, each redshift inside the scanned range.", "quantifier": "every scan, every chi2 evaluator, nminima", "why_tests_cant": "all scans", "anchors": ["py/redrock/fitz.py: fitz"]}
{"id": "C30", "title": "Fit flags report range and parabola failures", "statement": "A fit whose parabola vertex leaves the fit window gets BAD_MINFIT and falls back to the scan minimum; a fit at the template redshift edge gets Z_FITLIMIT; otherwise neither is set.", "quantifier": "every fit", "why_tests_cant": "all decision branches for all values", "anchors": ["py/redrock/fitz.py: fitz"]}
{"id": "C31", "title": "Reported coefficients belong to the reported redshift", "statement": "The coefficients and chi2 of a reported fit are those obtained at the reported redshift.", "quantifier": "every fit, including fallback paths", "why_tests_cant": "relates values over all branches", "anchors": ["py/redrock/fitz.py: fitz"]}
{"id": "C32", "title": "Archetype mode is total over its options", "statement": "fitz in archetype mode does not crash for any combination of its documented options.", "quantifier": "every combination of options", "why_tests_cant": "combinatorial", "anchors": ["py/redrock/fitz.py: fitz, prior_on_coeffs"]}
{"id": "C33", "title": "Velocity separation", "statement": "get_dv(z,zref)=c(z-zref)/(1+zref): zero iff equal, monotone in z, antisymmetric up to the (1+z) ratio, and the symmetric test used to merge fits treats a pair consistently.", "quantifier": "every pair of redshifts > -1", "why_tests_cant": "continuum", "anchors": ["py/redrock/fitz.py: get_dv"]}
{"id": "C34", "title": "Priors only add, and only to their target", "statement": "A target missing from the prior table gets its chi2 unchanged; gaussian and lorentzien priors add a non-negative term that is zero at the prior centre and symmetric about it.", "quantifier": "every redshift grid, prior table", "why_tests_cant": "continuum", "anchors": ["py/redrock/priors.py: Priors"]}
{"id": "C35", "title": "Tophat priors confine the fit", "statement": "With a tophat prior every local minimum with finite chi2 lies inside the window.", "quantifier": "every grid and window", "why_tests_cant": "all grids", "anchors": ["py/redrock/priors.py: Priors.tophat", "py/redrock/fitz.py: find_minima"]}
{"id": "C36", "title": "centers2edges brackets the centers", "statement": "Edges have one more entry than centers, increase when centers do, are midpoints inside and each center lies inside its bin.", "quantifier": "every increasing array with >=2 entries", "why_tests_cant": "all arrays", "anchors": ["py/redrock/rebin.py: centers2edges"]}
{"id": "C37", "title": "trapz_rebin is the exact bin average", "statement": "Each output equals the integral over its bin of the linear interpolant of (x,y), divided by the bin width.", "quantifier": "every increasing x, y, increasing edges inside [x0,xn]", "why_tests_cant": "continuum; many alignment cases of edges and nodes", "anchors": ["py/redrock/rebin.py: _trapz_rebin_1d"]}
{"id": "C38", "title": "Rebinning conserves flux", "statement": "Sum of output times bin width equals the integral of the input over the covered range; splitting a bin splits its flux.", "quantifier": "every input", "why_tests_cant": "continuum", "anchors": ["py/redrock/rebin.py: _trapz_rebin_1d"]}
{"id": "C39", "title": "Rebinning is linear, bounded and positive", "statement": "Rebinning is linear in y, maps constants to themselves, and each output is between min and max of y (so non-negative in, non-negative out).", "quantifier": "every input", "why_tests_cant": "continuum", "anchors": ["py/redrock/rebin.py: trapz_rebin"]}
{"id": "C40", "title": "Rebinning guard", "statement": "trapz_rebin raises ValueError if an edge is outside the x range (after redshifting), and otherwise the inner loop never indexes outside its arrays and terminates.", "quantifier": "every x, edges, z", "why_tests_cant": "memory safety for all inputs", "anchors": ["py/redrock/rebin.py: trapz_rebin, _trapz_rebin_1d"]}
{"id": "C41", "title": "GPU and CPU rebinning agree", "statement": "The parallel per-bin algorithm returns the same values as the sequential one for all inputs accepted by the guard.", "quantifier": "every accepted input", "why_tests_cant": "two algorithms, all alignments", "anchors": ["py/redrock/rebin.py: _cuda_trapz_rebin, _trapz_rebin_1d"]}
{"id": "C42", "title": "Batch rebinning at many redshifts equals one at a time", "statement": "Rebinning a batch of redshifts gives for each redshift the same rows as rebinning that redshift alone.", "quantifier": "every batch", "why_tests_cant": "all batches", "anchors": ["py/redrock/rebin.py: _trapz_rebin_batch, trapz_rebin"]}
{"id": "C43", "title": "PCA fit is the least-squares optimum", "statement": "The coefficients solving the normal equations minimise the weighted chi2 over all coefficient vectors, and the returned chi2 is that minimum.", "quantifier": "every basis, weights>=0, flux", "why_tests_cant": "continuum of competitors", "anchors": ["py/redrock/zscan.py: calc_zchi2_batch"]}
{"id": "C44", "title": "Masked pixels cannot influence the fit", "statement": "Changing the flux (or model basis) at pixels with zero weight changes neither the normal equations nor chi2.", "quantifier": "every spectrum, every replaced value incl. NaN", "why_tests_cant": "all values", "anchors": ["py/redrock/zscan.py: calc_zchi2_batch"]}
{"id": "C45", "title": "chi2 is non-negative; empty spectra give the sentinel", "statement": "chi2 >= 0 whenever weights >= 0; a target with total weight 0 gets the huge sentinel for all redshifts and zero coefficients.", "quantifier": "every target", "why_tests_cant": "continuum", "anchors": ["py/redrock/zscan.py: calc_zchi2"]}
{"id": "C46", "title": "OII penalty is one sided", "statement": "The negative-OII penalty is never negative, is zero when the total model in the OII window is not negative, and is only added for GALAXY PCA templates.", "quantifier": "every model", "why_tests_cant": "continuum", "anchors": ["py/redrock/zscan.py: calc_negOII_penalty"]}
{"id": "C47", "title": "Constrained solvers give the constrained optimum", "statement": "With NNLS/BVLS the coefficients satisfy the bounds and minimise chi2 among coefficient vectors that satisfy them.", "quantifier": "every system", "why_tests_cant": "continuum", "anchors": ["py/redrock/zscan.py: solve_matrices"]}
{"id": "C48", "title": "Per-camera Legendre columns are independent", "statement": "Per-camera design columns of different cameras have disjoint support, and the coefficient vector layout is archetype first then nleg terms per camera.", "quantifier": "every camera set", "why_tests_cant": "all sizes", "anchors": ["py/redrock/zscan.py: per_camera_coeff_with_least_square_batch"]}
{"id": "C49", "title": "Batch chi2 equals one-at-a-time chi2", "statement": "For each redshift the batch result equals that of evaluating this redshift alone; the result for a redshift does not depend on the others.", "quantifier": "every redshift grid", "why_tests_cant": "all batches", "anchors": ["py/redrock/zscan.py: calc_zchi2_batch, _zchi2_one"]}
{"id": "C50", "title": "Coadd: one spectrum per wavelength grid", "statement": "compute_coadd yields one spectrum per distinct wavehash in first-appearance order, total ivar = sum of ivars, flux = ivar-weighted mean where weights are positive.", "quantifier": "every list of spectra", "why_tests_cant": "all lists", "anchors": ["py/redrock/targets.py: Target.compute_coadd"]}
{"id": "C51", "title": "Coadd does not depend on exposure order", "statement": "Permuting exposures with the same wavehash leaves the coadd unchanged.", "quantifier": "every permutation", "why_tests_cant": "all permutations", "anchors": ["py/redrock/targets.py: Target.compute_coadd"]}
{"id": "C52", "title": "Coadding a single exposure is the identity", "statement": "Coadding one exposure (or coadding twice) leaves flux and ivar unchanged.", "quantifier": "every spectrum", "why_tests_cant": "all masks", "anchors": ["py/redrock/targets.py: Target.compute_coadd"]}
{"id": "C53", "title": "Cosmic-ray rejection keeps consistent exposures", "statement": "Identical noiseless exposures of a spectrum are not masked by the cosmics gradient cut.", "quantifier": "every spectrum and number of exposures", "why_tests_cant": "all sizes", "anchors": ["py/redrock/targets.py: Target.compute_coadd"]}
{"id": "C54", "title": "Shared-memory packing preserves data", "statement": "After any sequence of pack/unpack calls the data seen by a user is the original.", "quantifier": "every history", "why_tests_cant": "all histories", "anchors": ["py/redrock/targets.py: Spectrum.sharedmem_pack, sharedmem_unpack", "py/redrock/zscan.py: calc_zchi2_targets"]}
{"id": "C55", "title": "Low-resolution pixels are masked", "statement": "Exactly the pixels whose resolution row sum is below 0.99 have their ivar set to zero at construction.", "quantifier": "every resolution matrix", "why_tests_cant": "all matrices", "anchors": ["py/redrock/targets.py: Spectrum"]}
{"id": "C56", "title": "Legendre basis cache is fresh", "statement": "Target.legendre returns the basis for the requested number of terms for every history of calls.", "quantifier": "every sequence of calls (nleg, cpu/gpu)", "why_tests_cant": "all histories", "anchors": ["py/redrock/targets.py: Target.legendre"]}
{"id": "C57", "title": "wavegrids", "statement": "DistTargets.wavegrids merges exactly the grids of all targets, keyed by wavehash, for every rank.", "quantifier": "every set of targets", "why_tests_cant": "all sets", "anchors": ["py/redrock/targets.py: DistTargets"]}
{"id": "C58", "title": "Evaluated best model equals fitted model", "statement": "Template.eval at (coeff, z) gives the model that was fitted in the scan on that grid.", "quantifier": "every template, z, coeff", "why_tests_cant": "continuum", "anchors": ["py/redrock/templates.py: Template.eval", "py/redrock/zscan.py: calc_zchi2_batch", "py/redrock/rebin.py: rebin_template"]}
{"id": "C59", "title": "fulltype round trip", "statement": "parse_fulltype(make_fulltype(s,t)) = (s,t).", "quantifier": "every type/subtype string", "why_tests_cant": "all strings", "anchors": ["py/redrock/templates.py: make_fulltype, parse_fulltype"]}
{"id": "C60", "title": "zscan file round trip", "statement": "read_zscan(write_zscan(r)) returns the same redshifts and zchi2, coefficients and fits for every target and type.", "quantifier": "every results tree", "why_tests_cant": "all trees", "anchors": ["py/redrock/results.py: write_zscan, read_zscan"]}
{"id": "C61", "title": "Output files are crash-atomic", "statement": "At every crash point during writing the output path holds either its old content or the complete new content.", "quantifier": "every crash point, existing or missing target", "why_tests_cant": "crash points", "anchors": ["py/redrock/results.py: write_zscan", "py/redrock/external/desi.py: write_zbest", "py/redrock/templates.py: n/a"]}
{"id": "C62", "title": "Selecting targets when reading a scan", "statement": "read_zscan with select_targetids returns exactly the selected targets' entries, identical to those from a full read.", "quantifier": "every selection", "why_tests_cant": "all selections", "anchors": ["py/redrock/results.py: read_zscan"]}
{"id": "C63", "title": "int8 columns do not wrap", "statement": "znum and ncoeff written as int8 equal their values.", "quantifier": "every fit count", "why_tests_cant": "boundary values", "anchors": ["py/redrock/zfind.py: zfind"]}
{"id": "C64", "title": "plate-mjd-fiber packing round trip", "statement": "Decoding the packed BOSS id returns plate, mjd, fiber.", "quantifier": "every plate, mjd<100000, fiber<10000", "why_tests_cant": "all integers", "anchors": ["py/redrock/external/boss.py: platemjdfiber2targetid, targetid2platemjdfiber"]}
{"id": "C65", "title": "Template provenance header round trip", "statement": "The header written with n templates lists each template and is read back in order by header2templatefiles.", "quantifier": "every list of templates", "why_tests_cant": "all lists", "anchors": ["py/redrock/templates.py: header2templatefiles", "py/redrock/external/desi.py: write_zbest"]}
{"id": "C66", "title": "Rows of input files map to the right target", "statement": "Each kept spectrum row is attached to the target with its TARGETID, each target gets all and only its rows in file order.", "quantifier": "every file/row layout and selection", "why_tests_cant": "all layouts", "anchors": ["py/redrock/external/desi.py: DistTargetsDESI"]}
{"id": "C67", "title": "Masks are applied to their own rows", "statement": "Each MASK row is applied to the flux row of the same file row.", "quantifier": "every mixture of files with/without MASK", "why_tests_cant": "all mixtures", "anchors": ["py/redrock/external/desi.py: DistTargetsDESI"]}
{"id": "C68", "title": "Target order of first appearance", "statement": "The target list has each id once.", "quantifier": "every id list", "why_tests_cant": "all lists", "anchors": ["py/redrock/external/desi.py: DistTargetsDESI"]}
{"id": "C69", "title": "--mintarget/-n select the intended window", "statement": "first_target and n_target select targets [first, first+n) of the list, for each documented combination.", "quantifier": "every n, first", "why_tests_cant": "all integer combinations", "anchors": ["py/redrock/external/desi.py: DistTargetsDESI, rrdesi"]}
{"id": "C70", "title": "Bad input pixels never reach the fit", "statement": "NaN/inf flux or ivar pixels and negative ivar get ivar 0 and finite flux.", "quantifier": "every pixel value", "why_tests_cant": "all values", "anchors": ["py/redrock/external/desi.py: DistTargetsDESI"]}
{"id": "C71", "title": "Fiberstatus is propagated to ZWARN", "statement": "ZWARN gets BAD/POORDATA bits exactly when all relevant fibers have the corresponding COADD_FIBERSTATUS bit.", "quantifier": "every fibermap", "why_tests_cant": "all rows", "anchors": ["py/redrock/external/desi.py: rrdesi"]}
{"id": "C72", "title": "Model rows match redshift rows", "statement": "With --model, model spectra rows are written in the order of the zbest TARGETIDs.", "quantifier": "every target order", "why_tests_cant": "all permutations", "anchors": ["py/redrock/external/desi.py: rrdesi"]}
{"id": "C73", "title": "IGM transmission range", "statement": "Transmission of the Calura12 and Kamble20 models is in (0,1], is exactly 1 redward of Lyman alpha and below 1 blueward, and decreases with redshift at fixed observed and at fixed rest wavelength.", "quantifier": "every z, wavelength", "why_tests_cant": "continuum", "anchors": ["py/redrock/igm.py: transmission_Lyman_CaluraKamble, transmission_Lyman", "py/redrock/constants.py: Lyman_series"]}
{"id": "C74", "title": "A skipped IGM correction is an identity", "statement": "When transmission_Lyman(always_return_array=False) returns None, the correction array would be all ones; otherwise it returns the same array; None is returned exactly when no redshift of the batch needs a correction (or the model is none).", "quantifier": "every z, wavelength grid", "why_tests_cant": "continuum", "anchors": ["py/redrock/igm.py: transmission_Lyman"]}
{"id": "C75", "title": "Inoue14 covers all redshifts", "statement": "Each redshift/wavelength falls in exactly one published formula of each of the four optical depths.", "quantifier": "every z, wavelength", "why_tests_cant": "continuum; boundaries", "anchors": ["py/redrock/igm.py: Inoue14.tLSLAF, tLSDLA, tLCDLA, tLCLAF"]}
{"id": "C76", "title": "get_mp bounds", "statement": "get_mp returns at least 1 process, never more than available, honouring explicit requests.", "quantifier": "every request and environment", "why_tests_cant": "all integers", "anchors": ["py/redrock/utils.py: get_mp"]}
{"id": "C77", "title": "Reduced wavelength is in [-1,1]", "statement": "reduced_wavelength maps first/last to -1/1 and stays within [-1,1] on increasing grids.", "quantifier": "every grid", "why_tests_cant": "continuum", "anchors": ["py/redrock/utils.py: reduced_wavelength"]}
{"id": "C78", "title": "Archetype coefficient split round trip", "statement": "split_archetype_coeff inverts the concatenation of archetype and per-camera Legendre coefficients.", "quantifier": "every number of cameras/terms", "why_tests_cant": "all sizes", "anchors": ["py/redrock/archetypes.py: split_archetype_coeff"]}
{"id": "C79", "title": "Local ids and local data line up", "statement": "For every DistTargetsCopy object, entry i of local_target_ids() is the id of entry i of local(), so code may pair the two lists by position.", "quantifier": "every list of targets, every number of ranks", "why_tests_cant": "all weight orders", "anchors": ["py/redrock/targets.py: DistTargetsCopy"]}
{"id": "C80", "title": "GPU mode scans every local target", "statement": "In GPU mode every target, whichever rank it is assigned to, is scanned over the full redshift grid of every template.", "quantifier": "every number of targets, GPUs and ranks", "why_tests_cant": "all combinations of sizes", "anchors": ["py/redrock/templates.py: DistTemplate.__init__", "py/redrock/targets.py: DistTargets", "py/redrock/utils.py: distribute_work"]}
{"id": "C81", "title": "Equal wavehash means equal wavelength grid", "statement": "Two spectra that share a wavehash have the same wavelength grid, so one interpolated template per wavehash is right for both.", "quantifier": "every pair of wavelength grids", "why_tests_cant": "all pairs of grids", "anchors": ["py/redrock/targets.py: Spectrum.__init__", "py/redrock/targets.py: DistTargets.wavegrids"]}
{"id": "C82", "title": "Archetype prior matrix acts on the Legendre terms only", "statement": "The prior matrix built for archetype fits has one row and column per coefficient, is zero off the diagonal and on the archetype block, and is 1/sigma^2 (positive) on every Legendre diagonal entry; sigma=0 raises ZeroDivisionError.", "quantifier": "all numbers of archetypes, Legendre terms and cameras and all sigma", "why_tests_cant": "the block layout depends on three sizes", "anchors": ["py/redrock/fitz.py:prior_on_coeffs"]}
{"id": "C83", "title": "GPU and CPU rebinning accept the same inputs", "statement": "Rebinning an archetype or template on the GPU raises ValueError for exactly the inputs for which the CPU path does.", "quantifier": "every template grid, every set of redshifts and output edges", "why_tests_cant": "all grids and redshift sets", "anchors": ["py/redrock/rebin.py: trapz_rebin", "py/redrock/rebin.py: trapz_rebin_batch_gpu", "py/redrock/archetypes.py: rebin_template_batch"]}
{"id": "C84", "title": "Target.bands describes Target.spectra", "statement": "After constructing a Target (with or without coadd) and after calling compute_coadd on it, Target.bands lists the band of each spectrum of Target.spectra in order.", "quantifier": "every list of exposures and bands", "why_tests_cant": "all combinations of exposures", "anchors": ["py/redrock/targets.py: Target.__init__", "py/redrock/targets.py: Target.compute_coadd"]}
{"id": "C85", "title": "Coadded resolution matches the coadded flux", "statement": "Coadding noiseless exposures of one high-resolution spectrum gives a flux equal to the coadded resolution matrix applied to that spectrum.", "quantifier": "every spectrum, every set of exposures, weights and resolution matrices", "why_tests_cant": "continuum of matrices and weights", "anchors": ["py/redrock/targets.py: Target.compute_coadd"]}
{"id": "C86", "title": "Constructing a Spectrum leaves the caller's arrays unchanged", "statement": "The wave, flux, ivar arrays passed to Spectrum have the same contents after the call.", "quantifier": "every spectrum", "why_tests_cant": "all resolution matrices", "anchors": ["py/redrock/targets.py: Spectrum.__init__"]}
{"id": "C87", "title": "GPU copies of a target's spectra are current", "statement": "The concatenated weights, flux and weighted flux that a target holds for the GPU are those of its current spectra, for every history of calls, including compute_coadd.", "quantifier": "all targets and all sequences of legendre, gpu_spectral_data and compute_coadd calls", "why_tests_cant": "Cache staleness depends on the order of calls, and there are unboundedly many histories.", "anchors": ["py/redrock/targets.py:Target.gpu_spectral_data", "py/redrock/targets.py:Target.compute_coadd"]}
{"id": "C88", "title": "eval_model without a resolution matrix", "statement": "redrock.templates.eval_model evaluates every row of data on the given wavelengths, also when R is left at its default.", "quantifier": "all tables of best fits, wavelength arrays and resolution arguments", "why_tests_cant": "The default argument must work for every non-empty table, not for one test table.", "anchors": ["py/redrock/templates.py:eval_model"]}
{"id": "C89", "title": "Input header cards are carried to the output", "statement": "Cards of the input FIBERMAP, EXP_FIBERMAP and SCORES headers appear in the corresponding output HDUs unless the output already has a card with that keyword.", "quantifier": "all input headers and output headers", "why_tests_cant": "Tests use a few keywords of one file; the claim is over all headers and all HDU combinations.", "anchors": ["py/redrock/external/desi.py: write_zbest, DistTargetsDESI"]}
{"id": "C90", "title": "A template list file names exactly its templates", "statement": "Every non-blank, non-comment line of a template list contributes exactly the file it names, in order; a missing file is an error.", "quantifier": "all list files and directory contents", "why_tests_cant": "The space of line contents is unbounded.", "anchors": ["py/redrock/templates.py: find_templates"]}
{"id": "C91", "title": "Sky line masking touches exactly its windows", "statement": "Unless --no-skymask is given, the inverse variance of exactly the pixels with wavelength in [5572,5582] or [9792,9795] Angstrom is set to zero, and no other pixel changes.", "quantifier": "every wavelength grid and inverse variance", "why_tests_cant": "all grids, including pixels on the window edges", "anchors": ["py/redrock/external/desi.py: rrdesi (skymask)"]}
{"id": "C92", "title": "Resolution data survive the batched broadcast", "statement": "Sending the resolution rows to the processes in batches returns the same rows in the same order, for every number of rows.", "quantifier": "every number of rows and batch size", "why_tests_cant": "batching only starts beyond 10000 rows", "anchors": ["py/redrock/external/desi.py: DistTargetsDESI (maxtarg_per_bcast)"]}
{"id": "C93", "title": "IGM transmission is entrywise and keeps the dimensions", "statement": "transmission_Lyman returns, for every scalar/array combination of redshift and wavelength, an array of the documented dimensions whose entries depend only on their own redshift and wavelength; unknown models and empty arrays are errors.", "quantifier": "every batch of redshifts and wavelength grid, every model", "why_tests_cant": "batch shortcuts use the minimum over the whole batch; independence must hold for all batches", "anchors": ["py/redrock/igm.py: transmission_Lyman, transmission_Lyman_CaluraKamble, transmission_IGM_Inoue14"]}
{"id": "C94", "title": "Inoue14 transmission is a transmission", "statement": "The Inoue14 transmission is in (0,1].", "quantifier": "every redshift and wavelength", "why_tests_cant": "continuum", "anchors": ["py/redrock/igm.py: Inoue14.full_IGM"]}
{"id": "C95", "title": "GPU scan equals CPU scan", "statement": "calc_zchi2 / calc_zchi2_batch with use_gpu=True return, for every target and redshift, exactly the chi2, coefficients and penalty that the CPU code returns (exact arithmetic), for every order in which the GPU threads execute and every initial content of device memory.", "quantifier": "all targets, template grids, redshift counts, solver methods, priors, thread orders and memory contents", "why_tests_cant": "tests run one GPU, one schedule and a few shapes; CI has no GPU at all", "anchors": ["py/redrock/zscan.py:calc_zchi2_batch", "py/redrock/zscan.py:_batch_dot_product_sparse_gpu", "py/redrock/zscan.py:_calc_batch_dot_product_3d2d_gpu", "py/redrock/zscan.py:solve_matrices", "py/redrock/zscan.py:calc_zchi2"]}
{"id": "C96", "title": "GPU batch matrix product", "statement": "calc_batch_dot_product_3d3d_gpu(a, b) returns a[i].dot(b[i]) for every i (a transposed first if asked), independently of the order of its atomic additions, of the number of threads per output and of how the rows divide among them.", "quantifier": "all arrays, sizes and thread orders", "why_tests_cant": "the thread order cannot be controlled by a test and the row split depends on sizes", "anchors": ["py/redrock/zscan.py:calc_batch_dot_product_3d3d_gpu", "py/redrock/zscan.py:cuda_source"]}
{"id": "C97", "title": "Archetype names identify archetypes", "statement": "For every archetype file, the names given to its archetypes are pairwise different, one per flux row, even when the SUBTYPE column repeats; the full type string reported by get_best_archetype parses back to the RRTYPE and the list of names, and each name is found at the index it was made from.", "quantifier": "all archetype files and all lists of selected archetypes", "why_tests_cant": "names are user data: repeated, padded or containing separators; tests use a few files", "anchors": ["py/redrock/archetypes.py:Archetype.__init__", "py/redrock/archetypes.py:Archetype.eval", "py/redrock/templates.py:parse_fulltype", "py/redrock/templates.py:make_fulltype"]}
{"id": "C98", "title": "get_best_archetype returns the best single fit", "statement": "get_best_archetype on a file with n archetypes succeeds exactly when it succeeds on each of the n one-archetype files, and then returns the chi2 and coefficients of the one with the smallest chi2 (the first of equal ones), with its name.", "quantifier": "all archetype files, targets, redshifts, solver methods, priors, transmissions and Legendre bases, per camera or not", "why_tests_cant": "quantifies over every archetype list, every data set and every solver outcome", "anchors": ["py/redrock/archetypes.py:Archetype.get_best_archetype"]}
{"id": "C100", "title": "get_best_archetype leaves its arguments alone", "statement": "Calling get_best_archetype does not change the transmission dictionary it is given, so the same call again returns the same result; giving the transmission of the archetype's own IGM model at z is the same as leaving it out.", "quantifier": "all calls", "why_tests_cant": "a statement about every input dictionary and call history; tests call once", "anchors": ["py/redrock/archetypes.py:Archetype.get_best_archetype"]}
{"id": "C101", "title": "Archetype prior", "statement": "The prior matrix built for the number of nearest archetypes is reduced, for the single-archetype fits, to exactly the prior matrix for one archetype: no archetype coefficient gets a prior term and no Legendre term loses its own; the prior has no effect unless the fit is per camera.", "quantifier": "all numbers of archetypes, Legendre degrees, cameras and prior widths", "why_tests_cant": "all sizes of a matrix slice", "anchors": ["py/redrock/archetypes.py:Archetype.get_best_archetype", "py/redrock/zscan.py:prior_on_coeffs"]}
{"id": "C103", "title": "All_archetypes keyed by type", "statement": "All_archetypes makes every archetype file of its list available under its RRTYPE.", "quantifier": "all lists of archetype files", "why_tests_cant": "depends on collisions between arbitrary user files", "anchors": ["py/redrock/archetypes.py:All_archetypes"]}
{"id": "C99", "title": "Reported archetype coefficients reproduce the fitted model", "statement": "Parsing the type string returned by get_best_archetype, splitting its coefficients with split_archetype_coeff and evaluating them with Target.eval_model gives models whose weighted squared distance to the data is exactly the chi2 returned.", "quantifier": "all archetype files, targets, redshifts, numbers of nearest archetypes, Legendre degrees, priors and solver answers, per camera or not, with any zero padding of the coefficient column", "why_tests_cant": "composition of fit, serialisation, split and evaluation over all sizes; tests look at one file", "anchors": ["py/redrock/archetypes.py:Archetype.get_best_archetype", "py/redrock/archetypes.py:Archetype.eval", "py/redrock/archetypes.py:split_archetype_coeff", "py/redrock/targets.py:Target.eval_model", "py/redrock/zscan.py:per_camera_coeff_with_least_square_batch"]}
{"id": "C102", "title": "Nearest archetypes", "statement": "With n_nearest=n, get_best_archetype fits the n archetypes with the smallest single-archetype chi2, and names them in the order of their coefficients and of increasing chi2, for every n that is at most the number of archetypes, with or without a prior, per camera or not.", "quantifier": "all n, archetype files, targets, priors and orders numpy.argsort may give to equal values", "why_tests_cant": "all orderings of chi2 values and all n", "anchors": ["py/redrock/archetypes.py:Archetype.nearest_neighbour_model", "py/redrock/archetypes.py:Archetype.get_best_archetype"]}
{"id": "C104", "title": "A template file yields exactly the template it describes", "statement": "Template(filename) succeeds exactly when the file describes a valid template: RRTYPE present, RRMETHOD absent (PCA) or, in upper case, PCA or NMF, an IGM model given by RRIGM or by the table of pre-2024 versions, at least one wavelength, and redshifts (from the file or the default grid) that are not empty. The object then has the stripped upper-case type and subtype, the version (or 'unknown'), the wavelengths CRVAL1 + i CDELT1 (or 10 to that power), the flux of the file and those redshifts. The constructor without a file accepts only the exact method names.", "quantifier": "every combination of present, absent and arbitrary header cards, wavelength counts and redshift arrays", "why_tests_cant": "header combinations are unbounded; tests open a handful of shipped files", "anchors": ["py/redrock/templates.py:Template.__init__"]}
{"id": "C105", "title": "Redshift grids built from zmin,zmax,dz cover the range", "statement": "For a template file without REDSHIFTS, the grid built from an option 'zmin,zmax,dz' with dz > 0 (or from the defaults) starts at zmin, is strictly increasing, stays below zmax, has equal steps in log10(1+z) for GALAXY and QSO and in z for STAR, and leaves no z in [zmin,zmax) more than one step away from a grid point below it; such a range is accepted exactly when zmin < zmax and, for GALAXY and QSO, zmin > -1; text that is not three numbers is refused.", "quantifier": "every range, template type and option text", "why_tests_cant": "ranges are real numbers", "anchors": ["py/redrock/templates.py:Template.__init__"]}
{"id": "C106", "title": "The requested scan range is scanned", "statement": "When the user gives --zscan-galaxy, --zscan-qso or --zscan-star, templates of that type are scanned on that range.", "quantifier": "every template file and option", "why_tests_cant": "depends on the contents of every template file", "anchors": ["py/redrock/templates.py:Template.__init__", "py/redrock/templates.py:load_templates"]}
{"id": "C107", "title": "Every listed template is used", "statement": "load_dist_templates distributes every template that load_templates reads, in order; when types and subtypes repeat, exactly the last template with each pair is used.", "quantifier": "every list of template files", "why_tests_cant": "arbitrary lists", "anchors": ["py/redrock/templates.py:load_dist_templates", "py/redrock/templates.py:load_templates"]}
{"id": "C108", "title": "find_templates resolves each kind of path", "statement": "A directory means the files listed in its templates-default.txt, or all rrtemplate-*.fits when there is no such list; a .txt file means the files it lists, relative to its directory; a .fits/.fits.gz/.fits.fz file means itself; a list means itself; None means $RR_TEMPLATE_DIR or the installed directory; anything else, and a list naming a missing file, is an error. Returned files exist. Strings and pathlib paths mean the same.", "quantifier": "every file system state and argument", "why_tests_cant": "arbitrary file systems and lists", "anchors": ["py/redrock/templates.py:find_templates", "py/redrock/templates.py:get_template_dir"]}
{"id": "C109", "title": "Template data of the redshift slices join to the data of one process", "statement": "For no more ranks than redshifts, the rebinned and absorbed template data a rank computes for its slice of redshifts are, put one after the other in rank order, exactly what one process computes for all redshifts; one succeeds if and only if all the others do. Each entry is the basis vector redshifted, rebinned on its own and multiplied by the transmission at that redshift and wavelength, and it exists only if the template covers the wavelengths.", "quantifier": "all templates, wavelength grids, redshift lists above -1, IGM models and numbers of ranks", "why_tests_cant": "the coverage guard looks at the extreme redshifts of the slice, so equality must hold for every way of cutting every list", "anchors": ["py/redrock/templates.py:DistTemplate.__init__", "py/redrock/rebin.py:rebin_template"]}
{"id": "C110", "title": "A template that could be evaluated on the scan redshifts never fails in the refinement", "statement": "If the template data could be computed for all the scan redshifts, then the refined scan around any minimum and the final fit never raise for lack of wavelength coverage: fitz returns for every chi2 curve, the only uncovered redshifts being parabola minima outside the scanned range, which are caught and flagged.", "quantifier": "all templates, ascending redshift grids, wavelength grids, chi2 curves, numbers of minima and of refined points, polynomial fits", "why_tests_cant": "the refined redshifts depend on the data through the minima and an unbounded parabola minimum", "anchors": ["py/redrock/fitz.py:fitz", "py/redrock/rebin.py:rebin_template"]}
{"id": "C111", "title": "Rebinning with precomputed edges equals rebinning with wavelengths", "statement": "rebin_template called with bin edges (plain, or with their minimum and maximum) returns what it returns for the wavelengths those edges come from, and raises in the same cases.", "quantifier": "all templates, redshifts, grids and mixtures of plain and annotated edges", "why_tests_cant": "the result depends on the order and kind of the dictionary entries", "anchors": ["py/redrock/rebin.py:rebin_template"]}
{"id": "C112", "title": "Archetypes are compared with the transmission of the redshift they are compared at", "statement": "The Lyman transmission applied to the archetypes when the best archetype of a minimum is chosen is the one of the redshift reported for that minimum.", "quantifier": "all chi2 curves, refined scans and parabola fits", "why_tests_cant": "it fails only when the parabola minimum leaves the refined range", "anchors": ["py/redrock/fitz.py:fitz", "py/redrock/archetypes.py:Archetype.get_best_archetype"]}
{"id": "C113", "title": "wrap-redrock balances the groups", "statement": "Dividing non-negative weights into n groups puts each item in exactly one group, reports the true total of each group, orders each group from the largest weight to the smallest, and no group exceeds another by more than its smallest member, hence no group exceeds the mean by more than the largest weight.", "quantifier": "every list of non-negative weights, every number of groups >= 1, every order argsort may give to ties", "why_tests_cant": "greedy placement must keep its invariants for every list and every tie-breaking; examples show a few lists only", "anchors": ["bin/wrap-redrock: weighted_partition"]}
{"id": "C114", "title": "wrap-redrock gives each spectra file to exactly one rank", "statement": "When wrap-redrock runs under MPI, every spectra file still to do is processed by exactly one rank, whatever the number of ranks; a run with nothing left to do ends normally.", "quantifier": "every list of files, target counts, data type, number of ranks and --maxnodes", "why_tests_cant": "the assignment is a combination of the counts of all the ranks; all sizes and rank counts cannot be enumerated", "anchors": ["bin/wrap-redrock: plan", "bin/wrap-redrock: group_specfiles", "bin/wrap-redrock: run_redrock"]}
{"id": "C115", "title": "wrap-redrock output names do not collide", "statement": "Different spectra files have different redshift and details files, an output is never the input of another run, and the log is beside the redshift file.", "quantifier": "every directory, file name, prefix and --outdir", "why_tests_cant": "name clashes depend on the text of arbitrary names", "anchors": ["bin/wrap-redrock: spectra2outfiles"]}
{"id": "C116", "title": "wrap-redrock resumes exactly the unfinished files", "statement": "The files to process are exactly the <prefix>*.fits files below the directory, outside the avoided one, for which the redshift file or the details file is missing.", "quantifier": "every directory tree, every set of existing outputs (every point where an earlier run stopped)", "why_tests_cant": "every tree and every interruption point must be covered", "anchors": ["bin/wrap-redrock: find_specfiles"]}
{"id": "C117", "title": "wrap-redrock never loses a log", "statement": "Backing up a log moves it to a new name, overwrites nothing and always finds a free name.", "quantifier": "every set of files in the log directory, every history of backups", "why_tests_cant": "all histories of runs and manual deletions must be covered", "anchors": ["bin/wrap-redrock: backup_logs"]}
{"id": "C118", "title": "wrap-redrock retries a failed file once and goes on", "statement": "Each file of a rank is run; it is run again exactly once if it exits with an error; success ends the tries; failures do not stop the other files; logs of all tries are kept.", "quantifier": "every sequence of exit codes and exceptions, every set of old logs", "why_tests_cant": "all failure histories must be covered", "anchors": ["bin/wrap-redrock: run_redrock"]}
{"id": "C119", "title": "wrap-redrock job plan", "statement": "The requested time hh:mm:ss equals the estimated time, and the estimate is scaled by the ratio of processes whatever the data type.", "quantifier": "every estimated time, number of processes and data type", "why_tests_cant": "all times and options cannot be enumerated", "anchors": ["bin/wrap-redrock: plan"]}
{"id": "C120", "title": "BOSS spectra go each to its own object", "statement": "Reading a list of spPlate files (or their single-exposure frames) gives, for each object found, all the spectra of its fibres and no other; with --targetids or --fiberid only the chosen objects are kept, in the requested order, and a readable input with valid choices succeeds.", "quantifier": "every list of plate files, every fibre table, every list of target ids and fibre ids", "why_tests_cant": "the mapping must hold for every combination of plates and fibres", "anchors": ["py/redrock/external/boss.py: read_spectra"]}
{"id": "C121", "title": "BOSS target ids identify one object", "statement": "Spectra combined under one target id belong to one object: for a single plate the id decodes to its plate, MJD and fibre, and for several plates the combined fibres have the same THING_ID.", "quantifier": "every plate, MJD, fibre number and THING_ID column", "why_tests_cant": "uniqueness concerns all pairs of fibres of all plates", "anchors": ["py/redrock/external/boss.py: platemjdfiber2targetid", "py/redrock/external/boss.py: read_spectra"]}
{"id": "C122", "title": "BOSS spectra are cropped to 3500-10000 Angstrom", "statement": "The pixels kept of a coadded BOSS spectrum are exactly those between 3500 and 10000 Angstrom, up to one pixel at each end.", "quantifier": "every increasing wavelength grid", "why_tests_cant": "the nearest pixel rule must be right for every grid, including those which end within the window", "anchors": ["py/redrock/external/boss.py: read_spectra"]}
{"id": "C123", "title": "BOSS resolution matrix conserves flux", "statement": "The resolution matrix built from the wavelength dispersion is non-negative with unit column sums, so that it conserves the total flux of a model, and is restricted to a band that covers two dispersions.", "quantifier": "every number of pixels, every band width and every dispersion array, over the real numbers", "why_tests_cant": "a normalisation property of all real dispersions", "anchors": ["py/redrock/external/boss.py: read_spectra"]}
{"id": "C124", "title": "BOSS output rows keep their plate", "statement": "Each target has one metadata row, and its BRICKNAME is its plate-MJD.", "quantifier": "every plate, MJD and every list of plates", "why_tests_cant": "the width of a fixed string column matters only for some inputs", "anchors": ["py/redrock/external/boss.py: read_spectra"]}
{"id": "C125", "title": "rrboss and rrdesi target window options", "statement": "--mintarget and -n select the window of targets starting at mintarget, with n targets; inconsistent options are refused before any computation.", "quantifier": "every combination of options, every list of targets", "why_tests_cant": "all combinations of options must be covered", "anchors": ["py/redrock/external/boss.py: rrboss", "py/redrock/external/desi.py: rrdesi"]}
{"id": "C126", "title": "rrdesi and rrboss options mean what is written", "statement": "Each option given on the command line, as separate words or joined by =, sets exactly its own value; the last use of an option wins; the order of different options does not matter; a word that belongs to no option is refused.", "quantifier": "every command line made of correct uses of the options, in every order and number", "why_tests_cant": "the number of command lines is unbounded and the option names share prefixes", "anchors": ["py/redrock/external/desi.py: rrdesi", "py/redrock/external/boss.py: rrboss"]}
{"id": "C127", "title": "Redshift ranges below zero may be given to rrdesi", "statement": "A redshift range that starts below zero, such as the default of --zscan-galaxy, can be given to --zscan-galaxy, --zscan-qso and --zscan-star.", "quantifier": "every range text", "why_tests_cant": "the argument parser decides from the text of the value whether it is an option", "anchors": ["py/redrock/external/desi.py: rrdesi"]}
{"id": "C128", "title": "wrap-redrock launches commands that run", "statement": "Each command launched by wrap-redrock is accepted by the options of rrdesi or rrboss, with the spectra file as input and the files of spectra2outfiles as outputs.", "quantifier": "every spectra file name, output name, number of minima, processes and archetype directory", "why_tests_cant": "two programs must agree for all file names and options", "anchors": ["bin/wrap-redrock: run_redrock", "py/redrock/external/desi.py: rrdesi", "py/redrock/external/boss.py: rrboss"]}
{"id": "C129", "title": "Archetype options of rrdesi and rrboss", "statement": "Archetype fits are per camera, with Legendre terms and a prior, exactly when asked for; --archetypes-no-legendre or a prior <= 0 turns the terms or the prior off and the fit goes on; rrboss accepts --archetypes.", "quantifier": "every combination of the options, every number of cameras, every prior", "why_tests_cant": "all combinations of options and values, together with all fits", "anchors": ["py/redrock/external/desi.py: rrdesi", "py/redrock/external/boss.py: rrboss", "py/redrock/fitz.py: fitz"]}
{"id": "C130", "title": "--max-gpuprocs keeps the first ranks", "statement": "With --gpu --max-gpuprocs m exactly the first min(m, size) MPI ranks go on, with the same numbers in the new communicator; there is always one rank left to write the outputs.", "quantifier": "every number of ranks and every m", "why_tests_cant": "all numbers of ranks and limits", "anchors": ["py/redrock/external/desi.py: rrdesi"]}
{"id": "C131", "title": "rrdesi writes the requested outputs", "statement": "A run that ends without error has written exactly the requested outputs, and accepted combinations of --details, --outfile and --model lead to a run without error.", "quantifier": "every combination of output options, every number of targets", "why_tests_cant": "all combinations, after all the computations", "anchors": ["py/redrock/external/desi.py: rrdesi", "py/redrock/targets.py: DistTargets.eval_models"]}
{"id": "C132", "title": "Moving through the fits in rrplot", "statement": "Whatever keys are pressed, the window shows the fit (target, znum) the keys lead to: right/left go round the fits of the target, up/down step through the targets that have fits and return to the best fit; every fit can be reached; no key raises.", "quantifier": "every list of targets, every table of fits numbered 0..n-1 and every history of keys", "why_tests_cant": "the state depends on the whole history of keys", "anchors": ["py/redrock/plotspec.py: PlotSpec.__init__, _onkeypress, plot"]}
{"id": "C133", "title": "The model drawn is the model fitted", "statement": "The curve drawn over a spectrum is the fitted model (template times coefficients at the redshift, resolution applied), with the pixels of zero weight left out, and the flux is drawn as read.", "quantifier": "every fit, template, spectrum and redshift", "why_tests_cant": "a factor that is 1 at redshift 0 is visible only for other redshifts", "anchors": ["py/redrock/plotspec.py: PlotSpec.plot", "py/redrock/templates.py: Template.eval"]}
{"id": "C134", "title": "ZWARN label", "statement": "The label lists exactly the names of the set ZWARN bits, in order of the bits; ZWARN=0 is shown exactly for 0; two different masks have different labels.", "quantifier": "every ZWARN value", "why_tests_cant": "there are 2^20 masks of documented bits, and any integer can be read from a file", "anchors": ["py/redrock/zwarning.py: ZWarningMask.flags", "py/redrock/plotspec.py: PlotSpec.plot"]}
{"id": "C135", "title": "Limits of the spectrum panel", "statement": "The vertical limits are a proper interval that contains 0, the labels and the drawn model.", "quantifier": "every target, fit and spectrum, after every key", "why_tests_cant": "percentiles and NaN interact only for some masks", "anchors": ["py/redrock/plotspec.py: PlotSpec._onkeypress, PlotSpec.plot"]}
{"id": "C136", "title": "chi2 panel", "statement": "The chi2 curve of every scanned type of the target is drawn, with and without penalty, and every fit of the target is marked; the true redshift, if known, is that of the target.", "quantifier": "every scan and table of fits", "why_tests_cant": "depends on the names of the scanned templates", "anchors": ["py/redrock/plotspec.py: PlotSpec._onkeypress, PlotSpec.plot"]}
{"id": "C137", "title": "rrplot inputs", "statement": "rrplot shows the targets of all the given files; the template (or archetype) of each fit is found by its type and subtype, and archetype fits are drawn.", "quantifier": "every list of files, templates and archetype fits", "why_tests_cant": "which dictionary key a name maps to is a statement about all names", "anchors": ["bin/rrplot", "py/redrock/plotspec.py: PlotSpec.plot"]}
{"id": "C138", "title": "A target does not depend on its neighbours", "statement": "In a whole run (template data, coarse scan, refinement, table of results), the rows of a target are the same, up to padding of the coefficients, as in a run of that target alone or with any other targets; the run succeeds exactly when the run of every single target succeeds; the table lists the targets in the order given. (Distinct target ids; spectra with the same wavelength hash have the same wavelengths.)", "quantifier": "every list of templates, every list of targets, every solver", "why_tests_cant": "the data of all targets share dictionaries keyed by wavelength hash, target id and template name; only some mixtures of grids collide", "anchors": ["py/redrock/zscan.py: calc_zchi2_targets", "py/redrock/fitz.py: fitz", "py/redrock/zfind.py: zfind", "py/redrock/templates.py: DistTemplate"]}
{"id": "C139", "title": "Where a row of the table comes from", "statement": "Every row of a run belongs to one target and one template: it names them, its redshift lies in the redshift range of the template, npixels and ncoeff are those of the target and template, the flags NODATA and LITTLE_COVERAGE say exactly what they should, and unless BAD_MINFIT is set the coefficients are the best weighted least-squares coefficients of that template at the redshift of the row. The redshift and chi2 of a row are read off the chi2 curve of its template for its target: between the neighbours of a dip of the coarse scan, the minimum of the parabola through the three points around the smallest value of an equally spaced fine scan, or, flagged BAD_MINFIT, that smallest point. The best fit of every template survives as a row of its type that ranks no worse.", "quantifier": "every run with linear (PCA) templates", "why_tests_cant": "a swapped index between scan, refinement and table shows up only for some orders of names and minima", "anchors": ["py/redrock/zscan.py: calc_zchi2_targets", "py/redrock/fitz.py: fitz", "py/redrock/zfind.py: zfind", "py/redrock/templates.py: DistTemplate"]}
{"id": "C140", "title": "The order of the templates does not matter", "statement": "Giving the templates in another order gives the same table.", "quantifier": "every permutation of the templates, every list of targets", "why_tests_cant": "dictionary orders and sorts interact with ties", "anchors": ["py/redrock/zscan.py: calc_zchi2_targets", "py/redrock/fitz.py: fitz", "py/redrock/zfind.py: zfind", "py/redrock/templates.py: DistTemplate"]}
{"id": "C141", "title": "Targets without data", "statement": "A target whose pixels all have zero weight gets rows with npixels 0, the flag NODATA and zero coefficients, and does not disturb the run.", "quantifier": "every run with such a target, every template and solver", "why_tests_cant": "the sentinel chi2 passes through minimum search, parabola fit and sort", "anchors": ["py/redrock/zscan.py: calc_zchi2_targets", "py/redrock/fitz.py: fitz", "py/redrock/zfind.py: zfind", "py/redrock/templates.py: DistTemplate"]}
{"id": "C142", "title": "Two templates of the same name", "statement": "If two templates have the same full type the last one given is used and the earlier ones have no influence on the table, except that a different number of redshifts stops the run.", "quantifier": "every list of templates with repeated full types", "why_tests_cant": "nobody writes a test with a repeated template", "anchors": ["py/redrock/zscan.py: calc_zchi2_targets", "py/redrock/fitz.py: fitz", "py/redrock/zfind.py: zfind", "py/redrock/templates.py: DistTemplate"]}
{"id": "C143", "title": "Refinement: all redshifts at once or one by one", "statement": "chi2 (with the [OII] penalty) of the redshifts of the refined scan computed together is what each redshift gives on its own, failures included.", "quantifier": "every template, target and list of redshifts", "why_tests_cant": "the batch shares arrays indexed by redshift", "anchors": ["py/redrock/fitz.py: fitz", "py/redrock/rebin.py: rebin_template", "py/redrock/zscan.py: calc_zchi2_batch"]}
{"id": "C144", "title": "A run with MPI gives the table of the serial run", "statement": "For targets with distinct ids handed to the ranks in any way (in particular by DistTargetsCopy), the whole run with MPI - wavelength grids merged over the ranks, templates cut into redshift slices, slices passed round the ring, refinement of the local targets, results sent to rank 0 in batches - ends with exactly the table the serial run gives for the same targets in the order of all_target_ids, and gives a table only when the serial run does. This holds for every interleaving of the messages, eager or blocking sends, and every batch size, provided there are no more ranks than redshifts of any template; with more ranks there is no table.", "quantifier": "every number of ranks, distribution of targets, templates, message schedule of ring and gather, batch size, solver", "why_tests_cant": "schedules of messages and ways to split targets and redshifts are unbounded; a wrong slice order or key shows only for some of them", "anchors": ["py/redrock/zscan.py: calc_zchi2_targets", "py/redrock/templates.py: DistTemplate.cycle", "py/redrock/targets.py: DistTargets.wavegrids", "py/redrock/zfind.py: zfind"]}
{"id": "C145", "title": "A run succeeds exactly when the templates reach over the spectra", "statement": "For templates and spectra in order (increasing wavelengths, arrays of matching sizes, redshifts above -1 in order, at least two of them, distinct template and target names), a serial run ends with a table if and only if every template, at every redshift of its grid, reaches over all the wavelength bins of every spectrum. Nothing the data contain (any flux, any weights, all pixels masked, singular fits, any best redshift) makes it raise, and every target then has rows.", "quantifier": "every set of such templates and targets, every solver that returns a vector of the right size or raises LinAlgError", "why_tests_cant": "the refinement evaluates templates at redshifts that depend on the data; that none of them makes it raise is a statement about all data", "anchors": ["py/redrock/zfind.py: zfind", "py/redrock/fitz.py: fitz", "py/redrock/rebin.py: rebin_template", "py/redrock/zscan.py: calc_zchi2_batch"]}
{"id": "C146", "title": "A scan read from a details file replaces the scan it was written from", "statement": "Starting zfind from the chi2 scan of a details file (chi2_scan) gives the fits of the run that wrote the file, when the numbers survive the float32 of the file: for any subset and order of its targets and any order of its templates, the table is that of a run that scans again with the templates in the order of their names; with the templates already in that order it is the very same table, and without ties between templates the same rows in any order. The file must hold every target and exactly the templates of the run (otherwise KeyError), but the redshifts in it are never compared with those of the templates.", "quantifier": "every set of templates and targets, every scan, every fit table written beside it, every selection and order, every prior of the first run", "why_tests_cant": "it relates two runs through a file for all data, orders and selections", "anchors": ["py/redrock/zfind.py: zfind", "py/redrock/results.py: write_zscan", "py/redrock/results.py: read_zscan_redrock"]}
{"id": "C147", "title": "A scan read from a file cannot be used with more than one MPI rank", "statement": "With MPI every rank reads the whole scan and fits only its own targets; rank 0 then merges the dictionaries of the ranks in order, so that for every target the entry of the last rank wins. If all targets are with the last rank the table is the serial one; as soon as one target is on another rank the merged entry has no fit and no table is ever returned.", "quantifier": "every number of ranks, distribution of targets, scan, batch size of the messages and schedule of the gather", "why_tests_cant": "it concerns all schedules and distributions of an MPI run", "anchors": ["py/redrock/zfind.py: zfind", "py/redrock/results.py: write_zscan", "py/redrock/results.py: read_zscan_redrock", "py/redrock/zfind.py: zfind (gather)"]}
{"id": "C148", "title": "A redshift prior counts once", "statement": "A prior is added to the scan at its own redshifts and to nothing else, and the scan kept in the details file contains it. So a run started from that file without a prior repeats the first run (C146), while passing the same prior again adds it twice, which can change the redshift found.", "quantifier": "every prior with finite values, every set of templates and targets", "why_tests_cant": "the statement is about all priors and scans, through a file", "anchors": ["py/redrock/zfind.py: zfind", "py/redrock/results.py: write_zscan", "py/redrock/results.py: read_zscan_redrock", "py/redrock/priors.py: Priors"]}
{"id": "C149", "title": "The columns of a target stay together", "statement": "When zfind stacks the fits of the templates of one target into columns and sorts them, every fit keeps its own values in every column. Columns every template has hold each fit's own row at its own place; in archetype mode a template without archetypes fills the PCA columns with its own coefficients and types; Legendre coefficients are those of the fit, or zeros for a template without archetypes. The last holds only if the templates without archetypes found as many minima as the first template: with fewer, the Legendre coefficients of later templates move to other fits without any error; with more, the run raises IndexError. PCA coefficients are cut to the number of the first template, and if the first template has no archetypes the archetype columns of the others are dropped.", "quantifier": "every number of templates, minima per template, widths and cell values, every order produced by the sort", "why_tests_cant": "the failures need particular numbers of minima per template; alignment must hold for all of them", "anchors": ["py/redrock/zfind.py: zfind (530-552)", "py/redrock/zfind.py: sort_dict_by_cols", "py/redrock/utils.py: extra_columns_in_archetype_mode"]}
{"id": "C150", "title": "Metadata columns carry the metadata of their own target", "statement": "The metadata columns of the fit table are the metadata keys of the target of the first row that declare no data type, in alphabetical order, and every row holds the value of its own target; the call succeeds exactly when no such key is the name of an existing column, every target of the table has all those keys, and the values convert. Keys that only later targets have are dropped, keys they lack raise KeyError, and a key that merely contains _datatype is taken as a type declaration and is no column.", "quantifier": "every table, every metadata dictionaries, every conversion", "why_tests_cant": "all metadata dictionaries and row orders", "anchors": ["py/redrock/zfind.py: zfind (636-672)", "py/redrock/targets.py: Target"]}
{"id": "C151", "title": "A run with worker processes gives the serial table", "statement": "zfind with mp_procs > 1 gives the redshift table of the serial run on the same targets and templates, in whatever order the processes work and answer. This holds when the targets come in the order of decreasing number of spectra (in particular when all have the same number). Otherwise it does not: every target gets the coarse chi2 scan of the target at its place in the id list of its process, and the final table is exactly that of a serial run with the scans swapped in this way: other redshifts, other warnings, other numbers of rows, no error. Without targets the run raises ZeroDivisionError.", "quantifier": "every list of targets and templates, number of processes, interleaving of the processes and arrival order of the results", "why_tests_cant": "all interleavings; a swap needs targets with different numbers of spectra in one process and shows up as wrong redshifts only", "anchors": ["py/redrock/zscan.py: calc_zchi2_targets (1037-1103)", "py/redrock/zscan.py: _mp_calc_zchi2", "py/redrock/zfind.py: zfind (283-399)", "py/redrock/zfind.py: _mp_fitz", "py/redrock/targets.py: distribute_targets"]}
{"id": "C152", "title": "rrdesi: a target's rows depend on its own data only", "statement": "From the input files to the redshift table: whatever other targets, files and selections a run of rrdesi has, a target with the same spectra (all rows of the target in the kept files, in order), the same fibermap entries, the same templates and the same processing options gets the same rows in the table, warning bits included. In particular, when the run of all targets succeeds then so does the run with --targetids for any of the targets, and gives the same rows for them.", "quantifier": "every set of input files, targets, selections (--targetids, --mintarget, -n), options and templates", "why_tests_cant": "all pairs of runs with other neighbours; a leak between targets (shared arrays, shared grids, reused rows) shows only for particular neighbours", "anchors": ["py/redrock/external/desi.py: DistTargetsDESI.__init__", "py/redrock/external/desi.py: rrdesi (1000-1160)", "py/redrock/targets.py: Target.compute_coadd", "py/redrock/zfind.py: zfind"]}
{"id": "C153", "title": "REDSHIFTS has one row per target, in step with FIBERMAP", "statement": "The table REDSHIFTS written by rrdesi has exactly one row per selected target, in the order of first appearance in the selections of the files. For one file with distinct targets and without --targetids it is row by row parallel to the table FIBERMAP. It is not parallel with --targetids in another order than the file, nor when a target has spectra in two input files (two FIBERMAP rows, one REDSHIFTS row).", "quantifier": "every set of input files, selections, options and templates", "why_tests_cant": "all selections and orders; the tables are joined by position downstream", "anchors": ["py/redrock/external/desi.py: DistTargetsDESI.__init__ (348-460, 653-662)", "py/redrock/external/desi.py: rrdesi (1087-1160)", "py/redrock/external/desi.py: write_zbest"]}
{"id": "C154", "title": "A finished rrdesi run has spectra and rows for every target on its list", "statement": "When rrdesi ends, every target on its list has at least one spectrum in the files and at least one row in the table. Consequently one id in --targetids that is in none of the files stops the run for all other targets instead of being skipped or reported.", "quantifier": "every set of input files, selections, options and templates", "why_tests_cant": "all selections; the failure appears far from the cause, in the scan", "anchors": ["py/redrock/external/desi.py: DistTargetsDESI.__init__ (348-392)", "py/redrock/external/desi.py: rrdesi", "py/redrock/zscan.py: calc_zchi2_targets"]}
{"id": "C155", "title": "Dead pixels do not influence the result", "statement": "The redshift table of rrdesi does not depend on what is stored in dead pixels: two sets of input files that differ only in pixels that are masked, have a non-finite flux or inverse variance, a flux significantly below zero (--negflux-nsig) or an inverse variance of zero give exactly the same table, with or without coadding, cosmic-ray masking and sky masking.", "quantifier": "every pair of input files with the same live pixels, every selection, option and template set", "why_tests_cant": "all contents of all dead pixels; a leak (unweighted mean, interpolation over bad pixels, gradient) changes redshifts only for particular garbage values", "anchors": ["py/redrock/external/desi.py: DistTargetsDESI.__init__ (528-592)", "py/redrock/targets.py: Target.compute_coadd", "py/redrock/zscan.py: spectral_data, _zchi2_batch", "py/redrock/fitz.py: fitz", "py/redrock/external/desi.py: rrdesi (1008-1014)"]}
{"id": "C156", "title": "Pixels with an incomplete resolution matrix have no weight", "statement": "A pixel whose row of the resolution matrix sums to less than 0.99 has zero weight in the scan and the fit. This holds for the coadded spectra of rrdesi. It does not hold with --allspec: there the resolution is attached after the constructor that does the masking, and the flux of such pixels changes the results.", "quantifier": "every input file, target, option and pixel", "why_tests_cant": "all resolution matrices; the mask is applied in a constructor that sees no matrix in one of the two modes", "anchors": ["py/redrock/targets.py: Spectrum.__init__ (55-62)", "py/redrock/targets.py: Target.compute_coadd", "py/redrock/external/desi.py: DistTargetsDESI.__init__ (496-507, 631-645)"]}
{"id": "C157", "title": "rrdesi gives the same table with any number of MPI ranks", "statement": "From the same input files and options, rrdesi under MPI with any number of (CPU) ranks, up to the number of redshifts of each template, gives on rank 0 exactly the table that rrdesi without MPI gives, for every schedule of the messages of the ring and of the gather and every gather batch size; every schedule can be completed, and no other table can come out.", "quantifier": "every set of input files, selection, option set, template set, number of ranks, blocking or eager sends, order of messages, batch size", "why_tests_cant": "all schedules and rank counts; targets are redistributed between ranks in a different order than they are read", "anchors": ["py/redrock/external/desi.py: DistTargetsDESI.__init__ (462-490, 494-662)", "py/redrock/external/desi.py: rrdesi", "py/redrock/zfind.py: zfind", "py/redrock/zscan.py: calc_zchi2_targets", "py/redrock/templates.py: DistTemplate.cycle"]}
{"id": "C158", "title": "The units of flux do not matter", "statement": "Spectra given in other units (flux times c > 0, inverse variance divided by c^2) give the same redshift table, with the coefficients multiplied by c and everything else (redshifts, errors, chi2, deltachi2, warnings, order) unchanged; also from the input files of rrdesi. This holds for templates without the penalty for negative [OII]. It does not hold for PCA galaxy templates: the penalty is a flux but is added to a chi2, and a change of units changes the best redshift.", "quantifier": "every set of targets or input files, every template set, every factor c > 0", "why_tests_cant": "all spectra, factors and template sets; a dimensional error shows only where the term with the wrong units decides between two redshifts", "anchors": ["py/redrock/zscan.py: calc_negOII_penalty, calc_zchi2_batch, calc_zchi2, solve_matrices", "py/redrock/fitz.py: fitz", "py/redrock/zfind.py: zfind", "py/redrock/targets.py: Target.compute_coadd", "py/redrock/external/desi.py: DistTargetsDESI.__init__", "py/redrock/external/desi.py: rrdesi"]}
{"id": "C159", "title": "MPI ranks meet in the same collective calls", "statement": "In an rrdesi or rrboss run with MPI in which nothing fails, all ranks make the same collective calls in the same order, whatever the options, input files, number of ranks, GPUs and targets per rank: at every moment of every execution some rank is sure to move, every execution is finite, and at its end every rank has returned.", "quantifier": "every number of ranks, all options and input files, every interleaving of the ranks and both buffered and synchronising MPI libraries", "why_tests_cant": "interleavings and combinations of ranks, GPUs and options are unbounded; a hang shows only on the cluster configuration that has it", "anchors": ["py/redrock/external/desi.py: rrdesi, DistTargetsDESI", "py/redrock/external/boss.py: rrboss", "py/redrock/templates.py: load_dist_templates, DistTemplate.cycle", "py/redrock/zscan.py: calc_zchi2_targets", "py/redrock/zfind.py: zfind", "py/redrock/targets.py: DistTargetsCopy, DistTargets.wavegrids", "py/redrock/utils.py: elapsed, getGPUCountMPI"]}
{"id": "C160", "title": "A failing MPI rank ends the run", "statement": "If some rank of an rrdesi or rrboss run raises an exception, at any point and on any rank, the whole job ends; no rank is left waiting for ever.", "quantifier": "every number of ranks, every failing line and rank (also several), every interleaving", "why_tests_cant": "failure points times interleavings; a test cannot observe waiting for ever", "anchors": ["py/redrock/external/desi.py: rrdesi (try/except, --no-mpi-abort, argument checks)", "py/redrock/external/boss.py: rrboss"]}
{"id": "C161", "title": "The order of spectra and of input files does not matter", "statement": "A run gives the same table whatever the order of the spectra within each target. rrdesi gives every target the same rows whatever the order in which its input files are listed (and its bands and rows appear in them), and succeeds in one order exactly when it succeeds in the other.", "quantifier": "all sound templates and files, all permutations of spectra, files, bands and rows, all options", "why_tests_cant": "permutations of unboundedly many files and spectra", "anchors": ["py/redrock/external/desi.py: rrdesi, DistTargetsDESI", "py/redrock/targets.py: Target.compute_coadd, DistTargets.wavegrids", "py/redrock/zscan.py: spectral_data, dot_product_sparse_one, calc_zchi2_batch", "py/redrock/fitz.py: fitz"]}
{"id": "C162", "title": "Double-precision chi2 is never negative, and is a number", "statement": "In IEEE double precision, whatever the order in which numpy, BLAS or the GPU adds the pixels (and whether products are fused), chi2 computed with non-negative weights is never negative; with finite fluxes and models it is never NaN.", "quantifier": "all lists of doubles (any size, also infinities and NaN for the sign), all summation orders with or without fused multiply-add", "why_tests_cant": "rounding, overflow and summation order vary with inputs and hardware", "anchors": ["py/redrock/zscan.py: calc_zchi2_one, calc_zchi2_batch, _zchi2_one, solve_matrices"]}
{"id": "C163", "title": "In double precision masked pixels have no influence at all", "statement": "In double precision, changing flux or model at pixels of weight zero does not change one bit of chi2, for any order of summation.", "quantifier": "all finite fluxes, models, weights and summation orders", "why_tests_cant": "bitwise equality for all floats and orders", "anchors": ["py/redrock/zscan.py: calc_zchi2_one, calc_zchi2_batch, _zchi2_one, solve_matrices"]}
{"id": "C164", "title": "Double-precision chi2 is the exact chi2 up to a bounded relative error", "statement": "The double-precision chi2 differs from the exact chi2 of the same doubles by at most a relative 2 (depth+3) 2^-53 plus an underflow term, for every order of summation; results for two orders (or CPU and GPU) need not be bitwise equal.", "quantifier": "all fluxes and models up to 2^510, weights whose result is finite, all summation orders", "why_tests_cant": "error bounds over all inputs and orders", "anchors": ["py/redrock/zscan.py: calc_zchi2_one, calc_zchi2_batch, _zchi2_one, solve_matrices"]}
{"id": "C165", "title": "Double-precision deltachi2", "statement": "In double precision the DELTACHI2 of a candidate is the rounded difference to the closest eligible later candidate: never negative, at most the rounded difference to any eligible candidate, and zero exactly if no later candidate is eligible or an eligible one has the same chi2 (a tiny difference is never rounded away).", "quantifier": "all lists of candidates sorted by chi2, finite chi2, any redshifts (also NaN or infinite velocities)", "why_tests_cant": "all doubles, including gradual underflow", "anchors": ["py/redrock/zfind.py: calc_deltachi2", "py/redrock/fitz.py: get_dv"]}
{"id": "C166", "title": "SMALL_DELTA_CHI2 in double precision", "statement": "In double precision the flag SMALL_DELTA_CHI2 is raised only if a distinct eligible candidate lies strictly within 9 of the chi2 (in exact arithmetic), and conversely.", "quantifier": "all candidates with finite non-negative chi2", "why_tests_cant": "boundary behaviour of rounding for all doubles", "anchors": ["py/redrock/zfind.py: calc_deltachi2, zfind"]}
{"id": "C167", "title": "Reduced wavelengths lie in [-1,1]", "statement": "In double precision the reduced wavelengths that Legendre polynomials are evaluated at lie in [-1,1], the smallest is exactly -1, the largest exactly 1, and they are ordered as the wavelengths.", "quantifier": "all wavelength arrays with at least two different values up to 2^1000", "why_tests_cant": "rounding for all doubles", "anchors": ["py/redrock/utils.py: reduced_wavelength"]}
{"id": "C168", "title": "Bin edges from bin centers in double precision", "statement": "centers2edges returns one edge more than centers with every center between its two edges, and strictly increasing edges.", "quantifier": "all strictly increasing arrays of at least two doubles up to 2^1000", "why_tests_cant": "rounding for all doubles", "anchors": ["py/redrock/rebin.py: centers2edges"]}
{"id": "C169", "title": "The fine redshift grid stays in its interval", "statement": "The grid of redshifts on which the minimum of a candidate is refined (numpy linspace) has the requested length, starts at the lower and ends at the upper limit, is sorted and never leaves the interval, in double precision.", "quantifier": "all limits up to 2^900 and counts up to 2^20", "why_tests_cant": "rounding for all doubles", "anchors": ["py/redrock/fitz.py: fitz"]}
{"id": "C170", "title": "Rebinning in double precision: the range check decides", "statement": "trapz_rebin in double precision either raises ValueError, exactly if for some redshift the rounded shifted grid does not cover the bins, or returns one value per bin and redshift; it never reads outside its arrays and never divides by zero.", "quantifier": "all grids up to 2^500 with non-negative ends, all redshifts up to 2^499 in size, all strictly increasing finite edges", "why_tests_cant": "unbounded arrays of doubles; the checks use only the largest and smallest redshift", "anchors": ["py/redrock/rebin.py: trapz_rebin, _trapz_rebin_1d, _trapz_rebin_batch"]}
{"id": "C171", "title": "Rebinning a non-negative spectrum in double precision", "statement": "Rebinning a spectrum with no negative sample gives no negative value, in double precision.", "quantifier": "all spectra, edges and redshifts accepted by the range check", "why_tests_cant": "rounding for all doubles", "anchors": ["py/redrock/rebin.py: _trapz_rebin_1d"]}
{"id": "C172", "title": "Coadding in double precision", "statement": "In double precision the coadded inverse variance is at least that of every exposure, zero exactly if all are masked, and accurate; the coadded flux is the exact weighted mean up to a bounded error; coadding one exposure returns that exposure.", "quantifier": "all non-negative inverse variances, all fluxes, all summation orders", "why_tests_cant": "rounding for all doubles", "anchors": ["py/redrock/targets.py: Target.compute_coadd"]}
{"id": "C173", "title": "A flat spectrum stays flat in double precision", "statement": "Rebinning a spectrum with one positive value everywhere gives, in every bin and at every redshift, that value up to a relative error of 2(n+9) 2^-53 for n samples.", "quantifier": "all non-decreasing wavelength arrays from 1 to 2^50 (up to 2^50-10 samples), all strictly increasing edges in that range, all redshifts from -1/2 to 2^49, all levels from 2^-100 to 2^100", "why_tests_cant": "accumulated rounding over arrays of any length", "anchors": ["py/redrock/rebin.py: trapz_rebin, _trapz_rebin_1d"]}
{"id": "C174", "title": "Velocity differences in double precision", "statement": "The velocity difference used to tell candidates apart is c (z - zref)/(1 + zref) in km/s up to a relative error of 8 2^-53.", "quantifier": "all redshifts up to 2^100 with zref >= -1/2, equal or at least 2^-900 apart", "why_tests_cant": "rounding for all doubles", "anchors": ["py/redrock/fitz.py: get_dv"]}
{"id": "C175", "title": "A run split into windows gives the table of one run", "statement": "Runs of rrdesi over windows (--mintarget, -n) that together cover the targets once give, put one after the other, the table of the run of all targets, row by row.", "quantifier": "all input files, options, templates, divisions into windows", "why_tests_cant": "relates unboundedly many runs over all inputs", "anchors": ["py/redrock/external/desi.py: DistTargetsDESI.__init__, rrdesi", "py/redrock/zfind.py: zfind"]}
{"id": "C176", "title": "Spectra without noise are recovered", "statement": "If the pixels of a target are exactly a template at one redshift of its grid (and at no other), the results hold a row of that template within one grid step of that redshift, with a good fit, ranked first.", "quantifier": "all templates, targets, coefficients, resolution matrices, redshift grids, solvers", "why_tests_cant": "the claim is about every template, redshift and set of coefficients", "anchors": ["py/redrock/zfind.py: zfind", "py/redrock/zscan.py: calc_zchi2_batch", "py/redrock/fitz.py: fitz, minfit"]}
{"id": "C177", "title": "Results survive the smaller types of the output files", "statement": "The REDSHIFTS table has the rows of best fits and the details file every fit; the columns stored in single precision are the nearest such numbers, keep their order, and DELTACHI2 agrees with the SMALL_DELTA_CHI2 flag; integers and SUBTYPE are unchanged.", "quantifier": "all tables, all values of the columns", "why_tests_cant": "rounding near the threshold, overflow and wrap-around need particular values", "anchors": ["py/redrock/external/desi.py: rrdesi", "py/redrock/results.py: write_zscan"]}
{"id": "C178", "title": "Reported redshift, error and chi2 in double precision", "statement": "In double precision every row's redshift lies inside its fine scan; an unflagged row has a finite redshift strictly inside, a positive finite error and a positive finite chi2, and is inside the scanned range; otherwise it is the scan point of smallest chi2 or a flagged vertex.", "quantifier": "all doubles: scans, coefficients returned by the parabola fit, redshift grids", "why_tests_cant": "overflow, underflow, NaN and comparisons with them depend on particular values", "anchors": ["py/redrock/fitz.py: minfit, fitz"]}
{"id": "C179", "title": "After a run every best fit can be rendered", "statement": "After a successful rrdesi run, --model renders every target's best row with the template that produced it: each model is the resolution matrix times the template at the row's redshift times the row's coefficients.", "quantifier": "all templates, targets, spectra, resolution matrices, redshift grids, solvers", "why_tests_cant": "a rendering that fails aborts the job after all the work; it depends on which template wins for each target and at which redshift", "anchors": ["py/redrock/external/desi.py: rrdesi", "py/redrock/targets.py: Target.eval_model, DistTargets.eval_models", "py/redrock/templates.py: Template.eval", "py/redrock/zfind.py: zfind"]}
{"id": "C180", "title": "rrdesi with worker processes writes the table of one process", "statement": "rrdesi --mp N writes the same redshift table (ids, redshifts, coefficients, chi2, flags) as rrdesi with one process on the same files and options, in every schedule of the workers.", "quantifier": "all schedules of the worker processes, numbers of processes, input files, options, templates, grids, solvers", "why_tests_cant": "the workers send their results back in any order and the work is distributed by the number of spectra of the targets, which depends on the cameras in each input file", "anchors": ["py/redrock/external/desi.py: rrdesi, DistTargetsDESI", "py/redrock/zscan.py: calc_zchi2_targets", "py/redrock/zfind.py: zfind", "py/redrock/utils.py: distribute_work"]}
{"id": "C181", "title": "A run with --model writes the models of its redshift table", "statement": "rrdesi --outfile --model writes, for every camera band, one model spectrum per row of REDSHIFTS, in the same order: row i is the best-fit model of row i (its template at its redshift with its coefficients, convolved with the target's resolution; zero for rows without data). The redshift file is the same as without --model.", "quantifier": "all input files, options, templates, targets, spectra, resolution matrices, grids, solvers, fibre statuses", "why_tests_cant": "which rows are rendered with which template, the reset of rows without data, and the order in which targets are read, rendered and written depend on the whole input", "anchors": ["py/redrock/external/desi.py: rrdesi, write_bestmodel", "py/redrock/targets.py: Target.eval_model, DistTargets.eval_models, DistTargets.wavegrids", "py/redrock/zfind.py: zfind", "py/redrock/templates.py: Template.eval"]}
{"id": "C182", "title": "The model file does not depend on MPI", "statement": "rrdesi --model with MPI, any number of ranks and any order of messages, writes the model file of rrdesi without MPI on the same input: the same bands, wavelengths and rows in the order of REDSHIFTS (bands possibly in another order), or no file in both cases.", "quantifier": "all numbers of ranks, message orders, input files, options, templates, grids, solvers", "why_tests_cant": "the targets are spread over the ranks by weight and the gathered models come in the order of the ranks, so the rows must be put in the order of the table again for every distribution", "anchors": ["py/redrock/external/desi.py: rrdesi", "py/redrock/targets.py: DistTargets.eval_models, DistTargets.wavegrids", "py/redrock/external/desi.py: DistTargetsDESI"]}
{"id": "C183", "title": "The fits of a table can be evaluated again", "statement": "For rows of the table written by rrdesi, templates.eval_model with the templates of the run, a wavelength grid and one resolution matrix per row returns one model per row: the matrix times the template of the row's SPECTYPE and SUBTYPE at its Z times its COEFF.", "quantifier": "all runs, subsets and orders of rows, wavelength grids, resolution matrices, templates, solvers", "why_tests_cant": "the table names its template by two strings and stores COEFF padded to the longest template, so the lookup and the cut must work for every choice of templates and every row of every table", "anchors": ["py/redrock/templates.py: eval_model, load_templates, Template.eval", "py/redrock/external/desi.py: rrdesi", "py/redrock/zfind.py: zfind"]}
{"id": "C184", "title": "find_archetypes lists the archetype files of a place", "statement": "find_archetypes returns a named file as it is; for a directory, also one written with environment variables, it returns its rrarchetype-*.fits files in name order, whatever the listing order, under names that open exactly those files; without a place it uses $RR_ARCHETYPE_DIR, else the installed archetypes, else raises an error.", "quantifier": "all directory names, environments, directory contents and listing orders", "why_tests_cant": "names, variables and directory contents are arbitrary strings", "anchors": ["py/redrock/archetypes.py: find_archetypes, All_archetypes, Archetype.__init__"]}
{"id": "C185", "title": "The templates of a redshift file can be loaded from its header", "statement": "load_templates_from_header on the header of a redshift file and a directory that holds the template files under their base names returns the templates of the run, in order; if the file of one of them is missing it raises an error.", "quantifier": "all template lists, file systems, directories, other header cards and command line options", "why_tests_cant": "the header names the files by their base names and the templates depend on options the header may not record, so this must hold for every list of files and every run", "anchors": ["py/redrock/templates.py: load_templates_from_header, header2templatefiles, load_templates, Template.__init__", "py/redrock/external/desi.py: _get_header"]}
{"id": "C186", "title": "Which archetype file of a type is used", "statement": "All_archetypes of a place keeps for every type the archetypes of one file: the one of that type whose name is last in name order, which is the latest version; types without a file are absent and an unreadable file stops the call.", "quantifier": "all places, environments, directory contents, listing orders and file contents", "why_tests_cant": "the winner depends on the set of names and on the types inside the files", "anchors": ["py/redrock/archetypes.py: All_archetypes, find_archetypes"]}
{"id": "C187", "title": "What rrdesi --archetypes accepts", "statement": "rrdesi goes on with --archetypes exactly when the place is a readable archetype file or a readable directory with archetype files, all of which can be loaded, and it uses the archetypes that All_archetypes gives for it; otherwise it stops.", "quantifier": "all paths, file system states and file contents", "why_tests_cant": "the checks look at the name and the directory entries, the loading at the contents; they must agree for every combination", "anchors": ["py/redrock/external/desi.py: rrdesi (--archetypes checks)", "py/redrock/archetypes.py: All_archetypes, find_archetypes"]}
{"id": "C188", "title": "Byte order of template files", "statement": "The numbers of a template file (basis vectors, redshifts) are read with the values they have in the file whatever byte order they are stored in and on whatever host, also by code that ignores the byte order of an array; arrays that are native already are passed on without a copy.", "quantifier": "all arrays, item sizes, byte orders of file and host, and number formats", "why_tests_cant": "test files all come in one byte order and tests run on one kind of host", "anchors": ["py/redrock/utils.py: native_endian", "py/redrock/templates.py: Template.__init__"]}
{"id": "C189", "title": "Template names in the details file", "statement": "For every set of distinct template names, a details file written by write_zscan is read back by read_zscan with the scan of every template under its name and the fits of every target.", "quantifier": "all template names, targets and contents", "why_tests_cant": "the names become paths inside the HDF5 file; tests use a few names", "anchors": ["py/redrock/results.py: write_zscan, read_zscan, read_zscan_redrock, read_zfit"]}
{"id": "C190", "title": "Readers and other runs while an output file is written", "statement": "Whoever reads the output file, at any time and however slowly, while runs write it anew, reads a complete file: the one that was there before or all that one run had to write; a complete file is under the output name at every moment, and a run that ends puts its own there.", "quantifier": "all interleavings of any number of runs, readers and crashes, all contents", "why_tests_cant": "interleavings and crash points are unbounded", "anchors": ["py/redrock/external/desi.py: write_zbest, write_bestmodel", "py/redrock/external/boss.py: write_zbest", "py/redrock/results.py: write_zscan"]}
