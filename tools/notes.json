{
 "C01": {
  "status": "proved",
  "note": "Full ranking spec (permutation, order incl. NaN/inf, stability, no helper column) for every rectangular table with integer zwarn and float chi2; the extra refuted theorem records that the helper column is left behind when chi2 is missing (error path)."
 },
 "C02": {
  "note": "Permutation/lexicographic/stable proved; KeyError and ValueError leave the dict untouched; refuted for ragged dicts (IndexError after partial update)."
 },
 "C07": {
  "note": "Per-type content, ranking and survival of the best row proved; 'order unchanged' refuted for exact chi2 ties across types (re-sort after alphabetical regrouping)."
 },
 "C09": {
  "note": "Table-assembly part here; the fit flags are covered under C30."
 },
 "C11": {
  "note": "Partial: equivalence with sign proved except for a coefficient of exactly 0 when all spectypes have archetypes (<= versus <), which is refuted."
 },
 "C13": {
  "note": "Proved for every successful call, raising proved when a target has no minima; refuted: a target lacking minima only for its widest template makes vstack of all tables fail."
 },
 "C18": {
  "note": ""
 },
 "C22": {
  "note": "Refuted in general: results are stored by position in mpdist[i] (weight order) while they were computed in the order of targets.local(); three targets with 1, 3, 5 spectra on two processes get swapped chi2 in every complete run. Proved when the local targets are in order of decreasing number of spectra."
 },
 "C24": {
  "note": "Proved when there are at least as many redshifts as ranks; refuted otherwise (empty slice, ValueError on max of empty array)."
 },
 "C26": {
  "note": "Refuted: the worker prints its traceback and puts nothing, so the parent waits on the queue for ever in every schedule. Without failures termination is proved for all schedules."
 },
 "C79": {
  "note": "Holds with MPI; refuted without (local() in input order, ids in weight order); holds serially when the input is already in weight order."
 },
 "C28": {
  "note": "Vertex, minimum, curvature and absence of warning in Q for any polyfit that is the exact least-squares fit on >=3 points; 1/sqrt(curvature)=width over the reals."
 },
 "C31": {
  "note": "Refuted: the template coefficients are computed at the parabola vertex, before the fallback to the scan minimum, and chi2 of a good fit is the vertex value, not the chi2 at that redshift. Proved: the coefficients of an unflagged fit are those at its redshift; archetype fits are consistent."
 },
 "C32": {
  "note": "Refuted without prior_sigma when n_nearest is used (prior.copy() of None, AttributeError); proved total when a prior is given."
 },
 "C33": {
  "note": "get_dv facts proved; the merge test is not symmetric (refuted), but consistent up to a factor 1+mvd/(c-mvd)."
 },
 "C34": {
  "note": "Missing targets, own row, shape, gaussian (Q) and lorentzien (R) proved; a zero width yields NaN at the centre (refuted)."
 },
 "C35": {
  "note": "Finite points are inside the window (proved for every increasing grid); every returned minimum inside when the window lies strictly inside the grid; at a grid edge the first in-window point is overwritten by inf (refuted)."
 },
 "C40": {
  "note": "Outside ranges raise, inside ranges succeed and terminate; refuted: the documented ValueError for x and y of different lengths is not raised, and a caller-supplied xmin/xmax bypasses the guard."
 },
 "C41": {
  "note": "GPU result equals the CPU one when the last edge is strictly inside the template range; refuted when the last edge equals the last sample (the kernel reads past the end)."
 },
 "C83": {
  "note": "Refuted: the batched guard compares different extremes from the scalar one, so some inputs accepted by the CPU path are rejected and vice versa."
 },
 "C44": {
  "note": "Proved for every replaced finite value; refuted for NaN/inf (0*NaN poisons the right-hand side and chi2)."
 },
 "C47": {
  "note": "Feasibility proved. The solver minimises |Mx-y| on the normal equations, not chi2: the constrained optimum is proved when the unconstrained optimum is feasible, and for a single template; refuted in general by concrete 2x2 systems (for every solver meeting its contract)."
 },
 "C48": {
  "note": "Column support, independence after resolution and coefficient layout proved for distinct bands; with a repeated band the fitted coefficients are lost (refuted)."
 },
 "C51": {
  "note": "Proved without cosmic rejection for all permutations (same spectra up to order of keys, identical list when the key order is kept); with cosmic rejection refuted: on ties the first exposure is dropped."
 },
 "C52": {
  "note": "Flux kept and exact new ivar proved for every spectrum; identity proved when no pixel is masked; refuted with masked pixels: the resolution columns of masked pixels are zeroed, neighbours fall below 0.99 and lose their weight, again at each re-coadd."
 },
 "C53": {
  "note": "Refuted: np.sum(gradivar) has no axis, so a sharp feature in identical exposures is masked. Proved: constant exposures are never masked, at most one exposure per pixel is dropped and nothing else changes."
 },
 "C84": {
  "note": "Proved without coadd and with one exposure per wavehash; refuted for several exposures: bands keeps one entry per exposure."
 },
 "C85": {
  "note": "Proved when exposures share the resolution, and when each exposure has constant weights; refuted in general (columns are weighted by ivar instead of rows), and with cosmic rejection (dropped weights stay in the numerator)."
 },
 "C86": {
  "note": "Refuted: ivar is modified in place where the resolution is low; proved unchanged otherwise."
 },
 "C54": {
  "note": "Proved for every history of pack/unpack/Rcsr/R on a spectrum whose resolution is square with full-width diagonals; refuted outside: R does not exist while packed, a data array narrower than the grid comes back with another shape, and a spectrum without resolution cannot be packed."
 },
 "C56": {
  "note": "Proved for every history of CPU calls, of calls that are all on the GPU and of calls with one degree; refuted for mixed histories: after a GPU call with n terms and a CPU call with m, the GPU call with m terms returns the old array."
 },
 "C57": {
  "note": "Proved for MPI and serial use under the assumption that equal hashes mean equal grids (see C81)."
 },
 "C77": {
  "note": "Proved for every array with two different wavelengths (range, ends, strict monotonicity, affine); refuted for constant arrays (division by zero gives nan)."
 },
 "C80": {
  "note": "Proved when there are at most 10000 unit-weight targets per GPU rank; refuted otherwise (more targets, heavy weights, or no GPU at all): CPU ranks get targets but an empty redshift list."
 },
 "C81": {
  "note": "Proved: without a band name the hash (assumed injective) fixes the length and the four outer points, hence regular linear and logarithmic grids; refuted for grids that differ in the middle and for any two grids with one band name."
 },
 "C87": {
  "note": "Proved for histories without compute_coadd; refuted after it: the GPU arrays of the individual exposures are returned."
 },
 "C58": {
  "note": "Proved for a fit without IGM transmission, any number of basis vectors, padded coefficients and any resolution matrix (float rounding not modelled); per-target models and row lookup proved; refuted when the transmission is not 1 in the fitted range (eval leaves it out) and for spectra that share a hash with different grids."
 },
 "C88": {
  "note": "Refuted: the default R=None raises TypeError for every non-empty table (R[i]); proved with one matrix per row, and for dictionaries."
 },
 "C59": {
  "note": "Proved for stripped names without ':::' where the spectype does not end with ':' (or the subtype is empty); refuted without these conditions. Injectivity on such names and white-space behaviour proved in full."
 },
 "C60": {
  "note": "Proved for every result table in which each target has one znum=0 row, znum<128 and each row's full type has a scan; values are compared after the float32 cast of the file, rows grouped by target. Refuted when a best fit carries a full type without a scan (archetype subtypes): read_zscan raises KeyError."
 },
 "C61": {
  "note": "Proved at every crash point for the FITS writers and for write_zscan when nothing is replaced; refuted for write_zscan(clobber=True) over an existing file, which is removed first."
 },
 "C62": {
  "note": "Proved for distinct existing ids; refuted for missing ids (KeyError), none (ValueError), repeated ids (repeated rows)."
 },
 "C63": {
  "note": "int8 keeps a value iff it is in [-128,127]; refuted beyond."
 },
 "C64": {
  "note": "Round trip proved exactly for mjd in [0,100000) and fiber in [0,10000); the inverse direction for all ids; refuted outside."
 },
 "C65": {
  "note": "Proved for the first hundred templates (DESI headers: base names in the given directory; BOSS headers: default file names); refuted beyond a hundred."
 },
 "C89": {
  "note": "Proved for FIBERMAP and EXP_FIBERMAP; refuted for SCORES -> TSNR2 (different names)."
 },
 "C90": {
  "note": "Proved when no stripped line has a single character; refuted for one-character names."
 },
 "C66": {
  "note": "Whole load per process (every target, file, band, row). The any-masks theorem covers mixtures of files with and without MASK for everything but ivar."
 },
 "C67": {
  "note": "Refuted for mixtures: the mask offset only advances over bands with a MASK HDU, so a later mask lands on an earlier spectrum (witness). Proved when all bands have masks."
 },
 "C68": {
  "note": "Order of first appearance plus the weights used for the distribution."
 },
 "C69": {
  "note": "Refuted: --mintarget alone always fails, the window is cut per file, negative values select nothing. Proved for in-range windows, -n alone, no options, and the out-of-range error."
 },
 "C70": {
  "note": "Non-finite, too negative and masked pixels: proved. Refuted: negative finite ivar is kept. The sigma test is related to the real square root."
 },
 "C71": {
  "note": "Bits are characterised exactly: a bit is set iff SOME fibermap row of the target has the condition. Refuted for 'all': a good and a broken fiber give NODATA and erase the redshift."
 },
 "C72": {
  "note": "Soundness for every run that succeeds, completeness when every zbest id was fitted. Refuted: --model with --details but no --outfile fails."
 },
 "C76": {
  "note": "Refuted for negative requests, returned unchanged."
 },
 "C78": {
  "note": "For every number of names, cameras and terms, with trailing padding."
 },
 "C91": {
  "note": ""
 },
 "C92": {
  "note": ""
 },
 "C73": {
  "note": "Real arithmetic (Reals axioms)."
 },
 "C74": {
  "note": "Real arithmetic."
 },
 "C75": {
  "note": "Three of four terms for all inputs; the Lyman-continuum LAF term for z>=1.2 off one wavelength. Refuted: z<1.2 (formula overwritten) and lambda=5.7 lambda_L (no formula applies)."
 },
 "C93": {
  "note": ""
 },
 "C94": {
  "note": "Positive always; <=1 above the Lyman limit; refuted far below it (z=0, 23.4 A)."
 },
 "C95": {
  "note": "Proved for square resolution matrices and solvers that agree where the CPU one succeeds; every redshift where the CPU fit did not fail gets exactly the CPU numbers. Refuted: after a solver failure the GPU reports coefficients 9999999 and a huge chi2 of that model instead of the sentinel; a rectangular resolution matrix makes the kernel read out of bounds."
 },
 "C96": {
  "note": "The result does not depend on the thread order; it is the transpose of the documented product (refuted by a 1x2 example), which is the same thing for the weighted normal matrices the package computes (partial)."
 },
 "C97": {
  "note": "Names are always distinct and found again; the type string round-trips when no SUBTYPE contains ':::' or ';' (partial); refuted otherwise (IndexError / ValueError)."
 },
 "C98": {
  "note": "For every environment (solver, IGM function), per camera or not, with or without prior; exact arithmetic."
 },
 "C100": {
  "note": "Refuted: every successful call given an absorption array replaces the caller's arrays by their first row, and repeating the call raises IndexError. Unchanged when no entry is an array."
 },
 "C101": {
  "note": "Prior sigma with non-zero square."
 },
 "C103": {
  "note": "Proved for pairwise different RRTYPE; refuted for two files of the same type (the first is silently dropped)."
 },
 "C99": {
  "note": "Exact arithmetic; one spectrum per grid; own transmission; some archetype coefficient non-zero (partial). Refuted: a fit with zero archetype coefficients and non-zero Legendre terms is evaluated as zero everywhere; with the transmission fit_z passes (not the archetype's own at that redshift) the evaluated model differs from the fitted one."
 },
 "C102": {
  "note": "Proved per camera with a prior. Refuted: n larger than the number of archetypes, no prior, or common polynomials: never returns."
 },
 "C106": {
  "note": "Refuted: a file with a REDSHIFTS HDU keeps its own redshifts and the option is ignored without an error (C106_asked_range_refuted, C106_ignored). Proved for files without that HDU."
 },
 "C107": {
  "note": "Refuted for repeated (type, subtype): the earlier template is silently dropped (C107_all_used_refuted); which one is used is characterised by C107_last_wins, and all are used when the pairs differ."
 },
 "C108": {
  "note": "Text, list and default arguments are characterised completely. Refuted for pathlib paths: find_templates raises AttributeError for a pathlib path to a file although its check accepts PosixPath, and load_templates raises TypeError for every pathlib path."
 },
 "C104": {
  "note": "Real numbers instead of float64; FITS reading itself is not modelled."
 },
 "C105": {
  "note": "Real numbers: float rounding of np.arange can add a point at the end of the range."
 },
 "C109": {
  "note": "local_data models templates.py 584-597 on rebin_template (DWave) and transmission_Lyman; rational rebinning, real transmission. More ranks than redshifts: C24."
 },
 "C110": {
  "note": "Model: fitz with archetypes off; scan and refit compute the template data at one redshift (C109: the data of several redshifts are those of each) and a total function of them."
 },
 "C111": {
  "note": "Partial: holds when no plain array follows an annotated entry; otherwise minedge/maxedge of an earlier entry are used for the coverage check (C111_stale_limits_refuted). fitz and DistTemplate pass only annotated entries or only wavelengths."
 },
 "C112": {
  "note": "Partial: holds when BAD_MINFIT is not set. Refuted otherwise: trans is computed at the parabola minimum (or left None when that redshift is not covered) while the archetypes are evaluated at the minimum of the refined scan."
 },
 "C113": {
  "note": "Exact rationals; the order of equal weights is a parameter with only the argsort contract assumed."
 },
 "C114": {
  "note": "Partition whenever the run goes on is proved without conditions; going on needs the conditions of C114_goes_on_partial. Refuted otherwise: nothing left to do gives AssertionError, BOSS with more ranks than --maxnodes gives AssertionError, a directory that is not a number stops all ranks."
 },
 "C115": {
  "note": "Proved for names with the prefix only at the start and .fits only at the end. Refuted otherwise: same name in two directories with --outdir, prefix repeated in the name, .fits in a directory name moves the log."
 },
 "C116": {
  "note": "Exact characterisation proved; refuted part: files directly in the avoided directory are still taken, and a relative --reduxdir makes the avoided directory ineffective."
 },
 "C117": {
  "note": "Nothing overwritten proved for all; always succeeding only when the logs are numbered without gap; refuted with a gap."
 },
 "C118": {
  "note": "Full behaviour when old logs are numbered; at-most-two, logs kept and every file attempted without condition; refuted: with a gap in the old logs the command is never run."
 },
 "C119": {
  "note": "hh:mm:ss proved; scaling proved for DESI; refuted for BOSS (TypeError) and --mp 0."
 },
 "C120": {
  "note": "Which spectra each object gets is proved without conditions; success proved for readable inputs with distinct known ids. Refuted otherwise: an id not in the files gives KeyError, a repeated id AssertionError, instead of being skipped."
 },
 "C121": {
  "note": "One plate: proved (id decodes). Several plates: proved for THING_IDs which are valid; refuted for THING_ID -1 (unmatched fibres): different objects are merged."
 },
 "C122": {
  "note": "Proved up to one pixel; refuted at the end: a spectrum which ends within the window always loses its last pixel."
 },
 "C123": {
  "note": "Over Coq reals. The flux conservation is proved; refuted part: rows do not sum to one near the edges so a flat model does not stay flat."
 },
 "C124": {
  "note": "One row each proved without conditions; the name is proved for plate-MJD of at most 8 characters; refuted for the usual 10 characters (S8 column truncates)."
 },
 "C125": {
  "note": "Refuted parts: --mintarget without -n is ignored, and rrboss checks its options only under MPI."
 },
 "C126": {
  "note": "For any parser with distinct option names, and for the two parsers of redrock. argparse itself is modelled (exact and abbreviated options, joined values, negative numbers, --, nargs); int() as sign and digits, float() a parameter."
 },
 "C127": {
  "note": "--option=range is proved for every range; refuted for the separate word: argparse takes a word like -0.005,1.7,3e-4 (the default value itself) for an unknown option and exits with code 2."
 },
 "C128": {
  "note": "Refuted for both data types: rrdesi takes its files only with -i/--infiles, and rrboss has no --outfile or --details; each file is then tried twice and given up (with the model of C118). Proved for the command with -i added."
 },
 "C129": {
  "note": "The table of settings is proved. Refuted: without prior (prior <= 0 or --archetypes-no-legendre) fitz never returns a result (uses C32), and rrboss --archetypes raises AttributeError."
 },
 "C130": {
  "note": "Proved for m >= 1; refuted for m <= 0: every rank returns silently."
 },
 "C131": {
  "note": "Only and all requested outputs proved; refuted: --model without --outfile passes the checks, and fails after all computations; no target fails with --outfile."
 },
 "C132": {
  "note": "C132_history_partial: every key history of a session whose fits are numbered 0..n-1 and can be drawn. Missing: C132_none_kept_refuted (no target of the file has a fit: IndexError instead of a message)."
 },
 "C133": {
  "note": "C133_refuted: plotspec.py 169 multiplies Template.eval by (1+z) although eval applies no 1/(1+z): C133_scaled shows the drawn model is (1+z) times the fitted one, for every fit; right only at z=0 (C133_zero_partial)."
 },
 "C134": {
  "note": "Exact label for every integer; bits without a name (12-15, 24 and above) leave no trace (C134_unnamed_refuted)."
 },
 "C135": {
  "note": "C135_masked_refuted: one masked pixel makes np.max(model) NaN and the model is ignored; C135_label_refuted: after left/right the limits are kept and the label can be outside."
 },
 "C136": {
  "note": "C136_subtype_refuted: scans of types with a subtype (STAR:::A, QSO:::HIZ) are never drawn, since the full type is not one of the three keys looked up."
 },
 "C137": {
  "note": "C137_files_refuted: only the first DESI file is read; C137_archetype_refuted: a fit with a polynomial per camera is never drawn (ValueError)."
 },
 "C138": {
  "note": "Whole serial run modelled (Model_Run.v). Examples C138_one_stops_all, C138_repeated_id, C138_hash_clash show what the hypotheses exclude."
 },
 "C139": {
  "note": "C139_coefficients and C139_chi2 are for PCA templates (linsolve_ok: np.linalg.solve solves exactly); C139_chi2 for targets with some weight, redshifts above -1 and a fine scan of at least three points."
 },
 "C140": {
  "note": "C140_template_order_partial: when no fits of different templates tie. C140_template_order_refuted: a target without data, all fits tie and the first template wins."
 },
 "C141": {
  "note": ""
 },
 "C142": {
  "note": "The model sorts equal full types stably, as numpy does for up to 16 templates."
 },
 "C143": {
  "note": ""
 },
 "C144": {
  "note": "Whole runs composed (Model_RunMPI.v) from the serial run, the ring and the gather. A rank that raises ends the run in the model (C26 treats that)."
 },
 "C145": {
  "note": "Exact arithmetic: overflow and NaN are outside the model; serial CPU run of Model_Run.v (no archetypes, no priors)."
 },
 "C146": {
  "note": "Serial CPU run, no archetypes. Partial: needs a scan whose chi2 and penalty are float32 numbers (kept_exactly) and a best fit (znum 0) of every target in the table written beside it; the redshift grid of the file is not checked (refuted), a file with other templates or without a target raises KeyError (refuted as a convenience, proved as C146_same_templates)."
 },
 "C147": {
  "note": "Refuted in general: the gather overwrites fits with the unfitted entries of the last rank. Message schedule from the gather model of C14."
 },
 "C148": {
  "note": "Refuted when the prior is passed again with the file: it is then counted twice (witness with another redshift). Priors with finite values; the infinite values of tophat are in C35."
 },
 "C149": {
  "note": "Partial: the Legendre column is aligned only when templates without archetypes have as many minima as the first (C149_legendre_partial; general places in C149_legendre; refutations for fewer, more, cut PCA coefficients, and first template without archetypes). Array level: dtypes and the flattening of one-column arrays are not modelled."
 },
 "C150": {
  "note": "Success and contents characterised exactly; refuted as convenience: only the first target's keys count, KeyError on missing keys, _datatype anywhere in a key, name clash. Conversion to a numpy column is an arbitrary function."
 },
 "C151": {
  "note": "Partial: equality with the serial run is proved for targets in order of decreasing number of spectra (C151_same_table_partial, both directions) and refuted otherwise by a concrete run with two processes (C151_wrong_table_refuted: every complete run gives wrong redshifts). C151_outcome says exactly what every run gives, without that order. CPU, no archetypes, priors or scan file; floats as exact rationals."
 },
 "C152": {
  "note": "End to end on the model of reading, resolution, coadd, sky mask, scan, fit, table and warning bits (C152_own_data for any two runs; C152_targetids). The files must be in order (tables of the right size, masks in all or none, one grid per band). One process, no archetypes; resolution and coadd_fibermap of desispec are inputs; floats as exact rationals."
 },
 "C153": {
  "note": "Partial: one row per target proved (C153_one_row); parallel to FIBERMAP proved for one file with distinct targets without --targetids (C153_fibermap_partial), refuted for --targetids in another order and for a target in two files."
 },
 "C154": {
  "note": "C154_complete proves the first part; C154_absent_refuted proves that any selection with an id in none of the files never ends, which refutes that absent ids are skipped."
 },
 "C155": {
  "note": "Exact equality of the tables (both directions), on the end-to-end model of C152. Rows must have as many fluxes as wavelengths; exact rationals, so an overflow of flux times zero weight to NaN is not covered (the reader removes non-finite values only)."
 },
 "C156": {
  "note": "Partial: proved for coadded spectra (C156_coadd, for every spectrum that reaches the scan); refuted for --allspec by a concrete pair of files (C156_allspec_refuted)."
 },
 "C157": {
  "note": "CPU ranks only; at most as many ranks as redshifts of each template; composition of the end-to-end model (C152) with C144 (zfind under MPI), C66 (reading) and C16 (distribution)."
 },
 "C158": {
  "note": "Partial: refuted for PCA galaxy templates by a computed run (C158_refuted: best redshift 0 against 0.88); proved for templates without the penalty, for zfind (C158_run_partial, equality of results including errors) and for rrdesi from files (C158_rrdesi_partial; coadds without cosmic-ray rejection and with inverse variances >= 0). The solver is any function that is homogeneous, which an exact solver is (C158_exact_solver_homogeneous)."
 },
 "C159": {
  "note": "Proved for rrdesi and rrboss with any number of ranks, options, files and schedules. Refuted: with --gpu and without --max-gpuprocs on nodes of which only some have /proc/driver/nvidia/gpus only some ranks gather the bus ids and the job hangs; DistTargetsCopy with the targets on one process only (as its documentation says) fails on the others and hangs."
 },
 "C160": {
  "note": "Proved for any failure inside the try block (or alike on all ranks before it) with the default abort. Refuted: --no-mpi-abort leaves the other ranks waiting for ever; so do the failures outside the try block that only one rank has (archetype file name without '-': IndexError on rank 0; archetypes unreadable on one rank)."
 },
 "C161": {
  "note": "Proved: order of the spectra of a target (C161_spectra, exact arithmetic: equal tables); order of files, bands and rows for rrdesi with --allspec or with cosmic-ray rejection off. Refuted with the default rejection: of two exposures that contradict each other the order of the files decides which one is masked, and chi2 and redshift change."
 },
 "C162": {
  "note": "The sign is proved with no restriction. Not-a-NaN is proved for |flux|,|model| <= 2^510 (about 3e153); refuted beyond: a masked pixel with flux 1e200 gives inf*0 = NaN and so a NaN chi2 for the whole target."
 },
 "C163": {
  "note": "Proved for values up to 2^510; refuted for a masked pixel of 1e200 (its square overflows, times zero weight is NaN)."
 },
 "C164": {
  "note": "Proved: the bound, for finite results (partial: overflow excluded). Refuted: that the order of summation does not matter."
 },
 "C165": {
  "note": "Proved in full (chi2 finite and non-negative)."
 },
 "C166": {
  "note": "Proved: flag means |difference| < 9 exactly. Converse proved for |difference| <= 9 - 2^-49 and refuted between: 9 and 2^-60 differ by less than 9, but the rounded difference is 9."
 },
 "C167": {
  "note": "Proved for at least two different wavelengths up to 2^1000; refuted for a single wavelength (0/0 is NaN)."
 },
 "C168": {
  "note": "Proved: one more edge, interleaved with the centers. Strictly increasing is proved when another double lies between any two neighbouring centers (and centers >= 2^-1000), refuted for three adjacent doubles, whose two inner edges coincide."
 },
 "C169": {
  "note": "Proved for an interval of at least 2^-900 and at most 2^20 points: range, order, ends, and each point within 8 2^-53 (|lo|+|hi|) of equal spacing; refuted for subnormal intervals (0 to 8*2^-1074 in 15 points reaches 13*2^-1074)."
 },
 "C170": {
  "note": "Proved (wavelengths need not even be sorted). Refuted for edges that are not strictly increasing, as centers2edges returns for three adjacent doubles: ZeroDivisionError."
 },
 "C171": {
  "note": "Refuted: a spectrum that is zero at one sample can give -2^-52 (cancellation in the straight line). Proved for positive spectra in which neighbouring samples differ by less than a factor 2^49 and do not under- or overflow."
 },
 "C172": {
  "note": "Proved: the weight (finite result), the error bound of the flux (no underflowing product, finite result) and, for a pixel masked in every exposure, of the plain mean. Refuted: the coadd of a single exposure can be one unit in the last place lower or higher than its flux."
 },
 "C173": {
  "note": "Proved for the stated ranges."
 },
 "C174": {
  "note": "Proved for the stated ranges."
 },
 "C175": {
  "note": "Proved for one input file with distinct targets (details table and REDSHIFTS table). Refuted for several files: the window is cut in each file separately, so a target listed at different places in two files is fitted from part of its spectra, and appears in two windows with different results. Refuted: a last window reaching over the end is not shortened but raises RuntimeError."
 },
 "C176": {
  "note": "Proved in exact arithmetic: there is always a row of the right template within one grid step (C176_recovered_partial: PCA template, the only one of its type, data that determine the coefficients). Proved too that the claim of a good fit is false: if the true redshift is also a point of the fine scan, the parabola through a chi2 of zero has its minimum at or below zero, and the row is always flagged BAD_MINFIT (C176_perfect_is_flagged). Refuted: the row need not come first. A galaxy that fits exactly, with negative reported chi2, is listed after a star with a worse but unflagged fit."
 },
 "C177": {
  "note": "Proved: which rows there are and what each column keeps (C177_redshifts, C177_details: nearest single-precision number, relative error 2^-24, infinite from 2^128-2^103 on, integers unchanged exactly in range, SUBTYPE never cut, ValueError exactly without a row of znum 0), order (C177_order), DELTACHI2 below 9 with a competitor means flagged and above 9 means not flagged (C177_deltachi2_partial). Refuted: strict order, DELTACHI2 equal to 9 in the file both flagged and unflagged, a finite chi2 that is infinite in the file."
 },
 "C178": {
  "note": "Proved for minfit and lines 259-320 of fitz with correctly rounded operations (C178_minfit, C178_row), given that np.polyfit returns finite numbers, the leading one at most 2^1021, and that squares are non-negative numbers; the only way to have no row is the ValueError at the vertex. The parabola is the one through the points around the first smallest chi2, and Z_FITLIMIT is raised exactly when the evaluation failed or the fitted or reported redshift lies beyond the second or the last but one grid point (C178_parabola). An unflagged fit always opened upwards, with no assumption (C178_unflagged). Refuted without the assumption: a not-a-number among the coefficients gives an unflagged row whose redshift is not a number."
 },
 "C179": {
  "note": "Proved for runs without archetypes, on the CPU, with templates in order, type names of at most six characters, one spectrum per wavelength hash and no intergalactic absorption in the fitted range (C179_models_partial); whenever the run succeeds no rendering fails. Refuted for longer type names: zfind stores six characters of SPECTYPE, and the lookup of the template raises KeyError (C179_long_type_refuted). With absorption the models leave it out (C58_igm_refuted). C179_same_prefix_refuted: with two types sharing their first six characters (GALAXYA and GALAXY) the best fit of the first is rendered with the template of the second, without any error."
 },
 "C180": {
  "note": "Proved when all files have the same bands (with --allspec: the same number of bands) and each selected target is in a file which keeps it (C180_same_table_partial). Without this C180_outcome characterises the table of every complete run: the scan of each target is that of another target determined by the weights alone. Refuted for three files with one, two and three cameras, default options and two processes: the first two targets get each other's scans (C180_wrong_table_refuted). CPU, no archetypes, no MPI; read_spectra as in C153."
 },
 "C181": {
  "note": "Proved when every target has spectra of all bands of the run, type names have at most six characters and nothing is absorbed in the range (C181_model_file_partial); the redshift file does not depend on --model (C181_table, always). When a target lacks one of the bands no model file is ever written (C181_needs_all_bands), e.g. three files with one, two and three cameras: redshifts written, then KeyError (C181_some_bands_refuted). CPU, one process, no archetypes; float32 rounding, headers and HDU names left out."
 },
 "C182": {
  "note": "Proved (C182_gathered for any table, C182_mpi_files for every run with MPI that ends); no condition on bands, absorption or template names. CPU, no archetypes; exceptions on a rank count as the end of the run; gather and bcast deliver."
 },
 "C183": {
  "note": "Partial: proved for rows that were not reset for lack of data, templates whose type names have at most six characters, grids covered by the templates, no absorption, one matrix per row (without matrices see C88). A reset row bears SPECTYPE GALAXY and a blank SUBTYPE, so eval_model raises KeyError on every selection containing one unless such a template is among those of the run (C183_reset_needs_galaxy); C183_no_data_refuted is a run with star templates only and one target on a badly positioned fibre, whose whole table cannot be evaluated. CPU, no archetypes; exact rationals; with R = None the code may raise TypeError before the KeyError."
 },
 "C184": {
  "note": "Proved for files, defaults, directories written without a dollar sign and any listing order (C184_file_or_default, C184_directory, C184_any_listing_order). With variables proved if the value is not empty, has no slash at its end and does not occur again in the paths (C184_variables_partial). Refuted otherwise: with A=/data/arch/ the place $A gives the name $Arrarchetype-galaxy.fits, which opens nothing (C184_slash_refuted); with A=arch every 'arch' in the name is replaced (C184_value_in_name_refuted). An empty directory gives the empty list without an error (C184_nothing_found). rrdesi checks the place with os.path.exists before, without expanding variables, so there only plain names arrive; the API takes both."
 },
 "C185": {
  "note": "Proved for at most a hundred templates (see C65) whose redshifts do not come from an option (--zscan-galaxy, --zscan-qso, --zscan-star): C185_same_templates_partial; missing files: C185_missing_file. Refuted with such an option: the header does not keep it, so a template without REDSHIFTS HDU comes back with the default redshifts (C185_options_refuted). TEMFIL cards (rrdesi); file reading as in C104."
 },
 "C186": {
  "note": "Proved that the last name wins, for every type and listing order, and that absent types are absent (C186_last_name), an unreadable file stops the call (C186_unreadable). Refuted that it is the latest version: of ...-v2.fits and ...-v10.fits the first is used, as names are compared as strings (C186_latest_version_refuted). Reading a file is a function (contents not modelled here)."
 },
 "C187": {
  "note": "Partial: the exact condition is proved (C187_accepted): it exists and is readable, is not an empty directory, a file has a dash in its base name, and All_archetypes succeeds. So a valid archetype file without a dash in its name stops rrdesi with IndexError (C187_any_file_refuted), a directory that holds other files only is accepted and no archetypes are used (C187_no_archetypes_refuted), and the type announced for a file is that of its name, not of its contents (C187_announced_refuted). Without MPI."
 },
 "C188": {
  "note": "Proved for all arrays and both host orders; the number a sequence of bytes stands for is an arbitrary function. C188_needed: without the conversion, code that ignores the byte order reads other numbers."
 },
 "C189": {
  "note": "Partial: exactly the names without '/' that are neither empty nor '.' survive (C189_exactly_these). Otherwise the file is written without complaint and cannot be read (C189_slash_refuted), or is read with a scan missing (C189_lost_refuted)."
 },
 "C190": {
  "note": "Partial: proved for runs one after the other (also after crashes) and for any number of runs at the same time whose temporary names differ. The temporary name of write_zbest and write_zscan is the output name with .tmp in every run: two runs at the same time can leave a mixture under the output name (C190_same_name_refuted). With clobber write_zscan removes the file first; without it the output file never goes missing (C190_never_missing)."
 }
}