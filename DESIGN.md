# DESIGN — a Rocq (Coq 8.16.1) model of desihub/redrock

## What this is
`/verif/rocq/theories` contains an executable Gallina model of the decision
logic, data plumbing, distribution, file protocol and exact-arithmetic core of
`/repo/py/redrock`, plus theorems about it.

## Conventions
* Numbers: Python/numpy floats are modelled by exact rationals `Q` (results
  stated up to `==`), or by the extended type `xq` (finite / +inf / -inf / NaN)
  where IEEE special values decide the behaviour; `R` is used only where `exp`,
  `log` or powers occur. Floating-point rounding is NOT modelled.
* Exceptions are values (`Ok` / `Err`).  External calls (linear solver, chi2
  evaluator, `np.polyfit`, unstable `argsort`, MPI transport) are function
  arguments whose assumed behaviour is an explicit hypothesis of the theorem.
* Concurrency: explicit schedules, FIFO channels, arbitrary arrival orders.
* Files: a trace of file-system operations, crash after any prefix.
* `_refuted` theorems show that the faithful model violates the English
  property; the accompanying `_partial` theorem is what does hold.

## Trusted base
Coq's kernel (and `vm_compute`), the reading of `/repo` into the model, the
oracle hypotheses shown in each statement.  `Print Assumptions` appears beneath
each property theorem; its output is summarised in the last section.

## Plan per property
* **C01 Fits are ranked by quality then chi2** — Row-level model of lexsort (stable insertion sort) with numpy order on extended numbers; prove Permutation + StronglySorted + stability.
* **C02 Column-dict sort is atomic and stable** — Column dictionary model with exceptions; prove all-or-nothing and common permutation.
* **C03 deltachi2 is the gap to the next distinct good fit** — calc_deltachi2 transcribed over Q with masks; spec = is-minimum predicate over indices.
* **C04 deltachi2 is non-negative in ranked output** — Corollary of C01+C03 over finite chi2.
* **C05 SMALL_DELTA_CHI2 iff a close competitor exists** — setzwarn loop transcribed; spec = existential over indices.
* **C06 A small non-zero deltachi2 is always flagged** — Corollary of C03, C05.
* **C07 Trimming keeps the best fits** — Trim loop (delete non-first-n per spectype) transcribed; spec via rank within own type.
* **C08 znum numbers the fits of a target** — znum = seq; corollaries.
* **C09 ZWARN bits are only added and reserved bits are never set by the fit** — zwarn as N; every update a lor; testbit theorems.
* **C10 NODATA and LITTLE_COVERAGE flags** — Flag blocks transcribed; iff theorems.
* **C11 NEGATIVE_MODEL marks archetype fits with a negative amplitude** — Both code paths transcribed; agreement proved where coefficient is non-zero, refuted at zero.
* **C12 Coefficient padding preserves coefficients** — padding function; nth specification.
* **C13 One complete block per target in the requested order** — Whole per-target assembly loop; theorem over any result dictionary.
* **C14 Batched MPI gather delivers every result once** — Batch sender/receiver as FIFO-channel processes; counts agree, union exact.
* **C15 Results do not depend on distribution** — Composition of C16 and gather.
* **C16 distribute_work is a partition** — Greedy loop transcribed; Permutation of concatenated assignment.
* **C17 Load balance of distribute_work** — Invariant of greedy argmin.
* **C18 CPU-only ranks get no scan work in GPU mode** — Same model with capacities 1 and 1/10000; threshold theorem and refutation of the absolute claim.
* **C19 array_split covers the range** — array_split over nat.
* **C20 Template ring visits every slice once** — Ring state machine with FIFO channels and arbitrary interleaving.
* **C21 Distributed scan equals serial scan** — Assembly of slices.
* **C22 Multiprocessing scan assigns each result to its own target** — Parent/worker model with arbitrary arrival order; refuted for unequal weights, proved when order coincides.
* **C23 Multiprocessing fit stage is schedule independent** — Arrival order permutation; result dictionary equal.
* **C24 More ranks than redshifts works** — rebin_template on an empty slice raises: refuted; proved for P <= n.
* **C25 Rebalancing after the scan keeps targets and results together** — gather/flatten/array_split/scatter model.
* **C26 A failing worker does not hang the run** — Blocking queue model; refuted: a worker that raises leaves parent blocked in every schedule.
* **C27 find_minima returns exactly the local minima, best first** — find_minima over extended numbers, argsort oracle.
* **C28 minfit recovers parabolas** — Exact parabola algebra over Q.
* **C29 fitz output contract** — fitz loop with chi2 evaluator and polyfit oracles.
* **C30 Fit flags report range and parabola failures** — Flag decision transcribed.
* **C31 Reported coefficients belong to the reported redshift** — Refuted on fallback path; partial when no fallback.
* **C32 Archetype mode is total over its options** — Option automaton with unbound local variable as error; refuted for prior_sigma=None.
* **C33 Velocity separation** — Algebra over Q.
* **C34 Priors only add, and only to their target** — Priors over Q (gaussian) / R (lorentzien log).
* **C35 Tophat priors confine the fit** — Extended numbers with +inf outside the window.
* **C36 centers2edges brackets the centers** — lists over Q.
* **C37 trapz_rebin is the exact bin average** — Sequential loop transcribed with explicit index state; spec = exact integral of the interpolant, defined segment-wise and tied to RInt.
* **C38 Rebinning conserves flux** — From C37 by additivity.
* **C39 Rebinning is linear, bounded and positive** — From C37.
* **C40 Rebinning guard** — Error-valued array reads.
* **C41 GPU and CPU rebinning agree** — Per-bin kernel transcribed; equality on guard; boundary case examined.
* **C42 Batch rebinning at many redshifts equals one at a time** — Outer loops transcribed.
* **C43 PCA fit is the least-squares optimum** — Normal equations over Q; convexity.
* **C44 Masked pixels cannot influence the fit** — Zero-weight invariance; NaN case refuted with extended numbers.
* **C45 chi2 is non-negative; empty spectra give the sentinel** — Sum of squares.
* **C46 OII penalty is one sided** — Penalty transcribed.
* **C47 Constrained solvers give the constrained optimum** — Refuted witness for NNLS on normal equations; partial if unconstrained optimum feasible.
* **C48 Per-camera Legendre columns are independent** — Column layout.
* **C49 Batch chi2 equals one-at-a-time chi2** — Batch map.
* **C50 Coadd: one spectrum per wavelength grid** — coadd transcribed over Q.
* **C51 Coadd does not depend on exposure order** — Permutation invariance of sums.
* **C52 Coadding a single exposure is the identity** — Refuted with masked pixel beside resolution matrix; partial for unmasked.
* **C53 Cosmic-ray rejection keeps consistent exposures** — Refuted witness due to missing axis.
* **C54 Shared-memory packing preserves data** — Heap of shared buffers; invariant over histories.
* **C55 Low-resolution pixels are masked** — Mask at construction.
* **C56 Legendre basis cache is fresh** — Cache state machine; CPU-only histories proved, mixed refuted.
* **C57 wavegrids** — Dictionary union.
* **C58 Evaluated best model equals fitted model** — Refuted for QSO templates with IGM; proved without IGM.
* **C59 fulltype round trip** — Strings as lists of characters; split on separator.
* **C60 zscan file round trip** — HDF5 tree as nested dictionaries.
* **C61 Output files are crash-atomic** — File-system op traces with crash after any prefix.
* **C62 Selecting targets when reading a scan** — Lookup theorem.
* **C63 int8 columns do not wrap** — Explicit int8 wrap.
* **C64 plate-mjd-fiber packing round trip** — Z arithmetic with div/mod.
* **C65 Template provenance header round trip** — Header as key-value list.
* **C66 Rows of input files map to the right target** — Row-mapping loop transcribed.
* **C67 Masks are applied to their own rows** — Mask counter transcribed; refuted for mixed files, proved for uniform ones.
* **C68 Target order of first appearance** — NoDup + membership.
* **C69 --mintarget/-n select the intended window** — Window selection transcribed; refuted for mintarget without n.
* **C70 Bad input pixels never reach the fit** — Extended-number pixel model.
* **C71 Fiberstatus is propagated to ZWARN** — Boolean model of flags.
* **C72 Model rows match redshift rows** — argsort/searchsorted model.
* **C73 IGM transmission range** — Reals: exp and power.
* **C74 A skipped IGM correction is an identity** — Reals.
* **C75 Inoue14 covers all redshifts** — Interval case analysis; refuted for dead branch.
* **C76 get_mp bounds** — Decision function.
* **C77 Reduced wavelength is in [-1,1]** — Algebra over Q.
* **C78 Archetype coefficient split round trip** — Round trip on lists.

* **C79 Local ids and local data line up** — DistTargetsCopy transcribed for MPI and serial use; refuted for serial unsorted input.
* **C80 GPU mode scans every local target** — ranks with and without a GPU; ownership after the split.
* **C81 Equal wavehash means equal grid** — hash of (length, second, second-last) as modelled; refuted by a pair of grids.
* **C82 Archetype prior acts on Legendre terms only** — entries of the prior matrix over all sizes.
* **C83 GPU and CPU rebinning accept the same inputs** — both guards side by side; refuted for the archetype GPU call.
* **C84 bands describe spectra**, **C85 coadded resolution**, **C86 caller's arrays**, **C87 GPU copies**, **C88 eval_model without R** — heap model of Spectrum/Target objects with aliasing where it matters.
* **C89–C92** — header cards, template list files, sky masks, batched broadcast of resolution data: list programs.
* **C93 entrywise IGM**, **C94 Inoue14 transmission** — real analysis of the piecewise power laws.
* **C95 GPU scan = CPU scan**, **C96 batch matrix product** — CUDA kernels as thread functions on flat arrays, any thread order, arbitrary initial memory.
* **C97–C103 archetypes** — names, eval, nearest neighbours, get_best_archetype with its effect on the arguments, prior slicing, All_archetypes.
* **C104–C108 templates** — constructor from header cards, old-style grids over R, load_templates, find_templates over an abstract file system.
* **C109 slices join**, **C110 refinement never fails**, **C111 edges vs wavelengths**, **C112 transmission for archetypes** — rebin_template and DistTemplate data as rows; convexity of the coverage guard.
* **C113 balanced groups**, **C114 each file to one rank**, **C115 output names**, **C116 resume**, **C117 log backup**, **C118 retries**, **C119 job plan** — `bin/wrap-redrock`: greedy partition by an invariant over the loop; names as strings with `replace` = join of split; directory tree by structural induction; file system as an association list.
* **C120 spectra per object**, **C121 ids**, **C122 crop**, **C123 resolution matrix**, **C124 BRICKNAME**, **C125 selection options** — `external/boss.py` read_spectra as a fold over files and fibres into a dictionary (invariant: the dictionary holds exactly the spectra read so far, per id); crop with argmin over rational wavelengths; the resolution matrix over the reals with `exp` (column sums by the normalisation; the half band by the ceiling); rrboss/rrdesi option checks as Boolean functions.
* **C126 options**, **C127 ranges below zero**, **C128 commands of wrap-redrock**, **C129 archetype options**, **C130 --max-gpuprocs**, **C131 outputs** — argparse's word classification and consumption as a state machine over the words; a command line made of correct pieces is proved to give exactly the last value of each option (induction on the pieces, for any parser with distinct names), then instantiated with the two option tables; `cmd.split()` is modelled on characters; settings, rank trimming and outputs as functions of the options.
* **C132 moving through fits**, **C133 drawn model**, **C134 ZWARN label**, **C135 limits**, **C136 chi2 panel**, **C137 inputs of rrplot** — `plotspec.py` PlotSpec as a state machine over keys (`Model_Plot`: itarget, znum, nznum, limits; an exception keeps the changes made before it), what is handed to matplotlib recorded as a `picture`; `zwarning.py` flags; the loops of `bin/rrplot`. Proved by simulation of an independent cursor (`Spec_Plot.move`) for every key history, and by inversion of `plot`; C133 uses C58.
* **C138 isolation of targets**, **C139 provenance of rows**, **C140 order of templates**, **C141 no data**, **C142 repeated names**, **C143 batched refinement** — `Model_Run.v` composes the models of rebin_template, calc_zchi2, fitz and the zfind table into one function `run` from templates and targets to rows (serial, CPU, no archetypes, no priors). Isolation: the dictionary state of the run is the product of one dictionary per target (`run_ok`), and only the data of the grids of the target enter (`solo_ext`). Provenance by inversion of the whole run (`row_source`); the chi2 curve (`on_curve` of Spec_Run.v, stated with design matrices, C139_chi2) from the least-squares theorem C43 at every redshift of the coarse and fine scans. Order of templates: insertion of untied rows commutes. See `Spec_Run.v` for the vocabulary.
* **C144 MPI run = serial run** — Model_RunMPI.v puts together wavegrids with MPI, the redshift slices, the ring (any schedule), the local refinement and the batched gather; simulation proof: the dictionary of pieces assembles to the row of the whole scan whatever the order (C20), per-target records are those of the serial run, the table depends on the gathered dictionary as a map only.
* **C145 a run succeeds iff the templates reach over the spectra** — both directions on `run` of Model_Run.v: tdata exists exactly for covered redshifts (`tdata_covered`), is Ok or ValueError at any redshift (`tdata_two`), coverage is convex in redshift (`between`), so fitz never fails (C110's `fitz_ok`), batches succeed for arrays of matching size (`at_ok`), and the table of nonempty blocks exists.
* **C146 a scan used again** — Model_Reuse.v: `zfind` with chi2_scan and priors around scan, refinement and table of Model_Run.v (`zfind_run` ties it to `run`); write_zscan/read_zscan_redrock of Model_IO.v. The file gives each target the entries in the order of the names (`file_scan`); the refinement is a fold per target (`fits_of`), so subset and order of the targets do not matter; the order of templates only by ties (C140). Refuted: the grid of the file is not checked.
* **C147 a scan used again with MPI** — `ranks_reuse`: every rank starts from the whole file; gather of Model_MPI.v (C14) delivers all dictionaries, dict.update lets the last one win (`last_wins`); its entries of others' targets have no fit, so the table is never Ok.
* **C148 a prior counts once** — `add_prior` on the scan; the scan kept contains it, the second application is another map2; concrete witness with another redshift.
* **C149 columns stay together** — Model_Cols.v: the column-wise merge of 530-549 with its four cases (own, PCA substitute, zeros like the first block, stale value) and fancy indexing; `place` gives the position of fit i of block j; each column is the concatenation of per-block arrays (`column_as`), so its positions follow from the array sizes.
* **C150 metadata columns** — Model_Cols.v 636-672: the type pattern as longest prefix without line break (`typed_some`, `typed_none`, `typed_longest` against the declarative `declares`), columns as a fold (`meta_fold`).
* **C151 run with worker processes** — Model_RunMP.v joins Model_MP.v (processes, queues) and Model_Run.v (scan, fits, table) into a relation; Spec_RunMP.v `run_as` is the serial run with the scans of other targets. One stage is shown equal to one serial stage by the values collected under each id (`collects_inv`, `stepped_det`), then all templates by induction (`each_foldM`, `run_mp_as`).
* **C152–C154 (rrdesi end to end)**: Model_RunDesi.v composes the reader (Model_Desi), the coadd (Model_Targets), the sky mask, the scan and fit (Model_Run) and the warning bits into one function from files to table. Proof: on one process the targets arrive in the order of decreasing weight while the id list keeps the file order; run_local with permuted targets equals run (perm lemmas of Proof_Run6/RunMPI3), each target is read from its own rows only (C66), hence neighbours (C138) lifts to files. C153 by first_occurrences and the numbering of rows; C154 because an empty target has no scan.
* **C155, C156 (dead pixels)**: on the model of C152. A relation `veq w f f'` (fluxes equal where the weight is not zero) is carried through the reader (Spec_Desi.slot_of), the coadd (weighted sums, interpolation of the cosmic-ray gradient), the sky mask, the scan (weighted flux, chi2) and the fit (extensionality of fitz); then run on related targets is equal. C156 from the mask in the constructor of the coadded spectrum; the refutation is a computed run with --allspec.
* **C157** (rrdesi under MPI): Model_RunDesiMPI.v puts the per-rank distribution and reading of desi.py in front of the MPI run of Model_RunMPI.v; the ranks together read a permutation of the serial targets (C16, C66), then C144 gives the table; both directions.
* **C158** (units of flux): the run with flux times c and inverse variance over c^2 is the run with coefficients times c: exact simulation through scan, fit and table (naturality of the table in the coefficients), and through reader and coadd for files; the penalty for negative [OII] breaks it (computed run).
* **C159**, **C160** Model_Comm: processes as programs (free monad) with collective calls, exceptions and abort; asynchronous executions in which a call may return as soon as its data are there and must return when all ranks have called. Model_CommMain: rrdesi and rrboss of every rank as such programs, with all branches that decide on calls (rank 0, GPU ranks, ranks without targets, --max-gpuprocs, cached wavegrids, ring, batches of the resolution); what a rank computes by itself is an oracle that may fail. Proof: lockstep execution by compositional rules (okay), then an invariant relating every asynchronous execution to the lockstep one; well-founded step relation. Not modelled: the contents of messages beyond what decides on calls; ring and batched gather count as one call each (C14, C20).
* **C161** On Model_Run and Model_RunDesi. All pixel vectors of a target are concatenations over its spectra, so a permutation of the spectra permutes blocks; inner products are canonical sums (Qred), hence equal; template data are looked up by hash, and for sound templates and spectra they fail alike (ValueError), so that also the fallback of fitz behaves alike. Files: permuted rows give permuted spectra, coadds are order-free (C51), targets are then matched with C138. Rounding of floating-point sums is not modelled.
* **C162–C172** (floating point) Model_Float, Model_Float2: the same code lines as elsewhere in the model, but on IEEE binary64 values (Flocq's `binary_float 53 1024`, a library definition: it adds no axioms beyond the standard library's reals) with round-to-nearest-even, signed zeros, subnormals, infinities and one NaN. The order of summation in np.dot, np.sum, BLAS or a GPU kernel is a parameter: any tree over the pixels, optionally with fused multiply-add. Not modelled: NaN payloads, status flags, extended precision, float32 input. Spec_Float says what finite, weight, within, exact_chi2, rounded, interleaved, tame … mean in terms of real values.
* **C162** Induction on the summation tree: a sum, product or fma of values that are not negative is not negative; for values in range no inf·0 and no inf−inf arises. Witness for the unrestricted form: a masked pixel of 2^664.
* **C163** A product with a zero weight is the same signed zero whatever the (finite, non-negative) residual; induction on the tree.
* **C164** Standard model of rounding (each operation (1+e) with |e| <= 2^-53, products also an absolute 2^-1075), depth induction.
* **C165–C166** Monotonicity of rounding; Sterbenz-type fact that a difference of two floats rounds to zero only if they are equal; 9 and 9−2^-49 are floats.
* **C167** 2(w−min)/(max−min) is between 0 and 2 before rounding and rounding is monotone.
* **C168** The midpoint of two floats, rounded, lies between them, strictly if some float lies strictly between.
* **C169** Error bound (1+2^-53)^3 on i·step against the distance of i/(n−1) from 1.
* **C170** Rounding keeps the order of the shifted ends, so the check at the extreme redshifts decides for all; loop invariants of the seek and interior loops as in C05–C07 but with float comparisons; a difference of two different floats is not zero.
* **C171** The interpolated value is bounded below by y0 minus its rounding errors; witness found by search.
* **C172** As C164, for sums and one division.
* **C173** Wavelengths in [1/2, 2^101] are multiples of 2^-53, so differences are zero or at least 2^-53 and nothing underflows; the interpolated value is exactly the level; invariant of the loops: the sum is level times covered length up to (1 +- 2^-53)^k.
* **C174** Five roundings, each a factor within 2^-53 of one.
* **C175** For one file the window is a list of target ids (C69) and C152 gives the rows; the table is the concatenation of the rows of its targets. Counterexamples computed for two files.
* **C176** The chi2 of the scan is zero exactly at the true redshift (on_curve, C43) and positive elsewhere, so the first minimum fitted is there; all rows of the only template of a type are kept (trim_of_type); a parabola through a zero value has its vertex at or below zero. The counterexample is computed.
* **C177** (output types): binary32 by Flocq; conversion = binary_normalize 24 128; order by monotonicity of rounding; threshold 9 representable in both formats.
* **C178** (minfit in binary64): polyfit and the square are parameters; comparisons by the real value (infinities as 2^1024), 1/sqrt by bounds 2^-537..2^512.
* **C179** The redshift of a row lies between the ends of the template's grid (C139_row), where a successful run has checked coverage (C145), so Template.eval cannot raise; rebinning is linear (rebin_comb). The row of a target is found by run_best. The counterexample is computed.
* **C180** Model_RunDesiMP: rrdesi with worker processes = reading (Model_RunDesi) + the scans and fits by workers (Model_RunMP) in target-id order; equality with the serial run when the weights are in the order of the ids, the exact outcome otherwise, a refuting run.
* **C181** Model_ModelFile: rrdesi with --outfile and --model from the files to the HDUs (Model_RunDesi + Model_Models + the sorting of Model_Desi); C179 through the resets of rows without data and the two orders of the targets; necessity of all bands; a refuting run.
* **C182** Model_ModelFileMPI: rendering on the ranks, gather, sorting on rank 0; the outcome of model_hdus is invariant under permutations of the targets, and the gathered lists are a permutation of the serial ones (Model_RunDesiMPI); C157 for the table.
* **C183** eval_table (Model_EvalTable.v) looks the template up by the type and subtype of the row (template_of, Model_Models.v), cuts COEFF and calls mod_eval_model; C139_row gives template, redshift and coefficients of a row of a run, eval_on the evaluated matrix. Reset rows: C71_reset and the lookup fails; refuted by a computed run with star templates.
* **C184** find_archetypes (Model_FindArch.v) on a record of what the operating system answers; posixpath.expandvars and str.replace as functions on strings; sorted as insertion sort by the order of strings, unique for a set of names; expansion of a path whose tail holds no dollar sign or brace by induction.
* **C185** load_templates_from_header (Model_FromHeader.v) as the composition of header2templatefiles and load_templates; C65 gives the names, induction over the list the templates; refuted by a star template loaded with --zscan-star (two explicit grids over R).
* **C186** All_archetypes (Model_AllArch.v) = find_archetypes (C184) + the dictionary of Model_Arch.v; induction over the sorted list: the last of a type wins, and the order of names is antisymmetric.
* **C187** archetypes_option (Model_ArchOption.v): the checks in order, then All_archetypes (C186); split at dashes by induction on the base name; counterexamples computed.
* **C188** Model_Endian: an array is its bytes, item size and byte order; values by an arbitrary function of the bytes in order of significance. Proof by cases on the orders. **C189** Model_H5Path: an HDF5 file as the list of its datasets with path components; creation, look-up and keys of a group. Proof: all paths written are pairwise apart (no one a prefix of another), so look-up is exact; every key is a component, hence free of '/'.
* **C190** Model_Writers: names lead to inodes, open files stay with their inode; writers, readers and crashes interleave step by step. Proof: invariant (temporary names of running writers differ and lead to inodes that no reader holds; every inode held by a reader or under the output name is complete and not written any more).

## What is modelled and what is not
Modelled, function by function (the comment at each definition cites the lines):
* `zfind.py` — sort_dict_by_col(s), calc_deltachi2, _rebalance_after_scan, sort_zfit, result assembly of zfind, _mp_fitz and the multiprocessing and MPI branches (Model_Rank, Model_Zfind, Model_Dist, Model_MP, Model_MPI, Model_Priors).
* `fitz.py` — all functions (Model_Fitz); the chi2 evaluator, np.polyfit and np.argsort are arguments.
* `zscan.py` — _zchi2_one, spectral_data, calc_zchi2_one, per_camera_coeff_with_least_square_batch (CPU), dot_product_sparse_one, calc_zchi2_batch (CPU and GPU), the CUDA kernels and their launch, calc_negOII_penalty, calc_zchi2, calc_zchi2_targets (serial, multiprocessing, MPI), solve_matrices (the numerical solvers are arguments).
* `rebin.py` — all functions including the CUDA kernel (Model_Rebin, Model_Piece).
* `igm.py` — the Inoue14 power laws, Calura12, Kamble20 and the dispatcher (Model_IGM); build_grid and copy_data_to_gpu are not.
* `templates.py` — Template, parse/make_fulltype, find_templates, header2templatefiles, load_templates, DistTemplate and its cycle, load_dist_templates, eval_model (Model_IO, Model_Tpl, Model_Piece, Model_MPI, Model_Targets2).
* `archetypes.py` — all but the GPU branches and the file reading (Model_Arch, Model_Desi, Model_FindArch); GPU rebinning in Model_Rebin.
* `targets.py` — Spectrum, Target, DistTargets, DistTargetsCopy, distribute_targets (Model_Targets, Model_Targets2, Model_Dist, Model_GPU).
* `utils.py` — get_mp, mp_array, distribute_work, reduced_wavelength (Model_Desi, Model_Targets2, Model_Dist).
* `priors.py` — all (lorentzien over R); `results.py` — write_zscan, read_zscan; `zwarning.py`, `constants.py` — values.
* `external/desi.py` — target selection, attaching spectra, masks, write_zbest/write_bestmodel order and atomic rename, broadcast of resolution data, rank capacities; `external/boss.py` — target ids, read_spectra (files, fibres, crop, resolution matrix), option checks, write_zbest.
* further files added later are listed with their properties (plan above).

Not modelled: floating-point rounding outside the Model_Float*, Model_Single files (chi2 sums, comparisons, minfit and output types in binary64/binary32 by Flocq; see the properties that use them); FITS/HDF5 byte formats and astropy tables (contents only); the numerical linear-algebra routines
(numpy, scipy, cupy: arguments with stated hypotheses); MPI and multiprocessing internals (FIFO channels, bags); GPU memory management and
streams; the drawing done by matplotlib (what `plotspec.py` hands to it is modelled); help texts and log messages; `bin/` scripts that build templates or time the code (`bin/wrap-redrock` is modelled).

## Testing the theorems against wrong programs
Each entry of seeded/LOG.jsonl is one edit of a model definition in a scratch copy, the claim it breaks and the theorems whose proofs then fail.
Edits that broke a claim without failing a theorem led to the tightened theorems named there. Entries without a claim are equivalent edits or positive controls (a repaired program must make a `_refuted` theorem fail).

## Assumptions listed by Print Assumptions
Generated by `tools/gen_assumptions.py` from what Coq prints; every axiom below is in Coq's standard library.

* **Closed under the global context** (529 theorems): C01_missing_chi2_leaves_helper_refuted, C01_missing_zwarn, C01_row_sort_is_dict_sort, C01_sort_zfit_dict_ranks, C02_all_or_nothing_refuted, C02_key_and_type_errors_leave_dict, C02_sort_by_cols, C02_sort_by_cols_last_first, C03_deltachi2_is_gap_to_next_good_fit, C03_lengths_and_last, C03_table_deltachi2, C04_deltachi2_nonneg, C05_small_deltachi2_iff_competitor, C05_table_small_deltachi2, C06_small_gap_is_flagged, C07_order_unchanged_refuted, C07_table_at_most_nminima_per_type, C07_trim_keeps_best_of_each_type, C08_best_fit_pca, C08_znum_and_best, C09_badfit_mask_is_five_bits, C09_bits_only_added, C10_nodata_and_coverage_flags, C11_negative_model_nearest, C11_negative_model_partial, C11_zero_amplitude_refuted, C12_coefficients_preserved, C12_uniform_width, C13_locality, C13_no_minima_raises, C13_one_block_per_target, C13_partial_minima_refuted, C14_finished_run_exists, C14_gather_delivers, C14_gather_terminates, C15_results_independent_of_distribution, C16_distribute_work_errors, C16_distribute_work_partition, C17_balance, C17_heaviest_first_greedy, C18_cpu_ranks_idle, C18_gpu_ranks_first, C19_array_split_covers, C20_finished_run_exists, C20_ring_each_slice_once, C20_ring_never_repeats, C20_ring_terminates, C21_distributed_scan_equals_serial, C22_scan_sorted_targets_partial, C22_scan_swaps_targets_refuted, C23_fit_schedule_independent, C24_enough_redshifts_partial, C24_more_ranks_than_redshifts_refuted, C25_rebalance, C26_failing_worker_hangs_refuted, C26_no_failure_terminates_partial, C27_empty_raises, C27_find_minima_exact, C27_first_is_global_minimum, C27_nan_is_no_minimum, C28_minfit_flags_bad_fits, C28_minfit_recovers_parabola, C29_best_minimum_fitted, C29_fitz_contract, C30_flags, C31_archetype_fit_consistent, C31_chi2_is_vertex_value_refuted, C31_coefficients_elsewhere_refuted, C31_coefficients_good_fit_partial, C32_no_prior_sigma_refuted, C32_prior_given_partial, C33_get_dv_monotone, C33_get_dv_swapped, C33_get_dv_value, C33_get_dv_zero_iff_equal, C33_merge_test_asymmetric_refuted, C33_merge_test_consistent_partial, C34_gaussian, C34_missing_target_unchanged, C34_own_row_used, C34_results_keep_shape, C34_zero_width_refuted, C35_all_minima_inside_partial, C35_edge_point_lost_refuted, C35_empty_window_no_minimum, C35_finite_points_inside, C35_outside_minimum_refuted, C36_brackets, C36_edges, C36_short_raises, C40_length_mismatch_refuted, C40_outside_raises, C40_terminates, C40_xmin_bypass_refuted, C41_last_edge_refuted, C42_shapes, C43_least_squares, C43_with_prior, C44_masked_pixels, C44_nan_refuted, C45_empty_sentinel, C45_nonnegative, C46_penalty, C47_bvls_in_bounds, C47_bvls_optimum_partial, C47_bvls_refuted, C47_nnls_nonnegative, C47_nnls_optimum_partial, C47_nnls_refuted, C47_nnls_single_partial, C48_amplitudes_not_negative, C48_columns, C48_disjoint_support, C48_layout, C48_only_amplitudes_bounded, C48_repeated_band_refuted, C49_independent, C49_one_at_a_time, C49_success, C50_defined, C50_order, C50_values, C50_values_cosmics, C51_cosmics_refuted, C51_order_irrelevant, C51_same_keys, C52_masked_refuted, C52_single, C52_unmasked_partial, C53_at_most_one_partial, C53_flat_partial, C53_refuted, C53_which_is_dropped_partial, C54_R_while_packed_refuted, C54_history_partial, C54_no_resolution_refuted, C54_rectangular_refuted, C55_low_resolution, C55_no_resolution, C56_cpu_fresh, C56_defined, C56_gpu_only_partial, C56_mixed_refuted, C56_one_degree_partial, C57_wavegrids_mpi, C57_wavegrids_serial, C58_igm_refuted, C58_masked_models, C58_row_of_target, C58_shared_hash_refuted, C58_target_models, C59_fulltype_injective, C59_fulltype_roundtrip_partial, C59_fulltype_roundtrip_refuted, C59_white_space, C60_file_roundtrip_partial, C60_file_roundtrip_refuted, C61_atomic_partial, C61_atomic_refuted, C61_zscan_atomic_partial, C61_zscan_complete, C62_select_nozfit, C62_select_partial, C62_select_refuted, C63_int8_exact_partial, C63_int8_refuted, C64_pack_injective, C64_pack_refuted, C64_pack_roundtrip_partial, C64_unpack_roundtrip, C65_boss_header_partial, C65_header_lists_templates, C65_header_refuted, C65_header_roundtrip_partial, C65_key_format, C65_path, C66_any_masks, C66_target_rows, C67_masks_partial, C67_mixed_masks_refuted, C68_target_list, C68_weights, C69_mintarget_alone_refuted, C69_negative_few_refuted, C69_negative_refuted, C69_no_options, C69_only_n, C69_outside, C69_per_file_refuted, C69_window_partial, C70_negative_ivar_refuted, C70_pixels_partial, C71_all_fibers_refuted, C71_bits_partial, C71_one_row, C71_reset, C72_model_complete, C72_model_rows_partial, C72_needs_outfile_refuted, C76_bounds_partial, C76_negative_refuted, C77_constant_refuted, C77_defined, C77_range, C78_split_roundtrip, C79_copy_ids_match_data_mpi_partial, C79_copy_ids_match_data_serial_partial, C79_copy_ids_match_data_serial_refuted, C80_few_targets_partial, C80_many_targets_refuted, C80_no_gpu_refuted, C80_weights_refuted, C81_band_refuted, C81_middle_refuted, C81_outer_points_partial, C81_regular_grids_partial, C82_prior_matrix, C82_zero_sigma_raises, C83_guard_differs_refuted, C83_rejects_valid_refuted, C84_bands_coadd_partial, C84_bands_partial, C84_coadd_refuted, C84_method_refuted, C85_cosmics_refuted, C85_resolution_refuted, C85_shared_resolution_partial, C85_uniform_weights_partial, C86_constructor_mutates_refuted, C86_unchanged_partial, C87_after_coadd_refuted, C87_no_coadd_partial, C88_default_R_dict_refuted, C88_default_R_refuted, C88_dict_partial, C88_with_R_partial, C89_scores_header_refuted, C89_secondary_headers_partial, C90_missing_file, C90_template_list_partial, C90_template_list_refuted, C91_skymask, C92_batches, C95_batch_partial, C95_rectangular_refuted, C95_scan_partial, C95_solver_failure_refuted, C96_any_order_plain, C96_any_order_transposed, C96_documented_product_partial, C96_documented_product_refuted, C96_reproducible, C97_fulltype_round_trip_partial, C97_names_identify_archetypes, C97_semicolon_refuted, C98_best_of_single_fits, C99_eval_is_fitted_partial, C99_other_transmission_refuted, C99_zero_archetype_refuted, C100_given_equals_computed, C100_transmission_consumed_refuted, C100_unchanged_partial, C101_prior_for_single_fits, C101_prior_only_per_camera, C102_common_polynomials_refuted, C102_nearest_archetypes, C102_no_prior_refuted, C102_too_many_refuted, C103_archetype_by_type_partial, C103_same_type_refuted, C104_direct, C108_default, C108_files_exist, C108_list, C108_load_pathlib_refuted, C108_opened_file, C108_pathlib_dir_partial, C108_pathlib_refuted, C108_text_path, C111_edges_same_as_wavelengths_partial, C111_stale_limits_refuted, C112_transmission_at_best_redshift_partial, C112_transmission_of_other_redshift_refuted, C113_balance, C113_mean, C113_no_group, C113_partition, C114_boss_ranks_refuted, C114_counts, C114_directory_name_refuted, C114_each_file_once, C114_goes_on_partial, C114_nothing_left_refuted, C114_plan_nodes, C115_details_not_inputs, C115_injective_partial, C115_log_directory_refuted, C115_log_partial, C115_names_partial, C115_outdir_collision_refuted, C115_outputs_not_inputs, C115_prefix_twice_refuted, C115_two_outputs, C116_avoided_directory_refuted, C116_none_found, C116_relative_refuted, C116_resume, C116_todo, C117_gap_refuted, C117_nothing_overwritten, C117_numbered_partial, C118_all_files, C118_at_most_two, C118_dryrun, C118_logs_kept, C118_never_run_refuted, C118_tries_partial, C119_boss_scale_refuted, C119_scale_partial, C119_time, C119_zero_processes_refuted, C120_chosen, C120_every_spectrum, C120_missing_or_repeated_refuted, C120_succeeds_partial, C121_one_plate, C121_same_object_partial, C121_unmatched_joined_refuted, C122_kept_partial, C122_last_pixel_refuted, C122_outside, C124_brick_truncated_refuted, C124_common_partial, C124_mixed_refuted, C124_one_row_each, C124_short_partial, C125_checks, C125_checks_without_mpi_refuted, C125_mintarget_alone_refuted, C125_rrdesi_checks, C125_window, C125_window_length, C126_any_order, C126_bad_value, C126_missing_value, C126_options, C126_parsers, C126_required, C126_unknown, C126_unknown_option, C127_joined_partial, C127_separate_word_refuted, C128_boss_refused_refuted, C128_desi_refused_refuted, C128_every_file_fails_refuted, C128_with_option_partial, C129_nminima, C129_no_prior_fails_refuted, C129_rrboss_archetypes_refuted, C129_settings, C130_ranks_partial, C130_zero_refuted, C131_all_asked, C131_model_alone_refuted, C131_no_target_refuted, C131_only_asked, C131_success_partial, C132_all_reachable, C132_history_partial, C132_inverse, C132_kept, C132_none_kept_refuted, C133_flux, C133_refuted, C134_badfit, C134_each, C134_faithful, C134_green, C134_labels, C134_shown, C134_unnamed_refuted, C135_keep, C135_label_refuted, C135_limits, C135_masked_refuted, C135_model_inside_partial, C136_curves_partial, C136_subtype_refuted, C136_truth, C137_archetype_partial, C137_archetype_refuted, C137_datatype, C137_files_refuted, C137_template_found, C138_all_or_none, C138_isolated, C138_neighbours, C138_order, C139_chi2, C139_coefficients, C139_no_template_lost, C139_row, C140_template_order_partial, C140_template_order_refuted, C141_no_data, C142_earlier_ignored, C142_last_of_a_name, C142_lengths, C143_batch, C143_template_data, C144_distributed_run, C144_mpi_gives_only_serial_table, C144_mpi_gives_serial_table, C144_too_many_ranks, C145_every_target, C146_distinct_targets, C146_fewer_templates_refuted, C146_grid_not_checked_refuted, C146_more_targets_refuted, C146_no_options, C146_other_grid_refuted, C146_reuse_partial, C146_same_rows_partial, C146_same_table_partial, C146_same_templates, C147_last_rank_partial, C147_mpi_fails_refuted, C148_in_the_file, C148_other_redshift_refuted, C148_twice_refuted, C149_first_decides_refuted, C149_legendre, C149_legendre_partial, C149_misaligned_refuted, C149_more_fits_refuted, C149_pca, C149_pca_cut_refuted, C149_shared, C149_sorted_together, C150_columns, C150_datatype_anywhere_refuted, C150_missing_refuted, C150_name_taken_refuted, C150_only_first_refuted, C150_succeeds, C150_types, C151_equal_numbers_partial, C151_no_targets, C151_outcome, C151_same_table_partial, C151_wrong_table_refuted, C152_own_data, C152_targetids, C153_fibermap_partial, C153_one_row, C153_targetids_refuted, C153_two_files_refuted, C154_absent_refuted, C154_complete, C155_dead_pixels, C156_allspec_refuted, C156_coadd, C157_mpi_gives_serial_table, C157_only_serial_table, C158_exact_solver_homogeneous, C158_refuted, C158_rrdesi_partial, C158_run_partial, C159_mixed_nodes_refuted, C159_rrboss_partial, C159_rrdesi_partial, C159_targets_on_root_only_refuted, C160_archetype_name_refuted, C160_archetype_read_refuted, C160_no_abort_refuted, C160_rrboss_partial, C160_rrdesi_partial, C161_cosmics_refuted, C175_last_window_refuted, C175_one_file_partial, C175_several_files_refuted, C176_best_row_refuted, C176_perfect_is_flagged, C176_recovered_partial, C179_long_type_refuted, C180_outcome, C180_same_table_partial, C180_wrong_table_refuted, C181_needs_all_bands, C181_some_bands_refuted, C181_table, C182_gathered, C182_mpi_files, C183_no_data_refuted, C183_reset_needs_galaxy, C184_any_listing_order, C184_directory, C184_file_or_default, C184_nothing_found, C184_slash_refuted, C184_value_in_name_refuted, C184_variables_partial, C186_last_name, C186_unreadable, C186_latest_version_refuted, C187_accepted, C187_any_file_refuted, C187_no_archetypes_refuted, C187_announced_refuted, C188_same_values, C188_seen_by_all, C188_copy_only_if_needed, C188_native, C188_order_of_file, C188_needed, C189_roundtrip_partial, C189_only_these, C189_exactly_these, C189_slash_refuted, C189_lost_refuted, C190_own_names, C190_one_after_other_partial, C190_last_step, C190_same_name_refuted, C190_never_missing, C189_target_ids, C189_repeated_target, C190_clobber_refuted, C190_name_taken
* **ClassicalDedekindReals.sig_forall_dec, ClassicalDedekindReals.sig_not_dec, Classical_Prop.classic, FunctionalExtensionality.functional_extensionality_dep** (99 theorems): C34_lorentzien, C37_bin_average, C38_flux_conserved, C38_rebinning_range, C38_split_bin, C39_bounded, C39_constant, C39_linear, C40_inside_succeeds, C41_gpu_equals_cpu_partial, C42_batch_is_pointwise, C58_eval_is_fitted_partial, C73_array, C73_blue, C73_decreasing_obs, C73_decreasing_rest, C73_range, C73_red, C74_same, C74_skip_is_identity, C74_when, C75_hole_refuted, C75_inoue_partial, C75_low_z_refuted, C93_empty, C93_entrywise, C93_unknown_model, C94_inoue_partial, C94_short_wavelength_refuted, C104_what_the_file_says, C105_accepted, C105_bad_text, C105_grid, C106_asked_range_partial, C106_asked_range_refuted, C106_ignored, C107_all_used_partial, C107_all_used_refuted, C107_last_wins, C109_rows, C109_slices_join, C110_refinement_never_fails, C123_flat_refuted, C133_scaled, C133_zero_partial, C145_succeeds, C161_files_partial, C161_own_data_partial, C161_spectra, C162_a_number_partial, C162_a_number_refuted, C162_never_negative, C163_masked_pixels_partial, C163_masked_pixels_refuted, C164_accuracy_partial, C164_order_refuted, C165_deltachi2, C166_close_means_flag_partial, C166_close_means_flag_refuted, C166_flag_means_close, C167_in_range_partial, C167_in_range_refuted, C167_increasing_partial, C168_between, C168_increasing_partial, C168_increasing_refuted, C169_in_range_partial, C169_in_range_refuted, C169_shape, C169_spacing_partial, C170_equal_edges_refuted, C170_every_redshift, C171_not_negative_partial, C171_not_negative_refuted, C172_flux_accuracy_partial, C172_masked_partial, C172_one_exposure_refuted, C172_weight, C173_flat, C174_velocity, C177_deltachi2_partial, C177_deltachi2_refuted, C177_details, C177_finite_refuted, C177_order, C177_redshifts, C177_strict_order_refuted, C178_minfit, C178_not_a_number_refuted, C178_parabola, C178_row, C178_unflagged, C179_models_partial, C179_same_prefix_refuted, C181_model_file_partial, C183_reevaluated_partial, C185_missing_file, C185_options_refuted, C185_same_templates_partial
* **ClassicalDedekindReals.sig_forall_dec, ClassicalDedekindReals.sig_not_dec, FunctionalExtensionality.functional_extensionality_dep** (6 theorems): C28_error_is_width, C70_sigma_test, C123_columns_sum_to_one, C123_entries, C123_flux_conserved, C123_not_negative
* **ClassicalDedekindReals.sig_forall_dec, FunctionalExtensionality.functional_extensionality_dep** (4 theorems): C37_interpolant_exists, C37_rest_frame, C123_band, C123_widths
