# Formal model of SeisMIC in Rocq/Coq 8.16 — design

## Layout

* `rocq/theories/Lib/` – executable models of the few Python/numpy/h5py/obspy primitives that SeisMIC code
  is written in (slices, `fnmatch`, string order, `arange`, list sorting, …), with proofs of their basic laws.
* `rocq/theories/Model/` – the model proper: small total Gallina functions that mirror the functions in
  `/repo/src/seismic` branch by branch; each definition cites the file and lines.  No proofs.
* `rocq/theories/Spec/` – the small, independent specifications against which the properties are stated.
* `rocq/theories/Proofs/` – all lemmas.
* `rocq/theories/Props/` – one file per group of properties. Contains only the property theorems
  (`Theorem … Proof. exact … . Qed.`), `Print Assumptions`, and non-vacuity `Example`s.

Conventions: a property that the code violates is proved as `…_refuted` (a concrete counterexample, found by reading
the code and evaluated by the kernel); the strongest part that does hold is then proved as `…_partial`
with the missing part named.  Exceptions are values of type `result`.

## Modelling decisions

* Times (`UTCDateTime`) are integers (`Z`) counting nanoseconds; numpy time stamps (floats) are treated as exact.
* Floating point numbers are rationals (`Q`) or, where square roots/trigonometry matter, reals (`R`); NaN is `None`
  in `option Q`.  Rounding of float arithmetic is outside of the model unless a theorem says otherwise.
* Strings are Coq `string`s (bytes); Python compares by code point, which agrees for the ASCII codes of networks,
  stations, channels and paths.
* MPI: `psize` and `rank` are parameters; collective operations are events; `Allreduce(SUM)` is the sum over ranks.
* HDF5: a file is a tree of groups and data sets, keys in alphabetical order as h5py iterates them.
* External libraries (obspy I/O, FFT, filters, scipy interpolation) are parameters of the model (`Section` variables that become
  universally quantified arguments) or are replaced by their documented mathematical meaning; each use says so.

## Per property: model and proof plan

| id | modelled | plan |
|----|----------|------|
| C01 | index map `floor(i*p/n)`, selection by rank | arithmetic on `Z`; partition, contiguity, balance; float rounding of the map via Flocq |
| C02 | rows distributed over ranks, rank-local processing, sum-reduction; `spectralWhitening`'s all-or-nothing error branch | sum over ranks collapses for row-wise functions; counterexample for whitening |
| C03 | per-rank event traces of the correlation loop | equality of traces under stated conditions; counterexamples (processing error, gaps) |
| C04 | flush loop of `pxcorr` | induction over windows; crash = prefix of the loop |
| C05 | same | counterexample; characterisation of what a batch is |
| C06 | `calc_cross_combis` | membership ⇔ spec predicate, `NoDup` |
| C07 | `is_in_xcombis` with full `fnmatch` | completeness; counterexample (prefix) |
| C08 | pruning loop | re-indexing lemma over filtered lists |
| C09 | name sorting by concatenation | symmetry when concatenations differ; counterexample |
| C10 | existing-data dictionary, store key, lookup key | soundness; counterexamples for prefix names |
| C11 | `_write` | uses C01 + grouping by code |
| C12 | `_pxcorr_inner`, `alphabetical_correlation`, header lags | off-by-one counterexample; correct when the true end lag is passed |
| C13 | `CorrStats.__setitem__`, update, constructor | invariant by induction over operations |
| C14–C17, C20 | HDF5 tree, `DBHandler` methods on path strings | refinement to a finite map; counterexamples for wildcards/ordering |
| C18 | option dictionaries, `co_to_hdf5`, open check | idempotence/decision theorems; counterexample for adjacent mask steps |
| C19 | constructor logic | case analysis |
| C21–C25 | `CorrStream`/`CorrBulk` operations | list induction, rational arithmetic |
| C26–C29, C48, C49, C51 | `make_time_list`, `corr_mat_*` | list/index arithmetic |
| C30, C31 | window index sets, similarity, arg-max | index arithmetic; Cauchy–Schwarz over `R` |
| C32–C35 | file grouping loop (fuel), averages over `option Q`, filters, `np.roll` | loop invariants; counterexamples |
| C36–C40 | day splitting, coverage check, assertion, folder search, adjacent dates | induction on days; counterexamples |
| C41, C42, C50 | masks, gaps, muting | index arithmetic; counterexamples |
| C43–C45 | header save/load, DV save/load, alignment, grid lookup | round trip; counterexamples |
| C46 | circular versus linear correlation | sum re-indexing; counterexample for fractional lag |
| C47 | round-robin distribution, gather, sort | permutation + sort uniqueness; counterexample |
| C52 | option translation | case analysis against a relational spec |
| C53 | list of files with histories, `Rerun.v`: crash after any addition, second run skips what exists | induction over the batch; counterexample with stacks |
| C54 | `LagMatrix.v`: stretch/shift measurement as a function that also returns the caller's header | state equality; counterexample for asymmetric axes |
| C55 | `Archive.v`: obspy merge/write on sample grids, append to a day file | exact success condition; union |
| C56, C57 | `Spectral.v`: real DFT sums, normalisation, lag selection | Cauchy–Schwarz, re-indexing of sums over the reals |
| C58 | `Stations.v`: constructor as a function from options to options | state equality; counterexample for all station lists |
| C59–C64 | `TimeDomain.v`, `FreqDomain.v`: one function per preprocessing step, over lists of reals | pointwise specifications; counterexamples for all inputs where a step fails |
| C65 | `Smoothing.v`: averages of similarities, `nan_to_num` arg-max | loop invariants; counterexamples |
| C66, C67 | `Reference.v`: normalisation windows, mean / percentile reference extraction | exact rationals and reals; order statistics |
| C68–C71 | `Shift.v`: shift and stretch grids, spline as parameter with the property that it reproduces a waveform | composition of shifts; counterexamples on concrete axes |
| C72–C75 | `MultiRef.v`: weighted offsets, least squares with any pseudo inverse, alignment by rolling rows | linear algebra over the reals; counterexamples |
| C76–C80 | `Averages.v`: averages over components and areas, stitching | list induction; counterexamples |
| C81–C86 | `Wfc.v`: coherences, averages, grids, files, jobs | Cauchy–Schwarz; grouping invariants; file round trip |
| C87–C91 | `Gaps.v`: traces on a sample grid, split/merge/trim/slide of obspy, gap handling, windows | lookup semantics of runs; each-part theorem; arithmetic of windows |
| C92 | `Inversion.v`: least-squares inversion of velocity changes as matrices over any ordered field | completing the square; positive definiteness |
| C93 | `GridInversion.v`: covariance exp(-d/L) of grid cells, inversion of a whole grid | kernel exp(-d/L) is positive definite in the plane (average over directions); then C92 |
| C94–C96 | `Kernel.v`, `FloatAxis.v`: sensitivity kernels by the trapezoidal rule, axes of times, data variances | exact condition under which the axis of times fits; binary64 counterexample |
| C97, C98 | `HeaderIO.v`: entries of a header as a sum type, texts of times, a switch for older versions of obspy | parsing undoes printing; case analysis |
| C99–C101 | `DVGrid.v`, `GridCalls.v`: the grid as an object with kept kernels, distances, stations and model; calls as transitions | invariant of what is kept; permutation matrices; counterexamples |
| C102, C103 | `MonitorRun.v`: the loop over correlation files on several processes, result files as a map | each file once; the results equal those of one process; counterexamples with copies of files |
| C104, C105 | `VelocityChange.v`: one measurement from reading to writing with all options | equality with the composition of the documented steps; counterexamples per option |
| C106, C107 | `MultiTrace.v`: windows of several references | arithmetic of windows; permutation invariance |
| C108, C109 | `ReadFiles.v`: a directory tree with one name per period, the loops that look for the preceding and following file | loop invariant over adjacent periods; calendar arithmetic; counterexamples |
| C110–C113 | `StoreClient.v`: archive, server and failures as a state machine of requests and downloads | invariant over every history; counterexamples |
| C114–C116 | `Amplitude.v`: clipping with missing samples | nearest point of an interval; Chebyshev's inequality; counterexamples for all constant traces |
| C117 | `Amplitude.v`: obspy's cosine taper by index | closed form by the distance to the nearer end |
| C118 | `Amplitude.v`: analytic signal by the full discrete Fourier transform | sums over a full period, pairing of frequencies |
| C119, C120 | `Amplitude.v`: folding, average envelope, least squares line | normal equations; exact fit; counterexample for one-sided axes |
| C121–C124 | `Metadata.v`: known metadata, files of metadata and answers of a server as a state machine | invariant over every history; counterexamples of two requests |
| C125–C127 | `Metadata.v`: the loops over pairs of stations with downloads on the way; then `Combos.v` | coordinates once known stay; list of pairs in closed form; prefix counterexample |
| C128–C130 | `DataLoop.v`: reads, shares of channels, windows and collective calls of every process | closed form of the windows of all processes; consecutive shares concatenate |
| C131, C132 | `DataLoop.v`: failures of one channel; preprocessing of windows | same closed form under stated conditions; counterexamples with one and two processes |
| C133 | `WindowCorrelation.v`: cells of masked arrays (mask, number below); the matrix copies what is below the mask | maps over cells, for all masks; one masked sample as counterexample |
| C134 | `DataLoop.v`, `WindowCorrelation.v`, `Spectral.v`, `MpiMatrix.v` composed: from the archive to the rows on p processes | closed form of the windows, then the theorem on the transforms |
| C135 | `SpectrogramReads.v`: the reads of compute_spectrogram, the grid of windows within each read and their concatenation | the windows of consecutive reads concatenate to one grid; counterexamples for other increments and late data |
| C136 | `ClockShift.v`: cutting of the data, of the references and of the header by corr_mat_shift | closed form of the header after cutting; the object keeps its data but not its header |
| C137 | `StreamSteps.v`: the loop over vertical channels with the exception that ends it | induction over the stream |
| C138 | `StreamSteps.v`: selection of the steps, resolution of the path of a function, exceptions | equivalence with an inductive relation; splitting at the last dot |
| C139 | `FDFilter.v`: nearest frequencies, moved apart if equal, and the weights of the three parts of the taper | nearest samples on an equidistant axis; monotonicity of the cosine |
| C140 | `Tsvd.v`: pseudo inverse from any singular value decomposition; the method on the state of `GridCalls.v` | orthogonality of the residual and of the null space; two decompositions agree on functions of the singular values |
| C141 | `RunToFiles.v`: composition of the models of the windows, pairs, correlations, headers, batches and files | windows are right (C128), pairs are exact (C06), correlations are lagged sums (C134), keys are distinct, histories of files (C14) |
| C142 | `RunToFiles.v` | counterexample: two locations of one channel |
| C143 | `RunToFiles.v`: stopped runs (`progress`, `stopped_run`), `Rerun.v`: the search for existing correlations | invariant: the directory holds part of the correlations of the run (`part_of_run`); the search finds none but these (C10), and all of them unless requests are in another form; the run adds what was not found, and adding a correlation again leaves a file as it is; counterexample: a file without correlations |
| C144 | `RunToFiles.v`: `subdiv_used` | counterexample: a run that is stopped after the first window and started again stores a different correlation for the second |
| C145 | `RunToFiles.v` as in C143; `MonitorFiles.v`, `MonitorRun.v`: `corr_find_filter`, `plist`; `CorrDB.v`: `get_data`; `CorrStream.v`: `create_corr_bulk`; joined in `MonitorInput.v` | the directory holds a list of correlations (C143); names of files parse back into the codes; the answers of the database are sorted by name, and times of equal length are ordered like their names (C16), so the rows are in the order of time |
| C146 | `MonitorDV.v`: `compute_velocity_change`, joined from `MonitorInput.v`, `LagMatrix.v`, `Reference.v`, `VelocityChange.v`, `MonitorRun.v` | the matrix of C145 is normalised, averaged over the dates, filtered row by row and measured (C104); the work of the processes commutes since each combination has a file of its own (C102); rows equal to the reference are measured with stretch zero |
| C147 | `Recombine.v`: `to_store`, `write_options`, `stopped_writing`, `run_options`; `CorrStream.v`: `stack` | the files are lists of additions with two tags (C20); the stacks are those of C24, one for each pair of a batch; counterexamples: other batches, stopped before the stack |
| C148 | `Recombine.v`: `stopped_between`; `Rerun.v`: `find_existing_times` | invariant: the files hold the batches that were stored, each with its stacks; the search of C143 for general histories; files without the group make the search raise |
| C149 | `BulkFile.v`: `save_bulk`, `read_bulk`, `new_bulk`, `note` | case split over the kinds of header entries, induction on the header; the refuting theorems hold for all usual headers |
| C150 | `Detrend.v`: `detrend`, `detrend_scipy`, `detrendqr`, `demean`; `TimeDomain.v` | case split over the options; the residuals of the QR solution are those of C61; the refuting theorems hold for all matrices with a missing sample, or any sample |
| C151 | `Startup.v`: `start`, `stations`, `search`; `Stations.v`; the machine of `Collectives.v` | each broadcast is performed by all processes or by all but the first; case split over the forms of the settings |
| C152 | `RunStart.v`: `begin_run`, `existing`; `Rerun.v`; the machine of `Collectives.v` | as C151 |
| C153 | `MonitorProcs.v`: `velocity`, `coherence`, `share_list`; `MonitorRun.plist`; the machine of `Collectives.v` | as C151; shares of the processes concatenate to the list (C01); a process that has returned blocks every later collective |
| C154 | `MonitorStart.v`: `monitor_start`, `monitor_script`; `MonitorProcs.v`; the machine of `Collectives.v` | as C151; sequential composition of the programs |
| C155 | `CorrScript.v`: `corr_script`, `embed`; `Startup.v`, `RunStart.v`, `Collectives.v` | a program that performs the collectives of another one step by step is simulated by it; composition of C151, C152 and C03 |

## What is modelled and what is not

Modelled, function by function, with the lines cited in `Model/`: distribution over processes, the correlation loop and
its collectives, selection and naming of pairs, header arithmetic, the HDF5 data base, existing data and reruns,
correlation streams and bulks (stacking, filters, matrices, resampling, trimming, mirroring, tapering), preprocessing
functions in time and frequency domain, gap handling and windows, references, measuring and applying
stretches and shifts, multi-reference combination, velocity changes (measurement from file to file, averages, files, alignment, spatial grid
lookup, kernels and inversion), waveform coherences, the local archive (day files, coverage, search, adjacent files, directory trees,
requests to a server and bulk downloads as a state machine), masking, spectrograms, option checks, station metadata and the selection of pairs by distance.

Parameters or documented meaning only: FFT (as its defining sum where it matters, otherwise any function),
IIR filters (any function that keeps the length), splines (any function with the stated reproduction property), pseudo inverse (any
matrix with A P A = A), obspy's `read`/`write`/`merge`/`split`/`trim`/`slide`/`select` (on sample grids, without overlaps
of different data), h5py (a tree with sorted keys), numpy's `savez`/`load` (a dictionary of arrays), MPI (collectives match in order).

Not modelled: plotting, logging, progress bars, the protocol of FDSN servers (a server is any function from requests to data), instrument responses, numerical quality of filters and
interpolation, rounding of floating point arithmetic (except `C01_float_map_exact`, `C50`), file-system races, crashes inside a library's write.

Findings: every theorem whose name ends in `_refuted` is a case in which the code at the pinned commit violates the property;
the note of the claim in `MANIFEST.json` says in words what happens.

## Trusted base

* Coq's kernel (8.16.1; `coqc`, and `coqchk` over all compiled files).  No plugins, no axioms of our own, no kernel check switched off.
* The faithfulness of the reading of `/repo` that is recorded in the citations of each definition in `Model/`,
  and of the few external functions listed above.
* The axioms that `Print Assumptions` lists.  Every theorem in `Props/` is followed by that command; the union per property is:

| axioms (all of Coq's standard library) | properties |
|---|---|
| none (closed under the global context) | C02–C30, C32–C45, C47–C48, C51–C55, C58, C65, C76–C80, C85–C86, C90–C92, C97–C98, C102–C103, C108–C113, C121–C132, C135–C138, C149, C151–C155 |
| `ClassicalDedekindReals.sig_forall_dec` | C133 |
| `ClassicalDedekindReals.sig_forall_dec`, `FunctionalExtensionality.functional_extensionality_dep` | C71–C75, C82–C84, C150 |
| `ClassicalDedekindReals.sig_forall_dec`, `ClassicalDedekindReals.sig_not_dec`, `FunctionalExtensionality.functional_extensionality_dep` | C31, C46, C49–C50, C56–C57, C59–C64, C66–C70, C81, C87–C89, C94–C96, C104–C107, C114–C118, C134, C139, C141–C148 |
| `ClassicalDedekindReals.sig_forall_dec`, `ClassicalDedekindReals.sig_not_dec`, `Classical_Prop.classic`, `FunctionalExtensionality.functional_extensionality_dep` | C01, C119–C120 |
| `ClassicalDedekindReals.sig_forall_dec`, `ClassicalDedekindReals.sig_not_dec`, `ClassicalEpsilon.constructive_indefinite_description`, `Classical_Prop.classic`, `FunctionalExtensionality.functional_extensionality_dep` | C93, C99–C101, C140 |

`sig_forall_dec`, `sig_not_dec` and `functional_extensionality_dep` come with the construction of the real numbers in
the standard library; `classic` is used by Flocq in the one theorem on binary64 rounding (`C01_float_map_exact`);
`classic` and `constructive_indefinite_description` decide equality and order of real numbers where they serve as a field for matrices (C93).

## Tests with wrong programs

`seeded/LOG.jsonl` records edits of the model in a scratch copy, each in the way of a realistic bug, and what the rebuild gave.
How its fields are to be read:

* `theorems_failed` lists the theorems whose committed proof no longer goes through, or rests on a lemma whose proof no longer does.
  A lemma that fails is admitted in the scratch copy so that the build can go on, and `Print Assumptions` shows which theorems use it.
* A proof that fails does not by itself show that the statement is false of the edited program.  It may only follow the text of the
  definition.  The list is therefore an upper bound on the theorems that the edit makes false, and an edit counted as caught
  has not in general been shown to refute one of them.  Entries whose edit is known to leave the claims true say so.
* A file that takes more than 400 s after the edit also counts as a failure, at the command where it was stopped.
* An edit after which the model, or a statement, no longer compiles or runs out of memory tells nothing about the theorems.
* A theorem that survives is the informative outcome: either the edit does not break it, or it is too weak and was tightened.
