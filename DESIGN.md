# Formal model of pyoof in Rocq (Coq 8.16.1)

## 1. What is here

| path | content |
|---|---|
| `properties.jsonl` | the English properties (generated by `tools/mkprops.py`) |
| `rocq/theories/` | model (`M*.v`), specifications (`S*.v`), proofs (`P*.v`), property theorems (`T*.v`) |
| `MANIFEST.json` | property -> theorem names, status |
| `seeded/LOG.jsonl` | wrong-program experiments: edit of the model, theorems that then fail |
| `tools/` | helper scripts (not part of the proof) |

File roles: `M*.v` contain only definitions, each with a comment citing the
lines of `/repo` it models.  `S*.v` contain the small independent
specifications.  `P*.v` contain lemmas.  `T*.v` contain only the property
theorems (closed by `exact`), `Print Assumptions`, and one `Example` per
theorem with a concrete non-trivial instance of its hypotheses.

## 2. Modelling decisions

* **Numbers.**  Python floats are modelled by exact reals (`R` of the standard
  library) without rounding.  Where the code depends on NaN/infinity
  (`nan_to_num`, 0/0, negative base with fractional power, `arctan(inf)`),
  values are `num := Fin r | PInf | NInf | NaN` with numpy's rules.  Rounding is
  not modelled except where stated (`int((sqrt(1+8k)-3)/2)`, `norm`, `U`, `wavefront`,
  `transform`, `itransform`, `rms`, `e_rs`, `linspace`, the rim of the dish, the axes, `phase`, `aperture`, `radiation_pattern` and `residual_true` of a manual telescope with parabolic taper (up to the pattern: gaussian too) are treated in Flocq binary64).  Signed zero is not modelled.
* **Units.**  astropy quantities are their SI value (metres, radians).  Unit
  conversion itself is not modelled, except where a property is about it.
* **Arrays.**  1-D arrays are `list`; 2-D arrays are `list (list _)`, rows first,
  as printed by numpy.
* **Exceptions** are values: `res A := Ok a | Err e`.
* **External calls** are explicit universally quantified function arguments
  (oracles): scipy `least_squares`, `griddata`, `RectBivariateSpline`,
  the float32 rounding of FITS columns, the clock.  A theorem that needs an
  assumption on them states it as a hypothesis.
* **File system** is a finite-support map from path to node with the operations
  the code uses (exists, makedirs, write file, read file).  Programs over it are
  a free monad, so the same program text has a sequential run, a run cut after
  any number of steps (crash) and interleaved runs (schedules).
* **FFT** is modelled by its definition, the DFT sum over complex numbers.

## 3. Properties: what is modelled and how it is proved

C01 Rodrigues: model `R` as the code's finite sum; spec is `Derive_n` of
`t^a (t-1)^b`; binomial expansion + n-th derivative of monomials.
C02 rim/centre: C(b,s)C(n-s,b) alternating identity by induction.
C03 bound: rotate the monomial basis: R(n,m,cos t) is a matrix coefficient of an
orthogonal action on binary forms; Bombieri norm is preserved, so |R|<=1.
C04 orthogonality: RInt over theta of trigonometric products, RInt over rho of
the radial products by repeated integration by parts / finite-difference identity.
C05 validation: case analysis over a Python value type for the index.
C06 symmetry: parity of exponents, trig shifts.
C07 enumeration: induction on the order over the list comprehension.
C08 triangular sizes: integer arithmetic with Flocq `Ztrunc`; binary64 version with Flocq.
C09 linearity: induction on the coefficient list.
C10-C12 phase: pixelwise unfolding over linspace/meshgrid, list-level induction.
C13-C14 norm: lists of `num`; min/max lemmas.
C15 cart2pol: model arctan2 by quadrant, spec is the polar decomposition.
C16-C17 rms: lists of `num`; circ returns the result and the mutated array.
C18 e_rs: monotonicity of exp.
C19-C20 co_matrices: exact Gauss-Jordan elimination on lists of rows (MCoMat.v);
correctness of the inverse by an invariant of the elimination; Cauchy-Schwarz in
the inner product of inv(J^T J).
C21 line: field.  C22 snr: list of masked pixels.
C23-C26 telgeometry: the sequence of masked assignments on a point; real algebra.
C27-C28 illumination: `num`-valued; Rpower for non-integer q.
C29-C33 aperture/FFT: Coquelicot complex numbers, DFT sums; Parseval through
geometric sums of roots of unity.
C34 residual: model with the interpolator defined (bilinear on the grid).
C35-C37 params_complete: np.insert/np.delete on lists; induction on the sorted list.
C38-C45 fit_zpoly and storage: file-system programs; invariants over steps.
C46-C47 strings: Coq `string`, models of `replace`, `os.path.split`, `splitext`.
C48-C50 simulate: FITS file as a record; trimming on sorted axes.
C51 uv_ratio.  C52-C53 transforms: rot90 on matrices, clip.
C54 look-up files: writer and reader over characters; decimal printing/parsing.
C55-C59 actuator model: `num`-valued maps as lists of rows, induction over the
elevations; positions by exact trigonometry.
C60 interp=False: shape arithmetic of numpy broadcasting.
C61 tilt: shift theorem of the DFT sum.
C62-C64 fit_zpoly: completion on valid input, the files of one order belong
together, what a crash leaves: invariants over the steps of the program.
C65-C66 uniqueness of Zernike coefficients on a grid, fit_all inverts
generate_phase_pr under a stated property of the solver (it returns a zero of
the residual when there is one).
C67 cut look-up files: prefixes of the written text through the reader.
C68 constructor maps, contour levels (sorting).
C69 layout of observation files; C70 concurrent simulations (schedule exhibited).
C71-C72 table_pyoof_out: program over the stored files of finished runs.
C73 aperture averages: integrals over the disk by orthogonality.
C74-C78 figures: every figure is the list of what its panels show (arrays, axes,
limits, labels); the theorems describe these lists.
C79 simulator, file, reader and residual composed: the residual vanishes at the
true parameters; stability of the normalisation bounds it under noise.
C80-C82 the batch scripts: loops over `fit_zpoly`, induction over the files; the
MPI version by a rely/guarantee argument over any number of processes (each
process owns the numbered directories of its names).
C83-C84 the simulation script: simulator, reader and figure composed.
C85-C87 create_lookup.py: a run that ends is inverted step by step into the
specification of the new table (SLookup.v); the gravity fit is determined column
by column by three elevations; frame by the calls the program can make.
C88 `plot`: what each of the eleven panels shows (SPlot.v), for any maps and for
the phases of a look-up file.
C89 far field: the discrete transform's phases are those of the path differences u x + v y
(SRad.v), up to a common factor; the residual is inverted step by step into data minus
modelled map, both scaled.
C90-C91 order of files: an invariant over the steps of the program (the files created so
far are a prefix of the specified list, SOrder.v, and all but the last are complete);
the run of N+k orders starts with the run of N orders.
C92 observations to look-up table: composes C80, C71 and C85-C87.  SChain.v says which
observations count and what the optimizer found for them (an inductive relation over the
orders); shown equal to the rows that create_lookup selects, by the frame of the batch.
C93 figures of create_lookup.py: the program returns what its four figures show
(`create_lookup_plots`, of which `create_lookup` is the run); inverted into C88 for the
maps and into SLookFig.v for the panels of the gravity fit.
C94 orders: padding with zeros commutes with `params_complete` and leaves the wavefront
unchanged (C09); the optimality of the optimizer's answers up to a tolerance (SBest.v) is a
hypothesis.  The
counterexample computes a 2 x 2 transform.
C95 repetition: gain and offset leave the objective unchanged (C14), so the two runs ask
the optimizer the same question, order by order; the results in SRepro.v.  The optimizer is
a function of its arguments: a randomized one is not covered.
C96 recovery: composes C79 (the simulated parameters explain the simulated maps), C94
(padding with zeros) and the optimality of the optimizer's answers up to a tolerance, which
is a hypothesis; that only parameters nearby explain the maps within the tolerance is one
too, shown for a tilted telescope.  The tolerance matters: an exact answer makes the code
raise (C97).
C97 covariances: `or_comat` is instantiated with the model of `co_matrices` (C19, C74);
SCov.v says what the Jacobian of least_squares is (derivatives or difference quotients of
the objective).  The refutation uses C32: the objective does not depend on the amplitude.
C98 gain: SGain.v defines sums over the samples, the phase of the aperture and weighted
variance; 1 - t^2/2 <= cos t for every pair of samples gives the bound.  Ruze's formula is
compared with the loss it approximates.
C99 stability: a chord is at most its arc, and a series is at most the sum of its
coefficients on the disk (C03).
C100 reflections: SMirror.v lists the signs; term by term with the angles -t, pi - t,
pi/2 - t, then the far field of C89.
C101 conventions: SConv.v says what is recorded under the other convention and which
parameters describe the same telescope; C100 and conjugation of the far field (reversed
radial offset: the field becomes its complex conjugate, mirrored) give equal residuals,
C96 carries them to the stored fit.
C102 signal-to-noise ratios: SSnr.v defines maps with missing pixels, their peak and noise
values; `griddata` and rounding stay oracles.
C103 units: SScale.v multiplies every length by s; the polar angle, r / pr, opd / wavel and
the axes do not change; then as C101.

C104 best fit: PBox.v proves that a function on a box of any dimension that nowhere jumps down
has a smallest value (compactness by induction on the dimension, from the completeness of the
reals). PLip.v bounds the change of one residual entry by the change of the coefficients, from
C99 and the contrast of the modelled maps; the allowed vectors of a configuration are a box
(excluded parameters have equal bounds). The amplitude is treated apart: C32 for amplitudes
other than 0, and the explicit residual at 0. SLip.v states when maps are comparable with a
model and when modelled maps vary; the tilted telescope of C96 is the example.

C105 many fits: interleave_all (MScript.v) gives one atomic file-system operation of a chosen
process per turn. PPool.v proves by rely-guarantee, with one invariant per process, that each
region is as a number of steps of the lone run leave it; PPool2.v proves termination under
every fair schedule (each program has finitely many steps left) and the state after a power cut.

C106 rounding errors: MFloat.v repeats the branches of R, U and wavefront with every operation
rounded (Flocq, FLT without overflow) and with power, sine and cosine as arguments; the Python
integers are exact until they meet an array. PRound.v gives one lemma per operation and sums the
errors; the absolute coefficients of R add up to Delannoy numbers, at most (5/2)^n. From n = 21 on
the factorials leave int64 and numpy behaves differently: not modelled. C52_binary64 does the
same for transform and itransform, with the unit conversions of astropy as multiplications.

C107 looking at earlier results: SWatch.beside gives one program turns beside a pool of others. A
program whose lone run succeeds and only reads gets the same answers in every state that leaves what
exists unaltered (PWatch.steady), and C105 says that every intermediate state does. Not claimed for
the directory that a fit is writing: a csv file cut off in the middle can be read.

C108 rms and e_rs in binary64: MFloat2.v has a sum as a tree of rounded additions, because numpy
does not fix the order; SRound2.adds says which trees add a list. PRound4.v bounds the error of a
tree of non-negative summands by its depth. Square root and division are correctly rounded.

C109 grids, rim and axes in binary64: MFloat2.v follows numpy's linspace and fftfreq. The step x[1] -
x[0] loses accuracy by cancellation, hence the factor N in the bound for the axes. The rim: with n
even the coordinates are odd multiples of r/(n-1), and the sum of two odd squares minus an odd square
is odd, so no point is on the rim or within the rounding errors of it.

C110 the phase map in binary64: MFloat3.v follows `phase` with the grid, cart2pol and the wavefront in
binary64. The polynomials are Lipschitz in Cartesian distance (PRound8.W_lip: n (5/2)^n, from R and
its derivative being bounded by the Delannoy numbers), so rounding the coordinates is harmless even
at the origin and at the cut of arctan2; PRound9.v adds up the errors.

C111 order of the readings, broken readings: SShuffle.v describes an observation as a list of maps,
each a radial offset and a list of readings (u, v, value). PShuffle.v splits residual_true into one
function per map and shows that it maps a function over the readings that depends only on the set of
readings (minimum and maximum do not depend on the order). Broken readings: norm turns a map with a
non-finite reading into zeros (C13_nonfinite), hence the fit does not see its data; stated for the
residual and for the files that fit_zpoly stores.

C112 phase map and aperture field: both are the same Zernike series, one on the pixels and one inside
a complex exponential; PField.v relates them through C10, C11 and C29, and cancels the field of the
perfect telescope where it is not zero.

C113 aperture field and radiation pattern in binary64: MFloat4.v follows `illum_parabolic`,
`opd_manual`, `block_manual`, `aperture`, `radiation_pattern` and the power operation by operation;
powers, exp10, absolute values and the FFT are functions of the numpy build with a stated accuracy
(SRound3.accurate_maths, accurate_fft). Samples must be clear of the edges of the blockage by 100 e
of the box (otherwise a rounding moves a sample across an edge). PRound10-12.v bound taper, path
difference and blockage, PRound13.v adds up the field, the transform (linear, so the error is at most
the sum of the errors) and the power. PRound14.v has a concrete dish that meets every hypothesis.

C114 residual in binary64: MFloat5.v follows `residual_true` with every operation of the interpolation, the
normalisation and the difference rounded.  The cell of a point in the rounded grid may differ from the exact one;
PRound15.v shows that the position in units of cells moves by 4 N^2 2^-50 + 4u, and a piecewise linear function with
it by that much times its largest step.  Normalisation: a quotient of two rounded differences (C114_norm), and the
stability of the normalisation under errors small against the contrast (PEnd.norm_close, also used by C104).
Assumptions: points off the border of the grid, readings equal or further apart than 2^-900, no overflow.

C115 settings of the scripts: the dictionaries of telescopes, the largest order and the arguments of the simulation
as written; `SSetup.dish` and `SSetup.shadowed` describe the open aperture, the rest follows from C25, C80 (whose
`SScript.belongs` now lists everything a run creates) and C79.

C116 failing system calls: `MFault.run_bad` runs the same programs with any set of calls refused.  Proved for every
program that after a refused call raises, or (os.makedirs) finds the directory there (`PFault.tame`, checked function
by function in PFault2.v).  os.path.exists and os.path.isdir never raise: with them failing too (`stat = true`) a fit
can overwrite an earlier run (C116_unanswered_refuted).

C117 looking at unfinished runs: every complete file of a state that a fit passes through is a file of its final state
(`PLook.agree_cut`, from C16), so a reader that fails on every other file returns only final results; the readers are
shown to be such (`careful`).  For a pool of fits the same with the schedule (from C105).  Early moments: a fit of more
orders passes through the final state of the fit of fewer (`PLook2.fit_pauses`).  Unfinished
files read as empty, or (`SLook.glimpse`) show any number of their first rows: the order of writing (C90) leaves only the
last file of those a reader needs, and that one is rejected unless all its rows are there (PLook4.v, PLook5.v).

C118 best fits in binary64: the entries of a residual lie between -1 and 1 (`PResid.residual_shape`), so an error E of each
(C114) changes the sum of squares by at most 3 E per entry; the sum itself is a tree of additions as in C108, or any
routine with a known accuracy (`SRound5.accurate_cost`; fused multiply-adds are covered only through the latter).  Near
costs rank vectors that differ by more than twice the error, and `cheapest_best` (PRound20.v) turns a minimiser of the
rounded cost into the `best_from` of C96.  Witness: a tilt on 6 by 6 points (PRound21.v).

C119 gaussian illumination in binary64: the exponent -M/D is computed with a relative error from D and an absolute one from M
(at most 8 pr^2 over 2 (t pr)^2); `PRound22.exp_near` shows that exp(-z) moves by at most 3 a + 1.2 b when z moves by a z + b, for
every z (z exp(-z/2) is bounded).  `PRound23` repeats the field and pattern lemmas of C113 for any illumination that is accurate at the
open samples.

C120 Effelsberg in binary64: rounding is odd, so the eight sloping lines reduce to one (`PRound25.line64_opp`, `line64_flip`); for angles
up to 45 degrees the corner is at least 10 m beyond the legs, so the slope is well conditioned and the line is within 700 e B
(`edge_near`); inside the dish the circle conditions hold with a margin (`circ_in`).  Each of the eight stores then has the
condition of the exact model (`effelsberg_agrees`).  `PRound26` repeats the field and pattern lemmas for any telescope whose mask agrees
and whose path difference is accurate.  The angles 0, those above 45 degrees and the samples near an edge are left out.

C121 fits of the Effelsberg telescope in binary64: the proofs of C114 are repeated for any telescope and illumination whose two patterns
and axes are near each other (`PRound28`, `PRound29`); C120 gives that for Effelsberg (`PRound30.eff_both`), and cost, order, best and
fit follow as in C118. Witness: the telescope of the scripts with legs at 20 degrees, 6 by 6 points, a tilt (`PRound31`).
C122 fits with a gaussian illumination in binary64: the generic proofs of C121 (PRound28, PRound29) applied to the patterns of C119
(PRound32); SRound9 states the cost in binary64 for any illumination.  The third coefficient of the illumination, which a gaussian does
not use, is arbitrary.  Witness: the telescope of C118 with a taper of -12 dB (PRound33).
C123 Effelsberg with a gaussian illumination in binary64: the hypotheses imply those of C120 with the third coefficient 3/t^2 in place of the
parabolic one (`PRound34.effg_reach`), so mask, path and steps are those of C120; the illumination is that of C119 (`effg_near`). The generic
proofs of C121 then give residual, cost, order, best and fit (`PRound35`). The witness is the telescope of the scripts (`PRound36`).
C124 foreign look-up files: `SText` says what the parts, lines and words of a text are and which integer a word spells, without the functions of
the model; `PText` shows that the reader of the model finds just these (`first_upto`, `splits_unique`, `ascii_iff`, `read_iff`). Words that are
fractions, quotes, comments and other separators, which astropy would also read, are outside the model, hence the hypotheses.

Not expressible in this model: pixels, colours and layout of the figures,
wall-clock time and log messages, convergence of `least_squares`, accuracy of
cubic `griddata` and splines, floating-point rounding errors except in the
binary64 theorems C08_order_binary64, C13_binary64, C52_binary64, C106, C108, C109, C110, C113, C114, C118, C119, C120, C121, C122 and C123.

## 4. What is modelled and what is not

| function in /repo/pyoof | definition | file |
|---|---|---|
| zernike/zernike.py `R`, `U` | `zernike_R`, `zernike_U` | MZernike.v |
| aperture/aperture.py `e_rs` | `e_rs_plain`, `e_rs_circ` | MAperture.v |
| `illum_parabolic`, `illum_gauss` | same names | MAperture.v |
| `wavefront`, `phase`, `aperture` | same names | MAperture.v |
| `radiation_pattern` | same name, with `fft2`, `fftshift`, `fftfreq` | MRad.v |
| telgeometry.py `opd_manual`, `opd_effelsberg`, `block_manual`, `block_effelsberg` | same names | MTel.v |
| math_functions.py `norm`, `cart2pol`, `line_equation`, `rms`, `snr` | same names (`norm_rows`, `norm2`, ... by axis) | MMath.v |
| math_functions.py `co_matrices` | same name | MCoMat.v |
| core.py `residual_true`, `residual`, `params_complete` | same names; interp=False as `residual_true_nointerp` | MCore.v |
| core.py `fit_zpoly` | same name | MOut.v |
| aux_functions.py `store_data_csv`, `store_data_ascii`, `str2LaTeX` | same names | MOut.v |
| aux_functions.py `extract_data_pyoof`, `extract_data_effelsberg`, `uv_ratio` | same names | MAux.v |
| aux_functions.py `table_pyoof_out` | same name | MTab.v |
| simulate_data.py `simulate_data_pyoof` | same name | MSim.v |
| actuator/actuator.py `__init__`, `read_lookup`, `grav_deformation`, `transform`, `itransform`, `interp_surface2rings`, `write_lookup`, `fit_zpoly`, `fit_grav_deformation`, `fit_all`, `generate_phase_pr`, `ellipsoidal_actuator_correction`, `plot` | same names (`act_` prefix where they clash) | MAct.v, MActPlot.v |
| plot_routines.py `plot_beam`, `plot_beam_data`, `plot_phase`, `plot_phase_data`, `plot_variance`, `plot_fit_path` | same names; `draw_fit_path` for the figures, `plot_fit_path` for the files | MPlot.v, MOut.v |
| scripts/pyoof_effelsberg.py, pyoof_effelsberg_mpi.py | `batch_script`, `mpi_script`, `batch`, `array_split`, `mpi_ranks`, `interleave_all` | MScript.v |
| scripts/pyoof_simulate_data.py | `sim_call`, `simulate_script` | MScript.v |
| scripts/create_lookup.py | `create_lookup`, `create_lookup_plots` | MScript.v |
| in binary64: the order in `wavefront`, `norm` | `order64`, `norm64` | SFloat.v |
| in binary64: `R`, `U`, `wavefront`, `transform`, `itransform` | `zernike_R64`, `zernike_U64`, `wavefront64`, `transform64`, `itransform64` | MFloat.v |
| in binary64: `rms`, `e_rs`, `linspace`, the rim in `rms` and `phase`, the axes of `radiation_pattern` | `rms64`, `e_rs64`, `linspace64`, `outside64`, `inside64`, `u_axis64` | MFloat2.v |
| in binary64: `cart2pol`, `phase` | `cart2pol64`, `phase64` | MFloat3.v |
| in binary64: `illum_parabolic`, `opd_manual`, `block_manual`, `aperture`, `radiation_pattern`, the power | `illum_parabolic64`, `opd_manual64`, `block_manual64`, `aperture64`, `radiation_pattern64`, `power_pattern64` | MFloat4.v |
| in binary64: the interpolation, `norm` along rows, `residual_true` with interp=True | `interp2_64`, `interp_points64`, `model_row64`, `norm_row64`, `residual_true64` | MFloat5.v |
| in binary64: `residual` (the parameters are completed without arithmetic) | `residual64` | MFloat6.v |
| in binary64: `illum_gauss` | `illum_gauss64` | MFloat7.v |
| in binary64: `opd_effelsberg`, `block_effelsberg`, `line_equation` | `opd_effelsberg64`, `block_effelsberg64`, `line_equation64` | MFloat8.v |
| any program with failing system calls | `run_bad` | MFault.v |
| docs, setup, other files | not modelled | |

Outside the model: verbose printing and timing; the LaTeX/matplotlib rendering;
astropy's guessing of text formats (the two table readers assume the format the
writer used); string columns as bytes; links; a second process
deleting files; `writeto`'s tolerance of an existing empty file;
rounding.  `resolve` treats ".." lexically.

## 5. Things found while reading the code

* `np.int`, `np.float`, `np.string_` were removed from numpy (1.24, 2.0):
  `write_lookup` and `table_pyoof_out` raise AttributeError there.  The model
  is of the older numpy.
* `fit_zpoly` makes its directory with `exist_ok=True`: if the stat call behind `os.path.exists` fails, it
  writes over the results of an earlier run (C116_overwritten_refuted).
* NaN to int64 gives the smallest integer on x86-64 (used in `np_int`).
* docs/zernike/index.rst:53 says cos 4 theta for (4,-4); the code gives sin 4 theta.
* pyoof/data/config_params.yml labels positions 6 and 7 the wrong way round.
* "Output data is never overwritten" fails after 101 runs of one name (C41), and
  concurrent runs of one name share a directory (C44); scripts/pyoof_effelsberg_mpi.py
  does run concurrently.
* `rms(circ=True)` overwrites the caller's array (C17); `table_pyoof_out` relies on it.
* interp=False cannot return (C60).  `params_complete` is wrong for unsorted lists (C36).
* The ellipsoidal correction accumulates over the elevations (C55).
* `plot_variance(diag=False)` cannot label correctly (C74); `plot_phase_data` needs
  square maps (C77); `plot_fit_path` returns None although six figures are promised,
  and raises when a single parameter is fitted (C78).
* `imshow` extents use sample coordinates as outer edges (half a cell of shift).
* scripts/pyoof_effelsberg_mpi.py uses `aperture.illum_pedestal`, which does not
  exist (C82), and globs `*/*.fits` into one work directory: two files of one name
  in different directories are fitted concurrently under one name (C44).
* scripts/pyoof_simulate_data.py always reads test000.fits (C84).
* `EffelsbergActuator.plot` labels displacements in micrometres as "$\mu$s", and its
  displacement contours assume two reflections (C68, C88).
* `fit_zpoly` sets the plot limits from values in radians labelled with the unit of
  `u_data` (core.py, `plim`): wrong limits for data that are not in radians.
* scripts/create_lookup.py discards the result of `tab[...argsort()]`, and cannot work for
  orders above five: its figure has 18 panels (C93).
* With `fit_previous` order n + 1 starts from the solution of order n and 0.1 for the new
  coefficients (core.py:456), not 0: an optimizer that stops at the start, or in a local
  minimum beside it, leaves a fit that is worse than that of order n (C94).
* The default configuration fits `i_amp`, but the residual compares normalised patterns and
  does not depend on it.  The normal matrix is singular: with exact arithmetic `co_matrices`
  raises LinAlgError and nothing is stored; in floating point the stored covariances and
  correlations of all parameters rest on rounding errors of that column (C97).  The same
  happens for data that the model explains exactly.

## 6. Trusted base

* Coq 8.16.1: the kernel (with its `vm_compute` reduction machine), as installed.
  No plugins, no kernel checks switched off, no axioms of our own.
* The reading of the Python source by the definitions in `M*.v` (section 4), of
  numpy/scipy/astropy/matplotlib functions by the comments beside their models,
  and the specifications in `S*.v`.
* The axioms of the standard library below: `sig_forall_dec`, `sig_not_dec`
  (construction of the reals), `functional_extensionality_dep`, `classic`.
  By theorem, as `Print Assumptions` reports (generated by `tools/axioms.py`):

<!-- axioms -->
* none (closed under the global context):
  C07_enumeration_exact, C07_count, C07_position, C07_prefix, C08_empty_rejected, C13_empty, C36_repeated_refuted, C37_unchanged, C37_bad_config, C42_no_collision, C44_different_names_separate, C45_orders_disjoint, C46_preceded, C46_readable, C46_injective, C46_length, C46_others_kept, C46_idempotent_refuted, C47_file, C47_unique, C47_missing_key, C69_pyoof_layout, C81_division, C90_documented, C124_one_meaning, C124_written.
* `ClassicalDedekindReals.sig_forall_dec`:
  C35_round_trip, C36_unsorted_refuted, C67_truncated, C67_unwritten, C124_read, C124_count.
* `FunctionalExtensionality.functional_extensionality_dep`:
  C45_csv_pairs, C45_csv_succeeds.
* `ClassicalDedekindReals.sig_forall_dec`, `FunctionalExtensionality.functional_extensionality_dep`:
  C02_rim_and_centre, C13_range, C13_onto, C13_constant, C13_nonfinite, C13_axis1, C13_axis0, C14_gain_offset, C14_idempotent, C21_line, C21_swap, C21_vertical, C23_exact_mask, C23_symmetric, C24_no_legs, C24_L_zero, C24_L_zero_refuted, C24_sr_zero, C24_sr_zero_refuted, C34_interp_exact, C34_interp_between, C34_interp_bilinear, C47_other_names_rejected, C47_accepted, C50_recommended_safe, C51_figure_size, C51_common_unit, C51_pointing, C69_effelsberg_layout, C74_matrix, C74_scale, C74_nodiag_refuted, C74_nodiag_old_refuted, C76_maps, C76_returns, C76_gain, C77_phase_data, C77_square_only, C85_selection, C89_interpolation, C101_coefficients, C101_configurations.
* `ClassicalDedekindReals.sig_forall_dec`, `ClassicalDedekindReals.sig_not_dec`, `FunctionalExtensionality.functional_extensionality_dep`:
  C03_wavefront_bounded, C03_radial_bounded, C03_circle_bounded, C05_index_checks, C05_odd_vanishes_refuted, C06_symmetries, C08_other_sizes_rejected, C09_linear, C16_rms, C16_permutation, C16_nan_counted, C16_mean_of_valid_refuted, C17_value, C17_outside_irrelevant, C17_overwrites_argument, C17_second_call, C17_not_square, C18_circ, C19_matrices, C19_singular, C19_exact_fit, C20_columns, C20_residual, C22_gain, C22_peak_over_std, C22_gain_scattered, C25_two_valued, C25_symmetric, C25_submask, C25_no_shade, C25_exact_mask, C26_opd, C26_closed_form, C26_effelsberg, C36_high_index_refuted, C52_there_and_back, C52_back_and_there, C52_transform_pixel, C52_stack, C52_itransform_pixel, C53_itransform, C53_written, C53_nan_refuted, C53_fraction_refuted, C54_written_back, C54_exact, C54_interpolated, C54_write_succeeds, C54_write_fails, C57_linear, C57_degrees, C57_plain, C57_periodic, C57_determined, C57_short, C59_position, C59_within, C59_distinct, C59_quarter, C67_short_table, C68_constructor, C68_contours, C71_rows, C71_reads_only, C71_determined, C88_maps, C88_contours, C88_too_few, C88_complete, C88_lookup, C99_manual, C100_wavefront, C102_missing_pixels, C102_no_noise, C102_scattered, C102_empty, C102_values, C102_gains, C102_normalised_refuted, C111_covariances, C115_batch_telescope, C115_mpi_telescopes.
* `ClassicalDedekindReals.sig_forall_dec`, `ClassicalDedekindReals.sig_not_dec`, `Classical_Prop.classic`, `FunctionalExtensionality.functional_extensionality_dep`:
  C01_radial_is_rodrigues, C01_circle_polynomial, C03_phase_bounded, C04_orthogonal, C04_orthonormal_refuted, C08_triangular_accepted, C08_order_binary64, C09_zero_padding, C09_unit_vector, C10_pixels, C10_polar_exists, C10_arguments_unchanged, C10_short_arrays, C11_no_piston, C11_no_tilt, C11_tilt_is_plane, C11_piston_is_constant, C12_dish_size_independent, C12_linear, C13_binary64, C15_right_inverse, C15_left_inverse, C18_ruze, C25_gap, C27_parabolic, C27_beyond_rim, C27_beyond_rim_integer, C27_beyond_rim_refuted, C27_arity, C28_gauss, C28_ignores_q, C28_arity, C29_value, C29_modulus, C29_piston, C29_conjugate, C30_parseval, C30_power_conserved, C30_too_small, C31_axes, C32_piston, C32_amplitude_parabolic, C32_amplitude_gauss, C32_residual_piston, C32_residual_amplitude, C33_ambiguity, C33_manual, C34_shape, C34_zero_on_model, C34_grid, C37_residual, C37_residual_excluded, C38_documented_files, C39_stored_parameters, C40_starting_values, C40_feasible_strict, C40_feasible, C41_never_overwritten, C41_hundred_and_second_refuted, C41_overwritten_refuted, C42_increasing, C43_crash, C43_confined, C44_concurrent, C44_same_name_refuted, C48_round_trip, C49_offsets_rejected, C49_succeeds, C49_three_in_focus_refuted, C49_new_file, C49_nothing_overwritten, C49_hundred_and_second, C50_block, C50_on_the_limit, C50_condition, C50_resolution_245_refuted, C52_binary64, C55_plain, C55_corrected, C55_once_refuted, C55_returns, C56_tilt, C56_axis, C56_rim, C56_beyond, C56_decreasing, C56_range, C56_grid, C58_shape, C58_returns, C58_residual, C60_nointerp_refuted, C60_nointerp_valueerror, C61_tilt_shift, C62_completes, C63_files_belong_together, C64_crash_leaves_final_or_unfinished, C65_determined, C65_injective, C66_fit_all, C66_fit_zpoly, C70_concurrent_refuted, C71_after_fit, C72_order_one, C73_mean, C73_mean_product, C73_projection, C75_three_patterns, C75_needs_three, C75_only_if, C77_phase, C78_after_fit, C78_returns, C79_true_parameters, C79_noise, C79_close, C80_all_stored, C80_completes, C81_as_if_alone, C81_all_stored, C81_completes, C82_mpi_script_refuted, C83_shows_simulation, C83_completes, C84_second_run_refuted, C85_new_table, C86_follows, C86_no_deformation, C87_untouched, C87_written, C87_completes, C89_far_field, C89_residual, C90_sequence, C90_lower_orders, C90_final, C91_more_orders, C92_table, C92_follows, C92_completes, C93_maps, C93_gravity, C93_follows, C93_order_six_refuted, C94_nested, C94_monotone, C94_exact, C94_start_refuted, C95_repeatable, C95_in_sequence, C95_succeeds_again, C96_bound, C96_recovered, C96_noise, C96_amplitude_refuted, C97_stored, C97_completes, C97_amplitude_refuted, C97_exact_refuted, C98_peak, C98_loss, C98_manual, C98_ruze, C99_field, C99_power, C100_mirror_v, C100_mirror_u, C100_transposed, C100_symmetric, C101_residual, C101_telescopes, C101_fit, C101_equally_good, C102_stored, C103_pattern, C103_residual, C103_telescopes, C103_fit, C104_lipschitz, C104_best_exists, C104_best_exists_amplitude, C104_optimal, C104_zero_amplitude, C104_continuous_amplitude_refuted, C105_as_if_alone, C105_fair, C105_power_cut, C106_circle_polynomial, C106_wavefront, C106_order_ten, C106_exceptions, C107_table, C107_figures, C107_observation, C108_rms, C108_circle, C108_efficiency, C109_grid, C109_rim, C109_rim_even, C109_axes, C109_axes_order, C110_phase, C110_even, C110_order_ten, C110_exceptions, C111_residual, C111_best, C111_fit, C111_broken, C111_broken_fit, C112_field, C112_turns, C112_stored, C113_field, C113_pattern, C113_power, C113_exceptions, C114_map, C114_norm, C114_residual, C114_outside, C115_orders, C115_simulation, C116_reported, C116_success, C116_stopped, C116_rerun, C116_any_file, C116_unanswered_refuted, C116_overwritten_refuted, C117_table, C117_figures, C117_pool_table, C117_pool_figures, C117_rows_table, C117_rows_figures, C117_rows_seen, C117_early, C118_sum, C118_cost, C118_order, C118_best, C118_fit, C119_illumination, C119_field, C119_pattern, C119_power, C119_exceptions, C120_mask, C120_path, C120_field, C120_pattern, C120_power, C120_exceptions, C121_map, C121_residual, C121_outside, C121_cost, C121_order, C121_best, C121_fit, C122_map, C122_residual, C122_outside, C122_cost, C122_order, C122_best, C122_fit, C123_field, C123_pattern, C123_power, C123_exceptions, C123_map, C123_residual, C123_outside, C123_cost, C123_order, C123_best, C123_fit.
