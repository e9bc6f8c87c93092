# pyFTLE in Rocq: design and trusted base

The subject is the Python/C++ source of las-unicamp/pyFTLE under `/repo`
(`src/pyftle/*.py`, `src/pyftle/grid_interp/*`, `create_list_of_input_files.py`).
It is read as text; it is never run here. The properties are in
`properties.jsonl` (C01, C02, ...), the status of each in `MANIFEST.json`.

## 1. Shape of the development

All files are in `rocq/theories/`.

* **Model files** transcribe the code function by function. Each definition has a comment
  citing `file:lines`. They contain no proofs, only computable (or real-valued) Gallina functions.
* **Spec files** (`Spec*.v`) hold the small vocabulary the theorems are stated in (spectral norm,
  multilinear interpolant, affine map, window of a list, schedule, ...). They do not mention the model.
* **Lemma files** (`*Facts.v`) hold the proofs.
* **Property files** (`Prop*.v`) hold only theorem statements closed by `exact`, each followed by
  `Print Assumptions` and by an `Example` showing its hypotheses are met by a concrete non-trivial case.

Conventions:

* *Exceptions are values*: `res A := Ok a | Err e`. Functions with effects that survive a failure
  (solver, executor) return the final state beside the result.
* *Numbers*: numerical code is parametric in a record `ops T` of operations (`add`, `mul`, `div`,
  `sqrt`, `ln`, `floor`, comparisons, ...). It is instantiated at
  exact reals (`Rops`, Coq's `Reals`) for mathematical statements, and at IEEE binary64
  (`Fops`, Coq's primitive floats) for statements about rounding. Statements that do not depend on
  arithmetic at all (layout, buffers, ordering, independence) are proved for *every* `ops T`, hence for both.
* *Special values*: results of `log`/`sqrt` are `xval`: a number, NaN, -inf or +inf. Scalar division
  by zero in numba/python code raises `ZeroDivisionError`.
* *Arrays*: 2-D arrays of positions are lists of rows with an explicit column count; general
  n-dimensional arrays are a shape and row-major data, with C and Fortran index maps written out.
* *Uninitialised memory* (`np.empty`) is an arbitrary function argument (`junk`), universally quantified.
* *External libraries* (SciPy interpolators, `numpy.linalg.eigvals`, file contents, user velocity
  functions) are arguments (oracles), universally quantified, with assumptions only where a theorem says so.
* *Concurrency*: the process pool is a labelled transition system; theorems quantify over every execution.
* A property that is **false** of the code is proved false: a theorem `..._refuted` exhibits a
  witness, and what does hold is proved beside it. In the manifest such a property has
  status `partial` and its note starts with `REFUTED`.

## 2. Plan per property

| id | modelled | proof |
|----|----------|-------|
| C01 | `compute_cauchy_green_2x2` over any `ops` | list induction + ring over R |
| C02 | `compute_cauchy_green_3x3` | refuted by a witness; exact behaviour proved |
| C03 | same | identity of characteristic polynomials, ring |
| C04 | `max_eigenvalue_2x2` | largest root of the quadratic = sup of the Rayleigh quotient |
| C05 | `compute_ftle_2x2` | from C04, properties of `ln`/`sqrt`; error branch separately |
| C06 | `compute_ftle_3x3` with an eigenvalue oracle | roots of the cubic, spectral bound for symmetric PSD 3x3 by polynomial argument |
| C07 | both | det bound from singular values |
| C08 | both | invariance of norms |
| C09 | binary64 instance | refuted by vm_compute witness |
| C10 | binary64 instance | all floats, by commutativity of float multiplication (`FloatAxioms`) |
| C11, C12 | `cauchy_green.py` on particle sets | induction over groups |
| C13-C17 | `particles.py` | induction over blocks; C14, C17 refuted |
| C16, C18-C22, C25 | `integrate.py` with buffers and junk memory | state-machine invariants; generic in `ops` where arithmetic does not matter |
| C23 | Euler and RK4 in a linear field | matrix algebra over R, induction on n |
| C24 | RK4 | refuted: field frozen during a step |
| C26, C40 | factories | case analysis on strings |
| C27-C30 | `GridInterp.cpp`, with C int casts | index bounds for any `ops`; multilinear identities over R; C30 refuted on last line |
| C31, C32 | `HighPerfInterpolator`, `Interp2D/3D`, `linspace`, reshape/transpose | index arithmetic; C32 refuted for nx<>ny |
| C33, C34 | update histories | refuted with witnesses, positive part for 3D |
| C35-C39 | `interpolate.py` classes with SciPy oracles | state machine; C36, C37 refuted |
| C41-C44 | `__main__.py` batches, python slices and `int()` | list index arithmetic; C42 conditional/refuted, C44 refuted in binary64 |
| C45 | `FileBatchSource` | invariant over steps |
| C46, C47 | `AnalyticalBatchSource`, `AnalyticalSolver` | C46 refuted |
| C48, C49 | ids and file names | stem model on strings; conditional + refuted |
| C50-C57 | `FTLESolver.run` as state/trace machine | induction over steps; C51, C54, C56 refuted with exact behaviour |
| C58, C59 | whole pipeline over R | composition of C11, C22/C23, C05/C06 |
| C60-C63 | `ParallelExecutor.run` as transition system: main thread, manager thread, workers, monitor, kills | invariants over all executions, termination measure; C62, C63 refuted by schedules |
| C64, C65 | `_monitor_progress` as a fold over messages | invariant over all interleavings; what the bars show, by induction on the messages; C65 refuted |
| C66 | run with its exit paths | refuted for n_processes <= 0, SystemExit and worker deaths; otherwise invariant over executions |
| C67 | `AnalyticalSolver.run` | refuted for num_ftles = 1, else proved |
| C68-C71 | `file_readers.py` on MAT contents | index arithmetic; C69, C71 refuted |
| C72-C76 | `file_writers.py` producing abstract files | index arithmetic for all shapes; C74, C76 refuted |
| C77-C79 | `file_utils.py`, list script | character-level reader model; conditional + refuted |
| C80-C82 | `hyperparameters.py`, `decorators.py` | case analysis, Z arithmetic |
| C83 | file workflow with `grid` | refuted from C33 and C45; for the whole notebook (its lists, its configuration file, its command) with C128, C134 and C141 |
| C84, C85 | `compute_ftle_*` and the Jacobian | refuted by witnesses over R; exact divisor proved |
| C86, C88 | `GridInterpolator` with RegularGridInterpolator as oracle | index arithmetic: which array reaches SciPy |
| C87 | unstructured interpolators with SciPy oracles | state machine: which arrays reach SciPy |
| C89, C90 | both writers on the same data | index arithmetic; refuted for 2D grids and for heights |
| C91, C92 | `create_writer`, one `write` | case analysis; frame property of the file map |
| C93 | command line program end to end: options, lists, batches, pool, solver, writers | confluence of the effects of the tasks over all executions; refuted for equal names |
| C94, C97 | same, with files written in two steps and workers killed between them | invariant over all reachable states; C94 refuted by a kill between opening and closing |
| C95 | `main` and its decorator, exit paths | refuted: RuntimeErrors are printed and swallowed |
| C96 | same | composition: completed run => every window's file holds the field of SpecProgram |
| C98 | `compute_ftle_3x3` over R, eigenvalue solver with a relative error | real analysis of ln and sqrt |
| C99, C09 | `compute_ftle_2x2` at binary64 (Flocq semantics of PrimFloat) | forward error analysis, operation by operation |
| C100-C102 | the integrators' histories over R against trajectories of a (possibly unsteady) Lipschitz field; one snapshot per step | local error by Taylor expansion, stability by the Lipschitz constant, discrete Gronwall; C102: the exact error in the flow v = t; fourth order in smooth steady flows by expanding the four stages and the trajectory in elementary differentials up to h^4, with remainders of uniform order (OrderTaylor.v, OrderSmooth.v) |
| C103 | `FTLESolver.run` over R on n snapshots of a Lipschitz flow | first-order position errors (C100-C102), perturbation of spectral norms, ln Lipschitz away from 0 |
| C104 | `create_list`, `find_files_with_pattern` on any directory tree | string comparison of equally long decimal numbers is numeric comparison; a tree with unpadded numbers refutes |
| C105 | as C103, with crosses shrinking to points | central differences converge to partial derivatives; perturbation of spectral norms; C103 |
| C106 | grid interpolator object and both compiled kernels over PrimFloat | Flocq: fractional parts are exact (Sterbenz), errors of weights, products, sums and index coordinates are propagated, the interpolant is Lipschitz; a point just below the last line refutes |
| C107 | Jacobian and 2D FTLE from stored positions in binary64 | Each entry is sub/sub/div of representable numbers: Sterbenz-free relative bounds (Flocq plus/minus/div errors) give 2^-50; perturbation of norm and determinant carries the gap hypothesis of C99 over to the exact central differences |
| C108 | `integrate_seq` in binary64 (`Fops`) beside the same function over the reals; the field evaluated up to `delta` | per-operation error bounds of Flocq, an invariant on size and error for each step of each method, then a discrete Gronwall sum; composed with C100-C102 for the distance to the trajectory |
| C109 | whole 2D solver run over `Fops`, beside the exact-arithmetic run and beside the flow | perturbation of the gradient by position errors (norm, determinant gap, scale), then C107 on the computed positions and C108 along each neighbour's path |
| C110 | `compute_ftle_3x3`, the 3D Jacobian and whole 3D runs over `Fops`, with an accurate eigenvalue routine as an oracle | rounding of the dot products, exact symmetry of the computed tensor, Weyl's inequality for the largest eigenvalue, then the 3D analogues of C107 and C109 |
| C111 | `file_worker` (readers, `HighPerfInterpolator`, integrators, FTLE, writer call) over `Fops` on a file system holding gridded data | an invariant of the interpolator for queries inside the grid, the interpolation error in binary64 against an L-Lipschitz field, region versions of the C108 bounds that keep every query inside, then C109's chain |
| C112 | `main_ends`: argument parsing, the manager, the windows, the executor's transition system, C111's task and the MAT writer, over `Fops` | every task of the run is an instance of C111 for its window, so it succeeds; the executor lemmas (C60, C61) then give the final files for every interleaving; that a clean run exists follows from termination and absence of deadlock (`C61_can_end`) |
| C113 | `analytical_start`, `window_length`, `analytical_tasks`, `analytical_worker`, the executor's transition system, `api_run` and both point writers, over `Fops` | every task is an instance of C109/C110 with the interpolator fixed at time 0; the executor lemmas give results in order for every interleaving; the binary64 start times stay within 2^-50 relative distance of i h, so their six-decimal names differ |
| C114 | `file_worker` over `Fops` on a file system holding gridded 3D data (`GridInterp.cpp`'s trilinear path, 3x3 Cauchy-Green, eigenvalue oracle) | as C111, with the trilinear interpolation error, the 3D stacking order of the readers and C110's 3D chain |
| C115 | `main_ends` over `Fops` with 3D data | as C112, with C114 for the tasks and the 3D layouts of the writers |
| C116 | `file_worker` over `Fops` with an abstract `scipy` record | as C111, over a region instead of a grid (`region_run`); what SciPy answers in the region is the hypothesis `scattered`, derived from the contracts of nearest-neighbour search and of weighted means |
| C117 | `main_ends` over `Fops` with scattered data | `windows_program`: a run leaves what each window's task writes; tasks by C116 |
| C118 | whole runs of the program and of AnalyticalSolver under two contents of fresh memory | relational: a simulation of the solver's loop over related interpolators and integrators (MemRun, MemInterp), lifted to tasks and to main (MemMain, MemApi); refuted by a concrete 3-D run on scattered data (MemCases) |
| C119 | `parse_args` (options to values) and `main_ends` | equivalence with a predicate on the options (SpecCommand); induction-free case analysis over the options |
| C120 | unequally spaced grids | bisimulation of interpolators given point arrays with equal bounding box; refuted for every stretched 2-D grid by the field that returns its own index |
| C121 | Two runs of Solver.v whose fields, seeds and time steps are related by a change of units (SpecUnits.v: `coords2`, `same_flow2`, `rates`), any interpolators and sources | Each textbook step commutes with the affine map (AB2's stored velocity scales by s/c), hence the trajectories do; the Jacobian's quotients are unchanged (zero divisors included), the period scales by \|c\; for the whole program (`C121_program`): two lists of tasks that correspond under a translation of results and files have corresponding executions (`ExecutorMap.v`, a simulation of every step of the transition system), and the unit of time is such a translation |
| C122 | `file_tasks` on two lists of files, and two whole program runs (`main_ends`) whose list files differ (SpecGrow.v: `grown`, `grown_back`) | Closed form of the i-th task (BatchFacts.task); index arithmetic of the cycled lists; for the files, `run_writes` on both runs: a task's file is what it writes alone. Backward: refuted, with the exact condition under which it holds |
| C123 | The array operations of the notebooks' seed recipes (Notebook.v): meshgrid, column_stack, shifts, stack on axis 1, reshape in column-major order, the particle file, the reshape of the result. | Stacking on axis 1 and reshaping in column-major order puts the arrays one below the other, for all shapes; so the positions are the block layout of C13 with the groups in row-major order. With the path lemmas of C19 and the whole-run lemma of C113 each pixel is the FTLE of the central differences of the step map at its grid point. |
| C124 | Histories of runs (SpecRepeat.v): each run is a run of Program.v or of AnalyticalSolver with a writer, stopped in any reachable state; what was being written becomes an unspecified file. | Induction over the history with the file invariant of C94: the disk differs from the original only in files that the last run writes anyway, and no file is open. Then both complete runs write the same contents (C93). The last run can end without a failure because the outcomes of the tasks do not depend on the disk and every run can be continued undisturbed to its end. |
| C125 | As C124. | Refuted by two runs of the toy program, the second stopped between open and close. The file invariant of C94 with distinct names gives the three cases. |
| C126 | the same flow along exchanged or reversed axes, two whole runs (SpecAxes) | the path commutes with the linear change of axes; the Jacobian is conjugated by it; 2x2 trace and determinant, and the 3x3 characteristic polynomial, do not change; exchange in every commutative arithmetic, binary64 by FloatAxioms |
| C127 | two whole runs whose snapshots are related by a Galilean change of frame (SpecFrame) | Euler and AB2 paths differ by a constant shift, by induction over the steps; fields with constant gradient keep all differences; RK4 refuted by a jet computed in closed form |
| C128 | names of the notebook's velocity files and its list recipe (NotebookFiles.v), with any width, any directory order | sorted text of equal width is numeric order; the power 10^w sorts before its predecessor; the sorted permutation is unique (PropNotebookFiles.v) |
| C129 | the notebook's recipe and create_list on a flat directory | filters agree name by name; "velocity…" does not contain "velocities" (PropNotebookFiles.v) |
| C130 | the number of result files of a run | `SpecCount.v`: exactly k new, complete files; counted through the tasks of the manager and the runs of the executor for every arithmetic (`CountFacts.v`), then for the reals and binary64; refuted by a concrete run with 0.1 and 0.3; the same machinery gives the whole-program form of C83 |
| C131 | the whole program in both directions of time, over `Rops` | a map on all objects (arrays, interpolators with their buffers, integrators, fresh memory) that divides velocities by c commutes with every operation of the model (`TimescaleFacts.v`), so tasks correspond (`C121_file_task`); for c = -1 the tasks are equal, so are the transition systems of the executor |
| C132 | two runs of the whole program (Program.v) with a window in common (SpecParts.v: `window`, `in_order`) | the task of a window is determined by its files (`same_task`), its source reads nothing but them (`same_source`), and each file on disk after a clean run is the content computed by its task (`run_writes`); fresh memory is exchanged with C118 |
| C133 | a run on a series and a run on a part of it | list arithmetic: window j of the part is window j + offset of the series, in either direction (`part_window`); then C132 |
| C134 | `ConfigFile.v`: configargparse's line parser (the match its regular expression finds first), the ordered dictionary of settings, their addition to the command line, and main with `-c` | each line of the specification `says` is parsed to what it says; the dictionary holds the last value; adding the items gives `merged` |
| C135 | as C134; the fragments of YAML needed are in `SpecConfigFile.v` | refuted by a semicolon and by every sequence; scalars without these are shown to be lines of C134 |
| C136 | as C134 | an unknown key stays in the dictionary, and adding it is an error; all errors are SystemExit |
| C137 | runs over Lipschitz fields in exact reals | n steps multiply distances by at most exp(c n abs(h) L); the entries of the central differences, hence the spectral norm, are bounded by that |
| C138 | the same runs, and the flow towards a point | refuted by Euler steps of 1 in v = -x; for abs(h) L <= 1/5 distances shrink by no more than exp(-5 n abs(h) L) |
| C139 | runs over a rotation in exact reals | refuted by Euler; the propagators are multiples of rotations, whose spectral norm is read off, so the value is exact for Euler and RK4; AB2: the determinant of the propagator grows with every step (an invariant of two successive steps), and with small steps slowly; RK4 in 3-D: the step keeps the axis and lengthens no vector, so the norm of every power is 1; Euler and AB2 in 3-D: the steps are I + c B + d B^2, whose norm is that of the plane of rotation |
| C140 | runs over linear flows of zero trace | refuted by RK4 in a rotation; Euler: the determinant of I + hA is at least 1, or I + hA has an eigenvalue above 1; each method when det A <= 0: the propagator is c I + d hA with c >= 1, and half its trace is c; AB2 when det A >= 0: as in C139; Euler in 3-D: if a power of M = I + hA contracted, det(I - M) and det(I - adj M) would not be negative (intermediate values), but their sum is -(1 - det M)^2 |
| C141 | `Args.v`: argparse for this parser, from the list of arguments to the options | induction over the options; every spelling is classified as that option |
| C142 | the same | refuted: numbers with an exponent are no negative numbers for argparse; plain decimals are |
| C143 | the same | inversion of the classification: an accepted argument is an option, a unique beginning of one, or a value |
| C144 | the same, on the command of the README | computation for all states of the disk; refuted by the blank after the backslash |
| C145 | `Args.v` and `ConfigFile.v` | both runs are those of the merged options (C134, C141) |
| C146 | the run of C59 | the three propagators of A with A A = 0 are I + n h A; norm of the shear in closed form |
| C147 | the run of C59 | powers of diagonal matrices; bounds of ln(1+z) and ln(1+z+z^2/2+z^3/6+z^4/24) by the mean value theorem |

Later additions are listed in `properties.jsonl` with the theorem names in `MANIFEST.json`.

## 3. Trusted base

### 3.1 What is trusted

1. Coq 8.16.1's kernel, including `vm_compute` and primitive 63-bit integers and binary64 floats. `coqchk` accepts the
   compiled files.
2. The axioms of the standard library that `Print Assumptions` lists. `ASSUMPTIONS.md` gives the list of every
   theorem in `MANIFEST.json`, generated by `tools/assumptions.py`. In summary:
   * Most theorems (executor, monitor, layouts, buffers, readers, writers, file lists, options, windows, schedules) are
     *closed under the global context*.
   * Theorems over exact reals use `ClassicalDedekindReals.sig_forall_dec`, `ClassicalDedekindReals.sig_not_dec`,
     `FunctionalExtensionality.functional_extensionality_dep` and `Classical_Prop.classic` (the last comes with
     `ln`, `sqrt` and limits of the library `Reals`).
   * Theorems about binary64 use the primitive types and operations of `PrimFloat`/`PrimInt63` (listed by
     `Print Assumptions` as axioms because they are kernel primitives) and, where stated, the specification axioms of
     `FloatAxioms` (`add_spec`, `sub_spec`, `mul_spec`, `div_spec`, `sqrt_spec`, `opp_spec`, `abs_spec`, `eqb_spec`, `ltb_spec`,
     `Prim2SF_valid`, `SF2Prim_Prim2SF`, `Prim2SF_SF2Prim`).
   No axiom, parameter, section-less variable, functor, module type, admitted proof or plugin is added. Flocq is used in
   proofs about rounding; it adds no axioms of its own.
3. That the model is what the code does. The correspondence is by reading: every definition cites the lines it models
   and says where it simplifies. Nothing was run.

### 3.2 What is modelled

| source | model file |
|--------|------------|
| `ftle.py` | `Ftle.v` |
| `cauchy_green.py` | `Jacobian.v` |
| `particles.py` | `Particles.v` |
| `integrate.py` | `Integrate.v` |
| `grid_interp/GridInterp.cpp`, `grid_interp/grid_interp.py` | `GridInterp.v` |
| `interpolate.py` | `Interpolate.v` |
| `file_readers.py` | `Readers.v` |
| `data_source.py` | `DataSource.v`, `Text.v` (names of paths, `f"{x:06f}"`) |
| `ftle_solver.py` | `Solver.v` |
| `__main__.py` | `Batches.v`, `FileRun.v`, `Manager.v`, `ManagerRun.v`, `Program.v` |
| `api.py` | `Batches.v`, `AnalyticalRun.v`, `Jobs.v`, `ManagerRun.v` |
| `parallel.py` | `Monitor.v`, `Executor.v` (with the parts of `concurrent.futures.process` it relies on), `Jobs.v` (output files) |
| `file_writers.py` | `Writers.v` |
| `file_utils.py`, `create_list_of_input_files.py` | `FileUtils.v` (with the tokenizer of `pandas.read_csv`) |
| `hyperparameters.py` | `Hyper.v`, `Manager.v`, `Args.v` (argparse of CPython 3.10 and 3.11), `ConfigFile.v` (with the configuration file parser of configargparse 1.7.1, the version in uv.lock) |
| `decorators.py` | `Decorators.v` |
| `examples/*.ipynb` (cells that make the seeds and reshape the result) | `Notebook.v` |
| `examples/02_File-based_IO.ipynb` (cells that name the velocity files and write the lists) | `NotebookFiles.v` |
| numpy arrays, exceptions, slices, floats | `Base.v`, `NdArray.v`, `Num.v` |

### 3.3 What is not modelled, and simplifications

Arbitrary, hence quantified over in the theorems: the contents of fresh memory, `numpy.linalg.eigvals`, SciPy's
interpolators and triangulation, the user's velocity function, `libm`'s logarithm, the contents of `.mat` input files and
of text files, `float(str)`, the schedule of all processes and the moments at which workers are killed.

Not modelled:

* `my_types.py` (type aliases), `__init__.py`, `scripts/`, `docs/`, the tests, the rest of the examples, packaging; the texts
  printed by the program and drawn by tqdm beyond the bars' rows and counts; the `.pyi` stubs.
* Numbers other than float64 in arrays, views and strides (arrays are values), numba's compilation, reordering of floating
  point operations by compilers.
* The texts of argparse's messages and of --help. The theorems other than C141-C145 take the options as strings by option.
* Memory exhaustion, full disks and other failures of saving a file; `KeyboardInterrupt`. (That everything is killed at some moment is covered by C124 and C125: the run then stops in any reachable state.)

Simplifications (each is also stated at its definition):

* `Base.mat_map2`: arrays of different shapes are an error; numpy would broadcast single rows or columns, which cannot
  occur with 4k or 6k rows. `NdArray.set_col`: no broadcasting of a single value.
* `Num.o_ofZ` at binary64 is used for |z| < 2^53. `Num.xval`: special values of `log` and `sqrt` are explicit over the reals
  and part of the floats over binary64.
* `Ftle.eigvals_t`: eigenvalues are real (numpy returns complex numbers only for non-real spectra; the matrices are symmetric).
* `Interpolate.to_complex`: `u + 1j*v` has exactly the real part `u`; in IEEE arithmetic it is NaN where `v` is not finite.
* `Batches.window_length`: `int` of a non-finite number raises OverflowError (for NaN Python raises ValueError).
* `Readers`: arrays are numeric; seed arrays that are not two-dimensional are reported as an error; input files do not change
  during a run.
* `Integrate.lower`, `Text`, `Hyper`, `FileUtils`: strings are bytes, and only ASCII letters, digits and blanks have a
  meaning; no limit of 4300 digits in `int`; no byte order mark; a bare carriage return ends a line in a list.
* `Args`: only ASCII digits and blanks; every exit of argparse is SystemExit; a bare `--` is refused, as in Python 3.10 and 3.11; together with a
  configuration file an abbreviated option counts as given. Compared with the sandbox's argparse on 600 random argument lists.
* `ConfigFile`: keys that only abbreviate an option are refused (argparse accepts unique abbreviations; no theorem is about
  them); `~` in the path is not expanded; the two quotation marks alone after a blank that is not a space. configargparse is not in the
  sandbox: its parser is modelled from its documentation and published source.
* `FileUtils.rglob`: no symbolic links, every directory can be listed, patterns without `[`; roots without trailing slash.
* `Manager.paths`: a missing value in a list raises its TypeError when the manager is created, not at its first use.
* `Writers`: creating the directory and saving succeed. The order in which `pyvista.StructuredGrid` stores points and the
  rule by which it attaches an array to points or cells are taken from its documentation.
* `Jobs.close_entry`: a file that two tasks had open at the same time counts as damaged for good. The result of a task
  does not depend on the output files, which it does not read (`JobFacts.run_files` proves that in the model).
* `Executor`: the steps of the manager thread may happen at any time their guards hold (the wake-up pipe is not modelled,
  which only adds executions); worker processes exist from the creation of the pool on; a worker puts its result on the result
  queue in one step; exceptions of the main thread other than those of tasks are not modelled.
* `Monitor`: tqdm never moves a bar by itself (it does when more than 20 rows are in use).
* Where two executions are compared (C93), fresh memory is the same function of the number of the task.

## 4. Wrong programs

`seeded/LOG.jsonl` records, for each edit of the model that a realistic bug (or a fix of an existing bug) would
amount to, the claim it breaks and the theorems whose proofs failed. Edits were applied to a copy; failing proofs
were replaced by `Admitted` until the copy built, and `Print Assumptions` then told which theorems depended on them.
