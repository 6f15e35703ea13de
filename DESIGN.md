# Formal model of PyClaw in Coq: design

## 1. What is modelled and how

The model is a set of total, computable Gallina functions in `rocq/theories`, one `*Model.v` file per
area.  Each definition cites the file and lines of `/repo` it models.  `*Spec.v` files hold small
specifications that do not use the model's helpers.  Proofs live in `*Proofs*.v`; the property theorems
live in `*Props.v`, with `Print Assumptions` beneath and an `Example` (or a witness inside the theorem)
showing that a concrete non-trivial case meets the hypotheses.

General modelling decisions (simplifications are repeated at the definitions):

* **Numbers.** Python floats and Fortran `double precision` are modelled by exact rationals `Q`
  (computable, axiom free; equality of results is `==`).  Rounding is therefore not modelled, except
  where a property is about it (number printing).
* **Arrays** of fixed shape are functions from (possibly out-of-range) `Z` indices, together with the
  explicit sizes; a read outside the allocated range is made visible by theorems that say which indices
  a result depends on.  Sequences whose length matters (files, registers, gauge rows, output frames) are
  lists.
* **Exceptions** are values (`inl err` / `Err`), never defaults.
* **Loops** are structural recursion or folds over the same index ranges as the source.
* **External code** (Riemann solvers, source terms, callbacks, PETSc, h5py) enters as universally
  quantified function arguments or Section variables that are discharged, never as axioms.
* **Mutation** becomes state passing; where aliasing matters (`step2ds(qbc,qbc)`, views, deep copies,
  multistep registers) the model keeps explicit storage cells.

### Parts of the code that are modelled

| Files of the model | Code in `/repo/src` |
|----|----|
| `Time*` | `pyclaw/solver.py` (`evolve_to_time`, `get_dt`, `get_dt_new`, `accept_reject_step`, status), `pyclaw/classic/solver.py` (`step`, source splitting), SharpClaw `get_dt_new` |
| `BC*` | `pyclaw/solver.py` (`_apply_bcs` and the four kinds of boundary, aux boundaries, `is_valid`), `pyclaw/state.py` (`get_qbc_from_q`, `set_q_from_qbc`), n-dimensional |
| `Limiter*` | `pyclaw/limiters/tvd.py` (all 22 limiter functions, `limit`), `philim.f90`, `limiter.f90` |
| `Classic1D*` | `classic/solver.py` (`ClawSolver1D.step_hyperbolic`), `classic/step1.f90` |
| `Geometry*` | `pyclaw/geometry.py` (`Dimension`, `Grid`, coordinate caches, gauges), `petclaw/geometry.py` |
| `Sharp*`, `Multi*` | `sharpclaw/solver.py` (all time integrators, registers, step-size selection, start-up of multistep methods) |
| `Weno*` | `limiters/recon.py` (`weno`), `sharpclaw/weno.f90` and `reconstruct.f90` (`weno5`) |
| `Semi*` | `sharpclaw/solver.py` (`dq_hyperbolic`), `sharpclaw/flux1.f90` |
| `Sweep*` | `classic/flux2.f90`, `classic/step2ds.f90`, `classic/step3ds.f90`, `classic/solver.py` (2D and 3D `step_hyperbolic`, dimensional splitting) |
| `Unsplit*` | `classic/step2.f90`, `classic/solver.py` (2D `step_hyperbolic` without splitting) |
| `Unsplit3*` | `classic/flux3.f90`, `classic/step3.f90`, `classic/solver.py` (3D `step_hyperbolic` without splitting) |
| `Par2*` | `src/petclaw/state.py`, `geometry.py`, `cfl.py`, `classic/solver.py` for two and three dimensions |
| `PHdf*` | `src/petclaw/fileio/hdf5.py` (write, read, to_hdf5_dataset, from_hdf5_dataset) |
| `PSharp*` | `src/petclaw/sharpclaw/solver.py` (1D): `dq_hyperbolic`, `dq`, `step` of `src/pyclaw/sharpclaw/solver.py` on every process, `src/petclaw/cfl.py` |
| `Lin*` | no new code: superposition for the runs of `Run*` (`src/pyclaw/controller.py`, `solver.py`, `classic/solver.py`) |
| `Mono*` | no new code: monotone first-order schemes with the step of `Classic1D*` and the time loop of `Time*` |
| `Dep*` | no new code: the domain of dependence of the step of `Classic1D*` and the time loop of `Time*` |
| `Capa*` | no new code: two 1D classic problems with the same product of cell width and capacity, over whole runs |
| `Equil*` | no new code: 1D classic runs that start where the Riemann solver finds nothing to do |
| `Equil*2`, `Equil*3` | no new code: SharpClaw right-hand sides, Runge-Kutta and multistep runs at equilibria |
| `Keep*` | no new code: linear quantities over whole runs of the SSP multistep methods (C32, C167) |
| `MEquil*` | wave-based TVD on the slices of 2D and 3D grids (flux1.f90, reconstruct.f90); equilibria of 2D and 3D SharpClaw, conservation of SSP multistep runs (C88) |
| `SEquil*` | equilibria of the dimensionally split classic solver in 2D and 3D |
| `UEquil*` | equilibria of the unsplit classic solver in 2D |
| `U3Equil*` | equilibria of the unsplit classic solver in 3D |
| `Alias*` | memory of `state.q` and `solver.qbc`: `state.py` (new_array, set_q_from_qbc, get_qbc_from_q, is_valid), `solver.py` (_allocate_bc_arrays, evolve_to_time), `classic/solver.py` (step), `controller.py` (check_validity) |
| `Life*` | allocation of the Fortran module arrays of SharpClaw: `ClawParams.f90`, `workspace.f90`, `reconstruct.f90`, `sharpclaw/solver.py` (setup, _set_fortran_parameters, __del__), the arrays `flux1.f90` uses |
| `Settings*` | which option values and problem data a classic step uses: `classic/solver.py` (_set_mthlim, _set_method, setup, _set_fortran_parameters, arguments of the kernels), `state.py` (set_cparam) |
| `Soln*` | `solution.py` (`__getattr__`, `__setattr__`, set_all_states), `state.py` (mp, mF), which states `solver.py` evolve_to_time advances |
| `Hdf*` | `fileio/hdf5.py` (write, read), `solution.py` (prefixes and formats of write, read, get_read_func, get_write_func) |
| `Petsc*` | `petclaw/fileio/petsc.py` (write, read, read_t, file names, viewers) |
| `GFile*` | `gauges.py` (GaugeSolution: read, write, is_valid) |
| `GConv*` | `gauges.py`: `convert_gauges`, `compare_gauges` (as it is called there), `compare_old_gauges` without plots |
| `Forest*` | `forestclaw/fileio/__init__.py` (the replacement of the header functions), `forestclaw/fileio/ascii.py`, `forestclaw/geometry.py` `Patch`; `Solution.read`/`write`, `get_read_func`, `get_write_func` for the formats ascii and forestclaw, without aux and p |
| `Build*` | constructors: `pyclaw/geometry.py` `Patch`, `Domain`, `pyclaw/state.py` `State` (patch and sizes), `pyclaw/solution.py` `Solution(a, g)`; `Grid.c_centers_with_ghost`, `c_nodes_with_ghost`, the `p_` versions and `c_center` (indexing by a list in both meanings numpy has given it) |
| `PState*` | attributes of `pyclaw/state.py` and `petclaw/state.py` States: `q`, `aux`, `p`, `F`, `mp`, `mF`, `num_eqn`, `num_aux`, `set_num_ghost`, `get_qbc_from_q` (interior), `__deepcopy__`, `sum_F`; `controller.py` `write_F` (numbers) |
| `Arg*` | `util.py` (_info_from_argv, run_app_from_main) |
| `Work*` | `classic/solver.py` (`_allocate_workspace`), the partition of `work` in `step2.f90`, `step2ds.f90`, `step3.f90`, `step3ds.f90` |
| `Format*`, `Ascii*` | `fileio/ascii.py` (`write`, `write_patch_header`, `write_array`, `read`, `read_t`, `read_patch_header`, `read_array`), `solution.py` (`write`, `read`), `%`-formatting and parsing of numbers |
| `Binary*` | `fileio/binary.py` (`read`) |
| `Crash*` | the order in which `fileio/ascii.py:write` writes the files of a frame, and `Solution.read` on what a crash leaves of them |
| `Restart*` | `solution.py` (`__init__`: frame numbers), the frames of `controller.py` `run` as HDF5 files |
| `Controller*` | `pyclaw/controller.py` (`run`, `write_F`) on top of `Time*` |
| `Gauge*` | `pyclaw/solver.py` (`write_gauge_values` and its call), `pyclaw/geometry.py` (`setup_gauge_files`), gauge parts of `controller.py` `run` |
| `Copy*` | `__deepcopy__` of `pyclaw/state.py`, `geometry.py`, `solution.py` |
| `Option*` | `pyclaw/solver.py` `Solver.__setattr__`, `all_bcs`, and the attributes assigned by the constructors of the six solvers |
| `Regress*` | `pyclaw/util.py` (`check_diff`, `check_solutions_are_same`) |
| `Recon*` | `sharpclaw/reconstruct.f90` (`weno5_char`, `weno5_trans`, `weno5_wave`, `weno5_fwave`, `tvd2`, `tvd2_char`, `tvd2_wave`) and their calls in `flux1.f90` |
| `HiWeno*` | `sharpclaw/weno.f90` (`weno5` to `weno17`), `reconstruct.f90` (`weno_comp`), `sharpclaw/solver.py` (num_ghost in `setup`); the 35-digit decimals are taken as the fractions they abbreviate |
| `MSemi*` | `sharpclaw/solver.py` (2D and 3D `dq_hyperbolic`), `flux2.f90`, `flux3.f90` |
| `Run*` | `controller.py` + `solver.py` + a solver class and its kernel put together (`Controller.run` down to the numerical flux) |
| `Parallel*` | `petclaw/state.py` (ghost exchange), `petclaw/geometry.py` (boundary flags), `petclaw/cfl.py`, `solver.py` (`_apply_bcs` on a process), runs of the 1D classic solver on any number of processes |

### Parts that are not modelled

Floating-point rounding; plotting (`plot.py`), Riemann solver bodies other than the small ones used in
examples; the HDF5 library (only its contract), NetCDF, the VTK library; PETSc itself (only its contracts: disjoint cover of the
cells, ghost exchange, max-reduction, viewers); f2py and build scripts; forestclaw and boxclaw solvers; wall-clock
timing and logging; performance.

## 2. Plan per property

| Id | Model | Proof idea |
|----|-------|------------|
| C01 | `TimeModel`: `get_dt`, `evolve_loop` over arbitrary `step` | invariant t<=tend over the loop |
| C02 | same | refuted by witness (rejections eat the budget); exact characterisation of normal returns proved |
| C03 | same | direct, for arbitrary callbacks; retry factor by `get_dt_new` |
| C04 | same, with a log of accepted steps | invariant: cflmax is the maximum over the log |
| C05, C51 | same, fixed-dt branch | induction on the loop counter; C51 refuted |
| C06 | same, `take_one_step` branch | case analysis |
| C07 | same, with cfl = dt * rate(state) | lower bound on dt, counting argument |
| C08 | same, two successive calls | refuted by witness (max_steps stays 0); positive part proved |
| C09, C53 | same | loop splitting lemma |
| C10, C11 | same and SharpClaw `get_dt_new` | refuted by witnesses; what holds is proved |
| C12 | classic `step` | case analysis; equality case refuted |
| C13-C15, C54 | `BCModel`: n-dimensional arrays, axis-wise fill | index arithmetic; witnesses refute C15, C54 |
| C16 | `BCModel` | pointwise |
| C17-C20, C24, C57 | `Classic1DModel`: Python kernel, Fortran kernel, limiter passes | telescoping sums; stencil lemma; extensional comparison |
| C21-C23 | same with the advection Riemann solver | Harten's lemma |
| C25, C26, C55, C56, C58 | `LimiterModel`: Python and Fortran formulas | case analysis + nra; witness pairs for non-local limiters |
| C27, C28 | `SharpModel` over arbitrary index sets | algebra; order conditions by computation; convexity |
| C29, C30, C59, C60 | `SharpModel`, `MultiModel` | field; invariant over runs; witnesses |
| C31 | `WenoModel` | field, nra |
| C32, C81 | `SemiModel` | telescoping, linearity of the total |
| C33, C61-C64 | `SweepModel`: slices, sweeps, in-place update | closed form of a sweep; telescoping along slices; comparison with the 1D kernel; C61 refuted |
| C34, C65, C66 | `UnsplitModel` | an unsplit step = both sweeps plus transverse corrections, which telescope across rows |
| C35 | `WorkModel` | consecutive pieces, column-major offsets are injective |
| C36-C39, C46 | `GeometryModel` | field; state machine with caches |
| C40-C42, C67-C69 | `FormatModel`, `AsciiModel`: characters, digits, lines, words, files | parser/printer round trip; C67-C69 refuted by witnesses |
| C43, C70 | `BinaryModel` | column-major positions in a stream; C70 refuted |
| C44, C71-C74 | `ControllerModel`: worlds with frames and files written | calls of the solver grouped by frame, induction over frames; C71-C73 refuted |
| C45 | parallel runs | pointwise index arithmetic on a partition |
| C47, C78 | `CopyModel`: a store of arrays with addresses | refinement to programs on plain values; completeness refuted |
| C48, C75-C77 | `GaugeModel`: open files, rows in memory | closed form of the state after each recorded solution; C75-C77 refuted |
| C49 | `OptionModel`: dictionary of attributes | induction over assignments; computed check of the names |
| C50, C79, C80 | `RegressModel` | comparisons on squares; matching of patches by index; C79, C80 refuted |
| C82-C86 | `ReconModel` | expansion in eigenvectors, homogeneity of the WENO correction, uniqueness of the WENO value; C83, C84 (Python), C85, C86 refuted in part |
| C87-C89 | `MSemiModel` | the sweeps as folds over lines; a line of the ghosted grid has the ghost values of the one-dimensional problem; the 1D theorems per line, summed; the workspace left by earlier slices is a state the edge values are shown not to depend on |
| C90-C92 | `RunModel` | an invariant of the time loop and of the controller, for an arbitrary property of q; instances with the kernels of `Classic1DModel`, `SweepModel`, `UnsplitModel`, `SemiModel`, `MSemiModel`. Exceptions raised inside a step are not passed through the time loop (there are none under the hypotheses) |
| C93-C96 | `Unsplit3Model`; work arrays that a slice may read before writing them are an argument, arbitrary for each slice | an unsplit step = three sweeps plus transverse corrections, nine per slice, which cancel slice by slice; C96 refuted for first order with the default transverse_waves |
| C97-C99 | `AliasModel`: a heap of blocks, NumPy arrays as block, offset, extents and strides, views, broadcasting, the contiguity flag; programs are lists of operations on numbered solutions and solvers | refinement: an invariant relates the heap to one value per solution (blocks of distinct solutions are distinct, a solver's block belongs to its solution) and is kept by every operation; layout arithmetic for the contiguity of views; C98 and C99 refuted by short programs |
| C100, C101 | `LifeModel`: which module arrays are allocated and with which size; programs are lists of operations on numbered solvers | an invariant relates the allocated arrays to the one solver in use; a second invariant (at most one set-up solver) for every program; C101 refuted |
| C102, C103 | `SettingsModel`: current attributes, the values copied at set-up, the common block of each Riemann solver module, a record of every kernel call | refinement: the session after any program is a function of the assignments and first steps in it; C102, C103 refuted with Fortran kernels |
| C104, C105 | `SolnModel`: states and the instance dictionary of the solution; the steps are an arbitrary function of the first state | induction over histories; refuted for attributes other than t, mp, mF and for several patches |
| C106-C110 | `HdfModel`: a file as named groups with attributes and arrays in name order (contract of h5py); `np.empty` gives contents None | attribute names are distinct, so each is found; insertion in name order is a permutation; C107-C110 refuted |
| C111, C112 | `HiWenoTables` (all coefficients), `HiWenoModel`; specification by polynomials, integrals and stencils in `HiWenoSpec` | both sides are linear or quadratic forms in the coefficients of the polynomial, compared by computation on exact fractions; interpolation exists by Newton's form; nonnegativity from Legendre polynomials; C112 from C32 |
| C113-C117 | `PetscModel`: a file as the list of pickled dictionaries or vectors written to it; `write` as a list of file operations, so that it may stop after any of them; viewers by their contract | the names of the files of a frame are apart (position of the last dot, digits of the frame number); reading consumes the records in the order of writing; C114, C116, C117 refuted in general and proved under conditions |
| C118-C120 | `GFileModel`: the text of a gauge file, `np.loadtxt` and `np.fromfile` by their contracts, the attributes of the object one by one | printing with p digits as in C41 for any p; words and lines of the printed rows are recovered; C119, C120 refuted in general |
| C121, C122 | `ArgModel`: texts, dictionaries as association lists; json.loads as an argument | induction over the arguments from the right: the last setting of a key wins |
| C123-C125 | `VtkModel`: what the writer hands to the VTK library, two-dimensional patches; single precision as an argument | indices of aligned edges are exact integers; the stable sort by level is the concatenation of the levels; C123-C125 refuted in general |
| C126 | `AsciiModel` | induction over the patches of the file of frame 0, using the header and array lemmas of C40; refuted for small domains |
| C127-C129 | `OptsModel`: sessions of writes and reads with numbered options dictionaries and solutions; what is in a header file as an argument | a dictionary differs from what the program put into it only by defaults of HDF5, by induction over the session; refuted in general |
| C130-C132 | `UnsplitModel`, `SweepModel`; `CtuSpec`: the method written face by face, the problem with exchanged axes | the faces of a slice are faces of the grid; each face, sweep and ghost cell of the exchanged problem is the transposed one; order of sweeps refuted by a witness |
| C133, C134 | `GFileModel`; headers in `GFileSpec` by their words | the records of a concatenation are its groups; refuted for files that end with a record |
| C135, C136 | `AsciiModel`, `HdfModel` with write_p and earlier states | a frame of derived quantities is the frame of the solution with them as components if the numbers agree; refuted otherwise |
| C137 | the readers of `AsciiModel`, `BinaryModel`, `HdfModel` on arbitrary files | case analysis; numbers of cells and bounds are checked by the constructor of Dimension |
| C138 | `CrashModel`: the files of a frame in their order; a crash leaves the beginning of one of them | a reader on a proper beginning of what was written raises or has used up the file, by induction over the loops; refuted in the last number |
| C139-C142 | `Classic1DModel`, `TimeModel`, `ControllerModel`; `SymSpec`: problems that correspond (cells moved or mirrored, values with factors); `SimSpec`: runs in step with each other | corresponding interfaces give corresponding waves, limiters, fluxes and Courant numbers; ghost cells correspond; then simulation of the time loop and of the controller by induction; witnesses where a condition is left out |
| C143-C144 | `RestartModel`: numbering of a solution that was read, the HDF5 frames of a run one after the other, what a crash leaves of them; on top of `TimeModel`, `ControllerModel`, `HdfModel` | fixed steps do not depend on the history of the solver (two solvers with the same step agree on every call); the calls that are left are those of the second run; then the files, one by one; witnesses where a condition is left out |
| C145 | `Unsplit3Model`; `Ctu3Spec`: the method in three dimensions face by face, with the meaning of the two digits | the slices around a cell are matched with the faces across; conservative form by algebra |
| C146 | `Ctu3Spec`: the problem with the axes in another order | each face, nine cells around it, sweep and ghost cell of the reordered problem is the one in the old order; then C145's form |
| C147, C148 | `Par2Model`: the kernels of `SweepModel`, `UnsplitModel`, `Unsplit3Model` on the box of each process; PETSc's contract as in `ParallelModel` | what the kernel does on a box is the part of what it does on the grid (the values it reads lie in the ghost layers); the faces of the boxes cover those of the grid, so the maxima of the Courant numbers agree; induction over the time loop. Split: the same with one dimension after another; C148 refuted by computed steps |
| C149 | `PHdfModel`: arrays with the first index fastest, storing and cutting boxes, the reader's C-order reshape; on top of `HdfModel` | after all processes have stored their parts every element is that of the whole array (induction over the processes: an element is right or not yet stored); so the groups are those of the serial writer, and C106 applies; cutting a box is the part of the box |
| C150, C151 | `PSharpModel`: dq of each process on its ghosted box, collected by owner, maximum of the Courant numbers, the points at which a Runge-Kutta step evaluates dq; runs by `sharp_evolve` | the ghosted array of a process is a window of the serial one (C45); a reconstruction that depends on num_ghost cells around an interface, in the same way everywhere, has the same edges in the window, hence the same Riemann problems, dq and (Fortran) the same set of wave speeds; stages are pointwise, so slopes and registers agree in all cells; the time loop by a simulation in which the solvers differ in the representation of the Courant number and in dq_dt outside the cells. The Python Courant number and tvd2_wave are refuted |
| C152 | the programs of `SymSpec` (classic solver with `evolve_to_time` and `Controller.run`), `LinSpec`: linear Riemann solvers, combined states | kernel in update form, every term linear in the ghosted states; a run of pairs of states is simulated (`SimProofs`) with the combinations (1,0), (0,1), (a,b) |
| C153 | `MonoSpec`: monotone Riemann solvers, ordered states, L1 distance; steps of `Classic1DModel`, fixed-step runs of `TimeModel` | the new value of a cell is a nondecreasing function of three old ones (the bounds are fixed points); order + conservation (C17) give the contraction by comparing with the maximum of the two states; induction over the fixed steps (C05) |
| C154 | `DepSpec`: states that agree in a range of cells, the range shortened by two cells per step; steps of `Classic1DModel`, fixed-step runs of `TimeModel` | the new value of a cell depends on five old ones (`cell_update`); ghost cells are copies of cells near the same end unless periodic; induction over the fixed steps |
| C155 | `GConvSpec`: entries of an old file, what a directory holds; `GConvModel.convert_gauges` on texts with the set's order as an argument | rows of numbers ↔ entries by induction over the lines; the gauge made from them is complete, then the round trip of C118; witness with two gauges |
| C156 | `GConvModel.compare_old_gauges` with any tolerances | lists compared pairwise; half a unit in the sixteenth digit is below 1e-14 for values below 100 |
| C157 | `ForestModel`: a process is a flag (functions replaced?) and files; headers with block and rank | round trip of the header as in C40, reading of states by induction over the patches; another process: the ordinary reader meets the block number where it expects a number of cells |
| C158 | `ForestModel.process` over histories of reads and writes | invariant over histories: flag false and no file names the format, then equality with `AsciiModel.write`/`read`; flag true is kept, and a float is no integer |
| C159 | `BuildModel.new_solution` on typed arguments; errors are values | by cases on the documented forms, which `BuildSpec` lists as an inductive predicate; lists of patches or states by induction |
| C160 | the same, with `covered`: the patches of the states are the domain | from C159; counterexamples computed |
| C161 | `BuildModel.domain3`: zip over three sequences and the names | induction over the sequences |
| C162 | `BuildModel.mesh`: arrays as functions of index lists with a shape | induction over the dimensions, with C36 for one dimension |
| C163 | `Classic1DModel` steps in `RunModel`, two programs that differ in `c_dx` and `c_capa` | simulation of one run by the other (`SimProofs`), with the explicit form of a step (`Classic1DProofs`) |
| C164 | `PStateModel.s_step`, `p_step`: operations on a serial state and on a process's state, arrays as shape and values in Fortran order; exceptions are values | simulation over every proper sequence of operations (`PStateSpec.proper`) |
| C165 | `PStateModel.write_F`, `write_F_parallel` | permutation of the cells among the processes |
| C166 | `Classic1DModel` steps in `RunModel`, data balanced at every interface | explicit form of a step (`Classic1DProofs`), then the invariant of runs C90 |
| C167 | `SemiModel` and `ReconModel` right-hand sides, Runge-Kutta steps in `RunModel` | where the waves vanish these reconstructions return the cell values; then the invariant of runs C90 |
| C168 | `MSemiModel`, `ReconModel` (tvd2_wave) | dq is the sum over the lines through a cell (C87); each line is at rest as in C167; then the invariants of C167 for the integrators |
| C169 | `SweepModel` | every sweep keeps the whole ghosted array, up to equality of numbers: a slice without waves and fluctuations is not changed (`flux2_still`); then induction over sweeps and steps |
| C170 | `UnsplitModel`, `SweepModel` (flux2) | on every slice, ghost slices included, qadd, fadd and gadd vanish (`flux2_still`, `gadd_still`); both sweeps read the same array, so no contribution is left; then induction over steps |
| C171 | `Unsplit3Model` | on every slice qadd, fadd, gadd and hadd vanish (`flux2_still`, `gadd3_still`), so none of the nine rows changes; then induction over steps; first order with trans_cor refuted by computation |

## 3. Findings

Properties that are false of the code as it is; each has a `..._refuted` theorem whose witness is
computed by the model.

* C02 rejected attempts count against `max_steps`, and the `while`-less `for` loop then ends normally
  before `tend`.
* C03 the retry after a rejection can be *longer* than proposed because the last step is stretched to
  hit `tend` (the theorem states the exact exception).
* C08 evolving to the current time sets `max_steps` to 0 and leaves it there, so the next run fails; with
  fixed step the call itself raises.
* C10 `dtmin`/`dtmax` are recorded before clipping and not for the first step.
* C11 `dt_max` is not applied to the first step, nor by SharpClaw.
* C12 source splitting differs when the Courant number equals `cfl_max`.
* C51 the fixed-step divisibility test scales with one step, not the interval.
* C52 `aux` and callback data are not restored on rejection.
* C15 grids with fewer cells than ghost cells: wall and periodic filling reads ghost cells.
* C54 aux boundary types are not validated; wall boundaries need a second component.
* C25 Python's superbee is `max(0, min(1, 2r))`, not superbee.
* C26 limiters 18, 21, 22, 23 take extrema over the whole array.
* C56 limiters 12, 13, 14 are not 1 at r = 1 and limiter 17 is identically 0.
* C58 the van Albada limiters do not vanish at extrema.
* C20 Python and Fortran 1D kernels differ for superbee, for f-waves of speed zero, and in the interfaces
  over which the Courant number is taken.
* C38 `p_centers` is stale after changing a dimension, reading `c_centers`, then `p_centers`.
* C39 a geometry assignment stores the value before the check that raises.
* C29 SSPLMMk3's `delta0` is negative for long saved steps, so it is not SSP there (C29_ssp_run_k3_partial: it is while the saved steps are short).
* C30 with `check_lmm_cond` a rejection leaves an older slope behind, and time can go backwards.
* C59 `lmm_steps` keeps its default when `alpha` has another length.
* C60 `SSP22` has a branch in `step` but is rejected in `_allocate_registers`.
* C32 Runge-Kutta stage registers are deep copies of the state, which drop `index_capa`; the Python kernel
  then ignores the capacity function in all stages but the first, and mass is not conserved.
* C61 `step3ds` sweeps only one layer of ghost cells in the other dimensions (`step2ds` sweeps all of them), so
  with a limiter the values next to a periodic boundary differ from those across it and mass is not conserved.
* C45 with limiters 18, 21, 22, 23 the result of a step depends on how the grid is cut among processes.
* C67 `ascii.write` with `write_p` writes `num_eqn` into fort.t although the rows hold `mp` numbers.
* C68 `Solution.read` appends to the states the object already holds.
* C69 `Solution.read` without a format looks for the header at the unexpanded path, finds nothing and fails.
* C70 `binary.read` cuts auxiliary arrays with `[:,mbc:-mbc]` even if `mbc` is 0, which gives an empty array.
* C71 `run` sets `_start_frame = len(frames)`, which is 0 without `keep_copy`: a second run overwrites the frames.
* C72 `run` returns `status`, which is unbound when no output is asked for; an empty `out_times` raises `AttributeError`.
* C73 with `output_style` 2 the first entry of `out_times` is assumed to be the current time and gets no frame.
* C47 `State.__deepcopy__` does not copy `index_capa`, `keep_gauges`, `gauge_data`, `p` and `F`; with a mapped grid the
  copy is then not valid.
* C75 `setup_gauge_files` appends to `gauge_files`, whose first handles were closed at the end of the first run: a
  second run always ends with `ValueError`.
* C76 `write_gauge_values` does not bind `q` in three dimensions.
* C77 gauge files are set up, and old ones removed, before `overwrite=False` is checked; the directory they are put in
  makes a first run fail.
* C78 a deep copy of a `Solution` copies its domain and its states separately: changing a patch of the domain no
  longer changes the states; `start_frame` is lost.
* C79 `check_solutions_are_same` pairs patches by `patch_index`, which is 1 for all patches by default: it rejects equal
  solutions and accepts different ones.
* C80 `check_diff` with `reltol` divides by the norm of the expected values: equal zero arrays are reported as
  different.
* C81 in `flux1.f90` the array `dtdx` is allocated for more cells than the capacity array it is assigned from, so
  (Fortran 2003) it is reallocated with lower bound 1: each cell is updated with the capacity of the cell `num_ghost`
  to its left. Compilers that do not implement this rule leave the program undefined.
* C83 `weno5_trans` (char_decomp=3) uses `evr(mw,m,i+m1)` where the product with `evl(mw,m,i)` needs `evr(m,mw,i+m1)`:
  for acoustics with impedance other than one the result is not the characteristic-wise reconstruction.
* C84 the Python `weno5_wave` drops the whole correction, not only the nonlinear part, when the wave at an interface
  is tiny, so a parabola with its vertex at an interface is not reconstructed exactly; the Fortran routine is exact.
  `weno5_fwave` divides by the wave speed, so a stationary wave gives NaN even in a constant state.
* C85 `tvd2` divides by the difference of neighbouring averages without a guard: constant states give 0/0.  Its limiter
  5 (Cada-Torrilhon) gives edge values outside the neighbours' range at extrema.  Limiter number 5 means something
  else in the Python limiters.
* C86 `tvd2_wave` stops at interface mx2-num_ghost and leaves the last interface of the domain first order, so that
  periodic problems do not conserve.
* C96 `flux3.f90` splits the correction wave `cqxx` whenever `method(3)` is 20 or more, also when `method(2)` is 1 and
  `cqxx` was not computed (`flux2.f90` checks).  `ClawSolver3D` with `order = 1`, `dimensional_split = False` and the
  default `transverse_waves` therefore uses whatever `np.empty` left in `solver.work`.
* C98 `solver.setup` runs once per solver (`solver.py:572`, `controller.py:302`) and `set_q_from_qbc` makes `state.q` a
  view of `solver.qbc`.  A classic solver that advances a second solution of the same shape overwrites the first one;
  with another shape the step raises.
* C99 In 2D and 3D the view is not Fortran contiguous, so `State.is_valid` is false after the first accepted step of a
  classic solver and a second `Controller.run` raises 'Initial solution is not valid.'.
* C101 `alloc_clawparams` and `alloc_workspace` do not check whether the module arrays are allocated, so two SharpClaw
  solvers of the same dimension in use at once, or a second `setup`, stop the program; `dealloc_recon_workspace` has no
  case for `lim_type` 3; `__del__` passes `self.char_decomp` to `dealloc_workspace` and the module's value to
  `dealloc_recon_workspace`, so that changing it before the solver is dropped stops the program.
* C102 `_set_method` and `_set_mthlim` run in `setup` only; options assigned afterwards are ignored by the Fortran
  kernels, except `dimensional_split`, which then selects the other kernel with the old `method(3)`.
* C103 `set_cparam` runs in `setup` only and writes the one common block of the Riemann solver module: later changes of
  `problem_data` are ignored, and another solver with the same Riemann solver changes the parameters of the first.
* C104 `solution.q = x` creates an attribute of the solution that hides `states[0].q`.
* C105 Solvers advance `states[0]` only, while `solution.t = ...` sets the time of all states.
* C107 h5py iterates over groups by name, so patch 10 is read before patch 2.
* C108 The default prefix of `hdf5.write` is 'claw', that of `Solution.read` is 'fort'.
* C109 `hdf5.read` makes the auxiliary array with `np.empty` when the frame holds none.
* C110 `get_write_func('hdf')` fails although 'hdf' can be read; 'netcdf', 'vtk' and 'claw_vtk' frames cannot be read;
  'binary' and 'petsc' frames cannot be written by `pyclaw.Solution`.
* C114 PETSc frames written without aux are read with the aux file that an older run left for that frame or for frame 0;
  a solution without aux then cannot be read with `read_aux=True`.
* C116 PETSc metadata are overwritten before the values: an interrupted write, or one with an unknown format, leaves a frame
  with the new time and the old values.
* C117 The q file of prefix `claw_aux` is the aux file of prefix `claw`.
* C119 `GaugeSolution.write` empties the file and raises for gauges in one dimension, drops the third coordinate, does not
  record that a gauge is Lagrangian, and writes gauges without observations so that they cannot be read.
* C120 `GaugeSolution.read` returns with the new id and the data of the gauge that the object held before when the .bin file
  is missing; `particle_path` is not updated in one and three dimensions.
* C122 Command line arguments `key=value` whose value contains an equals sign are ignored without a message.
* C123 `_set_overlapped_status` clamps the first index of a fine patch to 0 without shortening it: with several coarse
  patches, cells that no fine patch covers are marked as overlapped and not drawn.
* C124 Every VTK write appends the overlap marks to `state.q`: num_eqn grows by one with each frame, and the next
  frame contains the old marks as a field. A solver cannot continue with such a solution.
* C125 VTK output exchanges levels when a finer patch comes first in `solution.states`.
* C126 The patches in an auxiliary file are compared with an absolute tolerance of 1e-8, so in a domain of this size any
  auxiliary file fits.
* C127 `Solution.read` replaces an explicit `file_format` by the one in the ASCII header of the same prefix.
* C128 `Solution.read` stores `options['format']` in the caller's dictionary (also the default one): HDF5 output with
  it raises TypeError, PETSc output uses the format of the reader. PETSc frames are always read as 'binary'.
* C132 The split solver sweeps along x before y in every step (no alternation), so it does not commute with exchanging
  the axes; the unsplit solver does (C131).
* C135 Frames of derived quantities carry the number of components of q, not `mp`: ASCII frames come back with too few
  quantities or with values of neighbouring cells, HDF5 frames cannot be read.
* C136 `Solution.read` appends to `states`; the domain is that of the frame, the time that of the first old state.
* C138 ASCII frames have no end mark: if the last number of `fort.q` is cut off inside, it is read with a wrong value;
  if the crash comes after `fort.q`, the auxiliary arrays and the problem data are missing without a message.
* C140 The Fortran kernel gives f-waves of speed zero the sign plus (`dsign(1.d0, s)`), the Python kernel zero: in a mirror
  such a wave acts differently.  The Python kernel takes one interface more on the left than on the right into the
  Courant number.
* C142 With fixed steps `evolve_to_time` adds `1e-10` to the length of the run before dividing, so runs of tiny steps are
  refused (or not) depending on the unit of time.  Limiters take scalar products over all components of a wave, so for
  systems the answer depends on the units of the components.
* C144 `Solution(k)` and `Solution(frame=k)` have start frame 0, so a continued run overwrites frame 0 and those after it;
  `F.txt` is truncated at the start of every run; with variable steps the step that was reached is not stored.
* C148 With dimensional splitting the second sweep also visits ghost columns.  Where two processes meet these hold the values
  before the first sweep, so a parallel step can report a larger Courant number (and be rejected) where the serial step is
  accepted.  In three dimensions the sweeps cover one layer of ghost cells while limiters read two, so the cells next to
  another process get other values.
* C151 The Python SharpClaw kernel takes the maximum of the wave speeds over one interface more than it updates; the edges
  there are not reconstructed, so the Courant number depends on how the cells are divided among processes.  `tvd2_wave`
  leaves the outermost interfaces of every grid without slopes, so with `char_decomp = 1`, `lim_type = 1` dq itself depends
  on the division.
* All patches start with `patch_index` 1, so writing a solution of several patches that were not numbered raises in
  `create_group` (C106_same_index), after the file of that frame has been truncated.
* C155 `convert_gauges` calls `compare_gauges(path, output_path, gauge_id)`, whose first parameter is a list of two
  paths: every call raises after the first gauge has been written. A file with one observation is refused with IndexError.
* C156 the default tolerance of `compare_old_gauges` is absolute (1e-14); values from 100 written with sixteen digits
  can differ by more.
* C157 a frame written with `file_format='forestclaw'` is labelled `ascii` in fort.t, and the label wins over the
  argument of `Solution.read`: only a process that has used the ForestClaw format before can read it.
* C158 importing `forestclaw.fileio` replaces `read_patch_header` and `write_patch_header` of the ordinary ASCII format
  for the rest of the process: afterwards ordinary patches cannot be written and ordinary frames cannot be read.
* C159 `Solution(num_eqn, patch)` and `Solution(num_eqn, dimension)`, which the documentation lists, raise TypeError
  (`solution.py:152-153` assigns to an entry of a tuple). `Solution([num_eqn, num_aux], domain)` makes `states` a State instead of
  a list (line 170), so that every access to `solution.state` raises.
* C160 `Solution(num_eqn, domain)` with a domain of several patches has a state on the first patch only, and a State on another
  patch than those of the domain is accepted.
* C161 `Domain(lower, upper, num_cells)` uses `zip`: entries of a longer sequence, and a fourth dimension, disappear silently.
* C162 `Grid.c_center` (and with it `p_center` and the documented example) indexes with a list of arrays; since numpy 1.23 this selects
  planes instead of a cell, or raises IndexError.
* C164 in `petclaw/state.py` the setter of `F` is named `fset`, so `state.F = ...` raises AttributeError; the setter of `p` calls
  `init_p_da`, which does not exist; `aux` assigned after `set_num_ghost` gets a DA without ghost cells, and the next
  `get_auxbc_from_aux` raises; `q` and `aux` accept an array of any shape with as many entries.
* C165 `sum_F` adds absolute values: a functional whose density changes its sign is not its integral.
* C167 SharpClaw with the default, entry-wise WENO reconstruction (`char_decomp` 0) does not keep equilibria that the Riemann solver balances through f-waves or auxiliary data: inside a cell the auxiliary data are constant but the reconstructed q is not, so the fluctuation inside the cell is not balanced. The wave-based reconstructions keep them. (`C167_componentwise_refuted`)
* C171 The unsplit 3D classic solver with `order = 1` and `transverse_waves = trans_cor` (the default) can move data that are in equilibrium, zero data included: the correction wave is not computed at first order, and the transverse solver splits whatever the work array held (see C96). (`C171_first_order_refuted`)

## 4. Trusted base

Coq 8.16.1's kernel (and its `vm_compute` conversion); the reading of the source recorded in the comments;
the simplifications listed above.  No axioms: every `Print Assumptions` in the `*Props.v` files prints
`Closed under the global context`.

## 5. Tests of the theorems

`seeded/LOG.jsonl` records edits of the model that mimic realistic bugs, the claim each breaks, the
theorems that then fail and, where none failed, the theorems that were tightened.
