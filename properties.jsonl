{"id": "C01", "title": "Variable-step evolution never passes the requested time and lands on it exactly", "statement": "When evolve_to_time(solution,tend) runs with a variable time step from a time t<=tend, the solution time never decreases across accepted steps and never exceeds tend; if the time reaches tend it equals tend exactly (exact arithmetic).", "quantifier": "every initial dt>0, dt_max>0, CFL settings, every history of CFL numbers returned by the steps, every number of steps", "why_tests_cant": "the clipping logic interacts with every possible sequence of CFL values and rejections; tests only run a few problems", "anchors": ["src/pyclaw/solver.py:Solver.get_dt", "src/pyclaw/solver.py:Solver.evolve_to_time"]}
{"id": "C02", "title": "Normal return means the end time was reached", "statement": "If evolve_to_time(solution,tend) with a variable time step returns without an exception then the solution time is at least tend; otherwise an exception tells the user that the step limit was hit.", "quantifier": "every schedule of accepted and rejected steps and every max_steps", "why_tests_cant": "needs a run in which rejections exhaust the iteration budget, which no test provokes", "anchors": ["src/pyclaw/solver.py:Solver.evolve_to_time"]}
{"id": "C03", "title": "A rejected step leaves no trace in the solution", "statement": "When a step is rejected because the Courant number exceeded cfl_max and the time step is variable, q and t are exactly the values from before the step and the retried step is shorter by at least the factor cfl_desired/cfl_max, unless it is the last step and stretched by at most 1e-14*t to hit tend.", "quantifier": "every state, every user before_step/source/Riemann solver, every Courant number", "why_tests_cant": "the user callbacks and CFL values are arbitrary functions", "anchors": ["src/pyclaw/solver.py:Solver.evolve_to_time", "src/pyclaw/solver.py:Solver.get_dt_new", "src/pyclaw/solver.py:Solver.accept_reject_step"]}
{"id": "C04", "title": "Every accepted step obeyed the CFL limit and status reports it", "statement": "After evolve_to_time, every step that contributed to the solution had Courant number <= cfl_max; status['cflmax'] is the maximum over the accepted steps (and the old value) and status['numsteps'] grew by exactly the number of accepted steps.", "quantifier": "every run of any length", "why_tests_cant": "quantifies over all histories of steps", "anchors": ["src/pyclaw/solver.py:Solver.evolve_to_time", "src/pyclaw/solver.py:Solver.accept_reject_step"]}
{"id": "C05", "title": "Fixed-step evolution takes exactly the right number of steps", "statement": "With dt_variable=False and dt dividing the interval exactly (and not below the rounding allowances 1e-10 and 1e-14*tend), evolve_to_time either raises on a CFL violation after the accepted steps, or performs exactly (tend-t0)/dt steps, the n-th ending at t0+n*dt, and ends at tend.", "quantifier": "every dt>0, start, end and CFL history", "why_tests_cant": "unbounded numbers of steps and real parameters", "anchors": ["src/pyclaw/solver.py:Solver.evolve_to_time"]}
{"id": "C06", "title": "Single-step mode attempts exactly one step", "statement": "evolve_to_time(solution) without an end time attempts exactly one step (when at least one is allowed): the time advances by the step dt if accepted and is unchanged if rejected; it never clips dt to an end time.", "quantifier": "every state and callback", "why_tests_cant": "arbitrary callbacks", "anchors": ["src/pyclaw/solver.py:Solver.evolve_to_time", "src/pyclaw/solver.py:Solver.get_dt"]}
{"id": "C07", "title": "Bounded wave speeds imply the run finishes", "statement": "If the Courant number of a step is proportional to dt with a rate bounded by R on every state, cfl_desired>0 and max_steps is at least an explicit bound computed from dt, R and the interval, then evolve_to_time reaches tend and raises nothing; and a step retried after a rejection is accepted.", "quantifier": "every problem with bounded speeds", "why_tests_cant": "liveness over all runs", "anchors": ["src/pyclaw/solver.py:Solver.evolve_to_time", "src/pyclaw/solver.py:Solver.get_dt"]}
{"id": "C08", "title": "Evolving to a time already reached is a harmless no-op", "statement": "evolve_to_time(solution,tend) with tend<=solution.t changes nothing, and subsequent evolve_to_time calls behave as if it had never been made.", "quantifier": "every solver state and every later call", "why_tests_cant": "needs call sequences over one solver object", "anchors": ["src/pyclaw/solver.py:Solver.evolve_to_time"]}
{"id": "C09", "title": "Splitting a fixed-step run at an output time does not change the answer", "statement": "With a fixed dt dividing both intervals exactly, evolve_to_time(t1) followed by evolve_to_time(t2) produces the same q, t and step count as a single evolve_to_time(t2).", "quantifier": "every pair of step counts, every state and step function", "why_tests_cant": "all split points and lengths", "anchors": ["src/pyclaw/solver.py:Solver.evolve_to_time"]}
{"id": "C10", "title": "status dtmin/dtmax bracket the steps taken", "statement": "After evolve_to_time, status['dtmin'] <= dt <= status['dtmax'] for each accepted step's dt (documented as the minimum and maximum time step taken).", "quantifier": "every run", "why_tests_cant": "all histories", "anchors": ["src/pyclaw/solver.py:Solver.get_dt", "src/pyclaw/solver.py:Solver.evolve_to_time"]}
{"id": "C11", "title": "dt never exceeds dt_max", "statement": "No step is attempted with dt larger than solver.dt_max.", "quantifier": "every classic and SharpClaw run", "why_tests_cant": "all histories and solvers", "anchors": ["src/pyclaw/solver.py:Solver.get_dt_new", "src/pyclaw/sharpclaw/solver.py:SharpClawSolver.get_dt_new"]}
{"id": "C12", "title": "Operator splitting applies the whole source term on every accepted step", "statement": "In the classic solvers an accepted step applies exactly: Strang (source_split=2) source(dt/2), hyperbolic(dt), source(dt/2); Godunov (source_split=1) hyperbolic(dt), source(dt).", "quantifier": "every source, hyperbolic step and CFL value including CFL equal to the limit", "why_tests_cant": "the boundary case CFL = cfl_max has measure zero for tests", "anchors": ["src/pyclaw/classic/solver.py:ClawSolver.step", "src/pyclaw/solver.py:Solver.accept_reject_step"]}
{"id": "C13", "title": "Ghost cells are filled as each boundary condition documents", "statement": "After boundary conditions are applied in any number of dimensions: extrapolation copies the nearest interior cell, periodic wraps around (corners included), wall mirrors the interior and negates exactly the normal-velocity component of q (and no component of aux); interior cells are exactly the cells of q.", "quantifier": "every array size, ghost width, number of equations and dimensions", "why_tests_cant": "index arithmetic for all sizes", "anchors": ["src/pyclaw/solver.py:Solver._apply_bcs", "src/pyclaw/solver.py:Solver._bc_lower", "src/pyclaw/solver.py:Solver._bc_upper"]}
{"id": "C14", "title": "Missing or unknown boundary conditions are reported", "statement": "Applying boundary conditions raises exactly when some physical boundary side has an unset type, an unknown type, a custom type without a user function, or a wall type while q lacks the normal-velocity component; the error is that of the first such side (dimensions in order, lower before upper, aux before q). A custom type calls the user's function and writes nothing else.", "quantifier": "every dimension/side combination", "why_tests_cant": "all combinations", "anchors": ["src/pyclaw/solver.py:Solver._apply_bcs", "src/pyclaw/solver.py:Solver.is_valid"]}
{"id": "C15", "title": "Boundary conditions do not need a minimum grid size", "statement": "The ghost filling of C13 is right for every grid with at least one cell.", "quantifier": "every num_cells>=1 and num_ghost", "why_tests_cant": "tests never use grids narrower than the ghost region", "anchors": ["src/pyclaw/solver.py:Solver._bc_lower", "src/pyclaw/solver.py:Solver._bc_upper"]}
{"id": "C54", "title": "A solver that passes is_valid can fill its ghost cells", "statement": "If is_valid accepts the solver, applying boundary conditions does not raise.", "quantifier": "every combination of boundary types, with and without aux arrays", "why_tests_cant": "all combinations of types", "anchors": ["src/pyclaw/solver.py:Solver.is_valid", "src/pyclaw/solver.py:Solver._apply_bcs"]}
{"id": "C16", "title": "Adding and stripping ghost cells is lossless", "statement": "Copying q into the ghosted array and extracting it again returns exactly q, for every number of dimensions and ghost width at least one; only interior cells are written.", "quantifier": "every shape", "why_tests_cant": "all shapes", "anchors": ["src/pyclaw/state.py:State.get_qbc_from_q", "src/pyclaw/state.py:State.set_q_from_qbc"]}
{"id": "C17", "title": "1D classic solver conserves mass on a periodic domain", "statement": "One step of the 1D classic solver with periodic boundaries leaves the (capacity weighted) total of every conserved component unchanged, for first and second order, every limiter choice, if the Riemann solver's fluctuations sum to the flux difference.", "quantifier": "every grid size, state, Riemann solver of the stated form, limiter and dt", "why_tests_cant": "universally quantified over data and Riemann solvers", "anchors": ["src/pyclaw/classic/solver.py:ClawSolver1D.step_hyperbolic", "src/pyclaw/classic/step1.f90"]}
{"id": "C18", "title": "1D classic solver: total changes only through boundary fluxes", "statement": "With limiters evaluated interface by interface there is one numerical flux function of four neighbouring cells, consistent with the physical flux, such that for any ghost cell contents each cell changes by a flux difference and the total changes by the difference of the fluxes at the two domain ends.", "quantifier": "every state, limiter and boundary data", "why_tests_cant": "all data", "anchors": ["src/pyclaw/classic/solver.py:ClawSolver1D.step_hyperbolic"]}
{"id": "C19", "title": "Constant states are preserved", "statement": "If q (and aux) is the same in all cells, including ghost cells, and the Riemann solver returns zero fluctuations for equal states, then a step changes nothing.", "quantifier": "every solver order, limiter, dt, grid", "why_tests_cant": "all data", "anchors": ["src/pyclaw/classic/solver.py:ClawSolver1D.step_hyperbolic"]}
{"id": "C20", "title": "Python and Fortran 1D kernels agree", "statement": "With the same Riemann solver results, kernel_language 'Python' and 'Fortran' give the same interior q.", "quantifier": "every input, limiter and wave form", "why_tests_cant": "all inputs; the test-suite compares a few runs to tolerance", "anchors": ["src/pyclaw/classic/solver.py:ClawSolver1D.step_hyperbolic", "src/pyclaw/classic/step1.f90", "src/pyclaw/classic/limiter.f90", "src/pyclaw/limiters/tvd.py:limit"]}
{"id": "C21", "title": "First-order advection obeys a maximum principle and is TVD", "statement": "For the scalar advection Riemann solver, order=1 and Courant number <=1, each new cell value is a convex combination of neighbouring old values; the total variation of a periodic solution does not increase and no new extrema appear.", "quantifier": "every data, grid, speed of either sign", "why_tests_cant": "all data", "anchors": ["src/pyclaw/classic/solver.py:ClawSolver1D.step_hyperbolic"]}
{"id": "C22", "title": "Second-order limited advection is TVD", "statement": "For scalar advection with Courant number <=1 and a limiter inside Sweby's region the order=2 step does not increase the total variation of a periodic solution.", "quantifier": "every data, size, speed, limiter in the region", "why_tests_cant": "all data", "anchors": ["src/pyclaw/classic/solver.py:ClawSolver1D.step_hyperbolic", "src/pyclaw/limiters/tvd.py"]}
{"id": "C23", "title": "Unit Courant number advection is exact", "statement": "Scalar advection with Courant number exactly 1 shifts the solution by one cell, for order 1 and 2 and every limiter.", "quantifier": "every data and limiter", "why_tests_cant": "all data", "anchors": ["src/pyclaw/classic/solver.py:ClawSolver1D.step_hyperbolic"]}
{"id": "C24", "title": "Two ghost cells are enough", "statement": "With limiters evaluated interface by interface, the new value of an interior cell depends only on old values in the five cells around it; with any limiter it depends only on cells inside the ghosted array, so a classic 1D step with num_ghost=2 never uses uninitialised data for its interior result.", "quantifier": "every Riemann solver and data", "why_tests_cant": "non-interference over all data", "anchors": ["src/pyclaw/classic/solver.py:ClawSolver1D.step_hyperbolic", "src/pyclaw/limiters/tvd.py:limit"]}
{"id": "C25", "title": "TVD limiters lie in Sweby's region", "statement": "minmod, superbee, van Leer and MC satisfy 0<=phi(r)<=2, phi(r)<=2r, phi(1)=1, phi(r)=0 for r<=0 and phi(r)=r*phi(1/r) for r>0, in both the Python and the Fortran implementation, and the two implementations agree.", "quantifier": "every real smoothness ratio r", "why_tests_cant": "all r", "anchors": ["src/pyclaw/limiters/tvd.py", "src/pyclaw/classic/philim.f90"]}
{"id": "C26", "title": "Limiters act cell by cell", "statement": "The limited wave at an interface depends only on the ratio and Courant number at that interface, for every entry of the limiter table.", "quantifier": "every limiter number, every vector of ratios", "why_tests_cant": "needs two inputs differing far away", "anchors": ["src/pyclaw/limiters/tvd.py:limiter_functions"]}
{"id": "C27", "title": "Runge-Kutta integrators compute the method they name", "statement": "A SharpClaw step with the integrators Euler, SSP33, SSP104 and user RK, and the SSP22 and SSP104 starting steps of the multistep methods, compute the Runge-Kutta update of the corresponding Butcher tableau; the named tableaux satisfy the conditions for order 1, 3, 4 and (SSP22) 2.", "quantifier": "every semi-discretisation dq (any function of state and time)", "why_tests_cant": "all right-hand sides", "anchors": ["src/pyclaw/sharpclaw/solver.py:SharpClawSolver.step", "src/pyclaw/sharpclaw/solver.py:SharpClawSolver.ssp104"]}
{"id": "C28", "title": "SSP integrators preserve forward-Euler invariants", "statement": "If forward Euler with a step up to dtFE preserves a convex invariant set, so do SSP22 and SSP33 steps with dt<=dtFE and SSP104 steps with dt<=6*dtFE.", "quantifier": "every convex set and right-hand side", "why_tests_cant": "all sets, all data", "anchors": ["src/pyclaw/sharpclaw/solver.py:SharpClawSolver.step", "src/pyclaw/sharpclaw/solver.py:SharpClawSolver._sspcoeff"]}
{"id": "C29", "title": "Multistep coefficients are consistent and strong stability preserving", "statement": "The variable-step SSPLMMk2/k3 formulas are exact for solutions polynomial in time of degree 2/3 for every step-size history, their coefficients are non-negative when the step is within the SSP bound, and the automatic step size meets that bound exactly.", "quantifier": "every history of step sizes", "why_tests_cant": "all histories", "anchors": ["src/pyclaw/sharpclaw/solver.py:SharpClawSolver.step", "src/pyclaw/sharpclaw/solver.py:SharpClawSolver.get_dt_new"]}
{"id": "C30", "title": "Multistep history registers always hold the last k accepted solutions", "statement": "Whatever the sequence of accepted and rejected steps, the registers used by a linear multistep step contain the last k accepted solutions in order, and the saved step sizes are the distances between them.", "quantifier": "every sequence of accepted/rejected steps", "why_tests_cant": "all histories", "anchors": ["src/pyclaw/sharpclaw/solver.py:SharpClawSolver.update_saved_values"]}
{"id": "C31", "title": "WENO5 reconstruction is a convex combination, exact on quadratics", "statement": "The fifth-order WENO weights are positive and sum to one, the reconstruction reproduces quadratic cell averages exactly, and shifts/reflections of the data shift/reflect the result.", "quantifier": "every five-point stencil", "why_tests_cant": "all data", "anchors": ["src/pyclaw/limiters/recon.py:weno", "src/pyclaw/sharpclaw/weno.f90:weno5"]}
{"id": "C32", "title": "SharpClaw semi-discretisation conserves mass on a periodic domain", "statement": "The sum over cells of capacity*dq vanishes for periodic boundaries whatever the reconstruction, so every Runge-Kutta or multistep update conserves the total.", "quantifier": "every reconstruction, Riemann solver of flux-difference form, grid", "why_tests_cant": "all data", "anchors": ["src/pyclaw/sharpclaw/solver.py:SharpClawSolver1D.dq_hyperbolic", "src/pyclaw/sharpclaw/flux1.f90"]}
{"id": "C33", "title": "2D dimensionally split steps conserve mass on a periodic domain", "statement": "With at least two ghost cells, an x-sweep followed by a y-sweep on a doubly periodic grid leaves the total of each component unchanged; re-using one array for input and output of the y-sweep gives the same result as separate arrays.", "quantifier": "every grid size and data", "why_tests_cant": "all data and sizes", "anchors": ["src/pyclaw/classic/solver.py:ClawSolver2D.step_hyperbolic", "src/pyclaw/classic/step2ds.f90"]}
{"id": "C34", "title": "2D unsplit (transverse) steps conserve mass on a periodic domain", "statement": "The corner-transport update of the unsplit 2D solver leaves the total unchanged on a doubly periodic grid for every transverse Riemann solver.", "quantifier": "every grid size, data, rpn2, rpt2", "why_tests_cant": "all data", "anchors": ["src/pyclaw/classic/step2.f90", "src/pyclaw/classic/flux2.f90"]}
{"id": "C35", "title": "The work array is large enough and its pieces are disjoint", "statement": "The workspace PyClaw allocates for the 2D and 3D Fortran kernels is at least what the kernels' own check requires, so 'not enough work space' can never stop a run, and the pieces they carve do not overlap.", "quantifier": "every grid shape and problem size", "why_tests_cant": "all sizes", "anchors": ["src/pyclaw/classic/solver.py:ClawSolver2D._allocate_workspace", "src/pyclaw/classic/solver.py:ClawSolver3D._allocate_workspace", "src/pyclaw/classic/step2.f90", "src/pyclaw/classic/step3.f90"]}
{"id": "C36", "title": "Grid coordinates are consistent", "statement": "For a Dimension, nodes run from lower to upper in equal steps, each centre is the midpoint of its cell, ghost coordinates extend the same formula, and index-to-coordinate maps are strictly increasing.", "quantifier": "every lower<upper and num_cells>0", "why_tests_cant": "all parameters", "anchors": ["src/pyclaw/geometry.py:Dimension"]}
{"id": "C37", "title": "A gauge is attached to the cell that contains it", "statement": "add_gauges records, for each gauge inside the grid, indices within range whose cell contains the gauge point, ignores gauges outside, and when a domain is split among processes every gauge inside the domain is owned by exactly one process.", "quantifier": "every gauge position, grid and decomposition", "why_tests_cant": "all positions", "anchors": ["src/pyclaw/geometry.py:Grid.add_gauges"]}
{"id": "C38", "title": "Grid coordinate arrays follow changes of the dimensions", "statement": "After changing lower, upper or num_cells of a dimension, all coordinate arrays of its grid reflect the new values whatever was read before (documented: all grid attributes update automatically when grid is modified).", "quantifier": "every interleaving of reads and changes", "why_tests_cant": "all histories of reads and writes", "anchors": ["src/pyclaw/geometry.py:Grid"]}
{"id": "C39", "title": "A Dimension can never be put in an invalid state", "statement": "After any sequence of attribute assignments, some of which may raise, a Dimension has num_cells>0 and lower<upper.", "quantifier": "every sequence of assignments", "why_tests_cant": "all histories incl. caught exceptions", "anchors": ["src/pyclaw/geometry.py:Dimension"]}
{"id": "C40", "title": "ASCII output round-trips", "statement": "Writing a solution in ascii format and reading it back gives the same number of patches, sizes, levels, indices and, up to the rounding of the print format, the same value in every cell, for 1, 2 and 3 dimensions.", "quantifier": "every number of patches, cells and equations", "why_tests_cant": "all shapes", "anchors": ["src/pyclaw/fileio/ascii.py:write", "src/pyclaw/fileio/ascii.py:read"]}
{"id": "C41", "title": "Printed numbers are accurate", "statement": "A number printed by the ascii writer and parsed back differs from the original by at most half a unit in the ninth significant digit.", "quantifier": "every finite number", "why_tests_cant": "all values", "anchors": ["src/pyclaw/fileio/ascii.py:write_array", "src/pyclaw/fileio/ascii.py:write_patch_header"]}
{"id": "C42", "title": "Output file names identify frames uniquely", "statement": "Different frame numbers give different file names and lexicographic order of names equals numeric order below 10000.", "quantifier": "every pair of frame numbers", "why_tests_cant": "all pairs", "anchors": ["src/pyclaw/fileio/ascii.py:write", "src/pyclaw/fileio/hdf5.py:write"]}
{"id": "C43", "title": "Binary reader recovers each patch", "statement": "The binary reader assigns every value of the raw stream to the right patch, component and cell, stripping ghost cells.", "quantifier": "every patch list", "why_tests_cant": "all shapes", "anchors": ["src/pyclaw/fileio/binary.py:read"]}
{"id": "C44", "title": "Controller writes the frames the user asked for", "statement": "run() produces one frame at the start and one per requested output time, numbered consecutively, at the requested times, for the three output styles.", "quantifier": "every number of outputs and step counts", "why_tests_cant": "all schedules", "anchors": ["src/pyclaw/controller.py:Controller.run"]}
{"id": "C45", "title": "Parallel runs give the serial answer", "statement": "For a 1D domain split among any number of processes, exchanging ghost cells and applying physical boundary conditions only at true boundaries yields on each process exactly the ghosted slice of the serial array, hence (with limiters that work cell by cell) the same step result and the same run: steps attempted, step sizes, times and cells; the global CFL is the maximum of the local ones.", "quantifier": "every decomposition, boundary-condition combination and data", "why_tests_cant": "all decompositions", "anchors": ["src/petclaw/state.py:State.get_qbc_from_q", "src/petclaw/geometry.py:Patch", "src/petclaw/cfl.py:CFL", "src/pyclaw/solver.py:Solver._apply_bcs"]}
{"id": "C46", "title": "Local grids tile the global grid", "statement": "The local grids of a decomposed patch tile the global interval: bounds of neighbours coincide and cell centres agree with the serial grid.", "quantifier": "every decomposition", "why_tests_cant": "all decompositions", "anchors": ["src/petclaw/geometry.py:Patch"]}
{"id": "C47", "title": "Copies of states are complete and independent", "statement": "A deep copy of a State has the same q, aux, t, problem data and capacity index, and later changes to either do not affect the other.", "quantifier": "every state and every later operation", "why_tests_cant": "all histories", "anchors": ["src/pyclaw/state.py:State.__deepcopy__"]}
{"id": "C48", "title": "Gauge recording keeps one row per accepted step in order", "statement": "With gauges and keep_gauges set, a run in one or two dimensions records for every gauge one row for the initial values and one for each accepted step, in time order, in the gauge file and in memory, whatever steps were rejected in between.", "quantifier": "every schedule and number of gauges", "why_tests_cant": "all schedules", "anchors": ["src/pyclaw/solver.py:Solver.write_gauge_values"]}
{"id": "C49", "title": "Misspelled solver options are reported", "statement": "Assigning an attribute that the solver does not have raises TypeError and creates nothing; assigning existing attributes works at any time.", "quantifier": "every attribute name and assignment history", "why_tests_cant": "all names and histories", "anchors": ["src/pyclaw/solver.py:Solver.__setattr__"]}
{"id": "C50", "title": "Regression helpers report a difference if and only if there is one", "statement": "check_diff returns nothing exactly when the absolute difference, or for expected values that are not all zero the relative difference, is below the tolerance; it raises exactly when no tolerance is given or the sizes differ.", "quantifier": "every pair of values and tolerances", "why_tests_cant": "all values", "anchors": ["src/pyclaw/util.py:check_diff"]}
{"id": "C51", "title": "Fixed-step final time is within the divisibility tolerance", "statement": "With dt_variable=False, when dt passes the divisibility check but does not divide the interval exactly, the final time differs from tend by at most 1e-5*(tend-t0).", "quantifier": "every dt, start and end", "why_tests_cant": "all real parameters", "anchors": ["src/pyclaw/solver.py:Solver.evolve_to_time", "src/pyclaw/solver.py:Solver.get_dt"]}
{"id": "C52", "title": "A rejected step restores everything the step changed", "statement": "After a rejected step not only q and t but also aux and other data changed by the callbacks of the rejected step are as before.", "quantifier": "every callback", "why_tests_cant": "arbitrary callbacks", "anchors": ["src/pyclaw/solver.py:Solver.evolve_to_time"]}
{"id": "C53", "title": "A fixed-step run equals repeated single-step calls", "statement": "With a fixed dt dividing the interval into N steps, evolve_to_time(tend) gives the same solution, status and error as N calls of evolve_to_time() in single-step mode.", "quantifier": "every N, state and callbacks", "why_tests_cant": "all lengths and callbacks", "anchors": ["src/pyclaw/solver.py:Solver.evolve_to_time"]}
{"id": "C55", "title": "Courant-number dependent limiters stay in the TVD region for that number", "statement": "For Courant numbers 0<nu<1 the Arora-Roe, CFL-superbee and CFL-superbee-theta limiters satisfy 0 <= phi <= min(2/(1-nu), 2r/nu) for r>0 and vanish for r<=0.", "quantifier": "every ratio r and Courant number in (0,1)", "why_tests_cant": "all real values", "anchors": ["src/pyclaw/limiters/tvd.py:cfl_superbee"]}
{"id": "C56", "title": "Every limiter leaves smooth data second order", "statement": "Every entry of the limiter table returns 1 at r=1, so that on smooth data the full second-order correction is applied.", "quantifier": "every limiter number and Courant number", "why_tests_cant": "all Courant numbers", "anchors": ["src/pyclaw/limiters/tvd.py:limiter_functions"]}
{"id": "C57", "title": "The reported Courant number is the largest local Courant number", "statement": "The Courant number the 1D classic step reports is nonnegative, bounds speed*dt/(dx*capacity) in the receiving cell for every wave at every interior interface, and is attained.", "quantifier": "every Riemann solver, data, capacity and dt", "why_tests_cant": "all data", "anchors": ["src/pyclaw/classic/solver.py:ClawSolver1D.step_hyperbolic", "src/pyclaw/classic/step1.f90"]}
{"id": "C58", "title": "The van Albada and van Leer-Klein limiters are symmetric and bounded", "statement": "Limiters 7, 8 and 9 satisfy phi(r)=r*phi(1/r), phi(1)=1, 0<=phi<=min(2,2r) for r>=0 and -1/2<=phi<=3/2 for r<=0; limiter 9 vanishes for r<=0.", "quantifier": "every ratio of slopes r", "why_tests_cant": "all reals", "anchors": ["src/pyclaw/limiters/tvd.py:limiter_functions", "src/pyclaw/limiters/tvd.py:van_leer_klein_sharpening_limiter"]}
{"id": "C59", "title": "User-defined multistep methods compute their formula", "statement": "With time_integrator='LMM' and coefficients alpha, beta of equal length k, every step after the start-up computes sum alpha_j q_j + dt beta_j f(q_j) over the last k solutions.", "quantifier": "every alpha, beta and history", "why_tests_cant": "all coefficient lists and histories", "anchors": ["src/pyclaw/sharpclaw/solver.py:SharpClawSolver.step"]}
{"id": "C60", "title": "Every integrator that step implements can be selected", "statement": "A solver with time_integrator set to any name for which step has a branch passes setup.", "quantifier": "every integrator name", "why_tests_cant": "the names are a small set, but no test exercises all", "anchors": ["src/pyclaw/sharpclaw/solver.py:SharpClawSolver._allocate_registers"]}
{"id": "C61", "title": "3D dimensionally split steps conserve mass on a periodic domain", "statement": "With at least two ghost cells, an x-, a y- and a z-sweep on a triply periodic grid leave the total of each component unchanged, for every conservative Riemann solver, order and limiter.", "quantifier": "every data, capacity, solver, limiter and grid size", "why_tests_cant": "all data and grids", "anchors": ["src/pyclaw/classic/step3ds.f90", "src/pyclaw/classic/solver.py:ClawSolver3D.step_hyperbolic"]}
{"id": "C62", "title": "Each sweep of the split solvers is the 1D solver on every slice", "statement": "A sweep along a dimension replaces every slice by the result of the 1D Fortran kernel with that dimension's Riemann solver, cell size and capacity, and changes no other cell (in particular no ghost cell beyond the ends of a slice).", "quantifier": "every dimension, Riemann solver, grid and slice", "why_tests_cant": "all data and solvers", "anchors": ["src/pyclaw/classic/step2ds.f90", "src/pyclaw/classic/step3ds.f90", "src/pyclaw/classic/flux2.f90"]}
{"id": "C63", "title": "Data that does not vary in y evolves as in one dimension", "statement": "If q and aux do not depend on y and the y boundaries are extrapolating or periodic, a dimensionally split 2D step gives on every row exactly what the 1D solver gives on that row.", "quantifier": "every x data, Riemann solver and x boundary condition", "why_tests_cant": "all data and solvers", "anchors": ["src/pyclaw/classic/step2ds.f90", "src/pyclaw/classic/solver.py:ClawSolver2D.step_hyperbolic"]}
{"id": "C64", "title": "The Courant number reported by split steps is the largest over all sweeps", "statement": "The Courant number of a 2D or 3D split step is nonnegative, bounds the Courant number of every wave at every face of every swept slice, with the data the sweep started from, and is attained unless it is 0.", "quantifier": "every Riemann solver, data and dt", "why_tests_cant": "all data", "anchors": ["src/pyclaw/classic/step2ds.f90", "src/pyclaw/classic/step3ds.f90", "src/pyclaw/classic/solver.py:ClawSolver2D.step_hyperbolic"]}
{"id": "C65", "title": "Data that does not vary in y evolves as in one dimension without dimensional splitting", "statement": "If q and aux do not depend on y, the y boundaries are extrapolating or periodic and the transverse solver splits a zero fluctuation into zeros, an unsplit 2D step gives on every row exactly what the 1D solver gives on that row, for every setting of transverse_waves.", "quantifier": "every x data, Riemann solver, transverse setting and x boundary condition", "why_tests_cant": "all data and solvers", "anchors": ["src/pyclaw/classic/step2.f90", "src/pyclaw/classic/flux2.f90", "src/pyclaw/classic/solver.py:ClawSolver2D.step_hyperbolic"]}
{"id": "C66", "title": "The Courant number reported by unsplit steps is the largest over all slices in both directions", "statement": "The Courant number of an unsplit 2D step is nonnegative, bounds the Courant number of every wave at every face of the slices it visits, in both directions, and is attained unless it is 0.", "quantifier": "every Riemann solver, data and dt", "why_tests_cant": "all data", "anchors": ["src/pyclaw/classic/step2.f90"]}
{"id": "C67", "title": "Derived quantities written by the controller read back as written", "statement": "A frame of derived quantities p written with write_p=True reads back with the values of p, whatever the number of derived quantities.", "quantifier": "every state with p and every number of components of q and p", "why_tests_cant": "all sizes", "anchors": ["src/pyclaw/fileio/ascii.py:write", "src/pyclaw/controller.py:Controller.run"]}
{"id": "C68", "title": "Reading a frame into a Solution replaces what it held", "statement": "After Solution.read the solution holds exactly the states of the frame, whether or not the object held data before.", "quantifier": "every frame and every earlier content", "why_tests_cant": "all histories", "anchors": ["src/pyclaw/solution.py:Solution.read", "src/pyclaw/fileio/ascii.py:read"]}
{"id": "C69", "title": "Output paths with ~ or environment variables work for reading as for writing", "statement": "A frame written to a path containing ~ or an environment variable can be read by giving the same path, with any setting of the format argument.", "quantifier": "every path expansion and frame", "why_tests_cant": "all paths", "anchors": ["src/pyclaw/solution.py:Solution.read", "src/pyclaw/solution.py:Solution.write"]}
{"id": "C70", "title": "Auxiliary arrays of binary frames are read for every number of ghost cells", "statement": "Reading a binary frame with read_aux gives every patch its auxiliary values, also when the files hold no ghost cells.", "quantifier": "every patch list, every number of ghost cells including zero", "why_tests_cant": "all shapes", "anchors": ["src/pyclaw/fileio/binary.py:read"]}
{"id": "C71", "title": "A second run continues the numbering of frames", "statement": "Calling run again on the same controller numbers its frames after those already written, so that no frame of the first run is overwritten, whether or not copies are kept in memory.", "quantifier": "every sequence of runs and every setting of keep_copy", "why_tests_cant": "histories of runs", "anchors": ["src/pyclaw/controller.py:Controller.run"]}
{"id": "C72", "title": "A run with nothing to compute returns normally", "statement": "run returns the solver status for every valid setting of the output options, also when no further frame is asked for; the only exceptions are those of the solver.", "quantifier": "every output style, number of outputs and list of times", "why_tests_cant": "all settings", "anchors": ["src/pyclaw/controller.py:Controller.run"]}
{"id": "C73", "title": "With a list of output times there is a frame at each of them", "statement": "With output_style 2 and increasing out_times not before the current time, a run that ends normally writes a frame at every time in the list.", "quantifier": "every list of output times and every initial time", "why_tests_cant": "all lists of times", "anchors": ["src/pyclaw/controller.py:Controller.run"]}
{"id": "C74", "title": "The file of functionals has one line per frame", "statement": "After a run, whether it ends normally or by an exception of the solver, F.txt holds one line for each frame written by this run, in order: the time of the frame and the functionals of that frame.", "quantifier": "every run, every functional and every point of failure", "why_tests_cant": "all runs and crash points", "anchors": ["src/pyclaw/controller.py:Controller.write_F", "src/pyclaw/controller.py:Controller.run"]}
{"id": "C75", "title": "A second run with gauges records as the first", "statement": "Calling run a second time on a controller whose solution has gauges records rows for the second run as for the first.", "quantifier": "every run and every set of gauges", "why_tests_cant": "histories of runs", "anchors": ["src/pyclaw/controller.py:Controller.run", "src/pyclaw/geometry.py:Grid.setup_gauge_files", "src/pyclaw/solver.py:Solver.write_gauge_values"]}
{"id": "C76", "title": "Gauges work in three dimensions", "statement": "Gauges record rows in three dimensions as they do in one and two.", "quantifier": "every run", "why_tests_cant": "all runs", "anchors": ["src/pyclaw/solver.py:Solver.write_gauge_values"]}
{"id": "C77", "title": "overwrite=False protects existing output", "statement": "With overwrite=False a run is refused exactly when the output directory existed before, and a refused run changes no file.", "quantifier": "every previous content of the output directory, with and without gauges", "why_tests_cant": "all file systems", "anchors": ["src/pyclaw/controller.py:Controller.run", "src/pyclaw/geometry.py:Grid.setup_gauge_files"]}
{"id": "C78", "title": "A deep copy of a Solution behaves like the original", "statement": "A deep copy of a Solution has the same states, shares no array with the original, and keeps the relations between its parts: the patches of its domain are the patches of its states, and settings such as start_frame are kept.", "quantifier": "every solution", "why_tests_cant": "all states", "anchors": ["src/pyclaw/solution.py:Solution.__deepcopy__", "src/pyclaw/geometry.py:Domain.__deepcopy__", "src/pyclaw/state.py:State.__deepcopy__"]}
{"id": "C79", "title": "Solutions are found to be the same exactly when they are", "statement": "check_solutions_are_same returns for two solutions that agree up to the order of their patches (values within the tolerances, everything else equal) and fails for all others.", "quantifier": "every pair of solutions with any number of patches", "why_tests_cant": "all solutions", "anchors": ["src/pyclaw/util.py:check_solutions_are_same"]}
{"id": "C80", "title": "Equal values are never reported as different", "statement": "check_diff returns nothing when the test values equal the expected values, for every positive tolerance.", "quantifier": "every array, tolerance and kind of tolerance", "why_tests_cant": "all values", "anchors": ["src/pyclaw/util.py:check_diff"]}
{"id": "C81", "title": "The Fortran SharpClaw kernel uses the capacity of the cell it updates", "statement": "With a capacity function (index_capa), the Fortran kernel of the SharpClaw solver divides the update of each cell by the capacity of that cell, so that periodic problems conserve the capacity-weighted total.", "quantifier": "every capacity function, grid and data", "why_tests_cant": "all data", "anchors": ["src/pyclaw/sharpclaw/flux1.f90:flux1", "src/pyclaw/sharpclaw/workspace.f90:alloc_workspace", "src/pyclaw/sharpclaw/solver.py:SharpClawSolver._set_fortran_parameters"]}
{"id": "C82", "title": "Characteristic-wise WENO is WENO in characteristic variables", "statement": "With lim_type=2 and char_decomp=2 the edge values at an interface are the combination, with the right eigenvectors the user supplies for that interface, of the fifth-order WENO values of the characteristic variables obtained with the left eigenvectors; quadratic data are reconstructed exactly whatever the eigenvectors.", "quantifier": "every number of equations, data, pair of mutually inverse eigenvector matrices and interface touching the domain", "why_tests_cant": "eigenvectors and data vary over continuous ranges; a test sees a few systems", "anchors": ["src/pyclaw/sharpclaw/reconstruct.f90:weno5_char"]}
{"id": "C83", "title": "Transmission-based WENO agrees with characteristic-wise WENO for constant eigenvectors", "statement": "With char_decomp=3, where the eigenvectors do not change from interface to interface, the edge values are those of the characteristic-wise reconstruction.", "quantifier": "every constant pair of mutually inverse eigenvector matrices, all data", "why_tests_cant": "all systems and data", "anchors": ["src/pyclaw/sharpclaw/reconstruct.f90:weno5_trans"]}
{"id": "C84", "title": "Wave-based WENO is WENO in characteristic variables for linear systems", "statement": "With char_decomp=1, in the Python and in the Fortran kernel (with waves and with f-waves), a linear system's edge values are the WENO values of its characteristic variables (the regularisation in units of the projected waves), and quadratic data are reconstructed exactly.", "quantifier": "every linear system with a complete set of eigenvectors, all data and interfaces touching the domain", "why_tests_cant": "all systems and data, including vanishing waves and speeds", "anchors": ["src/pyclaw/sharpclaw/reconstruct.f90:weno5_wave", "src/pyclaw/sharpclaw/reconstruct.f90:weno5_fwave", "src/pyclaw/limiters/recon.py:weno5_wave"]}
{"id": "C85", "title": "Second-order SharpClaw reconstruction stays between neighbouring averages", "statement": "With lim_type=1 the edge values of a cell lie between its average and that of the neighbour on that side (in the variables of the decomposition), for all data including constant states and extrema and for every limiter; linear data are exact.", "quantifier": "all data and limiters 1-5", "why_tests_cant": "all data, including equal neighbours, which random data never have", "anchors": ["src/pyclaw/sharpclaw/reconstruct.f90:tvd2", "src/pyclaw/sharpclaw/reconstruct.f90:tvd2_char", "src/pyclaw/sharpclaw/reconstruct.f90:tvd2_wave"]}
{"id": "C86", "title": "Every Fortran SharpClaw reconstruction conserves on periodic domains", "statement": "On a periodic domain without a capacity function the update computed by the 1D Fortran SharpClaw kernel has total zero in every conserved component, whichever reconstruction is chosen by lim_type and char_decomp.", "quantifier": "all conservative Riemann solvers, eigenvectors, data and grids with at least num_ghost cells", "why_tests_cant": "all data and solvers", "anchors": ["src/pyclaw/sharpclaw/reconstruct.f90:weno5_char", "src/pyclaw/sharpclaw/reconstruct.f90:weno5_trans", "src/pyclaw/sharpclaw/reconstruct.f90:weno5_wave", "src/pyclaw/sharpclaw/reconstruct.f90:tvd2_char", "src/pyclaw/sharpclaw/reconstruct.f90:tvd2_wave", "src/pyclaw/sharpclaw/flux1.f90:flux1"]}
{"id": "C87", "title": "Multi-dimensional SharpClaw updates are sums of one-dimensional ones", "statement": "In two and three dimensions the update the SharpClaw solver computes for a cell is the sum over the dimensions of what the one-dimensional solver computes for the line of cells through it, with the Riemann solver, boundary conditions and cell size of that dimension; other lines and the content of the Fortran work arrays have no influence. The Courant number returned is the largest over all lines of the grid and of the first layer of ghost cells. Errors of the boundary conditions are passed on, and the Python kernel is refused.", "quantifier": "all numbers of dimensions, grids, data, Riemann solvers, reconstructions whose edge values are determined by the line, work array contents", "why_tests_cant": "all grids and work array histories", "anchors": ["src/pyclaw/sharpclaw/solver.py:SharpClawSolver2D.dq_hyperbolic", "src/pyclaw/sharpclaw/solver.py:SharpClawSolver3D.dq_hyperbolic", "src/pyclaw/sharpclaw/flux2.f90:flux2", "src/pyclaw/sharpclaw/flux3.f90:flux3"]}
{"id": "C88", "title": "Multi-dimensional SharpClaw conserves on periodic domains", "statement": "On a periodic two- or three-dimensional domain without a capacity function every Runge-Kutta and multistep formula of the SharpClaw solver leaves the total of each conserved component over the grid unchanged.", "quantifier": "all grids with at least num_ghost cells per dimension, conservative Riemann solvers, data, time steps; the WENO reconstruction of order 5 and all others with periodic edge values", "why_tests_cant": "all data and grids", "anchors": ["src/pyclaw/sharpclaw/solver.py:SharpClawSolver2D.dq_hyperbolic", "src/pyclaw/sharpclaw/solver.py:SharpClawSolver3D.dq_hyperbolic", "src/pyclaw/sharpclaw/solver.py:SharpClawSolver.step", "src/pyclaw/sharpclaw/flux2.f90:flux2", "src/pyclaw/sharpclaw/flux3.f90:flux3"]}
{"id": "C89", "title": "Uniform data is a steady state of SharpClaw", "statement": "If the solution and the aux array are uniform, all boundaries are extrapolating or periodic and the Riemann solver produces nothing between equal states, the SharpClaw update is zero in every cell, and Euler, SSP22, SSP33 and SSP104 steps leave the solution as it is, with or without a capacity function.", "quantifier": "all numbers of dimensions, grids, equations, constants, step sizes, reconstructions that reproduce constants (WENO5 is one)", "why_tests_cant": "all grids and constants", "anchors": ["src/pyclaw/sharpclaw/solver.py:SharpClawSolver.step", "src/pyclaw/sharpclaw/solver.py:SharpClawSolver.dq_hyperbolic", "src/pyclaw/sharpclaw/flux1.f90:flux1", "src/pyclaw/sharpclaw/flux2.f90:flux2"]}
{"id": "C90", "title": "What accepted steps keep holds in every frame", "statement": "If the hyperbolic step keeps a property of the solution whenever it reports a Courant number not above cfl_max, and before_step and the source term keep it, then every frame a run writes or keeps has the property, and so has the final solution unless a fixed time step was too long; attempts that were rejected leave no trace, and every frame is related to the one before as the steps are.", "quantifier": "every property or relation of q, solver settings with positive dt, output style, time step history including rejected steps and errors", "why_tests_cant": "all histories of accepted and rejected steps", "anchors": ["src/pyclaw/controller.py:Controller.run", "src/pyclaw/solver.py:Solver.evolve_to_time", "src/pyclaw/classic/solver.py:ClawSolver.step", "src/pyclaw/sharpclaw/solver.py:SharpClawSolver.step"]}
{"id": "C91", "title": "Runs on periodic domains conserve totals", "statement": "On a periodic domain a run of the controller with the classic solver (1D; 2D with or without dimensional splitting; 3D split without limiters) or with SharpClaw and a Runge-Kutta integrator writes frames that all have the initial total of each conserved component, whatever steps are rejected, if the user's callbacks leave the totals alone.", "quantifier": "every conservative Riemann solver, initial data, grid with at least num_ghost cells per dimension, settings, output times", "why_tests_cant": "all data, grids and step histories", "anchors": ["src/pyclaw/controller.py:Controller.run", "src/pyclaw/classic/solver.py:ClawSolver1D.step_hyperbolic", "src/pyclaw/classic/solver.py:ClawSolver2D.step_hyperbolic", "src/pyclaw/sharpclaw/solver.py:SharpClawSolver.step"]}
{"id": "C92", "title": "Runs of the advection equation create no oscillations", "statement": "A run of the classic 1D solver for the advection equation on a periodic domain, first order or with a TVD limiter and cfl_max at most 1, writes frames whose total variation never grows from one to the next and whose values stay within the range of the frame before.", "quantifier": "every initial data, velocity, grid, output times, initial step, cfl_desired, both kernels", "why_tests_cant": "all data and step histories, including rejected steps", "anchors": ["src/pyclaw/controller.py:Controller.run", "src/pyclaw/classic/solver.py:ClawSolver1D.step_hyperbolic", "src/pyclaw/solver.py:Solver.evolve_to_time"]}
{"id": "C93", "title": "Unsplit 3D steps conserve on periodic grids", "statement": "A 3D step without dimensional splitting on a grid periodic in all dimensions keeps the capacity-weighted total of every component, for every combination of order and transverse_waves that flux3.f90 describes, whatever the transverse solvers, limiters, capacity function and earlier contents of the work arrays.", "quantifier": "every Riemann solver that is conservative for some flux, every pair of transverse solvers, every data, dt and grid size", "why_tests_cant": "the transverse corrections reach 27 cells and cancel only across slices; tests run one problem", "anchors": ["src/pyclaw/classic/step3.f90", "src/pyclaw/classic/flux3.f90", "src/pyclaw/classic/solver.py:ClawSolver3D.step_hyperbolic"]}
{"id": "C94", "title": "The Courant number reported by unsplit 3D steps is the largest over all slices in the three directions", "statement": "The Courant number of an unsplit 3D step is nonnegative, bounds the Courant number of every wave at every face of the slices it visits, in the three directions, and is attained unless it is 0.", "quantifier": "every Riemann solver, data and dt", "why_tests_cant": "all data", "anchors": ["src/pyclaw/classic/step3.f90", "src/pyclaw/classic/flux3.f90"]}
{"id": "C95", "title": "Unsplit 3D steps on data that varies in x only agree with the 1D solver", "statement": "If q and aux vary in x only, the boundary conditions in y and z are extrapolation or periodic, the y and z Riemann solvers produce nothing between equal states and the transverse solvers split nothing into nothing, an unsplit 3D step (order and transverse_waves as described in flux3.f90) gives in every row what the 1D solver gives.", "quantifier": "every x Riemann solver, data, limiter, capacity function and grid size", "why_tests_cant": "consistency of two programs on all plane data", "anchors": ["src/pyclaw/classic/step3.f90", "src/pyclaw/classic/flux3.f90", "src/pyclaw/classic/step1.f90"]}
{"id": "C96", "title": "An unsplit 3D step depends on nothing but its inputs", "statement": "The result of an unsplit 3D step does not depend on what the uninitialised work array contained before, for every order and transverse_waves the solver accepts.", "quantifier": "every earlier content of solver.work", "why_tests_cant": "needs all contents of uninitialised memory", "anchors": ["src/pyclaw/classic/flux3.f90", "src/pyclaw/classic/solver.py:ClawSolver3D._allocate_workspace"]}
{"id": "C97", "title": "Solutions behave as values", "statement": "In a program that uses each classic solver for one solution only, every solution has at every moment the values that the operations on that solution give it: steps, rejected steps, source terms and user code that write into state.q in place, assignments to state.q, deep copies and repeated set-ups never interfere, although state.q is a view of the solver's array after a step, and nothing raises.", "quantifier": "every sequence of operations on any number of solutions and solvers, every number of dimensions, grid, number of ghost cells, numerical kernel and callback", "why_tests_cant": "all histories of aliasing; a test sees one", "anchors": ["src/pyclaw/state.py:State.set_q_from_qbc", "src/pyclaw/state.py:State.get_qbc_from_q", "src/pyclaw/solver.py:Solver.evolve_to_time", "src/pyclaw/solver.py:Solver._allocate_bc_arrays", "src/pyclaw/classic/solver.py:ClawSolver.step"]}
{"id": "C98", "title": "Evolving one solution never changes another", "statement": "Advancing a solution, or any other operation on it, changes no other solution, also when the same solver has advanced the other one before.", "quantifier": "every sequence of operations", "why_tests_cant": "all histories", "anchors": ["src/pyclaw/state.py:State.set_q_from_qbc", "src/pyclaw/solver.py:Solver.evolve_to_time"]}
{"id": "C99", "title": "A solution that has been advanced can be run again", "statement": "After any sequence of steps Controller.run accepts the solution: the memory layout of q still passes State.is_valid.", "quantifier": "every sequence of operations, number of dimensions and grid", "why_tests_cant": "all histories and grids", "anchors": ["src/pyclaw/state.py:State.is_valid", "src/pyclaw/state.py:State.set_q_from_qbc", "src/pyclaw/controller.py:Controller.check_validity", "src/pyclaw/controller.py:Controller.run"]}
{"id": "C100", "title": "SharpClaw solvers can be used one after the other", "statement": "A program that uses its Fortran SharpClaw solvers one at a time, dropping one before another is evolved and not changing the reconstruction options of a solver in use, is never stopped by the kernels, and every evaluation uses the options and array sizes of the solver that is being evolved.", "quantifier": "every such program: number of solvers, order of operations, documented options except lim_type 3", "why_tests_cant": "all orders of creation, use and deletion", "anchors": ["src/pyclaw/sharpclaw/ClawParams.f90:alloc_clawparams", "src/pyclaw/sharpclaw/workspace.f90:alloc_workspace", "src/pyclaw/sharpclaw/reconstruct.f90:alloc_recon_workspace", "src/pyclaw/sharpclaw/solver.py:SharpClawSolver.setup", "src/pyclaw/sharpclaw/solver.py:SharpClawSolver.__del__"]}
{"id": "C101", "title": "SharpClaw solvers can be used in any order", "statement": "SharpClaw solvers can be created, set up, evolved, given other options and dropped in any order without stopping the program.", "quantifier": "every program of these operations", "why_tests_cant": "all orders of operations", "anchors": ["src/pyclaw/sharpclaw/ClawParams.f90:alloc_clawparams", "src/pyclaw/sharpclaw/workspace.f90:dealloc_workspace", "src/pyclaw/sharpclaw/reconstruct.f90:dealloc_recon_workspace", "src/pyclaw/sharpclaw/solver.py:SharpClawSolver.__del__"]}
{"id": "C102", "title": "Steps use the current options", "statement": "Every step of a classic solver uses the order, limiters, splitting, transverse waves, f-wave flag and capacity component that the solver and the solution have at that moment.", "quantifier": "every sequence of assignments and steps of any number of solvers", "why_tests_cant": "all histories", "anchors": ["src/pyclaw/classic/solver.py:ClawSolver._set_method", "src/pyclaw/classic/solver.py:ClawSolver._set_mthlim", "src/pyclaw/classic/solver.py:ClawSolver.setup", "src/pyclaw/classic/solver.py:ClawSolver2D.step_hyperbolic", "src/pyclaw/solver.py:Solver.evolve_to_time"]}
{"id": "C103", "title": "Steps use the problem data of the solution", "statement": "The Riemann solver uses the problem_data that the solution being advanced has at that moment.", "quantifier": "every sequence of assignments and steps of any number of solvers, solutions and Riemann solvers", "why_tests_cant": "all histories", "anchors": ["src/pyclaw/state.py:State.set_cparam", "src/pyclaw/classic/solver.py:ClawSolver._set_fortran_parameters"]}
{"id": "C104", "title": "Attributes of a solution are those of its states", "statement": "Assigning solution.t, mp or mF sets it on every state and changes nothing else; what solution.q, aux and the other attributes read is what the solver works on.", "quantifier": "every sequence of assignments through the solution or its states and of evolutions", "why_tests_cant": "all histories and numbers of states", "anchors": ["src/pyclaw/solution.py:Solution.__getattr__", "src/pyclaw/solution.py:Solution.__setattr__", "src/pyclaw/solution.py:Solution.set_all_states"]}
{"id": "C105", "title": "Evolving a solution advances all its patches", "statement": "After evolve_to_time every patch of the solution holds the values for the time that it then has.", "quantifier": "every solution and end time", "why_tests_cant": "all numbers of patches", "anchors": ["src/pyclaw/solver.py:Solver.evolve_to_time", "src/pyclaw/solution.py:Solution.set_all_states", "src/pyclaw/classic/solver.py:ClawSolver1D.step_hyperbolic"]}
{"id": "C106", "title": "HDF5 frames give back the patches", "statement": "A solution whose patches have different indices, written in HDF5 format and read under the same prefix, gives back every patch with its time, dimensions (names, bounds, cells, units), index, level and q exactly, and its aux if it was stored; other files and earlier frames are untouched; patches with equal indices are reported instead of overwriting each other.", "quantifier": "every solution with valid patches, any number of dimensions and names, prefix, frame number, earlier files", "why_tests_cant": "all names (also names containing dots), grids and numbers of patches", "anchors": ["src/pyclaw/fileio/hdf5.py:write", "src/pyclaw/fileio/hdf5.py:read", "src/pyclaw/solution.py:Solution.write", "src/pyclaw/solution.py:Solution.read"]}
{"id": "C107", "title": "HDF5 frames keep the order of the patches", "statement": "The patches read from an HDF5 frame are in the order in which they were written, for patches numbered in increasing order.", "quantifier": "every solution with patches of increasing index", "why_tests_cant": "all numbers of patches", "anchors": ["src/pyclaw/fileio/hdf5.py:write", "src/pyclaw/fileio/hdf5.py:read"]}
{"id": "C108", "title": "Default names of HDF5 frames match", "statement": "An HDF5 frame written without giving a prefix is found when it is read without giving one.", "quantifier": "every solution and frame", "why_tests_cant": "all solutions", "anchors": ["src/pyclaw/fileio/hdf5.py:write", "src/pyclaw/fileio/hdf5.py:read", "src/pyclaw/solution.py:Solution.write", "src/pyclaw/solution.py:Solution.read"]}
{"id": "C109", "title": "HDF5 frames never give an undefined auxiliary array", "statement": "The auxiliary array of a solution read from an HDF5 frame is the one the solution had when it was written, or absent if it was not stored.", "quantifier": "every solution, with and without write_aux and read_aux", "why_tests_cant": "all contents of uninitialised memory", "anchors": ["src/pyclaw/fileio/hdf5.py:write", "src/pyclaw/fileio/hdf5.py:read", "src/pyclaw/state.py:State.new_array"]}
{"id": "C110", "title": "File formats work in both directions", "statement": "Every file_format that Solution.write accepts is accepted by Solution.read, and the other way round, and both use the same module.", "quantifier": "every format name", "why_tests_cant": "all names", "anchors": ["src/pyclaw/solution.py:Solution.get_read_func", "src/pyclaw/solution.py:Solution.get_write_func"]}
{"id": "C111", "title": "WENO reconstructions of orders 5 to 17 are the mathematical ones", "statement": "With lim_type 2 and char_decomp 0 the Fortran SharpClaw kernels reconstruct, for weno_order 5, 7, ..., 17, the values at the edges of every interior cell and one more cell on either side as the WENO average of the values of the polynomials through the k = (weno_order+1)/2 stencils, with the smoothness indicators of Jiang and Shu and the ideal weights that give order 2k-1 on smooth data; polynomials of degree below k are reproduced, mirrored data give mirrored values, only allocated cells are read with the num_ghost the solver chooses, no denominator vanishes, and other orders stop with a message.", "quantifier": "every order, grid size, data and positive regularisation constant", "why_tests_cant": "all data for formulas with hundreds of literal coefficients", "anchors": ["src/pyclaw/sharpclaw/weno.f90:weno5", "src/pyclaw/sharpclaw/weno.f90:weno17", "src/pyclaw/sharpclaw/reconstruct.f90:weno_comp", "src/pyclaw/sharpclaw/solver.py:SharpClawSolver.setup"]}
{"id": "C112", "title": "SharpClaw conserves on periodic grids with every WENO order", "statement": "On a periodic 1D grid with at least num_ghost cells, without a capacity function, the sum over the cells of the right-hand side computed with any of the WENO orders 5 to 17 vanishes for a Riemann solver in flux-difference form.", "quantifier": "every order, state, conservative Riemann solver", "why_tests_cant": "all states and orders", "anchors": ["src/pyclaw/sharpclaw/weno.f90:weno17", "src/pyclaw/sharpclaw/flux1.f90:flux1", "src/pyclaw/sharpclaw/solver.py:SharpClawSolver1D.dq_hyperbolic"]}
{"id": "C113", "title": "PETSc frames give back the solution", "statement": "A frame written in PETSc format and read with the same format, prefix and frame number gives back, whatever the directory contained, all patches in order with their levels, dimensions and values (q, or p with write_p), the time, problem data and mapping of the first state, and aux if it was written and is read; no other file is touched and read_t gives the data of the frame.", "quantifier": "every list of patches with arrays of the right sizes, format with a viewer PETSc can load from, prefix, frame number, earlier files", "why_tests_cant": "all solutions and contents of the directory", "anchors": ["src/petclaw/fileio/petsc.py:write", "src/petclaw/fileio/petsc.py:read", "src/petclaw/fileio/petsc.py:read_t", "src/petclaw/fileio/petsc.py:set_filenames"]}
{"id": "C114", "title": "PETSc frames never give back the auxiliary array of something else", "statement": "Reading a PETSc frame with read_aux gives the auxiliary array the solution had when the frame was written, whatever frames were written before with the same prefix, with or without write_aux.", "quantifier": "every history of written frames", "why_tests_cant": "all histories of runs in one directory", "anchors": ["src/petclaw/fileio/petsc.py:write", "src/petclaw/fileio/petsc.py:read"]}
{"id": "C115", "title": "Writing with clobber=False changes no existing file", "statement": "With clobber=False writing a PETSc frame raises exactly if one of the files of the frame exists, and then changes nothing; otherwise every file that existed is kept.", "quantifier": "every solution, format, prefix, frame number and directory", "why_tests_cant": "all contents of the directory", "anchors": ["src/petclaw/fileio/petsc.py:write"]}
{"id": "C116", "title": "An interrupted write is noticed", "statement": "If writing a PETSc frame stops after any file operation, or raises, reading the frame raises, gives the complete new frame or gives the frame that was there before.", "quantifier": "every point of interruption, solution and directory", "why_tests_cant": "all crash points", "anchors": ["src/petclaw/fileio/petsc.py:write", "src/petclaw/fileio/petsc.py:read"]}
{"id": "C117", "title": "PETSc frames do not disturb each other", "statement": "Writing a PETSc frame changes nothing that is read under another frame number or another prefix.", "quantifier": "every pair of frames and prefixes, solution and directory", "why_tests_cant": "all pairs of names", "anchors": ["src/petclaw/fileio/petsc.py:write", "src/petclaw/fileio/petsc.py:read", "src/petclaw/fileio/petsc.py:set_filenames"]}
{"id": "C118", "title": "Gauge files round-trip in two dimensions", "statement": "A gauge in two dimensions with at least one observation, written with GaugeSolution.write and read back, has the same number, place, levels, and times to sixteen and values to the digits of the format, whatever the object that reads it held before; no other file is touched, and writing it again gives the same file.", "quantifier": "every complete gauge, number of digits, directory contents and reading object", "why_tests_cant": "all numbers and numbers of observations", "anchors": ["src/pyclaw/gauges.py:GaugeSolution.write", "src/pyclaw/gauges.py:GaugeSolution.read"]}
{"id": "C119", "title": "Every valid gauge can be written and read back", "statement": "Every gauge for which is_valid holds is written by GaugeSolution.write so that reading it gives the same gauge, of any number of dimensions, type and number of observations.", "quantifier": "every valid gauge", "why_tests_cant": "all kinds of gauges", "anchors": ["src/pyclaw/gauges.py:GaugeSolution.write", "src/pyclaw/gauges.py:GaugeSolution.read", "src/pyclaw/gauges.py:GaugeSolution.is_valid"]}
{"id": "C120", "title": "Reading a gauge replaces what the object held", "statement": "After GaugeSolution.read returns, all attributes of the object are those of the gauge that was asked for, whatever the object held before.", "quantifier": "every object and gauge files, also incomplete ones", "why_tests_cant": "all histories of the object", "anchors": ["src/pyclaw/gauges.py:GaugeSolution.read"]}
{"id": "C121", "title": "Keyword arguments on the command line reach the application", "statement": "run_app_from_main passes to the application exactly the keys that are set by an argument key=value, except htmlplot and iplot, each once, with the value that its last setting stands for: JSON, True, False or the text itself.", "quantifier": "every command line and JSON parser", "why_tests_cant": "all orders and repetitions of arguments", "anchors": ["src/pyclaw/util.py:run_app_from_main", "src/pyclaw/util.py:_info_from_argv"]}
{"id": "C122", "title": "No command line argument is dropped", "statement": "Every argument of run_app_from_main is passed to the application as a keyword, or to PETSc, which is used if asked for.", "quantifier": "every command line", "why_tests_cant": "all command lines", "anchors": ["src/pyclaw/util.py:run_app_from_main", "src/pyclaw/util.py:_info_from_argv"]}
{"id": "C123", "title": "VTK output marks exactly the covered cells", "statement": "In the VTK output of a solution, a cell is marked as overlapped exactly if it lies in a patch of the next level, for every arrangement of aligned patches.", "quantifier": "every list of valid, aligned patches and every cell", "why_tests_cant": "arrangements of patches are unbounded", "anchors": ["src/pyclaw/fileio/claw_vtk.py:_set_overlapped_status", "src/pyclaw/fileio/claw_vtk.py:write"]}
{"id": "C124", "title": "Writing VTK output does not change the solution", "statement": "After a frame has been written in VTK format, all states of the solution have the same components and values as before.", "quantifier": "every solution, any number of writes", "why_tests_cant": "histories of writes", "anchors": ["src/pyclaw/fileio/claw_vtk.py:_set_overlapped_status", "src/pyclaw/fileio/claw_vtk.py:write"]}
{"id": "C125", "title": "VTK output holds every patch at its level", "statement": "The file has one dataset for each state of the solution, at the level of its patch, with the origin, cell widths, numbers of cells and the values of all components and marks; other files are unchanged.", "quantifier": "every list of valid states with levels from 1 and equal cell widths on each level", "why_tests_cant": "all orders of states and levels", "anchors": ["src/pyclaw/fileio/claw_vtk.py:write"]}
{"id": "C126", "title": "Auxiliary arrays written for other patches are refused", "statement": "When a frame has no auxiliary file of its own, the one of frame 0 is used only if it was written for the same patches: same levels, numbers of cells and place; otherwise reading raises.", "quantifier": "every pair of solutions and frames in ASCII format", "why_tests_cant": "all pairs of grids", "anchors": ["src/pyclaw/fileio/ascii.py:read"]}
{"id": "C127", "title": "The file format that is asked for is the one that is read", "statement": "Solution.read with an explicit file_format reads the frame with the reader of this format, or raises for an unknown one, whatever other files are in the directory.", "quantifier": "every format, solution class and header file", "why_tests_cant": "all contents of the directory", "anchors": ["src/pyclaw/solution.py:Solution.read", "src/pyclaw/solution.py:Solution.get_read_func", "src/petclaw/solution.py:Solution.get_read_func"]}
{"id": "C128", "title": "Output options act as the program gave them", "statement": "A call of Solution.write uses the options that the program has put into the dictionary given to it, and defaults for the others, whatever calls of write and read were made before with this or other dictionaries.", "quantifier": "every sequence of assignments, writes and reads, with shared dictionaries", "why_tests_cant": "all histories of calls in one process", "anchors": ["src/pyclaw/solution.py:Solution.write", "src/pyclaw/solution.py:Solution.read", "src/pyclaw/fileio/hdf5.py:write", "src/petclaw/fileio/petsc.py:write"]}
{"id": "C129", "title": "All formats of a list receive the same solution", "statement": "Solution.write with a list of formats writes the frame in each of them, in this order, with the components the solution had at the call, or raises at the first format that cannot be written, after those before it.", "quantifier": "every list of formats and solution", "why_tests_cant": "all lists", "anchors": ["src/pyclaw/solution.py:Solution.write", "src/pyclaw/solution.py:Solution.get_write_func", "src/pyclaw/fileio/claw_vtk.py:write"]}
{"id": "C130", "title": "An unsplit step is the corner transport method", "statement": "A step of the two-dimensional classic solver without dimensional splitting gives in every cell the value of the one-dimensional methods along its row and column plus the changes by the transverse solver: the parts of the fluctuations at the faces (with the correction for transverse_waves = 2) split across, with the auxiliary values of the neighbours below, here and above in this order.", "quantifier": "every Riemann and transverse solver, setting, data, boundary condition and cell", "why_tests_cant": "all data and solvers", "anchors": ["src/pyclaw/classic/solver.py:ClawSolver2D.step_hyperbolic", "src/pyclaw/classic/flux2.f90:flux2", "src/pyclaw/classic/step2.f90:step2"]}
{"id": "C131", "title": "The unsplit solver treats both axes alike", "statement": "Exchanging the roles of x and y in a two-dimensional problem (data, auxiliary arrays, cell widths, boundary conditions, solvers) exchanges them in the result of an unsplit step, and the Courant number stays the same.", "quantifier": "every problem with standard boundary conditions", "why_tests_cant": "all data and solvers", "anchors": ["src/pyclaw/classic/solver.py:ClawSolver2D.step_hyperbolic", "src/pyclaw/classic/step2.f90:step2"]}
{"id": "C132", "title": "Dimensional splitting treats both axes alike", "statement": "Exchanging the roles of x and y in a two-dimensional problem exchanges them in the result of a step with dimensional splitting.", "quantifier": "every problem with standard boundary conditions", "why_tests_cant": "all data and solvers", "anchors": ["src/pyclaw/classic/solver.py:ClawSolver2D.step_hyperbolic", "src/pyclaw/classic/step2ds.f90:step2ds"]}
{"id": "C133", "title": "Binary gauge files give back their observations", "statement": "Reading a gauge whose data are in a .bin file gives, for every observation in the file, its level, time and fields, with the number, place and kind of the gauge from the header, and the path of a particle from its second and third field.", "quantifier": "every header in the format of GeoClaw (one to three dimensions, both precisions), binary file and reading object", "why_tests_cant": "all numbers of observations and fields", "anchors": ["src/pyclaw/gauges.py:GaugeSolution.read"]}
{"id": "C134", "title": "A binary gauge file that is cut off is refused", "statement": "Reading a gauge whose .bin file has lost its end raises and leaves the data of the object as they were.", "quantifier": "every header and binary file", "why_tests_cant": "all lengths of the file", "anchors": ["src/pyclaw/gauges.py:GaugeSolution.read"]}
{"id": "C135", "title": "Derived quantities that are written can be read back", "statement": "A frame of derived quantities (Solution.write with write_p=True, as the controller writes them when compute_p is set), read back, has exactly the derived quantities as its components.", "quantifier": "every solution with derived quantities, in ASCII and HDF5 format", "why_tests_cant": "all numbers of derived quantities and components", "anchors": ["src/pyclaw/fileio/ascii.py:write", "src/pyclaw/fileio/hdf5.py:write", "src/pyclaw/controller.py:Controller.run"]}
{"id": "C136", "title": "Reading a frame into a solution gives that frame", "statement": "After Solution.read the states of the solution are those of the frame, whatever the solution held before.", "quantifier": "every solution and frame, in ASCII and HDF5 format", "why_tests_cant": "all histories of the solution", "anchors": ["src/pyclaw/fileio/ascii.py:read", "src/pyclaw/fileio/hdf5.py:read", "src/pyclaw/solution.py:Solution.read"]}
{"id": "C137", "title": "Frames that can be read are well formed", "statement": "Whatever the files contain, a frame that is read without an exception consists of states on valid grids (one to three axes x, y, z in ASCII and binary frames; cells and an extent along every axis), with the same time and numbers of fields in ASCII frames, and with arrays of the shape of the grid.", "quantifier": "every contents of the files of a frame, in ASCII, binary and HDF5 format", "why_tests_cant": "all damaged or foreign files", "anchors": ["src/pyclaw/fileio/ascii.py:read", "src/pyclaw/fileio/binary.py:read", "src/pyclaw/fileio/hdf5.py:read"]}
{"id": "C138", "title": "A frame whose writing was interrupted is refused or complete", "statement": "If the program crashes while it writes a frame in ASCII format, reading the frame raises or gives the frame.", "quantifier": "every solution the format supports, and every point of the crash (between files or at any character of a file), with no older files of that frame", "why_tests_cant": "all crash points", "anchors": ["src/pyclaw/fileio/ascii.py:write", "src/pyclaw/fileio/ascii.py:read", "src/pyclaw/solution.py:Solution.read"]}
{"id": "C139", "title": "Moving the origin of a periodic domain moves the answer", "statement": "On a periodic domain in one dimension, if the initial data are moved by any number of cells round the domain, every run gives the same steps, times, Courant numbers, status, frames and output, moved by as many cells.", "quantifier": "every periodic 1D problem of the classic solver (both kernels), Riemann solver, callbacks that commute with the move, settings, controller and history of the solver", "why_tests_cant": "all problems, data, distances and run lengths", "anchors": ["src/pyclaw/classic/solver.py:ClawSolver1D.step_hyperbolic", "src/pyclaw/solver.py:Solver.evolve_to_time", "src/pyclaw/controller.py:Controller.run", "src/pyclaw/classic/step1.f90", "src/pyclaw/limiters/tvd.py:limit"]}
{"id": "C140", "title": "The solver treats left and right alike", "statement": "The mirror image of a problem (data, coefficients, boundary conditions and Riemann solver exchanged left and right, with the sign of chosen components changed) gives in every run the mirror image of the answer with the same steps and status.", "quantifier": "every 1D problem of the classic solver (both kernels) with standard boundary conditions, every run", "why_tests_cant": "all problems and data", "anchors": ["src/pyclaw/classic/solver.py:ClawSolver1D.step_hyperbolic", "src/pyclaw/classic/step1.f90", "src/pyclaw/solver.py:Solver.evolve_to_time", "src/pyclaw/controller.py:Controller.run"]}
{"id": "C141", "title": "Symmetric problems keep symmetric data", "statement": "If a problem is its own mirror image (up to the signs of chosen components) and the data are symmetric at the start, then they are symmetric in every frame that is kept or written and at the end, however the run ends.", "quantifier": "every 1D problem of the classic solver that is its own mirror image, without f-waves of speed zero in Fortran and with ends at which the Python kernel sees nothing new, every run", "why_tests_cant": "all problems, data and run lengths", "anchors": ["src/pyclaw/classic/solver.py:ClawSolver1D.step_hyperbolic", "src/pyclaw/solver.py:Solver.evolve_to_time", "src/pyclaw/controller.py:Controller.run"]}
{"id": "C142", "title": "The choice of units does not matter", "statement": "If times, lengths, speeds and the components of q and aux of a problem are given in other units, every run gives the same answer in those units: the same number of steps, Courant numbers, errors and frames.", "quantifier": "every 1D problem of the classic solver (both kernels) with standard boundary conditions, every change of units, every run", "why_tests_cant": "all problems and units", "anchors": ["src/pyclaw/classic/solver.py:ClawSolver1D.step_hyperbolic", "src/pyclaw/limiters/tvd.py:limit", "src/pyclaw/solver.py:Solver.evolve_to_time", "src/pyclaw/controller.py:Controller.run"]}
{"id": "C143", "title": "An interrupted run can be completed from one of its frames", "statement": "If a program with fixed time steps that writes HDF5 frames is killed while it writes, each complete frame can be read back, and a second program that starts from one of them with count_from_zero=False, the same step and the remaining output times ends in the same final solution and leaves in the directory of frames, file by file, what the first program would have left without the interruption; its derived quantities and functionals are those of the remaining frames.", "quantifier": "every classic or SharpClaw Runge-Kutta solver, solution with one patch, output style, frame and point of the crash; the step divides the output intervals and the auxiliary arrays, if any, are stored with every frame", "why_tests_cant": "all crash points and all problems", "anchors": ["src/pyclaw/solution.py:Solution.__init__", "src/pyclaw/solution.py:Solution.write", "src/pyclaw/solution.py:Solution.read", "src/pyclaw/controller.py:Controller.run", "src/pyclaw/solver.py:Solver.evolve_to_time", "src/pyclaw/fileio/hdf5.py:write", "src/pyclaw/fileio/hdf5.py:read"]}
{"id": "C144", "title": "A frame is all that is needed to go on with a run", "statement": "A program that reads a frame of a run and asks for the remaining frames, with the settings of the first program otherwise, continues the numbering of the frames, the sequence of steps and the files of the run.", "quantifier": "every run, frame and way to read it", "why_tests_cant": "all runs and histories", "anchors": ["src/pyclaw/solution.py:Solution.__init__", "src/pyclaw/controller.py:Controller.run", "src/pyclaw/solver.py:Solver.evolve_to_time"]}
{"id": "C145", "title": "The unsplit method in three dimensions, face by face", "statement": "A step of the three-dimensional classic solver without dimensional splitting gives in every cell the values of the one-dimensional methods along the three lines through it plus the differences of transverse fluxes through its faces: the first digit of transverse_waves says whether the waves at a face are split across (1) and their corrections too (2), the second whether the parts are split once more to reach cells that share only an edge (1), with their corrections (2); the auxiliary values of the nine cells around go to the transverse solvers in a fixed order.", "quantifier": "every Riemann and transverse solver, setting, data, boundary condition and cell, and the described combinations of order and transverse_waves", "why_tests_cant": "all data and solvers", "anchors": ["src/pyclaw/classic/solver.py:ClawSolver3D.step_hyperbolic", "src/pyclaw/classic/flux3.f90:flux3", "src/pyclaw/classic/step3.f90:step3"]}
{"id": "C146", "title": "The unsplit solver treats the three axes alike", "statement": "Putting the axes of a three-dimensional problem in another order (data and auxiliary arrays as numpy.transpose does, cell widths, boundary conditions, Riemann solvers; the transverse solvers with the roles of their two directions exchanged when the order is not cyclic) gives the result of an unsplit step in that order, with the same Courant number.", "quantifier": "every problem with standard boundary conditions, each of the six orders, and the described combinations of order and transverse_waves", "why_tests_cant": "all data and solvers", "anchors": ["src/pyclaw/classic/solver.py:ClawSolver3D.step_hyperbolic", "src/pyclaw/classic/flux3.f90:flux3", "src/pyclaw/classic/step3.f90:step3"]}
{"id": "C147", "title": "Unsplit steps and runs in two and three dimensions do not depend on the number of processes", "statement": "With the unsplit classic solvers in two and three dimensions a parallel run (PetClaw) makes the same attempted steps with the same sizes and verdicts, and gives in every cell the same values at the same times, as the serial run, for every way to distribute the cells over a grid of processes whose boxes are at least num_ghost cells wide; each step has the same Courant number.", "quantifier": "every grid, distribution, Riemann and transverse solver, data, combination of extrapolating, periodic and wall conditions, source term and before_step acting on the cells", "why_tests_cant": "the distribution is chosen by PETSc at run time; tests cover a few process counts and problems", "anchors": ["src/petclaw/classic/solver.py:ClawSolver2D", "src/petclaw/state.py:State.get_qbc_from_q", "src/petclaw/cfl.py:CFL", "src/petclaw/geometry.py:Domain", "src/pyclaw/classic/solver.py:ClawSolver2D.step_hyperbolic", "src/pyclaw/classic/solver.py:ClawSolver3D.step_hyperbolic"]}
{"id": "C148", "title": "Split steps do not depend on the number of processes", "statement": "With dimensional splitting a parallel step gives in every cell the values of the serial step, and the same Courant number.", "quantifier": "every grid, distribution, Riemann solver, data and combination of extrapolating, periodic and wall conditions", "why_tests_cant": "the distribution is chosen by PETSc at run time; tests cover a few process counts and problems", "anchors": ["src/petclaw/classic/solver.py:ClawSolver2D", "src/petclaw/state.py:State.get_qbc_from_q", "src/petclaw/cfl.py:CFL", "src/pyclaw/classic/step2ds.f90:step2ds", "src/pyclaw/classic/step3ds.f90:step3ds"]}
{"id": "C149", "title": "HDF5 frames do not depend on the number of processes", "statement": "An HDF5 frame written by a parallel run (PetClaw) is the file the serial program writes for the same data, whichever cells each process holds, and the parallel writer fails where the serial one does; reading a frame on any other set of processes (or one written serially) gives each process the time, geometry, index and level of every patch and exactly its own cells of q, and of aux if it was stored; other files are not touched, and compression is refused.", "quantifier": "every list of patches with different indices, data, distribution of the cells for writing and for reading, prefix and frame number", "why_tests_cant": "the distribution is chosen by PETSc at run time; tests use one process count for writing and reading", "anchors": ["src/petclaw/fileio/hdf5.py:write", "src/petclaw/fileio/hdf5.py:read", "src/petclaw/fileio/hdf5.py:to_hdf5_dataset", "src/petclaw/fileio/hdf5.py:from_hdf5_dataset", "src/petclaw/geometry.py:Patch"]}
{"id": "C150", "title": "Parallel SharpClaw runs give the serial results", "statement": "In one dimension, for any division of the cells among processes (each with at least num_ghost cells) and any mixture of extrapolation, periodic and wall conditions, a parallel run of the SharpClaw solver with the Fortran kernel, without a capacity function and with the WENO (component-, wave-, characteristic- or transmission-based) or characteristic TVD reconstruction makes the same attempted steps with the same sizes, Courant numbers and verdicts, and ends with the same time, status, exception and cells as the serial run, for every Runge-Kutta integrator, source term, before_step and total fluctuation solver that act on the cells.", "quantifier": "every Riemann solver, data, decomposition, integrator with any coefficients, step control and end time", "why_tests_cant": "the decomposition is chosen at run time, and one cell too few in a stencil shows only at the seams between processes", "anchors": ["src/petclaw/sharpclaw/solver.py:SharpClawSolver1D", "src/petclaw/cfl.py:CFL", "src/petclaw/state.py:get_qbc_from_q", "src/pyclaw/sharpclaw/solver.py:step", "src/pyclaw/sharpclaw/solver.py:dq_hyperbolic", "src/pyclaw/sharpclaw/flux1.f90"]}
{"id": "C151", "title": "No SharpClaw result depends on the number of processes", "statement": "With every kernel language and reconstruction the parallel SharpClaw solver computes the serial dq and the serial Courant number in one dimension.", "quantifier": "every kernel language, lim_type, char_decomp, data and decomposition", "why_tests_cant": "it is a statement about all decompositions and all data; tests compare one pair of runs", "anchors": ["src/pyclaw/sharpclaw/solver.py:dq_hyperbolic", "src/pyclaw/limiters/recon.py:weno", "src/pyclaw/sharpclaw/reconstruct.f90:tvd2_wave", "src/petclaw/sharpclaw/solver.py:SharpClawSolver1D"]}
{"id": "C152", "title": "Linear problems obey superposition", "statement": "If the Riemann solver is linear in the states (waves and fluctuations are linear combinations, speeds do not depend on the states), no limiter is used, and source term and before_step are linear, then for all factors a, b the classic one-dimensional run that starts from a*q1 + b*q2 takes the same steps as the runs that start from q1 and from q2 (with variable or fixed time steps), ends with the same error if they do, and in every output frame and at the end its solution is a times the first plus b times the second; no cell depends on the states in any other way, through ghost cells, retried steps or leftovers.", "quantifier": "every linear Riemann solver, boundary condition, output style, pair of initial data and pair of factors", "why_tests_cant": "it quantifies over all initial data and all histories of accepted and rejected steps; tests compare one run with one reference", "anchors": ["src/pyclaw/classic/solver.py:step_hyperbolic", "src/pyclaw/classic/step1.f90:step1", "src/pyclaw/solver.py:evolve_to_time", "src/pyclaw/controller.py:run"]}
{"id": "C153", "title": "Monotone first-order runs keep the order and do not increase the distance of two solutions", "statement": "For one conserved quantity, a monotone Riemann solver, order = 1 and steps that are small against dx/lam: if one initial state lies below another in every cell and both lie between two constant states, then after any number of fixed steps that are not rejected it still does, between the same bounds (no over- or undershoots, also for nonlinear equations); and on a periodic domain the capacity-weighted sum of the absolute differences of any two solutions never grows.", "quantifier": "every monotone Riemann solver, capacity function, extrapolating or periodic boundary, pair of initial states and number of steps", "why_tests_cant": "it quantifies over all pairs of initial states and all step counts", "anchors": ["src/pyclaw/classic/solver.py:step_hyperbolic", "src/pyclaw/classic/step1.f90:step1", "src/pyclaw/solver.py:evolve_to_time"]}
{"id": "C154", "title": "A change of the data reaches at most two cells per step", "statement": "With the one-dimensional classic solver at either order, with any waves, the limiters of the library (each looks at the neighbouring interface on its upwind side) and a positive capacity function, the value of a cell after N fixed steps depends only on the values of q and aux at most 2N cells away: two initial states that agree in a range of cells still agree, after N accepted steps, in that range shortened by two cells per step at each side, and by nothing at a side that is a non-periodic end of the domain. What happens outside influences a cell through the Courant number alone.", "quantifier": "every regular Riemann solver, choice of limiters, order, boundary condition, range of cells, pair of initial states and number of steps", "why_tests_cant": "A test changes some cell of some state and looks at some others; that no distant cell ever notices (no stale ghost cells, no index off by one, no global quantity in the update) is a statement about all states and all distances.", "anchors": ["src/pyclaw/classic/solver.py:ClawSolver1D.step_hyperbolic", "src/pyclaw/classic/step1.f90:step1", "src/pyclaw/limiters/tvd.py:limit", "src/pyclaw/solver.py:Solver.apply_bcs", "src/pyclaw/solver.py:Solver.evolve_to_time"]}
{"id": "C155", "title": "An old gauge file is split into one file per gauge", "statement": "convert_gauges(path, output_path) leaves in the output directory, for every gauge number of the old fort.gauge file, a gauge file from which GaugeSolution reads the levels exactly and the times and fields of that gauge's lines, in their order, to sixteen digits; other files of the directory are not touched, and the call returns.", "quantifier": "every old file with at least two observations of any gauges, every order in which Python's set gives the gauge numbers, every content of the directory", "why_tests_cant": "Conversions are made once, on files of any size with any set of gauges; no test exists, and a test with one gauge would not see what happens to the second.", "anchors": ["src/pyclaw/gauges.py:convert_gauges", "src/pyclaw/gauges.py:compare_gauges", "src/pyclaw/gauges.py:GaugeSolution.write", "src/pyclaw/gauges.py:GaugeSolution.read"]}
{"id": "C156", "title": "The check of a conversion accepts exactly what agrees", "statement": "compare_old_gauges(old_path, new_path, gauge_id) returns True only if the new file has as many observations and fields of the gauge as the old one and all values differ by at most abs_tol + rel_tol |new|; and it returns True, with the default tolerances, for every file that holds the old values to the sixteen digits that GaugeSolution.write prints.", "quantifier": "every old file, every directory of gauge files, every gauge number and pair of tolerances", "why_tests_cant": "Whether a fixed absolute tolerance fits a fixed number of digits depends on the size of the values, of which a test tries a few.", "anchors": ["src/pyclaw/gauges.py:compare_old_gauges", "src/pyclaw/gauges.py:GaugeSolution.read", "src/pyclaw/gauges.py:GaugeSolution.write"]}
{"id": "C157", "title": "A frame written in the ForestClaw format comes back", "statement": "Solution.write(frame, file_format='forestclaw') followed by Solution.read(frame, file_format='forestclaw') gives the solution back: every patch with its numbers, place, block number and MPI rank, and q and t to nine digits; the other files are untouched. This holds whether the frame is read by the process that wrote it or by another one, and for files without a line naming the format.", "quantifier": "every solution of one to three dimensions with ForestClaw patches, every history of the process between writing and reading, every process state when reading", "why_tests_cant": "What the reader does depends on what the process has imported before, which a test in one process never varies.", "anchors": ["src/forestclaw/fileio/ascii.py:write_patch_header", "src/forestclaw/fileio/ascii.py:read_patch_header", "src/forestclaw/fileio/__init__.py", "src/forestclaw/geometry.py:Patch", "src/pyclaw/solution.py:Solution.read", "src/pyclaw/solution.py:Solution.get_read_func", "src/pyclaw/fileio/ascii.py:read"]}
{"id": "C158", "title": "Ordinary frames do not depend on earlier use of another format", "statement": "Writing or reading a frame with file_format='ascii' does the same whatever frames in whatever format the process has written and read before.", "quantifier": "every history of reads and writes of a process in the formats ascii and forestclaw, every solution, every frame", "why_tests_cant": "The effect of an import lasts for the rest of the process; tests of the ordinary format do not use the other one first.", "anchors": ["src/forestclaw/fileio/__init__.py", "src/pyclaw/fileio/ascii.py:write", "src/pyclaw/fileio/ascii.py:read", "src/pyclaw/solution.py:Solution.get_write_func", "src/pyclaw/solution.py:Solution.get_read_func"]}
{"id": "C159", "title": "A Solution can be constructed from every documented pair of arguments", "statement": "Solution(a, g) with a the number of equations, a State or a list of States, and g a Domain, a Patch, a list of Patches, a Dimension or a list of Dimensions gives a Solution on that geometry with exactly these states, whose state (and so q, t, num_eqn ...) is the first of them.", "quantifier": "every pair of documented arguments, with any number of patches, states and cells", "why_tests_cant": "The tests construct solutions from a State or a number of equations with a Domain; the other documented forms are not tried.", "anchors": ["src/pyclaw/solution.py:Solution.__init__", "src/pyclaw/geometry.py:Domain.__init__", "src/pyclaw/geometry.py:Patch.__init__", "src/pyclaw/state.py:State.__init__"]}
{"id": "C160", "title": "After construction every patch of the domain has its state", "statement": "The states of a constructed Solution correspond one to one to the patches of its domain: what is given as initial data, written to a frame or advanced by a solver covers the whole domain.", "quantifier": "every pair of arguments accepted by the constructor, every number of patches", "why_tests_cant": "All tests use one patch; a missing state gives no error, only a smaller solution.", "anchors": ["src/pyclaw/solution.py:Solution.__init__", "src/pyclaw/geometry.py:Domain.__init__", "src/pyclaw/state.py:State.__init__"]}
{"id": "C161", "title": "A Domain made from its corners is that box", "statement": "Domain(lower, upper, num_cells) is one patch that extends from lower to upper, divided into num_cells cells in each dimension, with the dimensions called x, y and z; arguments that do not describe such a box are refused.", "quantifier": "all sequences of numbers given as lower, upper and num_cells, of any lengths", "why_tests_cant": "Examples always give three consistent sequences.", "anchors": ["src/pyclaw/geometry.py:Domain.__init__", "src/pyclaw/geometry.py:Patch.__init__", "src/pyclaw/geometry.py:Dimension.__init__"]}
{"id": "C162", "title": "Coordinate arrays of a grid agree with the coordinates of its cells", "statement": "grid.c_centers_with_ghost(n) and grid.c_nodes_with_ghost(n) have num_cells + 2n (plus one for nodes) entries in each dimension, and entry (i,j,k) of array d is the centre (edge) number i-n, j-n, k-n of dimension d; the p_ versions are the mapping of these. grid.c_center(ind) is the centre of the cell ind.", "quantifier": "every grid of any number of dimensions, sizes and bounds, every number of ghost cells, every cell", "why_tests_cant": "The doctests look at a few entries of one grid, and depend on the version of numpy.", "anchors": ["src/pyclaw/geometry.py:Grid.c_centers_with_ghost", "src/pyclaw/geometry.py:Grid.c_nodes_with_ghost", "src/pyclaw/geometry.py:Grid.p_centers_with_ghost", "src/pyclaw/geometry.py:Grid.p_nodes_with_ghost", "src/pyclaw/geometry.py:Grid.c_center"]}
{"id": "C163", "title": "Cell width and capacity enter only through their product", "statement": "Two one-dimensional classic problems that differ only in the cell width and in the capacity function (state.index_capa), such that width times capacity is the same in every cell, give the same run: the same steps, Courant numbers, times, frames and errors. In particular a constant capacity kappa is the same as cells wider by the factor kappa.", "quantifier": "every Riemann solver, number of equations and waves, grid, boundary conditions, source and before-step functions that correspond, time-step controls and output styles, in Python and Fortran, over whole runs", "why_tests_cant": "Needs a comparison of two whole runs for all data and all capacity functions; the tests with a capacity function compare with stored numbers.", "anchors": ["src/pyclaw/classic/solver.py:ClawSolver1D.step_hyperbolic", "src/pyclaw/classic/step1.f90:step1", "src/pyclaw/state.py:State.index_capa", "src/pyclaw/solver.py:Solver.evolve_to_time"]}
{"id": "C164", "title": "A parallel State is used like a serial one", "statement": "A program that reads and assigns q, aux, p, F, mp, mF, num_eqn and num_aux of a State, writes into the arrays, sets up ghost cells, sums functionals and copies the State sees the same arrays, numbers and exceptions whether the State is one of PyClaw or, on each process for the cells of that process, one of PetClaw.", "quantifier": "every sequence of operations of any length, every number of cells, dimensions, components and ghost cells, all values", "why_tests_cant": "The same scripts run under both packages only if each sequence of operations behaves alike; tests use one order of assignments.", "anchors": ["src/petclaw/state.py:State.q", "src/petclaw/state.py:State.aux", "src/petclaw/state.py:State.p", "src/petclaw/state.py:State.F", "src/petclaw/state.py:State.mp", "src/petclaw/state.py:State.mF", "src/petclaw/state.py:State.set_num_ghost", "src/petclaw/state.py:State.__deepcopy__", "src/petclaw/state.py:State._init_aux_da", "src/pyclaw/state.py:State.mp", "src/pyclaw/state.py:State.mF", "src/pyclaw/state.py:State.new_array", "src/pyclaw/state.py:State.__deepcopy__"]}
{"id": "C165", "title": "The functionals written to file are totals over the whole domain", "statement": "Each number that Controller.write_F writes for a functional is the sum of its density (component of state.F) over all cells of the domain, and is the same for every number of processes.", "quantifier": "all densities, grids and numbers of functionals, every distribution of the cells over processes", "why_tests_cant": "The only example with a functional has a positive density (an energy) and its output is not tested.", "anchors": ["src/pyclaw/controller.py:Controller.write_F", "src/pyclaw/state.py:State.sum_F", "src/petclaw/state.py:State.sum_F"]}
{"id": "C166", "title": "Equilibria are kept", "statement": "In one dimension with the classic solver, initial data at which the Riemann solver returns no waves and no fluctuations at any interface, the two boundaries (with their ghost cells as documented) included, stay as they are: no step of any size changes a cell, and every frame, on disk and in memory, and the final solution hold the initial data. The data need not be constant: flux differences balanced by a source inside the waves (f-waves), or by auxiliary data, are included.", "quantifier": "every Riemann solver that gives equal answers for equal states, every number of equations, waves and auxiliary fields, order, limiters, capacity function, grid, standard boundary conditions, time-step controls, output style, and source and before-step functions that leave these data alone, in Python and Fortran, over whole runs", "why_tests_cant": "Well-balanced problems are tested against stored numbers after a fixed number of steps; that nothing moves must hold for every number and size of steps, every equilibrium and every limiter, including where limiters divide by wave norms that are zero.", "anchors": ["src/pyclaw/classic/solver.py:ClawSolver1D.step_hyperbolic", "src/pyclaw/classic/step1.f90:step1", "src/pyclaw/limiters/tvd.py:limit", "src/pyclaw/solver.py:Solver._apply_bcs", "src/pyclaw/controller.py:Controller.run"]}
{"id": "C167", "title": "Equilibria are kept by SharpClaw in one dimension", "statement": "In one dimension with the SharpClaw solver, initial data at which the Riemann solver returns no waves and no fluctuations at any interface, boundaries included, stay as they are: dq vanishes in every cell, and every frame and the final solution hold the initial data.", "quantifier": "every Riemann solver that gives equal answers for equal states and nothing for equal states in a cell, every number of equations, waves and auxiliary fields, reconstruction, total fluctuation solver, time integrator, grid, standard boundary conditions and time-step controls, over whole runs", "why_tests_cant": "The balance must survive every reconstruction and every stage of every integrator for all data that are balanced; the tests use constant states and stored numbers.", "anchors": ["src/pyclaw/sharpclaw/solver.py:SharpClawSolver1D.dq_hyperbolic", "src/pyclaw/sharpclaw/solver.py:SharpClawSolver.step", "src/pyclaw/sharpclaw/flux1.f90:flux1", "src/pyclaw/limiters/recon.py:weno5_wave", "src/pyclaw/sharpclaw/reconstruct.f90:weno5_fwave", "src/pyclaw/sharpclaw/reconstruct.f90:tvd2_wave"]}
{"id": "C168", "title": "Equilibria are kept by SharpClaw in two and three dimensions", "statement": "In two and three dimensions with the SharpClaw solver and a wave-based reconstruction, initial data at which the Riemann solver of every dimension returns no waves and no fluctuations at any interface of any line of cells, boundaries included, stay as they are: dq vanishes in every cell, every Runge-Kutta step and every step of a run with a multistep integrator leaves all cells unchanged.", "quantifier": "every Riemann solver that gives equal answers for equal states and nothing for equal states in a cell, every number of equations, waves, auxiliary fields and cells, every content of the Fortran workspace, total fluctuation solver, standard boundary conditions and time integrator, without a capacity function", "why_tests_cant": "The balance must hold on every line through every cell, whatever the slices visited before left in the workspace; tests run a few grids.", "anchors": ["src/pyclaw/sharpclaw/solver.py:SharpClawSolver2D.dq_hyperbolic", "src/pyclaw/sharpclaw/solver.py:SharpClawSolver3D.dq_hyperbolic", "src/pyclaw/sharpclaw/flux2.f90:flux2", "src/pyclaw/sharpclaw/flux3.f90:flux3", "src/pyclaw/sharpclaw/flux1.f90:flux1", "src/pyclaw/sharpclaw/reconstruct.f90:tvd2_wave"]}
{"id": "C169", "title": "Equilibria are kept by the dimensionally split classic solver in two and three dimensions", "statement": "In two and three dimensions with the classic solver and dimensional splitting, initial data at which the Riemann solver of every dimension returns no waves and no fluctuations at any face the sweeps visit, faces between ghost cells included, stay as they are: every step, of any size and order and with any limiters and capacity function, leaves all cells unchanged, and so does any sequence of steps.", "quantifier": "every Riemann solver that gives equal answers for equal states, every number of equations, waves, auxiliary fields and cells, every limiter, order, capacity function, standard boundary conditions, every old content of the ghosted arrays and every sequence of time steps", "why_tests_cant": "Each sweep reads what the sweeps before left in cells and ghost cells, so the balance must survive all of them on every line; tests run a few grids.", "anchors": ["src/pyclaw/classic/solver.py:ClawSolver2D.step_hyperbolic", "src/pyclaw/classic/solver.py:ClawSolver3D.step_hyperbolic", "src/pyclaw/classic/step2ds.f90:step2ds", "src/pyclaw/classic/step3ds.f90:step3ds", "src/pyclaw/classic/flux2.f90:flux2"]}
{"id": "C170", "title": "Equilibria are kept by the unsplit classic solver in two dimensions", "statement": "In two dimensions with the classic solver without dimensional splitting, initial data at which the Riemann solver of each dimension returns no waves and no fluctuations at any face the solver visits, one layer of ghost cells across included, stay as they are, for every setting of transverse_waves: every step, of any size and order and with any limiters and capacity function, leaves all cells unchanged, and so does any sequence of steps.", "quantifier": "every Riemann solver, every transverse solver that splits nothing into nothing, every number of equations, waves, auxiliary fields and cells, every limiter, order, setting of transverse_waves, capacity function, standard boundary conditions, every old content of the ghosted arrays and every sequence of time steps (for sequences the Riemann solvers give equal answers for equal states)", "why_tests_cant": "Transverse corrections carry contributions of every slice into its two neighbours, ghost slices included; all of them must vanish; tests run a few grids.", "anchors": ["src/pyclaw/classic/solver.py:ClawSolver2D.step_hyperbolic", "src/pyclaw/classic/step2.f90:step2", "src/pyclaw/classic/flux2.f90:flux2"]}
{"id": "C171", "title": "Equilibria are kept by the unsplit classic solver in three dimensions", "statement": "In three dimensions with the classic solver without dimensional splitting, initial data at which the Riemann solver of every dimension returns no waves and no fluctuations at any face the solver visits, one layer of ghost cells across included, stay as they are, for every order and setting of transverse_waves and whatever earlier steps left in the work arrays: every step and any sequence of steps leaves all cells unchanged.", "quantifier": "every Riemann solver, every pair of transverse solvers that split nothing into nothing, every number of equations, waves, auxiliary fields and cells, every limiter, order, setting of transverse_waves, capacity function, standard boundary conditions, every content of the work arrays and every sequence of time steps (for sequences the Riemann solvers give equal answers for equal states)", "why_tests_cant": "Each slice contributes to nine rows of cells through two levels of transverse splitting, and work arrays are reused between slices and steps; tests run a few grids with fresh arrays.", "anchors": ["src/pyclaw/classic/solver.py:ClawSolver3D.step_hyperbolic", "src/pyclaw/classic/step3.f90:step3", "src/pyclaw/classic/flux3.f90:flux3"]}
