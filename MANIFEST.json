{
 "claims": [
  {
   "property": "C01",
   "status": "proved",
   "theorems": [
    "C01_classic_never_passes_tend",
    "C01_sharpclaw_never_passes_tend"
   ],
   "note": "Classic and SharpClaw Runge-Kutta runs, arbitrary callbacks, exact arithmetic."
  },
  {
   "property": "C02",
   "status": "partial",
   "theorems": [
    "C02_normal_return_refuted",
    "C02_normal_return_partial",
    "C02_sharpclaw_normal_return_partial"
   ],
   "note": "False as stated: rejected attempts can use up max_steps and the call returns normally (witness). Proved: that is the only way."
  },
  {
   "property": "C03",
   "status": "proved",
   "theorems": [
    "C03_rejected_step_restores",
    "C03_sharpclaw_rejected_step_restores",
    "C03_retry_is_shorter",
    "C03_sharpclaw_retry_is_shorter",
    "C03_retry_always_shorter_refuted"
   ],
   "note": "q and t restored exactly; retry shorter except for the documented last-step stretch, whose necessity is shown by a witness."
  },
  {
   "property": "C04",
   "status": "proved",
   "theorems": [
    "C04_accepted_steps_obey_cfl",
    "C04_sharpclaw_accepted_steps_obey_cfl"
   ],
   "note": "Any run, fixed or variable step, with or without end time."
  },
  {
   "property": "C05",
   "status": "proved",
   "theorems": [
    "C05_fixed_step_count"
   ],
   "note": "For dt dividing the interval exactly, dt > 1e-10 and dt >= 1e-14*tend."
  },
  {
   "property": "C06",
   "status": "proved",
   "theorems": [
    "C06_single_step"
   ],
   "note": ""
  },
  {
   "property": "C07",
   "status": "proved",
   "theorems": [
    "C07_bounded_speeds_finish"
   ],
   "note": "Explicit bound 2m+1 on attempts; needs slack cfl_desired + 1e-14*tend*R <= cfl_max."
  },
  {
   "property": "C08",
   "status": "partial",
   "theorems": [
    "C08_noop_then_run_refuted",
    "C08_fixed_step_noop_refuted",
    "C08_noop_partial"
   ],
   "note": "False: max_steps is left at 0, so the next run fails (witness); with a fixed step the call itself raises (witness). Proved: solution untouched, nothing but max_steps changes."
  },
  {
   "property": "C09",
   "status": "proved",
   "theorems": [
    "C09_fixed_run_splits"
   ],
   "note": ""
  },
  {
   "property": "C10",
   "status": "partial",
   "theorems": [
    "C10_dtmin_dtmax_refuted",
    "C10_dtmin_dtmax_partial"
   ],
   "note": "False: recorded before clipping and not for the first step (witness). Proved: they bracket the controller's proposals."
  },
  {
   "property": "C11",
   "status": "partial",
   "theorems": [
    "C11_classic_dt_max_refuted",
    "C11_sharpclaw_dt_max_refuted",
    "C11_classic_dt_max_partial"
   ],
   "note": "False for the first step and for every SharpClaw step (witnesses). Proved for later classic steps."
  },
  {
   "property": "C12",
   "status": "partial",
   "theorems": [
    "C12_splitting_refuted",
    "C12_splitting_partial"
   ],
   "note": "False when the Courant number equals cfl_max (witness). Proved below cfl_max."
  },
  {
   "property": "C13",
   "status": "proved",
   "theorems": [
    "C13_ghost_cells"
   ],
   "note": "Any number of dimensions and components, arbitrary entries; needs num_cells >= num_ghost for wall/periodic (C15)."
  },
  {
   "property": "C14",
   "status": "proved",
   "theorems": [
    "C14_faults_reported",
    "C14_custom_calls_user"
   ],
   "note": ""
  },
  {
   "property": "C15",
   "status": "partial",
   "theorems": [
    "C15_small_grids_refuted",
    "C15_extrapolation_partial"
   ],
   "note": "False with fewer cells than ghost cells (witness). Proved for extrapolation on every grid."
  },
  {
   "property": "C54",
   "status": "partial",
   "theorems": [
    "C54_valid_solver_fails_refuted",
    "C54_valid_solver_partial"
   ],
   "note": "False: aux types are not checked and a wall needs a velocity component (witnesses). Proved without aux arrays for known types."
  },
  {
   "property": "C16",
   "status": "proved",
   "theorems": [
    "C16_round_trip",
    "C16_round_trip_with_bcs"
   ],
   "note": "num_ghost >= 1."
  },
  {
   "property": "C17",
   "status": "proved",
   "theorems": [
    "C17_periodic_conservation"
   ],
   "note": "Both kernels, all limiters, capacity functions; needs num_cells >= num_ghost (C15)."
  },
  {
   "property": "C18",
   "status": "proved",
   "theorems": [
    "C18_boundary_fluxes"
   ],
   "note": ""
  },
  {
   "property": "C19",
   "status": "proved",
   "theorems": [
    "C19_constant_state",
    "C19_constant_step"
   ],
   "note": ""
  },
  {
   "property": "C20",
   "status": "partial",
   "theorems": [
    "C20_kernels_agree_partial",
    "C20_periodic_cfl_partial",
    "C20_kernels_agree_refuted"
   ],
   "note": "False for limiter 2, for f-waves of speed zero and for the Courant number (witnesses). Proved for limiters 0, 1, 3, 4, 5 without zero f-wave speeds; Courant numbers agree on periodic domains."
  },
  {
   "property": "C21",
   "status": "proved",
   "theorems": [
    "C21_C22_maximum_principle",
    "C21_C22_tvd"
   ],
   "note": ""
  },
  {
   "property": "C22",
   "status": "proved",
   "theorems": [
    "C21_C22_maximum_principle",
    "C21_C22_tvd",
    "C22_tvd_limiters"
   ],
   "note": "Limiters 1-4 in both languages and the Courant-number dependent 11, 15, 16."
  },
  {
   "property": "C23",
   "status": "proved",
   "theorems": [
    "C23_unit_courant_number"
   ],
   "note": ""
  },
  {
   "property": "C24",
   "status": "proved",
   "theorems": [
    "C24_five_cells",
    "C24_inside_array",
    "C24_stale_ghosts"
   ],
   "note": ""
  },
  {
   "property": "C25",
   "status": "partial",
   "theorems": [
    "C25_fortran_sweby",
    "C25_python_sweby",
    "C25_python_superbee_partial",
    "C25_python_superbee_refuted",
    "C25_python_superbee_is"
   ],
   "note": "False for Python's superbee, which is min(1,2r) cut at 0 (witness). Proved for the other limiters and for Fortran's superbee."
  },
  {
   "property": "C26",
   "status": "partial",
   "theorems": [
    "C26_cell_by_cell_partial",
    "C26_cell_by_cell_refuted"
   ],
   "note": "False for limiters 18, 21, 22 and 23, which take extrema over the grid (witnesses). Proved for the other 18."
  },
  {
   "property": "C27",
   "status": "proved",
   "theorems": [
    "C27_euler",
    "C27_ssp22",
    "C27_ssp33",
    "C27_ssp104",
    "C27_user_rk",
    "C27_rk_step_unique",
    "C27_orders"
   ],
   "note": "Without per-stage before_step."
  },
  {
   "property": "C28",
   "status": "proved",
   "theorems": [
    "C28_euler",
    "C28_ssp22",
    "C28_ssp33",
    "C28_ssp104"
   ],
   "note": "Also with a before_step hook at each stage that keeps the set."
  },
  {
   "property": "C29",
   "status": "partial",
   "theorems": [
    "C29_exact_k2",
    "C29_exact_k3",
    "C29_ssp_run_k2",
    "C29_ssp_run_k3_partial",
    "C29_ssp_k3_partial",
    "C29_ssp_k3_refuted"
   ],
   "note": "Exactness of both formulas and the SSP property of whole SSPLMMk2 runs (single steps, not clipped to an end time) are proved. SSP is false for SSPLMMk3: delta0 becomes negative for long saved steps (witness); proved for whole runs while H^2 <= 8 mu^2."
  },
  {
   "property": "C30",
   "status": "partial",
   "theorems": [
    "C30_history_partial",
    "C30_third_order_partial",
    "C30_history_refuted",
    "C30_time_goes_back_refuted"
   ],
   "note": "False with check_lmm_cond=True: a rejection leaves an earlier slope behind and time can go back (witnesses). Proved for all other settings and any sequence of evolve_to_time calls."
  },
  {
   "property": "C31",
   "status": "proved",
   "theorems": [
    "C31_python",
    "C31_python_local",
    "C31_fortran",
    "C31_fortran_lim3",
    "C31_unique",
    "C31_exact",
    "C31_convex",
    "C31_mirror",
    "C31_fifth_order",
    "C31_kernels_agree"
   ],
   "note": "Python and Fortran fifth-order reconstructions; also exactness, uniqueness of the quadratics, mirror symmetry and fifth order at ideal weights."
  },
  {
   "property": "C32",
   "status": "partial",
   "theorems": [
    "C32_periodic_conservation",
    "C32_fortran_weno5_sound",
    "C32_scales",
    "C32_runge_kutta_partial",
    "C32_ssplmm_partial",
    "C32_lmm_run",
    "C32_ssplmm_run",
    "C32_runge_kutta_refuted"
   ],
   "note": "The sum of capacity*dq vanishes for every reconstruction (proved; with a capacity function for the Python kernel, see C81). The conclusion for Runge-Kutta steps is false with a capacity function, which the stage registers of the Python kernel lose (witness); proved without capacity, also for whole runs of LMM, SSPLMMk2 and, without check_lmm_cond, SSPLMMk3."
  },
  {
   "property": "C33",
   "status": "proved",
   "theorems": [
    "C33_split_2d_conserves",
    "C33_one_array_is_enough"
   ],
   "note": "The second theorem also covers three dimensions."
  },
  {
   "property": "C34",
   "status": "proved",
   "theorems": [
    "C34_unsplit_2d_conserves"
   ],
   "note": "Every transverse solver and every value of transverse_waves."
  },
  {
   "property": "C35",
   "status": "proved",
   "theorems": [
    "C35_work_array_2d",
    "C35_work_array_3d",
    "C35_slices_fit"
   ],
   "note": "No two elements of the pieces share a place and all lie in the array, in 2D and 3D."
  },
  {
   "property": "C36",
   "status": "proved",
   "theorems": [
    "C36_coordinates",
    "C36_edges"
   ],
   "note": "Exact arithmetic; nodes, centres and their ghosted versions."
  },
  {
   "property": "C37",
   "status": "proved",
   "theorems": [
    "C37_gauges",
    "C37_one_owner"
   ],
   "note": "Serial add_gauges and the ownership of a gauge in any rectangular decomposition."
  },
  {
   "property": "C38",
   "status": "partial",
   "theorems": [
    "C38_dimension_coordinates",
    "C38_grid_coordinates_partial",
    "C38_refuted"
   ],
   "note": "The full property is refuted: p_centers is stale after change, read c_centers, read p_centers. Proved for single dimensions after any program, and for grid arrays after programs without dimension reads."
  },
  {
   "property": "C39",
   "status": "partial",
   "theorems": [
    "C39_no_error_no_damage_partial",
    "C39_refuted"
   ],
   "note": "Refuted as stated: an assignment stores the value before the check that raises. Proved: valid whenever the last assignment did not raise."
  },
  {
   "property": "C40",
   "status": "proved",
   "theorems": [
    "C40_ascii_round_trip",
    "C40_auxiliary_arrays_of_the_first_frame",
    "C40_writing_again_gives_the_same_files"
   ],
   "note": "One to three dimensions, any number of patches; auxiliary arrays from the same frame or from frame 0; writing what was read gives the same text."
  },
  {
   "property": "C41",
   "status": "proved",
   "theorems": [
    "C41_printed_numbers_are_accurate",
    "C41_rows_split_into_their_numbers",
    "C41_printed_integers_are_exact"
   ],
   "note": "Printing is modelled digit by digit, rounding half to even."
  },
  {
   "property": "C42",
   "status": "proved",
   "theorems": [
    "C42_file_names_are_unique",
    "C42_file_names_sort_by_frame",
    "C42_reader_and_writer_agree"
   ],
   "note": ""
  },
  {
   "property": "C43",
   "status": "proved",
   "theorems": [
    "C43_binary_frames",
    "C43_auxiliary_arrays"
   ],
   "note": "q for any number of ghost cells, auxiliary arrays for at least one layer (C70 covers none)."
  },
  {
   "property": "C44",
   "status": "proved",
   "theorems": [
    "C44_frames",
    "C44_output_style_1",
    "C44_output_style_2",
    "C44_sharpclaw_output_style_1",
    "C44_fixed_steps"
   ],
   "note": "Numbering, contents and order of the frames for every output style, also when the solver raises; times for variable steps (classic and SharpClaw) and for fixed steps that divide the intervals. A call that runs out of attempts (C02) may leave a frame early: at_time says when."
  },
  {
   "property": "C45",
   "status": "proved",
   "theorems": [
    "C45_ghost_cells",
    "C45_step",
    "C45_run",
    "C45_any_limiter_refuted"
   ],
   "note": "PETSc enters through its contract (periodic ghost exchange, max reduction). Ghost cells in any dimension; step and run for the 1D classic solver in both languages. Limiters 18, 21, 22, 23 are excluded: with them the result depends on the decomposition (C45_any_limiter_refuted)."
  },
  {
   "property": "C46",
   "status": "proved",
   "theorems": [
    "C46_local_grids_tile"
   ],
   "note": "Local dimensions of petclaw patches for any cut of the cells."
  },
  {
   "property": "C47",
   "status": "partial",
   "theorems": [
    "C47_copies_are_independent_partial",
    "C47_copies_are_complete_refuted"
   ],
   "note": "Complete is false: the capacity index, keep_gauges, gauge data, p and F are not copied (witness). Proved: q, aux, t and problem data are copied and every later history of operations on either leaves the other alone."
  },
  {
   "property": "C48",
   "status": "proved",
   "theorems": [
    "C48_gauges",
    "C48_classic_rows",
    "C48_sharpclaw_rows"
   ],
   "note": "First run, one and two dimensions (see C75, C76 for the rest); rows in the files and in memory, for the classic and the SharpClaw solvers."
  },
  {
   "property": "C49",
   "status": "proved",
   "theorems": [
    "C49_assignment",
    "C49_history",
    "C49_constructed_solvers"
   ],
   "note": "Any value type; the constructors of all six solvers, and the attributes the library assigns later."
  },
  {
   "property": "C50",
   "status": "proved",
   "theorems": [
    "C50_check_diff"
   ],
   "note": "Norms are compared through squares, so no square root is taken."
  },
  {
   "property": "C51",
   "status": "partial",
   "theorems": [
    "C51_fixed_step_final_time_refuted",
    "C05_fixed_step_count"
   ],
   "note": "False: witness with 3 steps."
  },
  {
   "property": "C52",
   "status": "partial",
   "theorems": [
    "C52_rejected_step_restores_aux_refuted",
    "C03_rejected_step_restores"
   ],
   "note": "False: aux is not restored (witness). q and t are (C03)."
  },
  {
   "property": "C53",
   "status": "proved",
   "theorems": [
    "C53_fixed_run_is_single_steps"
   ],
   "note": ""
  },
  {
   "property": "C55",
   "status": "proved",
   "theorems": [
    "C55_cfl_limiters_in_region"
   ],
   "note": ""
  },
  {
   "property": "C56",
   "status": "partial",
   "theorems": [
    "C56_unit_at_one_partial",
    "C56_unit_at_one_refuted"
   ],
   "note": "False for limiters 12, 13, 14 and 17 (witnesses). Proved for 14 others."
  },
  {
   "property": "C57",
   "status": "proved",
   "theorems": [
    "C57_courant_number"
   ],
   "note": ""
  },
  {
   "property": "C58",
   "status": "proved",
   "theorems": [
    "C58_albada_klein_limiters",
    "C58_klein_sweby",
    "C58_albada_at_extrema"
   ],
   "note": "Limiters 7 and 8 do not vanish for r < 0 (C58_albada_at_extrema)."
  },
  {
   "property": "C59",
   "status": "partial",
   "theorems": [
    "C59_lmm_formula_partial",
    "C59_lmm_formula_refuted",
    "C30_history_partial"
   ],
   "note": "False when lmm_steps differs from len(alpha) (witnesses for the default lmm_steps=4). Proved when they agree; C30 shows the registers hold the right history."
  },
  {
   "property": "C60",
   "status": "partial",
   "theorems": [
    "C60_ssp22_refuted",
    "C60_registers_partial"
   ],
   "note": "False for SSP22 only; every other integrator gets the registers its step uses."
  },
  {
   "property": "C61",
   "status": "partial",
   "theorems": [
    "C61_split_3d_conserves_partial",
    "C61_split_3d_conserves_refuted"
   ],
   "note": "False with a limiter: step3ds sweeps one layer of ghost cells only, while limiters look two cells away (witness). Proved for first order and for second order without limiters."
  },
  {
   "property": "C62",
   "status": "proved",
   "theorems": [
    "C62_sweeps_are_1d_steps"
   ],
   "note": ""
  },
  {
   "property": "C63",
   "status": "proved",
   "theorems": [
    "C63_plane_data"
   ],
   "note": ""
  },
  {
   "property": "C64",
   "status": "proved",
   "theorems": [
    "C64_courant_number"
   ],
   "note": ""
  },
  {
   "property": "C65",
   "status": "proved",
   "theorems": [
    "C65_unsplit_plane_data"
   ],
   "note": ""
  },
  {
   "property": "C66",
   "status": "proved",
   "theorems": [
    "C66_unsplit_courant_number"
   ],
   "note": ""
  },
  {
   "property": "C67",
   "status": "partial",
   "theorems": [
    "C67_p_output_partial",
    "C67_p_output_refuted"
   ],
   "note": "False unless there are as many derived quantities as components of q: fort.t says num_eqn (witness)."
  },
  {
   "property": "C68",
   "status": "partial",
   "theorems": [
    "C68_reading_appends_partial",
    "C68_reading_replaces_refuted"
   ],
   "note": "False: the states read are appended to those already there (witness, and the theorem says exactly what is there afterwards)."
  },
  {
   "property": "C69",
   "status": "partial",
   "theorems": [
    "C69_expanded_path_partial",
    "C69_expanded_path_refuted"
   ],
   "note": "False without an explicit format: the header is looked for at the unexpanded path (witness). Proved when a format is given."
  },
  {
   "property": "C70",
   "status": "partial",
   "theorems": [
    "C43_auxiliary_arrays",
    "C70_auxiliary_arrays_without_ghost_cells_refuted"
   ],
   "note": "False without ghost cells: the slice 0:-0 is empty (witness). Proved for at least one layer."
  },
  {
   "property": "C71",
   "status": "partial",
   "theorems": [
    "C71_second_run_partial",
    "C71_second_run_refuted"
   ],
   "note": "False without keep_copy: numbering restarts at 0 and frames are overwritten (witness). Proved with keep_copy."
  },
  {
   "property": "C72",
   "status": "partial",
   "theorems": [
    "C72_returns_or_reports_partial",
    "C72_nothing_to_do_refuted"
   ],
   "note": "False: with no output asked for the local variable status is unbound, with an empty list an attribute is missing (witnesses). Proved whenever a frame is asked for."
  },
  {
   "property": "C73",
   "status": "partial",
   "theorems": [
    "C73_output_times_partial",
    "C73_output_times_refuted"
   ],
   "note": "False: the first entry is taken to be the current time and skipped (witness). Proved when the list starts with the current time."
  },
  {
   "property": "C74",
   "status": "proved",
   "theorems": [
    "C74_functionals"
   ],
   "note": ""
  },
  {
   "property": "C75",
   "status": "partial",
   "theorems": [
    "C75_second_run_refuted",
    "C75_second_run_always_fails",
    "C48_gauges"
   ],
   "note": "False: the second run appends new file handles behind the closed ones and writes to the closed ones (ValueError), always. First run: C48_gauges."
  },
  {
   "property": "C76",
   "status": "partial",
   "theorems": [
    "C76_three_dimensions_refuted",
    "C48_gauges"
   ],
   "note": "False: q is not bound in three dimensions (UnboundLocalError). One and two dimensions: C48_gauges."
  },
  {
   "property": "C77",
   "status": "partial",
   "theorems": [
    "C77_overwrite_without_gauges_partial",
    "C77_overwrite_refuted"
   ],
   "note": "False with gauges: setting up gauge files creates the directory and removes old gauge files before the check (witnesses). Proved without gauges."
  },
  {
   "property": "C78",
   "status": "partial",
   "theorems": [
    "C78_solution_copies_partial",
    "C78_solution_copies_refuted"
   ],
   "note": "False: the copied domain and the copied states refer to different patch objects, and start_frame is lost (witness). Proved: values of the states and independence."
  },
  {
   "property": "C79",
   "status": "partial",
   "theorems": [
    "C79_same_solutions_partial",
    "C79_same_solutions_refuted"
   ],
   "note": "False when patches share an index, which is the default (witnesses in both directions). Proved for distinct indices."
  },
  {
   "property": "C80",
   "status": "partial",
   "theorems": [
    "C80_equal_values_partial",
    "C80_equal_values_refuted",
    "C80_zero_reference_always_differs"
   ],
   "note": "False for a relative tolerance when all expected values are zero, always. Proved otherwise."
  },
  {
   "property": "C81",
   "status": "partial",
   "theorems": [
    "C81_fortran_capacity_refuted",
    "C32_periodic_conservation"
   ],
   "note": "False by the rules of Fortran 2003: the array dtdx is allocated anew with lower bound 1, so the capacity num_ghost cells to the left is used (witness). Without a capacity function: C32_periodic_conservation."
  },
  {
   "property": "C82",
   "status": "proved",
   "theorems": [
    "C82_char_weno",
    "C82_char_exact"
   ],
   "note": "Interfaces num_ghost+1 .. mx2-num_ghost+1 of the dummy arrays, i.e. all interfaces of the domain."
  },
  {
   "property": "C83",
   "status": "partial",
   "theorems": [
    "C83_trans_refuted",
    "C83_trans_partial"
   ],
   "note": "False: the index of the right eigenvectors is transposed in weno5_trans (witness: acoustics with impedance 2). Proved when each row of L times the same row of R is 1 (scalar equations, symmetric orthogonal eigenvectors)."
  },
  {
   "property": "C84",
   "status": "partial",
   "theorems": [
    "C84_python_wave",
    "C84_fortran_wave",
    "C84_fortran_exact",
    "C84_python_exact_partial",
    "C84_python_exact_refuted",
    "C84_no_waves",
    "C84_fwave_partial",
    "C84_fwave_refuted"
   ],
   "note": "Proved for interfaces without waves below the code's threshold 1e-14, for f-waves without zero speeds. The Fortran wave routine is exact for quadratics without that condition; the Python routine is not at the vertex of a parabola, and the f-wave routine gives no number for a stationary wave (witnesses)."
  },
  {
   "property": "C85",
   "status": "partial",
   "theorems": [
    "C85_tvd2_partial",
    "C85_tvd2_constant_refuted",
    "C85_tvd2_limiter5_refuted",
    "C85_char",
    "C85_wave_partial"
   ],
   "note": "Component-wise: false for constant states (0/0) and limiter 5 at extrema (witnesses), proved for limiters 1-4 where q(i) differs from q(i-1). Characteristic-wise: proved for all data and limiters 1-4. Wave-based: proved for linear systems at the interfaces the routine treats."
  },
  {
   "property": "C86",
   "status": "partial",
   "theorems": [
    "C86_sound",
    "C86_conserves_partial",
    "C86_tvd2_wave_refuted"
   ],
   "note": "False for the second-order wave-based reconstruction, which skips the last interface (witness). Proved for the characteristic-wise, transmission-based, wave-based WENO and the second-order characteristic-wise ones; component-wise WENO is C32."
  },
  {
   "property": "C87",
   "status": "proved",
   "theorems": [
    "C87_sum_of_lines",
    "C87_courant",
    "C87_errors",
    "C87_weno5_determined"
   ],
   "note": "The Courant number without a capacity function. Conditions: the boundary conditions fit the grid and the reconstruction of a line is determined by the line (proved for WENO5)."
  },
  {
   "property": "C88",
   "status": "proved",
   "theorems": [
    "C88_periodic_conservation",
    "C88_weno5_sound",
    "C88_runge_kutta",
    "C88_ssplmm_run",
    "C88_scales"
   ],
   "note": "Steps as formulas over the right-hand side; the hypothesis on the reconstruction is proved for WENO5. Whole runs of the SSP multistep methods in C88_ssplmm_run."
  },
  {
   "property": "C89",
   "status": "proved",
   "theorems": [
    "C89_uniform",
    "C89_steps",
    "C89_weno5_constants"
   ],
   "note": "WENO5 with a positive regularisation constant reproduces constants."
  },
  {
   "property": "C90",
   "status": "proved",
   "theorems": [
    "C90_classic_run",
    "C90_sharpclaw_run",
    "C90_frames_related"
   ],
   "note": "For the classic step with Godunov or Strang splitting and for SharpClaw with Runge-Kutta integrators; exceptions raised inside a step are outside this model."
  },
  {
   "property": "C91",
   "status": "proved",
   "theorems": [
    "C91_classic_1d",
    "C91_classic_md",
    "C91_sharpclaw_1d",
    "C91_sharpclaw_md"
   ],
   "note": "Classic 1D with positive capacity function; 2D and split 3D as in C33, C34, C61; SharpClaw without capacity function for the sound reconstructions of C32, C86 and C88."
  },
  {
   "property": "C92",
   "status": "proved",
   "theorems": [
    "C92_advection_run",
    "C22_tvd_limiters"
   ],
   "note": "Without source term; before_step does not change q."
  },
  {
   "property": "C93",
   "status": "proved",
   "theorems": [
    "C93_unsplit_3d_conserves"
   ],
   "note": "For the combinations of order and transverse_waves described in flux3.f90; first order with trans_cor is the subject of C96."
  },
  {
   "property": "C94",
   "status": "proved",
   "theorems": [
    "C94_unsplit_3d_courant_number"
   ],
   "note": ""
  },
  {
   "property": "C95",
   "status": "proved",
   "theorems": [
    "C95_unsplit_3d_plane_data"
   ],
   "note": ""
  },
  {
   "property": "C96",
   "status": "partial",
   "theorems": [
    "C96_no_leftovers_partial",
    "C96_first_order_refuted"
   ],
   "note": "False for order 1 with transverse_waves = trans_cor, the default: flux3 splits the correction array without having computed it (witness). Proved for the combinations described in flux3.f90."
  },
  {
   "property": "C97",
   "status": "proved",
   "theorems": [
    "C97_own_solvers"
   ],
   "note": "Conditions: functions keep array sizes, what ghost cells held before does not matter (shown of the 1D solver in C24), at least one layer of ghost cells. aux is left out."
  },
  {
   "property": "C98",
   "status": "partial",
   "theorems": [
    "C98_others_unchanged_partial",
    "C98_shared_solver",
    "C98_other_size",
    "C98_others_unchanged_refuted"
   ],
   "note": "Proved for programs that use each classic solver for one solution. False when one classic solver advances two solutions of the same shape: both then have the same values (C98_shared_solver, for all steps), because setup runs once and each state.q becomes a view of the one qbc."
  },
  {
   "property": "C99",
   "status": "partial",
   "theorems": [
    "C99_one_dimension_partial",
    "C99_no_classic_step_partial",
    "C99_after_classic_step",
    "C99_run_again_refuted"
   ],
   "note": "Proved in one dimension and while no classic step has been accepted. False for the classic solver in two or three dimensions: after an accepted step q is a view that is not contiguous unless all dimensions after the first have one cell, and run raises 'Initial solution is not valid.'"
  },
  {
   "property": "C100",
   "status": "proved",
   "theorems": [
    "C100_one_solver_at_a_time"
   ],
   "note": "One set of module arrays per number of dimensions. The documented lim_type 3 is the subject of C101."
  },
  {
   "property": "C101",
   "status": "partial",
   "theorems": [
    "C101_any_order_refuted",
    "C101_set_up_again_refuted",
    "C101_lim_type_3_refuted",
    "C101_options_changed_refuted",
    "C101_at_most_one",
    "C100_one_solver_at_a_time"
   ],
   "note": "False: two set-up solvers, a second setup, a second solver with lim_type 3 and changed options each stop the program (witnesses); C101_at_most_one shows that no program gets two solvers in use. Proved for one solver at a time: C100."
  },
  {
   "property": "C102",
   "status": "partial",
   "theorems": [
    "C102_what_reaches_the_kernel",
    "C102_number_of_limiters",
    "C102_options_partial",
    "C102_python_options_partial",
    "C102_options_refuted"
   ],
   "note": "False: with Fortran kernels order, splitting code, capacity component and limiters are fixed at the first step (witness, with a mixture of old and new options). Complete description in C102_what_reaches_the_kernel; proved when nothing has changed since the first step, and with Python kernels when the limiters have not."
  },
  {
   "property": "C103",
   "status": "partial",
   "theorems": [
    "C103_python",
    "C103_problem_data_partial",
    "C103_last_set_up",
    "C103_problem_data_refuted",
    "C103_two_solvers_refuted"
   ],
   "note": "Proved with Python kernels. With Fortran kernels the values are those of the last set-up with the same Riemann solver module (C103_last_set_up), so it is false after an assignment and with two solvers (witnesses) and proved when all solutions stepped with that module agree."
  },
  {
   "property": "C104",
   "status": "partial",
   "theorems": [
    "C104_all_states",
    "C104_one_state",
    "C104_reads_partial",
    "C104_assigned_stays",
    "C104_assigned_q_refuted"
   ],
   "note": "Proved for t, mp and mF. Reading is right as long as nothing else is assigned through the solution; an assignment to solution.q hides the states from then on (C104_assigned_stays, witness)."
  },
  {
   "property": "C105",
   "status": "partial",
   "theorems": [
    "C105_one_patch_partial",
    "C105_other_patches",
    "C105_all_patches_refuted"
   ],
   "note": "Proved for one patch. With several, all get the new time but only the first is advanced (C105_other_patches, witness)."
  },
  {
   "property": "C106",
   "status": "proved",
   "theorems": [
    "C106_round_trip",
    "C106_other_frames",
    "C106_same_index"
   ],
   "note": ""
  },
  {
   "property": "C107",
   "status": "partial",
   "theorems": [
    "C107_order_partial",
    "C107_order_refuted",
    "C106_round_trip"
   ],
   "note": "False: groups are read in the order of their names, so patches 2, 10 come back as 10, 2 (witness). Proved when the names are in order; the result is always in name order."
  },
  {
   "property": "C108",
   "status": "partial",
   "theorems": [
    "C108_no_prefix_partial",
    "C108_defaults_differ",
    "C108_default_names_refuted"
   ],
   "note": "False: Solution.write leaves the prefix to hdf5.write ('claw'), Solution.read has its own default 'fort'; C108_defaults_differ shows that no frame written so is ever seen. Proved when read with file_prefix=None."
  },
  {
   "property": "C109",
   "status": "partial",
   "theorems": [
    "C109_aux_partial",
    "C109_aux_refuted"
   ],
   "note": "False: an auxiliary array that was not stored comes back with the contents of np.empty (witness). Exact description of what comes back in C109_aux_partial."
  },
  {
   "property": "C110",
   "status": "partial",
   "theorems": [
    "C110_formats_partial",
    "C110_same_module",
    "C110_formats_refuted",
    "C110_which"
   ],
   "note": "False: netcdf, claw_vtk and vtk can be written only, hdf, binary* and petsc read only. Exact characterisation of the formats that work both ways; these use the same module."
  },
  {
   "property": "C111",
   "status": "proved",
   "theorems": [
    "C111_reconstruction",
    "C111_stencils_exist",
    "C111_well_defined",
    "C111_local",
    "C111_other_orders",
    "C111_convex",
    "C111_exact",
    "C111_mirror"
   ],
   "note": "Decimal literals of weno.f90 are taken as the fractions they abbreviate (DESIGN.md). Characteristic-wise variants are the subject of C84."
  },
  {
   "property": "C112",
   "status": "proved",
   "theorems": [
    "C112_periodic_conservation"
   ],
   "note": ""
  },
  {
   "property": "C113",
   "status": "proved",
   "theorems": [
    "C113_round_trip"
   ],
   "note": "PETSc by its contract (DESIGN.md). Reading aux that was not written is the subject of C114."
  },
  {
   "property": "C114",
   "status": "partial",
   "theorems": [
    "C114_history_partial",
    "C114_stale_refuted",
    "C114_frame_0_refuted"
   ],
   "note": "False: the aux file of an older run is used (witness), and a solution without aux cannot be read with read_aux when frame 0 has an aux file (witness). Proved for histories that start without aux files of the prefix and whose auxiliary arrays do not depend on time."
  },
  {
   "property": "C115",
   "status": "proved",
   "theorems": [
    "C115_refuses"
   ],
   "note": ""
  },
  {
   "property": "C116",
   "status": "partial",
   "theorems": [
    "C116_interrupted_partial",
    "C116_rewritten_refuted",
    "C116_failed_write_refuted"
   ],
   "note": "False when a frame is written again: the metadata are replaced first, so that the new time comes back with the old values after an interruption or an unknown format (witnesses). Proved for new frames and every point of interruption."
  },
  {
   "property": "C117",
   "status": "partial",
   "theorems": [
    "C117_others_partial",
    "C117_prefix_refuted"
   ],
   "note": "False for prefixes that differ by '_aux' (witness). Proved for other frame numbers below 10000 and other prefixes."
  },
  {
   "property": "C118",
   "status": "proved",
   "theorems": [
    "C118_round_trip"
   ],
   "note": "Formats %+.pe; the text of a coordinate is one that float() reads back as the same number."
  },
  {
   "property": "C119",
   "status": "partial",
   "theorems": [
    "C118_round_trip",
    "C119_every_gauge_refuted",
    "C119_only_valid",
    "C119_not_valid",
    "C119_one_dimension",
    "C119_more_dimensions",
    "C119_lagrangian"
   ],
   "note": "False in one and three dimensions, for Lagrangian gauges and without observations (witnesses; the first three also for all such gauges). Proved for the others: C118."
  },
  {
   "property": "C120",
   "status": "partial",
   "theorems": [
    "C120_reading_replaces_partial",
    "C120_reading_replaces_refuted"
   ],
   "note": "False when the data file is missing, where a warning is all that tells, and for particle_path in one dimension (witnesses). Proved for all other attributes when read does not warn."
  },
  {
   "property": "C121",
   "status": "proved",
   "theorems": [
    "C121_keywords",
    "C121_plotting"
   ],
   "note": ""
  },
  {
   "property": "C122",
   "status": "partial",
   "theorems": [
    "C122_passed_on_partial",
    "C122_petsc",
    "C122_dropped",
    "C122_passed_on_refuted"
   ],
   "note": "False: arguments with more than one equals sign, or starting with one, change nothing (C122_dropped, witness). Proved for the others."
  },
  {
   "property": "C123",
   "status": "partial",
   "theorems": [
    "C123_covered_cells_are_marked",
    "C123_marks_partial",
    "C123_marks_refuted"
   ],
   "note": "False when a patch of the next level begins before a patch in a direction and also ends before its end: the first index is clamped to 0 but the width is kept (witness with two coarse patches side by side). Every covered cell is marked; exact when that does not happen."
  },
  {
   "property": "C124",
   "status": "partial",
   "theorems": [
    "C124_one_more_component",
    "C124_always_changed",
    "C124_second_write",
    "C124_unchanged_refuted"
   ],
   "note": "False for every solution: each write appends the marks to q as one more component. Patches and other components are unchanged."
  },
  {
   "property": "C125",
   "status": "partial",
   "theorems": [
    "C125_datasets_partial",
    "C125_no_gaps",
    "C125_datasets_refuted"
   ],
   "note": "False when levels first occur in another order than 1 .. n (witness: the coarse patch is written at the fine level). Proved when they occur in this order; levels with a gap raise."
  },
  {
   "property": "C126",
   "status": "partial",
   "theorems": [
    "C126_same_patches_partial",
    "C126_same_patches_refuted"
   ],
   "note": "False for small domains: lower ends and cell widths are compared with an absolute tolerance of 1e-8 (witness with two disjoint domains of width 1e-9). Proved up to that tolerance and nine printed digits, with what comes back for each patch."
  },
  {
   "property": "C127",
   "status": "partial",
   "theorems": [
    "C127_given_format_partial",
    "C127_header_wins",
    "C127_given_format_refuted",
    "C127_petclaw_formats"
   ],
   "note": "False when a header file of the same prefix names another format: it replaces the format that was asked for (witness: a frame written as ASCII and HDF5). Proved without such a header, with what happens otherwise."
  },
  {
   "property": "C128",
   "status": "partial",
   "theorems": [
    "C128_options_partial",
    "C128_reads",
    "C128_options_refuted",
    "C128_petsc_format_refuted",
    "C128_hdf5_keywords"
   ],
   "note": "False for dictionaries that were also given to Solution.read, which puts the key 'format' into them: HDF5 output then raises, PETSc output changes its format. Proved for all histories in which the dictionary is not given to read; reads do not depend on the dictionary, and the format of PETSc frames cannot be given."
  },
  {
   "property": "C129",
   "status": "partial",
   "theorems": [
    "C129_all_formats",
    "C129_same_components_partial",
    "C129_same_components_refuted",
    "C129_components_after"
   ],
   "note": "False when VTK comes before another format, which then gets the overlap marks as a component. Proved: the formats and their order for every list; the components when VTK comes last."
  },
  {
   "property": "C130",
   "status": "proved",
   "theorems": [
    "C130_corner_transport"
   ],
   "note": ""
  },
  {
   "property": "C131",
   "status": "proved",
   "theorems": [
    "C131_axes_exchanged"
   ],
   "note": "For the standard boundary conditions; user-defined ones are functions of the axis."
  },
  {
   "property": "C132",
   "status": "partial",
   "theorems": [
    "C132_sweeps_reversed_partial",
    "C132_split_order_refuted"
   ],
   "note": "False: sweeps are always along x first (witness: Burgers' equation on 2 x 2 cells). Proved: the exchanged problem gives what the sweeps in the other order give."
  },
  {
   "property": "C133",
   "status": "proved",
   "theorems": [
    "C133_binary_observations"
   ],
   "note": "np.fromfile is an argument that decodes the bytes. Particles need three fields."
  },
  {
   "property": "C134",
   "status": "partial",
   "theorems": [
    "C134_cut_off_partial",
    "C134_cut_off_refuted"
   ],
   "note": "False for files that end after a whole record (witness). Proved: refused, with the data kept, exactly if the number of values is not a multiple of the length of a record."
  },
  {
   "property": "C135",
   "status": "partial",
   "theorems": [
    "C135_ascii_partial",
    "C135_hdf_partial",
    "C135_hdf_other_number",
    "C135_ascii_refuted",
    "C135_ascii_short_refuted",
    "C135_hdf_refuted"
   ],
   "note": "False when there are more or fewer derived quantities than components, as the number of components is stored: ASCII drops quantities or merges cells, HDF5 raises (witnesses, for HDF5 for all). Proved for equal numbers."
  },
  {
   "property": "C136",
   "status": "partial",
   "theorems": [
    "C40_ascii_round_trip",
    "C106_round_trip",
    "C136_ascii_appends",
    "C136_hdf_appends",
    "C136_read_twice_refuted"
   ],
   "note": "False: the states that are read are appended (witness: a frame read twice). Proved for a solution without states (C40, C106), and in general what comes out."
  },
  {
   "property": "C137",
   "status": "proved",
   "theorems": [
    "C137_ascii",
    "C137_binary",
    "C137_hdf"
   ],
   "note": "ASCII and binary frames for a solution without states; HDF5 frames for any."
  },
  {
   "property": "C138",
   "status": "partial",
   "theorems": [
    "C138_files",
    "C138_crash_partial",
    "C138_number_missing_in_q",
    "C138_number_missing_in_aux",
    "C138_wrong_value_refuted",
    "C138_data_missing_refuted"
   ],
   "note": "False in the last number of a file, which may be read with a wrong value, and for crashes between files, after which auxiliary arrays or problem data are missing without a message (witnesses). Proved for every crash point: what is read is the frame but for the last entry of the last array and these, and a crash that loses a whole number is refused."
  },
  {
   "property": "C139",
   "status": "proved",
   "theorems": [
    "C139_moved_origin",
    "C139_same_program"
   ],
   "note": "Limiters 0-16 (Python) or 0-5 (Fortran); the Riemann solver is a function of the values of its arguments."
  },
  {
   "property": "C140",
   "status": "partial",
   "theorems": [
    "C140_mirrored_partial",
    "C140_standing_fwaves_refuted",
    "C140_courant_number_refuted"
   ],
   "note": "False for Fortran steps with f-waves of speed zero (their sign is taken as plus) and for Python Courant numbers where the ghost cells of q and aux are filled differently (one interface more is seen on the left); witnesses. Proved without these."
  },
  {
   "property": "C141",
   "status": "proved",
   "theorems": [
    "C141_symmetry_kept"
   ],
   "note": ""
  },
  {
   "property": "C142",
   "status": "partial",
   "theorems": [
    "C142_units_partial",
    "C142_fixed_steps_refuted",
    "C142_components_refuted"
   ],
   "note": "False for fixed steps, as the length of a run is compared with an absolute tolerance, and for limited systems whose components have different units, as limiters take scalar products over the components (witnesses). Proved for variable steps with one unit for all components, or any units without limiters."
  },
  {
   "property": "C143",
   "status": "proved",
   "theorems": [
    "C143_classic",
    "C143_sharpclaw"
   ],
   "note": "The contents of the file during whose writing the program is killed are arbitrary. HDF5 files by the contract of h5py."
  },
  {
   "property": "C144",
   "status": "partial",
   "theorems": [
    "C144_numbering_partial",
    "C143_classic",
    "C144_numbering_refuted",
    "C144_variable_refuted",
    "C144_functionals_refuted"
   ],
   "note": "False: frames are numbered from 0 again (and replace the old ones) unless count_from_zero=False is given with a positional frame number; with variable steps the second program starts with the initial step; the file of functionals is begun again (witnesses). Proved: what keeps the number; C143 for fixed steps."
  },
  {
   "property": "C145",
   "status": "proved",
   "theorems": [
    "C145_corner_transport_3d"
   ],
   "note": "For the combinations of order and transverse_waves that flux3 describes; first order with corrections reads leftovers (C96)."
  },
  {
   "property": "C146",
   "status": "proved",
   "theorems": [
    "C146_axes_reordered"
   ],
   "note": "For the standard boundary conditions; user-defined ones are functions of the axis."
  },
  {
   "property": "C147",
   "status": "proved",
   "theorems": [
    "C147_serial_steps",
    "C147_step_2d",
    "C147_step_3d",
    "C147_run_2d",
    "C147_run_3d"
   ],
   "note": "By PETSc's contract (ghost cells are the owner's values). In three dimensions for the combinations of order and transverse_waves that flux3 describes; first order with corrections reads leftovers (C96)."
  },
  {
   "property": "C148",
   "status": "partial",
   "theorems": [
    "C148_split_cells_partial",
    "C148_courant_number_refuted",
    "C148_limited_3d_refuted"
   ],
   "note": "False for the Courant number, as the second sweep visits ghost columns that another process has already updated, and for the cells in three dimensions with limiters (witnesses). Proved: the cells in two dimensions, and in three without limiters."
  },
  {
   "property": "C149",
   "status": "proved",
   "theorems": [
    "C149_same_file",
    "C149_compression",
    "C149_round_trip",
    "C149_serial_frames"
   ],
   "note": "By the contracts of parallel h5py and PETSc: datasets are created once, each process stores its part, every cell belongs to a process. Files left by a failing write are not modelled."
  },
  {
   "property": "C150",
   "status": "proved",
   "theorems": [
    "C150_dq",
    "C150_courant",
    "C150_run",
    "C150_evaluations",
    "C150_local_reconstructions",
    "C150_failure"
   ],
   "note": "By PETSc's contract. The reconstruction may be any function of the num_ghost cells around an interface; five routines are shown to be. With a capacity function the Fortran kernel reads dtdx outside its array (C81): dq still agrees (C150_dq)."
  },
  {
   "property": "C151",
   "status": "partial",
   "theorems": [
    "C151_python_dq_partial",
    "C150_dq",
    "C151_python_courant_refuted",
    "C151_tvd_wave_refuted"
   ],
   "note": "False: the Python kernel's Courant number includes an interface outside the grid whose edge values are not reconstructed, and the wave-based TVD routine leaves the last interface of every grid without slopes (witnesses). Proved: dq of the Python kernel, and C150."
  },
  {
   "property": "C152",
   "status": "proved",
   "theorems": [
    "C152_step",
    "C152_run"
   ],
   "note": "For runs without functionals (compute_p, compute_F). With limiters it is false (C152_limiters shows a step)."
  },
  {
   "property": "C153",
   "status": "proved",
   "theorems": [
    "C153_order_step",
    "C153_distance_step",
    "C153_order",
    "C153_distance"
   ],
   "note": "Without source terms and before_step; two runs with variable steps may take different steps, so runs are with fixed steps."
  },
  {
   "property": "C154",
   "status": "proved",
   "theorems": [
    "C154_step",
    "C154_reach"
   ],
   "note": "Without source terms and before_step (a step whose Courant number equals cfl_max skips the source, so there a distant cell has an effect); fixed steps, as variable steps follow the Courant number of the whole domain."
  },
  {
   "property": "C155",
   "status": "partial",
   "theorems": [
    "C155_one_observation",
    "C155_first_gauge_partial",
    "C155_all_gauges_refuted"
   ],
   "note": "False: the check after the first file calls compare_gauges with a path where it expects two, so every call raises after one gauge (C155_all_gauges_refuted). Proved: that gauge's file is right and no other file is touched; a file with one observation is refused and nothing is written (C155_one_observation)."
  },
  {
   "property": "C156",
   "status": "partial",
   "theorems": [
    "C156_accepted",
    "C156_small_values_partial",
    "C156_any_values_refuted"
   ],
   "note": "False for values from 100: sixteen digits are less accurate than the absolute tolerance 1e-14 (witness: the double after 100). Proved: acceptance implies agreement, and values below 100 are accepted."
  },
  {
   "property": "C157",
   "status": "partial",
   "theorems": [
    "C157_same_process_partial",
    "C157_no_format_line_partial",
    "C157_other_process",
    "C157_new_process_refuted"
   ],
   "note": "False across processes: fort.t says ascii, which wins over the argument, and a process that has not used the format reads with the ordinary header reader (C157_new_process_refuted; C157_other_process: every frame whose first block is 0 raises). Proved: the round trip within the process, and in any process for files without a format line."
  },
  {
   "property": "C158",
   "status": "partial",
   "theorems": [
    "C158_without_forest_partial",
    "C158_write_after",
    "C158_read_after",
    "C158_after_forest_refuted"
   ],
   "note": "False: the first use of the ForestClaw format replaces the header functions of the ordinary format for good, so afterwards every write of ordinary patches and every read of an ordinary frame raises (C158_write_after, C158_read_after, witness C158_after_forest_refuted). Proved for every history that does not use that format."
  },
  {
   "property": "C159",
   "status": "partial",
   "theorems": [
    "C159_lists_partial",
    "C159_bare_raises",
    "C159_pair_unusable",
    "C159_documented_refuted"
   ],
   "note": "False for a Patch or Dimension alone: the constructor assigns to a tuple and raises TypeError (C159_bare_raises, C159_documented_refuted). Proved for a Domain and for lists of patches or dimensions. The undocumented pair [num_eqn, num_aux], which the code has a branch for, gives a Solution without usable state (C159_pair_unusable)."
  },
  {
   "property": "C160",
   "status": "partial",
   "theorems": [
    "C160_covered_partial",
    "C160_one_state",
    "C160_any_state_refuted"
   ],
   "note": "False for a number of equations with several patches, where only the first gets a state (C160_one_state), and for states on other patches, which are accepted (C160_any_state_refuted). Proved for one patch, and for lists of states on the patches of the domain."
  },
  {
   "property": "C161",
   "status": "partial",
   "theorems": [
    "C161_box_partial",
    "C161_too_long",
    "C161_lost_dimension_refuted"
   ],
   "note": "Proved for three sequences of one length up to three, including that boxes that make no sense are refused. False beyond: surplus entries and dimensions are dropped without an error (C161_too_long, C161_lost_dimension_refuted)."
  },
  {
   "property": "C162",
   "status": "partial",
   "theorems": [
    "C162_with_ghost",
    "C162_center_partial",
    "C162_center_refuted",
    "C162_cell_refused_refuted"
   ],
   "note": "The arrays with ghost cells are proved right for every grid. c_center is right only where numpy takes a list of indices for a tuple (before 1.23); since then it gives an array of planes or an IndexError (C162_center_refuted, C162_cell_refused_refuted)."
  },
  {
   "property": "C163",
   "status": "proved",
   "theorems": [
    "C163_width_times_capacity",
    "C163_constant_capacity"
   ],
   "note": "Conditions: 2 or more ghost cells, positive width times capacity, limiters that are functions of the ratio (1 to 16 in Python, 1 to 5 in Fortran), a Riemann solver that gives equal answers for equal states, standard boundary conditions, and auxiliary arrays that agree in all components the Riemann solver sees."
  },
  {
   "property": "C164",
   "status": "partial",
   "theorems": [
    "C164_same_state_partial",
    "C164_no_assignment",
    "C164_late_aux",
    "C164_entries",
    "C164_same_state_refuted",
    "C164_shape_refuted"
   ],
   "note": "Proved for proper use (PStateSpec.use): values set before they are read, arrays of the right shape, p and F created by mp and mF, F written to but not assigned, ghost cells asked for as set up. False otherwise: F cannot be assigned at all because its setter is called fset, p only after mp, and reading mp raises where the serial State gives 0 (C164_no_assignment, C164_same_state_refuted); an aux array assigned for the first time after the ghost cells were set up cannot be used (C164_late_aux); an array of another shape with as many entries is taken and its entries are rearranged (C164_shape_refuted)."
  },
  {
   "property": "C165",
   "status": "partial",
   "theorems": [
    "C165_totals_partial",
    "C165_absolute",
    "C165_signed_refuted"
   ],
   "note": "False for densities that change their sign: sums of absolute values are written (C165_absolute, C165_signed_refuted). Proved for densities that are nowhere negative, and that serial and parallel programs write the same for every distribution of the cells."
  },
  {
   "property": "C166",
   "status": "proved",
   "theorems": [
    "C166_step",
    "C166_run"
   ],
   "note": "Conditions: 2 or more ghost cells, a positive capacity function, a Riemann solver that is a function of the values of its arguments. Numbers are exact: in floating point the balance has to hold exactly for the data to stay."
  },
  {
   "property": "C167",
   "status": "partial",
   "theorems": [
    "C167_rhs",
    "C167_run_partial",
    "C167_lmm_run",
    "C167_ssplmm_partial",
    "C167_ssplmm_run",
    "C167_componentwise_refuted"
   ],
   "note": "Proved for the reconstructions that start from the waves (first order and wave-based WENO in Python; wave-based TVD and, for f-waves with nonzero speeds, WENO in Fortran) and for all Runge-Kutta integrators and all multistep integrators (SSP ones with automatic steps, in runs whose accepted steps are positive; without a capacity function). False for the default, entry-wise reconstruction (C167_componentwise_refuted). Missing: runs of SSPLMMk3 with check_lmm_cond."
  },
  {
   "property": "C168",
   "status": "proved",
   "theorems": [
    "C168_rhs",
    "C168_tvd",
    "C168_runge_kutta",
    "C168_lmm_run",
    "C168_ssplmm_run"
   ],
   "note": "For every reconstruction that does not depend on the old workspace and returns the cell values where there are no waves; proved to hold for wave-based TVD. Runs of the SSP multistep methods: automatic steps, accepted steps positive, SSPLMMk3 without check_lmm_cond."
  },
  {
   "property": "C169",
   "status": "proved",
   "theorems": [
    "C169_split_step",
    "C169_split_run",
    "C169_run_exists"
   ],
   "note": "For the dimensionally split solver; C170 and C171 cover the unsplit ones."
  },
  {
   "property": "C170",
   "status": "proved",
   "theorems": [
    "C170_unsplit_step",
    "C170_unsplit_run",
    "C170_run_exists"
   ],
   "note": "In two dimensions; transverse solvers return zero for a zero fluctuation."
  },
  {
   "property": "C171",
   "status": "partial",
   "theorems": [
    "C171_unsplit3_step_partial",
    "C171_unsplit3_run_partial",
    "C171_run_exists",
    "C171_first_order_refuted"
   ],
   "note": "Proved for all combinations of order and transverse_waves that flux3 describes. False for first order with transverse_waves = trans_cor, the default: even zero data change when the work arrays are not clean (C171_first_order_refuted)."
  }
 ]
}