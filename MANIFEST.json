{
 "claims": [
  {
   "property": "C01",
   "status": "proved",
   "theorems": [
    "C01_linearisation_reproduces_equation"
   ],
   "note": "All expressions of the modelled grammar; exact reals. trig_ok is the stated restriction (no unknown inside sin/cos)."
  },
  {
   "property": "C02",
   "status": "proved",
   "theorems": [
    "C02_coefficient_is_partial_derivative",
    "C02_no_foreign_entry"
   ],
   "note": "Holds even without the trig restriction."
  },
  {
   "property": "C03",
   "status": "proved",
   "theorems": [
    "C03_trig_of_unknown_refuted"
   ],
   "note": "The property is the counterexample itself."
  },
  {
   "property": "C04",
   "status": "proved",
   "theorems": [
    "C04_linear_entry_constant",
    "C04_nonlinear_entry_mentions_unknown"
   ],
   "note": ""
  },
  {
   "property": "C05",
   "status": "proved",
   "theorems": [
    "C05_two_terminal_rows",
    "C05_ends_cancel"
   ],
   "note": ""
  },
  {
   "property": "C06",
   "status": "proved",
   "theorems": [
    "C06_accepted_iff_declared",
    "C06_imaginary_from_unchecked"
   ],
   "note": "Exact acceptance condition plus the accepted counterexample."
  },
  {
   "property": "C07",
   "status": "proved",
   "theorems": [
    "C07_batched_equals_per_element",
    "C07_segments",
    "C07_residuals_before_stamps"
   ],
   "note": "For every sequence of stamp_linear/stamp_nonlinear/calc_residuals calls; C07_segments discharges the preconditions for collections built from segments. Elements with equations but no stamps are excluded (stamps_present), see DESIGN.md."
  },
  {
   "property": "C08",
   "status": "proved",
   "theorems": [
    "C08_element_contributions",
    "C08_ground_is_zero"
   ],
   "note": ""
  },
  {
   "property": "C09",
   "status": "proved",
   "theorems": [
    "C09_reads_report_entries_in_use",
    "C09_matrix_is_entries_in_use",
    "C09_never_raises"
   ],
   "note": ""
  },
  {
   "property": "C10",
   "status": "proved",
   "theorems": [
    "C10_exact_surplus",
    "C10_correct_iff_surplus_cancels",
    "C10_stale_entries_refuted"
   ],
   "note": "The property is the failure and its exact description."
  },
  {
   "property": "C100",
   "status": "proved",
   "theorems": [
    "C100_fractions_ignored"
   ],
   "note": ""
  },
  {
   "property": "C101",
   "status": "proved",
   "theorems": [
    "C101_delta_between_phases"
   ],
   "note": ""
  },
  {
   "property": "C102",
   "status": "proved",
   "theorems": [
    "C102_objects_kept"
   ],
   "note": ""
  },
  {
   "property": "C103",
   "status": "proved",
   "theorems": [
    "C103_kron"
   ],
   "note": "np.linalg.inv is a parameter; the theorem needs only that its answer is a left inverse."
  },
  {
   "property": "C104",
   "status": "proved",
   "theorems": [
    "C104_overhead",
    "C104_symmetric",
    "C104_neutral_without_wire",
    "C104_phases"
   ],
   "note": ""
  },
  {
   "property": "C105",
   "status": "proved",
   "theorems": [
    "C105_triplex",
    "C105_neutral_without_wire",
    "C105_phases"
   ],
   "note": ""
  },
  {
   "property": "C106",
   "status": "proved",
   "theorems": [
    "C106_table",
    "C106_by_position",
    "C106_matching",
    "C106_wrong_distance_refuted"
   ],
   "note": ""
  },
  {
   "property": "C107",
   "status": "proved",
   "theorems": [
    "C107_never_read",
    "C107_fails",
    "C107_zero"
   ],
   "note": "Finding: directly given impedances are ignored. np.linalg.inv is a parameter; C107_fails assumes it rejects the zero matrix."
  },
  {
   "property": "C108",
   "status": "proved",
   "theorems": [
    "C108_length"
   ],
   "note": ""
  },
  {
   "property": "C109",
   "status": "proved",
   "theorems": [
    "C109_later_use",
    "C109_units_once_refuted"
   ],
   "note": "Finding: identical lines get different impedances."
  },
  {
   "property": "C11",
   "status": "proved",
   "theorems": [
    "C11_debug_never_stale",
    "C11_debug_raises_iff_leftover"
   ],
   "note": ""
  },
  {
   "property": "C110",
   "status": "proved",
   "theorems": [
    "C110_overhead"
   ],
   "note": ""
  },
  {
   "property": "C111",
   "status": "proved",
   "theorems": [
    "C111_triplex"
   ],
   "note": ""
  },
  {
   "property": "C112",
   "status": "proved",
   "theorems": [
    "C112_inherits"
   ],
   "note": "Finding: stale local variable."
  },
  {
   "property": "C113",
   "status": "proved",
   "theorems": [
    "C113_transformer",
    "C113_tap_coils_refuted"
   ],
   "note": "Finding: the third coil of a center tap ignores kV."
  },
  {
   "property": "C114",
   "status": "proved",
   "theorems": [
    "C114_regulator"
   ],
   "note": ""
  },
  {
   "property": "C115",
   "status": "proved",
   "theorems": [
    "C115_voltage",
    "C115_own_voltage_refuted"
   ],
   "note": "Finding: children overwrite the nominal voltage of their parent, also with nothing."
  },
  {
   "property": "C116",
   "status": "proved",
   "theorems": [
    "C116_fit"
   ],
   "note": ""
  },
  {
   "property": "C117",
   "status": "proved",
   "theorems": [
    "C117_fuses"
   ],
   "note": "Finding: fuse states of the file are ignored."
  },
  {
   "property": "C118",
   "status": "proved",
   "theorems": [
    "C118_switches"
   ],
   "note": ""
  },
  {
   "property": "C119",
   "status": "proved",
   "theorems": [
    "C119_regulators"
   ],
   "note": ""
  },
  {
   "property": "C12",
   "status": "proved",
   "theorems": [
    "C12_residual_details_correct",
    "C12_residual_details_defined"
   ],
   "note": ""
  },
  {
   "property": "C120",
   "status": "proved",
   "theorems": [
    "C120_transformers"
   ],
   "note": ""
  },
  {
   "property": "C121",
   "status": "proved",
   "theorems": [
    "C121_kilovolts"
   ],
   "note": "Finding, the effect of C113 on the network."
  },
  {
   "property": "C122",
   "status": "proved",
   "theorems": [
    "C122_loads"
   ],
   "note": ""
  },
  {
   "property": "C123",
   "status": "proved",
   "theorems": [
    "C123_capacitors"
   ],
   "note": ""
  },
  {
   "property": "C124",
   "status": "proved",
   "theorems": [
    "C124_lines"
   ],
   "note": "Impedances of underground lines are not covered."
  },
  {
   "property": "C125",
   "status": "proved",
   "theorems": [
    "C125_buses",
    "C125_kinds",
    "C125_differ"
   ],
   "note": ""
  },
  {
   "property": "C126",
   "status": "proved",
   "theorems": [
    "C126_sources"
   ],
   "note": ""
  },
  {
   "property": "C127",
   "status": "proved",
   "theorems": [
    "C127_fields_read",
    "C127_fields_trimmed"
   ],
   "note": ""
  },
  {
   "property": "C128",
   "status": "proved",
   "theorems": [
    "C128_bus",
    "C128_load",
    "C128_fixed_shunt",
    "C128_generator",
    "C128_short_generator",
    "C128_branch",
    "C128_switched_shunt"
   ],
   "note": ""
  },
  {
   "property": "C129",
   "status": "proved",
   "theorems": [
    "C129_two_windings",
    "C129_three_windings"
   ],
   "note": ""
  },
  {
   "property": "C13",
   "status": "proved",
   "theorems": [
    "C13_residual_is_Yv_minus_J"
   ],
   "note": "Also shows that the vector handed to the residual call is ignored in favour of the one the stamps were made at."
  },
  {
   "property": "C130",
   "status": "proved",
   "theorems": [
    "C130_file_read"
   ],
   "note": ""
  },
  {
   "property": "C131",
   "status": "proved",
   "theorems": [
    "C131_order_irrelevant"
   ],
   "note": ""
  },
  {
   "property": "C132",
   "status": "proved",
   "theorems": [
    "C132_longer_file"
   ],
   "note": ""
  },
  {
   "property": "C133",
   "status": "proved",
   "theorems": [
    "C133_network",
    "C133_bus_numbers",
    "C133_slack_buses"
   ],
   "note": "Buses numbered -1 are excluded, as in C74."
  },
  {
   "property": "C134",
   "status": "proved",
   "theorems": [
    "C134_refused",
    "C134_dropped"
   ],
   "note": "Finding."
  },
  {
   "property": "C135",
   "status": "proved",
   "theorems": [
    "C135_shunt",
    "C135_accepted",
    "C135_capacitive"
   ],
   "note": "Tape-shielded cables are not modelled: the reader never sets the attribute asked for."
  },
  {
   "property": "C136",
   "status": "proved",
   "theorems": [
    "C136_cables",
    "C136_primitive"
   ],
   "note": "As in the code, the strand count of the last cable is used for all distances between a conductor and the neutral of another cable."
  },
  {
   "property": "C137",
   "status": "proved",
   "theorems": [
    "C137_charging",
    "C137_level_phases",
    "C137_phase_to_neutral",
    "C137_uneven_phases",
    "C137_neutral_to_phase",
    "C137_inches",
    "C137_no_diameter",
    "C137_no_heights"
   ],
   "note": "Findings: wrong images for unequal heights and for the neutral row, inches mixed with feet, missing heights read as one foot."
  },
  {
   "property": "C138",
   "status": "proved",
   "theorems": [
    "C138_underground",
    "C138_units_once_refuted"
   ],
   "note": "C138_units_once_refuted: the same line twice in a file gets different impedances."
  },
  {
   "property": "C139",
   "status": "proved",
   "theorems": [
    "C139_charging"
   ],
   "note": "The image distances are those of C137, with its findings."
  },
  {
   "property": "C14",
   "status": "proved",
   "theorems": [
    "C14_cache_crash_tolerant",
    "C14_answer_remembered",
    "C14_survives_restart",
    "C14_torn_write"
   ],
   "note": "File contents are complete or torn writes of this program; unpickling a torn file raises (assumption)."
  },
  {
   "property": "C140",
   "status": "proved",
   "theorems": [
    "C140_gridlab",
    "C140_raw",
    "C140_unknown",
    "C140_web",
    "C140_elsewhere",
    "C140_directory_refuted"
   ],
   "note": "C140_directory_refuted: the format is looked for in the whole path and is case sensitive."
  },
  {
   "property": "C141",
   "status": "proved",
   "theorems": [
    "C141_layout",
    "C141_text",
    "C141_network"
   ],
   "note": "Texts without schedules and nested objects; units as in C90-C97."
  },
  {
   "property": "C142",
   "status": "proved",
   "theorems": [
    "C142_rows",
    "C142_realised",
    "C142_sound",
    "C142_complete",
    "C142_within"
   ],
   "note": "Power flow equations (no infeasibility currents); uses the component laws behind C24-C41 for every element at once."
  },
  {
   "property": "C143",
   "status": "proved",
   "theorems": [
    "C143_builds",
    "C143_residuals",
    "C143_jacobian",
    "C143_success",
    "C143_start_accepted",
    "C143_physical_found",
    "C143_grounded_refuted"
   ],
   "note": "The conditions that C13-C25 ask of a list of stampers are proved for every network. C143_residuals and the circuit laws in C143_success are for power flow (no infeasibility currents)."
  },
  {
   "property": "C144",
   "status": "proved",
   "theorems": [
    "C144_islands",
    "C144_network",
    "C144_success",
    "C144_devices",
    "C144_work"
   ],
   "note": "The conditions: bus indexes are those of the network, fuses and capacitors are in their lists, inner buses are joined to nothing. The constructor of PowerFlowResults is Results.v (C49-C54, C66)."
  },
  {
   "property": "C145",
   "status": "proved",
   "theorems": [
    "C145_network",
    "C145_lines",
    "C145_lines_refuted",
    "C145_raw",
    "C145_start",
    "C145_places",
    "C145_inner",
    "C145_inner_raw",
    "C145_inner_refuted",
    "C145_apart"
   ],
   "note": "Findings: lines are not checked against the phases of their ends; inner bus names can capture nodes."
  },
  {
   "property": "C146",
   "status": "proved",
   "theorems": [
    "C146_success",
    "C146_raw_pieces",
    "C146_names_refuted",
    "C146_glm_pieces",
    "C146_glm_lines"
   ],
   "note": "The names of RAW buses are a parameter. C146_names_refuted: the island check goes by name, not by number."
  },
  {
   "property": "C147",
   "status": "proved",
   "theorems": [
    "C147_rows",
    "C147_sound",
    "C147_zero",
    "C147_complete",
    "C147_within",
    "C147_run"
   ],
   "note": "Infeasibility currents at all buses, as the code places them. That the rows of the circuit unknowns are the derivatives of the Lagrangian is C65; for the L1 form the currents of both signs carry a squared term, so both forms tie the current linearly to the multiplier."
  },
  {
   "property": "C148",
   "status": "proved",
   "theorems": [
    "C148_least",
    "C148_feasible",
    "C148_power_refuted",
    "C148_same"
   ],
   "note": "C148_power_refuted: with constant power a solution of the equations need not be a least one, even if no current is needed; the analysis can then report an infeasibility that is not there. Newton's choice among several solutions is not modelled beyond C143."
  },
  {
   "property": "C149",
   "status": "proved",
   "theorems": [
    "C149_schedules",
    "C149_bad_cron",
    "C149_own_brace",
    "C149_named_block",
    "C149_late_comment"
   ],
   "note": "croniter is the parameter hits. C149_own_brace, C149_named_block and C149_late_comment are findings: the exact, unwanted reading of three layouts that GridLAB-D allows."
  },
  {
   "property": "C15",
   "status": "proved",
   "theorems": [
    "C15_collision_returns_other_model"
   ],
   "note": "For every hash oracle with a collision; no concrete SHA-1 collision is exhibited."
  },
  {
   "property": "C150",
   "status": "proved",
   "theorems": [
    "C150_found",
    "C150_physical",
    "C150_execute",
    "C150_least"
   ],
   "note": "Exact arithmetic; debug mode and voltage limiting are excluded (limiting keeps Newton from taking the full step). That a solver as supposed exists is shown by elimination (gauss_regular in NewtonGauss.v), which the example runs. Convergence with constant power is not claimed (C16-C19 show that it can fail)."
  },
  {
   "property": "C151",
   "status": "proved",
   "theorems": [
    "C151_plain",
    "C151_power",
    "C151_success",
    "C151_linear"
   ],
   "note": "--select_island, printing and result files are left out of this composition. Power flows after the first (of a time series) are an oracle; what main makes of them is C52-C55, C67, C68. The negated loads by default are a finding (C49), here for the whole command."
  },
  {
   "property": "C152",
   "status": "proved",
   "theorems": [
    "C152_account",
    "C152_balance",
    "C152_losses",
    "C152_slack",
    "C152_solved",
    "C152_deficit",
    "C152_mismatch"
   ],
   "note": "The states are those of C142, which are the solutions of the assembled equations (C142, C147). What PowerFlowResults prints for generators and loads is C49-C54."
  },
  {
   "property": "C153",
   "status": "proved",
   "theorems": [
    "C153_voltages",
    "C153_powers",
    "C153_failed",
    "C153_files",
    "C153_series",
    "C153_numbers"
   ],
   "note": "Exact reals: no negative zero, infinity, nan. Directories, failing writes and path normalisation are left out. C153_commas is a finding. What the numbers themselves mean is C49-C54."
  },
  {
   "property": "C154",
   "status": "proved",
   "theorems": [
    "C154_plain",
    "C154_linear",
    "C154_series",
    "C154_broken"
   ],
   "note": "Names of RAW buses, the rating check of a snapshot and the later power flows of a series are oracles (names free of commas and line ends are supposed, see C153_commas). What the lines of slacks and generators mean is C50. C154_broken is a finding stated exactly. Runs whose adjustment loop does not end are excluded by the report supposed."
  },
  {
   "property": "C155",
   "status": "proved",
   "theorems": [
    "C155_rows",
    "C155_near",
    "C155_exact",
    "C155_column_refuted",
    "C155_file"
   ],
   "note": "C155_column_refuted is the finding: that the P column alone balances is false with a slack at an angle. The residual bound at the reported vector is a hypothesis of C155_near and C155_file (C17: the loop tests the residual of the vector before)."
  },
  {
   "property": "C156",
   "status": "proved",
   "theorems": [
    "C156_three",
    "C156_raw",
    "C156_single",
    "C156_raw_run",
    "C156_kept_raw",
    "C156_kept_three"
   ],
   "note": "The laws without magnetising branches: those are read but never stamped. In C156_raw_run the accepted vector is the one before the last step (C17), and voltages are not 0 where power is taken (hypothesis powered)."
  },
  {
   "property": "C157",
   "status": "proved",
   "theorems": [
    "C157_three",
    "C157_raw",
    "C157_exact",
    "C157_exact_raw"
   ],
   "note": "The copy of the file carries the defects found earlier: without --load_factor all loads change their sign (C151), and capacitors are switched in above their band (C29). The laws hold at the vector before the last step (C17); constant power loads must not sit at voltage 0 there (hypotheses lit, powered)."
  },
  {
   "property": "C158",
   "status": "proved",
   "theorems": [
    "C158_two",
    "C158_heights",
    "C158_file",
    "C158_file_heights"
   ],
   "note": "The refusal is a KeyError or a math domain error without a message naming the line. With three or more places nothing of this kind is checked (C106)."
  },
  {
   "property": "C159",
   "status": "proved",
   "theorems": [
    "C159_levels",
    "C159_accepted",
    "C159_three",
    "C159_one"
   ],
   "note": "Between 9.5 and 20 the answer depends on the order in which a set is visited (C47_order_dependent). Settings that have no effect are accepted silently."
  },
  {
   "property": "C16",
   "status": "proved",
   "theorems": [
    "C16_success_does_not_certify_refuted",
    "C16_witness_solver_is_exact"
   ],
   "note": "The property is the failure: for every tolerance a network with an exact linear solver and a success whose vector violates the tolerance."
  },
  {
   "property": "C160",
   "status": "proved",
   "theorems": [
    "C160_ignored",
    "C160_idle",
    "C160_no_hours"
   ],
   "note": "None of these options is refused and the user is told nothing except the text of the exception that was caught. --select_island is not part of the command model (C48 covers the selection)."
  },
  {
   "property": "C161",
   "status": "proved",
   "theorems": [
    "C161_selected",
    "C161_unknown",
    "C161_no_loads"
   ],
   "note": "Connects C48 to networks from files: its hypothesis on the network is proved of every parsed file instead of assumed. What stays of transformers, switches and regulators is in C48_island_selected."
  },
  {
   "property": "C162",
   "status": "proved",
   "theorems": [
    "C162_buses",
    "C162_currents",
    "C162_shortage_refuted"
   ],
   "note": "The command line uses the L2 analysis. C162_shortage_refuted is the witness that the report does not tell a shortage of current from a feasible network."
  },
  {
   "property": "C17",
   "status": "proved",
   "theorems": [
    "C17_success_certifies",
    "C17_one_newton_step_away"
   ],
   "note": ""
  },
  {
   "property": "C18",
   "status": "proved",
   "theorems": [
    "C18_bounded",
    "C18_early_failure"
   ],
   "note": ""
  },
  {
   "property": "C19",
   "status": "proved",
   "theorems": [
    "C19_converged_run_discarded",
    "C19_slope_is_least_squares"
   ],
   "note": "A genuine network run for every tolerance; np.linalg.lstsq is modelled by the closed form, proved to be the least squares slope."
  },
  {
   "property": "C20",
   "status": "proved",
   "theorems": [
    "C20_linear_two_iterations"
   ],
   "note": ""
  },
  {
   "property": "C21",
   "status": "proved",
   "theorems": [
    "C21_limiting_result",
    "C21_limiting_defined"
   ],
   "note": ""
  },
  {
   "property": "C22",
   "status": "proved",
   "theorems": [
    "C22_outside_band"
   ],
   "note": ""
  },
  {
   "property": "C23",
   "status": "proved",
   "theorems": [
    "C23_success",
    "C23_failure",
    "C23_at_most_102_runs",
    "C23_network_success",
    "C23_network_bounded"
   ],
   "note": ""
  },
  {
   "property": "C24",
   "status": "proved",
   "theorems": [
    "C24_negative_factor"
   ],
   "note": ""
  },
  {
   "property": "C25",
   "status": "proved",
   "theorems": [
    "C25_first_linearisation",
    "C25_next_run_linearised_at_old_start",
    "C25_next_run_ignores_start"
   ],
   "note": ""
  },
  {
   "property": "C26",
   "status": "proved",
   "theorems": [
    "C26_returned_result",
    "C26_settled_iff",
    "C26_at_most_ten",
    "C26_gives_up_iff",
    "C26_no_control_single_run"
   ],
   "note": "For every power flow (homotopy controller) and every vector reader."
  },
  {
   "property": "C27",
   "status": "proved",
   "theorems": [
    "C27_blows_iff_over_limit",
    "C27_stays_blown",
    "C27_history",
    "C27_no_result_after_blowing"
   ],
   "note": ""
  },
  {
   "property": "C28",
   "status": "proved",
   "theorems": [
    "C28_tap_in_range_and_ratio",
    "C28_change_and_report",
    "C28_raises_iff"
   ],
   "note": ""
  },
  {
   "property": "C29",
   "status": "proved",
   "theorems": [
    "C29_wrong_direction",
    "C29_lifetime"
   ],
   "note": "The property is the failure: the switch moves the wrong way at every voltage outside the band."
  },
  {
   "property": "C30",
   "status": "proved",
   "theorems": [
    "C30_load_currents"
   ],
   "note": "The same theorem covers the current and impedance parts (C31)."
  },
  {
   "property": "C31",
   "status": "proved",
   "theorems": [
    "C30_load_currents",
    "C31_impedance_power",
    "C31_empty_load"
   ],
   "note": "The impedance part is scaled by 1 - homotopy factor."
  },
  {
   "property": "C32",
   "status": "proved",
   "theorems": [
    "C32_pi_model",
    "C32_absorbs",
    "C32_rejected_iff"
   ],
   "note": "r = x = 0 raises in the constructor."
  },
  {
   "property": "C33",
   "status": "proved",
   "theorems": [
    "C33_transformer"
   ],
   "note": "The magnetising shunt built by the code is never stamped and therefore does not appear."
  },
  {
   "property": "C34",
   "status": "proved",
   "theorems": [
    "C34_center_tap_rows",
    "C34_windings",
    "C34_lossless"
   ],
   "note": ""
  },
  {
   "property": "C35",
   "status": "proved",
   "theorems": [
    "C35_line",
    "C35_transformer",
    "C35_center_tap",
    "C35_shunts_vanish",
    "C35_others_unchanged"
   ],
   "note": "For every factor and every row, not only the end points."
  },
  {
   "property": "C36",
   "status": "proved",
   "theorems": [
    "C36_rows",
    "C36_series_cancels"
   ],
   "note": "Phases of one line are assumed to have different buses (they key the stamper dictionary)."
  },
  {
   "property": "C37",
   "status": "proved",
   "theorems": [
    "C37_correct_iff_symmetric"
   ],
   "note": "For any homotopy factor other than 1."
  },
  {
   "property": "C38",
   "status": "proved",
   "theorems": [
    "C38_generator_current",
    "C38_generator_voltage",
    "C38_slack_voltage"
   ],
   "note": ""
  },
  {
   "property": "C39",
   "status": "proved",
   "theorems": [
    "C39_l2_minimal",
    "C39_feasible"
   ],
   "note": "Linear elements: lines, shunts, capacitors, current and impedance loads, slacks, sources, switches, fuses, transformers, regulators, centre-tap transformers. Unbalanced lines write rows through a separate equation map (C37) and are not included."
  },
  {
   "property": "C40",
   "status": "proved",
   "theorems": [
    "C40_l1_is_quadratic",
    "C40_minimises_squares"
   ],
   "note": "The property is the failure of the intended L1 model; second theorem for networks of linear elements."
  },
  {
   "property": "C41",
   "status": "proved",
   "theorems": [
    "C41_source_rows",
    "C41_source_voltage",
    "C41_switch"
   ],
   "note": "Connections of an open switch are covered by the graph model."
  },
  {
   "property": "C42",
   "status": "proved",
   "theorems": [
    "C42_indexes_exactly",
    "C42_one_owner",
    "C42_names_apart",
    "C42_infeasibility_names_apart",
    "C42_bus_indexes",
    "C42_size",
    "C42_all_take_part",
    "C42_repeatable"
   ],
   "note": "All element kinds, both index orders, with and without infeasibility currents. L1 currents deliberately share indexes between unknown and multiplier, so names are apart within each kind only. Hypothesis: buses are distinct and all terminals are in the bus list."
  },
  {
   "property": "C43",
   "status": "proved",
   "theorems": [
    "C43_rows",
    "C43_columns",
    "C43_own_rows",
    "C43_isolated_bus"
   ],
   "note": "Bus rows: shown empty for an unconnected bus; for connected buses the rows written are those of the elements (C30-C38)."
  },
  {
   "property": "C44",
   "status": "proved",
   "theorems": [
    "C44_transmission",
    "C44_imaginary_multiplier",
    "C44_three_phase"
   ],
   "note": "Exact start vectors for both network kinds."
  },
  {
   "property": "C45",
   "status": "proved",
   "theorems": [
    "C45_one_island",
    "C45_members",
    "C45_refused",
    "C45_no_buses"
   ],
   "note": "Breadth first search written out and proved; hypothesis: every connection of a non-load element ends at ground or at a bus of the network."
  },
  {
   "property": "C46",
   "status": "proved",
   "theorems": [
    "C46_names_only",
    "C46_phase_unnoticed"
   ],
   "note": "General: the island lists depend on names only, and adding an unconnected bus with the name of an existing one never changes the verdict. Examples: accepted networks with an unconnected phase, and with two unconnected equal-named buses."
  },
  {
   "property": "C47",
   "status": "proved",
   "theorems": [
    "C47_region_bound",
    "C47_close_pass",
    "C47_order_dependent",
    "C47_other_phases"
   ],
   "note": "The iteration order of a set is a parameter (any permutation)."
  },
  {
   "property": "C48",
   "status": "proved",
   "theorems": [
    "C48_island_selected",
    "C48_unknown_name_fails",
    "C48_grounded_dropped"
   ],
   "note": "Hypothesis wf states what the three phase parser guarantees (distinct numbers, elements between proper buses or ground, virtual inner buses)."
  },
  {
   "property": "C49",
   "status": "proved",
   "theorems": [
    "C49_compose",
    "C49_totals",
    "C49_demand",
    "C49_scales_iff",
    "C49_default_negates",
    "C49_default_generates"
   ],
   "note": "Finding: run_solver.py without --load_factor negates all loads (default -1)."
  },
  {
   "property": "C50",
   "status": "proved",
   "theorems": [
    "C50_slack_iff",
    "C50_slack_angle_zero",
    "C50_generator_drawn",
    "C50_transformer_iff",
    "C50_center_tap",
    "C50_center_tap_primary"
   ],
   "note": "Exact conditions under which the reported powers are the complex powers."
  },
  {
   "property": "C51",
   "status": "proved",
   "theorems": [
    "C51_nonnegative",
    "C51_zero_iff",
    "C51_report_empty_iff",
    "C51_displayed",
    "C51_hides_any_size"
   ],
   "note": "L1 and L2 optimizations."
  },
  {
   "property": "C52",
   "status": "proved",
   "theorems": [
    "C52_magnitude_and_power_factor",
    "C52_last_positive_decides",
    "C52_zero_loses_power_factor",
    "C52_negative_reverses",
    "C52_columns"
   ],
   "note": ""
  },
  {
   "property": "C53",
   "status": "proved",
   "theorems": [
    "C53_exit",
    "C53_pass",
    "C53_missing_phase",
    "C53_can_loop_forever",
    "C53_unknown_swing_bus"
   ],
   "note": "The power flow is an arbitrary oracle; the while loop is cut off by fuel, and Looping for every fuel means it never ends."
  },
  {
   "property": "C54",
   "status": "proved",
   "theorems": [
    "C54_flag_iff",
    "C54_raises_iff",
    "C54_voltage_band",
    "C54_center_tap_rated",
    "C54_quadrature_unseen",
    "C54_any_overload_unseen"
   ],
   "note": "Exact characterisation of the flag and of the exceptions."
  },
  {
   "property": "C55",
   "status": "proved",
   "theorems": [
    "C55_alphabetic_names",
    "C55_numeric_names",
    "C55_shadowed_never_updated"
   ],
   "note": ""
  },
  {
   "property": "C56",
   "status": "proved",
   "theorems": [
    "C56_star_sums",
    "C56_star_ratios",
    "C56_never_accepted"
   ],
   "note": "Hypothesis: no bus numbered -1 (RAW bus numbers are positive)."
  },
  {
   "property": "C57",
   "status": "proved",
   "theorems": [
    "C57_silent_machines",
    "C57_second_machine_refused",
    "C57_second_machine_raises",
    "C57_machine_and_shunt_refused"
   ],
   "note": ""
  },
  {
   "property": "C58",
   "status": "proved",
   "theorems": [
    "C58_bounds",
    "C58_later_blocks_ignored"
   ],
   "note": "The example shows a reachable susceptance outside the limits."
  },
  {
   "property": "C59",
   "status": "proved",
   "theorems": [
    "C59_phase_list"
   ],
   "note": "With one phase the delta coil has both ends on the same phase (C59_one_phase)."
  },
  {
   "property": "C60",
   "status": "proved",
   "theorems": [
    "C60_merge_adds",
    "C60_merge_order_irrelevant"
   ],
   "note": ""
  },
  {
   "property": "C61",
   "status": "proved",
   "theorems": [
    "C61_matrix_is_jacobian",
    "C61_newton_step"
   ],
   "note": ""
  },
  {
   "property": "C62",
   "status": "proved",
   "theorems": [
    "C62_shunt",
    "C62_capacitor"
   ],
   "note": ""
  },
  {
   "property": "C63",
   "status": "proved",
   "theorems": [
    "C63_fuse_rows",
    "C63_regulator_rows",
    "C63_regulator_solved"
   ],
   "note": ""
  },
  {
   "property": "C64",
   "status": "proved",
   "theorems": [
    "C64_accepted",
    "C64_one_phase",
    "C64_true_inverse"
   ],
   "note": "inf and nan are one value that poisons sums and products."
  },
  {
   "property": "C65",
   "status": "proved",
   "theorems": [
    "C65_rows_are_gradient"
   ],
   "note": "For elements without a separate equation map (all but unbalanced lines, see C37)."
  },
  {
   "property": "C66",
   "status": "proved",
   "theorems": [
    "C66_line_current_iff",
    "C66_any_overload_unseen"
   ],
   "note": "Compared with the series current proved in C36 at homotopy factor 0."
  },
  {
   "property": "C67",
   "status": "proved",
   "theorems": [
    "C67_options_ignored",
    "C67_no_options",
    "C67_failed_hour_loses_series",
    "C67_missing_phase_reported"
   ],
   "note": ""
  },
  {
   "property": "C68",
   "status": "proved",
   "theorems": [
    "C68_hours",
    "C68_hours_independent"
   ],
   "note": ""
  },
  {
   "property": "C69",
   "status": "proved",
   "theorems": [
    "C69_units",
    "C69_magnetising"
   ],
   "note": "The magnetising admittance is computed but never stamped, see DESIGN.md."
  },
  {
   "property": "C70",
   "status": "proved",
   "theorems": [
    "C70_power",
    "C70_current_not_scaled",
    "C70_admittance_ignored"
   ],
   "note": ""
  },
  {
   "property": "C71",
   "status": "proved",
   "theorems": [
    "C71_shunts"
   ],
   "note": ""
  },
  {
   "property": "C72",
   "status": "proved",
   "theorems": [
    "C72_one_per_bus",
    "C72_power_base_100",
    "C72_mixed_bases"
   ],
   "note": "Finding: mixed bases."
  },
  {
   "property": "C73",
   "status": "proved",
   "theorems": [
    "C73_admittance",
    "C73_line_shunt_refused",
    "C73_zero_impedance_refused"
   ],
   "note": ""
  },
  {
   "property": "C74",
   "status": "proved",
   "theorems": [
    "C74_accepted_exactly",
    "C74_every_acceptable_case",
    "C74_one_network"
   ],
   "note": "Conditions and network are SpecRaw.raw_ok and SpecRaw.raw_net; the element of a two-winding record is described by C69."
  },
  {
   "property": "C75",
   "status": "proved",
   "theorems": [
    "C75_attached"
   ],
   "note": ""
  },
  {
   "property": "C76",
   "status": "proved",
   "theorems": [
    "C76_one_regulator_per_bus",
    "C76_two_sources_on_slack"
   ],
   "note": ""
  },
  {
   "property": "C77",
   "status": "proved",
   "theorems": [
    "C77_transformers"
   ],
   "note": ""
  },
  {
   "property": "C78",
   "status": "proved",
   "theorems": [
    "C78_shunt",
    "C78_shunt_wrong"
   ],
   "note": "Finding."
  },
  {
   "property": "C79",
   "status": "proved",
   "theorems": [
    "C79_center_tap"
   ],
   "note": ""
  },
  {
   "property": "C80",
   "status": "proved",
   "theorems": [
    "C80_bus_numbers",
    "C80_bus_origin"
   ],
   "note": ""
  },
  {
   "property": "C81",
   "status": "proved",
   "theorems": [
    "C81_node_bus",
    "C81_same_bus",
    "C81_parent_first",
    "C81_start"
   ],
   "note": ""
  },
  {
   "property": "C82",
   "status": "proved",
   "theorems": [
    "C82_sources",
    "C82_child_source",
    "C82_always_bound"
   ],
   "note": "Finding: child swing nodes take another node's set point."
  },
  {
   "property": "C83",
   "status": "proved",
   "theorems": [
    "C83_frame",
    "C83_unknown"
   ],
   "note": ""
  },
  {
   "property": "C84",
   "status": "proved",
   "theorems": [
    "C84_capacitors",
    "C84_initial_voltage"
   ],
   "note": ""
  },
  {
   "property": "C85",
   "status": "proved",
   "theorems": [
    "C85_regulators",
    "C85_accepted"
   ],
   "note": ""
  },
  {
   "property": "C86",
   "status": "proved",
   "theorems": [
    "C86_loads"
   ],
   "note": ""
  },
  {
   "property": "C87",
   "status": "proved",
   "theorems": [
    "C87_fuses",
    "C87_switches",
    "C87_fuse_open_ignored"
   ],
   "note": ""
  },
  {
   "property": "C88",
   "status": "proved",
   "theorems": [
    "C88_references",
    "C88_lines"
   ],
   "note": ""
  },
  {
   "property": "C89",
   "status": "proved",
   "theorems": [
    "C89_debug_check",
    "C89_off_by_default"
   ],
   "note": ""
  },
  {
   "property": "C90",
   "status": "proved",
   "theorems": [
    "C90_objects_read"
   ],
   "note": ""
  },
  {
   "property": "C91",
   "status": "proved",
   "theorems": [
    "C91_noise",
    "C91_indentation",
    "C91_trailing_comment"
   ],
   "note": ""
  },
  {
   "property": "C92",
   "status": "proved",
   "theorems": [
    "C92_unclosed_object"
   ],
   "note": ""
  },
  {
   "property": "C93",
   "status": "proved",
   "theorems": [
    "C93_nested_merged"
   ],
   "note": ""
  },
  {
   "property": "C94",
   "status": "proved",
   "theorems": [
    "C94_unit_dropped"
   ],
   "note": ""
  },
  {
   "property": "C95",
   "status": "proved",
   "theorems": [
    "C95_include",
    "C95_missing"
   ],
   "note": ""
  },
  {
   "property": "C96",
   "status": "proved",
   "theorems": [
    "C96_unused_class",
    "C96_unknown_class",
    "C96_unknown_attribute",
    "C96_nameless"
   ],
   "note": ""
  },
  {
   "property": "C97",
   "status": "proved",
   "theorems": [
    "C97_phases",
    "C97_rejected"
   ],
   "note": ""
  },
  {
   "property": "C98",
   "status": "proved",
   "theorems": [
    "C98_store"
   ],
   "note": ""
  },
  {
   "property": "C99",
   "status": "proved",
   "theorems": [
    "C99_loads"
   ],
   "note": ""
  }
 ]
}