# Design of the Coq model and proofs

Project: `lucasgodshalk/combined-txds` (power flow for transmission and distribution
networks; python).  Everything below is about the source text in `/repo`; the code is never run.

## 1. Approach

* `rocq/theories/*.v` without `Proofs`/`Props` in the name contain the *model* only: total,
  computable Gallina functions, one per python function, each with a comment naming file and lines.
* `*Proofs.v` files contain lemmas.
* `Props*.v` files contain only the property theorems (one `exact lemma.` each), a concrete
  example beside each, and `Print Assumptions`.
* Specifications (what a property means) are separate small definitions (`Spec*.v` or a marked block)
  that do not call the modelled function.

### Numbers
Floats are modelled as exact real numbers (`R`) wherever a property is about physics or calculus.
Parts that only move values around (matrix builder, batching, residual merging, parsers) are
polymorphic in the value type or over `Z`/`Q`, and are used at `R` and at `Z` (for examples that compute).
Consequences: rounding, overflow, NaN and signed zero are *not* modelled (NaN of the linear solver is
modelled as an explicit "NaN" answer of the solver oracle).

### Symbolic expressions
sympy expressions are modelled by an inductive type (integer constant, symbol, sum, product, integer
power, sin, cos) with a denotation in `R`.  `sympy.expand` is modelled by a canonical sum of
monomials that collects like terms and merges equal bases (this is what decides whether a term is
"linear" for the code).  sympy's other automatic simplifications are not modelled; they could only
change the classification linear/non-linear or drop zero stamps.

### Exceptions
A python exception is a value (`Err kind`); functions return a result type.  Non-termination and
loops are modelled with fuel; running out of fuel is a distinct error value.

### Oracles
`spsolve` (linear solver), `lstsq` slope, `sha1`, pickle encoding and the file system contents are
parameters of the theorems (universally quantified), possibly with a stated hypothesis such as
"returns an exact solution".

## 2. Trusted base

* Coq 8.16.1 kernel (and `vm_compute` where used in examples).
* Axioms: only those of the standard library's real numbers, listed by `Print Assumptions` under each
  theorem: `ClassicalDedekindReals.sig_forall_dec`, `ClassicalDedekindReals.sig_not_dec`,
  `FunctionalExtensionality.functional_extensionality_dep`, and `Classical_Prop.classic` where the
  standard library lemma used needs it.  Theorems about discrete parts are closed under the
  global context.  The exact list per theorem is in section 5.
* The correspondence between the python text and the Gallina definitions (by reading, cited line by line).
* The simplifications named in this document and in the comments of the model.

## 3. What is and is not modelled

| source | model file | remarks |
|---|---|---|
| `logic/stamping/lagrangesegment.py` | `Expr.v`, `Segment.v` | sympy as in section 1; `TwoTerminalModelDefinition`, `ModelDefinition` |
| `logic/stamping/lagrangestampdetails.py`, `lagrangestamper.py` | `Collect.v` | |
| `logic/stamping/lagrangepickler.py` | `Pickler.v` | sha1, dill and file contents are parameters |
| `logic/stamping/matrixstamper.py` | `Stamper.v` | argument tables stored row-wise; all of build, freeze, stamp, residual |
| `logic/stamping/matrixstamper.py:123-131` (`build_matrix_stamper`) | `NetStamper.v` | the model element a stamp belongs to is its position in the list |
| `logic/stamping/matrixbuilder.py` | `Builder.v`, `Solver.v` (`b_assert_valid`) | |
| `logic/residualdetails.py`, `models/helpers.py:merge_residuals` | `Residual.v` | |
| `logic/nrsolver.py` | `Solver.v` | `spsolve` is an oracle; `lstsq` slope in closed form (proved right in C19) |
| `logic/v_limiting.py` | `VLimit.v` | |
| `logic/homotopycontroller.py` | `Homotopy.v` | |
| `logic/devicecontroller.py`, device methods of fuse, regulator, capacitor | `Devices.v` | |
| `models/components/*` | `Components.v`, `UnbalancedLine.v` | segments as expressions, constructors, maps to indexes |
| `models/optimization/*` | `Components.v` (infeasibility segments) | |
| `logic/network/networkmodel.py`, `assign_nodes` of every component | `Network.v` | |
| `logic/graphanalyzer.py` | `Graph.v` (checks), `Island.v` (selection) | drawing not modelled |
| `logic/powerflow.py`, `get_connections` of every component | `PowerFlow.v` | the time is left out; the constructor of the result is `Results.v`; bus types outside 0..3 (KeyError for a colour) are left out |
| `logic/powerflowresults.py`, ratings, `logic/network/loadfactor.py` | `Results.v`, `Output.v` (result files) | numbers as exact reals; printing left out |
| `logic/network/timeseriesprocessor.py`, `run_solver.py` | `TimeSeries.v` | csv file as a list of columns; power flow is an oracle |
| `logic/network/parsers/raw/parser.py`, `data_classes.py` | `RawParser.v` | from the tables of records on |
| `logic/network/parsers/raw/Data.py` | `RawText.v` | from the lines of the file on, csv reader included (as in CPython up to 3.12, which accepts the blank as delimiter together with skipinitialspace); int() and float() of a text are parameters; attributes nothing uses are only checked |
| `logic/network/parsers/raw/parse_transformers.py` | `RawTransformers.v` | |
| `ditto/readers/gridlabd/read.py:68-197`, `ditto/formats/gridlabd/base.py` | `GlmText.v` | rows of 8-bit text; the schema, float formatting and croniter are parameters |
| `ditto/readers/gridlabd/read.py:199-1590`, `load_parser.py`, `helpers.py` | `GlmReader.v` | only the store classes the network parser uses; float/complex/int of a text are parameters |
| `ditto/readers/gridlabd/line_impedance.py` | `LineImpedance.v`, `Cables.v` | spacing, overhead, triplex and underground impedances, shunt admittances, Kron reduction; `np.linalg.inv` is a parameter; the branch for tape-shielded cables (never taken by the reader) is left out; in `LineImpedance.v` and `GlmReader.v` the functions of `Cables.v` are parameters, which `with_cables` fills in |
| `logic/network/parsers/threephase/*` | `ThreePhase.v` | from the ditto store on; `np.linalg.inv` is an oracle |
| `logic/network/networkloader.py` | `Loader.v` | files and remote content are parameters; failing writes to the temporary directory are left out |
| `run_solver.py` (loading and executing), `models/components` attributes shared between parser and solver | `SolverNet.v` | puts the parsers' records into the form the solver's model reads; a polar form of the initial voltages of three-phase buses; names of RAW buses are a parameter; command line and printing left out |
| `run_solver.py:16-97` as a whole | `Command.v` | without --select_island and printing; later power flows of a time series and the generator outputs of a result are oracles |
| `run_solver.py:61-97` with `--outputfile`, `logic/powerflowresults.py:92-187` from the network's objects | `Report.v` | names of RAW buses and the rating check are parameters; GROUND as the bus of a generator or slack is number 0 |

Not modelled: display and output formatting, profiling, pickle bytes, sympy and numpy/scipy internals,
the ditto readers except as listed above, multi-threading.

Deliberate restrictions of theorems (each visible as a hypothesis):

* `trig_ok` (C01, C04): no unknown inside sin or cos.  C03 shows that the property fails without it.
* `stamps_present` (C07, C13, C61): an element with residuals has at least one stamp.  Without it the
  stamper uses the input table of another element (matrixstamper.py:414) or raises
  (`C07_residuals_before_stamps`).
* `tidy`, `known_elements` (C59, C77-C88): distinct node names, one-letter phases out of A, B, C, N, 1, 2
  where an element refers to them.
* names ending in `-Reg`, `-Fuse` etc. (`interior_name`) are excluded where the parser could confuse them
  with its own interior buses.
* RAW: distinct bus numbers, none of them -1.

## 4. Model and proof plan per property

Files are in `rocq/theories`. "Spec" is the file with the definitions the statements are written in.

| id | title | model | spec | proofs | plan | theorems |
|---|---|---|---|---|---|---|
| C01 | Linearised stamps reproduce the equation at the linearisation point | Expr, Segment | SpecSegment | ExprProofs, SegmentProofs | expand preserves the denotation and diff is derivable_pt_lim (induction over expressions); sum over the terms of the expansion | proved: `C01_linearisation_reproduces_equation` |
| C02 | Y-matrix coefficients are the exact partial derivatives | Expr, Segment | SpecSegment | ExprProofs, SegmentProofs | expand preserves the denotation and diff is derivable_pt_lim (induction over expressions); sum over the terms of the expansion | proved: `C02_coefficient_is_partial_derivative`, `C02_no_foreign_entry` |
| C03 | Linearisation is wrong for an unknown inside a trigonometric function | Expr, Segment | SpecSegment | SegmentProofs | witness cos x, computed | proved: `C03_trig_of_unknown_refuted` |
| C04 | Entries stamped once as linear do not depend on the operating point | Expr, Segment | SpecSegment | ExprProofs, SegmentProofs | expand preserves the denotation and diff is derivable_pt_lim (induction over expressions); sum over the terms of the expansion | proved: `C04_linear_entry_constant`, `C04_nonlinear_entry_mentions_unknown` |
| C05 | Two-terminal models conserve current and recover their equations | Segment | SpecSegment | SegmentProofs | derivative with respect to the multipliers; case analysis of the symbol check | proved: `C05_two_terminal_rows`, `C05_ends_cancel` |
| C06 | Undeclared symbols are rejected, except in the imaginary 'from' KCL | Segment | SpecSegment | SegmentProofs | derivative with respect to the multipliers; case analysis of the symbol check | proved: `C06_accepted_iff_declared`, `C06_imaginary_from_unchecked` |
| C07 | Batched and deduplicated stamping equals stamping each element on its own | Stamper, Collect | SpecStamper | StamperProofs, CollectProofs, SystemProofs | refinement: simulation relation between the batched state and the list of elements, induction over the operation list | proved: `C07_batched_equals_per_element`, `C07_segments`, `C07_residuals_before_stamps` |
| C08 | Ground contributes no row, no column and zero voltage | Stamper, Collect | SpecStamper | StamperProofs, CollectProofs, SystemProofs | refinement: simulation relation between the batched state and the list of elements, induction over the operation list | proved: `C08_element_contributions`, `C08_ground_is_zero` |
| C09 | Matrix builder: what is solved is exactly what was stamped, if enough was stamped | Builder | SpecBuilder | BuilderProofs | invariant of the builder state over operation lists; witness history for C10 | proved: `C09_reads_report_entries_in_use`, `C09_matrix_is_entries_in_use`, `C09_never_raises` |
| C10 | Stale matrix entries survive when an iteration stamps fewer non-zeros | Builder | SpecBuilder | BuilderProofs | invariant of the builder state over operation lists; witness history for C10 | proved: `C10_exact_surplus`, `C10_correct_iff_surplus_cancels`, `C10_stale_entries_refuted` |
| C11 | Debug mode never solves with stale entries | Builder | SpecBuilder | BuilderProofs | invariant of the builder state over operation lists; witness history for C10 | proved: `C11_debug_never_stale`, `C11_debug_raises_iff_leftover` |
| C12 | Reported maximum residual is the largest absolute row sum | Residual | SpecResidual | ResidualProofs | induction over dictionaries and lists | proved: `C12_residual_details_correct`, `C12_residual_details_defined` |
| C13 | Residual vector and stamped system agree | Stamper, Collect | SpecSystem | SystemProofs | composition of C01/C02 with C07 | proved: `C13_residual_is_Yv_minus_J` |
| C14 | Derivative cache is crash and race tolerant | Pickler | (in PropsPickler) | PicklerProofs | invariant over event lists: every file is a prefix of an encoding | proved: `C14_cache_crash_tolerant`, `C14_answer_remembered`, `C14_survives_restart`, `C14_torn_write` |
| C15 | Truncated hash collisions silently return another model's derivatives | Pickler | (in PropsPickler) | PicklerProofs | invariant over event lists: every file is a prefix of an encoding | proved: `C15_collision_returns_other_model` |
| C16 | A successful solve does not certify the returned voltages | Solver | SpecSolver | SolverProofs, NetSolverProofs, SolverWitness | induction over the iteration count with an oracle linear solver; scalar networks as witnesses | proved: `C16_success_does_not_certify_refuted`, `C16_witness_solver_is_exact` |
| C17 | What a successful solve does certify | Solver | SpecSolver | SolverProofs, NetSolverProofs, SolverWitness | induction over the iteration count with an oracle linear solver; scalar networks as witnesses | proved: `C17_success_certifies`, `C17_one_newton_step_away` |
| C18 | The Newton solver is bounded by max_iters | Solver | SpecSolver | SolverProofs, NetSolverProofs, SolverWitness | induction over the iteration count with an oracle linear solver; scalar networks as witnesses | proved: `C18_bounded`, `C18_early_failure` |
| C19 | The divergence bail-out can discard a converged run | Solver | SpecSolver | SolverProofs, NetSolverProofs, SolverWitness | induction over the iteration count with an oracle linear solver; scalar networks as witnesses | proved: `C19_converged_run_discarded`, `C19_slope_is_least_squares` |
| C20 | Linear networks are solved in at most two iterations | Solver | SpecSolver | SolverProofs, NetSolverProofs, SolverWitness | induction over the iteration count with an oracle linear solver; scalar networks as witnesses | proved: `C20_linear_two_iterations` |
| C21 | Voltage limiting keeps bus voltages in [-2, 2] and leaves other unknowns alone | VLimit | SpecVLimit | VLimitProofs | case analysis and real arithmetic | proved: `C21_limiting_result`, `C21_limiting_defined` |
| C22 | Outside the band, limiting can move a voltage by more than one unit | VLimit | SpecVLimit | VLimitProofs | case analysis and real arithmetic | proved: `C22_outside_band` |
| C23 | Homotopy success means the last solve was of the original network | Homotopy | SpecHomotopy | HomotopyProofs | induction over fuel; Newton run as an oracle | proved: `C23_success`, `C23_failure`, `C23_at_most_102_runs`, `C23_network_success`, `C23_network_bounded` |
| C24 | Homotopy reports a negative remaining factor and only the last iteration count | Homotopy | SpecHomotopy | HomotopyProofs | induction over fuel; Newton run as an oracle | proved: `C24_negative_factor` |
| C25 | A homotopy step can be linearised at a stale vector | Solver | SpecSolver | SolverProofs, NetSolverProofs, SolverWitness | induction over the iteration count with an oracle linear solver; scalar networks as witnesses | proved: `C25_first_linearisation`, `C25_next_run_linearised_at_old_start`, `C25_next_run_ignores_start` |
| C26 | Device control: bounded and settled on success | Devices | SpecDevices | DevicesProofs, DevicesWitness | induction over rounds; power flow as an oracle | proved: `C26_returned_result`, `C26_settled_iff`, `C26_at_most_ten`, `C26_gives_up_iff`, `C26_no_control_single_run` |
| C27 | Fuses blow exactly above their limit, never recover, and a blown fuse stops the solve | Devices | SpecDevices | DevicesProofs, DevicesWitness | induction over rounds; power flow as an oracle | proved: `C27_blows_iff_over_limit`, `C27_stays_blown`, `C27_history`, `C27_no_result_after_blowing` |
| C28 | Regulator taps stay in range and determine the ratio | Devices | SpecDevices | DevicesProofs, DevicesWitness | induction over rounds; power flow as an oracle | proved: `C28_tap_in_range_and_ratio`, `C28_change_and_report`, `C28_raises_iff` |
| C29 | Voltage controlled capacitors switch in the direction that worsens the violation | Devices | SpecDevices | DevicesProofs, DevicesWitness | induction over rounds; power flow as an oracle | proved: `C29_wrong_direction`, `C29_lifetime` |
| C30 | Constant power loads draw exactly P + jQ | Components | SpecComponents | BilinearProofs, ComponentsProofs, ElementProofs, ComponentsWitness | evaluate the segments' derivatives, complex arithmetic with field/nra | proved: `C30_load_currents` |
| C31 | Impedance and current loads follow their definitions | Components | SpecComponents | BilinearProofs, ComponentsProofs, ElementProofs, ComponentsWitness | evaluate the segments' derivatives, complex arithmetic with field/nra | proved: `C30_load_currents`, `C31_impedance_power`, `C31_empty_load` |
| C32 | Line model is the pi-equivalent of r, x, b | Components | SpecComponents | BilinearProofs, ComponentsProofs, ElementProofs, ComponentsWitness | evaluate the segments' derivatives, complex arithmetic with field/nra | proved: `C32_pi_model`, `C32_absorbs`, `C32_rejected_iff` |
| C33 | Ideal transformers are lossless for every ratio, phase shift and homotopy factor | Components | SpecComponents | BilinearProofs, ComponentsProofs, ElementProofs, ComponentsWitness | evaluate the segments' derivatives, complex arithmetic with field/nra | proved: `C33_transformer` |
| C34 | Center-tap transformers are lossless | Components | SpecComponents | BilinearProofs, ComponentsProofs, ElementProofs, ComponentsWitness | evaluate the segments' derivatives, complex arithmetic with field/nra | proved: `C34_center_tap_rows`, `C34_windings`, `C34_lossless` |
| C35 | Homotopy endpoints | Components | SpecComponents | BilinearProofs, ComponentsProofs, ElementProofs, ComponentsWitness | evaluate the segments' derivatives, complex arithmetic with field/nra | proved: `C35_line`, `C35_transformer`, `C35_center_tap`, `C35_shunts_vanish`, `C35_others_unchanged` |
| C36 | Unbalanced lines: phase currents are the admittance matrix times the voltage drops | UnbalancedLine | SpecUnbalanced | UnbalancedProofs, UnbalancedBranch, UnbalancedWitness | sums over any number of phases; derivative of the Lagrangian; inverse routine as an oracle | proved: `C36_rows`, `C36_series_cancels` |
| C37 | Optimality rows of unbalanced lines are correct exactly for symmetric admittances | UnbalancedLine | SpecUnbalanced | UnbalancedProofs, UnbalancedBranch, UnbalancedWitness | sums over any number of phases; derivative of the Lagrangian; inverse routine as an oracle | proved: `C37_correct_iff_symmetric` |
| C38 | Generators and slacks hold their set points | Components | SpecComponents | BilinearProofs, ComponentsProofs, ElementProofs, ComponentsWitness | evaluate the segments' derivatives, complex arithmetic with field/nra | proved: `C38_generator_current`, `C38_generator_voltage`, `C38_slack_voltage` |
| C39 | Infeasibility analysis minimises the total squared infeasibility current (L2) | Components | SpecInfeasibility | InfeasibilityProofs, InfeasibilityWitness | stationary points of a convex quadratic programme over any list of linear elements | proved: `C39_l2_minimal`, `C39_feasible` |
| C40 | The L1 infeasibility option solves a least-squares problem instead | Components | SpecInfeasibility | InfeasibilityProofs, InfeasibilityWitness | stationary points of a convex quadratic programme over any list of linear elements | proved: `C40_l1_is_quadratic`, `C40_minimises_squares` |
| C41 | Voltage sources, sensors and switches | Components | SpecComponents | BilinearProofs, ComponentsProofs, ElementProofs, ComponentsWitness | evaluate the segments' derivatives, complex arithmetic with field/nra | proved: `C41_source_rows`, `C41_source_voltage`, `C41_switch` |
| C42 | Matrix indices are a bijection onto 0 .. size_Y-1 | Network | SpecNetwork | NetworkKinds, NetworkAssign, NetworkInit, NetworkProofs, NetworkWitness | induction over the element list; index intervals | proved: `C42_indexes_exactly`, `C42_one_owner`, `C42_names_apart`, `C42_infeasibility_names_apart`, `C42_bus_indexes`, `C42_size`, `C42_all_take_part`, `C42_repeatable` |
| C43 | One equation row per unknown | Network | SpecNetwork | NetworkKinds, NetworkAssign, NetworkInit, NetworkProofs, NetworkWitness | induction over the element list; index intervals | proved: `C43_rows`, `C43_columns`, `C43_own_rows`, `C43_isolated_bus` |
| C44 | Initial vector | Network | SpecNetwork | NetworkKinds, NetworkAssign, NetworkInit, NetworkProofs, NetworkWitness | induction over the element list; index intervals | proved: `C44_transmission`, `C44_imaginary_multiplier`, `C44_three_phase` |
| C45 | Power flow is refused unless the node graph is connected | Graph | SpecGraph | GraphProofs, GraphWitness | breadth first search computes reachability; permutations of the visiting order | proved: `C45_one_island`, `C45_members`, `C45_refused`, `C45_no_buses` |
| C46 | The island check does not see phases | Graph | SpecGraph | GraphProofs, GraphWitness | breadth first search computes reachability; permutations of the visiting order | proved: `C46_names_only`, `C46_phase_unnoticed` |
| C47 | Nominal voltage check: guarantee and order dependence | Graph | SpecGraph | GraphProofs, GraphWitness | breadth first search computes reachability; permutations of the visiting order | proved: `C47_region_bound`, `C47_close_pass`, `C47_order_dependent`, `C47_other_phases` |
| C48 | Selecting an island keeps exactly its interior, and drops every grounded load and capacitor | Island | SpecIsland | IslandProofs, IslandWitness | filter characterisation | proved: `C48_island_selected`, `C48_unknown_name_fails`, `C48_grounded_dropped` |
| C49 | Load factor | Results | SpecResults | ResultsProofs, RatingProofs, ResultsWitness | real arithmetic; exact conditions and witnesses | proved: `C49_compose`, `C49_totals`, `C49_demand`, `C49_scales_iff`, `C49_default_negates`, `C49_default_generates` |
| C50 | Reported slack and transformer power are not the complex power | Results | SpecResults | ResultsProofs, RatingProofs, ResultsWitness | real arithmetic; exact conditions and witnesses | proved: `C50_slack_iff`, `C50_slack_angle_zero`, `C50_generator_drawn`, `C50_transformer_iff`, `C50_center_tap`, `C50_center_tap_primary` |
| C51 | Infeasibility totals of zero do not mean feasible | Results | SpecResults | ResultsProofs, RatingProofs, ResultsWitness | real arithmetic; exact conditions and witnesses | proved: `C51_nonnegative`, `C51_zero_iff`, `C51_report_empty_iff`, `C51_displayed`, `C51_hides_any_size` |
| C52 | Load profiles: magnitude and power factor; history dependence | TimeSeries | SpecTimeSeries | TimeSeriesProofs, TimeSeriesRun, TimeSeriesWitness | induction over hours and over loop fuel | proved: `C52_magnitude_and_power_factor`, `C52_last_positive_decides`, `C52_zero_loses_power_factor`, `C52_negative_reverses`, `C52_columns` |
| C53 | Generator adjustment loop: exit condition | TimeSeries | SpecTimeSeries | TimeSeriesProofs, TimeSeriesRun, TimeSeriesWitness | induction over hours and over loop fuel | proved: `C53_exit`, `C53_pass`, `C53_missing_phase`, `C53_can_loop_forever`, `C53_unknown_swing_bus` |
| C54 | Overloaded transformers can go unreported | Results | SpecResults | ResultsProofs, RatingProofs, ResultsWitness | real arithmetic; exact conditions and witnesses | proved: `C54_flag_iff`, `C54_raises_iff`, `C54_voltage_band`, `C54_center_tap_rated`, `C54_quadrature_unseen`, `C54_any_overload_unseen` |
| C55 | Load names are not unique | TimeSeries | SpecTimeSeries | TimeSeriesProofs, TimeSeriesRun, TimeSeriesWitness | induction over hours and over loop fuel | proved: `C55_alphabetic_names`, `C55_numeric_names`, `C55_shadowed_never_updated` |
| C56 | Three-winding star equivalent | RawParser, RawTransformers | SpecRaw, SpecRawXfmr | RawBaseProofs, RawTableProofs, RawGenProofs, RawProofs, RawXfmrProofs, RawConsProofs, RawWitness | exact acceptance condition and network (C74), everything else follows from it | proved: `C56_star_sums`, `C56_star_ratios`, `C56_never_accepted` |
| C57 | RAW: generators | RawParser, RawTransformers | SpecRaw, SpecRawXfmr | RawBaseProofs, RawTableProofs, RawGenProofs, RawProofs, RawXfmrProofs, RawConsProofs, RawWitness | exact acceptance condition and network (C74), everything else follows from it | proved: `C57_silent_machines`, `C57_second_machine_refused`, `C57_second_machine_raises`, `C57_machine_and_shunt_refused` |
| C58 | RAW: switched shunt limits | RawParser, RawTransformers | SpecRaw, SpecRawXfmr | RawBaseProofs, RawTableProofs, RawGenProofs, RawProofs, RawXfmrProofs, RawConsProofs, RawWitness | exact acceptance condition and network (C74), everything else follows from it | proved: `C58_bounds`, `C58_later_blocks_ignored` |
| C59 | Phase lists of three phase transformers | ThreePhase | SpecThreeElems | ThreePhaseXfmrProofs, ThreePhaseFinal, ThreeWitness | loop invariants; delta ring by reachability; complex inverse | proved: `C59_phase_list` |
| C60 | Residual dictionaries merge by addition | Residual | SpecResidual | ResidualProofs | induction over dictionaries and lists | proved: `C60_merge_adds`, `C60_merge_order_irrelevant` |
| C61 | The assembled matrix is the Jacobian of the network equations; solving it is Newton's step | Stamper, Collect | SpecSystem | SystemProofs | composition of C01/C02 with C07 | proved: `C61_matrix_is_jacobian`, `C61_newton_step` |
| C62 | Shunts and capacitors draw the power their rating says | Components | SpecComponents | BilinearProofs, ComponentsProofs, ElementProofs, ComponentsWitness | evaluate the segments' derivatives, complex arithmetic with field/nra | proved: `C62_shunt`, `C62_capacitor` |
| C63 | Fuses and regulators: series devices with a current sensor | Components | SpecComponents | BilinearProofs, ComponentsProofs, ElementProofs, ComponentsWitness | evaluate the segments' derivatives, complex arithmetic with field/nra | proved: `C63_fuse_rows`, `C63_regulator_rows`, `C63_regulator_solved` |
| C64 | Unbalanced lines are accepted only with a working inverse; a phase of zero impedance is always rejected | UnbalancedLine | SpecUnbalanced | UnbalancedProofs, UnbalancedBranch, UnbalancedWitness | sums over any number of phases; derivative of the Lagrangian; inverse routine as an oracle | proved: `C64_accepted`, `C64_one_phase`, `C64_true_inverse` |
| C65 | Optimality rows are the gradient of the summed Lagrangian | Components | SpecInfeasibility | InfeasibilityProofs, InfeasibilityWitness | stationary points of a convex quadratic programme over any list of linear elements | proved: `C65_rows_are_gradient` |
| C66 | Line rating check ignores coupling between phases | Results | SpecResults | ResultsProofs, RatingProofs, ResultsWitness | real arithmetic; exact conditions and witnesses | proved: `C66_line_current_iff`, `C66_any_overload_unseen` |
| C67 | Failures of the time series run are replaced by a plain power flow | TimeSeries | SpecTimeSeries | TimeSeriesProofs, TimeSeriesRun, TimeSeriesWitness | induction over hours and over loop fuel | proved: `C67_options_ignored`, `C67_no_options`, `C67_failed_hour_loses_series`, `C67_missing_phase_reported` |
| C68 | Hours simulated | TimeSeries | SpecTimeSeries | TimeSeriesProofs, TimeSeriesRun, TimeSeriesWitness | induction over hours and over loop fuel | proved: `C68_hours`, `C68_hours_independent` |
| C69 | RAW: unit conventions of transformer records | RawParser, RawTransformers | SpecRaw, SpecRawXfmr | RawBaseProofs, RawTableProofs, RawGenProofs, RawProofs, RawXfmrProofs, RawConsProofs, RawWitness | exact acceptance condition and network (C74), everything else follows from it | proved: `C69_units`, `C69_magnetising` |
| C70 | RAW: load totals | RawParser, RawTransformers | SpecRaw, SpecRawXfmr | RawBaseProofs, RawTableProofs, RawGenProofs, RawProofs, RawXfmrProofs, RawConsProofs, RawWitness | exact acceptance condition and network (C74), everything else follows from it | proved: `C70_power`, `C70_current_not_scaled`, `C70_admittance_ignored` |
| C71 | RAW: shunt totals | RawParser, RawTransformers | SpecRaw, SpecRawXfmr | RawBaseProofs, RawTableProofs, RawGenProofs, RawProofs, RawXfmrProofs, RawConsProofs, RawWitness | exact acceptance condition and network (C74), everything else follows from it | proved: `C71_shunts` |
| C72 | RAW: machines on slack buses | RawParser, RawTransformers | SpecRaw, SpecRawXfmr | RawBaseProofs, RawTableProofs, RawGenProofs, RawProofs, RawXfmrProofs, RawConsProofs, RawWitness | exact acceptance condition and network (C74), everything else follows from it | proved: `C72_one_per_bus`, `C72_power_base_100`, `C72_mixed_bases` |
| C73 | RAW: lines | RawParser, RawTransformers | SpecRaw, SpecRawXfmr | RawBaseProofs, RawTableProofs, RawGenProofs, RawProofs, RawXfmrProofs, RawConsProofs, RawWitness | exact acceptance condition and network (C74), everything else follows from it | proved: `C73_admittance`, `C73_line_shunt_refused`, `C73_zero_impedance_refused` |
| C74 | RAW: cases accepted and network created | RawParser, RawTransformers | SpecRaw, SpecRawXfmr | RawBaseProofs, RawTableProofs, RawGenProofs, RawProofs, RawXfmrProofs, RawConsProofs, RawWitness | exact acceptance condition and network (C74), everything else follows from it | proved: `C74_accepted_exactly`, `C74_every_acceptable_case`, `C74_one_network` |
| C75 | RAW: elements are attached to buses of the network | RawParser, RawTransformers | SpecRaw, SpecRawXfmr | RawBaseProofs, RawTableProofs, RawGenProofs, RawProofs, RawXfmrProofs, RawConsProofs, RawWitness | exact acceptance condition and network (C74), everything else follows from it | proved: `C75_attached` |
| C76 | RAW: one voltage source per bus | RawParser, RawTransformers | SpecRaw, SpecRawXfmr | RawBaseProofs, RawTableProofs, RawGenProofs, RawProofs, RawXfmrProofs, RawConsProofs, RawWitness | exact acceptance condition and network (C74), everything else follows from it | proved: `C76_one_regulator_per_bus`, `C76_two_sources_on_slack` |
| C77 | Three-phase parser: two-winding transformers | ThreePhase | SpecThreeElems | ThreePhaseXfmrProofs, ThreePhaseFinal, ThreeWitness | loop invariants; delta ring by reachability; complex inverse | proved: `C77_transformers` |
| C78 | Three-phase parser: magnetising shunt conversion is inverted | ThreePhase | SpecThreeElems | ThreePhaseXfmrProofs, ThreePhaseFinal, ThreeWitness | loop invariants; delta ring by reachability; complex inverse | proved: `C78_shunt`, `C78_shunt_wrong` |
| C79 | Three-phase parser: center-tap transformers | ThreePhase | SpecThreeElems | ThreePhaseXfmrProofs, ThreePhaseFinal, ThreeWitness | loop invariants; delta ring by reachability; complex inverse | proved: `C79_center_tap` |
| C80 | Three-phase parser: the bus table | ThreePhase | SpecThreePhase, SpecRefused | ThreePhaseBase, ThreePhaseBusProofs, RefusedProofs | invariant over the visited (node, phase) pairs | proved: `C80_bus_numbers`, `C80_bus_origin` |
| C81 | Three-phase parser: children share the bus of their root ancestor | ThreePhase | SpecThreePhase, SpecRefused | ThreePhaseBase, ThreePhaseBusProofs, RefusedProofs | invariant over the visited (node, phase) pairs | proved: `C81_node_bus`, `C81_same_bus`, `C81_parent_first`, `C81_start` |
| C82 | Three-phase parser: swing sources | ThreePhase | SpecThreePhase, SpecRefused | ThreePhaseBase, ThreePhaseBusProofs, RefusedProofs | invariant over the visited (node, phase) pairs | proved: `C82_sources`, `C82_child_source`, `C82_always_bound` |
| C83 | Three-phase parser: elements leave node buses alone | ThreePhase | SpecThreePhase, SpecThreeElems | ThreePhaseElemProofs, ThreePhaseInitProofs, ThreePhaseFinal | monotone growth of the network over the element loop | proved: `C83_frame`, `C83_unknown` |
| C84 | Three-phase parser: capacitors | ThreePhase | SpecThreePhase, SpecThreeElems | ThreePhaseElemProofs, ThreePhaseInitProofs, ThreePhaseFinal | monotone growth of the network over the element loop | proved: `C84_capacitors`, `C84_initial_voltage` |
| C85 | Three-phase parser: regulators | ThreePhase | SpecThreePhase, SpecThreeElems | ThreePhaseElemProofs, ThreePhaseInitProofs, ThreePhaseFinal | monotone growth of the network over the element loop | proved: `C85_regulators`, `C85_accepted` |
| C86 | Three-phase parser: loads | ThreePhase | SpecThreePhase, SpecThreeElems | ThreePhaseElemProofs, ThreePhaseInitProofs, ThreePhaseFinal | monotone growth of the network over the element loop | proved: `C86_loads` |
| C87 | Three-phase parser: fuses and switches | ThreePhase | SpecThreePhase, SpecThreeElems | ThreePhaseElemProofs, ThreePhaseInitProofs, ThreePhaseFinal | monotone growth of the network over the element loop | proved: `C87_fuses`, `C87_switches`, `C87_fuse_open_ignored` |
| C88 | Three-phase parser: lines and references | ThreePhase | SpecThreePhase, SpecThreeElems | ThreePhaseElemProofs, ThreePhaseInitProofs, ThreePhaseFinal | monotone growth of the network over the element loop | proved: `C88_references`, `C88_lines` |
| C89 | Debug validity check of the matrix | Solver | (in PropsSolver) | SolverProofs | both directions over entry lists | proved: `C89_debug_check`, `C89_off_by_default` |
| C90 | GridLAB-D reader: a well-formed file is read completely | GlmText | SpecGlm | GlmBase, GlmRowProofs, GlmProofs, GlmFinal, GlmWitness | algebra of strip/split/cut on concatenations gives the effect of each kind of row; induction over the file grammar | proved: `C90_objects_read` |
| C91 | GridLAB-D reader: layout does not matter | GlmText | SpecGlm | GlmBase, GlmRowProofs, GlmProofs, GlmFinal, GlmWitness | algebra of strip/split/cut on concatenations gives the effect of each kind of row; induction over the file grammar | proved: `C91_noise`, `C91_indentation`, `C91_trailing_comment` |
| C92 | GridLAB-D reader: a comment after a closing brace loses the rest of the file | GlmText | SpecGlm | GlmBase, GlmRowProofs, GlmProofs, GlmFinal, GlmWitness | algebra of strip/split/cut on concatenations gives the effect of each kind of row; induction over the file grammar | proved: `C92_unclosed_object` |
| C93 | GridLAB-D reader: nested objects are merged into the outer object | GlmText | SpecGlm | GlmBase, GlmRowProofs, GlmProofs, GlmFinal, GlmWitness | algebra of strip/split/cut on concatenations gives the effect of each kind of row; induction over the file grammar | proved: `C93_nested_merged` |
| C94 | GridLAB-D reader: units separated by a blank are dropped | GlmText | SpecGlm | GlmBase, GlmRowProofs, GlmProofs, GlmFinal, GlmWitness | algebra of strip/split/cut on concatenations gives the effect of each kind of row; induction over the file grammar | proved: `C94_unit_dropped` |
| C95 | GridLAB-D reader: included files | GlmText | SpecGlm | GlmBase, GlmRowProofs, GlmProofs, GlmFinal, GlmWitness | algebra of strip/split/cut on concatenations gives the effect of each kind of row; induction over the file grammar | proved: `C95_include`, `C95_missing` |
| C96 | GridLAB-D reader: unused classes are skipped, unknown names refused | GlmText | SpecGlm | GlmBase, GlmRowProofs, GlmProofs, GlmFinal, GlmWitness | algebra of strip/split/cut on concatenations gives the effect of each kind of row; induction over the file grammar | proved: `C96_unused_class`, `C96_unknown_class`, `C96_unknown_attribute`, `C96_nameless` |
| C97 | GridLAB-D reader: which phases a text means | GlmReader, LineImpedance | SpecReader | ReaderBase, ReaderLoadProofs, ReaderFrame, ReaderStore, ReaderFile, ReaderWitness | effect of each class on the store, frame lemma for the objects, induction over the file; composition with ThreePhase for C101 | proved: `C97_phases`, `C97_rejected` |
| C98 | GridLAB-D reader: every object adds exactly its own elements to the store | GlmReader, LineImpedance | SpecReader | ReaderBase, ReaderLoadProofs, ReaderFrame, ReaderStore, ReaderFile, ReaderWitness | effect of each class on the store, frame lemma for the objects, induction over the file; composition with ThreePhase for C101 | proved: `C98_store` |
| C99 | GridLAB-D reader: a load draws what its object says | GlmReader, LineImpedance | SpecReader | ReaderBase, ReaderLoadProofs, ReaderFrame, ReaderStore, ReaderFile, ReaderWitness | effect of each class on the store, frame lemma for the objects, induction over the file; composition with ThreePhase for C101 | proved: `C99_loads` |
| C100 | GridLAB-D reader: ZIP fractions and power factors are ignored | GlmReader, LineImpedance | SpecReader | ReaderBase, ReaderLoadProofs, ReaderFrame, ReaderStore, ReaderFile, ReaderWitness | effect of each class on the store, frame lemma for the objects, induction over the file; composition with ThreePhase for C101 | proved: `C100_fractions_ignored` |
| C101 | GridLAB-D reader: a delta load given between phases cannot be loaded | GlmReader, LineImpedance | SpecReader | ReaderBase, ReaderLoadProofs, ReaderFrame, ReaderStore, ReaderFile, ReaderWitness | effect of each class on the store, frame lemma for the objects, induction over the file; composition with ThreePhase for C101 | proved: `C101_delta_between_phases` |
| C102 | GridLAB-D reader: parsing changes only unit texts of the objects | GlmReader, LineImpedance | SpecReader | ReaderBase, ReaderLoadProofs, ReaderFrame, ReaderStore, ReaderFile, ReaderWitness | effect of each class on the store, frame lemma for the objects, induction over the file; composition with ThreePhase for C101 | proved: `C102_objects_kept` |
| C103 | Kron reduction keeps the phase voltages | LineImpedance | SpecLineZ | KronProofs, CarsonProofs, SpacingProofs, LineZFinal, TriplexProofs, LineZWitness, RefusedProofs | sums over finite index ranges; loop over cells as a fold whose last write wins; the spacing table by its ten pairs | proved: `C103_kron` |
| C104 | Overhead lines: the impedance matrix follows Carson's equations | LineImpedance | SpecLineZ | KronProofs, CarsonProofs, SpacingProofs, LineZFinal, TriplexProofs, LineZWitness, RefusedProofs | sums over finite index ranges; loop over cells as a fold whose last write wins; the spacing table by its ten pairs | proved: `C104_overhead`, `C104_symmetric`, `C104_neutral_without_wire`, `C104_phases` |
| C105 | Triplex lines: the impedance matrix follows Carson's equations | LineImpedance | SpecLineZ | KronProofs, CarsonProofs, SpacingProofs, LineZFinal, TriplexProofs, LineZWitness, RefusedProofs | sums over finite index ranges; loop over cells as a fold whose last write wins; the spacing table by its ten pairs | proved: `C105_triplex`, `C105_neutral_without_wire`, `C105_phases` |
| C106 | Overhead lines: distances are taken by position, not by phase | LineImpedance | SpecLineZ | KronProofs, CarsonProofs, SpacingProofs, LineZFinal, TriplexProofs, LineZWitness, RefusedProofs | sums over finite index ranges; loop over cells as a fold whose last write wins; the spacing table by its ten pairs | proved: `C106_table`, `C106_by_position`, `C106_matching`, `C106_wrong_distance_refuted` |
| C107 | Impedances given directly in a line configuration are never used | GlmReader, LineImpedance | SpecReader2 | ReaderFrame2, ReaderVisit, LineFile, ReaderKeep, ReaderWires, ReaderTurns, LineProofs, OverheadFile, ReaderBare, LineFinal, ReaderWitness2 | state of every object and of the local variables at the turn of each object, by induction over the objects before it; then C104-C106 at that turn | proved: `C107_never_read`, `C107_fails`, `C107_zero` |
| C108 | Line lengths are in metres | GlmReader, LineImpedance | SpecReader2 | ReaderFrame2, ReaderVisit, LineFile, ReaderKeep, ReaderWires, ReaderTurns, LineProofs, OverheadFile, ReaderBare, LineFinal, ReaderWitness2 | state of every object and of the local variables at the turn of each object, by induction over the objects before it; then C104-C106 at that turn | proved: `C108_length` |
| C109 | A conductor's unit is converted for the first line only | GlmReader, LineImpedance | SpecReader2 | ReaderFrame2, ReaderVisit, LineFile, ReaderKeep, ReaderWires, ReaderTurns, LineProofs, OverheadFile, ReaderBare, LineFinal, ReaderWitness2 | state of every object and of the local variables at the turn of each object, by induction over the objects before it; then C104-C106 at that turn | proved: `C109_later_use`, `C109_units_once_refuted` |
| C110 | Overhead lines from the file to the line model | GlmReader, LineImpedance | SpecReader2 | ReaderFrame2, ReaderVisit, LineFile, ReaderKeep, ReaderWires, ReaderTurns, LineProofs, OverheadFile, ReaderBare, LineFinal, ReaderWitness2 | state of every object and of the local variables at the turn of each object, by induction over the objects before it; then C104-C106 at that turn | proved: `C110_overhead` |
| C111 | Triplex lines from the file to the line model | GlmReader, LineImpedance | SpecReader2 | ReaderFrame2, ReaderVisit, LineFile, ReaderKeep, ReaderWires, ReaderTurns, LineProofs, OverheadFile, ReaderBare, LineFinal, ReaderWitness2 | state of every object and of the local variables at the turn of each object, by induction over the objects before it; then C104-C106 at that turn | proved: `C111_triplex` |
| C112 | A line without configuration takes the wires of the last configured line | GlmReader, LineImpedance | SpecReader2 | ReaderFrame2, ReaderVisit, LineFile, ReaderKeep, ReaderWires, ReaderTurns, LineProofs, OverheadFile, ReaderBare, LineFinal, ReaderWitness2 | state of every object and of the local variables at the turn of each object, by induction over the objects before it; then C104-C106 at that turn | proved: `C112_inherits` |
| C113 | Transformers from the file to the model | GlmReader | SpecReader3 | XfmrFile, RegFile, VnomFile, UnitFinal, ReaderWitness3 | effect at the turn of the object, transferred to the texts of the file by the rewriting relation; invariant over the loop for the voltages | proved: `C113_transformer`, `C113_tap_coils_refuted` |
| C114 | Regulators from the file to the model | GlmReader | SpecReader3 | XfmrFile, RegFile, VnomFile, UnitFinal, ReaderWitness3 | effect at the turn of the object, transferred to the texts of the file by the rewriting relation; invariant over the loop for the voltages | proved: `C114_regulator` |
| C115 | The last child decides the nominal voltage of a node | GlmReader | SpecReader3 | XfmrFile, RegFile, VnomFile, UnitFinal, ReaderWitness3 | effect at the turn of the object, transferred to the texts of the file by the rewriting relation; invariant over the loop for the voltages | proved: `C115_voltage`, `C115_own_voltage_refuted` |
| C116 | Clean files give stores the parser can work with | GlmReader, ThreePhase | SpecFile | FileNet, FileElems, FileUnits, FileBuses, FileTap, FileWitness, FileWitness2 | composition of the reader theorems (C97-C115) with the parser theorems (C77-C88): the store is a concatenation of the objects' contributions, so the elements of the network regroup by object | proved: `C116_fit` |
| C117 | Fuses from the file to the network | GlmReader, ThreePhase | SpecFile | FileNet, FileElems, FileUnits, FileBuses, FileTap, FileWitness, FileWitness2 | composition of the reader theorems (C97-C115) with the parser theorems (C77-C88): the store is a concatenation of the objects' contributions, so the elements of the network regroup by object | proved: `C117_fuses` |
| C118 | Switches from the file to the network | GlmReader, ThreePhase | SpecFile | FileNet, FileElems, FileUnits, FileBuses, FileTap, FileWitness, FileWitness2 | composition of the reader theorems (C97-C115) with the parser theorems (C77-C88): the store is a concatenation of the objects' contributions, so the elements of the network regroup by object | proved: `C118_switches` |
| C119 | Regulators from the file to the network | GlmReader, ThreePhase | SpecFile | FileNet, FileElems, FileUnits, FileBuses, FileTap, FileWitness, FileWitness2 | composition of the reader theorems (C97-C115) with the parser theorems (C77-C88): the store is a concatenation of the objects' contributions, so the elements of the network regroup by object | proved: `C119_regulators` |
| C120 | Transformers from the file to the network | GlmReader, ThreePhase | SpecFile | FileNet, FileElems, FileUnits, FileBuses, FileTap, FileWitness, FileWitness2 | composition of the reader theorems (C97-C115) with the parser theorems (C77-C88): the store is a concatenation of the objects' contributions, so the elements of the network regroup by object | proved: `C120_transformers` |
| C121 | A center tap in kV has a third coil a million times too conductive | GlmReader, ThreePhase | SpecFile | FileNet, FileElems, FileUnits, FileBuses, FileTap, FileWitness, FileWitness2 | composition of the reader theorems (C97-C115) with the parser theorems (C77-C88): the store is a concatenation of the objects' contributions, so the elements of the network regroup by object | proved: `C121_kilovolts` |
| C122 | Loads from the file to the network | GlmReader, ThreePhase | SpecFile | FileNet, FileElems, FileUnits, FileBuses, FileTap, FileWitness, FileWitness2 | composition of the reader theorems (C97-C115) with the parser theorems (C77-C88): the store is a concatenation of the objects' contributions, so the elements of the network regroup by object | proved: `C122_loads` |
| C123 | Capacitors from the file to the network | GlmReader, ThreePhase | SpecFile | FileNet, FileElems, FileUnits, FileBuses, FileTap, FileWitness, FileWitness2 | composition of the reader theorems (C97-C115) with the parser theorems (C77-C88): the store is a concatenation of the objects' contributions, so the elements of the network regroup by object | proved: `C123_capacitors` |
| C124 | Lines from the file to the network | GlmReader, ThreePhase | SpecFile | FileNet, FileElems, FileUnits, FileBuses, FileTap, FileWitness, FileWitness2 | composition of the reader theorems (C97-C115) with the parser theorems (C77-C88): the store is a concatenation of the objects' contributions, so the elements of the network regroup by object | proved: `C124_lines` |
| C125 | Buses from the file to the network | GlmReader, ThreePhase | SpecFile | FileNet, FileElems, FileUnits, FileBuses, FileTap, FileWitness, FileWitness2 | composition of the reader theorems (C97-C115) with the parser theorems (C77-C88): the store is a concatenation of the objects' contributions, so the elements of the network regroup by object | proved: `C125_buses`, `C125_kinds`, `C125_differ` |
| C126 | Sources from the file to the network | GlmReader, ThreePhase | SpecFile | FileNet, FileElems, FileUnits, FileBuses, FileTap, FileWitness, FileWitness2 | composition of the reader theorems (C97-C115) with the parser theorems (C77-C88): the store is a concatenation of the objects' contributions, so the elements of the network regroup by object | proved: `C126_sources` |
| C127 | RAW: the fields of a line | RawText | SpecRawText | RawKeyProofs, RawFieldProofs, RawCsvProofs, RawRecordProofs, RawRecordProofs2, RawRecordProofs3, RawRecordProofs4, RawRecordProofs5, RawLoopProofs, RawBodyProofs, RawCaseProofs, RawFileProofs, RawTextWitness, RawTextWitness2 | column layouts as data; each reading function equivalent to its layout; the section loops equivalent to a grammar by induction over the rows; last-write-wins tables sorted by key; then C74 | proved: `C127_fields_read`, `C127_fields_trimmed` |
| C128 | RAW: records of one row | RawText | SpecRawText | RawKeyProofs, RawFieldProofs, RawCsvProofs, RawRecordProofs, RawRecordProofs2, RawRecordProofs3, RawRecordProofs4, RawRecordProofs5, RawLoopProofs, RawBodyProofs, RawCaseProofs, RawFileProofs, RawTextWitness, RawTextWitness2 | column layouts as data; each reading function equivalent to its layout; the section loops equivalent to a grammar by induction over the rows; last-write-wins tables sorted by key; then C74 | proved: `C128_bus`, `C128_load`, `C128_fixed_shunt`, `C128_generator`, `C128_short_generator`, `C128_branch`, `C128_switched_shunt` |
| C129 | RAW: transformer records | RawText | SpecRawText | RawKeyProofs, RawFieldProofs, RawCsvProofs, RawRecordProofs, RawRecordProofs2, RawRecordProofs3, RawRecordProofs4, RawRecordProofs5, RawLoopProofs, RawBodyProofs, RawCaseProofs, RawFileProofs, RawTextWitness, RawTextWitness2 | column layouts as data; each reading function equivalent to its layout; the section loops equivalent to a grammar by induction over the rows; last-write-wins tables sorted by key; then C74 | proved: `C129_two_windings`, `C129_three_windings` |
| C130 | RAW: which files are accepted, and as what | RawText | SpecRawText | RawKeyProofs, RawFieldProofs, RawCsvProofs, RawRecordProofs, RawRecordProofs2, RawRecordProofs3, RawRecordProofs4, RawRecordProofs5, RawLoopProofs, RawBodyProofs, RawCaseProofs, RawFileProofs, RawTextWitness, RawTextWitness2 | column layouts as data; each reading function equivalent to its layout; the section loops equivalent to a grammar by induction over the rows; last-write-wins tables sorted by key; then C74 | proved: `C130_file_read` |
| C131 | RAW: the order of records does not matter | RawText | SpecRawText | RawKeyProofs, RawFieldProofs, RawCsvProofs, RawRecordProofs, RawRecordProofs2, RawRecordProofs3, RawRecordProofs4, RawRecordProofs5, RawLoopProofs, RawBodyProofs, RawCaseProofs, RawFileProofs, RawTextWitness, RawTextWitness2 | column layouts as data; each reading function equivalent to its layout; the section loops equivalent to a grammar by induction over the rows; last-write-wins tables sorted by key; then C74 | proved: `C131_order_irrelevant` |
| C132 | RAW: a cut-off file is never misread | RawText | SpecRawText | RawKeyProofs, RawFieldProofs, RawCsvProofs, RawRecordProofs, RawRecordProofs2, RawRecordProofs3, RawRecordProofs4, RawRecordProofs5, RawLoopProofs, RawBodyProofs, RawCaseProofs, RawFileProofs, RawTextWitness, RawTextWitness2 | column layouts as data; each reading function equivalent to its layout; the section loops equivalent to a grammar by induction over the rows; last-write-wins tables sorted by key; then C74 | proved: `C132_longer_file` |
| C133 | RAW: the network of a file | RawText | SpecRawText | RawKeyProofs, RawFieldProofs, RawCsvProofs, RawRecordProofs, RawRecordProofs2, RawRecordProofs3, RawRecordProofs4, RawRecordProofs5, RawLoopProofs, RawBodyProofs, RawCaseProofs, RawFileProofs, RawTextWitness, RawTextWitness2 | column layouts as data; each reading function equivalent to its layout; the section loops equivalent to a grammar by induction over the rows; last-write-wins tables sorted by key; then C74 | proved: `C133_network`, `C133_bus_numbers`, `C133_slack_buses` |
| C134 | RAW: short generator rows | RawText | SpecRawText | RawKeyProofs, RawFieldProofs, RawCsvProofs, RawRecordProofs, RawRecordProofs2, RawRecordProofs3, RawRecordProofs4, RawRecordProofs5, RawLoopProofs, RawBodyProofs, RawCaseProofs, RawFileProofs, RawTextWitness, RawTextWitness2 | column layouts as data; each reading function equivalent to its layout; the section loops equivalent to a grammar by induction over the rows; last-write-wins tables sorted by key; then C74 | proved: `C134_refused`, `C134_dropped` |
| C135 | Cables: shunt admittance | Cables | SpecCables | ShuntProofs, ChargeProofs, RingProofs, CableZProofs, CableFinal, CableWitness | loops over cells as folds whose last write wins give every entry of the primitive tables; unique positive k-th roots; Kron reduction as in C103; inverse of a symmetric matrix is symmetric | proved: `C135_shunt`, `C135_accepted`, `C135_capacitive` |
| C136 | Cables: series impedance | Cables | SpecCables | ShuntProofs, ChargeProofs, RingProofs, CableZProofs, CableFinal, CableWitness | loops over cells as folds whose last write wins give every entry of the primitive tables; unique positive k-th roots; Kron reduction as in C103; inverse of a symmetric matrix is symmetric | proved: `C136_cables`, `C136_primitive` |
| C137 | Overhead lines: shunt admittance | Cables | SpecCables | ShuntProofs, ChargeProofs, RingProofs, CableZProofs, CableFinal, CableWitness | loops over cells as folds whose last write wins give every entry of the primitive tables; unique positive k-th roots; Kron reduction as in C103; inverse of a symmetric matrix is symmetric | proved: `C137_charging`, `C137_level_phases`, `C137_phase_to_neutral`, `C137_uneven_phases`, `C137_neutral_to_phase`, `C137_inches`, `C137_no_diameter`, `C137_no_heights` |
| C138 | Underground lines: from the file to the store | GlmReader, Cables | SpecCableFile | CableKeep, CableWires, CableTurns, CableFile, CableFileWitness | as for C110: state of every object at the turn of the line by induction over the objects before it, then C135 and C136 | proved: `C138_underground`, `C138_units_once_refuted` |
| C139 | Overhead lines: shunt admittance from the file to the store | GlmReader, Cables | SpecChargeFile | ChargeFile, ChargeFileWitness | state at the turn of the line as in C110; the spacing table by its ten pairs; then C137 | proved: `C139_charging` |
| C140 | Network loader: where the file comes from and which parser reads it | Loader | SpecLoader | LoaderProofs, LoaderWitness | case analysis; substring test = existence of a decomposition; last part of an address by induction | proved: `C140_gridlab`, `C140_raw`, `C140_unknown`, `C140_web`, `C140_elsewhere`, `C140_directory_refuted` |
| C141 | From GridLAB-D text to network | Loader, GlmText, GlmReader, ThreePhase | SpecLoader, SpecGlm, SpecFile | LoaderProofs, LoaderNet, LoaderWitness | the reader's state after a described text is a function of the description (C90); stored objects stand for the described ones; then C116-C126 | proved: `C141_layout`, `C141_text`, `C141_network` |
| C142 | Whole network: the equations are the circuit laws and Kirchhoff's current law | Network, Components, UnbalancedLine | SpecKirchhoff | KirchhoffProofs, KirchhoffNet, KirchhoffWitness | for every kind of element the rows its stampers write are its currents spread over its buses plus its own laws; sum over the elements by induction with a moving index; bus indexes are disjoint (C42); conversely a vector is read off the voltages and currents | proved: `C142_rows`, `C142_realised`, `C142_sound`, `C142_complete`, `C142_within` |
| C143 | Whole network: building, residuals, matrix and success of a power flow | NetStamper, Network, Stamper, Solver, Homotopy | SpecNetStamper, SpecKirchhoff | NetStamperProofs, NetStamperNet, NetDefined, NetRun, NetStart, NetStamperWitness | a boolean test for the conditions of C13-C25 computed once for every segment and every pattern of grounded ends; then C13, C61, C23 and C142 for the whole list; lengths by induction over the Newton loop; first iteration evaluated for an accepted start | proved: `C143_builds`, `C143_residuals`, `C143_jacobian`, `C143_success`, `C143_start_accepted`, `C143_physical_found`, `C143_grounded_refuted` |
| C144 | PowerFlow.execute as a whole | PowerFlow, NetStamper, Devices, Graph, Homotopy, Solver, Network | SpecPowerFlow, SpecKirchhoff, SpecGraph | PowerFlowProofs, PowerFlowGraph, PowerFlowDevices, PowerFlowRun, PowerFlowWitness | indexes do not depend on capacitor switches, so the last homotopy run is C143 on the switched network; the edges of the graph are the joins of the elements; the device loop ends only when no device acts; solves counted through the three loops | proved: `C144_islands`, `C144_network`, `C144_success`, `C144_devices`, `C144_work` |
| C145 | What the parsers make fits the solver | SolverNet, ThreePhase, RawParser, Network, PowerFlow | SpecSolverNet, SpecNetwork, SpecNetStamper, SpecPowerFlow | SolverNetProofs, SolverRawProofs, SolverNetFinal, SolverNetWitness | an invariant of the parser's state (every reference is a bus made before, numbers grow) kept by every step; inner buses are reached by no name that an element uses; RAW elements from C74 | proved: `C145_network`, `C145_lines`, `C145_lines_refuted`, `C145_raw`, `C145_start`, `C145_places`, `C145_inner`, `C145_inner_raw`, `C145_inner_refuted`, `C145_apart` |
| C146 | From a file to a result | SolverNet, Loader, PowerFlow | SpecKirchhoff, SpecPowerFlow, SpecSolverNet | SolverNetFinal, SolverNetWitness | C145 discharges the conditions of C144 | proved: `C146_success`, `C146_raw_pieces`, `C146_names_refuted`, `C146_glm_pieces`, `C146_glm_lines` |
| C147 | Whole network: infeasibility analysis solves the circuit laws with one more current per bus | Network, Components, NetStamper, PowerFlow, SolverNet | SpecNetInfeas, SpecKirchhoff | NetTwin, NetInfeasProofs, NetInfeasFinal, NetInfeasRun, NetInfeasWitness, NetInfeasRunWitness | the network with infeasibility currents is a twin of the plain one: every block of w unknowns becomes w unknowns and w multipliers; the multiplier rows of the twin are the rows of the original (per element, from the segments), then C142; zero multipliers make the other rows vanish | proved: `C147_rows`, `C147_sound`, `C147_zero`, `C147_complete`, `C147_within`, `C147_run` |
| C148 | Whole network: infeasibility analysis finds the least currents | Network, Components, UnbalancedLine | SpecNetLeast, SpecNetInfeas, SpecKirchhoff | NetLeastProofs, NetLeastFinal, NetLeastWitness, NetLeastStuck | rows of the unknowns are the adjoint of the rows of the multipliers (per segment from its bilinear Lagrangian, for matrices of lines by transposition); a competing state is realised as a vector (C142); pairing the difference of the two vectors with the rows gives an orthogonality, so Pythagoras | proved: `C148_least`, `C148_feasible`, `C148_power_refuted`, `C148_same` |
| C149 | Schedules of a GridLAB-D text | GlmText | SpecSchedule, SpecGlm | ScheduleProofs, ScheduleFinal, ScheduleWitness | effect of each kind of row while a schedule is open; induction over the body grammar with the brace count as depth; then over the file grammar together with the object rows of C90 | proved: `C149_schedules`, `C149_bad_cron`, `C149_own_brace`, `C149_named_block`, `C149_late_comment` |
| C150 | Whole network: power flow without constant power is solved from every start | Network, Components, NetStamper, Solver, Homotopy, PowerFlow | SpecNewton, SpecKirchhoff, SpecNetLeast | NewtonGauss, NewtonProofs, NewtonFinal, NewtonWitness | the derivatives of every segment that such a network uses contain no unknown (computed), so all stamps are linear and C20 applies to the network; the stamped system is then exact for the equations at every vector, hence regular; uniqueness gives the only voltages via C142, optimality via C148 | proved: `C150_found`, `C150_physical`, `C150_execute`, `C150_least` |
| C151 | The command as a whole: which circuit is solved and when it is always solved | Command, SolverNet, Loader, PowerFlow, TimeSeries | SpecCommand, SpecKirchhoff, SpecNewton | CommandProofs, CommandFinal, CommandWitness | the scaled network refers to the same buses, so C145 carries over; C67 reduces main to one power flow; then C144 and C150; without devices the device controller is one homotopy run | proved: `C151_plain`, `C151_power`, `C151_success`, `C151_linear` |
| C152 | Whole network: the powers of the elements balance | Network, Components, UnbalancedLine | SpecBalance, SpecKirchhoff, SpecNetInfeas | BalanceProofs, BalanceFinal, BalanceWitness | per element the sum of voltage times conjugate current from its laws (ideal transformers cancel); Tellegen by induction over the currents with distinct buses; partition of the account into sources, demands and carriers; the antisymmetric part of a symmetric matrix form vanishes by swapping the sums | proved: `C152_account`, `C152_balance`, `C152_losses`, `C152_slack`, `C152_solved`, `C152_deficit`, `C152_mismatch` |
| C153 | Result files say what was computed | Output, Results | SpecOutput | OutputProofs, OutputWitness | digits by induction on the number of digits; rounding from the integer part; splitting a text undoes joining pieces without the separator; path names are equal only for equal hours because a decimal text has one value | proved: `C153_voltages`, `C153_powers`, `C153_failed`, `C153_files`, `C153_series`, `C153_numbers` |
| C154 | From the case file to the result files | Report, Command, Output, TimeSeries | SpecReport, SpecOutput, SpecCommand | ReportProofs, ReportFinal, ReportWitness | the indexes of the buses do not depend on loads and devices; C153 for the texts, C151 for the run; the scaled network is determined by the case; the hours that returned are a prefix of the range, by induction over the hours; names of files of hours and of plain files differ in the character after the underscore | proved: `C154_plain`, `C154_linear`, `C154_series`, `C154_broken` |
| C155 | The numbers of the power file add up to the losses | Report, Results, Output, Network | SpecColumn, SpecBalance, SpecOutput | ColumnProofs, ColumnFinal, ColumnFile, ColumnWitness | the rows read the indexes that the assignment gives to generators and slacks, which are those of the account of C142, by walking both lists in lockstep; then the power balance of C152; decimals by C153, their errors add up; the counterexample by C142 from a state of the feeder turned by a right angle | proved: `C155_rows`, `C155_near`, `C155_exact`, `C155_column_refuted`, `C155_file` |
| C156 | The circuit that is solved is the one the parsers read | SolverNet, ThreePhase, RawParser, Network, Loader | SpecParts, SpecKirchhoff | PartsProofs, PartsFinal, PartsFile, PartsWitness | the elements of the solver network and the parts of the parser correspond one to one in order; for each pair the possible currents and missed laws are the same in both directions, so accounts carry over; bus numbers of RAW files by the fact that they occur once (C145) | proved: `C156_three`, `C156_raw`, `C156_single`, `C156_raw_run`, `C156_kept_raw`, `C156_kept_three` |
| C157 | A reported success in the terms of the file | Command, SolverNet, PowerFlow, Network, Loader | SpecRun, SpecParts, SpecCommand | RunFinal, RunLinear, RunWitness | C151 gives the solver network with scaled loads and final switches; this network is rebuilt as the network of a changed copy of the parser records, to which C156 applies; accounts of fuses are carried over place by place | proved: `C157_three`, `C157_raw`, `C157_exact`, `C157_exact_raw` |
| C158 | A spacing with two places serves only the conductors it places | LineImpedance, GlmReader | SpecTwo, SpecLineZ, SpecReader2 | TwoProofs, TwoFile | the double loop as two folds over what the object gives for each pair; table and longest distance computed for the six pairs; induction over the conductors; rewriting of texts by earlier lines keeps the distances | proved: `C158_two`, `C158_heights`, `C158_file`, `C158_file_heights` |
| C159 | Which nominal voltages and which settings a power flow looks at | PowerFlow, Graph | SpecLevel, SpecPowerFlow | LevelProofs, LevelWitness | edges of the graph read back as elements of the network; the runs with two settings are the same term once the kind of the network is fixed; one induction-free step for the device loop | proved: `C159_levels`, `C159_accepted`, `C159_three`, `C159_one` |
| C160 | Options of the command line that change nothing | Command, TimeSeries | SpecOptions, SpecCommand | OptionsProofs, OptionsWitness | the attempt at a time series reduces to one power flow where there is nothing to simulate; induction over the hours with the adjustment settled at once | proved: `C160_ignored`, `C160_idle`, `C160_no_hours` |
| C161 | Selecting an island of a network from a file | IslandNet, Island, SolverNet, ThreePhase | SpecIslandNet, SpecIsland, SpecPowerFlow | IslandNetProofs, IslandNetWitness | the conditions of C48 follow from what the parser guarantees (C77-C88, C145); neighbours of the two models of the graph agree; C48 read through the numbering of the elements | proved: `C161_selected`, `C161_unknown`, `C161_no_loads` |
| C162 | Rows of sources and infeasibility currents in the results | Report, Results, SolverNet, Network | SpecRows, SpecNetInfeas | RowsProofs, RowsWitness | the buses shown are numbered as those of the solver; the unknowns a row reads are those of the stampers, by computation on each of them | proved: `C162_buses`, `C162_currents`, `C162_shortage_refuted` |

Properties whose natural reading is false of this code are stated as what is true, with a witness for the
failure; they are listed again in section 6.

## 5. Axioms per theorem

From `Print Assumptions` (also printed under each theorem by the build). Abbreviations:
F = `ClassicalDedekindReals.sig_forall_dec`, N = `ClassicalDedekindReals.sig_not_dec`,
E = `FunctionalExtensionality.functional_extensionality_dep`, C = `Classical_Prop.classic`;
all are axioms of the standard library.

* **F**: `C08_ground_is_zero`, `C41_switch`, `C48_island_selected`, `C48_unknown_name_fails`, `C48_grounded_dropped`, `C107_never_read`, `C128_bus`, `C128_load`, `C128_fixed_shunt`, `C128_generator`, `C128_short_generator`, `C128_branch`, `C128_switched_shunt`, `C145_places`, `C145_inner_raw`, `C156_kept_three`
* **E F**: `C10_correct_iff_surplus_cancels`, `C10_stale_entries_refuted`, `C12_residual_details_correct`, `C12_residual_details_defined`, `C16_witness_solver_is_exact`, `C18_bounded`, `C18_early_failure`, `C19_slope_is_least_squares`, `C21_limiting_result`, `C21_limiting_defined`, `C22_outside_band`, `C23_success`, `C23_failure`, `C23_at_most_102_runs`, `C23_network_bounded`, `C24_negative_factor`, `C28_tap_in_range_and_ratio`, `C28_change_and_report`, `C28_raises_iff`, `C31_impedance_power`, `C31_empty_load`, `C32_absorbs`, `C32_rejected_iff`, `C34_windings`, `C34_lossless`, `C36_series_cancels`, `C45_refused`, `C45_no_buses`, `C47_region_bound`, `C47_close_pass`, `C47_order_dependent`, `C47_other_phases`, `C49_compose`, `C49_totals`, `C49_demand`, `C49_scales_iff`, `C49_default_negates`, `C49_default_generates`, `C50_slack_iff`, `C50_slack_angle_zero`, `C50_transformer_iff`, `C50_center_tap`, `C50_center_tap_primary`, `C51_nonnegative`, `C51_zero_iff`, `C51_report_empty_iff`, `C51_displayed`, `C58_bounds`, `C58_later_blocks_ignored`, `C63_regulator_solved`, `C64_accepted`, `C64_one_phase`, `C64_true_inverse`, `C66_line_current_iff`, `C100_fractions_ignored`, `C103_kron`, `C104_symmetric`, `C106_table`, `C106_by_position`, `C106_matching`, `C129_two_windings`, `C129_three_windings`, `C130_file_read`, `C131_order_irrelevant`, `C132_longer_file`, `C134_refused`, `C134_dropped`, `C153_powers`, `C153_numbers`, `C156_kept_raw`, `C158_two`, `C158_heights`
* **E F N**: `C01_linearisation_reproduces_equation`, `C02_coefficient_is_partial_derivative`, `C02_no_foreign_entry`, `C03_trig_of_unknown_refuted`, `C04_linear_entry_constant`, `C05_two_terminal_rows`, `C05_ends_cancel`, `C07_segments`, `C08_element_contributions`, `C13_residual_is_Yv_minus_J`, `C16_success_does_not_certify_refuted`, `C17_success_certifies`, `C17_one_newton_step_away`, `C19_converged_run_discarded`, `C20_linear_two_iterations`, `C23_network_success`, `C25_first_linearisation`, `C25_next_run_linearised_at_old_start`, `C25_next_run_ignores_start`, `C26_returned_result`, `C26_settled_iff`, `C26_at_most_ten`, `C26_gives_up_iff`, `C26_no_control_single_run`, `C27_blows_iff_over_limit`, `C27_stays_blown`, `C27_history`, `C27_no_result_after_blowing`, `C29_wrong_direction`, `C29_lifetime`, `C30_load_currents`, `C30_load_currents`, `C32_pi_model`, `C33_transformer`, `C34_center_tap_rows`, `C35_line`, `C35_transformer`, `C35_center_tap`, `C35_shunts_vanish`, `C35_others_unchanged`, `C36_rows`, `C37_correct_iff_symmetric`, `C38_generator_current`, `C38_generator_voltage`, `C38_slack_voltage`, `C39_l2_minimal`, `C39_feasible`, `C40_l1_is_quadratic`, `C40_minimises_squares`, `C41_source_rows`, `C41_source_voltage`, `C42_indexes_exactly`, `C42_one_owner`, `C42_names_apart`, `C42_infeasibility_names_apart`, `C42_bus_indexes`, `C42_size`, `C42_all_take_part`, `C42_repeatable`, `C43_rows`, `C43_columns`, `C43_own_rows`, `C43_isolated_bus`, `C44_transmission`, `C44_imaginary_multiplier`, `C44_three_phase`, `C50_generator_drawn`, `C51_hides_any_size`, `C53_exit`, `C53_pass`, `C53_missing_phase`, `C53_can_loop_forever`, `C53_unknown_swing_bus`, `C54_flag_iff`, `C54_raises_iff`, `C54_voltage_band`, `C54_center_tap_rated`, `C54_quadrature_unseen`, `C54_any_overload_unseen`, `C56_star_sums`, `C56_star_ratios`, `C56_never_accepted`, `C57_silent_machines`, `C57_second_machine_refused`, `C57_second_machine_raises`, `C57_machine_and_shunt_refused`, `C61_matrix_is_jacobian`, `C61_newton_step`, `C62_shunt`, `C62_capacitor`, `C63_fuse_rows`, `C63_regulator_rows`, `C65_rows_are_gradient`, `C66_any_overload_unseen`, `C69_units`, `C69_magnetising`, `C70_power`, `C70_current_not_scaled`, `C70_admittance_ignored`, `C71_shunts`, `C72_one_per_bus`, `C72_power_base_100`, `C72_mixed_bases`, `C73_admittance`, `C73_line_shunt_refused`, `C73_zero_impedance_refused`, `C74_accepted_exactly`, `C74_every_acceptable_case`, `C74_one_network`, `C75_attached`, `C76_one_regulator_per_bus`, `C76_two_sources_on_slack`, `C77_transformers`, `C78_shunt`, `C78_shunt_wrong`, `C79_center_tap`, `C80_bus_numbers`, `C80_bus_origin`, `C81_node_bus`, `C81_same_bus`, `C81_parent_first`, `C81_start`, `C82_sources`, `C82_child_source`, `C82_always_bound`, `C83_frame`, `C83_unknown`, `C84_capacitors`, `C84_initial_voltage`, `C85_regulators`, `C85_accepted`, `C86_loads`, `C87_fuses`, `C87_switches`, `C87_fuse_open_ignored`, `C88_references`, `C88_lines`, `C133_network`, `C137_level_phases`, `C137_phase_to_neutral`, `C137_uneven_phases`, `C137_neutral_to_phase`, `C142_rows`, `C142_realised`, `C142_sound`, `C142_complete`, `C142_within`, `C143_builds`, `C143_residuals`, `C143_jacobian`, `C143_success`, `C143_start_accepted`, `C143_physical_found`, `C143_grounded_refuted`, `C144_islands`, `C144_network`, `C144_success`, `C144_devices`, `C144_work`, `C147_rows`, `C147_sound`, `C147_zero`, `C147_complete`, `C147_within`, `C148_least`, `C148_feasible`, `C148_power_refuted`, `C148_same`, `C150_found`, `C150_physical`, `C150_execute`, `C150_least`, `C151_power`, `C152_account`, `C152_balance`, `C152_losses`, `C152_slack`, `C152_solved`, `C152_deficit`, `C152_mismatch`, `C155_rows`, `C155_near`, `C155_exact`, `C155_column_refuted`, `C156_single`, `C159_levels`, `C159_accepted`, `C159_three`, `C159_one`, `C162_currents`, `C162_shortage_refuted`
* **C E F N**: `C52_magnitude_and_power_factor`, `C52_last_positive_decides`, `C52_zero_loses_power_factor`, `C52_negative_reverses`, `C52_columns`, `C55_shadowed_never_updated`, `C67_options_ignored`, `C67_no_options`, `C67_failed_hour_loses_series`, `C67_missing_phase_reported`, `C68_hours`, `C68_hours_independent`, `C98_store`, `C99_loads`, `C101_delta_between_phases`, `C102_objects_kept`, `C104_overhead`, `C104_neutral_without_wire`, `C104_phases`, `C105_triplex`, `C105_neutral_without_wire`, `C105_phases`, `C106_wrong_distance_refuted`, `C107_fails`, `C107_zero`, `C108_length`, `C109_later_use`, `C109_units_once_refuted`, `C110_overhead`, `C111_triplex`, `C112_inherits`, `C113_transformer`, `C113_tap_coils_refuted`, `C114_regulator`, `C115_voltage`, `C115_own_voltage_refuted`, `C116_fit`, `C117_fuses`, `C118_switches`, `C119_regulators`, `C120_transformers`, `C121_kilovolts`, `C122_loads`, `C123_capacitors`, `C124_lines`, `C125_buses`, `C125_kinds`, `C125_differ`, `C126_sources`, `C135_shunt`, `C135_accepted`, `C135_capacitive`, `C136_cables`, `C136_primitive`, `C137_charging`, `C137_inches`, `C137_no_diameter`, `C137_no_heights`, `C138_underground`, `C138_units_once_refuted`, `C139_charging`, `C140_gridlab`, `C140_raw`, `C140_unknown`, `C140_web`, `C140_elsewhere`, `C140_directory_refuted`, `C141_layout`, `C141_text`, `C141_network`, `C145_network`, `C145_lines`, `C145_lines_refuted`, `C145_raw`, `C145_start`, `C145_inner`, `C145_inner_refuted`, `C145_apart`, `C146_success`, `C146_raw_pieces`, `C146_names_refuted`, `C146_glm_pieces`, `C146_glm_lines`, `C147_run`, `C151_plain`, `C151_success`, `C151_linear`, `C153_voltages`, `C153_failed`, `C153_files`, `C153_series`, `C154_plain`, `C154_linear`, `C154_series`, `C154_broken`, `C155_file`, `C156_three`, `C156_raw`, `C156_raw_run`, `C157_three`, `C157_raw`, `C157_exact`, `C157_exact_raw`, `C158_file`, `C158_file_heights`, `C160_ignored`, `C160_idle`, `C160_no_hours`, `C161_selected`, `C161_unknown`, `C161_no_loads`, `C162_buses`
* **none (closed under the global context)**: `C04_nonlinear_entry_mentions_unknown`, `C06_accepted_iff_declared`, `C06_imaginary_from_unchecked`, `C07_batched_equals_per_element`, `C07_residuals_before_stamps`, `C09_reads_report_entries_in_use`, `C09_matrix_is_entries_in_use`, `C09_never_raises`, `C10_exact_surplus`, `C11_debug_never_stale`, `C11_debug_raises_iff_leftover`, `C14_cache_crash_tolerant`, `C14_answer_remembered`, `C14_survives_restart`, `C14_torn_write`, `C15_collision_returns_other_model`, `C45_one_island`, `C45_members`, `C46_names_only`, `C46_phase_unnoticed`, `C55_alphabetic_names`, `C55_numeric_names`, `C59_phase_list`, `C60_merge_adds`, `C60_merge_order_irrelevant`, `C89_debug_check`, `C89_off_by_default`, `C90_objects_read`, `C91_noise`, `C91_indentation`, `C91_trailing_comment`, `C92_unclosed_object`, `C93_nested_merged`, `C94_unit_dropped`, `C95_include`, `C95_missing`, `C96_unused_class`, `C96_unknown_class`, `C96_unknown_attribute`, `C96_nameless`, `C97_phases`, `C97_rejected`, `C127_fields_read`, `C127_fields_trimmed`, `C133_bus_numbers`, `C133_slack_buses`, `C149_schedules`, `C149_bad_cron`, `C149_own_brace`, `C149_named_block`, `C149_late_comment`

## 6. Findings

Behaviour of the code that a user would not expect; each is proved (or witnessed) by the theorems named.

Solver and stamping
* C03: derivatives of models with an unknown inside sin/cos are stamped wrongly.
* C06: an undeclared symbol in the imaginary "from" equation is not rejected.
* C07: an element with residuals but no stamps uses another element's inputs, or raises NameError.
* C10: outside debug mode old matrix entries survive when an iteration stamps fewer non-zeros.
* C15: the cache key is 40 bits of sha1; a collision silently returns another model's derivatives.
* C16/C13: the residual is evaluated at the previous iterate, so success does not certify the result.
* C19: the divergence test can discard a run that has converged.
* C22: limiting can move a voltage by more than the step limit.
* C24/C25: homotopy reports a negative factor; a step can start from a stale linearisation.
* C29: voltage-controlled capacitors switch in the wrong direction.

Components
* C33/C69: the magnetising shunt of transformers is computed but never stamped.
* C37: optimality rows of unbalanced lines are wrong for asymmetric matrices.
* C40: the L1 option solves a quadratic problem.
* C64: lines with a phase of zero impedance are always rejected (the code meant to handle them is dead); shunt conductance is dropped.

Network level
* C43: an isolated bus makes the system singular. C44: `get_Li_init` returns the wrong component.
* C46: the island check ignores phases; equal-named RAW buses are merged. C47: the voltage check depends on the order of a set and on one phase.
* C48: selecting an island drops grounded loads and capacitors and keeps open switches.
* C49: without `--load_factor` all loads are negated (default -1).
* C50, C54, C66: reported slack and transformer power and the rating checks can be wrong or miss overloads.
* C51: infeasibility totals can be 0 with arbitrarily large infeasibility currents.
* C52: a zero or negative magnitude in a load profile changes the power factor for good.
* C53: the adjustment loop may never end; a missing phase raises after partial booking; an unknown swing bus does nothing.
* C55/C86: load names are cut to their last token, so profiles may go to the wrong load.
* C67: failures of the time series run are replaced by a plain power flow. C68: without an end hour nothing is simulated.

RAW cases
* C56: every case with a three-winding transformer in service is refused (the star bus is looked up as -1).
* C57: machines on PQ buses are silently dropped; a second PV machine, or a machine and a continuous shunt, on one bus raise.
* C58: switched-shunt blocks after an empty one are ignored, so limits can exclude reachable values.
* C70: constant-current parts are not converted to per unit and constant-admittance parts are ignored.
* C72: extra machines at a slack bus are divided by the system base, the first by 100.
* C73: line shunts and zero impedances raise. C76: a continuous shunt on a slack bus gives a second source.
* C128: the test for the voltage limits of a bus compares a builtin function, so the limits are never read; GL and BL of a revision 30 bus never reach the network; with 27 columns the wind control mode of a machine is read from column F4; a revision 34 branch row has twelve ratings but transformer windings are still read with three.
* C129: a third bus left empty makes the transformer a three-winding one, which then swallows the next row.
* C130: an end row `0/` is not recognised; an empty line raises; of two records with one key the first is lost without notice; after a comment in the last sections the next row, even the end row, is passed over.
* C134: a single short generator row is dropped without notice.
* Further, seen in the text only: out-of-service records can still raise; an unknown revision is a NameError; tap limits are computed for CW=1 with a division by WINDV1; limits of wmod 2 are stored in unused attributes.

Three-phase (GridLAB-D) cases
* C59: a delta winding with a single phase has both ends of its coil on one bus.
* C78: the magnetising shunt conversion is inverted.
* C81: a parent that comes after its child is a KeyError.
* C82: a child swing node takes the set point of whichever bus was created last.
* C84: a capacitor resets the initial voltage of its bus.
* C87: open flags of fuses are ignored.
* C92: `} // comment` (blank before the comment) loses that object and every later one.  C93: nested objects overwrite the outer object.
* C94: units behind a blank are dropped; the repository's own `test/data/three_phase/case_300/node.glm` has `length 1 mile` (read as one foot) and `nominal_voltage 66.395 kV` (read as 66 V).
* C95: included objects come last and nested includes are ignored.
* C97: bars inside the phases text become phases. C99: an incomplete ZIP specification and an unknown schedule silently drop the load.
* C100: ZIP fractions are ignored. C101: a delta load given between phases makes the network unloadable.
* C104/C105: N in the phases without a neutral conductor raises (singular matrix). C106: distances are matched to conductors by position, so a spacing with more phases than the line gives wrong distances.
* C107: z11..z33 and c11..c33 of a line configuration are never used (the test for the attribute lacks the underscore), so such configurations raise or give zero impedances.
* C109: the converted texts are written back without their unit, so from the second line on a conductor in Ohm/km counts as ohms per mile.
* C112: a line without configuration silently takes the conductors of the previous configured line.
* C113: with a kV unit the third coil of a center-tapped transformer gets -0.12 V next to the 120 V of the second.  `remove_nonnum` also drops signs and exponents.
* C115: a child node overwrites the nominal voltage of its parent, even with None; the bus creation then fails or uses the child's voltage.
* C117: whatever a file says about blown or open fuses, every fuse of the network is GOOD.  C119: a regulator on fewer than three phases cannot be loaded.  C120: a transformer without configuration makes loading fail.
* C121: the center taps of C113 end up with a third coil whose admittance is 10^6 times that of the second.
* C136: the strand count of the last cable is used for the distances between conductors and the neutrals of all cables; a configuration with a neutral only raises UnboundLocalError.
* C137: `S[i, j]` of an overhead line uses the height of the row's wire only, so the potential matrix of wires at unequal heights is not symmetric; in the neutral's row the distance between phase and neutral is read off the diagonal (0), giving twice the neutral's height for every phase.  The radius is in inches and the distances in feet.  Absent distances (-1) are used as numbers: heights of -1 count as one foot, and a negative quotient has a complex logarithm.
* C135/C137: the shunt matrix follows the wires of the configuration (always 3 x 3 for cables), the impedance matrix of overhead lines the phases of the line.
* C138: as in C109 a cable resistance in Ohm/km is converted once only.  A distance given as 0 is replaced by the mean outer diameter, in inches, of two wires picked by the place's index modulo the number of wires.  If any wire, even the neutral, has no outer diameter, the spacing is skipped and the distances of the previous line are used.  A single cable whose spacing gives no distance for its phase raises IndexError.
* C139: a conductor without diameter silently counts as half an inch thick; no heights in the spacing silently mean one foot.
* C140: the format is recognised by `".glm" in path`, so a RAW file below a directory whose name contains `.glm` is parsed as GridLAB-D and, having no `object` rows, loads without error as a network without buses; `.raw` and `.GLM` are refused.  A download is stored under the last part of its address in the shared temporary directory, replacing whatever file had that name.
* C141: included files are looked up relative to the working directory, not to the including file, and `#include` inside an included file is ignored.
* C143: a center tapped transformer whose inner nodes are all grounded, or an unbalanced line with a grounded end, has residuals without matrix entries, which are then computed by whichever builder stamped last; if a center tapped transformer like this is the first element, there is none and building fails with NameError.  The vector returned after a success is not the vector that was found to be within the tolerance, but the linear solver's next answer, whose residuals nobody looked at.
* C144: the island check counts an open capacitor as a connection; the check is not repeated after devices were switched.  The controlled quantities are checked at the returned vector, the circuit laws only at the vector before it.  A blown fuse is reported as an exception, not as a result.
* C145: a line (not a fuse or switch) to a node that lacks one of its phases is accepted by the parser and fails only when the power flow asks for the line's nodes, with a KeyError that names neither.  Inner buses are entered into the same table of names as nodes: with a fuse, regulator or transformer named so that the inner name equals a node's, later elements are attached inside the device and the node floats, while the graph, which goes by name, still counts it as connected.
* C146: the place of a RAW bus in the graph is its 12-character name, not its number; buses with equal (or blank) names are merged, so islands and voltage mismatches between them go unnoticed.
* C148: with constant power loads the equations of the infeasibility analysis are only stationarity conditions: a feeder that can supply its load (far voltage 1/5 or 4/5) also satisfies them at far voltage 2/5 with a reported current of 1/5, for both objectives.  The L1 objective also carries the squares of its currents (C39), so both objectives report the same currents; L1 is not sparser.
* C149: braces inside a schedule are counted only at the beginning (opening) or end (closing) of a row, so `weekdays {` is not counted and its `}` ends the schedule; a schedule whose `{` stands on its own row is counted twice and stays open: the next schedules are merged into it, and the rows of following objects are also tested for cron expressions until a closing brace is met.  `0.5; // note` is read as the value `0.5;`, on which the load parser later fails.  A schedule written on one row is opened and never closed.
* C150: the iteration that finds the exact solution of a linear network is not the one that accepts it: residuals are evaluated at the vector before (C17), so one more system is solved although the first answer is exact.
* C151: `--verbose` makes the plain path of the command fail: `PowerFlowResults.display(verbose=True)` asks for `len(self.residuals)`, and a `ResidualDetails` has no length; the TypeError is not caught, so with `--verbose --outputfile x` no result file is written.  (Read off powerflowresults.py:201-203 and residualdetails.py; printing is not modelled.)  A missing load file is reported by a printed line only, and the power flow of the unmodified case is reported as the result.
* C153: the power file heads its columns P(MW) and Q(MVar), but the numbers are those of the components: per unit on 100 MVA in a RAW case (a load of 40 MW is written as 0.40) and W and VAr in a GridLAB-D case.  Its first column is the bus number for generators and the node name for loads, so two phases of a node cannot be told apart.  Names are not quoted.  With --artificialswingbus and no load file nothing is written at all: main returns after printing (`run_solver.py:85-88`).
* C154: if a power flow of a time series raises, main prints the message, solves once more with the loads as the failed hour left them, and writes x_voltage.csv and x_power.csv as if no series had been asked for; the files of the hours before stay.  The exit code is that of a success.
* C155: the P and Q columns of a slack in the power file are Re V * Re I and Im V * Im I, neither active nor reactive power unless the slack is at angle 0.  Their sum is the active power (and the reactive power is not in the file).  In three-phase cases the slacks of phases B and C stand at -120 and 120 degrees, so the P column of the file does not balance.
* C156: between parser and solver nothing of the circuit is lost except the magnetising branches of transformers (`transformer.py:156-157`, commented out; centre-tapped transformers store and never use them), so the no-load losses of a GridLAB-D case are missing from all results.
* C161: `--select_island` drops every capacitor and every load between a phase and ground, because GROUND is not among the buses of the network; on a feeder with wye loads only, the selected island carries no load at all.
* C162: the L2 infeasibility current is counted as drawn from its bus, the L1 current (plus - minus) as fed in, but the report treats both alike and replaces negative powers by 0.  With L2, which is what `--infeasibility` uses, a bus that lacks supply is therefore reported with P = 0 and does not count in the totals.
